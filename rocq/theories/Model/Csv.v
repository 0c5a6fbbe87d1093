(** The text-file reader: readers/CSVReader.py, together with the parts of
    pandas.read_csv it relies on.  A file is the list of its lines without the
    line terminators; every line is assumed to be newline terminated.  Quoting,
    comments, rows with more cells than the header and non-ASCII text are not
    modelled.  Paths are relative to /repo/src/sorcha. *)
From Coq Require Import String Ascii List Arith ZArith Bool.
From Verif Require Import Base.Prelude.
Import ListNotations.
Open Scope nat_scope.

(** The [sep] argument, readers/CSVReader.py:37-41; "csv" and "comma" are the
    same thing everywhere. *)
Inductive sep := Comma | Whitespace.

(** A character of a line that pandas.read_csv, called at
    readers/CSVReader.py:199-211, takes for blank. *)
Definition is_blank_char (c : ascii) : bool := (c =? " ")%char || (c =? "009")%char.
(** A line that pandas.read_csv skips (skip_blank_lines=True is the default):
    empty, or only spaces and tabs; readers/CSVReader.py:199-211, 222-234. *)
Definition blank (l : string) : bool := forallb is_blank_char (list_ascii_of_string l).

(** Python's [str.isspace] on ASCII characters, for readers/CSVReader.py:160. *)
Definition py_space (c : ascii) : bool :=
  let n := nat_of_ascii c in
  ((9 <=? n) && (n <=? 13)) || ((28 <=? n) && (n <=? 32)).
(** [line.isspace()] or an empty line, readers/CSVReader.py:160. *)
Definition isspace_line (l : string) : bool := forallb py_space (list_ascii_of_string l).

(** [s.split(",")], readers/CSVReader.py:112: always at least one cell. *)
Fixpoint split_on (p : ascii -> bool) (s : string) : list string :=
  match s with
  | EmptyString => [EmptyString]
  | String c s' =>
      if p c then EmptyString :: split_on p s'
      else match split_on p s' with
           | [] => [String c EmptyString]
           | w :: ws => String c w :: ws
           end
  end.
(** [header_line.split(",")], readers/CSVReader.py:112, and the cells of
    delimiter "," at 206-211. *)
Definition split_comma (s : string) : list string := split_on (fun c => (c =? ",")%char) s.
(** [s.split()], readers/CSVReader.py:114: maximal runs of non-space
    characters. *)
Definition split_ws (s : string) : list string :=
  filter (fun w => negb (String.eqb w EmptyString)) (split_on py_space s).
(** readers/CSVReader.py:111-114, and the delimiters of 198-211. *)
Definition split (sp : sep) (s : string) : list string :=
  match sp with Comma => split_comma s | Whitespace => split_ws s end.

(** The line end that the lines of readers/CSVReader.py:81 keep. *)
Definition newline : string := String "010" EmptyString.

(** readers/CSVReader.py:101-133, [_check_header_line].  The line still
    carries its newline when it is split. *)
Definition check_header_line (sp : sep) (line : string) : result unit :=
  let names := split sp (line ++ newline) in
  if length names <? 2 then Err SysExit
  else if existsb (String.eqb "ObjID") names then Ok tt else Err SysExit.

(** readers/CSVReader.py:61-99, [_find_and_validate_header_line].  [header] is
    -1 for the automatic search.  The loop gives up after looking at line 101. *)
Fixpoint find_header (sp : sep) (header : Z) (i : nat) (lines : list string) : result nat :=
  match lines with
  | [] => Err SysExit
  | line :: rest =>
      if ((0 <=? header)%Z && (header =? Z.of_nat i)%Z) || ((header <? 0)%Z && prefix "ObjID" line)
      then rmap (fun _ => i) (check_header_line sp line)
      else if 100 <? i then Err SysExit else find_header sp header (S i) rest
  end.

(** What the tokenizer of pandas.read_csv hands on: the lines that are neither
    skipped by [skiprows] (numbered by physical line) nor blank.  [skip i =
    None] is an IndexError raised by a [skiprows] callable; it is asked about
    every physical line, blank or not; readers/CSVReader.py:202, 209. *)
Fixpoint kept_lines (skip : nat -> option bool) (i : nat) (lines : list string) : result (list string) :=
  match lines with
  | [] => Ok []
  | l :: rest =>
      match skip i with
      | None => Err IndexError
      | Some s =>
          match kept_lines skip (S i) rest with
          | Err e => Err e
          | Ok k => Ok (if s || blank l then k else l :: k)
          end
      end
  end.

(** [pd.read_csv(file, skiprows=skip, header=h, nrows=n)]: the header is the
    h-th of the kept lines (blank and skipped lines are not counted), data is
    everything after it, at most n rows.  A missing header line is pandas'
    EmptyDataError, a ValueError; readers/CSVReader.py:198-211, 220-234. *)
Definition read_csv (skip : nat -> option bool) (h : nat) (n : option nat) (lines : list string)
  : result (string * list string) :=
  match kept_lines skip 0 lines with
  | Err e => Err e
  | Ok ls =>
      match skipn h ls with
      | [] => Err ValueError
      | hd :: data => Ok (hd, match n with Some k => firstn k data | None => data end)
      end
  end.

(** A table: column names and rows; a row is its object identifier and its raw
    cells.  [infer] is the effect of column type inference on the identifier
    column followed by [astype(str)] (ObjectDataReader.py:150). *)
Record table := { t_cols : list string; t_rows : list (string * list string) }.

(** Position of a column, for the ["ObjID"] of
    readers/ObjectDataReader.py:150. *)
Fixpoint index_of (x : string) (l : list string) : option nat :=
  match l with
  | [] => None
  | y :: r => if String.eqb x y then Some 0 else option_map S (index_of x r)
  end.

(** The cell under ObjID, readers/ObjectDataReader.py:150; missing cells are
    read as empty. *)
Definition raw_id (k : nat) (cells : list string) : string := nth k cells EmptyString.

(** Numbers in the identifier column: if every identifier of the block that is
    read looks like an integer, and all of them fit the same 64-bit type, pandas
    turns the column into int64 or uint64 and [astype(str)] prints it back
    without plus sign or leading zeros (readers/CSVReader.py:199-211,
    readers/ObjectDataReader.py:150).  Columns of floats, booleans and missing
    values, blanks around a number, and inference by parts of a very long file
    ([low_memory]) are not modelled. *)
Definition is_digit (c : ascii) : bool :=
  let n := nat_of_ascii c in (48 <=? n) && (n <=? 57).
(** Part of the column type inference of pandas.read_csv
    (readers/CSVReader.py:199-211). *)
Definition digits (s : string) : bool :=
  negb (String.eqb s EmptyString) && forallb is_digit (list_ascii_of_string s).
(** As [digits], with an optional sign (readers/CSVReader.py:199-211). *)
Definition looks_int (s : string) : bool :=
  match s with
  | String c r => if (c =? "-")%char || (c =? "+")%char then digits r else digits s
  | EmptyString => false
  end.
(** Leading zeros are lost in an int64 column (readers/CSVReader.py:199-211,
    ObjectDataReader.py:150). *)
Fixpoint strip_zeros (s : string) : string :=
  match s with
  | String c r =>
      match r with
      | EmptyString => s
      | _ => if (c =? "0")%char then strip_zeros r else s
      end
  | EmptyString => s
  end.
(** An integer as [astype(str)] prints it, readers/ObjectDataReader.py:150. *)
Definition canon_int (s : string) : string :=
  match s with
  | String c r =>
      if (c =? "+")%char then strip_zeros r
      else if (c =? "-")%char then
        (if String.eqb (strip_zeros r) "0" then "0" else String c (strip_zeros r))
      else strip_zeros s
  | EmptyString => s
  end.
(** The number a text that looks like an integer stands for
    (readers/CSVReader.py:199-211). *)
Definition digits_number (s : string) : Z :=
  fold_left (fun a c => 10 * a + (Z.of_nat (nat_of_ascii c) - 48))%Z (list_ascii_of_string s) 0%Z.
(** As [digits_number], with an optional sign (readers/CSVReader.py:199-211). *)
Definition text_number (s : string) : Z :=
  match s with
  | String c r =>
      if (c =? "-")%char then (- digits_number r)%Z
      else if (c =? "+")%char then digits_number r else digits_number s
  | EmptyString => 0%Z
  end.
(** What an int64 column can hold (readers/CSVReader.py:199-211). *)
Definition fits_int64 (s : string) : bool :=
  ((- 2 ^ 63 <=? text_number s) && (text_number s <? 2 ^ 63))%Z.
(** What pandas puts in a uint64 column, tried when int64 is too small: nothing
    written with a minus sign (readers/CSVReader.py:199-211). *)
Definition fits_uint64 (s : string) : bool :=
  negb (prefix "-" s) && (text_number s <? 2 ^ 64)%Z.
(** ObjectDataReader.py:148-150 on top of read_csv's inference; a column of
    integers too large for both types stays text. *)
Definition pandas_ids (l : list string) : list string :=
  if forallb looks_int l && (forallb fits_int64 l || forallb fits_uint64 l)
  then map canon_int l else l.

Section Reader.
Variable infer : list string -> list string.

(** read_csv's result as a table, then ObjectDataReader.py:190-197 (more than
    one column) and 134-157 ([_validate_object_id_column]). *)
Definition parse_table (sp : sep) (hd : string) (data : list string) : result table :=
  let cols := split sp hd in
  if length cols <=? 1 then Err SysExit
  else match index_of "ObjID" cols with
  | None => Err SysExit
  | Some k =>
      let cells := map (split sp) data in
      Ok {| t_cols := cols; t_rows := combine (infer (map (raw_id k) cells)) cells |}
  end.

(** readers/CSVReader.py:190-195. *)
Definition skip_block (h start : nat) (i : nat) : option bool :=
  Some ((i <? h) || ((S h <=? i) && (i <? S h + start))).

(** readers/CSVReader.py:166-213 followed by the validation of
    ObjectDataReader.py:91-92 (CSVReader.py:305-311 only strips spaces from the
    column names, which is left out). *)
Definition csv_read_rows (sp : sep) (h : nat) (lines : list string) (start : nat) (size : option nat)
  : result table :=
  rbind (read_csv (skip_block h start) 0 size lines) (fun p => parse_table sp (fst p) (snd p)).

(** readers/CSVReader.py:215-235, [_build_id_map]: [usecols=["ObjID"]] raises
    ValueError when the header line has no such column. *)
Definition csv_id_map (sp : sep) (h : nat) (lines : list string) : result (list string) :=
  rbind (read_csv (fun _ => Some false) h None lines) (fun p =>
    match index_of "ObjID" (split sp (fst p)) with
    | None => Err ValueError
    | Some k => Ok (infer (map (fun l => raw_id k (split sp l)) (snd p)))
    end).

(** readers/CSVReader.py:135-164, [_validate_csv]. *)
Definition validate_csv (h : nat) (lines : list string) : result unit :=
  if existsb isspace_line (skipn h lines) then Err SysExit else Ok tt.

(** readers/CSVReader.py:255-258: the flags handed to [skiprows]. *)
Definition skipped_row (h : nat) (ids wanted : list string) : list bool :=
  repeat true h ++ [false] ++ map (fun i => negb (existsb (String.eqb i) wanted)) ids.

(** readers/CSVReader.py:237-280 with the validation of ObjectDataReader.py:125-126. *)
Definition csv_read_objects (sp : sep) (h : nat) (lines : list string) (wanted : list string)
  : result table :=
  rbind (csv_id_map sp h lines) (fun ids =>
    match read_csv (fun i => nth_error (skipped_row h ids wanted) i) 0 None lines with
    | Ok p => parse_table sp (fst p) (snd p)
    | Err IndexError => rbind (validate_csv h lines) (fun _ => Err IndexError)
    | Err e => Err e
    end).
End Reader.

(** readers/CSVReader.py:15-48, the constructor: the header position, or an exit. *)
Definition csv_open (sp : sep) (header : Z) (lines : list string) : result nat :=
  find_header sp header 0 lines.
