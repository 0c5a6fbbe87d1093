(** sorcha outputs create-sqlite: utilities/createResultsSQLDatabase.py and
    src/sorcha_cmdline/outputs.py:8-28.  Paths are relative to /repo/src/sorcha;
    lines are those of utilities/createResultsSQLDatabase.py. *)
From Coq Require Import Ascii String List Arith Bool.
From Verif Require Import Base.Prelude Model.Files Model.Csv.
Import ListNotations.
Open Scope list_scope.
Open Scope nat_scope.

Section Create.
(** Values of result tables. *)
Variable V : Type.

(** ** The table of results *)

(** A table: column names and rows, lines 53 and 73-74. *)
Definition table := (list string * list (list V))%type.
(** What [glob] finds (line 45): another database with its table sorcha_results,
    if it has one, or the output database itself. *)
Inductive found := Other (t : option table) | Own.

(** Lines 158-182 for the first database found; [own] is the table that the
    output has so far.  [SELECT] from a table that is not there is an
    OperationalError. *)
Definition get_column_names (own : option table) (d : found) : result (list string) :=
  match (match d with Other t => t | Own => own end) with
  | Some (names, _) => Ok names
  | None => Err OperationalError
  end.
(** Lines 69-79: rows are inserted by position.  The output itself is read while the
    rows inserted so far are not committed, so it gives none (left out: when so many
    rows are waiting that SQLite locks the file, the output cannot be read). *)
Fixpoint insert_rows (names : list string) (l : list found) : result (list (list V)) :=
  match l with
  | [] => Ok []
  | Own :: l' => insert_rows names l'
  | Other None :: _ => Err OperationalError
  | Other (Some (_, rows)) :: l' =>
      if forallb (fun r => length r =? length names) rows
      then rmap (app rows) (insert_rows names l') else Err OperationalError
  end.
(** Lines 18-82: the table of the output afterwards and how it ended.  Dropping and
    creating the table (lines 56 and 63) take effect at once, inserted rows when
    they are committed (line 82).  Lines 47-48 compare with the directory of inputs (line 149),
    which is not among the databases: nothing is removed. *)
Definition create_results_table (own : option table) (l : list found) : option table * result unit :=
  match l with
  | [] => (own, Err SysExit)
  | d :: _ =>
      match get_column_names own d with
      | Err e => (own, Err e)
      | Ok names => match insert_rows names l with
                    | Ok rows => (Some (names, rows), Ok tt)
                    | Err e => (Some (names, []), Err e)
                    end
      end
  end.
End Create.

(** ** Tables of inputs *)

(** A file as its lines, line 116. *)
Definition lines := list string.
(** A table of cells; a cell can be missing, line 116. *)
Definition itable := (list string * list (list (option string)))%type.

(** A row of a file with [n] columns; cells at the end may be missing, line 116. *)
Definition cells (n : nat) (l : string) : list (option string) :=
  let c := split_ws l in map Some c ++ repeat None (n - length c).
(** [pd.read_csv(sep="\\s+")], line 116: blank lines are skipped; a row with more cells
    than the heading is an error.  Simplification: types are not inferred, names
    are not repeated, quotes mean nothing, and a first row that is longer is an
    error too (pandas then takes the first column as index). *)
Definition read_csv (f : lines) : result itable :=
  match filter (fun l => negb (isspace_line l)) f with
  | [] => Err ValueError
  | h :: rows =>
      let n := length (split_ws h) in
      if forallb (fun r => length (split_ws r) <=? n) rows
      then Ok (split_ws h, map (cells n) rows) else Err ValueError
  end.
(** Lines 118-119. *)
Definition rename (c : string) : string := if String.eqb c "INDEX" then "orig_index"%string else c.
(** The name under which [to_sql] (line 121) stores the row numbers. *)
Definition index_label (names : list string) : string :=
  if existsb (String.eqb "index") names then "level_0"%string else "index"%string.

(** Column names in SQLite (line 121): capitals A-Z are as good as small letters. *)
Definition name_char (c : ascii) : ascii :=
  let n := nat_of_ascii c in if (65 <=? n) && (n <=? 90) then ascii_of_nat (n + 32) else c.
(** Line 121. *)
Fixpoint name_key (s : string) : string :=
  match s with EmptyString => EmptyString | String c r => String (name_char c) (name_key r) end.
(** Line 121. *)
Definition same (c d : string) : bool := String.eqb (name_key c) (name_key d).
(** The column that SQLite takes for [c], line 121. *)
Fixpoint column_of (c : string) (names : list string) : option nat :=
  match names with
  | [] => None
  | d :: r => if same c d then Some 0 else option_map S (column_of c r)
  end.
(** No name twice, line 121. *)
Fixpoint distinct (names : list string) : bool :=
  match names with
  | [] => true
  | c :: r => negb (existsb (same c) r) && distinct r
  end.

Section Numbers.
(** Row numbers as stored, line 121. *)
Variable number : nat -> string.

(** Rows with their number in front, line 121. *)
Fixpoint numbered (i : nat) (rows : list (list (option string))) : list (list (option string)) :=
  match rows with
  | [] => []
  | r :: rs => (Some (number i) :: r) :: numbered (S i) rs
  end.
(** The value of column [c] in a row with columns [names], line 121. *)
Definition value (names : list string) (r : list (option string)) (c : string) : option string :=
  match column_of c names with Some k => nth k r None | None => None end.
(** [df.to_sql(if_exists="append")], line 121: rows are inserted by column name; a column
    that the table does not have is an OperationalError, and so is a table in which a
    name, or that of the row numbers, is there twice (simplification: also when the
    rows are added to a table; SQLite itself takes one of the values then). *)
Definition to_sql (t : itable) (old : option itable) : result itable :=
  let names := index_label (fst t) :: fst t in
  let rows := numbered 0 (snd t) in
  if negb (distinct names) then Err OperationalError else
  match old with
  | None => Ok (names, rows)
  | Some (have, before) =>
      if forallb (fun c => existsb (same c) have) names
      then Ok (have, before ++ map (fun r => map (value names r) have) rows) else Err OperationalError
  end.
(** The loop of lines 115-121. *)
Fixpoint add_files (l : list lines) (old : option itable) : option itable * result unit :=
  match l with
  | [] => (old, Ok tt)
  | f :: fs =>
      match rbind (read_csv f) (fun t => to_sql (map rename (fst t), snd t) old) with
      | Ok t => add_files fs (Some t)
      | Err e => (old, Err e)
      end
  end.
(** Lines 85-123.  [dir] is the directory of inputs in the order in which it is listed. *)
Definition create_inputs_table (dir : list (text * lines)) (type : text) (old : option itable) : option itable * result unit :=
  match map snd (filter (fun f => existsb (text_eqb (fst f)) (glob (type ++ txt "*") (map fst dir))) dir) with
  | [] => (old, Err SysExit)
  | l => add_files l None
  end.

(** The output database, line 142. *)
Record outdb (V : Type) := { results : option (table V); params : option itable; orbits : option itable; complex : option itable }.
Arguments results {V}. Arguments params {V}. Arguments orbits {V}. Arguments complex {V}.

(** Lines 126-155.  The directories are known to exist (src/sorcha_cmdline/outputs.py:25-26). *)
Definition create_results_database {V} (with_complex : bool) (l : list (found V)) (dir : list (text * lines)) (o : outdb V) : outdb V * result unit :=
  let (r, e1) := create_results_table V (results o) l in
  let o1 := {| results := r; params := params o; orbits := orbits o; complex := complex o |} in
  match e1 with
  | Err e => (o1, Err e)
  | Ok _ =>
      let (p, e2) := create_inputs_table dir (txt "params") (params o1) in
      let o2 := {| results := results o1; params := p; orbits := orbits o1; complex := complex o1 |} in
      match e2 with
      | Err e => (o2, Err e)
      | Ok _ =>
          let (b, e3) := create_inputs_table dir (txt "orbits") (orbits o2) in
          let o3 := {| results := results o2; params := params o2; orbits := b; complex := complex o2 |} in
          match e3 with
          | Err e => (o3, Err e)
          | Ok _ =>
              if with_complex then
                let (c, e4) := create_inputs_table dir (txt "complex") (complex o3) in
                ({| results := results o3; params := params o3; orbits := orbits o3; complex := c |}, e4)
              else (o3, Ok tt)
          end
      end
  end.
End Numbers.
Arguments Other {V} _.
Arguments Own {V}.
Arguments results {V} _. Arguments params {V} _. Arguments orbits {V} _. Arguments complex {V} _.
