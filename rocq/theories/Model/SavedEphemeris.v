(** Saving a generated ephemeris and reading an ephemeris file: the writer at
    the end of the ephemeris generator and the external ephemeris reader.
    Paths are relative to /repo/src/sorcha. *)
From Coq Require Import String Ascii List Arith ZArith Bool.
From Verif Require Import Base.Prelude Base.Frame Model.Csv Model.Readers.
Import ListNotations.
Open Scope nat_scope.

(** Membership in a list of names, readers/EphemerisReader.py:169. *)
Definition mem_name (c : string) (l : list string) : bool := existsb (String.eqb c) l.

(** ephemeris/simulation_driver.py:135-159. *)
Definition column_names : list string :=
  ["ObjID"; "FieldID"; "fieldMJD_TAI"; "fieldJD_TDB"; "Range_LTC_km"; "RangeRate_LTC_km_s"; "RA_deg";
   "RARateCosDec_deg_day"; "Dec_deg"; "DecRate_deg_day"; "Obj_Sun_x_LTC_km"; "Obj_Sun_y_LTC_km";
   "Obj_Sun_z_LTC_km"; "Obj_Sun_vx_LTC_km_s"; "Obj_Sun_vy_LTC_km_s"; "Obj_Sun_vz_LTC_km_s"; "Obs_Sun_x_km";
   "Obs_Sun_y_km"; "Obs_Sun_z_km"; "Obs_Sun_vx_km_s"; "Obs_Sun_vy_km_s"; "Obs_Sun_vz_km_s"; "phase_deg"]%string.

(** readers/EphemerisReader.py:140-163. *)
Definition ephem_cols : list string :=
  ["ObjID"; "FieldID"; "fieldMJD_TAI"; "Range_LTC_km"; "RangeRate_LTC_km_s"; "RA_deg"; "RARateCosDec_deg_day";
   "Dec_deg"; "DecRate_deg_day"; "Obj_Sun_x_LTC_km"; "Obj_Sun_y_LTC_km"; "Obj_Sun_z_LTC_km";
   "Obj_Sun_vx_LTC_km_s"; "Obj_Sun_vy_LTC_km_s"; "Obj_Sun_vz_LTC_km_s"; "Obs_Sun_x_km"; "Obs_Sun_y_km";
   "Obs_Sun_z_km"; "Obs_Sun_vx_km_s"; "Obs_Sun_vy_km_s"; "Obs_Sun_vz_km_s"; "phase_deg"]%string.
(** readers/EphemerisReader.py:165. *)
Definition optional_cols : list string := ["fieldJD_TDB"%string].

(** ** The file formats *)

(** What a format name stands for on both sides. *)
Inductive format := Text (sp : sep) | Hdf.

(** ephemeris/simulation_driver.py:363-371 with the extension of the file; no
    file is written for any other name. *)
Definition writer_format (eph_format output_format : string) : option (format * string) :=
  if String.eqb eph_format "csv" then Some (Text Comma, ".csv"%string)
  else if String.eqb eph_format "whitespace" then Some (Text Whitespace, ".csv"%string)
  else if String.eqb eph_format "hdf5" || String.eqb output_format "h5" then Some (Hdf, ".h5"%string)
  else None.

(** readers/EphemerisReader.py:38-48. *)
Definition reader_format (inputformat : string) : result format :=
  if String.eqb inputformat "whitespace" then Ok (Text Whitespace)
  else if String.eqb inputformat "comma" || String.eqb inputformat "csv" then Ok (Text Comma)
  else if String.eqb inputformat "h5" || String.eqb inputformat "hdf5" || String.eqb inputformat "HDF5" then Ok Hdf
  else Err SysExit.

(** ** Writing *)

(** The separator of ephemeris/simulation_driver.py:365 and 368. *)
Definition separator (sp : sep) : string := match sp with Comma => ","%string | Whitespace => " "%string end.
(** One line of [to_csv], modules/PPOutput.py:34-36.  The cells are given as
    they are printed, a missing value is the empty cell.  Quoting is not
    modelled: a cell with a separator, a quotation mark or a line end is
    written between quotation marks. *)
Definition csv_line (sp : sep) (cells : list string) : string := String.concat (separator sp) cells.

(** modules/PPOutput.py:34-36 for a table with the columns of the generator;
    [None] is a missing file. *)
Definition write_text (sp : sep) (rows : list (list string)) (f : option (list string)) : option (list string) :=
  let body := map (csv_line sp) rows in
  match f with
  | None => Some (csv_line sp column_names :: body)
  | Some old => Some (old ++ body)
  end.
(** The rounds of a run one after the other, ephemeris/simulation_driver.py:228-230
    called from sorcha.py:224 and des.py:215. *)
Fixpoint write_texts (sp : sep) (chunks : list (list (list string))) (f : option (list string)) : option (list string) :=
  match chunks with
  | [] => f
  | rows :: rest => write_texts sp rest (write_text sp rows f)
  end.

Section Hdf5.
(** The columns other than the identifier. *)
Variable A : Type.

(** The table under the key of modules/PPOutput.py:71: the width of the
    identifier column, fixed by the first table that is stored, and the rows
    with the index labels they had. *)
Record store := { st_width : nat; st_rows : frame (string * A) }.

(** The width that a column of names needs, modules/PPOutput.py:71. *)
Definition longest (names : list string) : nat := fold_right Nat.max 0 (map String.length names).

(** modules/PPOutput.py:64-72, [store.append(format="t")].  A table without
    rows is not stored at all; the labels of the appended rows are kept, and
    the table that ephemeris/simulation_driver.py:225 read has the labels 0, 1, ...;
    a name that is longer than the column is a ValueError.  [None]: nothing is
    stored yet.  Only the identifier is treated as text. *)
Definition write_hdf5 (rows : list (string * A)) (f : option store) : result (option store) :=
  match rows with
  | [] => Ok f
  | _ =>
      match f with
      | None => Ok (Some {| st_width := longest (map fst rows); st_rows := of_rows rows |})
      | Some t =>
          if longest (map fst rows) <=? st_width t
          then Ok (Some {| st_width := st_width t; st_rows := st_rows t ++ of_rows rows |})
          else Err ValueError
      end
  end.
(** The rounds of a run, as [write_texts]; ephemeris/simulation_driver.py:371. *)
Fixpoint write_hdf5s (chunks : list (list (string * A))) (f : option store) : result (option store) :=
  match chunks with
  | [] => Ok f
  | rows :: rest => rbind (write_hdf5 rows f) (write_hdf5s rest)
  end.
End Hdf5.
Arguments st_width {A}. Arguments st_rows {A}. Arguments write_hdf5 {A}. Arguments write_hdf5s {A}.

(** ** Reading *)

(** Leading blanks of [x.strip()], readers/EphemerisReader.py:137. *)
Fixpoint lstrip (l : list ascii) : list ascii :=
  match l with
  | [] => []
  | c :: r => if py_space c then lstrip r else l
  end.
(** [x.strip()], readers/EphemerisReader.py:137 and CSVReader.py:309. *)
Definition strip (s : string) : string :=
  string_of_list_ascii (rev (lstrip (rev (lstrip (list_ascii_of_string s))))).

(** The comparison of sets of names, readers/EphemerisReader.py:167. *)
Definition same_names (a b : list string) : bool :=
  forallb (fun c => mem_name c b) a && forallb (fun c => mem_name c a) b.

(** The value of a row under a heading, readers/EphemerisReader.py:179. *)
Definition cell (cols cells : list string) (c : string) : string :=
  match index_of c cols with Some k => nth k cells EmptyString | None => EmptyString end.

(** readers/EphemerisReader.py:109-179.  Headings are assumed to be distinct
    once the blanks around them are gone.  The two dropped columns stay in the
    rows of the model, where no heading of [ephem_cols] finds them. *)
Definition process_ephemeris (t : table) : result table :=
  let cols := map strip (t_cols t) in
  let kept := filter (fun c => negb (mem_name c ["V"; "V(H=0)"]%string)) cols in
  if negb (same_names kept ephem_cols)
     && existsb (fun c => negb (mem_name c ephem_cols) && negb (mem_name c optional_cols)) kept
  then Err SysExit
  else if forallb (fun c => mem_name c kept) ephem_cols
  then Ok {| t_cols := ephem_cols;
             t_rows := map (fun r => (fst r, map (cell cols (snd r)) ephem_cols)) (t_rows t) |}
  else Err KeyError.

(** [EphemerisDataReader.read_objects] on a text file:
    readers/ObjectDataReader.py:125-126 around EphemerisReader.py:106-107 and
    109-179. *)
Definition read_ephemeris (infer : list string -> list string) (sp : sep) (h : nat) (lines : list string)
  (wanted : list string) : result table :=
  rbind (csv_read_objects infer sp h lines wanted) process_ephemeris.

(** The same on an HDF5 file, whose columns are those that were written:
    readers/EphemerisReader.py:106-107 with HDF5Reader.py:79-99. *)
Definition read_ephemeris_hdf5 {A} (t : store A) (wanted : list string) : list (string * A) :=
  rows (hdf_read_objects (st_rows t) wanted).
