(** Writing results: modules/PPOutput.py and modules/PPStats.py.  Paths are
    relative to /repo/src/sorcha. *)
From Coq Require Import String List Arith ZArith QArith Bool.
From Verif Require Import Base.Prelude Base.Num.
Import ListNotations.
Open Scope nat_scope.

(** A pandas table: its column names and, per row, the value under each name
    (only asked for names among the columns).  Column names are assumed to be
    distinct. *)
Record table (V : Type) := { t_names : list string; t_recs : list (string -> V) }.
Arguments t_names {V}. Arguments t_recs {V}.

(** Whether a table has a column, modules/PPOutput.py:199 and 218-223. *)
Definition mem (c : string) (l : list string) : bool := existsb (String.eqb c) l.

(** Configured output columns after validation
    (utilities/sorchaConfigs.py:745-748): the words "basic" and "all", or a
    list. *)
Inductive outcols := Basic | All | Columns (l : list string).

(** The configuration read by PPWriteOutput. *)
Record outcfg := {
  oc_columns : outcols;
  oc_pos : option nat;   (** position_decimals *)
  oc_mag : option nat;   (** magnitude_decimals *)
  oc_link_col : bool     (** ssp_linking_on and not drop_unlinked *) }.

(** modules/PPOutput.py:172-188. *)
Definition basic_columns : list string :=
  ["ObjID"; "fieldMJD_TAI"; "fieldRA_deg"; "fieldDec_deg"; "RA_deg"; "Dec_deg"; "astrometricSigma_deg";
   "optFilter"; "trailedSourceMag"; "trailedSourceMagSigma"; "fiveSigmaDepth_mag"; "phase_deg";
   "Range_LTC_km"; "RangeRate_LTC_km_s"; "Obj_Sun_LTC_km"]%string.
(** modules/PPOutput.py:209-217. *)
Definition position_columns : list string :=
  ["fieldRA_deg"; "fieldDec_deg"; "RA_deg"; "Dec_deg"; "astrometricSigma_deg"; "RATrue_deg"; "DecTrue_deg"]%string.
(** modules/PPOutput.py:226-235. *)
Definition magnitude_columns : list string :=
  ["PSFMag"; "trailedSourceMag"; "trailedSourceMagTrue"; "PSFMagTrue"; "PSFMagSigma"; "trailedSourceMagSigma";
   "fieldFiveSigmaDepth_mag"; "fiveSigmaDepth_mag"]%string.

(** [df[names]] with a list: KeyError when a name is missing. *)
Definition take_columns {V} (names : list string) (t : table V) : result (table V) :=
  if forallb (fun c => mem c (t_names t)) names
  then Ok {| t_names := names; t_recs := t_recs t |} else Err KeyError.

(** [df[c] = v]: replaces the column or adds it at the end. *)
Definition set_column {V} (c : string) (v : (string -> V) -> V) (t : table V) : table V :=
  {| t_names := if mem c (t_names t) then t_names t else t_names t ++ [c];
     t_recs := map (fun r d => if String.eqb d c then v r else r d) (t_recs t) |}.

Section Write.
Context {V : Type}.
(** [sqrt(x^2+y^2+z^2)] of lines 164-168, and [round(decimals=n)]. *)
Variable norm3 : V -> V -> V -> V.
Variable round : nat -> V -> V.

(** modules/PPOutput.py:164-168. *)
Definition add_distance (t : table V) : result (table V) :=
  if forallb (fun c => mem c (t_names t)) ["Obj_Sun_x_LTC_km"; "Obj_Sun_y_LTC_km"; "Obj_Sun_z_LTC_km"]%string
  then Ok (set_column "Obj_Sun_LTC_km"
     (fun r => norm3 (r "Obj_Sun_x_LTC_km") (r "Obj_Sun_y_LTC_km") (r "Obj_Sun_z_LTC_km"))%string t)
  else Err KeyError.

(** modules/PPOutput.py:170-206.  A list of at most one name leaves
    [observations] unbound. *)
Definition choose_columns (cfg : outcfg) (t : table V) : result (table V) :=
  match oc_columns cfg with
  | Basic =>
      (b <- take_columns basic_columns t ;;
       if oc_link_col cfg
       then if mem "object_linked" (t_names t)
            then Ok {| t_names := t_names b ++ ["object_linked"%string]; t_recs := t_recs b |}
            else Err KeyError
       else Ok b)%result
  | All => Ok t
  | Columns l =>
      if 1 <? length l
      then match take_columns l t with Ok b => Ok b | Err _ => Err SysExit end
      else Err NameError
  end.

(** Lines 208-223 and 225-241: nothing happens for None and for 0, missing
    columns are skipped. *)
Definition round_columns (dec : option nat) (which : list string) (t : table V) : table V :=
  match dec with
  | Some (S n) => fold_left (fun t c => if mem c (t_names t) then set_column c (fun r => round (S n) (r c)) t else t)
                    which t
  | _ => t
  end.

(** Lines 163-241. *)
Definition prepare (cfg : outcfg) (t : table V) : result (table V) :=
  (t1 <- add_distance t ;;
   t2 <- choose_columns cfg t1 ;;
   Ok (round_columns (oc_mag cfg) magnitude_columns (round_columns (oc_pos cfg) position_columns t2)))%result.

(** A CSV file: lines that are a header or a row of values. *)
Inductive line := Head (names : list string) | Data (vals : list V).

(** modules/PPOutput.py:34-36; [None] is a missing file. *)
Definition PPOutWriteCSV (t : table V) (f : option (list line)) : option (list line) :=
  let body := map (fun r => Data (map r (t_names t))) (t_recs t) in
  match f with
  | None => Some (Head (t_names t) :: body)
  | Some old => Some (old ++ body)
  end.

(** A SQLite file holding the results table. *)
Definition sqlfile := option (list string * list (list V)).

(** modules/PPOutput.py:99-103: [to_sql(if_exists="append")] inserts by column
    name and fails when the table lacks one of the columns.  Simplification:
    the columns have to be the same in the same order (they are, chunk after
    chunk of one run). *)
Definition PPOutWriteSqlite3 (t : table V) (f : sqlfile) : result sqlfile :=
  let names := filter (fun c => negb (String.eqb c "level_0")) (t_names t) in
  match f with
  | None => Ok (Some (names, map (fun r => map r names) (t_recs t)))
  | Some (old, rows) =>
      if list_eq_dec string_dec old names
      then Ok (Some (old, rows ++ map (fun r => map r names) (t_recs t)))
      else Err OperationalError
  end.

(** modules/PPOutput.py:126-132: an index on a missing column is refused. *)
Definition PPIndexSQLDatabase (f : sqlfile) : result unit :=
  match f with
  | None => Err OperationalError
  | Some (names, _) =>
      if mem "ObjID" names && mem "fieldMJD_TAI" names && mem "optFilter" names
      then Ok tt else Err OperationalError
  end.

(** modules/PPOutput.py:135-249 for the CSV format. *)
Definition PPWriteOutput_csv (cfg : outcfg) (t : table V) (f : option (list line)) : result (option (list line)) :=
  rmap (fun p => PPOutWriteCSV p f) (prepare cfg t).
(** modules/PPOutput.py:135-255 for SQLite. *)
Definition PPWriteOutput_sql (cfg : outcfg) (t : table V) (f : sqlfile) : result sqlfile :=
  rbind (prepare cfg t) (fun p => PPOutWriteSqlite3 p f).

(** The writes of consecutive chunks (sorcha.py:386). *)
Fixpoint csv_writes (cfg : outcfg) (chunks : list (table V)) (f : option (list line)) : result (option (list line)) :=
  match chunks with
  | [] => Ok f
  | t :: ts => rbind (PPWriteOutput_csv cfg t f) (csv_writes cfg ts)
  end.
(** As [csv_writes], for SQLite (sorcha.py:386). *)
Fixpoint sql_writes (cfg : outcfg) (chunks : list (table V)) (f : sqlfile) : result sqlfile :=
  match chunks with
  | [] => Ok f
  | t :: ts => rbind (PPWriteOutput_sql cfg t f) (sql_writes cfg ts)
  end.
(** sorcha.py:396-400 after the loop: index if the file exists. *)
Definition sql_run (cfg : outcfg) (chunks : list (table V)) : result sqlfile :=
  rbind (sql_writes cfg chunks None) (fun f =>
    match f with None => Ok None | Some _ => rmap (fun _ => f) (PPIndexSQLDatabase f) end).

(** CSV results and statistics of consecutive chunks in one directory
    (sorcha.py:386-388; modules/PPStats.py:34, 63-65 appends like
    PPOutWriteCSV).  Each pair holds the prepared results table and the
    statistics table of a chunk; names are without the common ".csv". *)
Definition write_file (n : string) (v : option (list line)) (fs : string -> option (list line)) (m : string) : option (list line) :=
  if String.eqb m n then v else fs m.
(** sorcha.py:386-388 for consecutive chunks. *)
Fixpoint write_chunks (out stats : string) (chunks : list (table V * table V)) (fs : string -> option (list line))
  : string -> option (list line) :=
  match chunks with
  | [] => fs
  | (t, st) :: l =>
      let fs1 := write_file out (PPOutWriteCSV t (fs out)) fs in
      write_chunks out stats l (write_file stats (PPOutWriteCSV st (fs1 stats)) fs1)
  end.
End Write.
Arguments line : clear implicits.
Arguments sqlfile : clear implicits.

(** ** modules/PPStats.py *)

(** Skipping NaN, as pandas aggregations do. *)
Definition numbers (l : list num) : list num := filter (fun x => match x with NaN => false | _ => true end) l.
(** [agg("min")], [agg("max")]; NaN for no numbers. *)
Definition nmin (l : list num) : num :=
  match numbers l with [] => NaN | x :: l' => fold_left (fun a b => if nltb b a then b else a) l' x end.
(** [agg("max")], modules/PPStats.py:40 and 46. *)
Definition nmax (l : list num) : num :=
  match numbers l with [] => NaN | x :: l' => fold_left (fun a b => if nltb a b then b else a) l' x end.
(** [agg("median")]: middle element or mean of the two middle elements of the
    sorted numbers.  Rounding of the mean is not modelled. *)
Fixpoint ninsert (x : num) (l : list num) : list num :=
  match l with [] => [x] | y :: l' => if nltb y x then y :: ninsert x l' else x :: l end.
(** The sorting inside [agg("median")], modules/PPStats.py:40. *)
Definition nsort (l : list num) : list num := fold_right ninsert [] l.
(** Halving inside [agg("median")], modules/PPStats.py:40. *)
Definition nhalf (x : num) : num := match x with Fin q => Fin (q / 2) | y => y end.
(** [agg("median")], modules/PPStats.py:40. *)
Definition nmedian (l : list num) : num :=
  let s := nsort (numbers l) in
  let n := length s in
  match nth_error s ((n - 1) / 2), nth_error s (n / 2) with
  | Some a, Some b => if Nat.even n then nhalf (nadd a b) else b
  | _, _ => NaN
  end.
(** [agg("first")]: first non-null value. *)
Definition nfirst (l : list (option Z)) : option Z :=
  match filter (fun x => match x with None => false | _ => true end) l with [] => None | x :: _ => x end.

(** One row of the statistics; the linking columns as in lines 50-58. *)
Record stat := {
  s_id : string; s_filter : string; s_size : nat;
  s_mag_min : num; s_mag_max : num; s_mag_median : num; s_phase_min : num; s_phase_max : num;
  s_linked : option bool; s_date : option Z }.

Section Stats.
Context {A : Type}.
Variable oid filt : A -> string.
Variable mag phase : A -> num.
Variable linked : A -> bool.
Variable date : A -> option Z.
(** The distinct object identifiers in the order [groupby] sorts them. *)
Variable distinct : list string -> list string.

(** The three cases of modules/PPStats.py:50-58. *)
Inductive linkmode := LinkOff | LinkKeep | LinkDrop.

(** Lines 36-58 on one group. *)
Definition stat_row (mode : linkmode) (l : list A) (i f : string) : stat :=
  let g := filter (fun r => String.eqb (oid r) i && String.eqb (filt r) f) l in
  {| s_id := i; s_filter := f; s_size := length g;
     s_mag_min := nmin (map mag g); s_mag_max := nmax (map mag g); s_mag_median := nmedian (map mag g);
     s_phase_min := nmin (map phase g); s_phase_max := nmax (map phase g);
     s_linked := match mode with
                 | LinkKeep => match g with [] => None | _ => Some (forallb linked g) end
                 | _ => None end;
     s_date := match mode with LinkOff => None | _ => nfirst (map date g) end |}.

(** Lines 36-58.  The filter column is categorical
    (modules/PPReadPointingDatabase.py:53), its categories being the filters
    that occur anywhere in the pointing database; [observed=False] makes
    groups of every object of the table with every category. *)
Definition stats (categories : list string) (mode : linkmode) (l : list A) : list stat :=
  flat_map (fun i => map (stat_row mode l i) categories) (distinct (map oid l)).
End Stats.
