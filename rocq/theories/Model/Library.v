(** Simulations called from Python: the parameter [return_only] of
    runLSSTSimulation (src/sorcha/sorcha.py:84, 179-182, 374-409) and
    runDESSimulation (src/sorcha/des.py:71, 170-173, 372-407, the same lines).
    Lines are those of sorcha.py.  HDF5 output, which here behaves like CSV, is
    left out, and so is the file of a saved ephemeris. *)
From Coq Require Import String List Arith ZArith Bool.
From Verif Require Import Base.Prelude Model.Driver Model.Output.
Import ListNotations.
Open Scope list_scope.
Open Scope nat_scope.

(** [sconfigs.output.output_format], line 396. *)
Inductive format := Csv | Sqlite3.

Section Library.
Context {V W : Type}.
Variable norm3 : V -> V -> V -> V.
Variable round : nat -> V -> V.
(** What pandas puts where a table lacks a column. *)
Variable missing : V.
(** modules/PPStats.py:36-58: the rows of the statistics of a table. *)
Variable stat_of : table V -> list W.

(** The database at [outpath/outfilestem.db]: its results table and the names of its
    indexes, modules/PPOutput.py:99-103 and 126-132. *)
Record database := { db_table : list string * list (list V); db_indexes : list string }.
(** The files of lines 386, 388 and 397: results as CSV, results as SQLite database
    and the statistics (rows only). *)
Record disk := { d_csv : option (list (line V)); d_db : option database; d_stats : option (list W) }.

(** One [CREATE INDEX c ON sorcha_results (c)], modules/PPOutput.py:129-131.  An index
    of that name or a column that is not there is an OperationalError.  Letters are
    compared with regard to case (simplification). *)
Definition create_index (c : string) (b : database) : result database :=
  if mem c (db_indexes b) then Err OperationalError
  else if mem c (fst (db_table b)) then Ok {| db_table := db_table b; db_indexes := db_indexes b ++ [c] |}
  else Err OperationalError.
(** modules/PPOutput.py:129-131: each statement takes effect at once. *)
Fixpoint create_indexes (l : list string) (b : database) : database * result unit :=
  match l with
  | [] => (b, Ok tt)
  | c :: l' => match create_index c b with Ok b' => create_indexes l' b' | Err e => (b, Err e) end
  end.
(** modules/PPOutput.py:126-132. *)
Definition index_database (b : database) : database * result unit :=
  create_indexes ["ObjID"; "fieldMJD_TAI"; "optFilter"]%string b.

(** Line 386: modules/PPOutput.py:135-255. *)
Definition write_results (fmt : format) (cfg : outcfg) (t : table V) (d : disk) : result disk :=
  match fmt with
  | Csv => rmap (fun f => {| d_csv := f; d_db := d_db d; d_stats := d_stats d |}) (PPWriteOutput_csv norm3 round cfg t (d_csv d))
  | Sqlite3 =>
      rmap (fun f => {| d_csv := d_csv d;
                        d_db := match f with
                                | None => None
                                | Some x => Some {| db_table := x; db_indexes := match d_db d with Some b => db_indexes b | None => [] end |}
                                end;
                        d_stats := d_stats d |})
        (PPWriteOutput_sql norm3 round cfg t (match d_db d with Some b => Some (db_table b) | None => None end))
  end.
(** Lines 387-388: the rows are appended to the file. *)
Definition write_stats (wanted : bool) (t : table V) (d : disk) : disk :=
  if wanted
  then {| d_csv := d_csv d; d_db := d_db d; d_stats := Some (match d_stats d with Some l => l | None => [] end ++ stat_of t) |}
  else d.

(** Lines 379-388 for the tables of consecutive rounds: the lists of lines 181-182 and
    the files. *)
Fixpoint outputs (return_only wanted : bool) (fmt : format) (cfg : outcfg) (tabs : list (table V))
    (kept : list (table V) * list (list W)) (d : disk) : disk * result (list (table V) * list (list W)) :=
  match tabs with
  | [] => (d, Ok kept)
  | t :: ts =>
      if return_only
      then outputs return_only wanted fmt cfg ts
             (fst kept ++ [t], if wanted then snd kept ++ [stat_of t] else snd kept) d
      else match write_results fmt cfg t d with
           | Err e => (d, Err e)
           | Ok d' => outputs return_only wanted fmt cfg ts kept (write_stats wanted t d')
           end
  end.

(** Lines 396-400. *)
Definition index_output (fmt : format) (d : disk) : disk * result unit :=
  match fmt, d_db d with
  | Sqlite3, Some b =>
      let (b', r) := index_database b in ({| d_csv := d_csv d; d_db := Some b'; d_stats := d_stats d |}, r)
  | _, _ => (d, Ok tt)
  end.

(** The columns of the result of [pd.concat], line 405: in order of appearance. *)
Fixpoint all_names (tabs : list (table V)) (seen : list string) : list string :=
  match tabs with
  | [] => seen
  | t :: ts => all_names ts (seen ++ filter (fun c => negb (mem c seen)) (t_names t))
  end.
(** [pd.concat] of tables, lines 405 and 407: nothing to concatenate is a ValueError.
    The index of the result, which repeats that of each table, is left out. *)
Definition pd_concat (tabs : list (table V)) : result (table V) :=
  match tabs with
  | [] => Err ValueError
  | _ => Ok {| t_names := all_names tabs [];
               t_recs := flat_map (fun t => map (fun r c => if mem c (t_names t) then r c else missing) (t_recs t)) tabs |}
  end.
(** The same for the statistics, line 407. *)
Definition pd_concat_stats (l : list (list W)) : result (list W) :=
  match l with [] => Err ValueError | _ => Ok (concat l) end.

(** What a call returns: nothing, or the observations and the statistics if wanted,
    lines 404-409. *)
Definition returned := option (table V * option (list W)).
(** Lines 404-409. *)
Definition finish (return_only wanted : bool) (kept : list (table V) * list (list W)) : result returned :=
  if return_only
  then (t <- pd_concat (fst kept) ;;
        if wanted then (s <- pd_concat_stats (snd kept) ;; Ok (Some (t, Some s))) else Ok (Some (t, None)))%result
  else Ok None.

Context {S C : Type}.
(** Lines 184-409, on the loop of Model/Driver.v.  What a round writes does not change
    what later rounds compute; a failing write ends the run before the failure of any
    later round. *)
Definition simulation (read : nat -> Z -> result (nat * option C)) (process : S -> C -> result (S * option (table V)))
    (return_only wanted : bool) (fmt : format) (cfg : outcfg) (rounds : nat) (lenf size : Z) (s : S) (d : disk)
  : disk * (status * returned) :=
  let (st, tr) := run read process rounds lenf size s in
  match outputs return_only wanted fmt cfg (written tr) ([], []) d with
  | (d', Err e) => (d', (Stopped e, None))
  | (d', Ok kept) =>
      match st with
      | Done =>
          match index_output fmt d' with
          | (d'', Err e) => (d'', (Stopped e, None))
          | (d'', Ok _) => match finish return_only wanted kept with
                           | Err e => (d'', (Stopped e, None))
                           | Ok r => (d'', (Done, r))
                           end
          end
      | _ => (d', (st, None))
      end
  end.
End Library.
Arguments database : clear implicits. Arguments disk : clear implicits. Arguments returned : clear implicits.
