(** Results in HDF5 files: modules/PPOutput.py:41-74 and 254-258.  Paths are
    relative to /repo/src/sorcha. *)
From Coq Require Import String List Arith Bool.
From Verif Require Import Base.Prelude Model.Output.
Import ListNotations.
Open Scope nat_scope.

Section Hdf5.
Context {V : Type}.
(** The text of a value that is a string. *)
Variable text : V -> option string.
(** As in Model/Output.v. *)
Variable norm3 : V -> V -> V -> V.
Variable round : nat -> V -> V.

(** The number of bytes a value takes in a column of strings, modules/PPOutput.py:71;
    other values have a fixed size. *)
Definition bytes (v : V) : nat := match text v with Some s => String.length s | None => 0 end.

(** The table under the key sorcha_results, modules/PPOutput.py:70-72: names, the size of the strings of
    each column, which the first table stored fixes, and the rows.  The index
    labels that pandas stores too are left out. *)
Record h5table := { h_names : list string; h_width : string -> nat; h_rows : list (list V) }.

(** The size that a column needs, modules/PPOutput.py:71; at least one byte. *)
Definition width (t : table V) (c : string) : nat := fold_right Nat.max 1 (map (fun r => bytes (r c)) (t_recs t)).

(** modules/PPOutput.py:64-72.  Line 64, [astype({"ObjID": str})], is a KeyError without
    that column.  [store.append(format="t")] stores nothing for a table without
    rows and is a ValueError when the columns differ from those of the table
    in the file or a string is longer than its column there.  Simplification: a
    column holds strings in all tables or in none, as in the rounds of one run. *)
Definition PPOutWriteHDF5 (t : table V) (f : option h5table) : result (option h5table) :=
  if mem "ObjID" (t_names t) then
    match t_recs t with
    | [] => Ok f
    | _ =>
      let rows := map (fun r => map r (t_names t)) (t_recs t) in
      match f with
      | None => Ok (Some {| h_names := t_names t; h_width := width t; h_rows := rows |})
      | Some old =>
          if list_eq_dec string_dec (h_names old) (t_names t)
          then if forallb (fun c => width t c <=? h_width old c) (t_names t)
               then Ok (Some {| h_names := h_names old; h_width := h_width old; h_rows := h_rows old ++ rows |})
               else Err ValueError
          else Err ValueError
      end
    end
  else Err KeyError.

(** modules/PPOutput.py:135-258 for HDF5. *)
Definition PPWriteOutput_hdf5 (cfg : outcfg) (t : table V) (f : option h5table) : result (option h5table) :=
  rbind (prepare norm3 round cfg t) (fun p => PPOutWriteHDF5 p f).

(** The rounds of a run, sorcha.py:386: what is in the file in the end and how
    the run ends. *)
Fixpoint hdf5_writes (cfg : outcfg) (chunks : list (table V)) (f : option h5table) : option h5table * result unit :=
  match chunks with
  | [] => (f, Ok tt)
  | t :: ts => match PPWriteOutput_hdf5 cfg t f with
               | Ok f' => hdf5_writes cfg ts f'
               | Err e => (f, Err e)
               end
  end.
End Hdf5.
Arguments h5table : clear implicits.
