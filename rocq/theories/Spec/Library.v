(** Vocabulary for simulations called from Python. *)
From Coq Require Import String List Arith ZArith Bool.
From Verif Require Import Base.Prelude Model.Output Model.Library Spec.Output.
Import ListNotations.

(** The tables that rounds leave have the columns [cs]. *)
Definition leaves_columns {V S C} (cs : list string) (process : S -> C -> result (S * option (table V))) : Prop :=
  forall s c s' t, process s c = Ok (s', Some t) -> t_names t = cs.
(** No results and no statistics are on the disk. *)
Definition clean {V W} (d : disk V W) : Prop := d_csv d = None /\ d_db d = None /\ d_stats d = None.
(** The rows that are written for the records [recs]. *)
Definition rows_shown {V} (norm3 : V -> V -> V -> V) (round : nat -> V -> V) (cfg : outcfg) (cs : list string)
    (recs : list (string -> V)) : list (list V) :=
  map (fun r => map (shown norm3 round cfg r) (requested cfg cs)) recs.
(** The three columns that results are indexed by. *)
Definition indexed_columns : list string := ["ObjID"; "fieldMJD_TAI"; "optFilter"]%string.
