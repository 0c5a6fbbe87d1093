(** Vocabulary for the pointing table. *)
From Coq Require Import ZArith QArith Qabs String List.
From Verif Require Import Base.Prelude Model.Pointing.

(** The table has a pointing with the observation's FieldID and a filter. *)
Definition has_pointing {O A} (field : O -> Z) (pts : list (pointing A)) (o : O) : Prop :=
  exists p, In p pts /\ p_id p = field o /\ p_filter p <> None.

(** numpy's default tolerance of a comparison with [mjd]. *)
Definition tolerance (mjd : Q) : Q := ((1 # 100000000) + (1 # 100000) * Qabs mjd)%Q.
