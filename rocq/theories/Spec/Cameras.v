(** Words for the claims about the cameras that come with the package (C118). *)
From Coq Require Import String List Reals.
From Verif Require Import Base.Prelude Model.Rounding Spec.Rounding Spec.FootprintFloat.
Import ListNotations.
Open Scope R_scope.

(** [r] is a float64 read from the decimal [z], to a few units in the last place. *)
Definition read_from (z r : R) : Prop := binary64 r /\ Rabs (r - z) <= / 2 ^ 50 * Rabs z.
(** A table of detector names and corners read from a file of decimals. *)
Definition table_from (decimals file : list (string * (R * R))) : Prop :=
  Forall2 (fun z r => fst r = fst z /\ read_from (fst (snd z)) (fst (snd r)) /\ read_from (snd (snd z)) (snd (snd r))) decimals file.
(** The corners of the detector [n]. *)
Definition corners_of (file : list (string * (R * R))) (n : string) : list (R * R) := map snd (filter (fun r => String.eqb (fst r) n) file).
