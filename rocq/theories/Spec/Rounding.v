(** Vocabulary for the rounding of written columns. *)
From Coq Require Import Reals ZArith String List.
From Flocq Require Import Core.
From Verif Require Import Model.Output Model.Rounding Spec.Output Spec.LinkingFloat.
Open Scope R_scope.

(** A number that binary64 can hold. *)
Definition binary64 (x : R) : Prop := generic_format radix2 (FLT_exp (-1074) 53) x /\ Rabs x < bpow radix2 1024.
(** Column [c] is written with [n] decimals. *)
Definition rounded_to (cfg : outcfg) (c : string) (n : nat) : Prop :=
  n <> O /\ ((In c position_names /\ oc_pos cfg = Some n) \/ (In c magnitude_names /\ oc_mag cfg = Some n)).
(** Row [i] of the file [f] with columns [names] has the value [v] in column [c]. *)
Definition written_value (names : list string) (f : list (line cell)) (i : nat) (c : string) (v : cell) : Prop :=
  exists vals k, nth_error f (S i) = Some (Data vals) /\ nth_error names k = Some c /\ nth_error vals k = Some v.
