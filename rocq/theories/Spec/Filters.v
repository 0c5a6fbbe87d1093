(** Specification vocabulary for the row filters, independent of the model. *)
From Coq Require Import List QArith Reals Qreals.
From Verif Require Import Base.Prelude Base.Num Base.Frame.
Import ListNotations.
Open Scope nat_scope.

(** Specification of a positional selection: the n-th row is kept iff [P n row]. *)
Inductive selected_pos {A} (P : nat -> A -> Prop) : nat -> list A -> list A -> Prop :=
| sp_nil : forall k, selected_pos P k [] []
| sp_keep : forall k x l l', P k x -> selected_pos P (S k) l l' -> selected_pos P k (x :: l) (x :: l')
| sp_drop : forall k x l l', ~ P k x -> selected_pos P (S k) l l' -> selected_pos P k (x :: l) l'.

(** Rows that share a label agree on [p]: labels are unique, or the repeated
    labels are copies of one observation. *)
Definition label_consistent {A B} (p : A -> B) (f : frame A) : Prop :=
  forall l r r', In (l, r) f -> In (l, r') f -> p r = p r'.

Open Scope R_scope.

(** The sky rate with components [a], [b] lies strictly between the bounds. *)
Definition in_rate_bounds (a b lo up : Q) : Prop :=
  Q2R lo < sqrt (Q2R a * Q2R a + Q2R b * Q2R b) < Q2R up.

(** The heliocentric distance (components in km) lies strictly between the
    bounds given in au. *)
Definition in_distance_bounds (x y z lo up : Q) : Prop :=
  Q2R lo * 149597870.7 < sqrt (Q2R x * Q2R x + Q2R y * Q2R y + Q2R z * Q2R z) < Q2R up * 149597870.7.

