(** Words for the claims about angles in binary64 arithmetic (C108). *)
From Coq Require Import Reals ZArith.
From Flocq Require Import Core.
From Verif Require Import Model.Rounding Spec.Rounding.
Open Scope R_scope.

(** The float64 nearest to pi. *)
Definition pi64 : R := 884279719003555 / 2 ^ 48.
(** An inverse trigonometric function of a numerical library returned the angle [p],
    at most [b] in size. *)
Definition angle (c : cell) (p b : R) : Prop := c = Real p /\ binary64 p /\ Rabs p <= b.
