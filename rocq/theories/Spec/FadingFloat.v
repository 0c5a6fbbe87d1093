(** Words for the claims about fading functions in binary64 arithmetic (C105). *)
From Coq Require Import List Reals ZArith Bool.
From Flocq Require Import Core.
From Verif Require Import Model.Rounding Spec.Rounding.
Open Scope R_scope.

(** An exponential function of a numerical library: exact where the result is,
    within about one unit in the last place elsewhere, infinite only where the
    result is too large. *)
Definition library_exp (E : cell -> cell) : Prop :=
  E Nan = Nan /\ E (Inf true) = Real 0 /\ E (Inf false) = Inf false /\ E (Real 0) = Real 1
  /\ forall x, match E (Real x) with
               | Real y => 0 <= y /\ binary64 y /\ Rabs (y - exp x) <= exp x / 2 ^ 52 + / 2 ^ 1074
               | Inf false => 2 ^ 1023 <= exp x
               | _ => False
               end.
Definition increasing (E : cell -> cell) : Prop :=
  forall x y, x <= y -> match E (Real x), E (Real y) with
                        | Real a, Real b => a <= b
                        | Real _, Inf false | Inf false, Inf false => True
                        | _, _ => False
                        end.
(** [out] has the rows of [rows] at the positions where [keep] holds, in order. *)
Inductive selected {A} (keep : nat -> A -> Prop) : nat -> list A -> list A -> Prop :=
| sel_nil : forall i, selected keep i nil nil
| sel_keep : forall i r rows out, keep i r -> selected keep (S i) rows out -> selected keep i (r :: rows) (r :: out)
| sel_drop : forall i r rows out, ~ keep i r -> selected keep (S i) rows out -> selected keep i (r :: rows) out.
