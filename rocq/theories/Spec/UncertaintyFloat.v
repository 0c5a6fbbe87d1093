(** Words for the claims about uncertainties in binary64 arithmetic (C109). *)
From Coq Require Import Reals ZArith Bool.
From Flocq Require Import Core.
From Verif Require Import Model.Rounding Spec.Rounding.
Open Scope R_scope.

(** The order of float64 values; a missing value is not comparable. *)
Definition at_most (a b : cell) : Prop :=
  match a, b with
  | Real x, Real y => x <= y
  | Inf true, Real _ | Inf true, Inf _ | Real _, Inf false | Inf false, Inf false => True
  | _, _ => False
  end.
(** What is used of a library's power of ten: it is 1 at 0, increasing, not negative,
    and right within a factor of ten for moderate exponents. *)
Definition library_power (P : cell -> cell) : Prop :=
  P (Real 0) = Real 1 /\ (forall a b, at_most a b -> at_most (P a) (P b)) /\ (forall a, at_most a a -> at_most (Real 0) (P a))
  /\ forall x, Rabs x <= 41 -> exists y, P (Real x) = Real y /\ / 10 ^ 42 <= y <= 10 ^ 42.
(** What is used of a library's decimal logarithm: it is 0 at 1, increasing from
    there on, and finite and of moderate size for finite values. *)
Definition library_log (L : cell -> cell) : Prop :=
  L (Real 1) = Real 0 /\ L (Inf false) = Inf false
  /\ (forall a b, at_most (Real 1) a -> at_most a b -> at_most (L a) (L b))
  /\ forall x, 1 <= x < bpow radix2 1024 -> exists y, L (Real x) = Real y /\ y <= 309.
(** An observation with rates, seeing and exposure time within any practical range. *)
Definition practical (dra ddec seeing texp : R) : Prop :=
  Rabs dra <= 2 ^ 100 /\ Rabs ddec <= 2 ^ 100 /\ / 2 ^ 100 <= seeing <= 2 ^ 100 /\ 0 <= texp <= 2 ^ 100.
