(** Words for the claim that the uncertainties computed in binary64 arithmetic are near
    those of the formulas (C110). *)
From Coq Require Import Reals ZArith Bool.
From Flocq Require Import Core.
From Verif Require Import Model.Rounding Spec.Rounding.
Open Scope R_scope.

(** A power of ten and a decimal logarithm with relative errors of a few units in the
    last place. *)
Definition accurate_power (P : cell -> cell) : Prop :=
  forall x, Rabs x <= 100 -> exists y, P (Real x) = Real y /\ Rabs (y - Rpower 10 x) <= / 2 ^ 50 * Rpower 10 x.
Definition accurate_log (L : cell -> cell) : Prop :=
  forall x, binary64 x -> 1 <= x -> exists y, L (Real x) = Real y /\ Rabs (y - ln x / ln 10) <= / 2 ^ 50 * (ln x / ln 10).

(** The formulas. *)
Definition trail_length (dra ddec s t : R) : R := sqrt (dra ^ 2 + ddec ^ 2) / 24 * t / s.
Definition trailing_loss (a b x : R) : R := 125 / 100 * (ln (1 + a * x ^ 2 / (1 + b * x)) / ln 10).
Definition exact_snr (mag m5 : R) : R :=
  let x := Rpower 10 (4 / 10 * (mag - m5)) in 1 / sqrt (1 / 1000 * x + 39 / 1000 * x ^ 2).
Definition exact_sigma (snr : R) : R := 25 / 10 * (ln (1 + 1 / snr) / ln 10).
Definition exact_astrometric (s snr : R) : R := sqrt (10 ^ 2 + (6 / 10 * (1000 * s) / snr) ^ 2) / 3600000.

(** Rates in deg/day, seeing in arcsec, exposure time in s. *)
Definition ordinary (dra ddec s t : R) : Prop :=
  (dra = 0 \/ / 2 ^ 100 <= Rabs dra <= 1000) /\ (ddec = 0 \/ / 2 ^ 100 <= Rabs ddec <= 1000)
  /\ / 2 ^ 10 <= s <= 2 ^ 10 /\ / 2 ^ 20 <= t <= 2 ^ 20.
(** The value [c] of a column is within the fraction, or the distance, 10^-12 of [x]. *)
Definition relatively (c : cell) (x : R) : Prop := exists y, c = Real y /\ Rabs (y - x) <= / 10 ^ 12 * x.
Definition absolutely (c : cell) (x : R) : Prop := exists y, c = Real y /\ Rabs (y - x) <= / 10 ^ 12.
