(** Words for the claims about magnitudes, depths and times of visits in binary64
    arithmetic (C113, C114). *)
From Coq Require Import List Reals ZArith Bool.
From Flocq Require Import Core.
From Verif Require Import Model.Rounding Spec.Rounding Spec.UncertaintyFloat.
Import ListNotations.
Open Scope R_scope.

(** A decimal logarithm with a relative error of a few units in the last place, and one
    that does not decrease. *)
Definition accurate_log10 (L : cell -> cell) : Prop :=
  forall x, binary64 x -> 0 < x -> exists y, L (Real x) = Real y /\ Rabs (y - ln x / ln 10) <= / 2 ^ 50 * Rabs (ln x / ln 10).
Definition increasing_log10 (L : cell -> cell) : Prop :=
  forall x y, 0 < x -> x <= y -> at_most (L (Real x)) (L (Real y)).

(** The astronomical unit in km; distances from a millionth of it to a million. *)
Definition au_km : R := 1495978707 / 10.
Definition in_reach (km : R) : Prop := / 10 ^ 6 * au_km <= km <= 10 ^ 6 * au_km.
(** A factor that converts km to au, right to a few units in the last place. *)
Definition converts (k : R) : Prop := Rabs (k - / au_km) <= / 2 ^ 50 * / au_km.
(** Magnitude at the distances [range] and [sun] (km) of an object with reduced magnitude [m]. *)
Definition magnitude_at (range sun m : R) : R := 5 * (ln (range / au_km) / ln 10) + 5 * (ln (sun / au_km) / ln 10) + m.

(** VignettingFunc_v3.3.TXT as given in PPVignetting.py:252-352: the fraction of the light,
    in millionths, 0, 0.02, 0.04, ... degrees from the centre. *)
Definition published : list Z := [
   623885; 623885; 623885; 623885; 623885; 623885; 623885; 623885; 623885; 623885; 623885; 623885;
   623885; 623885; 623885; 623885; 623885; 623885; 623885; 623885; 623885; 623885; 623885; 623885;
   623885; 623885; 623885; 623885; 623885; 623885; 623885; 623885; 623885; 623822; 623759; 623632;
   623442; 623316; 623000; 622494; 622367; 621861; 621671; 621292; 621039; 620659; 620216; 619963;
   619394; 619204; 618635; 618319; 618066; 617496; 617117; 616737; 616168; 615535; 614840; 614207;
   613385; 612436; 611614; 610602; 609716; 608957; 608071; 606996; 605668; 604972; 603770; 602758;
   601177; 599595; 598140; 595673; 594282; 592447; 590613; 588526; 586312; 584287; 582137; 580113;
   578025; 576064; 573344; 570561; 563730; 545322; 521412; 492757; 460624; 429565; 404959; 383073;
   356190; 317161; 279777; 241824; 201974]%Z.
(** The fraction at [theta] degrees, relative to the centre: linear between the [i]-th and
    the next value, constant beyond the last. *)
Definition fraction_at (theta f : R) : Prop :=
  (exists i a b, nth_error published i = Some a /\ nth_error published (S i) = Some b /\ INR i * 2 / 100 <= theta <= INR (S i) * 2 / 100
     /\ f = (IZR a + (IZR b - IZR a) * (theta * 50 - INR i)) / 623885)
  \/ 2 <= theta /\ f = 201974 / 623885.

(** Times in days (MJD until the year 2217) and durations in seconds. *)
Definition a_time (t : R) : Prop := binary64 t /\ 0 <= t <= 131072.
Definition a_duration (s : R) : Prop := binary64 s /\ 0 <= s <= 1000000.
