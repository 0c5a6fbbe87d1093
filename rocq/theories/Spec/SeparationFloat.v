(** Words for the claims about great-circle distances in binary64 arithmetic (C116). *)
From Coq Require Import String List Reals ZArith QArith Qreals.
From Flocq Require Import Core.
From Verif Require Import Base.Prelude Model.Rounding Spec.Rounding Spec.Sphere Spec.LinkingFloat.
Open Scope R_scope.

(** Trigonometric functions with relative errors of a few units in the last place. *)
Definition accurate_sin (S : cell -> cell) : Prop :=
  forall x, binary64 x -> Rabs x <= 10 -> exists y, S (Real x) = Real y /\ Rabs (y - sin x) <= / 2 ^ 50 * Rabs (sin x).
Definition accurate_cos (C : cell -> cell) : Prop :=
  forall x, binary64 x -> Rabs x <= 10 -> exists y, C (Real x) = Real y /\ Rabs (y - cos x) <= / 2 ^ 50 * Rabs (cos x).
Definition accurate_arcsin (Z : cell -> cell) : Prop :=
  forall x, binary64 x -> 0 <= x <= 1 -> exists y, Z (Real x) = Real y /\ Rabs (y - asin x) <= / 2 ^ 50 * asin x.
(** A position: right ascension and declination in degrees. *)
Definition position (p : R * R) : Prop :=
  binary64 (fst p) /\ Rabs (fst p) <= 360 /\ binary64 (snd p) /\ Rabs (snd p) <= 90.
(** [d] degrees between two positions. *)
Definition distance_between (p q : R * R) (d : R) : Prop := angle_between (direction (fst p) (snd p)) (direction (fst q) (snd q)) d.
(** Limits [time] (days) and [separation] (arcsec) and times of a table that floating-point
    arithmetic cannot confuse. *)
Definition clear_times {A} (oid : A -> string) (tm : A -> Q) (time separation start : Q) (l : list A) : Prop :=
  (1 # 10000000000 <= time)%Q /\ (1 # 10000000000 <= separation <= 180000)%Q /\ (- (1000000000) <= start <= 1000000000)%Q /\
  (forall r, In r l -> float (tm r) /\ (- (1000000000) <= tm r <= 1000000000)%Q) /\
  (forall r r', In r l -> In r' l -> oid r = oid r' -> clear_of time (tm r - tm r')).
(** The distance [d] (degrees) is not within 10^-10 degrees of [separation] (arcsec). *)
Definition clear_separation (separation : Q) (d : R) : Prop := / 10 ^ 10 <= Rabs (d - Q2R (separation / 3600)).
