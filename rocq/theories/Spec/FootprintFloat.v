(** Words for the claims about the camera footprint in binary64 arithmetic (C117). *)
From Coq Require Import List Arith Reals ZArith.
From Flocq Require Import Core.
From Verif Require Import Base.Prelude Model.Rounding Spec.Rounding Spec.Footprint Spec.SeparationFloat.
Import ListNotations.
Open Scope R_scope.

(** The gnomonic projection about right ascension [a0] and declination [d0] of the direction
    [a], [d]; radians. *)
Definition gnomonic (a0 d0 a d : R) : R * R :=
  let k := sin d0 * sin d + cos d0 * cos d * cos (a - a0) in
  (cos d * sin (a - a0) / k, (cos d0 * sin d - sin d0 * cos d * cos (a - a0)) / k).
(** A point turned about the origin by [r] radians. *)
Definition turned (r : R) (p : R * R) : R * R := (fst p * cos r - snd p * sin r, fst p * sin r + snd p * cos r).
(** Where the direction [p] falls on the camera pointed at [field] and rotated by [rot]; degrees. *)
Definition focal_position (field : R * R) (rot : R) (p : R * R) : R * R :=
  turned (rot * PI / 180) (gnomonic (fst field * PI / 180) (snd field * PI / 180) (fst p * PI / 180) (snd p * PI / 180)).
(** Where a corner of a detector is; radians from the centre of the camera. *)
Definition corner_position (c : R * R) : R * R := gnomonic 0 0 (fst c) (snd c).
(** A way of adding up at most 64 numbers, with the accuracy of adding one after the other. *)
Definition accurate_sum (S : list cell -> cell) : Prop :=
  forall l, (length l <= 64)%nat -> (forall x, In x l -> binary64 x /\ Rabs x <= 10) ->
    exists y, S (map Real l) = Real y /\ Rabs (y - fold_right Rplus 0 l) <= / 2 ^ 47 * fold_right Rplus 0 (map Rabs l).
(** Corners of a detector, in order around it: at most 64, each within a tenth of a radian of
    the axes, convex outline, no edge shorter than a thousandth of a radian. *)
Definition sound_detector (corners : list (R * R)) : Prop :=
  (length corners <= 64)%nat /\
  (forall c, In c corners -> binary64 (fst c) /\ Rabs (fst c) <= / 10 /\ binary64 (snd c) /\ Rabs (snd c) <= / 10) /\
  convex (map corner_position corners) /\
  (forall a b, follows (map corner_position corners) a b -> / 1000 <= distance a b).
(** [p] is inside the outline, at least [m] away from the line through every edge. *)
Definition inside_by (m : R) (l : list (R * R)) (p : R * R) : Prop :=
  forall a b, follows l a b -> m * distance a b <= side a b p.
(** [p] is not outside any edge by more than a triangle of twice the area [t]. *)
Definition hardly_outside (t : R) (l : list (R * R)) (p : R * R) : Prop := forall a b, follows l a b -> - t <= side a b p.
(** [p] is more than [m] away from every edge. *)
Definition off_edges_by (m : R) (l : list (R * R)) (p : R * R) : Prop :=
  forall a b q, follows l a b -> on_segment a b q -> m < distance p q.
(** [a] is the angle of the vector ([x], [y]), anticlockwise from the first axis, from -PI (not reached) to PI. *)
Definition angle_of (x y a : R) : Prop := - PI < a <= PI /\ exists r, 0 < r /\ x = r * cos a /\ y = r * sin a.
(** An arc tangent of two arguments with the relative accuracy of a few units in the last place. *)
Definition accurate_arctan2 (A : cell -> cell -> cell) : Prop :=
  forall y x a, binary64 y -> binary64 x -> angle_of x y a -> exists t, A (Real y) (Real x) = Real t /\ Rabs (t - a) <= / 2 ^ 50 * Rabs a.
(** The mean of some points. *)
Definition centre_of (l : list (R * R)) : R * R :=
  (fold_right Rplus 0 (map fst l) / INR (length l), fold_right Rplus 0 (map snd l) / INR (length l)).
(** A sound detector none of whose corners is on the line through two others that follow each
    other, and whose centre is at least a billionth of a radian inside. *)
Definition firm_detector (corners : list (R * R)) : Prop :=
  sound_detector corners /\ strictly_convex (map corner_position corners) /\
  inside_by (/ 10 ^ 9) (map corner_position corners) (centre_of (map corner_position corners)).
