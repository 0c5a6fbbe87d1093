(** Vocabulary for claims about the camera footprint. *)
From Coq Require Import List Arith Bool Reals Permutation.
From Verif Require Import Model.Sphere.
Import ListNotations.
Open Scope R_scope.

(** [b] follows [a] around the outline [l]. *)
Definition follows (l : list (R * R)) (a b : R * R) : Prop :=
  exists i, (i < length l)%nat /\ nth i l (0, 0) = a /\ nth (S i mod length l) l (0, 0) = b.
(** Twice the signed area of the triangle [a], [b], [p]: positive when [p] is to
    the left of the line from [a] to [b]. *)
Definition side (a b p : R * R) : R :=
  (fst b - fst a) * (snd p - snd a) - (snd b - snd a) * (fst p - fst a).
(** A convex outline listed counterclockwise, with some area. *)
Definition convex (l : list (R * R)) : Prop :=
  (forall a b c, follows l a b -> In c l -> 0 <= side a b c) /\
  exists a b c, follows l a b /\ In c l /\ 0 < side a b c.
(** As [convex], with no three corners in line and no corner twice. *)
Definition strictly_convex (l : list (R * R)) : Prop :=
  (3 <= length l)%nat /\ NoDup l /\
  forall a b c, follows l a b -> In c l -> c <> a -> c <> b -> 0 < side a b c.
Definition inside (l : list (R * R)) (p : R * R) : Prop := forall a b, follows l a b -> 0 <= side a b p.
Definition distance (a b : R * R) : R :=
  sqrt ((fst a - fst b) * (fst a - fst b) + (snd a - snd b) * (snd a - snd b)).
Definition on_segment (a b q : R * R) : Prop :=
  exists t, 0 <= t <= 1 /\ q = (fst a + t * (fst b - fst a), snd a + t * (snd b - snd a)).
(** The unit vector towards right ascension [ra] and declination [dec], in radians. *)
Definition radians_dir (ra dec : R) : vec := V3 (cos ra * cos dec) (sin ra * cos dec) (sin dec).
