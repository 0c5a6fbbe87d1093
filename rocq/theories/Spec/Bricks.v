(** Vocabulary for statements about cameras made of equal CCDs. *)
From Coq Require Import List Arith ZArith QArith.
From Verif Require Import Model.VisitsFootprint.
Import ListNotations.
Open Scope Q_scope.

Definition same_point (a b : Q * Q) : Prop := fst a == fst b /\ snd a == snd b.

(** A CCD of width [w] and height [h] with its lowest right ascension and
    declination at [x0], [y0].  Corners are named as they are on the detector or
    as they are on the sky, where right ascension grows to the left. *)
Definition outline (x0 y0 w h : Q) (c : ccd) : Prop :=
  same_point (c_center c) (x0 + w / 2, y0 + h / 2) /\
  ((same_point (c_ll c) (x0, y0) /\ same_point (c_lr c) (x0 + w, y0) /\ same_point (c_ur c) (x0 + w, y0 + h) /\ same_point (c_ul c) (x0, y0 + h))
   \/ (same_point (c_ll c) (x0 + w, y0) /\ same_point (c_lr c) (x0, y0) /\ same_point (c_ur c) (x0, y0 + h) /\ same_point (c_ul c) (x0 + w, y0 + h))).

(** The corners [ll] and [ur] are opposite: strictly between them. *)
Definition on_ccd (c : ccd) (ra dec : Q) : Prop :=
  ((fst (c_ll c) < ra /\ ra < fst (c_ur c)) \/ (fst (c_ur c) < ra /\ ra < fst (c_ll c)))
  /\ snd (c_ll c) < dec /\ dec < snd (c_ur c).

(** Rows of equal CCDs with gaps [g] and [v] between them.  A row is in line with
    the next one or shifted by half a CCD; places may be empty.  The gaps are
    small compared with the CCDs. *)
Definition camera (rows : list ccd) : Prop := exists x0 y0 w g h v (place : nat -> Z * Z),
  0 < w /\ 0 < g /\ 0 < h /\ 0 < v /\ g * (w + g) <= h * h
  /\ (forall i c, nth_error rows i = Some c ->
        outline (x0 + inject_Z (fst (place i)) * ((w + g) / 2)) (y0 + inject_Z (snd (place i)) * (h + v)) w h c)
  /\ (forall i j, (i < length rows)%nat -> (j < length rows)%nat -> i <> j -> snd (place i) = snd (place j) ->
        (2 <= Z.abs (fst (place i) - fst (place j)))%Z).
