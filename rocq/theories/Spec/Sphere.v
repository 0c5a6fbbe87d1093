(** Vocabulary for statements about directions. *)
From Coq Require Import Reals.
From Verif Require Import Model.Sphere.
Open Scope R_scope.

Definition unit (v : vec) : Prop := vx v * vx v + vy v * vy v + vz v * vz v = 1.
Definition orthogonal (a b : vec) : Prop := vx a * vx b + vy a * vy b + vz a * vz b = 0.
Definition cross (a b : vec) : vec :=
  V3 (vy a * vz b - vz a * vy b) (vz a * vx b - vx a * vz b) (vx a * vy b - vy a * vx b).
(** The direction with longitude [ra] and latitude [dec], in degrees. *)
Definition direction (ra dec : R) : vec :=
  V3 (cos (dec * PI / 180) * cos (ra * PI / 180)) (cos (dec * PI / 180) * sin (ra * PI / 180)) (sin (dec * PI / 180)).
(** [v] points along the unit vector [u]. *)
Definition along (v u : vec) : Prop := exists k, 0 < k /\ v = V3 (k * vx u) (k * vy u) (k * vz u).
(** Two numbers equal up to whole turns of 360 degrees. *)
Definition same_turn (a b : R) : Prop := exists k, a = b + 360 * IZR k.
(** [d] is the angle in degrees between unit vectors [u] and [v]. *)
Definition angle_between (u v : vec) (d : R) : Prop :=
  0 <= d <= 180 /\ cos (d * PI / 180) = vx u * vx v + vy u * vy v + vz u * vz v.
