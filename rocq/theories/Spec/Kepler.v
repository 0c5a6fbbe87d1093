(** Vocabulary for statements about two-body motion. *)
From Coq Require Import Reals.
From Verif Require Import Model.Sphere Spec.Sphere.
Open Scope R_scope.

(** The unit normal of an orbit plane, from inclination and longitude of the
    ascending node (radians). *)
Definition orbit_normal (incl node : R) : vec :=
  V3 (sin incl * sin node) (- (sin incl * cos node)) (cos incl).
(** Length of a vector. *)
Definition length3 (v : vec) : R := sqrt (vx v * vx v + vy v * vy v + vz v * vz v).
(** Twice the specific energy with its sign reversed, from a state. *)
Definition binding (mu : R) (x v : vec) : R :=
  2 * mu / length3 x - (vx v * vx v + vy v * vy v + vz v * vz v).
(** The same from perihelion distance and eccentricity. *)
Definition binding_of_elements (mu q e : R) : R := mu * (1 - e) / q.
(** Specific angular momentum from the elements. *)
Definition momentum_of_elements (mu q e : R) : R := sqrt (mu * q * (1 + e)).
(** Between two numbers, in either order. *)
Definition between (a b x : R) : Prop := Rmin a b <= x <= Rmax a b.
