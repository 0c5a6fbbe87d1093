(** Vocabulary for statements about positions on an elliptic orbit. *)
From Coq Require Import Reals.
From Verif Require Import Model.Sphere.
Open Scope R_scope.

(** A vector in the orbit plane, the first coordinate towards perihelion, seen in
    the frame of inclination, node and argument of perihelion (radians). *)
Definition perifocal (incl node peri x y : R) : vec :=
  V3 (x * (cos node * cos peri - sin node * sin peri * cos incl) - y * (cos node * sin peri + sin node * cos peri * cos incl))
     (x * (sin node * cos peri + cos node * sin peri * cos incl) - y * (sin node * sin peri - cos node * cos peri * cos incl))
     (x * (sin peri * sin incl) + y * (cos peri * sin incl)).
(** Semi-major axis and mean motion. *)
Definition semi_major (q e : R) : R := q / (1 - e).
Definition mean_motion (mu q e : R) : R := sqrt (mu / (semi_major q e * semi_major q e * semi_major q e)).
(** Position and velocity at an eccentric anomaly. *)
Definition ellipse_position (q e incl node peri E : R) : vec :=
  let a := semi_major q e in
  perifocal incl node peri (a * (cos E - e)) (a * sqrt (1 - e * e) * sin E).
Definition ellipse_velocity (mu q e incl node peri E : R) : vec :=
  let a := semi_major q e in
  let r := a * (1 - e * cos E) in
  perifocal incl node peri (- (sqrt (mu * a) * sin E / r)) (sqrt (mu * a) * sqrt (1 - e * e) * cos E / r).
(** Distance of two points. *)
Definition apart (x y : vec) : R :=
  sqrt ((vx x - vx y) * (vx x - vx y) + (vy x - vy y) * (vy x - vy y) + (vz x - vz y) * (vz x - vz y)).
(** Position and velocity on a conic at a true anomaly. *)
Definition conic_position (q e incl node peri nu : R) : vec :=
  let r := q * (1 + e) / (1 + e * cos nu) in perifocal incl node peri (r * cos nu) (r * sin nu).
Definition conic_velocity (mu q e incl node peri nu : R) : vec :=
  let c := sqrt (mu / (q * (1 + e))) in perifocal incl node peri (- (c * sin nu)) (c * (e + cos nu)).
(** Position and velocity on a hyperbola at a hyperbolic anomaly. *)
Definition hyperbola_position (q e incl node peri F : R) : vec :=
  let a := q / (e - 1) in perifocal incl node peri (a * (e - cosh F)) (a * sqrt (e * e - 1) * sinh F).
Definition hyperbola_velocity (mu q e incl node peri F : R) : vec :=
  let a := q / (e - 1) in
  let r := a * (e * cosh F - 1) in
  perifocal incl node peri (- (sqrt (mu * a) * sinh F / r)) (sqrt (mu * a) * sqrt (e * e - 1) * cosh F / r).
