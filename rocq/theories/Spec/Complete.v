(** Vocabulary for the claim that the ephemeris misses no object in the field. *)
From Coq Require Import String List ZArith Reals.
From Verif Require Import Base.Prelude Model.Sphere Model.Ephemeris Spec.Sphere Spec.Ephemeris.
Import ListNotations.
Open Scope R_scope.

(** Unit vectors at most [d] degrees apart, [d] up to 180. *)
Definition within (u v : vec) (d : R) : Prop := cos (d * PI / 180) <= vx u * vx v + vy u * vy v + vz u * vz v.
Definition chord (u v : vec) : R := sqrt ((vx u - vx v) ^ 2 + (vy u - vy v) ^ 2 + (vz u - vz v) ^ 2).

(** What healpy guarantees: the pixels of a disc cover it, all directions close to a
    pixel are in it or in one of its neighbours, no pixel is wider than [D] degrees,
    and the pixel of a vector is that of its direction. *)
Definition covering (vec2pix : vec -> Z) (disc : R -> R -> R -> list Z) : Prop :=
  forall ra dec r w, 0 <= r <= 180 -> unit w -> within w (direction ra dec) r -> In (vec2pix w) (disc ra dec r).
Definition surrounding (vec2pix : vec -> Z) (neighbours : Z -> list Z) : Prop :=
  exists margin, 0 < margin <= 180 /\ forall w w', unit w -> unit w' -> within w w' margin ->
    vec2pix w' = vec2pix w \/ In (vec2pix w') (neighbours (vec2pix w)).
(** The same with the margin given: pixels and their neighbours reach [m] degrees. *)
Definition surrounding_by (vec2pix : vec -> Z) (neighbours : Z -> list Z) (m : R) : Prop :=
  forall w w', unit w -> unit w' -> within w w' m -> vec2pix w' = vec2pix w \/ In (vec2pix w') (neighbours (vec2pix w)).
Definition no_wider (vec2pix : vec -> Z) (D : R) : Prop :=
  forall w w', unit w -> unit w' -> vec2pix w = vec2pix w' -> within w w' D.
Definition by_direction (vec2pix : vec -> Z) : Prop :=
  forall k x y z, 0 < k -> vec2pix (V3 (k * x) (k * y) (k * z)) = vec2pix (V3 x y z).

(** [f] has three derivatives between [a] and [b], the third at most [M] in size. *)
Definition smooth (f : R -> R) (a b M : R) : Prop :=
  exists f1 f2 f3, forall t, a <= t <= b ->
    derivable_pt_lim f t (f1 t) /\ derivable_pt_lim f1 t (f2 t) /\ derivable_pt_lim f2 t (f3 t) /\ Rabs (f3 t) <= M.
Definition smooth_motion (f : R -> vec) (a b M : R) : Prop :=
  smooth (fun t => vx (f t)) a b M /\ smooth (fun t => vy (f t)) a b M /\ smooth (fun t => vz (f t)) a b M.
(** Between [a] and [b] a unit vector that moves no faster than [V]. *)
Definition moving (f : R -> vec) (a b V : R) : Prop :=
  forall s, a <= s <= b -> unit (f s) /\ forall t, a <= t <= b -> chord (f s) (f t) <= V * Rabs (s - t).
