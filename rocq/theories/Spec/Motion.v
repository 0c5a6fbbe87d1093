(** Vocabulary for statements about motion under the attraction of the Sun. *)
From Coq Require Import Reals.
From Verif Require Import Model.Sphere Spec.Kepler.
Open Scope R_scope.

(** [v] is the derivative of [x] at [t]. *)
Definition moves (x : R -> vec) (t : R) (v : vec) : Prop :=
  derivable_pt_lim (fun t => vx (x t)) t (vx v)
  /\ derivable_pt_lim (fun t => vy (x t)) t (vy v)
  /\ derivable_pt_lim (fun t => vz (x t)) t (vz v).
(** The attraction at [x]. *)
Definition pull (mu : R) (x : vec) : vec :=
  let k := - mu / (length3 x * length3 x * length3 x) in V3 (k * vx x) (k * vy x) (k * vz x).
(** Position and velocity as functions of time obey the law of motion. *)
Definition two_body (mu : R) (x v : R -> vec) : Prop :=
  forall t, moves x t (v t) /\ moves v t (pull mu (x t)).
