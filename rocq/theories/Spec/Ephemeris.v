(** Vocabulary for claims about the ephemeris generator. *)
From Coq Require Import String List ZArith Bool Reals Permutation.
From Verif Require Import Base.Prelude Model.Sphere Model.Ephemeris.
Import ListNotations.
Open Scope R_scope.

(** [f] is a polynomial of degree at most two, in each coordinate. *)
Definition quadratic (f : R -> R) : Prop := exists a b c, forall t, f t = a + b * t + c * (t * t).
Definition quadratic_motion (f : R -> vec) : Prop :=
  quadratic (fun t => vx (f t)) /\ quadratic (fun t => vy (f t)) /\ quadratic (fun t => vz (f t)).
Fixpoint sorted_times (l : list R) : Prop :=
  match l with
  | a :: (b :: _) as l' => a <= b /\ sorted_times l'
  | _ => True
  end.
(** A set of strings can be listed in any order. *)
Definition set_listing (order : list string -> list string) : Prop := forall l, Permutation l (order l).

Section Sky.
Variable trajectory : string -> R -> vec * vec.
Variable jd_ref : R.
Variable observatory : R -> vec.
(** The direction of an object seen from the observatory at a time. *)
Definition seen (k : string) (t : R) : vec := rho_hat trajectory jd_ref k (observatory t) t.
(** The parabola through three directions, an interval apart. *)
Definition parabola (interval t0 : R) (k : string) (t : R) : vec :=
  combine3 (lagrange3 (t0 - interval) t0 (t0 + interval) t) (seen k (t0 - interval)) (seen k t0) (seen k (t0 + interval)).
(** Node times and cached directions belong together. *)
Definition coherent (sims : list string) (interval : R) (s : pixdict) : Prop :=
  p_tm s = p_t0 s - interval /\ p_tp s = p_t0 s + interval /\
  (forall k, In k sims -> dict_get (p_dm s) k = Ok (seen k (p_tm s)) /\ dict_get (p_d0 s) k = Ok (seen k (p_t0 s)) /\
     dict_get (p_dp s) k = Ok (seen k (p_tp s))).
(** The object is registered in one of the pixels of the disc: at one of [n]
    evenly spaced times of the window around [t0] its interpolated direction is
    in a pixel that has a neighbour in the disc. *)
Definition registered (vec2pix : vec -> Z) (neighbours : Z -> list Z) (n : nat) (interval t0 : R) (disc : list Z) (k : string) : Prop :=
  exists i pix, (i < n)%nat /\ In pix disc /\
    In pix (neighbours (vec2pix (parabola interval t0 k (t0 - interval + 2 * interval * (INR i / (INR n - 1)))))).
End Sky.
