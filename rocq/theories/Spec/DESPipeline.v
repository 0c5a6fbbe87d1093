(** Vocabulary for the statements about a round of a Dark Energy Survey
    simulation. *)
From Coq Require Import String List Arith ZArith QArith Bool.
From Verif Require Import Base.Prelude Base.Num Model.Filters Model.Pipeline Model.DESPipeline Spec.Filters Spec.DES.
Import ListNotations.
Open Scope nat_scope.

(** The bounds of the two cuts are numbers that are not negative. *)
Definition sane_bounds (b : option (num * num)) : Prop :=
  forall up lo, b = Some (up, lo) -> exists u l, up = Fin u /\ lo = Fin l /\ (0 <= u)%Q /\ (0 <= l)%Q.

(** The cuts that the configuration asks for, in the terms in which rounds of
    sorcha.py are described: the camera, the magnitude limit, the fading
    function and the saturation limits.  Nothing is randomised, there is no
    linking; for the SNR limit see C79. *)
Definition requested {E P} (cfg : des_settings E P) : settings E P :=
  {| cam := s_cam cfg; mag_limit := s_mag cfg; fading_on := s_fading cfg; bright := s_bright cfg; filters := s_filters cfg;
     snr_limit := None; linking := None; randomization_on := false; default_snr_cut := false |}.

Section Spec.
Context {E P : Type}.
Variable eid : E -> string.
Variable etime : E -> Q.
Variables ex ey ez : E -> Q.
Variables erarate edecrate : E -> Q.

(** The object is at an allowed distance from the Sun in this observation. *)
Definition near_enough (cfg : des_settings E P) (o : obs E P) : Prop :=
  forall u l, s_distance cfg = Some (Fin u, Fin l) ->
    in_distance_bounds (ex (o_eph o)) (ey (o_eph o)) (ez (o_eph o)) l u.
(** The object moves at an allowed rate in this observation. *)
Definition slow_enough (cfg : des_settings E P) (o : obs E P) : Prop :=
  forall u l, s_motion cfg = Some (Fin u, Fin l) ->
    in_rate_bounds (erarate (o_eph o)) (edecrate (o_eph o)) l u.
(** Observations of one object. *)
Definition same_object (o o' : obs E P) : Prop := eid (o_eph o) = eid (o_eph o').

(** Squared distances from the Sun. *)
Definition distances2 (l : list (obs E P)) : list Q :=
  map (fun o => ex (o_eph o) * ex (o_eph o) + ey (o_eph o) * ey (o_eph o) + ez (o_eph o) * ez (o_eph o))%Q l.
(** The times of observation. *)
Definition times (l : list (obs E P)) : list Q := map (fun o => etime (o_eph o)) l.
(** The observations of an object satisfy the documented discovery criteria. *)
Definition discoverable (mine : list (obs E P)) : Prop := forall ns w,
  grouped ns (times mine) -> is_window (distances2 mine) w ->
  9 <= length ns \/ (7 <= length ns /\ long_arc (times mine) /\ triplet ns w).
(** They are known to be enough: the triplet is shorter than all earlier ones
    (see C53). *)
Definition surely_discoverable (mine : list (obs E P)) : Prop := exists ns w,
  grouped ns (times mine) /\ is_window (distances2 mine) w /\
  (9 <= length ns \/ (7 <= length ns /\ long_arc (times mine) /\ shortest_triplet ns w)).
End Spec.
