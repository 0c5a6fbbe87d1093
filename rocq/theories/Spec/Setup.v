(** Vocabulary for statements about starting states and visits. *)
From Coq Require Import Reals String List.
From Verif Require Import Base.Prelude Model.Sphere Model.OrbitParse Model.Setup.
Import ListNotations.
Open Scope R_scope.

(** The Julian date that a number in the epoch column stands for. *)
Definition julian (e : R) : R := if Rlt_dec e (24000005 / 10) then e + 24000005 / 10 else e.

(** What the row gives taken alone, with no remembered positions of the Sun. *)
Definition alone (fuel : nat) (sun : R -> vec * vec) (gm_sun gm_total : R) (r : orbit) : result (option (vec * vec)) :=
  rmap snd (parse_orbit_row fuel sun (ob_row r) (julian (ob_epoch r)) [] gm_sun gm_total).

(** The row can be started. *)
Definition startable fuel sun gm_sun gm_total (r : orbit) : Prop :=
  exists st, alone fuel sun gm_sun gm_total r = Ok (Some st).

(** What becomes of a run that meets [r]. *)
Definition refusal (a : result (option (vec * vec))) : failure :=
  match a with Ok _ => SysExit | Err ValueError => SysExit | Err e => e end.

(** The observatory has longitude [lon] (degrees) and parallax constants [c], [s]. *)
Definition parallax (o : obscode) (lon c s : R) : Prop :=
  longitude o = Some lon /\ cosphi o = Some c /\ sinphi o = Some s.
Definition place (lon c s : R) : vec := V3 (c * cos (lon * PI / 180)) (c * sin (lon * PI / 180)) s.
(** The rotating frame in use at ephemeris time [et]. *)
Definition frame_at (et_1962 et : R) (f : frame) : Prop :=
  (et_1962 <= et -> f = ITRF93) /\ (et < et_1962 -> f = IAU_EARTH).
(** Seconds since J2000 of a Julian date. *)
Definition seconds (jd : R) : R := (jd - 2451545) * 86400.

(** [g] has derivatives [g1], [g2] and [g3], the last within [b]. *)
Definition thrice (g g1 g2 g3 : R -> R) (b : R) : Prop :=
  (forall t, derivable_pt_lim g t (g1 t)) /\ (forall t, derivable_pt_lim g1 t (g2 t)) /\
  (forall t, derivable_pt_lim g2 t (g3 t)) /\ forall t, Rabs (g3 t) <= b.
