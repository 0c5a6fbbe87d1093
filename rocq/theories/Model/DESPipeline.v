(** What one round of the main loop of a simulation of the Dark Energy Survey
    does with the observations it read (des.py:221-388).  The stages shared
    with sorcha.py are those of Model/Pipeline.v.  Paths are relative to
    /repo/src/sorcha. *)
From Coq Require Import String List Arith ZArith QArith Bool.
From Verif Require Import Base.Prelude Base.Num Base.Frame Model.Filters Model.Pipeline Model.DES.
Import ListNotations.
Open Scope nat_scope.

(** The switches of the configuration used by des.py:231-370.  Randomisation
    is not among them: the validation turns it off for this survey
    (utilities/sorchaConfigs.py:931-948). *)
Record des_settings (E P : Type) := {
  s_cam : camera E P;
  s_snr : option num;                (** snr_limit; None: off *)
  s_mag : option num;                (** mag_limit *)
  s_fading : bool;
  s_bright : option bright_arg;
  s_filters : list string;
  s_distance : option (num * num);   (** upper and lower bound, au *)
  s_motion : option (num * num);     (** upper and lower bound, degrees per day *)
  s_discovery : bool }.
Arguments s_cam {E P}. Arguments s_snr {E P}. Arguments s_mag {E P}. Arguments s_fading {E P}.
Arguments s_bright {E P}. Arguments s_filters {E P}. Arguments s_distance {E P}.
Arguments s_motion {E P}. Arguments s_discovery {E P}.

(** The part of the configuration that the shared stages read (des.py:299-345);
    des.py has no linking filter and, for the lack of uncertainties
    (des.py:266-272), no SNR column. *)
Definition base {E P} (s : des_settings E P) : settings E P :=
  {| randomization_on := false; default_snr_cut := false; cam := s_cam s; snr_limit := None;
     mag_limit := s_mag s; fading_on := s_fading s; bright := s_bright s; filters := s_filters s;
     linking := None |}.

Section Round.
Context {E P : Type}.
Variable eid : E -> string.
Variable efield : E -> Z.
Variable etime : E -> Q.
(** Heliocentric position in km, Obj_Sun_x_LTC_km and so on. *)
Variables ex ey ez : E -> Q.
(** RARateCosDec_deg_day and DecRate_deg_day. *)
Variables erarate edecrate : E -> Q.
Variable pfield : P -> Z.
Variable pfilt : P -> option string.
Variable pstart : P -> Q.
Variable pointings : list P.
(** des.py:234-259 and 294-297: the columns are computed row by row. *)
Variable physics : E -> P -> columns.
(** Angular distance from the field centre, modules/PPApplyFOVFilter.py:84-115. *)
Variable fsep : obs E P -> num.
(** Detection probability, modules/DESFadingFunctionFilter.py:44. *)
Variable prob : obs E P -> num.
(** Streams of the generators of PPApplyFOVFilter and PPDropObservations. *)
Variables fov drop : nat -> num.
(** [sort_values] of modules/DESDiscoveryFilter.py:82, not stable. *)
Variable dsort : list (obs E P) -> list (obs E P).
Variable cfg : des_settings E P.

(** des.py:312-320: PPSNRLimit reads SNRPSFMag, a column that only
    PPAddUncertainties makes; its call is commented out (des.py:270-272). *)
Definition des_snr_stage (f : frame (obs E P)) : result (frame (obs E P)) :=
  match s_snr cfg with
  | Some _ => if nonempty f then Err KeyError else Ok f
  | None => Ok f
  end.
(** des.py:347-354. *)
Definition distance_stage (f : frame (obs E P)) : frame (obs E P) :=
  match s_distance cfg with
  | Some (upper, lower) =>
      if nonempty f then
        distance_cut (fun o => eid (o_eph o)) (fun o => Fin (ex (o_eph o))) (fun o => Fin (ey (o_eph o)))
          (fun o => Fin (ez (o_eph o))) upper lower f
      else f
  | None => f
  end.
(** des.py:356-363. *)
Definition motion_stage (f : frame (obs E P)) : result (frame (obs E P)) :=
  match s_motion cfg with
  | Some (upper, lower) =>
      if nonempty f then
        motion_cut (fun o => Fin (erarate (o_eph o))) (fun o => Fin (edecrate (o_eph o))) upper lower f
      else Ok f
  | None => Ok f
  end.
(** des.py:365-370. *)
Definition discovery_stage (f : frame (obs E P)) : list (obs E P) :=
  if s_discovery cfg && nonempty f then
    DESDiscoveryFilter (fun o => eid (o_eph o)) (fun o => etime (o_eph o)) (fun o => ex (o_eph o))
      (fun o => ey (o_eph o)) (fun o => ez (o_eph o)) dsort (rows f)
  else rows f.

(** des.py:231-345: everything up to the distance cut. *)
Definition des_detections (st : rng) (js : list E) : result (rng * frame (obs E P)) :=
  rbind (PPMatchPointing efield etime pfield pfilt pstart pointings js) (fun m =>
  rbind (fov_stage fsep fov (base cfg) st (of_rows (map (measure physics) m))) (fun r2 =>
  rbind (des_snr_stage (snd r2)) (fun f3 =>
  let r3 := fading_stage prob drop (base cfg) (fst r2) (mag_stage (base cfg) f3) in
  rmap (fun f => (fst r3, f)) (bright_stage pfilt (base cfg) (snd r3))))).

(** des.py:221-388: [None] when nothing is written. *)
Definition des_process (st : rng) (js : list E) : result (rng * option (list (obs E P))) :=
  match js with
  | [] => Ok (st, None)
  | _ =>
      rbind (des_detections st js) (fun r =>
      rmap (fun f => (fst r, match discovery_stage f with [] => None | l => Some l end))
        (motion_stage (distance_stage (snd r))))
  end.
End Round.
