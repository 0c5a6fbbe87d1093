(** Apparent magnitudes, PSF magnitudes, the effective depth and the times of visits in
    binary64 arithmetic: modules/PPCalculateApparentMagnitudeInFilter.py:75-131,
    sorcha.py:254-263, modules/PPVignetting.py:49-51 and 144-357, and
    modules/PPReadPointingDatabase.py:69-76 of src/sorcha with every rounding, overflow
    and division by zero.  Model/Photometry.v and Model/Pointing.v have the same formulas over
    the reals.  The values are those of Model/Rounding.v; plus and minus those of
    Model/FadingFloat.v, quotient and root those of Model/UncertaintyFloat.v.  numpy's
    log10 is a parameter.  The sign of zero is left out. *)
From Coq Require Import List Reals ZArith Bool.
From Flocq Require Import Core.
From Verif Require Import Base.Prelude Model.LinkingFloat Model.Rounding Model.FadingFloat Model.UncertaintyFloat Model.Photometry.
Import ListNotations.
Open Scope R_scope.

Section Magnitude.
(** [np.log10], PPCalculateApparentMagnitudeInFilter.py:131 and PPVignetting.py:357. *)
Variable np_log10 : cell -> cell.
(** The factor astropy multiplies with, PPCalculateApparentMagnitudeInFilter.py:75-91. *)
Variable km_to_au : R.

(** PPCalculateApparentMagnitudeInFilter.py:75. *)
Definition range_au_f (range_km : cell) : cell := multiply range_km (Real km_to_au).
(** PPCalculateApparentMagnitudeInFilter.py:80-91; the column of line 78 is not written
    by the ephemeris generator. *)
Definition sun_distance_f (x y z : cell) : cell :=
  multiply (root (plus (plus (multiply x x) (multiply y y)) (multiply z z))) (Real km_to_au).
(** PPCalculateApparentMagnitudeInFilter.py:131; [reduced] is what the phase function
    gives (lines 98-128), the sum being from left to right. *)
Definition apparent_f (range_km x y z reduced : cell) : cell :=
  plus (plus (multiply (Real 5) (np_log10 (range_au_f range_km))) (multiply (Real 5) (np_log10 (sun_distance_f x y z)))) reduced.
(** sorcha.py:254-263 with PPTrailingLoss.py:83-97: PSFMagTrue of a row. *)
Definition psf_mag_f (trailing_losses_on : bool) (dra ddec seeingEff texp trailedMagTrue : cell) : cell :=
  if trailing_losses_on then plus (calcTrailingLoss_f np_log10 false dra ddec seeingEff texp) trailedMagTrue else trailedMagTrue.

(** numpy's interp for increasing abscissae, between two entries or after the last
    (numpy/core/src/multiarray/compiled_base.c, no fused operations), PPVignetting.py:357. *)
Fixpoint interp_from_f (x0 y0 : R) (l : list (R * R)) (x : R) : cell :=
  match l with
  | [] => Real y0
  | (x1, y1) :: l' =>
      if Rlt_dec x x1 then
        if Req_EM_T x x0 then Real y0
        else plus (multiply (quotient (minus (Real y1) (Real y0)) (minus (Real x1) (Real x0))) (minus (Real x) (Real x0))) (Real y0)
      else interp_from_f x1 y1 l' x
  end.
(** PPVignetting.py:357; angles are finite or missing. *)
Definition interp_f (l : list (R * R)) (x : cell) : cell :=
  match l, x with
  | (x0, y0) :: l', Real x => if Rlt_dec x x0 then Real y0 else interp_from_f x0 y0 l' x
  | _, _ => Nan
  end.
(** PPVignetting.py:145-249 and 250-354, and 355 where the fractions are divided by
    the first. *)
Definition vignet_table_f : list (R * R) :=
  map (fun p => (fl (IZR (fst p) * 2 / 100), fl (fl (IZR (snd p) / 1000000) / fl (IZR (hd 0%Z vignet_frac) / 1000000)))) (number 0 vignet_frac).
(** PPVignetting.py:357; [theta] in degrees, as line 85 gives it. *)
Definition vignetFunc_f (theta : cell) : cell := multiply (Real (-5 / 2)) (np_log10 (interp_f vignet_table_f theta)).
(** sorcha.py:265-272 with PPVignetting.py:49-51. *)
Definition depth_f (vignetting_on : bool) (field_depth theta : cell) : cell :=
  if vignetting_on then minus field_depth (vignetFunc_f theta) else field_depth.
End Magnitude.

(** PPReadPointingDatabase.py:69-72. *)
Definition midpoint_f (start visit_time : cell) : cell := plus start (divide (divide visit_time (Real 2)) (Real 86400)).
(** PPReadPointingDatabase.py:73-76. *)
Definition des_start_f (midpoint exposure : cell) : cell := minus midpoint (divide (divide exposure (Real 2)) (Real 86400)).
