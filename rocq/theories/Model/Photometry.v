(** Photometry over the real numbers (rounding and NaN are not modelled).
    Paths are relative to /repo/src/sorcha. *)
From Coq Require Import String List ZArith Bool Reals.
From Verif Require Import Base.Prelude Model.Sphere.
Import ListNotations.
Open Scope R_scope.

(** ** Trailing losses: modules/PPTrailingLoss.py *)

(** Lines 25-98 for one row, with the default coefficients of lines 31-34. *)
Definition calcTrailingLoss (dRaCosDec dDec seeing texp : R) (model : string) : result R :=
  let vel := sqrt (dRaCosDec ^ 2 + dDec ^ 2) in
  let vel := vel / 24 in
  let x := vel * texp / seeing in
  if String.eqb model "trailedSource" then Ok (1.25 * log10 (1 + 0.761 * x ^ 2 / (1 + 1.162 * x)))
  else if String.eqb model "circularPSF" then Ok (1.25 * log10 (1 + 0.420 * x ^ 2 / (1 + 0.003 * x)))
  else Err SysExit.

(** ** Uncertainties: modules/PPAddUncertainties.py *)

(** Lines 223-278. *)
Definition calcRandomAstrometricErrorPerCoord (FWHMeff SNR AstromErrCoeff : R) : R := AstromErrCoeff * FWHMeff / SNR.
(** Lines 140-220 with nvisit=1, error_sys=10, astErrCoeff=0.6 and
    output_units="mas", the values used by [addUncertainties]. *)
Definition calcAstrometricUncertainty (mag m5 FWHMeff : R) : R * R * R :=
  let rgamma := 0.039 in
  let xval := Rpower 10 (0.4 * (mag - m5)) in
  let SNR := 1 / sqrt ((0.04 - rgamma) * xval + rgamma * xval * xval) in
  let error_rand := calcRandomAstrometricErrorPerCoord FWHMeff SNR 0.60 in
  (sqrt (10 * 10 + error_rand * error_rand), SNR, error_rand).
(** Lines 281-299. *)
Definition calcPhotometricUncertainty (snr : R) : R := 2.5 * log10 (1 + 1 / snr).
(** The columns read and written by lines 62-137. *)
Record photo := {
  p_ra_rate : R; p_dec_rate : R; p_seeing_eff : R; p_seeing_geom : R; p_texp : R;
  p_trailed_true : R; p_psf_true : R; p_depth : R }.
(** The columns set in lines 117-135. *)
Record sigmas := { s_ast_deg : R; s_snr_trailed : R; s_sig_trailed : R; s_snr_psf : R; s_sig_psf : R }.
(** Lines 101-137 for one row; a milliarcsecond is 1/3600000 degree. *)
Definition addUncertainties (trailing_losses_on : bool) (r : photo) : result sigmas :=
  rbind (if trailing_losses_on
         then calcTrailingLoss (p_ra_rate r) (p_dec_rate r) (p_seeing_geom r) (p_texp r) "trailedSource"
         else Ok 0) (fun dMag =>
  let a := calcAstrometricUncertainty (p_trailed_true r + dMag) (p_depth r) (p_seeing_geom r * 1000) in
  let b := calcAstrometricUncertainty (p_psf_true r) (p_depth r) (p_seeing_geom r * 1000) in
  Ok {| s_ast_deg := fst (fst a) / 3600000; s_snr_trailed := snd (fst a);
        s_sig_trailed := calcPhotometricUncertainty (snd (fst a));
        s_snr_psf := snd (fst b); s_sig_psf := calcPhotometricUncertainty (snd (fst b)) |}).
(** sorcha.py:254-263: the PSF magnitude of a row with trailed magnitude [m]. *)
Definition psf_mag_true (trailing_losses_on : bool) (r : photo) (m : R) : result R :=
  if trailing_losses_on
  then rmap (fun d => d + m) (calcTrailingLoss (p_ra_rate r) (p_dec_rate r) (p_seeing_eff r) (p_texp r) "circularPSF")
  else Ok m.

(** ** Vignetting: modules/PPVignetting.py *)

(** [np.interp] for increasing abscissae. *)
Fixpoint interp_from (x0 y0 : R) (l : list (R * R)) (x : R) : R :=
  match l with
  | [] => y0
  | (x1, y1) :: l' => if Rlt_dec x x1 then y0 + (y1 - y0) / (x1 - x0) * (x - x0) else interp_from x1 y1 l' x
  end.
(** [np.interp], modules/PPVignetting.py:357. *)
Definition interp (l : list (R * R)) (x : R) : R :=
  match l with
  | [] => 0
  | (x0, y0) :: l' => if Rlt_dec x x0 then y0 else interp_from x0 y0 l' x
  end.
(** Lines 250-354, in millionths; the abscissae of lines 145-249 are the
    multiples of 0.02. *)
Definition vignet_frac : list Z := [
   623885; 623885; 623885; 623885; 623885; 623885; 623885; 623885; 623885; 623885; 623885; 623885;
   623885; 623885; 623885; 623885; 623885; 623885; 623885; 623885; 623885; 623885; 623885; 623885;
   623885; 623885; 623885; 623885; 623885; 623885; 623885; 623885; 623885; 623822; 623759; 623632;
   623442; 623316; 623000; 622494; 622367; 621861; 621671; 621292; 621039; 620659; 620216; 619963;
   619394; 619204; 618635; 618319; 618066; 617496; 617117; 616737; 616168; 615535; 614840; 614207;
   613385; 612436; 611614; 610602; 609716; 608957; 608071; 606996; 605668; 604972; 603770; 602758;
   601177; 599595; 598140; 595673; 594282; 592447; 590613; 588526; 586312; 584287; 582137; 580113;
   578025; 576064; 573344; 570561; 563730; 545322; 521412; 492757; 460624; 429565; 404959; 383073;
   356190; 317161; 279777; 241824; 201974]%Z.
(** Positions in the list r of modules/PPVignetting.py:145-249. *)
Fixpoint number {A} (i : Z) (l : list A) : list (Z * A) :=
  match l with [] => [] | a :: l' => (i, a) :: number (i + 1) l' end.
(** Line 355 divides by the first entry. *)
Definition vignet_table : list (R * R) :=
  map (fun p => (IZR (fst p) * 0.02, IZR (snd p) / 1000000 / (IZR (hd 0%Z vignet_frac) / 1000000))) (number 0 vignet_frac).
(** Lines 122-359. *)
Definition vignetFunc (x : R) : R := -2.5 * log10 (interp vignet_table x).
(** Lines 54-87, 90-119. *)
Definition calcVignettingLosses (ra dec fieldra fielddec : R) : R := vignetFunc (haversine ra dec fieldra fielddec).
(** Lines 9-51. *)
Definition vignettingEffects (ra dec fieldra fielddec fieldFiveSigmaDepth : R) : R :=
  fieldFiveSigmaDepth - calcVignettingLosses ra dec fieldra fielddec.

(** ** Fading functions *)

(** modules/PPDetectionProbability.py:23-51. *)
Definition calcDetectionProbability (mag limmag fillFactor w : R) : R := fillFactor / (1 + exp ((mag - limmag) / w)).
(** Lines 54-113: a per-chip limiting magnitude takes precedence. *)
Definition PPDetectionProbability (trailing_losses : bool) (mag loss depth : R) (limMag_perChip : option R) (fillFactor w : R) : R :=
  let lim := match limMag_perChip with Some l => l | None => depth end in
  if trailing_losses then calcDetectionProbability (mag + loss) lim fillFactor w
  else calcDetectionProbability mag lim fillFactor w.
(** modules/DESDetectionProbability.py:23-53. *)
Definition DEScalcDetectionProbability (mag limmag c k c_sharp : R) : R := c_sharp * (c / (1 + exp (k * (mag - limmag)))).

(** ** Apparent magnitude: modules/PPCalculateApparentMagnitudeInFilter.py *)

(** Lines 75-131 for one row.  [phase] stands for the phase functions of the
    library sbpy, each of which adds to H a correction depending on the
    parameters and the phase angle; the linear one and "none" are given.
    Distances in km, as in the ephemeris. *)
Definition reduced_mag (sbpy : string -> R -> R) (function : string) (S H alpha : R) : result R :=
  if (String.eqb function "HG1G2" || String.eqb function "HG" || String.eqb function "HG12")%bool then Ok (H + sbpy function alpha)
  else if String.eqb function "linear" then Ok (H + S * alpha)
  else if String.eqb function "none" then Ok H
  else Err SysExit.
(** Lines 75-131 for one row. *)
Definition apparent (sbpy : string -> R -> R) (function : string) (S H alpha range_km obj_sun_km : R) : result R :=
  let delta := range_km / AU_KM in
  let rho := obj_sun_km / AU_KM in
  rmap (fun m => 5 * log10 delta + 5 * log10 rho + m) (reduced_mag sbpy function S H alpha).

(** ** Light curves and activity: lightcurves/, activity/ *)

(** A class of the registry as the callers see it: the offsets [compute]
    returns for a table of row times (for activity: the new magnitudes), the
    number of positional arguments [compute] takes, and the [maxBrightness]
    method if the class has one. *)
Record lc_class := { lc_compute : list R -> list R; lc_maxBrightness : option R }.
(** As [lc_class], for activity/base_activity.py:10-76. *)
Record ca_class := { ca_arguments : nat; ca_compute : list R -> list R; ca_maxBrightness : option (R -> R) }.
(** lightcurves/identity_lightcurve.py:13-56 and base_lightcurve.py:10-76:
    neither defines [maxBrightness]. *)
Definition IdentityLightCurve : lc_class := {| lc_compute := map (fun _ => 0); lc_maxBrightness := None |}.
(** activity/identity_activity.py:11-55 and base_activity.py:10-76: [compute]
    takes the table only. *)
Definition IdentityCometaryActivity : ca_class := {| ca_arguments := 1; ca_compute := fun l => l; ca_maxBrightness := None |}.
(** PPCalculateSimpleCometaryMagnitude.py:40-44: five arguments are passed. *)
Definition PPCalculateSimpleCometaryMagnitude (ca : option ca_class) (mags : list R) : result (list R) :=
  match ca with
  | None => Ok mags
  | Some c => if Nat.eqb (ca_arguments c) 5 then Ok (ca_compute c mags) else Err TypeError
  end.
(** modules/PPCalculateApparentMagnitudeInFilter.py:135-148 for a table of
    (time, magnitude) rows. *)
Definition add_variability (lc : option lc_class) (ca : option ca_class) (rows : list (R * R)) : result (list R) :=
  let shifts := match lc with Some c => lc_compute c (map fst rows) | None => map (fun _ => 0) rows end in
  PPCalculateSimpleCometaryMagnitude ca (map (fun p => fst p + snd p) (combine (map snd rows) shifts)).
