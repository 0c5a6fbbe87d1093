(** The columns of the tables of one round in which observations are left after
    every cut, so that every enabled stage runs (a stage is skipped when none is
    left).  A table is the list of its column names; reading a column that is not
    there is a KeyError.  Paths are relative to /repo/src/sorcha. *)
From Coq Require Import String List Bool Arith.
From Verif Require Import Base.Prelude Model.Config.
Import ListNotations.
Open Scope string_scope.
Open Scope result_scope.

(** The columns of a pandas table, for example sorcha.py:192. *)
Definition cols := list string.
(** [df[c]] for all the given columns, for example modules/PPSNRLimit.py:28. *)
Definition need (l : list string) (t : cols) : result unit :=
  if forallb (fun c => member c t) l then Ok tt else Err KeyError.
(** [df[c] = ...], for example sorcha.py:263. *)
Definition put (c : string) (t : cols) : cols := if member c t then t else (t ++ [c])%list.
(** Several assignments, for example ephemeris/simulation_setup.py:221-223. *)
Definition puts (l : list string) (t : cols) : cols := fold_left (fun t c => put c t) l t.
(** [df.drop(columns=l)], for example modules/PPMatchPointingToObservations.py:72. *)
Definition without (l : list string) (t : cols) : cols := filter (fun c => negb (member c l)) t.
(** [df.rename(columns={a: b})], for example modules/PPReadPointingDatabase.py:51. *)
Definition rename_col (a b : string) (t : cols) : cols := map (fun c => if String.eqb c a then b else c) t.

(** modules/PPReadPointingDatabase.py:50-103.  [q] lists the columns that the
    query returns. *)
Definition read_pointing_columns (des fading : bool) (q : cols) : result cols :=
  _ <- need ["observationId"] q ;;
  let t := rename_col "filter" "optFilter" (rename_col "observationId" "FieldID" (put "observationId_" q)) in
  _ <- need ["optFilter"] t ;;
  if des then
    _ <- need ["observationMidpointMJD_TAI"; "visitExposureTime"] t ;;
    let t := put "observationStartMJD_TAI" t in
    if fading && negb (forallb (fun c => member c t) ["c"; "k"]) then Err SysExit else Ok t
  else
    _ <- need ["observationStartMJD_TAI"; "visitTime"] t ;;
    Ok (put "observationMidpointMJD_TAI" t).

(** ephemeris/simulation_setup.py:218-270. *)
Definition precomputed : list string :=
  ["visit_vector_x"; "visit_vector_y"; "visit_vector_z"; "fieldJD_TDB"; "r_obs_x"; "r_obs_y"; "r_obs_z";
   "v_obs_x"; "v_obs_y"; "v_obs_z"; "r_sun_x"; "r_sun_y"; "r_sun_z"; "v_sun_x"; "v_sun_y"; "v_sun_z"].
(** ephemeris/simulation_setup.py:193-273. *)
Definition precompute_columns (t : cols) : result cols :=
  _ <- need ["fieldRA_deg"; "fieldDec_deg"; "observationMidpointMJD_TAI"] t ;;
  Ok (puts precomputed t).

(** readers/EphemerisReader.py:140-163, the columns of an external ephemeris. *)
Definition ephem_cols : list string :=
  ["ObjID"; "FieldID"; "fieldMJD_TAI"; "Range_LTC_km"; "RangeRate_LTC_km_s"; "RA_deg"; "RARateCosDec_deg_day"; "Dec_deg";
   "DecRate_deg_day"; "Obj_Sun_x_LTC_km"; "Obj_Sun_y_LTC_km"; "Obj_Sun_z_LTC_km"; "Obj_Sun_vx_LTC_km_s";
   "Obj_Sun_vy_LTC_km_s"; "Obj_Sun_vz_LTC_km_s"; "Obs_Sun_x_km"; "Obs_Sun_y_km"; "Obs_Sun_z_km"; "Obs_Sun_vx_km_s";
   "Obs_Sun_vy_km_s"; "Obs_Sun_vz_km_s"; "phase_deg"].
(** ephemeris/simulation_driver.py:135-159, those of a computed one. *)
Definition generated_cols : list string :=
  ["ObjID"; "FieldID"; "fieldMJD_TAI"; "fieldJD_TDB"; "Range_LTC_km"; "RangeRate_LTC_km_s"; "RA_deg"; "RARateCosDec_deg_day";
   "Dec_deg"; "DecRate_deg_day"; "Obj_Sun_x_LTC_km"; "Obj_Sun_y_LTC_km"; "Obj_Sun_z_LTC_km"; "Obj_Sun_vx_LTC_km_s";
   "Obj_Sun_vy_LTC_km_s"; "Obj_Sun_vz_LTC_km_s"; "Obs_Sun_x_km"; "Obs_Sun_y_km"; "Obs_Sun_z_km"; "Obs_Sun_vx_km_s";
   "Obs_Sun_vy_km_s"; "Obs_Sun_vz_km_s"; "phase_deg"].

(** [l.join(r.set_index("ObjID"), on="ObjID")], readers/CombinedDataReader.py:195
    and 268, ephemeris/simulation_driver.py:237: pandas refuses columns that
    are in both. *)
Definition join (l r : cols) : result cols :=
  _ <- need ["ObjID"] l ;;
  _ <- need ["ObjID"] r ;;
  if existsb (fun c => member c l) (without ["ObjID"] r) then Err ValueError else Ok (l ++ without ["ObjID"] r)%list.
(** readers/CombinedDataReader.py:178-195 and 248-268: one table after the other. *)
Fixpoint joins (l : cols) (rs : list cols) : result cols :=
  match rs with [] => Ok l | r :: rest => t <- join l r ;; joins t rest end.

(** modules/PPFaintObjectCullingFilter.py:48-98, the columns it reads and the one
    it may add.  The elements read by [get_perihelion_row] are those that
    readers/OrbitAuxReader.py checks.  Light curve and activity models with a
    [maxBrightness] are taken to read nothing else. *)
Definition cull_columns (main : string) (filters : list string) (pointing aux : cols) : result cols :=
  _ <- need ["optFilter"; "fieldFiveSigmaDepth_mag"] pointing ;;
  aux <- (if member "q" aux then Ok aux else (_ <- need ["epochMJD_TDB"; "FORMAT"] aux ;; Ok (put "q" aux))) ;;
  _ <- need ["ObjID"] aux ;;
  _ <- need (flat_map (fun f => if String.eqb f main then ["H_" ++ main] else ["H_" ++ main; f ++ "-" ++ main]) filters) aux ;;
  Ok aux.

(** sorcha.py:190-225 and des.py:179-214: the table before matching. *)
Definition observation_columns (c : configs) (main : string) (aux : list cols) (pointing : cols) : result cols :=
  if String.eqb (in_ephemerides_type (c_input c)) "external" then joins ephem_cols aux
  else
    match aux with
    | [] => Err SysExit
    | a :: rest =>
      t <- joins a rest ;;
      t <- (if x_brute_force (c_expert c) then Ok t else cull_columns main (c_filters c) pointing t) ;;
      join generated_cols t
    end.

(** modules/PPMatchPointingToObservations.py:46-48. *)
Definition pointing_columns_to_skip : list string :=
  ["fieldJD_TDB"; "pixels_begin"; "pixels_end"; "visit_vector_x"; "visit_vector_y"; "visit_vector_z"; "pixels_x"; "pixels_y";
   "pixels_z"; "r_obs_x"; "r_obs_y"; "r_obs_z"; "v_obs_x"; "v_obs_y"; "v_obs_z"; "r_sun_x"; "r_sun_y"; "r_sun_z"; "v_sun_x";
   "v_sun_y"; "v_sun_z"].
(** The suffix pandas gives to a column that is in the other table too,
    modules/PPMatchPointingToObservations.py:52-58. *)
Definition suffixed (other : cols) (s c : string) : string := if member c other then c ++ s else c.
(** modules/PPMatchPointingToObservations.py:50-72.  A column in both tables
    gets the suffixes of pandas. *)
Definition match_columns (obs pointing : cols) : result cols :=
  let right := without pointing_columns_to_skip pointing in
  _ <- need ["FieldID"] obs ;;
  _ <- need ["FieldID"] right ;;
  let right := without ["FieldID"] right in
  let t := (map (suffixed right "_x") obs ++ map (suffixed obs "_y") right)%list in
  _ <- need ["optFilter"; "observationStartMJD_TAI"; "fieldMJD_TAI"; "observationId_"; "observationMidpointMJD_TAI"] t ;;
  Ok (without ["observationStartMJD_TAI"; "observationId_"; "observationMidpointMJD_TAI"] t).

(** modules/PPApplyColourOffsets.py:77-145 and
    PPCalculateApparentMagnitudeInFilter.py:98-120: the parameters of a phase
    function. *)
Definition parameters (phase : string) : option (list string) :=
  if String.eqb phase "HG1G2" then Some ["G1"; "G2"] else if String.eqb phase "HG" then Some ["GS"]
  else if String.eqb phase "HG12" then Some ["G12"] else if String.eqb phase "linear" then Some ["S"]
  else if String.eqb phase "none" then Some [] else None.
(** modules/PPApplyColourOffsets.py:78-79, 97, 114, 131. *)
Definition filter_parameters (ps filters : list string) : list string :=
  flat_map (fun p => map (fun f => p ++ f) filters) ps.
(** [fnmatch] with the pattern "?-main", modules/PPApplyColourOffsets.py:158. *)
Definition is_colour (main c : string) : bool :=
  match c with String _ r => String.eqb r ("-" ++ main) | EmptyString => false end.
(** modules/PPApplyColourOffsets.py:51-164.  [seen] lists the filters in which
    there are observations. *)
Definition colour_columns (phase main : string) (filters seen : list string) (t : cols) : result cols :=
  let H := "H_" ++ main in
  _ <- need [H] t ;;
  let t := put (main ++ "-" ++ main) (put "H_original" t) in
  _ <- (if forallb (fun f => member (f ++ "-" ++ main) t) seen then Ok tt else Err SysExit) ;;
  t <- match parameters phase with
       | None => Err SysExit
       | Some [] => Ok t
       | Some ps =>
         if forallb (fun c => member c t) (H :: ps) then Ok t
         else if forallb (fun c => member c t) (H :: filter_parameters ps filters) then
           _ <- need (filter_parameters ps seen) t ;;
           Ok (without (filter_parameters ps filters) (puts ps t))
         else Err SysExit
       end ;;
  Ok (map (fun c => if String.eqb c H then "H_filter" else if String.eqb c "H_original" then H else c)
        (filter (fun c => negb (is_colour main c)) t)).
(** lightcurves/base_lightcurve.py:46-50 and activity/base_activity.py:46-50. *)
Definition required (l : list string) (t : cols) : result unit :=
  if forallb (fun c => member c t) l then Ok tt else Err ValueError.
(** modules/PPCalculateApparentMagnitude.py:76-93 and
    PPCalculateApparentMagnitudeInFilter.py:71-151.  [lc] and [ca] are the
    required columns of the chosen light curve and activity models; such models
    are taken to read nothing else and to add no column. *)
Definition magnitude_columns (phase main : string) (filters seen : list string) (lc ca : option (list string)) (t : cols)
  : result cols :=
  t <- (if (1 <? length filters)%nat then colour_columns phase main filters seen t
        else (_ <- need ["H_" ++ main] t ;; Ok (put "H_filter" t))) ;;
  _ <- need ["Range_LTC_km"] t ;;
  _ <- (if member "Obj_Sun_LTC_km" t then Ok tt
        else need ["Obj_Sun_x_LTC_km"; "Obj_Sun_y_LTC_km"; "Obj_Sun_z_LTC_km"] t) ;;
  _ <- need ["phase_deg"; "H_filter"] t ;;
  _ <- match parameters phase with Some ps => need ps t | None => Err SysExit end ;;
  let t := put "trailedSourceMagTrue" t in
  t <- match lc with Some l => _ <- required l t ;; Ok (put "Delta_m" t) | None => Ok t end ;;
  _ <- match ca with Some l => required l t | None => Ok tt end ;;
  Ok t.

(** sorcha.py:254-263 and des.py:245-250. *)
Definition trailing_columns (on : bool) (t : cols) : result cols :=
  _ <- (if on then need ["RARateCosDec_deg_day"; "DecRate_deg_day"; "seeingFwhmEff_arcsec"; "visitExposureTime"] t else Ok tt) ;;
  _ <- need ["trailedSourceMagTrue"] t ;;
  Ok (put "PSFMagTrue" t).
(** sorcha.py:265-272 and des.py:252-259. *)
Definition vignetting_columns (on : bool) (t : cols) : result cols :=
  _ <- (if on then need ["RA_deg"; "Dec_deg"; "fieldRA_deg"; "fieldDec_deg"] t else Ok tt) ;;
  _ <- need ["fieldFiveSigmaDepth_mag"] t ;;
  Ok (put "fiveSigmaDepth_mag" t).
(** sorcha.py:279-281 with modules/PPAddUncertainties.py:101-135. *)
Definition uncertainty_columns (trailing : bool) (t : cols) : result cols :=
  _ <- (if trailing then need ["RARateCosDec_deg_day"; "DecRate_deg_day"; "seeingFwhmGeom_arcsec"; "visitExposureTime"] t else Ok tt) ;;
  _ <- need ["trailedSourceMagTrue"; "fiveSigmaDepth_mag"; "seeingFwhmGeom_arcsec"; "PSFMagTrue"] t ;;
  Ok (puts ["astrometricSigma_deg"; "SNRTrailedSourceMag"; "trailedSourceMagSigma"; "SNRPSFMag"; "PSFMagSigma"] t).
(** sorcha.py:283-306 with modules/PPRandomizeMeasurements.py:73-92, 163-197 and
    302, and des.py:274-297. *)
Definition measure_columns (randomization default_snr_cut trailing : bool) (t : cols) : result cols :=
  if randomization then
    _ <- (if default_snr_cut then need ["SNRPSFMag"] t else Ok tt) ;;
    _ <- need ["trailedSourceMagTrue"; "trailedSourceMagSigma"] t ;;
    let t := put "trailedSourceMag" t in
    _ <- (if trailing then need ["PSFMagTrue"; "PSFMagSigma"] t else Ok tt) ;;
    let t := put "PSFMag" t in
    _ <- need ["RA_deg"; "Dec_deg"; "astrometricSigma_deg"] t ;;
    Ok (puts ["RA_deg"; "Dec_deg"] (rename_col "Dec_deg" "DecTrue_deg" (rename_col "RA_deg" "RATrue_deg" t)))
  else
    _ <- need ["RA_deg"; "Dec_deg"; "trailedSourceMagTrue"; "PSFMagTrue"] t ;;
    Ok (puts ["RATrue_deg"; "DecTrue_deg"; "trailedSourceMag"; "PSFMag"] t).
(** sorcha.py:308-319 and des.py:299-310 with modules/PPApplyFOVFilter.py:47-81,
    138-150, PPFootprintFilter.py:678-688 and PPVisitsFootprintFilter.py:60-83.
    Line 64 of PPApplyFOVFilter.py adds two settings of the ephemeris generator,
    which are None without it. *)
Definition camera_columns (v : fov) (sim : option simulation_ar) (t : cols) : result cols :=
  if String.eqb (fov_camera_model v) "footprint" then
    _ <- need ["RA_deg"; "Dec_deg"; "fieldRA_deg"; "fieldDec_deg"] t ;; Ok (put "detectorID" t)
  else if String.eqb (fov_camera_model v) "visits_footprint" then
    _ <- match sim with Some _ => Ok tt | None => Err TypeError end ;;
    _ <- need ["FieldID"; "RA_deg"; "Dec_deg"; "fieldRA_deg"] t ;; Ok (puts ["detectorID"; "limMag_perChip"] t)
  else if String.eqb (fov_camera_model v) "circle" then
    match fov_circle_radius v with
    | Some _ =>
      _ <- need ["RA_deg"; "Dec_deg"; "fieldRA_deg"; "fieldDec_deg"] t ;;
      Ok (without ["object_separation"] (put "object_separation" t))
    | None => Ok t
    end
  else Ok t.
(** sorcha.py:337-347 with modules/PPFadingFunctionFilter.py:39-47 and
    PPDetectionProbability.py:101-106; des.py:328-337 with
    modules/DESFadingFunctionFilter.py:44-48 and DESDetectionProbability.py:104-110. *)
Definition fading_columns (f : fading) (t : cols) : result cols :=
  match f with
  | FadingOff => Ok t
  | Fading _ _ =>
    _ <- need ["PSFMag"; if member "limMag_perChip" t then "limMag_perChip" else "fiveSigmaDepth_mag"] t ;;
    Ok (without ["detection_probability"] (put "detection_probability" t))
  | FadingDES _ =>
    _ <- need ["PSFMag"; "fiveSigmaDepth_mag"; "c"; "k"] t ;;
    Ok (without ["detection_probability"] (put "detection_probability" t))
  end.
(** sorcha.py:321-355 and des.py:312-345: the limits around the fading function.
    [bright_limit_on] without limits stops in modules/PPBrightLimit.py:48-50. *)
Definition limit_columns (c : configs) (t : cols) : result cols :=
  _ <- (match x_snr_limit (c_expert c) with Some _ => need ["SNRPSFMag"] t | None => Ok tt end) ;;
  _ <- (match x_mag_limit (c_expert c) with Some _ => need ["trailedSourceMag"] t | None => Ok tt end) ;;
  t <- fading_columns (c_fading c) t ;;
  _ <- (if fst (c_saturation c)
        then match snd (c_saturation c) with Some _ => need ["optFilter"; "PSFMag"] t | None => Err SysExit end else Ok tt) ;;
  Ok t.
(** sorcha.py:357-372 with modules/PPLinkingFilter.py:68-113. *)
Definition linking_columns (l : linking) (t : cols) : result cols :=
  match l_ssp l with
  | Some _ =>
    _ <- need ["ObjID"; "FieldID"; "fieldMJD_TAI"; "RA_deg"; "Dec_deg"] t ;;
    Ok (puts ["object_linked"; "date_linked_MJD"] t)
  | None => Ok t
  end.
(** des.py:347-370 with modules/PPDistanceandMotionCuts.py:25-38, 63-68 and
    DESDiscoveryFilter.py:45.  A cut that is on without bounds fails in the
    arithmetic with None. *)
Definition des_cut_columns (l : linking) (t : cols) : result cols :=
  _ <- (if l_distance_cut_on l then
          _ <- need ["Obj_Sun_x_LTC_km"; "Obj_Sun_y_LTC_km"; "Obj_Sun_z_LTC_km"; "ObjID"] t ;;
          match l_distance_cut l with Some _ => Ok tt | None => Err TypeError end else Ok tt) ;;
  _ <- (if l_motion_cut_on l then
          _ <- need ["RARateCosDec_deg_day"; "DecRate_deg_day"] t ;;
          match l_motion_cut l with Some _ => Ok tt | None => Err TypeError end else Ok tt) ;;
  _ <- (if l_des_discovery_on l
        then need ["ObjID"; "fieldMJD_TAI"; "Obj_Sun_x_LTC_km"; "Obj_Sun_y_LTC_km"; "Obj_Sun_z_LTC_km"] t else Ok tt) ;;
  Ok t.

(** modules/PPOutput.py:171-189. *)
Definition basic_columns : list string :=
  ["ObjID"; "fieldMJD_TAI"; "fieldRA_deg"; "fieldDec_deg"; "RA_deg"; "Dec_deg"; "astrometricSigma_deg"; "optFilter";
   "trailedSourceMag"; "trailedSourceMagSigma"; "fiveSigmaDepth_mag"; "phase_deg"; "Range_LTC_km"; "RangeRate_LTC_km_s";
   "Obj_Sun_LTC_km"].
(** modules/PPOutput.py:164-206: the columns written, with the writers' own
    needs: lines 64 (HDF5) and 129-131 (the indices of sqlite3, made after the
    last round). *)
Definition output_columns (c : configs) (t : cols) : result cols :=
  _ <- need ["Obj_Sun_x_LTC_km"; "Obj_Sun_y_LTC_km"; "Obj_Sun_z_LTC_km"] t ;;
  let t := put "Obj_Sun_LTC_km" t in
  out <- match o_columns (c_output c) with
         | Keyword k =>
           if String.eqb k "basic" then
             _ <- need basic_columns t ;;
             match l_ssp (c_linking c), l_drop_unlinked (c_linking c) with
             | Some _, false => _ <- need ["object_linked"] t ;; Ok (basic_columns ++ ["object_linked"])%list
             | _, _ => Ok basic_columns
             end
           else Ok t
         | Columns l => if forallb (fun x => member x t) l then Ok l else Err SysExit
         end ;;
  _ <- (if String.eqb (o_format (c_output c)) "hdf5" then need ["ObjID"] out
        else if String.eqb (o_format (c_output c)) "sqlite3"
        then (if forallb (fun x => member x out) ["ObjID"; "fieldMJD_TAI"; "optFilter"] then Ok tt else Err OperationalError)
        else Ok tt) ;;
  Ok out.
(** modules/PPStats.py:36-58. *)
Definition stats_columns (l : linking) (t : cols) : result unit :=
  _ <- need ["ObjID"; "optFilter"; "trailedSourceMag"; "phase_deg"] t ;;
  match l_ssp l, l_drop_unlinked l with
  | Some _, false => need ["object_linked"; "date_linked_MJD"] t
  | Some _, true => need ["date_linked_MJD"] t
  | None, _ => Ok tt
  end.

(** An optional switch as tested, sorcha.py:254, 265, 283. *)
Definition is_on (b : option bool) : bool := match b with Some true => true | _ => false end.

(** The required columns of the chosen model,
    modules/PPCalculateApparentMagnitudeInFilter.py:134-149. *)
Definition model_columns (req : string -> list string) (m : option string) : option (list string) :=
  match m with Some n => if String.eqb n "" then None else Some (req n) | None => None end.

(** A round of sorcha.py:129-140 and 190-388, or of des.py:118-129 and 179-386:
    the columns of the file that is written.  [des] says which of the two
    drivers runs (sorcha_cmdline/run.py).  [main] is the main filter found in
    the physical parameters file, [seen] lists the filters in which there are
    observations, [lc] and [ca] the required columns of the light curve and
    activity models by name.  [query] are the columns the
    pointing query returns, [aux] those of the auxiliary files with the orbits
    first, [stats] whether statistics are requested. *)
Definition round_columns (des : bool) (lc ca : string -> list string) (c : configs) (main : string) (seen : list string)
    (query : cols) (aux : list cols) (stats : bool) : result cols :=
  let x := c_expert c in
  p <- read_pointing_columns des (match c_fading c with FadingOff => false | _ => true end) query ;;
  p <- (if String.eqb (in_ephemerides_type (c_input c)) "external" then Ok p else precompute_columns p) ;;
  t <- observation_columns c main aux p ;;
  t <- match_columns t p ;;
  t <- magnitude_columns (c_phase_function c) main (c_filters c) seen (model_columns lc (c_lightcurve c))
         (model_columns ca (c_activity c)) t ;;
  t <- trailing_columns (is_on (x_trailing_losses_on x)) t ;;
  t <- vignetting_columns (is_on (x_vignetting_on x)) t ;;
  t <- (if des then Ok t else uncertainty_columns (is_on (x_trailing_losses_on x)) t) ;;
  t <- measure_columns (is_on (x_randomization_on x)) (x_default_snr_cut x) (is_on (x_trailing_losses_on x)) t ;;
  t <- camera_columns (c_fov c) (c_simulation c) t ;;
  t <- limit_columns c t ;;
  t <- (if des then des_cut_columns (c_linking c) t else linking_columns (c_linking c) t) ;;
  out <- output_columns c t ;;
  _ <- (if stats then stats_columns (c_linking c) (put "Obj_Sun_LTC_km" t) else Ok tt) ;;
  Ok out.
