(** What a run writes about its configuration in its log:
    [PrintConfigsToLog], utilities/sorchaConfigs.py:1503-1749, called in
    sorcha.py:123 and des.py:112.  Paths are relative to /repo/src/sorcha; line
    numbers refer to utilities/sorchaConfigs.py unless a file is named. *)
From Coq Require Import ZArith QArith String Ascii List Bool.
From Verif Require Import Base.Prelude Base.Num Model.Config Model.Columns.
Import ListNotations.
Open Scope string_scope.
Open Scope result_scope.

(** The attributes of [cmd_args] that are logged, utilities/sorchaArguments.py:68-81;
    [None] for Python's None. *)
Record logged_args := { g_configfile : string; g_paramsinput : string; g_orbinfile : string;
  g_input_ephemeris : option string; g_output_ephemeris : option string; g_survey : string; g_pointing : string;
  g_visits : option string; g_outpath : string; g_outfilestem : string }.

(** A message: the constant it begins with and what is added to it, 1522-1749. *)
Definition message := (string * string)%type.
(** The text handed to [pplogger.info], 1522-1749. *)
Definition rendered (m : message) : string := fst m ++ snd m.
(** [pplogger.info("..." + x)], 1522-1749: adding None to a string is a TypeError. *)
Definition info (head : string) (tail : option string) : result (list message) :=
  match tail with Some t => Ok [(head, t)] | None => Err TypeError end.
(** A message without a value, 1534, 1559-1571 and others. *)
Definition note (head : string) : result (list message) := Ok [(head, "")].
(** Nothing is logged, 1525-1528 and others: an [if] without [else]. *)
Definition silent : result (list message) := Ok [].
(** One statement after the other, 1522-1749. *)
Definition both (a b : result (list message)) : result (list message) := x <- a ;; y <- b ;; Ok (x ++ y)%list.
(** All statements of a block, 1522-1749. *)
Definition block (l : list (result (list message))) : result (list message) := fold_right both silent l.
(** Truth of a number that may be None, 1582, 1592, 1596. *)
Definition nonzero (x : option num) : bool :=
  match x with None => false | Some (Fin q) => negb (Qeq_bool q 0) | Some _ => true end.
(** Truth of a whole number that may be None, 1730, 1738. *)
Definition nonzero_int (x : option Z) : bool := match x with None => false | Some z => negb (Z.eqb z 0) end.
(** [if ...: pplogger.info("... ON.") else: pplogger.info("... OFF.")], 1558-1571. *)
Definition on_off (b : bool) (on off : string) : result (list message) := note (if b then on else off).

Section Log.
(** [str()] of numbers and of a list of numbers, 1542-1743. *)
Variables (str_num : option num -> string) (str_int : option Z -> string) (str_nums : option (list num) -> string).
(** [str()] of the auxiliary file names by attribute, 1673-1707. *)
Variable str_aux : string -> string.

(** 1573-1604. *)
Definition log_fov (v : fov) (a : logged_args) : result (list message) :=
  if String.eqb (fov_camera_model v) "footprint" then block [
    note "Footprint is modelled after the actual camera footprint.";
    (if truthy (fov_footprint_path v) then info "Loading camera footprint from " (fov_footprint_path v)
     else block [
       (if member (lower (g_survey a)) ["rubin_sim"; "lsst"]
        then note "Loading default LSST footprint LSST_detector_corners_100123.csv" else silent);
       (if String.eqb (lower (g_survey a)) "des" then note "Loading default DES footprint DES_ccd_corners.csv" else silent)]);
    (if nonzero (fov_footprint_edge_threshold v)
     then info "The footprint edge threshold is " (Some (str_num (fov_footprint_edge_threshold v) ++ " arcseconds"))
     else note "Default footprint edge threshold used (10px or 2 arcseconds).")]
  else if String.eqb (fov_camera_model v) "circle" then block [
    note "Footprint is circular.";
    (if nonzero (fov_fill_factor v)
     then info "The code will approximate chip gaps using filling factor: " (Some (str_num (fov_fill_factor v)))
     else if nonzero (fov_circle_radius v)
     then info "A circular footprint will be applied with radius: " (Some (str_num (fov_circle_radius v)))
     else silent)]
  else if String.eqb (fov_camera_model v) "visits_footprint" then block [
    note "Footprint is the actual camera footprint for each observation.";
    info "Loading camera footprint from " (g_visits a)]
  else note "Camera footprint is turned OFF.".

(** 1606-1635. *)
Definition log_limits (c : configs) : result (list message) :=
  let x := c_expert c in
  block [
    (if fst (c_saturation c) then info "The upper saturation limit(s) is/are: " (Some (str_nums (snd (c_saturation c))))
     else note "Saturation limit is turned OFF.");
    (match x_snr_limit x with Some l => info "The lower SNR limit is: " (Some (str_num (Some l))) | None => note "SNR limit is turned OFF." end);
    (if x_default_snr_cut x then note "Default SNR cut is ON. All observations with SNR < 2.0 will be removed." else silent);
    (match x_mag_limit x with Some l => info "The magnitude limit is: " (Some (str_num (Some l))) | None => note "Magnitude limit is turned OFF." end);
    (match c_fading c with
     | FadingOff => note "The detection efficiency fading function is OFF."
     | f => block [
         note "The detection efficiency fading function is ON.";
         info "The width parameter of the fading function has been set to: "
           (Some (str_num (match f with Fading w _ => Some w | _ => None end)));
         info "The peak efficiency of the fading function has been set to: "
           (Some (str_num (match f with Fading _ p => Some p | _ => None end)))]
     end)].

(** 1637-1671. *)
Definition log_linking (l : linking) : result (list message) :=
  match l_ssp l with
  | None => note "Solar System Processing linking filter is turned OFF."
  | Some p => block [
      note "Solar System Processing linking filter is turned ON.";
      note "For SSP linking...";
      info "...the fractional detection efficiency is: " (Some (str_num (Some (ssp_detection_efficiency p))));
      info "...the minimum required number of observations in a tracklet is: " (Some (str_int (Some (ssp_number_observations p))));
      info "...the minimum required number of tracklets to form a track is: " (Some (str_int (Some (ssp_number_tracklets p))));
      info "...the maximum window of time in days of tracklets to be contained in to form a track is: " (Some (str_int (Some (ssp_track_window p))));
      info "...the minimum angular separation between observations in arcseconds is: " (Some (str_num (Some (ssp_separation_threshold p))));
      info "...the maximum temporal separation between subsequent observations in a tracklet in days is: " (Some (str_num (Some (ssp_maximum_time p))));
      info "...the time in UTC at which it is noon at the observatory location (in standard time) is " (Some (str_num (Some (ssp_night_start_utc p))));
      (if l_drop_unlinked l then silent else note "Unlinked objects will not be dropped.")]
  end.

(** 1672-1707. *)
Definition log_auxiliary : result (list message) := block [
  note "The auxiliary files used for emphemris generation...";
  info "...the leap second file is: " (Some (str_aux "leap_seconds"));
  info "...the historical Earth orientation specification file is: " (Some (str_aux "earth_historical"));
  info "...the prediction of the Earth's future orientation file is: " (Some (str_aux "earth_predict"));
  info "...the orientation information and physical constants for other bodies file is: " (Some (str_aux "orientation_constants"));
  info "...the Earth's position for ephemerides file is: " (Some (str_aux "planet_ephemeris"));
  info "...the regularly updated specification of the Earth's orientation file is: " (Some (str_aux "earth_high_precision"));
  info "...the observatory position information and Minor Planet Center (MPC) observatory codes file is: "
    (Some (str_aux "observatory_codes" ++ " and compressed file is: " ++ str_aux "observatory_codes_compressed"));
  info "...the ephemerides for solar-system planets from JPL's Horizon system file is: " (Some (str_aux "jpl_planets"));
  info "...the ephemerides for solar-system small bodies from JPL's Horizon system file is: " (Some (str_aux "jpl_small_bodies"));
  info "...the meta kernal file is : " (Some (str_aux "meta_kernel"))].

(** 1708-1718. *)
Definition log_simulation (c : configs) : result (list message) :=
  if String.eqb (in_ephemerides_type (c_input c)) "ar" then
    let s := c_simulation c in
    block [
      note "ASSIST+REBOUND Simulation is turned ON.";
      note "For ASSIST+REBOUND...";
      info "...the field's angular FOV is: " (Some (str_num (option_map ar_ang_fov s)));
      info "...the buffer around the FOV is: " (Some (str_num (option_map ar_fov_buffer s)));
      info "...the picket interval is: " (Some (str_int (option_map ar_picket s)));
      info "...the observatory code is: " (Some (match s with Some x => ar_obs_code x | None => "None" end));
      info "...the healpix order is: " (Some (str_int (option_map ar_healpix_order s)));
      info "...the number of sub-intervals is: " (Some (str_int (option_map ar_n_sub_intervals s)))]
  else note "ASSIST+REBOUND Simulation is turned OFF.".

(** 1720-1749. *)
Definition log_output (c : configs) (a : logged_args) : result (list message) :=
  block [
    (if truthy (c_lightcurve c)
     then block [note "A lightcurve model is being applied."; info "The lightcurve model is: " (c_lightcurve c)]
     else note "No lightcurve model is being applied.");
    info "Output files will be saved in path: " (Some (g_outpath a ++ " with filestem " ++ g_outfilestem a));
    info "Output files will be saved as format: " (Some (o_format (c_output c)));
    (if nonzero_int (o_position_decimals (c_output c))
     then info "In the output, positions will be rounded to " (Some (str_int (o_position_decimals (c_output c)) ++ " decimal places."))
     else note "In the output, positions will not be rounded");
    (if nonzero_int (o_magnitude_decimals (c_output c))
     then info "In the output, magnitudes will be rounded to " (Some (str_int (o_magnitude_decimals (c_output c)) ++ " decimal places."))
     else note "In the output, magnitudes will not be rounded");
    info "The output columns are set to: "
      (Some (match o_columns (c_output c) with Keyword k => k | Columns l => String.concat " " l end))].

(** 1503-1749.  [main] and [colours] are the values set in sorcha.py:119-121. *)
Definition PrintConfigsToLog (c : configs) (main : string) (colours : list string) (a : logged_args) : result (list message) :=
  let x := c_expert c in
  block [
    info "The config file used is located at " (Some (g_configfile a));
    info "The physical parameters file used is located at " (Some (g_paramsinput a));
    info "The orbits file used is located at " (Some (g_orbinfile a));
    (if truthy (g_input_ephemeris a) then info "The ephemerides file used is located at " (g_input_ephemeris a) else silent);
    (if truthy (g_output_ephemeris a) then info "The output ephemerides file is located " (g_output_ephemeris a) else silent);
    info "The survey selected is: " (Some (g_survey a));
    (match c_activity c with
     | Some m => if String.eqb m "comet" then info "Cometary activity set to: " (Some m) else silent
     | None => note "No cometary activity selected." end);
    info "Format of ephemerides file is: " (Some (in_eph_format (c_input c)));
    info "Format of auxiliary files is: " (Some (in_aux_format (c_input c)));
    info "Pointing database path is: " (Some (g_pointing a));
    info "Pointing database required query is: " (Some (in_pointing_sql_query (c_input c)));
    info "The number of objects processed in a single chunk is: " (Some (str_int (Some (in_size_serial_chunk (c_input c)))));
    info "The main filter in which H is defined is " (Some main);
    info "The filters included in the post-processing results are " (Some (String.concat " " (c_filters c)));
    (match colours with
     | [] => silent
     | _ => info "Thus, the colour indices included in the simulation are " (Some (String.concat " " colours)) end);
    info "The apparent brightness is calculated using the following phase function model: " (Some (c_phase_function c));
    on_off (is_on (x_trailing_losses_on x)) "Computation of trailing losses is switched ON." "Computation of trailing losses is switched OFF.";
    on_off (is_on (x_randomization_on x)) "Randomization of position and magnitude around uncertainties is switched ON."
      "Randomization of position and magnitude around uncertainties is switched OFF.";
    on_off (is_on (x_vignetting_on x)) "Vignetting is switched ON." "Vignetting is switched OFF.";
    log_fov (c_fov c) a;
    log_limits c;
    log_linking (c_linking c);
    log_auxiliary;
    log_simulation c;
    log_output c a].
End Log.
