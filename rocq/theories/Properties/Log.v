(** What a run writes about its settings in its log. *)
From Coq Require Import ZArith QArith String Ascii List Bool.
From Verif Require Import Base.Prelude Base.Num Model.Config Model.Columns Model.Footprint Model.Log Spec.Log Proofs.Log.
Import ListNotations.
Open Scope string_scope.

(** * C88: the log records the settings of a run *)

Theorem C88_finishes_partial : forall int_of float_of path_exists lc_methods ca_methods f args c,
  startup int_of float_of path_exists lc_methods ca_methods f args = Ok c ->
  forall str_num str_int str_nums str_aux main colours a, g_visits a = arg_visits args ->
  exists l, PrintConfigsToLog str_num str_int str_nums str_aux c main colours a = Ok l.
Proof. exact C88_finishes_proof. Qed.
Print Assumptions C88_finishes_partial.
Theorem C88_inputs_partial : forall str_num str_int str_nums str_aux c main colours a l,
  PrintConfigsToLog str_num str_int str_nums str_aux c main colours a = Ok l ->
  (forall t, says l ("The config file used is located at " ++ t) <-> t = g_configfile a)
  /\ (forall t, says l ("The physical parameters file used is located at " ++ t) <-> t = g_paramsinput a)
  /\ (forall t, says l ("The orbits file used is located at " ++ t) <-> t = g_orbinfile a)
  /\ (forall t, says l ("The ephemerides file used is located at " ++ t) <-> g_input_ephemeris a = Some t /\ t <> "")
  /\ (forall t, says l ("The output ephemerides file is located " ++ t) <-> g_output_ephemeris a = Some t /\ t <> "")
  /\ (forall t, says l ("The survey selected is: " ++ t) <-> t = g_survey a)
  /\ (forall t, says l ("Format of ephemerides file is: " ++ t) <-> t = in_eph_format (c_input c))
  /\ (forall t, says l ("Format of auxiliary files is: " ++ t) <-> t = in_aux_format (c_input c))
  /\ (forall t, says l ("Pointing database path is: " ++ t) <-> t = g_pointing a)
  /\ (forall t, says l ("Pointing database required query is: " ++ t) <-> t = in_pointing_sql_query (c_input c))
  /\ (forall t, says l ("The number of objects processed in a single chunk is: " ++ t) <-> t = str_int (Some (in_size_serial_chunk (c_input c))))
  /\ (forall t, says l ("The main filter in which H is defined is " ++ t) <-> t = main)
  /\ (forall t, says l ("The filters included in the post-processing results are " ++ t) <-> t = String.concat " " (c_filters c))
  /\ (forall t, says l ("Thus, the colour indices included in the simulation are " ++ t) <-> colours <> [] /\ t = String.concat " " colours)
  /\ (forall t, says l ("The apparent brightness is calculated using the following phase function model: " ++ t) <-> t = c_phase_function c)
  /\ (says l "No cometary activity selected." <-> c_activity c = None).
Proof. exact C88_inputs_proof. Qed.
Print Assumptions C88_inputs_partial.
Theorem C88_switches_partial : forall str_num str_int str_nums str_aux c main colours a l,
  PrintConfigsToLog str_num str_int str_nums str_aux c main colours a = Ok l ->
  (says l "Computation of trailing losses is switched ON." <-> x_trailing_losses_on (c_expert c) = Some true)
  /\ (says l "Computation of trailing losses is switched OFF." <-> x_trailing_losses_on (c_expert c) <> Some true)
  /\ (says l "Randomization of position and magnitude around uncertainties is switched ON." <-> x_randomization_on (c_expert c) = Some true)
  /\ (says l "Randomization of position and magnitude around uncertainties is switched OFF." <-> x_randomization_on (c_expert c) <> Some true)
  /\ (says l "Vignetting is switched ON." <-> x_vignetting_on (c_expert c) = Some true)
  /\ (says l "Vignetting is switched OFF." <-> x_vignetting_on (c_expert c) <> Some true).
Proof. exact C88_switches_proof. Qed.
Print Assumptions C88_switches_partial.
Theorem C88_camera_partial : forall str_num str_int str_nums str_aux c main colours a l,
  PrintConfigsToLog str_num str_int str_nums str_aux c main colours a = Ok l ->
  (says l "Footprint is modelled after the actual camera footprint." <-> fov_camera_model (c_fov c) = "footprint")
  /\ (says l "Footprint is circular." <-> fov_camera_model (c_fov c) = "circle")
  /\ (says l "Footprint is the actual camera footprint for each observation." <-> fov_camera_model (c_fov c) = "visits_footprint")
  /\ (says l "Camera footprint is turned OFF." <-> ~ In (fov_camera_model (c_fov c)) ["footprint"; "circle"; "visits_footprint"])
  /\ (forall t, says l ("Loading camera footprint from " ++ t) <->
       (fov_camera_model (c_fov c) = "footprint" /\ fov_footprint_path (c_fov c) = Some t /\ t <> "") \/ (fov_camera_model (c_fov c) = "visits_footprint" /\ g_visits a = Some t))
  /\ (forall t, says l ("The footprint edge threshold is " ++ t) <-> fov_camera_model (c_fov c) = "footprint"
       /\ exists x, fov_footprint_edge_threshold (c_fov c) = Some x /\ is_zero x = false /\ t = str_num (Some x) ++ " arcseconds")
  /\ (forall t, says l ("The code will approximate chip gaps using filling factor: " ++ t) <-> fov_camera_model (c_fov c) = "circle"
       /\ exists x, fov_fill_factor (c_fov c) = Some x /\ is_zero x = false /\ t = str_num (Some x)).
Proof. exact C88_camera_proof. Qed.
Print Assumptions C88_camera_partial.
Theorem C88_limits_partial : forall str_num str_int str_nums str_aux c main colours a l,
  PrintConfigsToLog str_num str_int str_nums str_aux c main colours a = Ok l ->
  (forall t, says l ("The upper saturation limit(s) is/are: " ++ t) <-> fst (c_saturation c) = true /\ t = str_nums (snd (c_saturation c)))
  /\ (says l "Saturation limit is turned OFF." <-> fst (c_saturation c) = false)
  /\ (forall t, says l ("The lower SNR limit is: " ++ t) <-> exists x, x_snr_limit (c_expert c) = Some x /\ t = str_num (Some x))
  /\ (says l "SNR limit is turned OFF." <-> x_snr_limit (c_expert c) = None)
  /\ (forall t, says l ("The magnitude limit is: " ++ t) <-> exists x, x_mag_limit (c_expert c) = Some x /\ t = str_num (Some x))
  /\ (says l "Magnitude limit is turned OFF." <-> x_mag_limit (c_expert c) = None)
  /\ (says l "Default SNR cut is ON. All observations with SNR < 2.0 will be removed." <-> x_default_snr_cut (c_expert c) = true)
  /\ (says l "The detection efficiency fading function is OFF." <-> c_fading c = FadingOff)
  /\ (says l "The detection efficiency fading function is ON." <-> c_fading c <> FadingOff)
  /\ (forall w p, c_fading c = Fading w p -> forall t, says l ("The width parameter of the fading function has been set to: " ++ t) <-> t = str_num (Some w))
  /\ (forall w p, c_fading c = Fading w p -> forall t, says l ("The peak efficiency of the fading function has been set to: " ++ t) <-> t = str_num (Some p)).
Proof. exact C88_limits_proof. Qed.
Print Assumptions C88_limits_partial.
Theorem C88_linking_partial : forall str_num str_int str_nums str_aux c main colours a l,
  PrintConfigsToLog str_num str_int str_nums str_aux c main colours a = Ok l ->
  (says l "Solar System Processing linking filter is turned OFF." <-> l_ssp (c_linking c) = None)
  /\ (says l "Solar System Processing linking filter is turned ON." <-> l_ssp (c_linking c) <> None)
  /\ (forall t, says l ("...the fractional detection efficiency is: " ++ t) <-> exists p, l_ssp (c_linking c) = Some p /\ t = str_num (Some (ssp_detection_efficiency p)))
  /\ (forall t, says l ("...the minimum required number of observations in a tracklet is: " ++ t) <-> exists p, l_ssp (c_linking c) = Some p /\ t = str_int (Some (ssp_number_observations p)))
  /\ (forall t, says l ("...the minimum required number of tracklets to form a track is: " ++ t) <-> exists p, l_ssp (c_linking c) = Some p /\ t = str_int (Some (ssp_number_tracklets p)))
  /\ (forall t, says l ("...the maximum window of time in days of tracklets to be contained in to form a track is: " ++ t) <-> exists p, l_ssp (c_linking c) = Some p /\ t = str_int (Some (ssp_track_window p)))
  /\ (forall t, says l ("...the minimum angular separation between observations in arcseconds is: " ++ t) <-> exists p, l_ssp (c_linking c) = Some p /\ t = str_num (Some (ssp_separation_threshold p)))
  /\ (forall t, says l ("...the maximum temporal separation between subsequent observations in a tracklet in days is: " ++ t) <-> exists p, l_ssp (c_linking c) = Some p /\ t = str_num (Some (ssp_maximum_time p)))
  /\ (forall t, says l ("...the time in UTC at which it is noon at the observatory location (in standard time) is " ++ t) <-> exists p, l_ssp (c_linking c) = Some p /\ t = str_num (Some (ssp_night_start_utc p)))
  /\ (says l "Unlinked objects will not be dropped." <-> l_ssp (c_linking c) <> None /\ l_drop_unlinked (c_linking c) = false).
Proof. exact C88_linking_proof. Qed.
Print Assumptions C88_linking_partial.
Theorem C88_auxiliary_partial : forall str_num str_int str_nums str_aux c main colours a l,
  PrintConfigsToLog str_num str_int str_nums str_aux c main colours a = Ok l ->
  (forall t, says l ("...the leap second file is: " ++ t) <-> t = str_aux "leap_seconds")
  /\ (forall t, says l ("...the historical Earth orientation specification file is: " ++ t) <-> t = str_aux "earth_historical")
  /\ (forall t, says l ("...the prediction of the Earth's future orientation file is: " ++ t) <-> t = str_aux "earth_predict")
  /\ (forall t, says l ("...the orientation information and physical constants for other bodies file is: " ++ t) <-> t = str_aux "orientation_constants")
  /\ (forall t, says l ("...the Earth's position for ephemerides file is: " ++ t) <-> t = str_aux "planet_ephemeris")
  /\ (forall t, says l ("...the regularly updated specification of the Earth's orientation file is: " ++ t) <-> t = str_aux "earth_high_precision")
  /\ (forall t, says l ("...the observatory position information and Minor Planet Center (MPC) observatory codes file is: " ++ t) <-> t = str_aux "observatory_codes" ++ " and compressed file is: " ++ str_aux "observatory_codes_compressed")
  /\ (forall t, says l ("...the ephemerides for solar-system planets from JPL's Horizon system file is: " ++ t) <-> t = str_aux "jpl_planets")
  /\ (forall t, says l ("...the ephemerides for solar-system small bodies from JPL's Horizon system file is: " ++ t) <-> t = str_aux "jpl_small_bodies")
  /\ (forall t, says l ("...the meta kernal file is : " ++ t) <-> t = str_aux "meta_kernel").
Proof. exact C88_auxiliary_proof. Qed.
Print Assumptions C88_auxiliary_partial.
Theorem C88_generator_partial : forall str_num str_int str_nums str_aux c main colours a l,
  PrintConfigsToLog str_num str_int str_nums str_aux c main colours a = Ok l ->
  (says l "ASSIST+REBOUND Simulation is turned ON." <-> in_ephemerides_type (c_input c) = "ar")
  /\ (says l "ASSIST+REBOUND Simulation is turned OFF." <-> in_ephemerides_type (c_input c) <> "ar")
  /\ (forall s, in_ephemerides_type (c_input c) = "ar" -> c_simulation c = Some s -> forall t, says l ("...the field's angular FOV is: " ++ t) <-> t = str_num (Some (ar_ang_fov s)))
  /\ (forall s, in_ephemerides_type (c_input c) = "ar" -> c_simulation c = Some s -> forall t, says l ("...the buffer around the FOV is: " ++ t) <-> t = str_num (Some (ar_fov_buffer s)))
  /\ (forall s, in_ephemerides_type (c_input c) = "ar" -> c_simulation c = Some s -> forall t, says l ("...the picket interval is: " ++ t) <-> t = str_int (Some (ar_picket s)))
  /\ (forall s, in_ephemerides_type (c_input c) = "ar" -> c_simulation c = Some s -> forall t, says l ("...the healpix order is: " ++ t) <-> t = str_int (Some (ar_healpix_order s)))
  /\ (forall s, in_ephemerides_type (c_input c) = "ar" -> c_simulation c = Some s -> forall t, says l ("...the number of sub-intervals is: " ++ t) <-> t = str_int (Some (ar_n_sub_intervals s)))
  /\ (forall s, in_ephemerides_type (c_input c) = "ar" -> c_simulation c = Some s -> forall t, says l ("...the observatory code is: " ++ t) <-> t = ar_obs_code s).
Proof. exact C88_generator_proof. Qed.
Print Assumptions C88_generator_partial.
Theorem C88_output_partial : forall str_num str_int str_nums str_aux c main colours a l,
  PrintConfigsToLog str_num str_int str_nums str_aux c main colours a = Ok l ->
  (forall t, says l ("The lightcurve model is: " ++ t) <-> c_lightcurve c = Some t /\ t <> "")
  /\ (says l "No lightcurve model is being applied." <-> c_lightcurve c = None \/ c_lightcurve c = Some "")
  /\ (forall t, says l ("Output files will be saved in path: " ++ t) <-> t = g_outpath a ++ " with filestem " ++ g_outfilestem a)
  /\ (forall t, says l ("Output files will be saved as format: " ++ t) <-> t = o_format (c_output c))
  /\ (forall t, says l ("In the output, positions will be rounded to " ++ t) <->
       exists n, o_position_decimals (c_output c) = Some n /\ n <> 0%Z /\ t = str_int (Some n) ++ " decimal places.")
  /\ (says l "In the output, positions will not be rounded" <-> o_position_decimals (c_output c) = None \/ o_position_decimals (c_output c) = Some 0%Z)
  /\ (forall t, says l ("In the output, magnitudes will be rounded to " ++ t) <->
       exists n, o_magnitude_decimals (c_output c) = Some n /\ n <> 0%Z /\ t = str_int (Some n) ++ " decimal places.")
  /\ (says l "In the output, magnitudes will not be rounded" <-> o_magnitude_decimals (c_output c) = None \/ o_magnitude_decimals (c_output c) = Some 0%Z)
  /\ (forall k, o_columns (c_output c) = Keyword k -> forall t, says l ("The output columns are set to: " ++ t) <-> t = k)
  /\ (forall k, o_columns (c_output c) = Columns k -> forall t, says l ("The output columns are set to: " ++ t) <-> t = String.concat " " k).
Proof. exact C88_output_proof. Qed.
Print Assumptions C88_output_partial.

(** The log speaks of a margin where the camera filter has none. *)
Theorem C88_threshold_refuted : forall str_num str_int str_nums str_aux c main colours a l,
  PrintConfigsToLog str_num str_int str_nums str_aux c main colours a = Ok l ->
  fov_camera_model (c_fov c) = "footprint" -> fov_footprint_edge_threshold (c_fov c) = None ->
  says l "Default footprint edge threshold used (10px or 2 arcseconds)."
  /\ forall eps d p, on_detector eps None d p = on_area eps d p.
Proof. exact C88_threshold_refuted_proof. Qed.
Print Assumptions C88_threshold_refuted.
(** An activity model is logged only if it is called "comet". *)
Theorem C88_activity_refuted : forall str_num str_int str_nums str_aux c main colours a l m,
  PrintConfigsToLog str_num str_int str_nums str_aux c main colours a = Ok l -> c_activity c = Some m -> m <> "comet" ->
  ~ says l "No cometary activity selected." /\ forall t, ~ says l ("Cometary activity set to: " ++ t).
Proof. exact C88_activity_refuted_proof. Qed.
Print Assumptions C88_activity_refuted.
(** With a fill factor the radius, which is applied too, is not logged. *)
Theorem C88_radius_refuted : forall str_num str_int str_nums str_aux c main colours a l x,
  PrintConfigsToLog str_num str_int str_nums str_aux c main colours a = Ok l ->
  fov_fill_factor (c_fov c) = Some x -> is_zero x = false ->
  forall t, ~ says l ("A circular footprint will be applied with radius: " ++ t).
Proof. exact C88_radius_refuted_proof. Qed.
Print Assumptions C88_radius_refuted.
(** The cuts of the Dark Energy Survey and the limit of its fading function leave no trace in the log. *)
Theorem C88_des_refuted : forall str_num str_int str_nums str_aux c main colours a e e' disc dist dist_cut mot mot_cut,
  c_fading c = FadingDES e -> 
  PrintConfigsToLog str_num str_int str_nums str_aux
    {| c_input := c_input c; c_simulation := c_simulation c; c_filters := c_filters c; c_saturation := c_saturation c;
       c_phase_function := c_phase_function c; c_fov := c_fov c; c_fading := FadingDES e';
       c_linking := {| l_ssp := l_ssp (c_linking c); l_drop_unlinked := l_drop_unlinked (c_linking c); l_des_discovery_on := disc;
                       l_distance_cut_on := dist; l_distance_cut := dist_cut; l_motion_cut_on := mot; l_motion_cut := mot_cut |};
       c_output := c_output c; c_lightcurve := c_lightcurve c; c_activity := c_activity c; c_expert := c_expert c |} main colours a
  = PrintConfigsToLog str_num str_int str_nums str_aux c main colours a.
Proof. exact C88_des_refuted_proof. Qed.
Print Assumptions C88_des_refuted.

(** A configuration with a circle and a fill factor, another activity model and the
    fading function of the Dark Energy Survey. *)
Definition logged (v : fov) : configs :=
  {| c_input := {| in_ephemerides_type := "external"; in_eph_format := "csv"; in_size_serial_chunk := 5; in_aux_format := "comma";
                   in_pointing_sql_query := "SELECT" |};
     c_simulation := None; c_filters := ["r"; "g"]; c_saturation := (true, Some [Fin 16]); c_phase_function := "HG"; c_fov := v;
     c_fading := FadingDES (Fin (9 # 10));
     c_linking := {| l_ssp := None; l_drop_unlinked := true; l_des_discovery_on := true; l_distance_cut_on := false;
                     l_distance_cut := None; l_motion_cut_on := false; l_motion_cut := None |};
     c_output := {| o_format := "csv"; o_columns := Keyword "basic"; o_position_decimals := Some 7%Z; o_magnitude_decimals := None |};
     c_lightcurve := None; c_activity := Some "lsst_comet";
     c_expert := {| x_snr_limit := None; x_mag_limit := Some (Fin 24); x_default_snr_cut := true; x_brute_force := true;
                    x_randomization_on := Some true; x_vignetting_on := Some false; x_trailing_losses_on := Some true |} |}.
Definition logged_from : logged_args :=
  {| g_configfile := "c.ini"; g_paramsinput := "p.csv"; g_orbinfile := "o.csv"; g_input_ephemeris := Some "e.csv";
     g_output_ephemeris := None; g_survey := "DES"; g_pointing := "p.db"; g_visits := None; g_outpath := "out"; g_outfilestem := "stem" |}.
Definition circle : fov :=
  {| fov_camera_model := "circle"; fov_footprint_path := None; fov_visits_query := None; fov_fill_factor := Some (Fin (9 # 10));
     fov_circle_radius := Some (Fin 1); fov_footprint_edge_threshold := None |}.
Definition footprint : fov :=
  {| fov_camera_model := "footprint"; fov_footprint_path := Some "f.csv"; fov_visits_query := None; fov_fill_factor := None;
     fov_circle_radius := None; fov_footprint_edge_threshold := None |}.
Definition log_of (v : fov) : result (list (string * string)) :=
  PrintConfigsToLog (fun _ => "number") (fun _ => "whole") (fun _ => "numbers") (fun _ => "aux") (logged v) "r" ["g-r"] logged_from.
Example C88_case : exists l l',
  log_of circle = Ok l /\ says l "The magnitude limit is: number" /\ says l "Footprint is circular." /\ ~ says l "Saturation limit is turned OFF."
  /\ log_of footprint = Ok l' /\ says l' "Loading camera footprint from f.csv" /\ ~ says l' "Footprint is circular."
  /\ c_activity (logged circle) = Some "lsst_comet" /\ is_zero (Fin (9 # 10)) = false.
Proof.
  destruct (log_of circle) as [l|] eqn:E; [|vm_compute in E; discriminate].
  destruct (log_of footprint) as [l'|] eqn:E'; [|vm_compute in E'; discriminate].
  exists l, l'. unfold log_of in E, E'.
  pose proof (C88_limits_proof _ _ _ _ _ _ _ _ _ E) as (_ & S & _ & _ & M & _).
  pose proof (C88_camera_proof _ _ _ _ _ _ _ _ _ E) as (_ & C & _).
  pose proof (C88_camera_proof _ _ _ _ _ _ _ _ _ E') as (_ & C' & _ & _ & F & _).
  split; [reflexivity|].
  split; [apply (proj2 (M "number")); exists (Fin 24); split; reflexivity|].
  split; [apply (proj2 C); reflexivity|].
  split; [intro H; apply (proj1 S) in H; discriminate|].
  split; [reflexivity|].
  split; [apply (proj2 (F "f.csv")); left; repeat split; discriminate|].
  split; [intro H; apply (proj1 C') in H; discriminate|].
  split; reflexivity.
Qed.
