(** The documented constraints on a configuration, stated on the values that
    later stages read and on the keys of the file. *)
From Coq Require Import ZArith QArith String List Bool.
From Verif Require Import Base.Prelude Base.Num Model.Config.
Import ListNotations.
Open Scope string_scope.

(** Not outside the closed interval, as far as comparisons can tell. *)
Definition within (lo hi x : num) : Prop := x = NaN \/ (num_le lo x /\ num_le x hi).
Definition not_negative (x : num) : Prop := x = NaN \/ num_le (Fin 0) x.
Definition has (s : section) (k : string) : Prop := exists v, key s k = Some v.
Definition lacks (s : section) (k : string) : Prop := key s k = None.
Definition all_or_none (s : section) (l : list string) : Prop :=
  (forall k, In k l -> has s k) \/ (forall k, In k l -> lacks s k).
(** Only the given keys occur. *)
Definition only (s : section) (l : list string) : Prop := forall k v, In (k, v) s -> In k l.
Definition is_lsst (survey : string) : Prop := In survey ["rubin_sim"; "RUBIN_SIM"; "LSST"; "lsst"].
Definition is_des (survey : string) : Prop := In survey ["DES"; "des"].
(** DES in any combination of cases. *)
Definition des_any_case (survey : string) : Prop :=
  In survey ["DES"; "DEs"; "DeS"; "Des"; "dES"; "dEs"; "deS"; "des"].

Definition input_ok (i : input) : Prop :=
  In (in_ephemerides_type i) ["ar"; "external"] /\ In (in_eph_format i) ["csv"; "whitespace"; "hdf5"]
  /\ In (in_aux_format i) ["comma"; "whitespace"; "csv"].
Definition filters_ok (survey : string) (l : list string) : Prop :=
  (is_lsst survey -> incl l ["u"; "g"; "r"; "i"; "z"; "y"]) /\ (is_des survey -> incl l ["g"; "r"; "i"; "z"; "Y"]).
Definition saturation_ok (filters : list string) (limits : option (list num)) : Prop :=
  forall l, limits = Some l -> length l = length filters.
Definition fov_ok (path_exists : string -> bool) (survey : string) (s : section) (v : fov) : Prop :=
  In (fov_camera_model v) ["circle"; "footprint"; "visits_footprint"; "none"]
  /\ (fov_camera_model v = "footprint" ->
       (forall p, fov_footprint_path v = Some p -> path_exists p = true) /\ fov_visits_query v = None
       /\ lacks s "visits_query" /\ lacks s "fill_factor" /\ lacks s "circle_radius")
  /\ (fov_camera_model v = "visits_footprint" ->
       des_any_case survey /\ (exists q, fov_visits_query v = Some q)
       /\ lacks s "footprint_edge_threshold" /\ lacks s "fill_factor" /\ lacks s "circle_radius")
  /\ (fov_camera_model v = "circle" ->
       (fov_fill_factor v <> None \/ fov_circle_radius v <> None)
       /\ (forall x, fov_fill_factor v = Some x -> within (Fin 0) (Fin 1) x)
       /\ (forall x, fov_circle_radius v = Some x -> not_negative x) /\ lacks s "footprint_edge_threshold").
Definition fading_ok (survey : string) (s : section) (f : fading) : Prop :=
  (forall w p, f = Fading w p ->
     ~ is_des survey /\ (w = NaN \/ (num_lt (Fin 0) w /\ num_le w (Fin (1#2)))) /\ within (Fin 0) (Fin 1) p)
  /\ (forall e, f = FadingDES e -> is_des survey)
  /\ (is_des survey -> has s "fading_function_on" /\ lacks s "fading_function_width" /\ lacks s "fading_function_peak_efficiency")
  /\ (~ is_des survey -> all_or_none s ["fading_function_width"; "fading_function_peak_efficiency"]).
Definition ssp_ok (p : ssp) : Prop :=
  within (Fin 0) (Fin 1) (ssp_detection_efficiency p) /\ (1 <= ssp_number_observations p)%Z
  /\ not_negative (ssp_separation_threshold p)
  /\ (forall q, (1 < ssp_number_observations p)%Z -> ssp_separation_threshold p = Fin q -> (0 < q)%Q)
  /\ not_negative (ssp_maximum_time p) /\ (1 <= ssp_number_tracklets p)%Z /\ (1 <= ssp_track_window p)%Z
  /\ within (Fin 0) (Fin 24) (ssp_night_start_utc p).
Definition ssp_key_names : list string := ["ssp_separation_threshold"; "ssp_number_observations"; "ssp_number_tracklets";
  "ssp_track_window"; "ssp_detection_efficiency"; "ssp_maximum_time"; "ssp_night_start_utc"].
Definition linking_ok (survey : string) (s : section) (l : linking) : Prop :=
  (forall p, l_ssp l = Some p -> ssp_ok p /\ ~ des_any_case survey)
  /\ all_or_none s ssp_key_names
  /\ (l_ssp l <> None <-> forall k, In k ssp_key_names -> has s k)
  /\ all_or_none s ["distance_cut_lower"; "distance_cut_upper"] /\ all_or_none s ["motion_cut_lower"; "motion_cut_upper"]
  /\ (l_distance_cut l <> None -> l_distance_cut_on l = true) /\ (l_motion_cut l <> None -> l_motion_cut_on l = true)
  /\ (l_distance_cut_on l = true \/ l_motion_cut_on l = true -> des_any_case survey).
Definition output_ok (o : output) : Prop :=
  In (o_format o) ["csv"; "sqlite3"; "hdf5"]
  /\ (forall k, o_columns o = Keyword k -> In k ["basic"; "all"])
  /\ (forall z, o_position_decimals o = Some z \/ o_magnitude_decimals o = Some z -> (0 <= z)%Z).
Definition expert_ok (survey : string) (x : expert) : Prop :=
  (forall v, x_snr_limit x = Some v \/ x_mag_limit x = Some v -> not_negative v)
  /\ (x_snr_limit x = None \/ x_mag_limit x = None)
  /\ (is_des survey -> x_randomization_on x = Some false /\ x_vignetting_on x = Some false /\ x_trailing_losses_on x = Some false)
  /\ (is_lsst survey -> x_randomization_on x <> None /\ x_vignetting_on x <> None /\ x_trailing_losses_on x <> None).

(** Everything documented that the validation enforces. *)
Definition consistent (path_exists : string -> bool) (lc_methods ca_methods : list string)
    (survey : string) (f : config_file) (c : configs) : Prop :=
  input_ok (c_input c)
  /\ (in_ephemerides_type (c_input c) = "ar" <-> c_simulation c <> None)
  /\ (c_simulation c = None -> forall k, In k ["ar_ang_fov"; "ar_fov_buffer"; "ar_picket"; "ar_obs_code"; "ar_healpix_order"] ->
        lacks (section_or_empty f "SIMULATION") k)
  /\ filters_ok survey (c_filters c)
  /\ saturation_ok (c_filters c) (snd (c_saturation c))
  /\ In (c_phase_function c) ["HG"; "HG1G2"; "HG12"; "linear"; "none"]
  /\ fov_ok path_exists survey (section_or_empty f "FOV") (c_fov c)
  /\ fading_ok survey (section_or_empty f "FADINGFUNCTION") (c_fading c)
  /\ linking_ok survey (section_or_empty f "LINKINGFILTER") (c_linking c)
  /\ output_ok (c_output c)
  /\ (forall m, c_lightcurve c = Some m -> m <> "none" /\ In m lc_methods)
  /\ (forall m, c_activity c = Some m -> m <> "none" /\ In m ca_methods)
  /\ expert_ok survey (c_expert c).

(** What the command line adds: the files that the configuration needs are
    there, and no visits database is given that would be ignored. *)
Definition arguments_ok (c : configs) (a : arguments) : Prop :=
  (in_ephemerides_type (c_input c) = "external" -> arg_ephemeris a <> None)
  /\ (forall m, m <> "" -> c_lightcurve c = Some m \/ c_activity c = Some m -> arg_complex a <> None)
  /\ (arg_visits a <> None <-> fov_visits_query (c_fov c) <> None)
  /\ (arg_visits a <> None -> fov_camera_model (c_fov c) = "visits_footprint").
