(** What a configuration file says, key by key, independent of the order in
    which the validation looks at it. *)
From Coq Require Import ZArith QArith String Ascii List Bool Permutation.
From Verif Require Import Base.Prelude Base.Num Model.Csv Model.Config Spec.Config.
Import ListNotations.
Open Scope string_scope.

(** Only characters satisfying [p]. *)
Definition all_chars (p : ascii -> bool) (s : string) : Prop := forall c, In c (list_ascii_of_string s) -> p c = true.
(** [w] is [v] without the characters satisfying [p] at both ends. *)
Definition trimmed (p : ascii -> bool) (v w : string) : Prop :=
  exists a b, v = a ++ w ++ b /\ all_chars p a /\ all_chars p b
    /\ (forall c r, w = String c r -> p c = false) /\ (forall r c, w = r ++ String c "" -> p c = false).
(** The text between commas. *)
Definition comma_list (v : string) (l : list string) : Prop :=
  l <> [] /\ v = String.concat "," l /\ forall x, In x l -> ~ In ","%char (list_ascii_of_string x).
(** The spellings of a switch, with white space around. *)
Definition spelled (v : string) (b : bool) : Prop :=
  exists w, trimmed py_space v w
    /\ In w (if b then ["true"; "1"; "yes"; "y"; "True"] else ["false"; "0"; "no"; "n"; "False"]).
(** A switch or its default. *)
Definition switch (s : section) (k : string) (default b : bool) : Prop :=
  match key s k with Some v => spelled v b | None => b = default end.
(** A key that may be absent. *)
Definition maybe {A} (R : string -> A -> Prop) (s : section) (k : string) (o : option A) : Prop :=
  match key s k, o with Some v, Some x => R v x | None, None => True | _, _ => False end.
(** A key that has to be there. *)
Definition must {A} (R : string -> A -> Prop) (s : section) (k : string) (x : A) : Prop :=
  exists v, key s k = Some v /\ R v x.
Definition as_given (v x : string) : Prop := v = x.
(** A model name; "none" is no model. *)
Definition model_said (s : section) (k : string) (o : option string) : Prop :=
  match key s k with Some v => o = if String.eqb v "none" then None else Some v | None => o = None end.

Section Values.
Variable int_of : string -> option Z.
Variable float_of : string -> option num.
Definition int_said (v : string) (z : Z) : Prop := int_of v = Some z.
Definition float_said (v : string) (x : num) : Prop := float_of v = Some x.

Definition input_said (s : section) (i : input) : Prop :=
  must as_given s "ephemerides_type" (in_ephemerides_type i) /\ must as_given s "eph_format" (in_eph_format i)
  /\ must int_said s "size_serial_chunk" (in_size_serial_chunk i) /\ must as_given s "aux_format" (in_aux_format i)
  /\ must as_given s "pointing_sql_query" (in_pointing_sql_query i).
Definition simulation_said (s : section) (r : option simulation_ar) : Prop :=
  forall a, r = Some a ->
    must float_said s "ar_ang_fov" (ar_ang_fov a) /\ must float_said s "ar_fov_buffer" (ar_fov_buffer a)
    /\ must int_said s "ar_picket" (ar_picket a) /\ must as_given s "ar_obs_code" (ar_obs_code a)
    /\ must int_said s "ar_healpix_order" (ar_healpix_order a)
    /\ (must int_said s "ar_n_sub_intervals" (ar_n_sub_intervals a)
        \/ (lacks s "ar_n_sub_intervals" /\ ar_n_sub_intervals a = 101%Z)).
Definition filters_said (s : section) (l : list string) : Prop :=
  must (fun v l => exists raw, comma_list v raw /\ Forall2 (trimmed py_space) raw l) s "observing_filters" l.
(** One number holds for all filters, several are one for each filter in order. *)
Definition saturation_said (s : section) (filters : list string) (r : bool * option (list num)) : Prop :=
  match key s "bright_limit", snd r with
  | None, None => True
  | Some v, Some l =>
    fst r = true /\
    exists raw xs, comma_list v raw /\ Forall2 (fun t x => exists w, trimmed py_space t w /\ float_of w = Some x) raw xs
      /\ (xs = l \/ exists x, xs = [x] /\ l = map (fun _ => x) filters)
  | _, _ => False
  end.
Definition fov_said (s : section) (v : fov) : Prop :=
  must as_given s "camera_model" (fov_camera_model v)
  /\ maybe as_given s "footprint_path" (fov_footprint_path v)
  /\ maybe as_given s "visits_query" (fov_visits_query v)
  /\ (fov_camera_model v = "circle" ->
      maybe float_said s "fill_factor" (fov_fill_factor v) /\ maybe float_said s "circle_radius" (fov_circle_radius v))
  /\ (fov_camera_model v = "footprint" -> maybe float_said s "footprint_edge_threshold" (fov_footprint_edge_threshold v)).
Definition fading_said (s : section) (f : fading) : Prop :=
  match f with
  | Fading w p => must float_said s "fading_function_width" w /\ must float_said s "fading_function_peak_efficiency" p
  | FadingDES e => must spelled s "fading_function_on" true
      /\ (must float_said s "des_transient_efficency" e \/ (lacks s "des_transient_efficency" /\ e = Fin 1))
  | FadingOff => must spelled s "fading_function_on" false
      \/ (lacks s "fading_function_width" /\ lacks s "fading_function_peak_efficiency")
  end.
Definition ssp_said (s : section) (p : ssp) : Prop :=
  must float_said s "ssp_detection_efficiency" (ssp_detection_efficiency p)
  /\ must int_said s "ssp_number_observations" (ssp_number_observations p)
  /\ must float_said s "ssp_separation_threshold" (ssp_separation_threshold p)
  /\ must float_said s "ssp_maximum_time" (ssp_maximum_time p)
  /\ must int_said s "ssp_number_tracklets" (ssp_number_tracklets p)
  /\ must int_said s "ssp_track_window" (ssp_track_window p)
  /\ must float_said s "ssp_night_start_utc" (ssp_night_start_utc p).
Definition cut_said (s : section) (lo up : string) (o : option (num * num)) : Prop :=
  match o with
  | Some (l, u) => must float_said s lo l /\ must float_said s up u
  | None => lacks s lo /\ lacks s up
  end.
Definition linking_said (s : section) (l : linking) : Prop :=
  (forall p, l_ssp l = Some p -> ssp_said s p) /\ switch s "drop_unlinked" true (l_drop_unlinked l)
  /\ cut_said s "distance_cut_lower" "distance_cut_upper" (l_distance_cut l)
  /\ cut_said s "motion_cut_lower" "motion_cut_upper" (l_motion_cut l).
(** A list of columns has a comma, anything else is a keyword. *)
Definition output_said (s : section) (o : output) : Prop :=
  must as_given s "output_format" (o_format o)
  /\ must (fun v c => match c with
       | Keyword k => v = k /\ ~ In ","%char (list_ascii_of_string v)
       | Columns l => In ","%char (list_ascii_of_string v)
           /\ exists raw, comma_list v raw /\ Forall2 (trimmed (fun c => Ascii.eqb c " ")) raw l
       end) s "output_columns" (o_columns o)
  /\ maybe int_said s "position_decimals" (o_position_decimals o)
  /\ maybe int_said s "magnitude_decimals" (o_magnitude_decimals o).
(** The three switches default to on for LSST and off for DES. *)
Definition expert_said (s : section) (survey : string) (x : expert) : Prop :=
  maybe float_said s "snr_limit" (x_snr_limit x) /\ maybe float_said s "mag_limit" (x_mag_limit x)
  /\ switch s "default_snr_cut" true (x_default_snr_cut x) /\ switch s "brute_force" true (x_brute_force x)
  /\ (forall d, (is_lsst survey /\ d = true) \/ (is_des survey /\ d = false) ->
      exists r v t, x_randomization_on x = Some r /\ x_vignetting_on x = Some v /\ x_trailing_losses_on x = Some t
        /\ switch s "randomization_on" d r /\ switch s "vignetting_on" d v /\ switch s "trailing_losses_on" d t).

(** Every section is found under its own name. *)
Definition file_said (f : config_file) (survey : string) (c : configs) : Prop :=
  let sec := section_or_empty f in
  input_said (sec "INPUT") (c_input c)
  /\ simulation_said (sec "SIMULATION") (c_simulation c)
  /\ filters_said (sec "FILTERS") (c_filters c)
  /\ saturation_said (sec "SATURATION") (c_filters c) (c_saturation c)
  /\ must as_given (sec "PHASECURVES") "phase_function" (c_phase_function c)
  /\ fov_said (sec "FOV") (c_fov c)
  /\ fading_said (sec "FADINGFUNCTION") (c_fading c)
  /\ linking_said (sec "LINKINGFILTER") (c_linking c)
  /\ output_said (sec "OUTPUT") (c_output c)
  /\ model_said (sec "LIGHTCURVE") "lc_model" (c_lightcurve c)
  /\ model_said (sec "ACTIVITY") "comet_activity" (c_activity c)
  /\ expert_said (sec "EXPERT") survey (c_expert c).
End Values.

(** The documented keys of every section. *)
Definition documented : list (string * list string) := [
  ("INPUT", ["ephemerides_type"; "eph_format"; "size_serial_chunk"; "aux_format"; "pointing_sql_query"]);
  ("SIMULATION", ["ar_ang_fov"; "ar_fov_buffer"; "ar_picket"; "ar_obs_code"; "ar_healpix_order"; "ar_n_sub_intervals"]);
  ("FILTERS", ["observing_filters"; "mainfilter"; "othercolours"]);
  ("SATURATION", ["bright_limit_on"; "bright_limit"]);
  ("PHASECURVES", ["phase_function"]);
  ("FOV", ["camera_model"; "footprint_path"; "visits_query"; "fill_factor"; "circle_radius"; "footprint_edge_threshold"]);
  ("FADINGFUNCTION", ["fading_function_on"; "fading_function_width"; "fading_function_peak_efficiency"; "des_transient_efficency"]);
  ("LINKINGFILTER", (ssp_key_names ++ ["ssp_linking_on"; "drop_unlinked"; "des_discovery_on"; "distance_cut_on";
     "distance_cut_upper"; "distance_cut_lower"; "motion_cut_on"; "motion_cut_upper"; "motion_cut_lower"])%list);
  ("OUTPUT", ["output_format"; "output_columns"; "position_decimals"; "magnitude_decimals"]);
  ("LIGHTCURVE", ["lc_model"]);
  ("ACTIVITY", ["comet_activity"]);
  ("EXPERT", ["snr_limit"; "snr_limit_on"; "mag_limit"; "mag_limit_on"; "trailing_losses_on"; "default_snr_cut";
     "randomization_on"; "vignetting_on"; "brute_force"]) ].
(** A misspelt key does not go unnoticed. *)
Definition only_documented (f : config_file) : Prop :=
  forall n keys, In (n, keys) documented -> forall s, find_section f n = Some s -> only s keys.

(** The same sections with the same keys, in another order. *)
Definition same_file (f g : config_file) : Prop :=
  NoDup (map fst f) /\ NoDup (map fst g)
  /\ (forall n s, In (n, s) f -> exists t, In (n, t) g /\ Permutation s t /\ NoDup (map fst s))
  /\ (forall n, In n (map fst g) -> In n (map fst f)).
