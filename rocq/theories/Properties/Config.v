From Coq Require Import ZArith QArith String Ascii List Bool Arith Lia Permutation.
From Verif Require Import Base.Prelude Base.Num Model.Csv Model.Config Spec.Config Spec.ConfigValues Proofs.Config Proofs.ConfigFindings Proofs.ConfigOrder Model.Shipped Spec.Shipped Proofs.Shipped.
Import ListNotations.
Open Scope string_scope.

(** * C46: accepted configurations are consistent *)

Theorem C46_accepted_partial : forall int_of float_of path_exists lc_methods ca_methods f survey c,
  read_configs int_of float_of path_exists lc_methods ca_methods f survey = Ok c ->
  consistent path_exists lc_methods ca_methods survey f c.
Proof. exact C46_accepted_proof. Qed.
Print Assumptions C46_accepted_partial.
Theorem C46_startup_partial : forall int_of float_of path_exists lc_methods ca_methods f a c,
  startup int_of float_of path_exists lc_methods ca_methods f a = Ok c ->
  consistent path_exists lc_methods ca_methods (arg_survey a) f c /\ arguments_ok c a.
Proof. exact C46_startup_proof. Qed.
Print Assumptions C46_startup_partial.
Theorem C46_ssp_complete_partial : forall int_of float_of s survey e n sep t k w g p,
  key s "ssp_detection_efficiency" = Some e -> key s "ssp_number_observations" = Some n ->
  key s "ssp_separation_threshold" = Some sep -> key s "ssp_maximum_time" = Some t ->
  key s "ssp_number_tracklets" = Some k -> key s "ssp_track_window" = Some w -> key s "ssp_night_start_utc" = Some g ->
  ~ des_any_case survey ->
  (linking_ssp int_of float_of s survey = Ok (Some p) <->
   float_of e = Some (ssp_detection_efficiency p) /\ int_of n = Some (ssp_number_observations p)
   /\ float_of sep = Some (ssp_separation_threshold p) /\ float_of t = Some (ssp_maximum_time p)
   /\ int_of k = Some (ssp_number_tracklets p) /\ int_of w = Some (ssp_track_window p)
   /\ float_of g = Some (ssp_night_start_utc p) /\ ssp_ok p).
Proof. exact C46_ssp_complete_proof. Qed.
Print Assumptions C46_ssp_complete_partial.
Theorem C46_fading_complete_partial : forall float_of s survey a b w p,
  only s ["fading_function_on"; "fading_function_width"; "fading_function_peak_efficiency"; "des_transient_efficency"] ->
  key s "fading_function_width" = Some a -> key s "fading_function_peak_efficiency" = Some b ->
  ~ is_des survey ->
  (fadingfunctionConfigs float_of s survey = Ok (Fading w p) <->
   float_of a = Some w /\ float_of b = Some p
   /\ (w = NaN \/ (num_lt (Fin 0) w /\ num_le w (Fin (1#2)))) /\ within (Fin 0) (Fin 1) p).
Proof. exact C46_fading_complete_proof. Qed.
Print Assumptions C46_fading_complete_partial.
Theorem C46_nan_refuted : forall int_of float_of survey,
  float_of "nan" = Some NaN -> int_of "1" = Some 1%Z -> ~ des_any_case survey ->
  (exists s, fadingfunctionConfigs float_of s survey = Ok (Fading NaN NaN))
  /\ (exists s l p, linkingfilterConfigs int_of float_of s survey = Ok l /\ l_ssp l = Some p
        /\ ssp_detection_efficiency p = NaN /\ ssp_separation_threshold p = NaN /\ ssp_maximum_time p = NaN)
  /\ (exists s x, expertConfigs float_of s survey None = Ok x /\ x_snr_limit x = Some NaN).
Proof. exact C46_nan_refuted_proof. Qed.
Print Assumptions C46_nan_refuted.
Theorem C46_half_width_refuted : forall float_of survey,
  float_of "0.5" = Some (Fin (1#2)) -> float_of "1.0" = Some (Fin 1) -> ~ is_des survey ->
  fadingfunctionConfigs float_of [("fading_function_width", "0.5"); ("fading_function_peak_efficiency", "1.0")] survey
  = Ok (Fading (Fin (1#2)) (Fin 1)).
Proof. exact C46_half_width_refuted_proof. Qed.
Print Assumptions C46_half_width_refuted.
Theorem C46_des_efficiency_refuted : forall float_of x,
  float_of "x" = Some x ->
  fadingfunctionConfigs float_of [("fading_function_on", "True"); ("des_transient_efficency", "x")] "DES" = Ok (FadingDES x).
Proof. exact C46_des_efficiency_refuted_proof. Qed.
Print Assumptions C46_des_efficiency_refuted.
Theorem C46_switch_refuted : forall int_of float_of v filters,
  v <> "" ->
  saturationConfigs float_of [("bright_limit_on", v)] filters = Ok (true, None)
  /\ exists l, linkingfilterConfigs int_of float_of [("distance_cut_on", v); ("motion_cut_on", v)] "DES" = Ok l
       /\ l_distance_cut_on l = true /\ l_distance_cut l = None /\ l_motion_cut_on l = true /\ l_motion_cut l = None.
Proof. exact C46_switch_refuted_proof. Qed.
Print Assumptions C46_switch_refuted.
Theorem C46_cut_order_refuted : forall int_of float_of,
  float_of "9" = Some (Fin 9) -> float_of "-1" = Some (Fin (-1)) ->
  exists l, linkingfilterConfigs int_of float_of [("distance_cut_lower", "9"); ("distance_cut_upper", "-1")] "DES" = Ok l
            /\ l_distance_cut l = Some (Fin 9, Fin (-1)).
Proof. exact C46_cut_order_refuted_proof. Qed.
Print Assumptions C46_cut_order_refuted.

(** A few numbers, read as Python reads them. *)
Definition case_int (s : string) : option Z :=
  match s with "100" => Some 100 | "10" => Some 10 | "2" => Some 2 | "6" => Some 6 | "1" => Some 1 | "3" => Some 3
             | "15" => Some 15 | _ => None end%Z.
Definition case_float (s : string) : option num :=
  match s with "2.06" => Some (Fin (103#50)) | "0.2" => Some (Fin (1#5)) | "0.1" => Some (Fin (1#10)) | "1." => Some (Fin 1)
             | "16.0" => Some (Fin 16) | "0.95" => Some (Fin (19#20)) | "0.5" => Some (Fin (1#2)) | "0.0625" => Some (Fin (1#16))
             | "nan" => Some NaN | _ => None end.
Definition case_file (width : string) : config_file := [
  ("INPUT", [("ephemerides_type", "ar"); ("eph_format", "csv"); ("size_serial_chunk", "100"); ("aux_format", "whitespace");
             ("pointing_sql_query", "SELECT * FROM observations")]);
  ("SIMULATION", [("ar_ang_fov", "2.06"); ("ar_fov_buffer", "0.2"); ("ar_picket", "1"); ("ar_obs_code", "X05"); ("ar_healpix_order", "6")]);
  ("FILTERS", [("observing_filters", "r, g,i")]);
  ("SATURATION", [("bright_limit", "16.0")]);
  ("PHASECURVES", [("phase_function", "HG")]);
  ("FOV", [("camera_model", "footprint"); ("footprint_edge_threshold", "2.06")]);
  ("FADINGFUNCTION", [("fading_function_width", width); ("fading_function_peak_efficiency", "1.")]);
  ("LINKINGFILTER", [("ssp_detection_efficiency", "0.95"); ("ssp_number_observations", "2"); ("ssp_separation_threshold", "0.5");
    ("ssp_maximum_time", "0.0625"); ("ssp_number_tracklets", "3"); ("ssp_track_window", "15"); ("ssp_night_start_utc", "16.0")]);
  ("OUTPUT", [("output_format", "csv"); ("output_columns", "basic"); ("position_decimals", "10")]) ].
Definition case_read (width survey : string) : result configs :=
  read_configs case_int case_float (fun _ => true) [] [] (case_file width) survey.

(** The whole file is accepted, with the values one expects; a width of 1, or a
    survey that has no filter r, is not. *)
Example C46_case :
  (exists c, case_read "0.1" "rubin_sim" = Ok c /\ c_filters c = ["r"; "g"; "i"] /\ c_fading c = Fading (Fin (1#10)) (Fin 1)
     /\ c_saturation c = (true, Some [Fin 16; Fin 16; Fin 16])
     /\ startup case_int case_float (fun _ => true) [] [] (case_file "0.1") (Build_arguments "rubin_sim" None None None) = Ok c)
  /\ case_read "1." "rubin_sim" = Err SysExit
  /\ case_read "0.1" "DES" = Err SysExit.
Proof. vm_compute. split; [eexists; repeat split|split; reflexivity]. Qed.
(** NaN in a whole file. *)
Example C46_nan_case : exists c, case_read "nan" "rubin_sim" = Ok c /\ c_fading c = Fading NaN (Fin 1).
Proof. vm_compute. eexists; repeat split. Qed.

(** * C14: every size that parses is accepted *)

Theorem C14_config_refuted : forall int_of c z q,
  int_of c = Some z -> exists s i, inputConfigs int_of s = Ok i /\ in_size_serial_chunk i = z /\ in_pointing_sql_query i = q.
Proof. exact C14_config_refuted_proof. Qed.
Print Assumptions C14_config_refuted.

(** * C47: data file names and URLs *)

Theorem C47_attribute_partial : forall s u us fs,
  auxiliaryConfigs s = Ok (u, us, fs) ->
  Forall2 (fun d url =>
    (url = None <-> name_of s d <> df_name d /\ url_of s d = df_url d)
    /\ (url <> None -> url = Some (url_of s d))
    /\ (name_of s d = df_name d -> url = Some (df_url d))) datafiles us.
Proof. exact C47_attribute_proof. Qed.
Print Assumptions C47_attribute_partial.
Theorem C47_url_alone_partial : forall s d,
  In d datafiles -> key s (df_attr d) = None -> url_of s d <> df_url d ->
  forall r, auxiliaryConfigs s <> Ok r.
Proof. exact C47_url_alone_proof. Qed.
Print Assumptions C47_url_alone_partial.
Theorem C47_lookup_partial : forall s u us fs d,
  auxiliaryConfigs s = Ok (u, us, fs) -> NoDup fs -> In d datafiles ->
  In (name_of s d) fs
  /\ url_for u (name_of s d) = Some (match key s (df_attr d ++ "_url") with Some v => v | None => df_url d end).
Proof. exact C47_lookup_proof. Qed.
Print Assumptions C47_lookup_partial.
Theorem C47_refuted : forall d name,
  In d datafiles -> ~ In name (map df_name datafiles) ->
  exists u us fs, auxiliaryConfigs [(df_attr d, name)] = Ok (u, us, fs)
    /\ In name fs /\ url_for u name = Some (df_url d).
Proof. exact C47_refuted_proof. Qed.
Print Assumptions C47_refuted.

Definition case_name (s : section) : result (option string * list (option string)) :=
  match auxiliaryConfigs s with
  | Ok (u, us, _) => Ok (url_for u "mine.bsp", firstn 2 us)
  | Err e => Err e
  end.
(** Only the name, name and URL, only the URL. *)
Example C47_case :
  case_name [("planet_ephemeris", "mine.bsp")]
  = Ok (Some "https://naif.jpl.nasa.gov/pub/naif/generic_kernels/spk/planets/de440s.bsp",
        [None; Some "https://naif.jpl.nasa.gov/pub/naif/generic_kernels/pck/earth_2025_250826_2125_predict.bpc"])
  /\ case_name [("planet_ephemeris", "mine.bsp"); ("planet_ephemeris_url", "http://a.b/mine.bsp")]
     = Ok (Some "http://a.b/mine.bsp",
        [Some "http://a.b/mine.bsp"; Some "https://naif.jpl.nasa.gov/pub/naif/generic_kernels/pck/earth_2025_250826_2125_predict.bpc"])
  /\ case_name [("planet_ephemeris_url", "http://a.b/mine.bsp")] = Err SysExit.
Proof. vm_compute. repeat split. Qed.

(** * C77: an accepted configuration holds the values of the file *)

Theorem C77_values : forall int_of float_of path_exists lc_methods ca_methods f survey c,
  read_configs int_of float_of path_exists lc_methods ca_methods f survey = Ok c ->
  file_said int_of float_of f survey c.
Proof. exact C77_values_proof. Qed.
Print Assumptions C77_values.
Theorem C77_documented : forall int_of float_of path_exists lc_methods ca_methods f survey c,
  read_configs int_of float_of path_exists lc_methods ca_methods f survey = Ok c -> only_documented f.
Proof. exact C77_documented_proof. Qed.
Print Assumptions C77_documented.
Theorem C77_order : forall int_of float_of path_exists lc_methods ca_methods f g survey,
  same_file f g ->
  read_configs int_of float_of path_exists lc_methods ca_methods f survey
  = read_configs int_of float_of path_exists lc_methods ca_methods g survey.
Proof. exact C77_order_proof. Qed.
Print Assumptions C77_order.
Theorem C77_spelling : forall v b, cast_as_bool v = Ok b <-> spelled v b.
Proof. exact C77_spelling_proof. Qed.
Print Assumptions C77_spelling.

(** The file of C46 with its sections in reverse order; a switch with blanks
    around; a misspelt key. *)
Example C77_case :
  same_file (case_file "0.1") (rev (case_file "0.1"))
  /\ (exists c, read_configs case_int case_float (fun _ => true) [] [] (rev (case_file "0.1")) "rubin_sim" = Ok c)
  /\ spelled " yes " true
  /\ read_configs case_int case_float (fun _ => true) [] [] (("EXPERT", [("snr_limt", "2.06")]) :: case_file "0.1") "rubin_sim" = Err TypeError.
Proof.
  split; [|split; [|split]].
  - split; [|split; [|split]].
    + repeat constructor; cbn; intuition discriminate.
    + repeat constructor; cbn; intuition discriminate.
    + intros n s H. exists s. rewrite <- in_rev. split; [exact H|]. split; [reflexivity|].
      cbn in H. repeat (destruct H as [H|H]; [injection H as <- <-; repeat constructor; cbn; intuition discriminate|]). destruct H.
    + intros n H. rewrite map_rev, <- in_rev in H. exact H.
  - vm_compute. eexists; reflexivity.
  - apply C77_spelling_proof. reflexivity.
  - reflexivity.
Qed.

(** * C80: the configuration files that come with the package *)

Theorem C80_rubin_partial : forall int_of float_of path_exists lc_methods ca_methods,
  reads_decimals int_of float_of -> forall a, arg_survey a = "rubin_sim" -> arg_visits a = None ->
  (forall f, In f [circular_approximation; full_footprint; demo] ->
     exists c, startup int_of float_of path_exists lc_methods ca_methods f a = Ok c /\ rubin_detection c)
  /\ (exists c, startup int_of float_of path_exists lc_methods ca_methods known_object_prediction a = Ok c /\ prediction c).
Proof. exact C80_rubin_proof. Qed.
Print Assumptions C80_rubin_partial.
Theorem C80_des_refuted : forall int_of float_of path_exists lc_methods ca_methods,
  reads_decimals int_of float_of -> forall a, arg_survey a = "DES" ->
  startup int_of float_of path_exists lc_methods ca_methods dark_energy_survey a = Err TypeError.
Proof. exact C80_des_refuted_proof. Qed.
Print Assumptions C80_des_refuted.
Theorem C80_des_respelled_partial : forall int_of float_of path_exists lc_methods ca_methods,
  reads_decimals int_of float_of -> forall a v, arg_survey a = "DES" -> arg_visits a = Some v ->
  exists c, startup int_of float_of path_exists lc_methods ca_methods
    (respelled "self.des_transient_efficency" "des_transient_efficency" dark_energy_survey) a = Ok c
    /\ c_fading c = FadingDES (Fin (95529#100000)) /\ l_des_discovery_on (c_linking c) = true
    /\ fov_camera_model (c_fov c) = "visits_footprint".
Proof. exact C80_des_respelled_proof. Qed.
Print Assumptions C80_des_respelled_partial.

Definition case80_int (s : string) : option Z :=
  match s with "20000" => Some 20000 | "5000" => Some 5000 | "1" => Some 1 | "6" => Some 6 | "2" => Some 2 | "3" => Some 3
             | "15" => Some 15 | _ => None end%Z.
Definition case80_float (s : string) : option num :=
  match s with "2.06" => Some (Fin (206#100)) | "1.3" => Some (Fin (13#10)) | "0.2" => Some (Fin (2#10)) | "16.0" => Some (Fin 16)
             | "0.9" => Some (Fin (9#10)) | "1.75" => Some (Fin (175#100)) | "2." => Some (Fin 2) | "0.1" => Some (Fin (1#10))
             | "1." => Some (Fin 1) | "0.95" => Some (Fin (95#100)) | "0.5" => Some (Fin (5#10))
             | "0.0625" => Some (Fin (625#10000)) | "0.95529" => Some (Fin (95529#100000)) | _ => None end.
(** Such parsers exist; with them the circular file is accepted and the file of
    the Dark Energy Survey is not. *)
Example C80_case : reads_decimals case80_int case80_float
  /\ (exists c, startup case80_int case80_float (fun _ => true) [] [] circular_approximation (Build_arguments "rubin_sim" None None None) = Ok c
        /\ fov_circle_radius (c_fov c) = Some (Fin (175#100)) /\ fov_fill_factor (c_fov c) = Some (Fin (9#10)))
  /\ startup case80_int case80_float (fun _ => true) [] [] dark_energy_survey (Build_arguments "DES" None None (Some "visits.db")) = Err TypeError.
Proof.
  split; [|split].
  - split; intros s x H; cbn [In] in H; repeat (destruct H as [H|H]; [injection H as <- <-; reflexivity|]); destruct H.
  - vm_compute. eexists. repeat split.
  - reflexivity.
Qed.
