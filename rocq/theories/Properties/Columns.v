From Coq Require Import ZArith QArith String Ascii List Bool Arith.
From Verif Require Import Base.Prelude Base.Num Model.Config Model.Columns Model.Colours Model.Shipped Spec.Config Spec.Columns Spec.Shipped
  Proofs.Columns Proofs.ColumnsRun.
Import ListNotations.
Open Scope string_scope.

(** * C79: the columns of the catalogue *)

Theorem C79_rubin_partial : forall int_of float_of path_exists lc_methods ca_methods f a c lc ca main seen query aux stats,
  startup int_of float_of path_exists lc_methods ca_methods f a = Ok c -> In (arg_survey a) ["rubin_sim"; "RUBIN_SIM"] ->
  documented_inputs false c main query aux -> incl seen (c_filters c) ->
  models_served c main (concat aux) lc (c_lightcurve c) -> models_served c main (concat aux) ca (c_activity c) ->
  (fst (c_saturation c) = true -> snd (c_saturation c) <> None) ->
  let r := round_columns false lc ca c main seen query aux stats in
  basic_written c r /\ all_written false c main query (concat aux) r /\ list_written false c main query (concat aux) r.
Proof. exact C79_rubin_proof. Qed.
Print Assumptions C79_rubin_partial.

Theorem C79_des_partial : forall int_of float_of path_exists lc_methods ca_methods f a c lc ca main seen query aux stats,
  startup int_of float_of path_exists lc_methods ca_methods f a = Ok c -> In (arg_survey a) ["DES"; "des"] ->
  documented_inputs true c main query aux -> incl seen (c_filters c) ->
  models_served c main (concat aux) lc (c_lightcurve c) -> models_served c main (concat aux) ca (c_activity c) ->
  (fov_camera_model (c_fov c) = "visits_footprint" -> in_ephemerides_type (c_input c) = "ar") ->
  (fst (c_saturation c) = true -> snd (c_saturation c) <> None) -> x_snr_limit (c_expert c) = None ->
  (l_distance_cut_on (c_linking c) = true -> l_distance_cut (c_linking c) <> None) ->
  (l_motion_cut_on (c_linking c) = true -> l_motion_cut (c_linking c) <> None) ->
  let r := round_columns true lc ca c main seen query aux stats in
  all_written true c main query (concat aux) r /\ list_written true c main query (concat aux) r.
Proof. exact C79_des_proof. Qed.
Print Assumptions C79_des_partial.

Theorem C79_names_partial : forall c main query aux x, documented_inputs false c main query aux ->
  incl (c_filters c) ["u"; "g"; "r"; "i"; "z"; "y"; "Y"] -> In (c_phase_function c) ["HG"; "HG1G2"; "HG12"; "linear"; "none"] ->
  in_ephemerides_type (c_input c) <> "external" -> In x full_names -> ~ In x misnamed -> catalogue false c main query (concat aux) x.
Proof. exact C79_names_proof. Qed.
Print Assumptions C79_names_partial.

Theorem C79_models_partial : forall int_of float_of path_exists lc_methods ca_methods f a c lc ca main seen query aux stats des n y,
  startup int_of float_of path_exists lc_methods ca_methods f a = Ok c ->
  In (arg_survey a) (if des : bool then ["DES"; "des"] else ["rubin_sim"; "RUBIN_SIM"]) ->
  documented_inputs des c main query aux -> incl seen (c_filters c) -> n <> "" ->
  c_lightcurve c = Some n /\ In y (lc n) \/ c_activity c = Some n /\ In y (ca n) ->
  ~ In y (concat aux) -> ~ In y query -> ~ In y ("q" :: reserved des) -> ~ In y (phase_columns (c_phase_function c)) ->
  round_columns des lc ca c main seen query aux stats = Err ValueError.
Proof. exact C79_models_proof. Qed.
Print Assumptions C79_models_partial.

Theorem C79_des_basic_refuted : forall int_of float_of path_exists lc_methods ca_methods f a c lc ca main seen query aux stats,
  startup int_of float_of path_exists lc_methods ca_methods f a = Ok c -> In (arg_survey a) ["DES"; "des"] ->
  documented_inputs true c main query aux -> incl seen (c_filters c) ->
  models_served c main (concat aux) lc (c_lightcurve c) -> models_served c main (concat aux) ca (c_activity c) ->
  (fov_camera_model (c_fov c) = "visits_footprint" -> in_ephemerides_type (c_input c) = "ar") ->
  (fst (c_saturation c) = true -> snd (c_saturation c) <> None) -> x_snr_limit (c_expert c) = None ->
  (l_distance_cut_on (c_linking c) = true -> l_distance_cut (c_linking c) <> None) ->
  (l_motion_cut_on (c_linking c) = true -> l_motion_cut (c_linking c) <> None) ->
  o_columns (c_output c) = Keyword "basic" ->
  round_columns true lc ca c main seen query aux stats = Err KeyError.
Proof. exact C79_des_basic_refuted_proof. Qed.
Print Assumptions C79_des_basic_refuted.

Theorem C79_des_snr_refuted : forall int_of float_of path_exists lc_methods ca_methods f a c lc ca main seen query aux stats,
  startup int_of float_of path_exists lc_methods ca_methods f a = Ok c -> In (arg_survey a) ["DES"; "des"] ->
  documented_inputs true c main query aux -> incl seen (c_filters c) ->
  models_served c main (concat aux) lc (c_lightcurve c) -> models_served c main (concat aux) ca (c_activity c) ->
  (fov_camera_model (c_fov c) = "visits_footprint" -> in_ephemerides_type (c_input c) = "ar") ->
  x_snr_limit (c_expert c) <> None ->
  round_columns true lc ca c main seen query aux stats = Err KeyError.
Proof. exact C79_des_snr_refuted_proof. Qed.
Print Assumptions C79_des_snr_refuted.

Theorem C79_bright_refuted : forall int_of float_of path_exists lc_methods ca_methods f a c lc ca main seen query aux stats,
  startup int_of float_of path_exists lc_methods ca_methods f a = Ok c -> In (arg_survey a) ["rubin_sim"; "RUBIN_SIM"] ->
  documented_inputs false c main query aux -> incl seen (c_filters c) ->
  models_served c main (concat aux) lc (c_lightcurve c) -> models_served c main (concat aux) ca (c_activity c) ->
  c_saturation c = (true, None) ->
  round_columns false lc ca c main seen query aux stats = Err SysExit.
Proof. exact C79_bright_refuted_proof. Qed.
Print Assumptions C79_bright_refuted.

Theorem C79_cut_refuted : forall int_of float_of path_exists lc_methods ca_methods f a c lc ca main seen query aux stats,
  startup int_of float_of path_exists lc_methods ca_methods f a = Ok c -> In (arg_survey a) ["DES"; "des"] ->
  documented_inputs true c main query aux -> incl seen (c_filters c) ->
  models_served c main (concat aux) lc (c_lightcurve c) -> models_served c main (concat aux) ca (c_activity c) ->
  (fov_camera_model (c_fov c) = "visits_footprint" -> in_ephemerides_type (c_input c) = "ar") ->
  (fst (c_saturation c) = true -> snd (c_saturation c) <> None) -> x_snr_limit (c_expert c) = None ->
  l_distance_cut_on (c_linking c) = true -> l_distance_cut (c_linking c) = None ->
  round_columns true lc ca c main seen query aux stats = Err TypeError.
Proof. exact C79_cut_refuted_proof. Qed.
Print Assumptions C79_cut_refuted.

Theorem C79_visits_refuted : forall int_of float_of path_exists lc_methods ca_methods f a c lc ca main seen query aux stats,
  startup int_of float_of path_exists lc_methods ca_methods f a = Ok c -> In (arg_survey a) ["DES"; "des"] ->
  documented_inputs true c main query aux -> incl seen (c_filters c) ->
  models_served c main (concat aux) lc (c_lightcurve c) -> models_served c main (concat aux) ca (c_activity c) ->
  fov_camera_model (c_fov c) = "visits_footprint" -> in_ephemerides_type (c_input c) = "external" ->
  round_columns true lc ca c main seen query aux stats = Err TypeError.
Proof. exact C79_visits_refuted_proof. Qed.
Print Assumptions C79_visits_refuted.

Theorem C79_index_refuted : forall int_of float_of path_exists lc_methods ca_methods f a c lc ca main seen query aux stats l,
  startup int_of float_of path_exists lc_methods ca_methods f a = Ok c -> In (arg_survey a) ["rubin_sim"; "RUBIN_SIM"] ->
  documented_inputs false c main query aux -> incl seen (c_filters c) ->
  models_served c main (concat aux) lc (c_lightcurve c) -> models_served c main (concat aux) ca (c_activity c) ->
  (fst (c_saturation c) = true -> snd (c_saturation c) <> None) ->
  o_columns (c_output c) = Columns l -> o_format (c_output c) = "sqlite3" ->
  (forall x, In x l -> catalogue false c main query (concat aux) x) -> (exists x, In x ["ObjID"; "fieldMJD_TAI"; "optFilter"] /\ ~ In x l) ->
  round_columns false lc ca c main seen query aux stats = Err OperationalError.
Proof. exact C79_index_refuted_proof. Qed.
Print Assumptions C79_index_refuted.

Theorem C79_names_refuted : forall des c main query A x, In x misnamed -> ~ In x query -> ~ In x A ->
  ~ catalogue des c main query A x.
Proof. exact C79_names_refuted_proof. Qed.
Print Assumptions C79_names_refuted.

Theorem C79_example_refuted : forall header filters filesep, In header example_headers ->
  PPGetMainFilterAndColourOffsets (header ++ String "010" "") filters filesep = Err SysExit.
Proof. exact C79_example_refuted_proof. Qed.
Print Assumptions C79_example_refuted.

Theorem C79_one_filter_refuted : forall int_of float_of path_exists lc_methods ca_methods, reads_decimals int_of float_of ->
  forall a lc ca stats, arg_survey a = "rubin_sim" -> arg_visits a = None ->
  exists c, startup int_of float_of path_exists lc_methods ca_methods (revalued "observing_filters" "r" demo) a = Ok c
  /\ c_filters c = ["r"] /\ c_phase_function c = "HG"
  /\ round_columns false lc ca c "r" ["r"] (documented_query false) [orbit_columns; ["ObjID"; "H_r"; "GSr"]] stats = Err KeyError.
Proof. exact C79_one_filter_refuted_proof. Qed.
Print Assumptions C79_one_filter_refuted.

(** The numbers of the shipped files. *)
Fixpoint look {A} (l : list (string * A)) (s : string) : option A :=
  match l with [] => None | (k, v) :: r => if String.eqb s k then Some v else look r s end.
Definition shipped_int : string -> option Z :=
  look [("20000", 20000); ("5000", 5000); ("1", 1); ("6", 6); ("2", 2); ("3", 3); ("15", 15)]%Z.
Definition shipped_float (s : string) : option num :=
  option_map Fin (look [("2.06", 206#100); ("1.3", 13#10); ("0.2", 2#10); ("16.0", 16); ("0.9", 9#10); ("1.75", 175#100);
    ("2.", 2); ("0.1", 1#10); ("1.", 1); ("0.95", 95#100); ("0.5", 5#10); ("0.0625", 625#10000); ("0.95529", 95529#100000)]%Q s).
Definition case_start (survey : string) (visits : option string) (f : config_file) : result configs :=
  startup shipped_int shipped_float (fun _ => true) [] [] f
    {| arg_survey := survey; arg_ephemeris := Some "e.csv"; arg_complex := None; arg_visits := visits |}.
Definition rubin_aux : list (list string) := [orbit_columns; ["ObjID"; "H_r"; "u-r"; "g-r"; "i-r"; "z-r"; "y-r"; "GS"]].
Definition des_aux : list (list string) := [orbit_columns; ["ObjID"; "H_r"; "g-r"; "i-r"; "z-r"]].
Definition no_model (n : string) : list string := [].
(** The configuration, whether the inputs are as documented, and the outcome. *)
Definition case_ok (des : bool) (survey : string) (visits : option string) (f : config_file) (aux : list (list string))
    (r : result (list string)) : Prop :=
  exists c, case_start survey visits f = Ok c /\ documented_inputs des c "r" (documented_query des) aux
  /\ c_lightcurve c = None /\ c_activity c = None
  /\ round_columns des no_model no_model c "r" (c_filters c) (documented_query des) aux true = r.
Definition des_file : config_file := respelled "self.des_transient_efficency" "des_transient_efficency" dark_energy_survey.
(** The file with a section left empty. *)
Definition emptied (section : string) (f : config_file) : config_file :=
  map (fun s => if String.eqb (fst s) section then (section, []) else s) f.
Definition sqlite_file (columns : string) : config_file := revalued "output_format" "sqlite3" (revalued "output_columns" columns demo).

Definition des_all : list string :=
  ["ObjID"; "FieldID"; "fieldMJD_TAI"; "fieldJD_TDB"; "Range_LTC_km"; "RangeRate_LTC_km_s"; "RA_deg";
   "RARateCosDec_deg_day"; "Dec_deg"; "DecRate_deg_day"; "Obj_Sun_x_LTC_km"; "Obj_Sun_y_LTC_km"; "Obj_Sun_z_LTC_km";
   "Obj_Sun_vx_LTC_km_s"; "Obj_Sun_vy_LTC_km_s"; "Obj_Sun_vz_LTC_km_s"; "Obs_Sun_x_km"; "Obs_Sun_y_km"; "Obs_Sun_z_km";
   "Obs_Sun_vx_km_s"; "Obs_Sun_vy_km_s"; "Obs_Sun_vz_km_s"; "phase_deg"; "FORMAT"; "q"; "e"; "inc"; "node"; "argPeri";
   "t_p_MJD_TDB"; "epochMJD_TDB"; "H_filter"; "visitExposureTime"; "optFilter"; "fieldFiveSigmaDepth_mag"; "fieldRA_deg";
   "fieldDec_deg"; "c"; "k"; "H_r"; "trailedSourceMagTrue"; "PSFMagTrue"; "fiveSigmaDepth_mag"; "RATrue_deg";
   "DecTrue_deg"; "trailedSourceMag"; "PSFMag"; "detectorID"; "limMag_perChip"; "Obj_Sun_LTC_km"].

(** The shipped demonstration, with three choices of columns; the shipped file
    of the Dark Energy Survey; and the failures. *)
Example C79_case :
  case_ok false "rubin_sim" None demo rubin_aux (Ok basic_names)
  /\ case_ok false "rubin_sim" None (extended "LINKINGFILTER" "drop_unlinked" "False" demo) rubin_aux (Ok (basic_names ++ ["object_linked"])%list)
  /\ case_ok false "rubin_sim" None (revalued "output_columns" "ObjID, RA_deg,SNR" demo) rubin_aux (Err SysExit)
  /\ case_ok false "rubin_sim" None (revalued "output_columns" "ObjID,RA_deg,Dec_deg,trailedSourceMag" demo) rubin_aux (Ok example_columns)
  /\ case_ok false "rubin_sim" None (sqlite_file "ObjID,RA_deg,Dec_deg,trailedSourceMag") rubin_aux (Err OperationalError)
  /\ case_ok false "rubin_sim" None (respelled "bright_limit" "bright_limit_on" demo) rubin_aux (Err SysExit)
  /\ case_ok true "DES" (Some "v") des_file des_aux (Ok des_all)
  /\ case_ok true "DES" (Some "v") (revalued "output_columns" "basic" des_file) des_aux (Err KeyError)
  /\ case_ok true "DES" (Some "v") (des_file ++ [("EXPERT", [("snr_limit", "2.")])])%list des_aux (Err KeyError)
  /\ case_ok true "DES" (Some "v") (extended "LINKINGFILTER" "distance_cut_on" "True" des_file) des_aux (Err TypeError)
  /\ case_ok true "DES" (Some "v") (revalued "ephemerides_type" "external" (emptied "SIMULATION" des_file)) des_aux (Err TypeError).
Proof.
  repeat match goal with |- _ /\ _ => split end.
  all: (eexists; split; [vm_compute; reflexivity|]; split; [apply documented_check; vm_compute; reflexivity|];
            split; [reflexivity|split; [reflexivity|vm_compute; reflexivity]]).
Qed.
(** A light curve model that requires an amplitude, without and with that column in the
    complex parameters file. *)
Definition amplitude (n : string) : list string := if String.eqb n "sinusoidal" then ["LCA"] else [].
Example C79_models_case :
  exists c, startup shipped_int shipped_float (fun _ => true) ["identity"; "sinusoidal"] [] (revalued "lc_model" "sinusoidal" demo)
      {| arg_survey := "rubin_sim"; arg_ephemeris := Some "e.csv"; arg_complex := Some "x.csv"; arg_visits := None |} = Ok c
  /\ documented_inputs false c "r" (documented_query false) rubin_aux /\ c_lightcurve c = Some "sinusoidal"
  /\ round_columns false amplitude no_model c "r" (c_filters c) (documented_query false) rubin_aux false = Err ValueError
  /\ round_columns false amplitude no_model c "r" (c_filters c) (documented_query false) (rubin_aux ++ [["ObjID"; "LCA"]])%list false = Ok basic_names.
Proof.
  eexists. split; [vm_compute; reflexivity|]. split; [apply documented_check; vm_compute; reflexivity|].
  split; [reflexivity|]. split; vm_compute; reflexivity.
Qed.
