(** Vocabulary for the statements about the columns of the input and output
    tables. *)
From Coq Require Import String List Bool Arith.
From Verif Require Import Base.Prelude Model.Config.
Import ListNotations.
Open Scope string_scope.

(** The columns that the documented pointing queries return (docs/inputs.rst:431
    and data/survey_setups/DES_config_file.ini:28). *)
Definition documented_query (des : bool) : list string :=
  if des then ["observationId"; "observationMidpointMJD_TAI"; "visitExposureTime"; "filter"; "fieldFiveSigmaDepth_mag"; "fieldRA_deg";
    "fieldDec_deg"; "c"; "k"]
  else ["observationId"; "observationStartMJD_TAI"; "visitTime"; "visitExposureTime"; "filter"; "seeingFwhmGeom_arcsec";
    "seeingFwhmEff_arcsec"; "fieldFiveSigmaDepth_mag"; "fieldRA_deg"; "fieldDec_deg"; "fieldRotSkyPos_deg"].
(** The columns of an ephemeris. *)
Definition ephemeris_names : list string :=
  ["ObjID"; "FieldID"; "fieldMJD_TAI"; "Range_LTC_km"; "RangeRate_LTC_km_s"; "RA_deg"; "RARateCosDec_deg_day"; "Dec_deg";
   "DecRate_deg_day"; "Obj_Sun_x_LTC_km"; "Obj_Sun_y_LTC_km"; "Obj_Sun_z_LTC_km"; "Obj_Sun_vx_LTC_km_s";
   "Obj_Sun_vy_LTC_km_s"; "Obj_Sun_vz_LTC_km_s"; "Obs_Sun_x_km"; "Obs_Sun_y_km"; "Obs_Sun_z_km"; "Obs_Sun_vx_km_s";
   "Obs_Sun_vy_km_s"; "Obs_Sun_vz_km_s"; "phase_deg"].
(** What every round computes for the catalogue. *)
Definition computed_names : list string :=
  ["H_filter"; "trailedSourceMagTrue"; "PSFMagTrue"; "fiveSigmaDepth_mag"; "trailedSourceMag"; "PSFMag"; "RATrue_deg"; "DecTrue_deg";
   "Obj_Sun_LTC_km"].
Definition uncertainty_names : list string :=
  ["astrometricSigma_deg"; "SNRTrailedSourceMag"; "trailedSourceMagSigma"; "SNRPSFMag"; "PSFMagSigma"].
Definition linking_names : list string := ["object_linked"; "date_linked_MJD"].
(** Columns of the pointings that serve the computation of the ephemeris only. *)
Definition pointing_helpers : list string :=
  ["fieldJD_TDB"; "pixels_begin"; "pixels_end"; "visit_vector_x"; "visit_vector_y"; "visit_vector_z"; "pixels_x"; "pixels_y";
   "pixels_z"; "r_obs_x"; "r_obs_y"; "r_obs_z"; "v_obs_x"; "v_obs_y"; "v_obs_z"; "r_sun_x"; "r_sun_y"; "r_sun_z"; "v_sun_x";
   "v_sun_y"; "v_sun_z"].
(** Names that other columns of the input files must not have. *)
Definition reserved (des : bool) : list string :=
  (documented_query des ++ ephemeris_names ++ computed_names ++ uncertainty_names ++ linking_names ++ pointing_helpers
   ++ ["observationStartMJD_TAI"; "observationMidpointMJD_TAI"; "observationId_"; "optFilter"; "H_original"; "Delta_m"; "detectorID";
       "limMag_perChip"; "object_separation"; "detection_probability"])%list.

(** The parameters of the phase functions. *)
Definition phase_columns (phase : string) : list string :=
  if String.eqb phase "HG1G2" then ["G1"; "G2"] else if String.eqb phase "HG" then ["GS"]
  else if String.eqb phase "HG12" then ["G12"] else if String.eqb phase "linear" then ["S"] else [].
(** A colour with respect to the main filter. *)
Definition colour_of (main x : string) : Prop := exists ch, x = String ch ("-" ++ main).
(** A phase parameter given for one filter. *)
Definition parameter_of_filter (c : configs) (x : string) : Prop :=
  exists p f, In p (phase_columns (c_phase_function c)) /\ In f (c_filters c) /\ x = p ++ f.
(** Phase parameters are given once for all filters. *)
Definition one_set (c : configs) (A : list string) : Prop := incl (phase_columns (c_phase_function c)) A.
(** More than one filter is used. *)
Definition several (c : configs) : Prop := 1 < length (c_filters c).

(** Input files as documented, but with the absolute magnitude in a column
    H_main and the slope parameter in a column GS (docs/inputs.rst calls them H
    and G).  [aux] lists the columns of the orbits, physical parameters and, if
    any, complex parameters files. *)
Record documented_inputs (des : bool) (c : configs) (main : string) (query : list string) (aux : list (list string)) : Prop := {
  doc_query : incl (documented_query des) query;
  doc_query_names : forall x, In x query -> In x (documented_query des) \/ ~ In x ("q" :: reserved des)
                      /\ ~ colour_of main x /\ ~ parameter_of_filter c x /\ ~ In x (phase_columns (c_phase_function c));
  doc_some : aux <> [];
  doc_id : forall a, In a aux -> In "ObjID" a;
  doc_apart : ForallOrdPairs (fun a b => forall x, In x a -> In x b -> x = "ObjID") aux;
  doc_query_apart : forall x, In x query -> ~ In x (concat aux);
  doc_names : forall x, In x (concat aux) -> x = "ObjID" \/ ~ In x (reserved des);
  doc_orbits : incl ["FORMAT"; "epochMJD_TDB"] (concat aux);
  doc_main : In main (c_filters c);
  doc_H : In ("H_" ++ main) (concat aux);
  doc_colours : several c -> forall f, In f (c_filters c) -> f <> main -> In (f ++ "-" ++ main) (concat aux);
  doc_phase : one_set c (concat aux)
    \/ several c /\ forall p f, In p (phase_columns (c_phase_function c)) -> In f (c_filters c) -> In (p ++ f) (concat aux) }.

(** A column of the auxiliary files that reaches the catalogue: colours and
    phase parameters given per filter are replaced by the values that apply. *)
Definition input_kept (c : configs) (main : string) (A : list string) (x : string) : Prop :=
  In x A /\ (several c -> ~ colour_of main x) /\ (~ one_set c A -> ~ parameter_of_filter c x).
(** The columns of the catalogue. *)
Definition catalogue (des : bool) (c : configs) (main : string) (query A : list string) (x : string) : Prop :=
  In x ephemeris_names \/ (in_ephemerides_type (c_input c) <> "external" /\ x = "fieldJD_TDB")
  \/ input_kept c main A x
  \/ (In x query /\ ~ In x ("observationId" :: "filter" :: "observationStartMJD_TAI" :: "observationMidpointMJD_TAI" :: pointing_helpers))
  \/ x = "optFilter" \/ In x computed_names
  \/ (des = false /\ In x uncertainty_names)
  \/ (~ one_set c A /\ In x (phase_columns (c_phase_function c)))
  \/ ((exists m, c_lightcurve c = Some m /\ m <> "") /\ x = "Delta_m")
  \/ (In (fov_camera_model (c_fov c)) ["footprint"; "visits_footprint"] /\ x = "detectorID")
  \/ (fov_camera_model (c_fov c) = "visits_footprint" /\ x = "limMag_perChip")
  \/ (des = false /\ l_ssp (c_linking c) <> None /\ In x linking_names)
  \/ (in_ephemerides_type (c_input c) <> "external" /\ x_brute_force (c_expert c) = false /\ x = "q").

(** The required columns of the light curve and activity models, by name of the
    model, are columns of the ephemeris or of the auxiliary files.  An empty
    name chooses no model. *)
Definition models_served (c : configs) (main : string) (A : list string) (req : string -> list string) (m : option string) : Prop :=
  forall n x, m = Some n -> n <> "" -> In x (req n) -> In x ephemeris_names \/ input_kept c main A x.

(** The columns of the basic output (docs/outputs.rst, "Basic Output"). *)
Definition basic_names : list string :=
  ["ObjID"; "fieldMJD_TAI"; "fieldRA_deg"; "fieldDec_deg"; "RA_deg"; "Dec_deg"; "astrometricSigma_deg"; "optFilter";
   "trailedSourceMag"; "trailedSourceMagSigma"; "fiveSigmaDepth_mag"; "phase_deg"; "Range_LTC_km"; "RangeRate_LTC_km_s";
   "Obj_Sun_LTC_km"].
(** The columns of the full output that docs/outputs.rst:145-250 names, without
    those that depend on the input files, the camera or linking. *)
Definition full_names : list string :=
  ["ObjID"; "FieldID"; "fieldMJD_TAI"; "fieldJD_TDB"; "Range_LTC_km"; "RangeRate_LTC_km_s"; "RA_true_deg"; "RARateCosDec_deg_day";
   "Dec_true_deg"; "DecRate_deg_day"; "Obj_Sun_x_LTC_km"; "Obj_Sun_y_LTC_km"; "Obj_Sun_vx_LTC_km_s";
   "Obj_Sun_vy_LTC_km_s"; "Obj_Sun_vz_LTC_km_s"; "Obj_Sun_x_km"; "Obj_Sun_y_km"; "Obj_Sun_vx_km_s"; "Obj_Sun_vy_km_s";
   "Obj_Sun_vz_km_s"; "phase_deg"; "epochMJD_TDB"; "FORMAT"; "H_filter"; "visitTime"; "visitExposureTime"; "optFilter";
   "seeingFwhmGeom_arcsec"; "seeingFwhmEff_arcsec"; "fieldFiveSigmaDepth_mag"; "fieldRA_deg"; "fieldDec_deg"; "fieldRotSkyPos_deg";
   "trailedSourceMagTrue"; "PSFMagTrue"; "fiveSigmaDepth_mag"; "astrometricSigma_deg"; "trailedSourceMagSigma"; "SNR"; "PSFMagSigma";
   "trailedSourceMag"; "PSFMag"; "RA_deg"; "Dec_deg"; "Obj_Sun_LTC_km"].
(** Those of them that no column has. *)
Definition misnamed : list string :=
  ["RA_true_deg"; "Dec_true_deg"; "Obj_Sun_x_km"; "Obj_Sun_y_km"; "Obj_Sun_vx_km_s"; "Obj_Sun_vy_km_s"; "Obj_Sun_vz_km_s"; "SNR"].

(** The headers of the physical parameters files shown in docs/inputs.rst:229 and 244. *)
Definition example_headers : list string :=
  ["ObjID H u-r g-r i-r z-r y-r GS "; "ObjID H u-r g-r i-r z-r y-r Gr Gu Gg Gi Gz Gy"].
(** The list of columns shown in docs/advanced.rst:218. *)
Definition example_columns : list string := ["ObjID"; "RA_deg"; "Dec_deg"; "trailedSourceMag"].

(** A requested list of columns that the chosen format can store. *)
Definition storable (c : configs) (l : list string) : Prop :=
  (o_format (c_output c) = "hdf5" -> In "ObjID" l)
  /\ (o_format (c_output c) = "sqlite3" -> incl ["ObjID"; "fieldMJD_TAI"; "optFilter"] l).

(** The catalogue of a round, or its failure, for the output columns asked for:
    the basic ones, with [object_linked] if unlinked observations are kept; all;
    or those of a list. *)
Definition linked_column (c : configs) : Prop := l_ssp (c_linking c) <> None /\ l_drop_unlinked (c_linking c) = false.
Definition basic_written (c : configs) (r : result (list string)) : Prop :=
  o_columns (c_output c) = Keyword "basic" ->
  (linked_column c -> r = Ok (basic_names ++ ["object_linked"])%list) /\ (~ linked_column c -> r = Ok basic_names).
Definition all_written (des : bool) (c : configs) (main : string) (query A : list string) (r : result (list string)) : Prop :=
  o_columns (c_output c) = Keyword "all" -> exists out, r = Ok out /\ forall x, In x out <-> catalogue des c main query A x.
Definition list_written (des : bool) (c : configs) (main : string) (query A : list string) (r : result (list string)) : Prop :=
  forall l, o_columns (c_output c) = Columns l ->
  ((forall x, In x l -> catalogue des c main query A x) -> storable c l -> r = Ok l)
  /\ (forall x, In x l -> ~ catalogue des c main query A x -> r = Err SysExit).

(** A configuration file with another value for one key, or with one more key. *)
Definition revalued (key value : string) (f : config_file) : config_file :=
  map (fun s => (fst s, map (fun kv => (fst kv, if String.eqb (fst kv) key then value else snd kv)) (snd s))) f.
Definition extended (sec key value : string) (f : config_file) : config_file :=
  map (fun s => (fst s, if String.eqb (fst s) sec then ((key, value) :: snd s)%list else snd s)) f.
(** Cometary orbits. *)
Definition orbit_columns : list string := ["ObjID"; "FORMAT"; "q"; "e"; "inc"; "node"; "argPeri"; "t_p_MJD_TDB"; "epochMJD_TDB"].
