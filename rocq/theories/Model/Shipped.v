(** The configuration files shipped with the package, as configparser delivers
    them: keys in lower case, comments gone.  Paths are relative to
    /repo/src/sorcha/data. *)
From Coq Require Import String List.
From Verif Require Import Model.Config.
Import ListNotations.
Open Scope string_scope.

(** survey_setups/Rubin_circular_approximation.ini, line 30. *)
Definition rubin_query : string :=
  "SELECT observationId, observationStartMJD as observationStartMJD_TAI, visitTime, visitExposureTime, filter, seeingFwhmGeom as seeingFwhmGeom_arcsec, seeingFwhmEff as seeingFwhmEff_arcsec, fiveSigmaDepth as fieldFiveSigmaDepth_mag , fieldRA as fieldRA_deg, fieldDec as fieldDec_deg, rotSkyPos as fieldRotSkyPos_deg FROM observations order by observationId".
(** survey_setups/DES_config_file.ini, line 28. *)
Definition des_query : string :=
  "SELECT observationId, observationMidpointMJD as observationMidpointMJD_TAI , visitExposureTime, filter, fiveSigmaDepth as fieldFiveSigmaDepth_mag , fieldRA as fieldRA_deg, fieldDec as fieldDec_deg, c, k FROM observations order by observationId".

(** survey_setups/Rubin_circular_approximation.ini, lines 9-169. *)
Definition circular_approximation : config_file := [
  ("INPUT", [("ephemerides_type", "ar"); ("eph_format", "csv"); ("size_serial_chunk", "20000");
     ("aux_format", "csv"); ("pointing_sql_query", rubin_query)]);
  ("SIMULATION", [("ar_ang_fov", "2.06"); ("ar_fov_buffer", "0.2"); ("ar_picket", "1");
     ("ar_obs_code", "X05"); ("ar_healpix_order", "6")]);
  ("FILTERS", [("observing_filters", "r,g,i,z,u,y")]);
  ("SATURATION", [("bright_limit", "16.0")]);
  ("PHASECURVES", [("phase_function", "HG")]);
  ("FOV", [("camera_model", "circle"); ("fill_factor", "0.9"); ("circle_radius", "1.75")]);
  ("FADINGFUNCTION", [("fading_function_width", "0.1"); ("fading_function_peak_efficiency", "1.")]);
  ("LINKINGFILTER", [("ssp_detection_efficiency", "0.95"); ("ssp_number_observations", "2"); ("ssp_separation_threshold", "0.5");
     ("ssp_maximum_time", "0.0625"); ("ssp_number_tracklets", "3"); ("ssp_track_window", "15");
     ("ssp_night_start_utc", "16.0")]);
  ("OUTPUT", [("output_format", "sqlite3"); ("output_columns", "basic")]);
  ("LIGHTCURVE", [("lc_model", "none")]);
  ("ACTIVITY", [("comet_activity", "none")]) ].

(** survey_setups/Rubin_full_footprint.ini, lines 7-168. *)
Definition full_footprint : config_file := [
  ("INPUT", [("ephemerides_type", "ar"); ("eph_format", "csv"); ("size_serial_chunk", "20000");
     ("aux_format", "csv"); ("pointing_sql_query", rubin_query)]);
  ("SIMULATION", [("ar_ang_fov", "2.06"); ("ar_fov_buffer", "0.2"); ("ar_picket", "1");
     ("ar_obs_code", "X05"); ("ar_healpix_order", "6")]);
  ("FILTERS", [("observing_filters", "r,g,i,z,u,y")]);
  ("SATURATION", [("bright_limit", "16.0")]);
  ("PHASECURVES", [("phase_function", "HG")]);
  ("FOV", [("camera_model", "footprint"); ("footprint_edge_threshold", "2.")]);
  ("FADINGFUNCTION", [("fading_function_width", "0.1"); ("fading_function_peak_efficiency", "1.")]);
  ("LINKINGFILTER", [("ssp_detection_efficiency", "0.95"); ("ssp_number_observations", "2"); ("ssp_separation_threshold", "0.5");
     ("ssp_maximum_time", "0.0625"); ("ssp_number_tracklets", "3"); ("ssp_track_window", "15");
     ("ssp_night_start_utc", "16.0")]);
  ("OUTPUT", [("output_format", "sqlite3"); ("output_columns", "basic")]);
  ("LIGHTCURVE", [("lc_model", "none")]);
  ("ACTIVITY", [("comet_activity", "none")]) ].

(** survey_setups/Rubin_known_object_prediction.ini, lines 11-121. *)
Definition known_object_prediction : config_file := [
  ("INPUT", [("ephemerides_type", "ar"); ("eph_format", "csv"); ("size_serial_chunk", "20000");
     ("aux_format", "csv"); ("pointing_sql_query", rubin_query)]);
  ("SIMULATION", [("ar_ang_fov", "2.06"); ("ar_fov_buffer", "0.2"); ("ar_picket", "1");
     ("ar_obs_code", "X05"); ("ar_healpix_order", "6")]);
  ("FILTERS", [("observing_filters", "r,g,i,z,u,y")]);
  ("PHASECURVES", [("phase_function", "HG")]);
  ("FOV", [("camera_model", "footprint"); ("footprint_edge_threshold", "2.")]);
  ("OUTPUT", [("output_format", "sqlite3"); ("output_columns", "basic")]);
  ("LIGHTCURVE", [("lc_model", "none")]);
  ("ACTIVITY", [("comet_activity", "none")]);
  ("EXPERT", [("randomization_on", "False"); ("vignetting_on", "False"); ("trailing_losses_on", "False")]) ].

(** demo/sorcha_config_demo.ini, lines 7-178. *)
Definition demo : config_file := [
  ("INPUT", [("ephemerides_type", "ar"); ("eph_format", "csv"); ("size_serial_chunk", "5000");
     ("aux_format", "whitespace"); ("pointing_sql_query", rubin_query)]);
  ("SIMULATION", [("ar_ang_fov", "2.06"); ("ar_fov_buffer", "0.2"); ("ar_picket", "1");
     ("ar_obs_code", "X05"); ("ar_healpix_order", "6")]);
  ("FILTERS", [("observing_filters", "r,g,i,z,u,y")]);
  ("SATURATION", [("bright_limit", "16.0")]);
  ("PHASECURVES", [("phase_function", "HG")]);
  ("FOV", [("camera_model", "footprint"); ("footprint_edge_threshold", "2.")]);
  ("FADINGFUNCTION", [("fading_function_width", "0.1"); ("fading_function_peak_efficiency", "1.")]);
  ("LINKINGFILTER", [("ssp_detection_efficiency", "0.95"); ("ssp_number_observations", "2"); ("ssp_separation_threshold", "0.5");
     ("ssp_maximum_time", "0.0625"); ("ssp_number_tracklets", "3"); ("ssp_track_window", "15");
     ("ssp_night_start_utc", "16.0")]);
  ("OUTPUT", [("output_format", "csv"); ("output_columns", "basic")]);
  ("LIGHTCURVE", [("lc_model", "none")]);
  ("ACTIVITY", [("comet_activity", "none")]) ].

(** survey_setups/DES_config_file.ini, lines 7-145. *)
Definition dark_energy_survey : config_file := [
  ("INPUT", [("ephemerides_type", "ar"); ("eph_format", "csv"); ("size_serial_chunk", "20000");
     ("aux_format", "csv"); ("pointing_sql_query", des_query)]);
  ("SIMULATION", [("ar_ang_fov", "1.3"); ("ar_fov_buffer", "0.2"); ("ar_picket", "1");
     ("ar_obs_code", "W84"); ("ar_healpix_order", "6")]);
  ("FILTERS", [("observing_filters", "r,g,i,z")]);
  ("SATURATION", [("bright_limit", "16.0")]);
  ("PHASECURVES", [("phase_function", "none")]);
  ("FOV", [("camera_model", "visits_footprint"); ("visits_query", "SELECT llcra, llcdec, lrcra, lrcdec, urcra, urcdec, ulcra, ulcdec, ra as ra_centre, dec as dec_centre, detectorID, magLim as limMag_perChip  FROM observations WHERE visitId = ?")]);
  ("FADINGFUNCTION", [("fading_function_on", "True"); ("self.des_transient_efficency", "0.95529")]);
  ("LINKINGFILTER", [("des_discovery_on", "True")]);
  ("OUTPUT", [("output_format", "csv"); ("output_columns", "all")]);
  ("LIGHTCURVE", [("lc_model", "none")]);
  ("ACTIVITY", [("comet_activity", "none")]) ].
