(** Configuration: utilities/sorchaConfigs.py (line numbers refer to it).
    A section of the file is a list of (key, value) strings as configparser
    delivers it.  Python's [int] and [float] on strings, the file system and the
    registries of light curve and activity models are parameters. *)
From Coq Require Import ZArith QArith String Ascii List Bool Arith.
From Verif Require Import Base.Prelude Base.Num Model.Csv.
Import ListNotations.
Open Scope string_scope.
Open Scope result_scope.

(** [dict(config_object[section])], line 1286. *)
Definition section := list (string * string).
(** An attribute of the dataclass that the section may have set, for example
    lines 16-29; [None] is Python's None. *)
Fixpoint key (s : section) (k : string) : option string :=
  match s with
  | [] => None
  | (k', v) :: rest => if String.eqb k' k then Some v else key rest k
  end.
(** Membership in a list of strings, line 1457. *)
Definition member (x : string) (l : list string) : bool := existsb (String.eqb x) l.

(** A keyword the dataclass does not have is a TypeError, line 1287. *)
Definition known_keys (s : section) (fields : list string) : result unit :=
  if forallb (fun kv => member (fst kv) fields) s then Ok tt else Err TypeError.

(** [str.strip()], lines 1425 and 1490. *)
Fixpoint lstrip (s : string) : string :=
  match s with
  | EmptyString => EmptyString
  | String c r => if py_space c then lstrip r else s
  end.
(** Used by [strip], line 1425. *)
Fixpoint string_rev (s acc : string) : string :=
  match s with EmptyString => acc | String c r => string_rev r (String c acc) end.
(** [str.strip()], lines 1425 and 1490. *)
Definition strip (s : string) : string :=
  string_rev (lstrip (string_rev (lstrip s) EmptyString)) EmptyString.

(** [str.lower()] on ASCII letters, line 369. *)
Definition lower_char (c : ascii) : ascii :=
  let n := nat_of_ascii c in if ((65 <=? n) && (n <=? 90))%nat then ascii_of_nat (n + 32) else c.
(** [str.lower()], line 369. *)
Fixpoint lower (s : string) : string :=
  match s with EmptyString => EmptyString | String c r => String (lower_char c) (lower r) end.

(** Truth value of an attribute that holds a string or None, line 683. *)
Definition truthy (v : option string) : bool :=
  match v with Some EmptyString | None => false | Some _ => true end.

(** Lines 1301-1325. *)
Definition check_key_exists (v : option string) : result string :=
  match v with Some x => Ok x | None => Err SysExit end.
(** Lines 1328-1351. *)
Definition check_key_doesnt_exist (v : option string) : result unit :=
  match v with Some _ => Err SysExit | None => Ok tt end.
(** Lines 1436-1463. *)
Definition check_value_in_list (v : string) (l : list string) : result unit :=
  if member v l then Ok tt else Err SysExit.
(** Lines 1408-1433. *)
Definition cast_as_bool (v : string) : result bool :=
  if member (strip v) ["true"; "1"; "yes"; "y"; "True"] then Ok true
  else if member (strip v) ["false"; "0"; "no"; "n"; "False"] then Ok false
  else Err SysExit.
(** Lines 1466-1500. *)
Definition cast_as_bool_or_set_default (v : option string) (default : bool) : result bool :=
  match v with Some x => cast_as_bool x | None => Ok default end.
(** A check that exits with an error message when the condition holds, for
    example lines 422-424. *)
Definition exit_if (b : bool) : result unit := if b then Err SysExit else Ok tt.

(** Zero as a float, for example line 422. *)
Definition zero : num := Fin 0.
(** One as a float, for example line 422. *)
Definition one : num := Fin 1.
(** 0.5, line 517. *)
Definition half : num := Fin (1 # 2).

Section Config.
(** Python's [int(s)], lines 1372-1376; [None] is a ValueError. *)
Variable int_of : string -> option Z.
(** Python's [float(s)], lines 1399-1403; [None] is a ValueError. *)
Variable float_of : string -> option num.
(** [os.path.exists], used by FindFileOrExit, line 368. *)
Variable path_exists : string -> bool.
(** The keys of LC_METHODS and CA_METHODS, lines 799 and 832. *)
Variables lc_methods ca_methods : list string.

(** Lines 1354-1378. *)
Definition cast_as_int (v : string) : result Z :=
  match int_of v with Some z => Ok z | None => Err SysExit end.
(** Lines 1381-1405. *)
Definition cast_as_float (v : string) : result num :=
  match float_of v with Some x => Ok x | None => Err SysExit end.
(** An optional number, for example lines 376-379. *)
Definition optional {A} (cast : string -> result A) (v : option string) : result (option A) :=
  match v with Some x => rmap Some (cast x) | None => Ok None end.

(** ** INPUT, lines 12-58 *)
(** The attributes of lines 16-29 after validation. *)
Record input := { in_ephemerides_type : string; in_eph_format : string; in_size_serial_chunk : Z;
  in_aux_format : string; in_pointing_sql_query : string }.
(** Lines 35-58. *)
Definition inputConfigs (s : section) : result input :=
  _ <- known_keys s ["ephemerides_type"; "eph_format"; "size_serial_chunk"; "aux_format"; "pointing_sql_query"] ;;
  t <- check_key_exists (key s "ephemerides_type") ;;
  f <- check_key_exists (key s "eph_format") ;;
  c <- check_key_exists (key s "size_serial_chunk") ;;
  a <- check_key_exists (key s "aux_format") ;;
  q <- check_key_exists (key s "pointing_sql_query") ;;
  _ <- check_value_in_list t ["ar"; "external"] ;;
  _ <- check_value_in_list f ["csv"; "whitespace"; "hdf5"] ;;
  _ <- check_value_in_list a ["comma"; "whitespace"; "csv"] ;;
  c <- cast_as_int c ;;
  Ok {| in_ephemerides_type := t; in_eph_format := f; in_size_serial_chunk := c; in_aux_format := a;
        in_pointing_sql_query := q |}.

(** ** SIMULATION, lines 61-126 *)
(** The numbers of lines 66-81 when ephemerides are computed. *)
Record simulation_ar := { ar_ang_fov : num; ar_fov_buffer : num; ar_picket : Z; ar_obs_code : string;
  ar_healpix_order : Z; ar_n_sub_intervals : Z }.
(** Lines 90-126; [None] for external ephemerides.  [eph] is the value handed
    over in lines 1277-1278, [None] when the section is missing. *)
Definition simulationConfigs (s : section) (eph : option string) : result (option simulation_ar) :=
  _ <- known_keys s ["ar_ang_fov"; "ar_fov_buffer"; "ar_picket"; "ar_obs_code"; "ar_healpix_order"; "ar_n_sub_intervals"] ;;
  t <- check_key_exists eph ;;
  _ <- check_value_in_list t ["ar"; "external"] ;;
  if String.eqb t "ar" then
    fov <- check_key_exists (key s "ar_ang_fov") ;;
    buf <- check_key_exists (key s "ar_fov_buffer") ;;
    pick <- check_key_exists (key s "ar_picket") ;;
    obs <- check_key_exists (key s "ar_obs_code") ;;
    hp <- check_key_exists (key s "ar_healpix_order") ;;
    fov <- cast_as_float fov ;;
    buf <- cast_as_float buf ;;
    pick <- cast_as_int pick ;;
    hp <- cast_as_int hp ;;
    n <- match key s "ar_n_sub_intervals" with Some x => cast_as_int x | None => Ok 101%Z end ;;
    Ok (Some {| ar_ang_fov := fov; ar_fov_buffer := buf; ar_picket := pick; ar_obs_code := obs;
                ar_healpix_order := hp; ar_n_sub_intervals := n |})
  else
    _ <- check_key_doesnt_exist (key s "ar_ang_fov") ;;
    _ <- check_key_doesnt_exist (key s "ar_fov_buffer") ;;
    _ <- check_key_doesnt_exist (key s "ar_picket") ;;
    _ <- check_key_doesnt_exist (key s "ar_obs_code") ;;
    _ <- check_key_doesnt_exist (key s "ar_healpix_order") ;;
    Ok None.

(** ** FILTERS, lines 129-216 *)
(** Lines 168-216. *)
Definition check_for_correct_filters (survey : string) (filters : list string) : result unit :=
  _ <- (if member survey ["rubin_sim"; "RUBIN_SIM"; "LSST"; "lsst"]
        then exit_if (negb (forallb (fun f => member f ["u"; "g"; "r"; "i"; "z"; "y"]) filters)) else Ok tt) ;;
  if member survey ["DES"; "des"]
  then exit_if (negb (forallb (fun f => member f ["g"; "r"; "i"; "z"; "Y"]) filters)) else Ok tt.
(** Lines 149-166: the observing filters. *)
Definition filtersConfigs (s : section) (survey : string) : result (list string) :=
  _ <- known_keys s ["observing_filters"; "mainfilter"; "othercolours"] ;;
  f <- check_key_exists (key s "observing_filters") ;;
  let fs := map strip (split_comma f) in
  _ <- check_for_correct_filters survey fs ;;
  Ok fs.

(** ** SATURATION, lines 219-270 *)
(** Lines 254-258: all numbers of a comma-separated list. *)
Fixpoint floats (l : list string) : result (list num) :=
  match l with
  | [] => Ok []
  | x :: rest => v <- cast_as_float (strip x) ;; vs <- floats rest ;; Ok (v :: vs)
  end.
(** Lines 235-270: the flag as tested later, and the limits.  [bright_limit_on]
    can be given in the file, it is then a string. *)
Definition saturationConfigs (s : section) (filters : list string) : result (bool * option (list num)) :=
  _ <- known_keys s ["bright_limit_on"; "bright_limit"] ;;
  match key s "bright_limit" with
  | None => Ok (truthy (key s "bright_limit_on"), None)
  | Some l =>
    ls <- floats (split_comma l) ;;
    match ls with
    | [x] => Ok (true, Some (repeat x (length filters)))
    | _ => if (length ls =? length filters)%nat then Ok (true, Some ls) else Err SysExit
    end
  end.

(** ** PHASECURVES, lines 273-299 *)
(** Lines 284-299. *)
Definition phasecurvesConfigs (s : section) : result string :=
  _ <- known_keys s ["phase_function"] ;;
  f <- check_key_exists (key s "phase_function") ;;
  _ <- check_value_in_list f ["HG"; "HG1G2"; "HG12"; "linear"; "none"] ;;
  Ok f.

(** ** FOV, lines 302-441 *)
(** The attributes of lines 306-325 after validation. *)
Record fov := { fov_camera_model : string; fov_footprint_path : option string; fov_visits_query : option string;
  fov_fill_factor : option num; fov_circle_radius : option num; fov_footprint_edge_threshold : option num }.
(** Lines 355-384. *)
Definition camera_footprint (s : section) (survey : string) : result fov :=
  _ <- match key s "footprint_path" with
       | Some p => if path_exists p then Ok tt else Err SysExit
       | None => exit_if (negb (member (lower survey) ["lsst"; "rubin_sim"; "des"]))
       end ;;
  e <- optional cast_as_float (key s "footprint_edge_threshold") ;;
  _ <- check_key_doesnt_exist (key s "visits_query") ;;
  _ <- check_key_doesnt_exist (key s "fill_factor") ;;
  _ <- check_key_doesnt_exist (key s "circle_radius") ;;
  Ok {| fov_camera_model := "footprint"; fov_footprint_path := key s "footprint_path"; fov_visits_query := None;
        fov_fill_factor := None; fov_circle_radius := None; fov_footprint_edge_threshold := e |}.
(** Lines 386-406. *)
Definition camera_visits_footprint (s : section) (survey : string) : result fov :=
  _ <- check_value_in_list (lower survey) ["des"] ;;
  q <- check_key_exists (key s "visits_query") ;;
  _ <- check_key_doesnt_exist (key s "footprint_edge_threshold") ;;
  _ <- check_key_doesnt_exist (key s "fill_factor") ;;
  _ <- check_key_doesnt_exist (key s "circle_radius") ;;
  Ok {| fov_camera_model := "visits_footprint"; fov_footprint_path := key s "footprint_path"; fov_visits_query := Some q;
        fov_fill_factor := None; fov_circle_radius := None; fov_footprint_edge_threshold := None |}.
(** Lines 408-441. *)
Definition camera_circle (s : section) : result fov :=
  f <- optional (fun v => x <- cast_as_float v ;; _ <- exit_if (nltb x zero || nltb one x) ;; Ok x) (key s "fill_factor") ;;
  r <- optional (fun v => x <- cast_as_float v ;; _ <- exit_if (nltb x zero) ;; Ok x) (key s "circle_radius") ;;
  _ <- match f, r with None, None => Err SysExit | _, _ => Ok tt end ;;
  _ <- check_key_doesnt_exist (key s "footprint_edge_threshold") ;;
  Ok {| fov_camera_model := "circle"; fov_footprint_path := key s "footprint_path"; fov_visits_query := key s "visits_query";
        fov_fill_factor := f; fov_circle_radius := r; fov_footprint_edge_threshold := None |}.
(** Lines 331-353.  With no camera model the other keys are not looked at; the
    numbers are then never read. *)
Definition fovConfigs (s : section) (survey : string) : result fov :=
  _ <- known_keys s ["camera_model"; "footprint_path"; "visits_query"; "fill_factor"; "circle_radius"; "footprint_edge_threshold"] ;;
  m <- check_key_exists (key s "camera_model") ;;
  _ <- check_value_in_list m ["circle"; "footprint"; "visits_footprint"; "none"] ;;
  if String.eqb m "footprint" then camera_footprint s survey
  else if String.eqb m "visits_footprint" then camera_visits_footprint s survey
  else if String.eqb m "circle" then camera_circle s
  else Ok {| fov_camera_model := m; fov_footprint_path := key s "footprint_path"; fov_visits_query := key s "visits_query";
             fov_fill_factor := None; fov_circle_radius := None; fov_footprint_edge_threshold := None |}.

(** ** FADINGFUNCTION, lines 444-541 *)
(** What later stages see of lines 449-460: off, the two numbers, or the DES efficiency. *)
Inductive fading := FadingOff | Fading (width peak : num) | FadingDES (efficiency : num).
(** Lines 469-493. *)
Definition fading_DES (s : section) : result fading :=
  on <- check_key_exists (key s "fading_function_on") ;;
  on <- cast_as_bool on ;;
  r <- (if on : bool then
          match key s "des_transient_efficency" with
          | Some v => rmap FadingDES (cast_as_float v)
          | None => Ok (FadingDES one)
          end
        else Ok FadingOff) ;;
  _ <- check_key_doesnt_exist (key s "fading_function_peak_efficiency") ;;
  _ <- check_key_doesnt_exist (key s "fading_function_width") ;;
  Ok r.
(** Lines 495-541. *)
Definition fading_other (s : section) : result fading :=
  match key s "fading_function_width", key s "fading_function_peak_efficiency" with
  | Some w, Some p =>
    w <- cast_as_float w ;;
    p <- cast_as_float p ;;
    _ <- exit_if (nleb w zero || nltb half w) ;;
    _ <- exit_if (nltb p zero || nltb one p) ;;
    Ok (Fading w p)
  | None, None => Ok FadingOff
  | _, _ => Err SysExit
  end.
(** Lines 462-467. *)
Definition fadingfunctionConfigs (s : section) (survey : string) : result fading :=
  _ <- known_keys s ["fading_function_on"; "fading_function_width"; "fading_function_peak_efficiency"; "des_transient_efficency"] ;;
  if member survey ["DES"; "des"] then fading_DES s else fading_other s.

(** ** LINKINGFILTER, lines 544-703 *)
(** The numbers of the SSP linking filter, lines 628-641. *)
Record ssp := { ssp_detection_efficiency : num; ssp_number_observations : Z; ssp_separation_threshold : num;
  ssp_maximum_time : num; ssp_number_tracklets : Z; ssp_track_window : Z; ssp_night_start_utc : num }.
(** After the validation of lines 602-703; a cut is the pair of its lower and upper bounds. *)
Record linking := { l_ssp : option ssp; l_drop_unlinked : bool; l_des_discovery_on : bool;
  l_distance_cut_on : bool; l_distance_cut : option (num * num);
  l_motion_cut_on : bool; l_motion_cut : option (num * num) }.
(** Lines 615-623. *)
Definition ssp_keys : list string := ["ssp_separation_threshold"; "ssp_number_observations"; "ssp_number_tracklets";
  "ssp_track_window"; "ssp_detection_efficiency"; "ssp_maximum_time"; "ssp_night_start_utc"].
(** Lines 628-670. *)
Definition validate_ssp (eff nobs sep tmax ntr win night : string) : result ssp :=
  eff <- cast_as_float eff ;;
  nobs <- cast_as_int nobs ;;
  sep <- cast_as_float sep ;;
  tmax <- cast_as_float tmax ;;
  ntr <- cast_as_int ntr ;;
  win <- cast_as_int win ;;
  night <- cast_as_float night ;;
  _ <- exit_if (nobs <? 1)%Z ;;
  _ <- exit_if ((1 <? nobs)%Z && neqb sep zero) ;;
  _ <- exit_if (nltb sep zero) ;;
  _ <- exit_if (ntr <? 1)%Z ;;
  _ <- exit_if (win <=? 0)%Z ;;
  _ <- exit_if (nltb one eff || nltb eff zero) ;;
  _ <- exit_if (nltb tmax zero) ;;
  _ <- exit_if (nltb (Fin 24) night || nltb night zero) ;;
  Ok {| ssp_detection_efficiency := eff; ssp_number_observations := nobs; ssp_separation_threshold := sep;
        ssp_maximum_time := tmax; ssp_number_tracklets := ntr; ssp_track_window := win; ssp_night_start_utc := night |}.
(** Lines 626-681. *)
Definition linking_ssp (s : section) (survey : string) : result (option ssp) :=
  match key s "ssp_detection_efficiency", key s "ssp_number_observations", key s "ssp_separation_threshold",
        key s "ssp_maximum_time", key s "ssp_number_tracklets", key s "ssp_track_window", key s "ssp_night_start_utc" with
  | Some eff, Some nobs, Some sep, Some tmax, Some ntr, Some win, Some night =>
    if String.eqb (lower survey) "des" then Err SysExit
    else rmap Some (validate_ssp eff nobs sep tmax ntr win night)
  | None, None, None, None, None, None, None => Ok None
  | _, _, _, _, _, _, _ => Err SysExit
  end.
(** Lines 688-693 and 694-699: flag and bounds. *)
Definition cut (s : section) (flag upper lower_ : string) : result (bool * option (num * num)) :=
  match key s upper, key s lower_ with
  | None, None => Ok (truthy (key s flag), None)
  | u, l =>
    u <- check_key_exists u ;;
    l <- check_key_exists l ;;
    u <- cast_as_float u ;;
    l <- cast_as_float l ;;
    Ok (true, Some (l, u))
  end.
(** Lines 602-703.  Outside DES [des_discovery_on] is left as it was and never
    read by the LSST driver. *)
Definition linkingfilterConfigs (s : section) (survey : string) : result linking :=
  _ <- known_keys s (ssp_keys ++ ["ssp_linking_on"; "drop_unlinked"; "des_discovery_on"; "distance_cut_on";
        "distance_cut_upper"; "distance_cut_lower"; "motion_cut_on"; "motion_cut_upper"; "motion_cut_lower"]) ;;
  p <- linking_ssp s survey ;;
  d <- cast_as_bool_or_set_default (key s "drop_unlinked") true ;;
  disc <- (if truthy (key s "des_discovery_on") && String.eqb (lower survey) "des"
           then cast_as_bool_or_set_default (key s "des_discovery_on") false
           else Ok (truthy (key s "des_discovery_on"))) ;;
  dist <- cut s "distance_cut_on" "distance_cut_upper" "distance_cut_lower" ;;
  mot <- cut s "motion_cut_on" "motion_cut_upper" "motion_cut_lower" ;;
  _ <- exit_if ((fst dist || fst mot) && negb (member (lower survey) ["des"])) ;;
  Ok {| l_ssp := p; l_drop_unlinked := d; l_des_discovery_on := disc; l_distance_cut_on := fst dist;
        l_distance_cut := snd dist; l_motion_cut_on := fst mot; l_motion_cut := snd mot |}.

(** ** OUTPUT, lines 706-772 *)
(** Columns: one of the keywords or a list, lines 745-748. *)
Inductive columns := Keyword (k : string) | Columns (l : list string).
(** The attributes of lines 710-720 after validation. *)
Record output := { o_format : string; o_columns : columns; o_position_decimals : option Z; o_magnitude_decimals : option Z }.
(** [s.strip(" ")], line 746. *)
Fixpoint lstrip_blanks (s : string) : string :=
  match s with String c r => if Ascii.eqb c " " then lstrip_blanks r else s | EmptyString => EmptyString end.
(** [s.strip(" ")], line 746. *)
Definition strip_blanks (s : string) : string :=
  string_rev (lstrip_blanks (string_rev (lstrip_blanks s) EmptyString)) EmptyString.
(** Lines 726-772. *)
Definition outputConfigs (s : section) : result output :=
  _ <- known_keys s ["output_format"; "output_columns"; "position_decimals"; "magnitude_decimals"] ;;
  f <- check_key_exists (key s "output_format") ;;
  c <- check_key_exists (key s "output_columns") ;;
  _ <- check_value_in_list f ["csv"; "sqlite3"; "hdf5"] ;;
  cols <- (if existsb (Ascii.eqb ",") (list_ascii_of_string c)
           then Ok (Columns (map strip_blanks (split_comma c)))
           else (_ <- check_value_in_list c ["basic"; "all"] ;; Ok (Keyword c))) ;;
  p <- optional cast_as_int (key s "position_decimals") ;;
  m <- optional cast_as_int (key s "magnitude_decimals") ;;
  _ <- exit_if (match p with Some z => (z <? 0)%Z | None => false end) ;;
  _ <- exit_if (match m with Some z => (z <? 0)%Z | None => false end) ;;
  Ok {| o_format := f; o_columns := cols; o_position_decimals := p; o_magnitude_decimals := m |}.

(** ** LIGHTCURVE and ACTIVITY, lines 775-838 *)
(** Lines 798-805 and 831-838. *)
Definition model_or_none (v : option string) (registered : list string) : result (option string) :=
  match v with
  | None => Ok None
  | Some m => if String.eqb m "none" then Ok None
              else if member m registered then Ok (Some m) else Err SysExit
  end.
(** Lines 786-805. *)
Definition lightcurveConfigs (s : section) : result (option string) :=
  _ <- known_keys s ["lc_model"] ;; model_or_none (key s "lc_model") lc_methods.
(** Lines 819-838. *)
Definition activityConfigs (s : section) : result (option string) :=
  _ <- known_keys s ["comet_activity"] ;; model_or_none (key s "comet_activity") ca_methods.

(** ** EXPERT, lines 841-957 *)
(** The attributes of lines 845-876 after validation; the three switches are
    [None] for a survey that is neither LSST nor DES. *)
Record expert := { x_snr_limit : option num; x_mag_limit : option num; x_default_snr_cut : bool; x_brute_force : bool;
  x_randomization_on : option bool; x_vignetting_on : option bool; x_trailing_losses_on : option bool }.
(** Lines 894-901 and 903-910: a limit that is not negative. *)
Definition limit (v : option string) : result (option num) :=
  optional (fun x => l <- cast_as_float x ;; _ <- exit_if (nltb l zero) ;; Ok l) v.
(** Lines 882-957.  In lines 944 and 956 [logging.ERROR] is an integer, calling
    it raises a TypeError.  For other surveys the switches keep the strings of
    the file. *)
Definition expertConfigs (s : section) (survey : string) (camera : option string) : result expert :=
  _ <- known_keys s ["snr_limit"; "snr_limit_on"; "mag_limit"; "mag_limit_on"; "trailing_losses_on"; "default_snr_cut";
        "randomization_on"; "vignetting_on"; "brute_force"] ;;
  snr <- limit (key s "snr_limit") ;;
  mag <- limit (key s "mag_limit") ;;
  _ <- match snr, mag with Some _, Some _ => Err SysExit | _, _ => Ok tt end ;;
  cutd <- cast_as_bool_or_set_default (key s "default_snr_cut") true ;;
  bf <- cast_as_bool_or_set_default (key s "brute_force") true ;;
  let mk r v t := {| x_snr_limit := snr; x_mag_limit := mag; x_default_snr_cut := cutd; x_brute_force := bf;
                     x_randomization_on := r; x_vignetting_on := v; x_trailing_losses_on := t |} in
  if member survey ["rubin_sim"; "RUBIN_SIM"; "LSST"; "lsst"] then
    r <- cast_as_bool_or_set_default (key s "randomization_on") true ;;
    v <- cast_as_bool_or_set_default (key s "vignetting_on") true ;;
    t <- cast_as_bool_or_set_default (key s "trailing_losses_on") true ;;
    match camera with
    | Some "visits_footprint" => if (v : bool) then Err TypeError else Ok (mk (Some r) (Some v) (Some t))
    | _ => Ok (mk (Some r) (Some v) (Some t))
    end
  else if member survey ["DES"; "des"] then
    r <- cast_as_bool_or_set_default (key s "randomization_on") false ;;
    v <- cast_as_bool_or_set_default (key s "vignetting_on") false ;;
    t <- cast_as_bool_or_set_default (key s "trailing_losses_on") false ;;
    if r || v || t then Err TypeError else Ok (mk (Some r) (Some v) (Some t))
  else
    match camera with
    | Some "visits_footprint" =>
      v <- cast_as_bool_or_set_default (key s "vignetting_on") false ;;
      if (v : bool) then Err TypeError else Ok (mk None (Some v) None)
    | _ => Ok (mk None None None)
    end.

(** ** The whole file, lines 1210-1295 *)
(** [config_object] of line 1225: the sections that are present. *)
Definition config_file := list (string * section).
(** [has_section] and [config_object[section]], lines 1276 and 1286. *)
Fixpoint find_section (f : config_file) (n : string) : option section :=
  match f with [] => None | (k, s) :: rest => if String.eqb k n then Some s else find_section rest n end.
(** A missing section has no keys, lines 1289-1293. *)
Definition section_or_empty (f : config_file) (n : string) : section :=
  match find_section f n with Some s => s | None => [] end.

(** The attributes of lines 1163-1204 except AUXILIARY, see below. *)
Record configs := { c_input : input; c_simulation : option simulation_ar; c_filters : list string;
  c_saturation : bool * option (list num); c_phase_function : string; c_fov : fov; c_fading : fading;
  c_linking : linking; c_output : output; c_lightcurve : option string; c_activity : option string; c_expert : expert }.

(** Lines 1231-1295, in the order of the dictionary of lines 1247-1261. *)
Definition read_configs (f : config_file) (survey : string) : result configs :=
  i <- inputConfigs (section_or_empty f "INPUT") ;;
  sim <- match find_section f "SIMULATION" with
         | Some s => simulationConfigs s (Some (in_ephemerides_type i))
         | None => simulationConfigs [] None
         end ;;
  fl <- filtersConfigs (section_or_empty f "FILTERS") survey ;;
  sat <- saturationConfigs (section_or_empty f "SATURATION") fl ;;
  ph <- phasecurvesConfigs (section_or_empty f "PHASECURVES") ;;
  fo <- fovConfigs (section_or_empty f "FOV") survey ;;
  fa <- fadingfunctionConfigs (section_or_empty f "FADINGFUNCTION") survey ;;
  li <- linkingfilterConfigs (section_or_empty f "LINKINGFILTER") survey ;;
  ou <- outputConfigs (section_or_empty f "OUTPUT") ;;
  lc <- lightcurveConfigs (section_or_empty f "LIGHTCURVE") ;;
  ac <- activityConfigs (section_or_empty f "ACTIVITY") ;;
  ex <- expertConfigs (section_or_empty f "EXPERT") survey
          (match find_section f "EXPERT" with Some _ => Some (fov_camera_model fo) | None => None end) ;;
  Ok {| c_input := i; c_simulation := sim; c_filters := fl; c_saturation := sat; c_phase_function := ph; c_fov := fo;
        c_fading := fa; c_linking := li; c_output := ou; c_lightcurve := lc; c_activity := ac; c_expert := ex |}.

(** ** src/sorcha_cmdline/run.py, lines 172-205: the checks that involve the
    command line *)
(** The values of [cmd_args] that are looked at; [arg_complex] is [None] when
    the dictionary has no such key. *)
Record arguments := { arg_survey : string; arg_ephemeris : option string; arg_complex : option string;
  arg_visits : option string }.
(** run.py, lines 172-205: a dictionary access without the key is a KeyError. *)
Definition startup (f : config_file) (a : arguments) : result configs :=
  c <- read_configs f (arg_survey a) ;;
  _ <- exit_if (String.eqb (in_ephemerides_type (c_input c)) "external"
                && match arg_ephemeris a with None => true | Some _ => false end) ;;
  _ <- (if truthy (c_lightcurve c) then match arg_complex a with None => Err KeyError | Some _ => Ok tt end else Ok tt) ;;
  _ <- (if truthy (c_activity c) then match arg_complex a with None => Err KeyError | Some _ => Ok tt end else Ok tt) ;;
  _ <- exit_if (negb (String.eqb (fov_camera_model (c_fov c)) "visits_footprint")
                && match arg_visits a with None => false | Some _ => true end) ;;
  _ <- match arg_visits a, fov_visits_query (c_fov c) with
       | Some _, None | None, Some _ => Err SysExit
       | _, _ => Ok tt
       end ;;
  Ok c.
End Config.

(** ** AUXILIARY, lines 960-1154 *)

(** A data file: attribute, default name and default URL (lines 964-1021).
    The meta kernel and the unpacked observatory codes have no URL. *)
Record datafile := { df_attr : string; df_name : string; df_url : string }.
(** Lines 964-1021, in the order of lines 1108-1116. *)
Definition datafiles : list datafile := [
  {| df_attr := "planet_ephemeris"; df_name := "de440s.bsp";
     df_url := "https://naif.jpl.nasa.gov/pub/naif/generic_kernels/spk/planets/de440s.bsp" |};
  {| df_attr := "earth_predict"; df_name := "earth_2025_250826_2125_predict.bpc";
     df_url := "https://naif.jpl.nasa.gov/pub/naif/generic_kernels/pck/earth_2025_250826_2125_predict.bpc" |};
  {| df_attr := "earth_historical"; df_name := "earth_620120_250826.bpc";
     df_url := "https://naif.jpl.nasa.gov/pub/naif/generic_kernels/pck/earth_620120_250826.bpc" |};
  {| df_attr := "earth_high_precision"; df_name := "earth_latest_high_prec.bpc";
     df_url := "https://naif.jpl.nasa.gov/pub/naif/generic_kernels/pck/earth_latest_high_prec.bpc" |};
  {| df_attr := "jpl_planets"; df_name := "linux_p1550p2650.440";
     df_url := "https://ssd.jpl.nasa.gov/ftp/eph/planets/Linux/de440/linux_p1550p2650.440" |};
  {| df_attr := "jpl_small_bodies"; df_name := "sb441-n16.bsp";
     df_url := "https://ssd.jpl.nasa.gov/ftp/eph/small_bodies/asteroids_de441/sb441-n16.bsp" |};
  {| df_attr := "leap_seconds"; df_name := "naif0012.tls";
     df_url := "https://naif.jpl.nasa.gov/pub/naif/generic_kernels/lsk/naif0012.tls" |};
  {| df_attr := "observatory_codes_compressed"; df_name := "ObsCodes.json.gz";
     df_url := "https://minorplanetcenter.net/Extended_Files/obscodes_extended.json.gz" |};
  {| df_attr := "orientation_constants"; df_name := "pck00010.pck";
     df_url := "https://naif.jpl.nasa.gov/pub/naif/generic_kernels/pck/pck00010.tpc" |} ].

(** The name and URL in use: the section's or the default (the dataclass's
    constructor, lines 964-1021). *)
Definition given (s : section) (k default : string) : string := match key s k with Some v => v | None => default end.
(** [getattr(self, file)], line 1082. *)
Definition name_of (s : section) (d : datafile) : string := given s (df_attr d) (df_name d).
(** [getattr(self, file + "_url")] before validation, line 1083. *)
Definition url_of (s : section) (d : datafile) : string := given s (df_attr d ++ "_url") (df_url d).

(** The dictionary [urls] of lines 1107-1117, made before validation: a later
    entry replaces an earlier one with the same file name. *)
Definition urls (s : section) : list (string * string) :=
  map (fun d => (name_of s d, url_of s d)) datafiles.
(** [urls[name]] as pooch uses it (ephemeris/simulation_data_files.py:24-29). *)
Fixpoint url_for (u : list (string * string)) (n : string) : option string :=
  match u with
  | [] => None
  | (k, v) :: rest => match url_for rest n with
                      | Some x => Some x
                      | None => if String.eqb k n then Some v else None
                      end
  end.

(** The URL attribute after lines 1075-1092. *)
Definition validated_url (s : section) (d : datafile) : result (option string) :=
  let own_name := negb (String.eqb (name_of s d) (df_name d)) in
  let own_url := negb (String.eqb (url_of s d) (df_url d)) in
  if negb own_name && own_url then Err SysExit
  else if own_name && negb own_url then Ok None else Ok (Some (url_of s d)).
(** Lines 1079-1092, for all files. *)
Fixpoint validated_urls (s : section) (l : list datafile) : result (list (option string)) :=
  match l with
  | [] => Ok []
  | d :: rest => u <- validated_url s d ;; us <- validated_urls s rest ;; Ok (u :: us)
  end.
(** The class after lines 1070-1073: the dictionary of URLs, the URL attributes,
    and the files to download (lines 1133-1143). *)
Definition auxiliaryConfigs (s : section) : result (list (string * string) * list (option string) * list string) :=
  _ <- known_keys s (map df_attr datafiles ++ map (fun d => df_attr d ++ "_url") datafiles
        ++ ["meta_kernel"; "observatory_codes"; "data_file_list"; "urls"; "data_files_to_download"; "ordered_kernel_files"; "registry"]) ;;
  us <- validated_urls s datafiles ;;
  Ok (urls s, us, map (name_of s) datafiles).
