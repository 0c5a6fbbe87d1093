(** What the shipped configuration files are expected to mean. *)
From Coq Require Import ZArith QArith String List.
From Verif Require Import Base.Prelude Base.Num Model.Config Spec.Config.
Import ListNotations.
Open Scope string_scope.

(** Python's [int] and [float] read the decimal numbers of these files. *)
Definition reads_decimals (int_of : string -> option Z) (float_of : string -> option num) : Prop :=
  (forall s z, In (s, z) [("20000", 20000); ("5000", 5000); ("1", 1); ("6", 6); ("2", 2); ("3", 3); ("15", 15)]%Z ->
     int_of s = Some z)
  /\ (forall s q, In (s, q) [("2.06", 206#100); ("1.3", 13#10); ("0.2", 2#10); ("16.0", 16); ("0.9", 9#10); ("1.75", 175#100);
        ("2.", 2); ("0.1", 1#10); ("1.", 1); ("0.95", 95#100); ("0.5", 5#10); ("0.0625", 625#10000); ("0.95529", 95529#100000)] ->
     float_of s = Some (Fin q)).

(** The documented Rubin detection chain: linking with 95% efficiency, two
    observations half an arcsecond apart within 90 minutes, three tracklets in
    15 nights; saturation at 16 in every filter; a fading function. *)
Definition rubin_linking : linking :=
  {| l_ssp := Some {| ssp_detection_efficiency := Fin (95#100); ssp_number_observations := 2;
                      ssp_separation_threshold := Fin (5#10); ssp_maximum_time := Fin (625#10000);
                      ssp_number_tracklets := 3; ssp_track_window := 15; ssp_night_start_utc := Fin 16 |};
     l_drop_unlinked := true; l_des_discovery_on := false; l_distance_cut_on := false; l_distance_cut := None;
     l_motion_cut_on := false; l_motion_cut := None |}.
Definition rubin_detection (c : configs) : Prop :=
  c_filters c = ["r"; "g"; "i"; "z"; "u"; "y"]
  /\ c_saturation c = (true, Some [Fin 16; Fin 16; Fin 16; Fin 16; Fin 16; Fin 16])
  /\ c_fading c = Fading (Fin (1#10)) (Fin 1) /\ c_linking c = rubin_linking
  /\ x_randomization_on (c_expert c) = Some true /\ x_vignetting_on (c_expert c) = Some true
  /\ x_trailing_losses_on (c_expert c) = Some true /\ x_default_snr_cut (c_expert c) = true.
(** A prediction: every passage over the detectors, with true values. *)
Definition prediction (c : configs) : Prop :=
  c_filters c = ["r"; "g"; "i"; "z"; "u"; "y"] /\ c_saturation c = (false, None)
  /\ c_fading c = FadingOff /\ l_ssp (c_linking c) = None
  /\ x_randomization_on (c_expert c) = Some false /\ x_vignetting_on (c_expert c) = Some false
  /\ x_trailing_losses_on (c_expert c) = Some false /\ x_snr_limit (c_expert c) = None /\ x_mag_limit (c_expert c) = None.
(** The file with one key spelled differently. *)
Definition respelled (old new : string) (f : config_file) : config_file :=
  map (fun s => (fst s, map (fun kv => (if String.eqb (fst kv) old then new else fst kv, snd kv)) (snd s))) f.
