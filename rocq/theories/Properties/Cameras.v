(** * C118: the cameras that come with the package *)
From Coq Require Import String List Arith Reals ZArith Bool Lra Lia Permutation.
From Flocq Require Import Core.
From Verif Require Import Base.Prelude Base.Frame Model.LinkingFloat Model.Rounding Model.FadingFloat Model.UncertaintyFloat Model.SeparationFloat Model.Sphere Model.Footprint Model.FootprintFloat Model.Cameras Model.Shipped
  Spec.Rounding Spec.Sphere Spec.Footprint Spec.SeparationFloat Spec.FootprintFloat Spec.Cameras
  Proofs.UncertaintyFloat Proofs.SeparationFloat Proofs.FootprintFloat Proofs.DetectorFloat Proofs.CornersFloat Proofs.CameraFloat Proofs.Cameras.
Import ListNotations.
Open Scope R_scope.

Theorem C118_lsst_firm_partial : forall survey decimals file n, builtin_camera survey = Some decimals -> survey <> "des"%string -> table_from decimals file -> In n (map fst file) ->
  length (corners_of file n) = 4%nat /\ firm_detector (corners_of file n).
Proof. exact C118_lsst_firm_proof. Qed.
Print Assumptions C118_lsst_firm_partial.
Theorem C118_lsst_field_partial : forall survey decimals S C AT sum rows file A (f : frame A) (sky field : A -> R * R) (rot : A -> R) limit,
  builtin_camera survey = Some decimals -> survey <> "des"%string -> table_from decimals file ->
  accurate_sin S -> accurate_cos C -> accurate_arctan2 AT -> accurate_sum sum -> accurate_sum rows ->
  (forall lab r, In (lab, r) f -> position (sky r) /\ position (field r) /\ Rabs (snd (field r)) <= 89 /\ binary64 (rot r) /\ Rabs (rot r) <= 360 /\
    exists d, distance_between (field r) (sky r) d /\ d <= 60) ->
  (forall a, limit = Some a -> 0 <= a <= 3600) ->
  let camera := make_footprint_f S C sum AT (map (fun c => (fst c, (Real (fst (snd c)), Real (snd (snd c))))) file) in
  let on_sky r := focal_plane_of_f S C (Real (fst (sky r))) (Real (snd (sky r))) (Real (fst (field r))) (Real (snd (field r))) (Real (rot r)) in
  let kept := footprint_filter_f sum rows on_sky (option_map Real limit) (map snd camera) f in
  let margin := match limit with None => 0 | Some a => a / 3600 * PI / 180 end in
  (forall lab r n, In (lab, r) f -> In n (map fst file) ->
    inside_by (margin + 2 / 10 ^ 10) (map corner_position (corners_of file n)) (focal_position (field r) (rot r) (sky r)) -> exists k, In (lab, (r, k)) kept) /\
  (forall lab r k, In (lab, (r, k)) kept -> In (lab, r) f /\ (k < 189)%nat /\ exists d, distance_between (field r) (sky r) d /\ d <= 206 / 100) /\
  (NoDup (map fst f) -> NoDup (map fst kept)).
Proof. exact C118_lsst_field_proof. Qed.
Print Assumptions C118_lsst_field_partial.
Theorem C118_shipped_partial : forall c fov sim, In c [circular_approximation; full_footprint; known_object_prediction; demo] -> In ("FOV"%string, fov) c -> In ("SIMULATION"%string, sim) c ->
  In ("camera_model"%string, "footprint"%string) fov -> In ("ar_ang_fov"%string, "2.06"%string) sim.
Proof. exact C118_shipped_proof. Qed.
Print Assumptions C118_shipped_partial.
(** The DES file holds degrees (none above 1.1) and is read as radians: a source more than 45
    degrees from the centre of the field is kept. *)
Theorem C118_des_refuted : exists decimals, builtin_camera "des" = Some decimals /\ (forall n c, In (n, c) decimals -> Rabs (fst c) <= 11 / 10 /\ Rabs (snd c) <= 11 / 10) /\
  exists ra dec d, angle_between (direction 0 0) (direction ra dec) d /\ 45 < d /\
  In (0%nat, ((ra, dec), 0%nat)) (footprint_filter (fun p => radec_to_focal_plane (deg2rad (fst p)) (deg2rad (snd p)) (deg2rad 0) (deg2rad 0) (deg2rad 0)) None (map snd (make_footprint decimals)) [(0%nat, (ra, dec))]).
Proof. exact C118_des_refuted_proof. Qed.
Print Assumptions C118_des_refuted.
(** docs/inputs.rst:443: the numbers are tangents, places on the focal plane.  The program
    projects them once more; some corner moves by more than 2 arcsec. *)
Theorem C118_tangent_refuted : exists decimals n c, builtin_camera "lsst" = Some decimals /\ In (n, c) decimals /\ 2 / 3600 * PI / 180 < distance (project c) c.
Proof. exact C118_tangent_refuted_proof. Qed.
Print Assumptions C118_tangent_refuted.

(** The file with every decimal rounded to the nearest float64.  A row at the centre of the
    field is kept, one at three degrees is not. *)
Example C118_case : exists decimals file, builtin_camera "lsst" = Some decimals /\ table_from decimals file /\ In "94"%string (map fst file) /\
  let camera := make_footprint_f (exact_fun sin) (exact_fun cos) in_order exact_arctan2 (map (fun c => (fst c, (Real (fst (snd c)), Real (snd (snd c))))) file) in
  let on_sky ra := focal_plane_of_f (exact_fun sin) (exact_fun cos) (Real ra) (Real 0) (Real 0) (Real 0) (Real 0) in
  let kept := footprint_filter_f in_order in_order on_sky (Some (Real 2)) (map snd camera) [(4%nat, 0 / 2); (7%nat, 6 / 2)] in
  (exists k, In (4%nat, (0 / 2, k)) kept) /\ forall k, ~ In (7%nat, (6 / 2, k)) kept.
Proof.
  exists (in_units 19 lsst_corners), (rounded_table (in_units 19 lsst_corners)). split; [reflexivity|]. assert (T := rounded_read). split; [exact T|].
  assert (I94 : In "94"%string (map fst (rounded_table (in_units 19 lsst_corners)))). { rewrite (names_read _ T). assert (K : existsb (String.eqb "94") (map fst lsst_corners) = true) by (vm_compute; reflexivity). apply existsb_exists in K. destruct K as (x & X & E). apply String.eqb_eq in E. rewrite E. exact X. }
  split; [exact I94|]. destruct exact_accurate as (HS & HC & _). assert (HI := in_order_accurate). assert (HA := exact_arctan2_accurate).
  assert (PZ : position (0, 0)) by (replace 0 with (0 / 2) at 1 by field; apply (half_position 0); lia). assert (P0 : position (0 / 2, 0)) by (apply (half_position 0); lia). assert (P6 : position (6 / 2, 0)) by (apply (half_position 6); lia).
  assert (B0 : binary64 0) by apply PZ. assert (A0 : Rabs 0 <= 89) by (rewrite Rabs_R0; lra). assert (A1 : Rabs 0 <= 360) by (rewrite Rabs_R0; lra).
  assert (SYM : forall a d, distance_between (a, 0) (0, 0) d -> distance_between (0, 0) (a, 0) d). { intros a d (D & E). split; [exact D|]. rewrite E. ring. }
  assert (D0 : distance_between (0, 0) (0 / 2, 0) 0) by (apply SYM, flat_distance; [lra|left; lra]). assert (D6 : distance_between (0, 0) (6 / 2, 0) 3) by (apply SYM, flat_distance; [lra|left; lra]).
  assert (PI' := pi_machin). unfold SeparationFloat.P0 in PI'.
  destruct (C118_lsst_field_partial "lsst"%string (in_units 19 lsst_corners) (exact_fun sin) (exact_fun cos) exact_arctan2 in_order in_order (rounded_table (in_units 19 lsst_corners)) R [(4%nat, 0 / 2); (7%nat, 6 / 2)] (fun ra => (ra, 0)) (fun _ => (0, 0)) (fun _ => 0) (Some 2)) as (IN & OUT & _); try assumption.
  { reflexivity. }
  { discriminate. }
  { intros lab r I. destruct I as [I|[I|[]]]; injection I as <- <-; cbn [fst snd]; [split; [exact P0|]|split; [exact P6|]]; split; try exact PZ; split; try assumption; split; try assumption; split; try assumption; eexists; split; try eassumption; lra. }
  { intros a A. injection A as <-. lra. }
  intros camera on_sky kept. split.
  - apply (IN 4%nat (0 / 2) "94"%string); [left; reflexivity|exact I94|]. rewrite flat_position. replace (sin (0 / 2 * PI / 180) / cos (0 / 2 * PI / 180)) with 0 by (replace (0 / 2 * PI / 180) with 0 by field; rewrite sin_0, cos_0; field). apply central_inside; [exact T|exact I94|lra].
  - intros k K. destruct (OUT 7%nat (6 / 2) k K) as (_ & _ & d & (D & E) & L). destruct D6 as (D' & E'). rewrite <- E in E'. assert (3 * PI / 180 = d * PI / 180) by (apply cos_inj; [nra|nra|exact E']). nra.
Qed.
