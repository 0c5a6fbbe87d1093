(** * C117: the camera footprint in binary64 arithmetic *)
From Coq Require Import String List Arith Reals ZArith Bool Lra Lia Permutation.
From Flocq Require Import Core.
From Verif Require Import Base.Prelude Base.Frame Model.LinkingFloat Model.Rounding Model.FadingFloat Model.UncertaintyFloat Model.SeparationFloat Model.FootprintFloat
  Spec.Rounding Spec.Sphere Spec.Footprint Spec.SeparationFloat Spec.FootprintFloat
  Proofs.LinkingFloat Proofs.Rounding Proofs.UncertaintyFloat Proofs.Footprint Proofs.SeparationFloat Proofs.FootprintFloat Proofs.DetectorFloat Proofs.CornersFloat Proofs.CameraFloat.
Import ListNotations.
Open Scope R_scope.

Theorem C117_focal : forall S C field rot p d, accurate_sin S -> accurate_cos C -> position field -> position p -> Rabs (snd field) <= 89 ->
  binary64 rot -> Rabs rot <= 360 -> distance_between field p d -> d <= 60 ->
  exists x y, focal_plane_of_f S C (Real (fst p)) (Real (snd p)) (Real (fst field)) (Real (snd field)) (Real rot) = (Real x, Real y)
    /\ Rabs (x - fst (focal_position field rot p)) <= / 10 ^ 11 /\ Rabs (y - snd (focal_position field rot p)) <= / 10 ^ 11
    /\ Rabs x <= 7 /\ Rabs y <= 7.
Proof. exact C117_focal_proof. Qed.
Print Assumptions C117_focal.
Theorem C117_detector : forall S C sum rows corners p, accurate_sin S -> accurate_cos C -> accurate_sum sum -> accurate_sum rows ->
  sound_detector corners -> Rabs (fst p) <= 10 -> Rabs (snd p) <= 10 ->
  let outline := map corner_position corners in
  let detector := make_detector_f S C sum (map (fun c => (Real (fst c), Real (snd c))) corners) in
  let on limit := on_detector_f sum rows limit detector (Real (fst p), Real (snd p)) in
  (inside_by (/ 10 ^ 10) outline p -> on None = true) /\ (on None = true -> hardly_outside (2 / 10 ^ 11) outline p) /\
  (forall a, 0 <= a <= 3600 ->
    (inside_by (a / 3600 * PI / 180 + / 10 ^ 10) outline p -> on (Some (Real a)) = true) /\
    (on (Some (Real a)) = true -> hardly_outside (2 / 10 ^ 11) outline p /\ off_edges_by (a / 3600 * PI / 180 - / 10 ^ 10) outline p)).
Proof. exact C117_detector_proof. Qed.
Print Assumptions C117_detector.
Theorem C117_source : forall S C sum rows field rot p d corners, accurate_sin S -> accurate_cos C -> accurate_sum sum -> accurate_sum rows ->
  position field -> position p -> Rabs (snd field) <= 89 -> binary64 rot -> Rabs rot <= 360 -> distance_between field p d -> d <= 60 -> sound_detector corners ->
  let outline := map corner_position corners in
  let place := focal_position field rot p in
  let detector := make_detector_f S C sum (map (fun c => (Real (fst c), Real (snd c))) corners) in
  let on limit := on_detector_f sum rows limit detector (focal_plane_of_f S C (Real (fst p)) (Real (snd p)) (Real (fst field)) (Real (snd field)) (Real rot)) in
  (inside_by (2 / 10 ^ 10) outline place -> on None = true) /\ (on None = true -> hardly_outside (3 / 10 ^ 11) outline place) /\
  (forall a, 0 <= a <= 3600 ->
    (inside_by (a / 3600 * PI / 180 + 2 / 10 ^ 10) outline place -> on (Some (Real a)) = true) /\
    (on (Some (Real a)) = true -> hardly_outside (3 / 10 ^ 11) outline place /\ off_edges_by (a / 3600 * PI / 180 - 2 / 10 ^ 10) outline place)).
Proof. exact C117_source_proof. Qed.
Print Assumptions C117_source.
Theorem C117_camera : forall S C A sum rows field rot p d points corners, accurate_sin S -> accurate_cos C -> accurate_arctan2 A -> accurate_sum sum -> accurate_sum rows ->
  position field -> position p -> Rabs (snd field) <= 89 -> binary64 rot -> Rabs rot <= 360 -> distance_between field p d -> d <= 60 ->
  firm_detector corners -> Permutation points corners ->
  let outline := map corner_position corners in
  let place := focal_position field rot p in
  let detector := sortCorners_f A (make_detector_f S C sum (map (fun c => (Real (fst c), Real (snd c))) points)) in
  let on limit := on_detector_f sum rows limit detector (focal_plane_of_f S C (Real (fst p)) (Real (snd p)) (Real (fst field)) (Real (snd field)) (Real rot)) in
  (inside_by (2 / 10 ^ 10) outline place -> on None = true) /\ (on None = true -> hardly_outside (3 / 10 ^ 11) outline place) /\
  (forall a, 0 <= a <= 3600 ->
    (inside_by (a / 3600 * PI / 180 + 2 / 10 ^ 10) outline place -> on (Some (Real a)) = true) /\
    (on (Some (Real a)) = true -> hardly_outside (3 / 10 ^ 11) outline place /\ off_edges_by (a / 3600 * PI / 180 - 2 / 10 ^ 10) outline place)).
Proof. exact C117_camera_proof. Qed.
Print Assumptions C117_camera.
Theorem C117_filter : forall S C AT sum rows file corners A (f : frame A) (sky field : A -> R * R) (rot : A -> R) limit,
  accurate_sin S -> accurate_cos C -> accurate_arctan2 AT -> accurate_sum sum -> accurate_sum rows ->
  (forall n, In n (map fst file) -> firm_detector (corners n) /\ Permutation (map snd (filter (fun r => String.eqb (fst r) n) file)) (corners n)) ->
  (forall lab r, In (lab, r) f -> position (sky r) /\ position (field r) /\ Rabs (snd (field r)) <= 89 /\ binary64 (rot r) /\ Rabs (rot r) <= 360 /\
    exists d, distance_between (field r) (sky r) d /\ d <= 60) ->
  (forall a, limit = Some a -> 0 <= a <= 3600) ->
  let camera := make_footprint_f S C sum AT (map (fun c => (fst c, (Real (fst (snd c)), Real (snd (snd c))))) file) in
  let on_sky r := focal_plane_of_f S C (Real (fst (sky r))) (Real (snd (sky r))) (Real (fst (field r))) (Real (snd (field r))) (Real (rot r)) in
  let kept := footprint_filter_f sum rows on_sky (option_map Real limit) (map snd camera) f in
  let margin := match limit with None => 0 | Some a => a / 3600 * PI / 180 end in
  let place r := focal_position (field r) (rot r) (sky r) in
  let outline n := map corner_position (corners n) in
  (forall lab r pre n post, In (lab, r) f -> map fst file = (pre ++ n :: post)%list -> ~ In n pre ->
    inside_by (margin + 2 / 10 ^ 10) (outline n) (place r) -> In (lab, (r, length (nodup string_dec pre))) kept) /\
  (forall lab r k, In (lab, (r, k)) kept -> In (lab, r) f /\
    exists pre n post, map fst file = (pre ++ n :: post)%list /\ ~ In n pre /\ k = length (nodup string_dec pre) /\
      hardly_outside (3 / 10 ^ 11) (outline n) (place r) /\ (limit <> None -> off_edges_by (margin - 2 / 10 ^ 10) (outline n) (place r))).
Proof. exact C117_filter_proof. Qed.
Print Assumptions C117_filter.

(** Exact sines and cosines and float64 sums taken in order meet the hypotheses.  A square
    detector of a 32nd of a radian around the axis: half a degree from the centre of the field
    is on it, with a limit of 2 arcsec from the edges; two degrees is off. *)
Example C117_case :
  let on limit ra := on_detector_f in_order in_order limit
    (make_detector_f (exact_fun sin) (exact_fun cos) in_order (map (fun c => (Real (fst c), Real (snd c))) square))
    (focal_plane_of_f (exact_fun sin) (exact_fun cos) (Real ra) (Real 0) (Real 0) (Real 0) (Real 0)) in
  accurate_sin (exact_fun sin) /\ accurate_cos (exact_fun cos) /\ accurate_sum in_order /\ sound_detector square
  /\ position (0, 0) /\ position (1 / 2, 0) /\ distance_between (0, 0) (1 / 2, 0) (1 / 2)
  /\ inside_by (2 / 3600 * PI / 180 + 2 / 10 ^ 10) (map corner_position square) (focal_position (0, 0) 0 (1 / 2, 0))
  /\ on (Some (Real 2)) (1 / 2) = true /\ on None (1 / 2) = true /\ on None (4 / 2) = false.
Proof.
  intro on. destruct exact_accurate as (HS & HC & _). assert (HI := in_order_accurate). assert (SQ := square_sound). split; [exact HS|]. split; [exact HC|]. split; [exact HI|]. split; [exact SQ|].
  assert (PZ : position (0, 0)) by (replace 0 with (0 / 2) at 1 by field; apply (half_position 0); lia). assert (P1 : position (1 / 2, 0)) by (apply (half_position 1); lia). assert (P4 : position (4 / 2, 0)) by (apply (half_position 4); lia).
  assert (B0 : binary64 0) by apply PZ. assert (A0 : Rabs 0 <= 89) by (rewrite Rabs_R0; lra). assert (A1 : Rabs 0 <= 360) by (rewrite Rabs_R0; lra).
  assert (SYM : forall a d, distance_between (a, 0) (0, 0) d -> distance_between (0, 0) (a, 0) d). { intros a d (D & E). split; [exact D|]. rewrite E. ring. }
  assert (D1 : distance_between (0, 0) (1 / 2, 0) (1 / 2)) by (apply SYM, flat_distance; [lra|left; lra]).
  assert (D4 : distance_between (0, 0) (4 / 2, 0) 2) by (apply SYM, flat_distance; [lra|left; lra]).
  assert (PI' := pi_machin). unfold P0 in PI'. destruct square_sizes as (W & H).
  assert (T := tan_apart (/ 64) (1 / 2 * PI / 180) ltac:(lra) ltac:(lra)). fold half_width in T. assert (T0 := tan_apart (1 / 2 * PI / 180) 0 ltac:(lra) ltac:(lra)). rewrite sin_0, cos_0 in T0.
  assert (T4 := tan_apart (4 / 2 * PI / 180) (/ 64) ltac:(lra) ltac:(lra)). fold half_width in T4.
  assert (IN : inside_by (2 / 3600 * PI / 180 + 2 / 10 ^ 10) (map corner_position square) (focal_position (0, 0) 0 (1 / 2, 0))).
  { rewrite flat_position. set (s := sin _ / cos _) in *. intros a b F.
    assert (L : forall x y, 0 <= y -> 2 / 3600 * PI / 180 + 2 / 10 ^ 10 <= x -> (2 / 3600 * PI / 180 + 2 / 10 ^ 10) * (2 * y) <= 2 * y * x) by (intros x y Y X; rewrite Rmult_comm; apply Rmult_le_compat_l; lra).
    assert (Q : forall x, 0 <= x -> sqrt (2 * x * (2 * x)) = 2 * x) by (intros x X; apply sqrt_square; lra).
    destruct (square_edges a b F) as [E|[E|[E|E]]]; injection E as -> ->; unfold side, distance; cbn [fst snd].
    - match goal with |- _ * sqrt ?e <= _ => replace e with (2 * half_width * (2 * half_width)) by ring end. rewrite Q by lra. apply Rle_trans with (2 * half_width * half_height); [apply L; lra|right; ring].
    - match goal with |- _ * sqrt ?e <= _ => replace e with (2 * half_height * (2 * half_height)) by ring end. rewrite Q by lra. apply Rle_trans with (2 * half_height * (half_width - s)); [apply L; lra|right; ring].
    - match goal with |- _ * sqrt ?e <= _ => replace e with (2 * half_width * (2 * half_width)) by ring end. rewrite Q by lra. apply Rle_trans with (2 * half_width * half_height); [apply L; lra|right; ring].
    - match goal with |- _ * sqrt ?e <= _ => replace e with (2 * half_height * (2 * half_height)) by ring end. rewrite Q by lra. apply Rle_trans with (2 * half_height * (s + half_width)); [apply L; lra|right; ring]. }
  split; [exact PZ|]. split; [exact P1|]. split; [exact D1|]. split; [exact IN|].
  destruct (C117_source (exact_fun sin) (exact_fun cos) in_order in_order (0, 0) 0 (1 / 2, 0) (1 / 2) square HS HC HI HI PZ P1 A0 B0 A1 D1 ltac:(lra) SQ) as (N & _ & E). cbn [fst snd] in *.
  split; [apply (E 2 ltac:(lra)); exact IN|]. split; [apply N; apply (inside_weaker _ (2 / 3600 * PI / 180 + 2 / 10 ^ 10)); [lra|exact IN]|].
  destruct (C117_source (exact_fun sin) (exact_fun cos) in_order in_order (0, 0) 0 (4 / 2, 0) 2 square HS HC HI HI PZ P4 A0 B0 A1 D4 ltac:(lra) SQ) as (_ & O & _). cbn [fst snd] in O. fold (on None (4 / 2)) in O.
  destruct (on None (4 / 2)) eqn:ON; [|reflexivity]. exfalso. specialize (O eq_refl (half_width, - half_height) (half_width, half_height)).
  assert (F : follows (map corner_position square) (half_width, - half_height) (half_width, half_height)) by (apply follows_edges; rewrite square_outline; right; left; reflexivity).
  specialize (O F). rewrite flat_position in O. unfold side in O. cbn [fst snd] in O. set (s := sin (4 / 2 * PI / 180) / cos (4 / 2 * PI / 180)) in *.
  assert (Z : (half_height - - half_height) * (s - half_width) >= 2 / 128 * (9 / 1000)). { apply Rle_ge. apply Rmult_le_compat; lra. } lra.
Qed.

(** The same square in a file that lists its corners out of order; exact angles meet the
    hypothesis.  A row half a degree from the centre of the field is kept with detector 0,
    one at two degrees is not kept. *)
Definition shuffled : list (string * (R * R)) := [("R22", (/ 64, / 64)); ("R22", (- / 64, - / 64)); ("R22", (- / 64, / 64)); ("R22", (/ 64, - / 64))]%string.
Example C117_file_case :
  let camera := make_footprint_f (exact_fun sin) (exact_fun cos) in_order exact_arctan2 (map (fun c => (fst c, (Real (fst (snd c)), Real (snd (snd c))))) shuffled) in
  let on_sky ra := focal_plane_of_f (exact_fun sin) (exact_fun cos) (Real ra) (Real 0) (Real 0) (Real 0) (Real 0) in
  let kept := footprint_filter_f in_order in_order on_sky None (map snd camera) [(4%nat, 1 / 2); (7%nat, 4 / 2)] in
  accurate_arctan2 exact_arctan2 /\ firm_detector square /\ Permutation (map snd (filter (fun r => String.eqb (fst r) "R22") shuffled)) square /\
  In (4%nat, (1 / 2, 0%nat)) kept /\ forall k, ~ In (7%nat, (4 / 2, k)) kept.
Proof.
  intros camera on_sky kept. assert (HA := exact_arctan2_accurate). assert (FD := square_firm). split; [exact HA|]. split; [exact FD|].
  assert (PERM : Permutation (map snd (filter (fun r => String.eqb (fst r) "R22") shuffled)) square).
  { cbn. unfold square. eapply Permutation_trans; [apply perm_swap|]. apply perm_skip. eapply Permutation_trans; [|apply perm_swap]. apply perm_skip. apply perm_swap. }
  split; [exact PERM|]. destruct exact_accurate as (HS & HC & _). assert (HI := in_order_accurate).
  assert (PZ : position (0, 0)) by (replace 0 with (0 / 2) at 1 by field; apply (half_position 0); lia). assert (P1 : position (1 / 2, 0)) by (apply (half_position 1); lia). assert (P4 : position (4 / 2, 0)) by (apply (half_position 4); lia).
  assert (B0 : binary64 0) by apply PZ. assert (A0 : Rabs 0 <= 89) by (rewrite Rabs_R0; lra). assert (A1 : Rabs 0 <= 360) by (rewrite Rabs_R0; lra).
  assert (SYM : forall a d, distance_between (a, 0) (0, 0) d -> distance_between (0, 0) (a, 0) d). { intros a d (D & E). split; [exact D|]. rewrite E. ring. }
  assert (D1 : distance_between (0, 0) (1 / 2, 0) (1 / 2)) by (apply SYM, flat_distance; [lra|left; lra]).
  assert (D4 : distance_between (0, 0) (4 / 2, 0) 2) by (apply SYM, flat_distance; [lra|left; lra]).
  assert (PI' := pi_machin). unfold P0 in PI'. destruct square_sizes as (W & H).
  assert (T := tan_apart (/ 64) (1 / 2 * PI / 180) ltac:(lra) ltac:(lra)). fold half_width in T. assert (T0 := tan_apart (1 / 2 * PI / 180) 0 ltac:(lra) ltac:(lra)). rewrite sin_0, cos_0 in T0.
  assert (T4 := tan_apart (4 / 2 * PI / 180) (/ 64) ltac:(lra) ltac:(lra)). fold half_width in T4.
  destruct (C117_filter (exact_fun sin) (exact_fun cos) exact_arctan2 in_order in_order shuffled (fun _ => square) R [(4%nat, 1 / 2); (7%nat, 4 / 2)] (fun ra => (ra, 0)) (fun _ => (0, 0)) (fun _ => 0) None) as (IN & OUT); try assumption.
  { intros n I. split; [exact FD|]. cbn in I. repeat (destruct I as [<-|I]; [exact PERM|]). destruct I. }
  { intros lab r I. destruct I as [I|[I|[]]]; injection I as <- <-; cbn [fst snd]; [split; [exact P1|]|split; [exact P4|]]; split; try exact PZ; split; try assumption; split; try assumption; split; try assumption; eexists; split; try eassumption; lra. }
  { discriminate. }
  split.
  - apply (IN 4%nat (1 / 2) [] "R22"%string ["R22"; "R22"; "R22"]%string); [left; reflexivity|reflexivity|intros []|].
    intros a b F. assert (L := square_lengths a b F). rewrite flat_position. set (s := sin (1 / 2 * PI / 180) / cos (1 / 2 * PI / 180)) in *.
    assert (WW : 0 < half_width - s) by lra. assert (M : / 100 <= half_width - s \/ half_width - s <= / 100) by lra. clear M.
    destruct (square_edges a b F) as [E|[E|[E|E]]]; injection E as -> ->; destruct L as [-> | ->]; unfold side; cbn [fst snd]; nra.
  - intros k K. destruct (OUT 7%nat (4 / 2) k K) as (_ & pre & n & post & _ & _ & _ & O & _).
    specialize (O (half_width, - half_height) (half_width, half_height)).
    assert (F : follows (map corner_position square) (half_width, - half_height) (half_width, half_height)) by (apply follows_edges; rewrite square_outline; right; left; reflexivity).
    specialize (O F). rewrite flat_position in O. unfold side in O. cbn [fst snd] in O. set (s := sin (4 / 2 * PI / 180) / cos (4 / 2 * PI / 180)) in *.
    assert (Z : (half_height - - half_height) * (s - half_width) >= 2 / 128 * (9 / 1000)). { apply Rle_ge. apply Rmult_le_compat; lra. } lra.
Qed.
