From Coq Require Import String List Arith Bool Reals Lra Lia Permutation Sorted.
From Verif Require Import Base.Prelude Base.Frame Model.Sphere Model.Footprint Spec.Sphere Spec.Footprint
  Proofs.Footprint Proofs.FootprintSort Proofs.FootprintRows Proofs.FootprintFile.
Import ListNotations.
Open Scope R_scope.

(** * C36: the camera footprint *)

Theorem C36_distance : forall p a b,
  (exists q, on_segment a b q /\ distToSegment p a b = distance p q) /\
  (forall q, on_segment a b q -> distToSegment p a b <= distance p q).
Proof. exact C36_distance_proof. Qed.
Print Assumptions C36_distance.
Theorem C36_inside : forall eps l p, 0 <= eps -> convex l ->
  let d := {| d_corners := l; d_center := mean_point l |} in
  (inside l p -> on_detector eps None d p = true) /\
  (on_detector eps None d p = true -> forall a b, follows l a b -> - eps <= side a b p).
Proof. exact C36_inside_proof. Qed.
Print Assumptions C36_inside.
Theorem C36_edge : forall eps d arcsec p,
  on_detector eps (Some arcsec) d p = true <->
  on_detector eps None d p = true /\
  forall a b q, follows (d_corners d) a b -> on_segment a b q -> arcsec / 3600 * PI / 180 < distance p q.
Proof. exact C36_edge_proof. Qed.
Print Assumptions C36_edge.
Theorem C36_sorted : forall points l, strictly_convex l -> Permutation (map project points) l ->
  let d := sortCorners (make_detector points) in
  convex (d_corners d) /\ d_center d = mean_point (d_corners d) /\
  (forall a b, follows (d_corners d) a b <-> follows l a b) /\ Permutation (d_corners d) l.
Proof. exact C36_sorted_proof. Qed.
Print Assumptions C36_sorted.
Theorem C36_outline : forall eps points l p, 0 <= eps -> strictly_convex l -> Permutation (map project points) l ->
  let d := sortCorners (make_detector points) in
  (inside l p -> on_detector eps None d p = true) /\
  (on_detector eps None d p = true -> forall a b, follows l a b -> - eps <= side a b p).
Proof. exact C36_outline_proof. Qed.
Print Assumptions C36_outline.

Example C36_case : strictly_convex (square 0 0 1) /\ inside (square 0 0 1) (1/2, 1/2) /\
  on_detector (/ 10 ^ 11) None (square_detector 0 0 1) (1/2, 1/2) = true /\
  on_detector (/ 10 ^ 11) None (square_detector 0 0 1) (2, 1/2) = false /\ map project [(0, 0)] = [(0, 0)].
Proof.
  split; [apply square_strict; lra|]. split; [apply square_inside; lra|]. split; [apply square_on; lra|]. split.
  - destruct (on_detector _ _ _ _) eqn:E; [|reflexivity]. exfalso.
    assert (C : convex (square 0 0 1)) by (apply strict_convex, square_strict; lra).
    pose proof (proj2 (C36_inside_proof (/ 10 ^ 11) (square 0 0 1) (2, 1/2) eps_pos C) E (0 + 1, 0) (0 + 1, 0 + 1)) as H.
    assert (F : follows (square 0 0 1) (0 + 1, 0) (0 + 1, 0 + 1)) by (exists 1%nat; repeat split; cbn; lia).
    specialize (H F). unfold side in H. cbn [fst snd] in H.
    assert (/ 10 ^ 11 < 1) by (rewrite <- Rinv_1; apply Rinv_lt_contravar; [rewrite Rmult_1_l; apply pow_lt; lra|apply Rlt_pow_R1; [lra|lia]]). lra.
  - cbn [map project]. rewrite cos_0, sin_0. f_equal. f_equal; field.
Qed.

(** * C71: rows kept by the footprint *)

Theorem C71_rows_partial : forall A (focal : A -> R * R) thr dets (f : frame A) lab r k,
  In (lab, (r, k)) (footprint_filter focal thr dets f) <->
  In (lab, r) f /\ exists d, nth_error dets k = Some d /\ on_detector (/ 10 ^ 11) thr d (focal r) = true.
Proof. exact C71_rows_proof. Qed.
Print Assumptions C71_rows_partial.
Theorem C71_once_partial : forall A (focal : A -> R * R) thr dets (f : frame A),
  StronglySorted (fun a b => (fst a < fst b)%nat) f ->
  (forall lab r i j d e, In (lab, r) f -> nth_error dets i = Some d -> nth_error dets j = Some e ->
     on_detector (/ 10 ^ 11) thr d (focal r) = true -> on_detector (/ 10 ^ 11) thr e (focal r) = true -> i = j) ->
  map (fun x => (fst x, fst (snd x))) (footprint_filter focal thr dets f)
  = filter (fun r => existsb (fun d => on_detector (/ 10 ^ 11) thr d (focal (snd r))) dets) f.
Proof. exact C71_once_proof. Qed.
Print Assumptions C71_once_partial.

(** Where detectors overlap an observation is kept once per detector. *)
Theorem C71_overlap_refuted : exists (dets : list detector) (f : frame (R * R)) (r : R * R),
  f = [(0%nat, r)] /\ Permutation (footprint_filter (fun r => r) None dets f) [(0%nat, (r, 0%nat)); (0%nat, (r, 1%nat))].
Proof. exact C71_overlap_refuted_proof. Qed.
Print Assumptions C71_overlap_refuted.

Example C71_case : In (4%nat, ((1/2, 1/2), 0%nat))
  (footprint_filter (fun r => r) None [square_detector 0 0 1; square_detector 5 5 1] [(4%nat, (1/2, 1/2)); (7%nat, (11/2, 11/2))]) /\
  In (7%nat, ((11/2, 11/2), 1%nat))
  (footprint_filter (fun r => r) None [square_detector 0 0 1; square_detector 5 5 1] [(4%nat, (1/2, 1/2)); (7%nat, (11/2, 11/2))]).
Proof.
  split; apply C71_rows_partial; (split; [cbn; auto|]); eexists; (split; [reflexivity|]); apply square_on; lra.
Qed.

(** * C72: focal plane coordinates *)

Theorem C72_direction_partial : forall ra dec fra fdec x y, - (PI / 2) < fdec < PI / 2 ->
  0 < dot (radians_dir fra fdec) (radians_dir ra dec) ->
  radec_to_tangent_plane ra dec fra fdec = (x, y) ->
  let east := V3 (- sin fra) (cos fra) 0 in
  let north := V3 (- cos fra * sin fdec) (- sin fra * sin fdec) (cos fdec) in
  along (vadd (radians_dir fra fdec) (vadd (scale x east) (scale y north))) (radians_dir ra dec).
Proof. exact C72_direction_proof. Qed.
Print Assumptions C72_direction_partial.
Theorem C72_angle_partial : forall ra dec fra fdec x y theta, - (PI / 2) < fdec < PI / 2 -> 0 <= theta < PI / 2 ->
  dot (radians_dir fra fdec) (radians_dir ra dec) = cos theta ->
  forall rot, radec_to_focal_plane ra dec fra fdec rot = (x, y) -> sqrt (x * x + y * y) = tan theta.
Proof. exact C72_angle_proof. Qed.
Print Assumptions C72_angle_partial.
Theorem C72_corners_partial : forall ra dec, project (ra, dec) = radec_to_tangent_plane ra dec 0 0.
Proof. exact C72_corners_proof. Qed.
Print Assumptions C72_corners_partial.

(** The opposite point of the sky is given the same coordinates. *)
Theorem C72_antipode_refuted : forall ra dec fra fdec rot,
  radec_to_focal_plane (ra + PI) (- dec) fra fdec rot = radec_to_focal_plane ra dec fra fdec rot.
Proof. exact C72_antipode_refuted_proof. Qed.
Print Assumptions C72_antipode_refuted.

Example C72_case : dot (radians_dir 0 0) (radians_dir (PI / 4) 0) = cos (PI / 4) /\ radec_to_tangent_plane (PI / 4) 0 0 0 = (1, 0).
Proof.
  split; [unfold dot, radians_dir; cbn [vx vy vz]; rewrite cos_0, sin_0; ring|].
  rewrite <- C72_corners_partial. unfold project. rewrite cos_0, sin_0, cos_PI4, sin_PI4. f_equal; field; apply sqrt2_neq_0.
Qed.

(** * C73: degrees and rotation *)

(** Units "degrees" raise, "deg" is read as radians. *)
Theorem C73_degrees_refuted : forall points, make_detector_units "degrees" points = Err AttributeError /\
  make_detector_units "deg" points = make_detector_units "radians" points.
Proof. exact C73_degrees_refuted_proof. Qed.
Print Assumptions C73_degrees_refuted.
(** A rotation by nothing moves the corners. *)
Theorem C73_rotate_refuted : exists l, l <> [] /\ d_corners (rotateDetector 0 {| d_corners := l; d_center := mean_point l |}) <> l.
Proof. exact C73_rotate_refuted_proof. Qed.
Print Assumptions C73_rotate_refuted.

(** * C87: the file of detector corners *)

Theorem C87_names : forall file,
  let names := map fst (make_footprint file) in
  NoDup names /\ (forall n, In n names <-> In n (map fst file)) /\
  forall pre n post, map fst file = pre ++ n :: post -> ~ In n pre -> nth_error names (length (nodup string_dec pre)) = Some n.
Proof. exact C87_names_proof. Qed.
Print Assumptions C87_names.
Theorem C87_corners : forall file n d, In (n, d) (make_footprint file) ->
  Permutation (d_corners d) (map project (map snd (filter (fun r => String.eqb (fst r) n) file))) /\
  forall eps p l, 0 <= eps -> strictly_convex l ->
    Permutation (map project (map snd (filter (fun r => String.eqb (fst r) n) file))) l ->
    (inside l p -> on_detector eps None d p = true) /\
    (on_detector eps None d p = true -> forall a b, follows l a b -> - eps <= side a b p).
Proof. exact C87_corners_proof. Qed.
Print Assumptions C87_corners.
Theorem C87_order : forall file file', Permutation file file' ->
  (forall n, In n (map fst file) -> exists l, strictly_convex l /\
     Permutation (map project (map snd (filter (fun r => String.eqb (fst r) n) file))) l) ->
  forall n d, In (n, d) (make_footprint file) <-> In (n, d) (make_footprint file').
Proof. exact C87_order_proof. Qed.
Print Assumptions C87_order.

(** Two detectors whose corners are listed alternately and out of order. *)
Definition two_detectors : list (string * (R * R)) :=
  [("R22", towards 1 1); ("R01", towards 5 5); ("R22", towards 0 0); ("R01", towards 6 6); ("R01", towards 5 6);
   ("R22", towards 0 1); ("R22", towards 1 0); ("R01", towards 6 5)]%string.
Example C87_case : map fst (make_footprint two_detectors) = ["R22"; "R01"]%string /\
  exists d e, make_footprint two_detectors = [("R22"%string, d); ("R01"%string, e)] /\
    on_detector (/ 10 ^ 11) None d (1/2, 1/2) = true /\ on_detector (/ 10 ^ 11) None e (1/2, 1/2) = false /\
    In ("R22"%string, d) (make_footprint (rev two_detectors)).
Proof.
  split; [reflexivity|]. unfold two_detectors. do 2 eexists. split; [reflexivity|].
  assert (Hd : Permutation (map project (map snd (filter (fun r => String.eqb (fst r) "R22") two_detectors))) (square 0 0 1)).
  { unfold square. cbn [two_detectors filter fst snd String.eqb Ascii.eqb Bool.eqb map]. rewrite !project_towards, !Rplus_0_l.
    apply (Permutation_cons_app [(0, 0); (1, 0)] [(0, 1)]). apply perm_skip. apply perm_swap. }
  assert (He : Permutation (map project (map snd (filter (fun r => String.eqb (fst r) "R01") two_detectors))) (square 5 5 1)).
  { unfold square. cbn [two_detectors filter fst snd String.eqb Ascii.eqb Bool.eqb map]. rewrite !project_towards. replace (5 + 1) with 6 by lra.
    apply perm_skip. apply (Permutation_cons_app [(6, 5)] [(5, 6)]). apply perm_swap. }
  assert (S0 : strictly_convex (square 0 0 1)) by (apply square_strict; lra).
  assert (S5 : strictly_convex (square 5 5 1)) by (apply square_strict; lra).
  split; [|split].
  - eapply (C87_corners two_detectors "R22"); [left; reflexivity|apply eps_pos|exact S0|exact Hd|apply square_inside; lra].
  - match goal with |- ?x = false => destruct x eqn:E; [|reflexivity] end. exfalso.
    assert (F : follows (square 5 5 1) (5, 5 + 1) (5, 5)) by (exists 3%nat; repeat split; cbn; lia).
    pose proof (proj2 (proj2 (C87_corners two_detectors "R01" _ (or_intror (or_introl eq_refl))) _ _ _ eps_pos S5 He) E _ _ F) as H.
    unfold side in H. cbn [fst snd] in H.
    assert (/ 10 ^ 11 < 1) by (rewrite <- Rinv_1; apply Rinv_lt_contravar; [rewrite Rmult_1_l; apply pow_lt; lra|apply Rlt_pow_R1; [lra|lia]]). lra.
  - apply (C87_order two_detectors); [apply Permutation_rev| |left; reflexivity]. intros n Hn.
    cbn in Hn. decompose [or] Hn; subst; try contradiction; eauto.
Qed.
