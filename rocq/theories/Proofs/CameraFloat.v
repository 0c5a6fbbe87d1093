(** The rows that the camera footprint keeps, in binary64 arithmetic (C117). *)
From Coq Require Import String List Arith Reals ZArith Bool Lra Lia Permutation.
From Flocq Require Import Core.
From Verif Require Import Base.Prelude Base.Frame Model.LinkingFloat Model.Rounding Model.FadingFloat Model.UncertaintyFloat Model.SeparationFloat Model.Footprint Model.FootprintFloat
  Spec.Rounding Spec.Sphere Spec.Footprint Spec.SeparationFloat Spec.FootprintFloat
  Proofs.Footprint Proofs.FootprintFile Proofs.FootprintRows Proofs.FootprintFloat Proofs.DetectorFloat Proofs.CornersFloat.
Import ListNotations.
Open Scope R_scope.

Lemma rows_f : forall A sum rows (focal : A -> pt_f) thr dets (f : frame A) lab r k,
  In (lab, (r, k)) (footprint_filter_f sum rows focal thr dets f) <->
  In (lab, r) f /\ exists d, nth_error dets k = Some d /\ on_detector_f sum rows thr d (focal r) = true.
Proof.
  intros A sum rows focal thr dets f lab r k. unfold footprint_filter_f.
  assert (E : forall l : frame (A * nat), In (lab, (r, k)) (sort_index l) <-> In (lab, (r, k)) l) by (intro l; split; apply Permutation_in; [|apply Permutation_sym]; apply sort_index_perm).
  rewrite E, in_flat_map. unfold applyFootprint_f, ison_f.
  assert (Q : forall i j, In (i, j) (concat (map (fun q : nat * (list pt_f * pt_f) => map (fun i => (i, fst q)) (map fst (filter (fun q0 : nat * pt_f => on_detector_f sum rows thr (snd q) (snd q0))
      (combine (seq 0 (length (map (fun r => focal (snd r)) f))) (map (fun r => focal (snd r)) f))))) (combine (seq 0 (length dets)) dets)))
    <-> exists d p, nth_error dets j = Some d /\ nth_error (map (fun r => focal (snd r)) f) i = Some p /\ on_detector_f sum rows thr d p = true).
  { intros i j. rewrite <- flat_map_concat_map, in_flat_map. split.
    - intros ([n d] & H1 & H2). apply in_map_iff in H2. destruct H2 as (i' & E2 & H2). injection E2 as <- <-. apply in_map_iff in H2. destruct H2 as ([i2 p] & E3 & H2). cbn [fst] in E3. subst i2.
      apply filter_In in H2. destruct H2 as (H2 & H3). cbn [fst snd] in *. apply in_numbered in H1. apply in_numbered in H2. rewrite Nat.sub_0_r in H1, H2. exists d, p. split; [apply H1|]. split; [apply H2|exact H3].
    - intros (d & p & H1 & H2 & H3). exists (j, d). split; [apply in_numbered; rewrite Nat.sub_0_r; split; [lia|exact H1]|]. cbn [fst snd]. apply in_map_iff. exists i. split; [reflexivity|]. apply in_map_iff. exists (i, p). split; [reflexivity|].
      apply filter_In. split; [apply in_numbered; rewrite Nat.sub_0_r; split; [lia|exact H2]|exact H3]. }
  split.
  - intros ([i j] & H & M). apply Q in H. destruct H as (d & p & H1 & H2 & H3). cbn [fst snd] in M. rewrite nth_error_map in H2. destruct (nth_error f i) as [[lab' r']|] eqn:N; [|destruct M]. destruct M as [M|[]]. injection M as -> -> ->.
    cbn in H2. injection H2 as <-. split; [apply (nth_error_In _ _ N)|]. exists d. split; assumption.
  - intros (I & d & H1 & H2). apply In_nth_error in I. destruct I as (i & N). exists (i, k). split; [apply Q; exists d, (focal r); rewrite nth_error_map, N; split; [exact H1|]; split; [reflexivity|exact H2]|]. cbn [fst snd]. rewrite N. left. reflexivity.
Qed.
Lemma camera_nth : forall S C A sum file k d, nth_error (map snd (make_footprint_f S C sum A file)) k = Some d <->
  exists n, nth_error (firsts (map fst file)) k = Some n /\ d = sortCorners_f A (make_detector_f S C sum (map snd (filter (fun r => String.eqb (fst r) n) file))).
Proof.
  intros S C A sum file k d. unfold make_footprint_f. rewrite firsts_eq, map_map. cbn [snd]. rewrite nth_error_map. destruct (nth_error (firsts (map fst file)) k) as [n|]; cbn [option_map].
  - split; [intro E; injection E as <-; exists n; split; reflexivity|intros (n' & E & ->); injection E as ->; reflexivity].
  - split; [discriminate|intros (n & E & _); discriminate].
Qed.
Lemma firsts_where : forall l k n, nth_error (firsts l) k = Some n -> exists pre post, l = (pre ++ n :: post)%list /\ ~ In n pre /\ k = length (nodup string_dec pre).
Proof.
  intros l k n N. assert (I : In n l) by (apply firsts_in; apply (nth_error_In _ _ N)). apply in_split in I.
  assert (F : exists pre post, l = (pre ++ n :: post)%list /\ ~ In n pre).
  { clear N k. destruct I as (pre & post & E). revert l post E. induction pre as [pre IH] using (induction_ltof1 _ (@length string)). intros l post E.
    destruct (in_dec string_dec n pre) as [J|J]; [|exists pre, post; split; assumption]. apply in_split in J. destruct J as (a & b & ->). apply (IH a) with (post := (b ++ n :: post)%list); [unfold ltof; rewrite app_length; cbn; lia|]. rewrite E, <- app_assoc. reflexivity. }
  destruct F as (pre & post & E & J). exists pre, post. split; [exact E|]. split; [exact J|]. assert (P := firsts_position pre n post J). rewrite <- E in P.
  apply (proj1 (NoDup_nth_error (firsts l)) (firsts_nodup l)); [apply nth_error_Some; congruence|congruence].
Qed.
Lemma cells_rows : forall n (file : list (string * (R * R))), map snd (filter (fun r => String.eqb (fst r) n) (map (fun c => (fst c, (Real (fst (snd c)), Real (snd (snd c))))) file))
  = map (fun c => (Real (fst c), Real (snd c))) (map snd (filter (fun r => String.eqb (fst r) n) file)).
Proof. intros n file. induction file as [|[m c] file IH]; [reflexivity|]. cbn [map filter fst snd]. destruct (String.eqb m n); cbn [map fst snd]; rewrite IH; reflexivity. Qed.

Lemma C117_filter_proof : forall S C AT sum rows file corners A (f : frame A) (sky field : A -> R * R) (rot : A -> R) limit,
  accurate_sin S -> accurate_cos C -> accurate_arctan2 AT -> accurate_sum sum -> accurate_sum rows ->
  (forall n, In n (map fst file) -> firm_detector (corners n) /\ Permutation (map snd (filter (fun r => String.eqb (fst r) n) file)) (corners n)) ->
  (forall lab r, In (lab, r) f -> position (sky r) /\ position (field r) /\ Rabs (snd (field r)) <= 89 /\ binary64 (rot r) /\ Rabs (rot r) <= 360 /\
    exists d, distance_between (field r) (sky r) d /\ d <= 60) ->
  (forall a, limit = Some a -> 0 <= a <= 3600) ->
  let camera := make_footprint_f S C sum AT (map (fun c => (fst c, (Real (fst (snd c)), Real (snd (snd c))))) file) in
  let on_sky r := focal_plane_of_f S C (Real (fst (sky r))) (Real (snd (sky r))) (Real (fst (field r))) (Real (snd (field r))) (Real (rot r)) in
  let kept := footprint_filter_f sum rows on_sky (option_map Real limit) (map snd camera) f in
  let margin := match limit with None => 0 | Some a => a / 3600 * PI / 180 end in
  let place r := focal_position (field r) (rot r) (sky r) in
  let outline n := map corner_position (corners n) in
  (forall lab r pre n post, In (lab, r) f -> map fst file = (pre ++ n :: post)%list -> ~ In n pre ->
    inside_by (margin + 2 / 10 ^ 10) (outline n) (place r) -> In (lab, (r, length (nodup string_dec pre))) kept) /\
  (forall lab r k, In (lab, (r, k)) kept -> In (lab, r) f /\
    exists pre n post, map fst file = (pre ++ n :: post)%list /\ ~ In n pre /\ k = length (nodup string_dec pre) /\
      hardly_outside (3 / 10 ^ 11) (outline n) (place r) /\ (limit <> None -> off_edges_by (margin - 2 / 10 ^ 10) (outline n) (place r))).
Proof.
  intros S C AT sum rows file corners A f sky field rot limit HS HC HA HSUM HROWS FIRM ROWS LIMIT camera on_sky kept margin place outline.
  assert (NAMES : map fst (map (fun c : string * (R * R) => (fst c, (Real (fst (snd c)), Real (snd (snd c))))) file) = map fst file) by (rewrite map_map; reflexivity).
  assert (DEC : forall lab r n, In (lab, r) f -> In n (map fst file) ->
    let d := sortCorners_f AT (make_detector_f S C sum (map (fun c => (Real (fst c), Real (snd c))) (map snd (filter (fun r => String.eqb (fst r) n) file)))) in
    (inside_by (margin + 2 / 10 ^ 10) (outline n) (place r) -> on_detector_f sum rows (option_map Real limit) d (on_sky r) = true) /\
    (on_detector_f sum rows (option_map Real limit) d (on_sky r) = true -> hardly_outside (3 / 10 ^ 11) (outline n) (place r) /\ (limit <> None -> off_edges_by (margin - 2 / 10 ^ 10) (outline n) (place r)))).
  { intros lab r n I J d. destruct (ROWS lab r I) as (PS & PF & POLE & BR & LR & dd & DB & D60). destruct (FIRM n J) as (FD & PERM).
    destruct (C117_camera_proof S C AT sum rows (field r) (rot r) (sky r) dd _ _ HS HC HA HSUM HROWS PF PS POLE BR LR DB D60 FD PERM) as (Q1 & Q2 & Q3). unfold margin. destruct limit as [a|]; cbn [option_map].
    - destruct (Q3 a (LIMIT a eq_refl)) as (Q4 & Q5). split; [exact Q4|]. intro H. destruct (Q5 H) as (H1 & H2). split; [exact H1|intros _; exact H2].
    - split; [intro H; apply Q1; rewrite Rplus_0_l in H; exact H|]. intro H. split; [apply Q2; exact H|congruence]. }
  split.
  - intros lab r pre n post I E J IN. apply rows_f. split; [exact I|]. assert (P := firsts_position pre n post J). rewrite <- E in P. eexists. split; [apply (proj2 (camera_nth S C AT sum _ _ _)); exists n; split; [exact (eq_trans (f_equal (fun l => nth_error (firsts l) _) NAMES) P)|reflexivity]|].
    rewrite cells_rows. apply (DEC lab r n I); [|exact IN]. rewrite E. apply in_app_iff. right. left. reflexivity.
  - intros lab r k H. apply rows_f in H. destruct H as (I & d & N & ON). split; [exact I|]. apply camera_nth in N. destruct N as (n & N & ->). assert (N' := eq_trans (eq_sym (f_equal (fun l => nth_error (firsts l) k) NAMES)) N). clear N. rename N' into N. rewrite cells_rows in ON.
    destruct (firsts_where _ _ _ N) as (pre & post & E & J & K). exists pre, n, post. split; [exact E|]. split; [exact J|]. split; [exact K|].
    apply (DEC lab r n I); [|exact ON]. rewrite E. apply in_app_iff. right. left. reflexivity.
Qed.
