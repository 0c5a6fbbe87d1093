From Coq Require Import String List Arith ZArith QArith Bool Lia Reals Qreals Lra.
From Verif Require Import Base.Prelude Base.Num Base.Frame Model.Filters Spec.Filters.
Import ListNotations.
Open Scope nat_scope.

Lemma maglimit_rows : forall A (col : A -> num) lim f,
  rows (PPMagnitudeLimit col lim f) = filter (fun r => nltb (col r) lim) (rows f).
Proof. intros; unfold PPMagnitudeLimit. rewrite rows_reset_index, rows_mask. auto. Qed.

Lemma maglimit_selected : forall A (col : A -> num) lim f,
  selected (fun r => num_lt (col r) lim) (rows f) (rows (PPMagnitudeLimit col lim f)).
Proof.
  intros. rewrite maglimit_rows. apply selected_filter. intros; apply nltb_lt.
Qed.

Lemma maglimit_labels : forall A (col : A -> num) lim f,
  labels (PPMagnitudeLimit col lim f) = seq 0 (length (rows (PPMagnitudeLimit col lim f))).
Proof.
  intros; unfold PPMagnitudeLimit. rewrite labels_reset_index.
  rewrite length_rows, length_reset_index. auto.
Qed.

Lemma snrlimit_selected : forall A (col : A -> num) lim f,
  selected (fun r => num_lt lim (col r)) (rows f) (rows (PPSNRLimit col lim f)).
Proof.
  intros. unfold PPSNRLimit. rewrite rows_reset_index, rows_mask.
  apply selected_filter. intros; apply nltb_lt.
Qed.

Lemma snrlimit_labels : forall A (col : A -> num) lim f,
  labels (PPSNRLimit col lim f) = seq 0 (length (rows (PPSNRLimit col lim f))).
Proof.
  intros; unfold PPSNRLimit. rewrite labels_reset_index.
  rewrite length_rows, length_reset_index. auto.
Qed.

(** ** Dropping by labels *)

Lemma forallb_mem_self : forall A (f : frame A) ls,
  (forall l, In l ls -> In l (labels f)) -> forallb (fun l => mem_nat l (labels f)) ls = true.
Proof. intros. apply forallb_forall. intros x Hx. apply mem_nat_In; auto. Qed.

Lemma in_labels_mask : forall A (p : A -> bool) f l,
  In l (labels (mask p f)) <-> exists r, In (l, r) f /\ p r = true.
Proof.
  intros A p f l; unfold labels, mask. rewrite in_map_iff. split.
  - intros [[l' r] [E H]]. cbn in E; subst. apply filter_In in H. cbn in H. eauto.
  - intros [r [H1 H2]]. exists (l, r). split; auto. apply filter_In; auto.
Qed.

Lemma NoDup_label_consistent : forall A B (p : A -> B) (f : frame A),
  NoDup (labels f) -> label_consistent p f.
Proof.
  intros A B p f; induction f as [|[i x] f IH]; intros Hn l r r' H1 H2; cbn in *.
  - tauto.
  - inversion Hn; subst.
    assert (Hnot : forall y, ~ In (i, y) f).
    { intros y Hy. apply H3. change i with (fst (i, y)). apply in_map; auto. }
    destruct H1 as [H1|H1], H2 as [H2|H2]; try congruence.
    + inversion H1; subst. exfalso; eapply Hnot; eauto.
    + inversion H2; subst. exfalso; eapply Hnot; eauto.
    + eapply IH; eauto.
Qed.

Lemma drop_labels_where : forall A (p : A -> bool) (f : frame A) ls,
  label_consistent p f ->
  (forall l, In l ls <-> exists r, In (l, r) f /\ p r = true) ->
  drop_labels ls f = Ok (filter (fun r => negb (p (snd r))) f).
Proof.
  intros A p f ls Hc Hl. unfold drop_labels.
  rewrite forallb_mem_self.
  - f_equal. apply filter_ext_in. intros [l r] Hin; cbn. f_equal.
    destruct (p r) eqn:E.
    + apply mem_nat_In. apply Hl. eauto.
    + destruct (mem_nat l ls) eqn:M; auto. apply mem_nat_In, Hl in M.
      destruct M as [r' [H1 H2]]. rewrite (Hc l r r') in E; auto. congruence.
  - intros l H. apply Hl in H. destruct H as [r [H _]].
    unfold labels. change l with (fst (l, r)). apply in_map; auto.
Qed.

Lemma rows_filter_snd : forall A (p : A -> bool) (f : frame A),
  rows (filter (fun r => p (snd r)) f) = filter p (rows f).
Proof. intros. apply rows_mask. Qed.

Lemma bright_float : forall A (filt : A -> string) mag filters lim (f : frame A),
  label_consistent mag f ->
  exists out, PPBrightLimit filt mag filters (BFloat lim) f = Ok out
    /\ rows out = filter (fun r => negb (nltb (mag r) lim)) (rows f)
    /\ labels out = seq 0 (length (rows out)).
Proof.
  intros A filt mag filters lim f Hc. cbn.
  rewrite (drop_labels_where _ (fun r => nltb (mag r) lim)).
  - cbn. eexists; split; [reflexivity|]. split.
    + rewrite rows_reset_index. rewrite rows_filter_snd with (p := fun r => negb (nltb (mag r) lim)). auto.
    + rewrite labels_reset_index, length_rows, length_reset_index; auto.
  - intros l r r' H1 H2. rewrite (Hc l r r'); auto.
  - intros; apply in_labels_mask.
Qed.

(** Decidable form of "some observing filter equal to the row's filter has a
    limit above the row's magnitude". *)
Fixpoint too_bright (fl : string) (m : num) (filters : list string) (limits : list num) : bool :=
  match filters, limits with
  | fi :: fs, li :: ls => (String.eqb fl fi && nltb m li) || too_bright fl m fs ls
  | _, _ => false
  end.

Lemma bright_index_spec : forall A (filt : A -> string) mag (f : frame A) filters i limits,
  length filters <= length limits - i -> (i <= length limits) ->
  exists ix, bright_index filt mag i filters limits f = Ok ix /\
    forall l, In l ix <-> exists r, In (l, r) f /\ too_bright (filt r) (mag r) filters (skipn i limits) = true.
Proof.
  intros A filt mag f; induction filters as [|fl fs IH]; intros i limits Hlen Hi; cbn.
  - exists []; split; auto. intros l; split; [intros []|].
    intros [r [_ H]]. destruct (skipn i limits); discriminate.
  - cbn in Hlen.
    destruct (nth_error limits i) as [lim|] eqn:E.
    2:{ apply nth_error_None in E. lia. }
    destruct (IH (S i) limits) as [more [Hm Hs]]; try lia.
    rewrite Hm. eexists; split; [reflexivity|].
    intros l. rewrite in_app_iff, in_labels_mask, Hs.
    assert (Esk : skipn i limits = lim :: skipn (S i) limits).
    { clear -E. revert limits E. induction i as [|i IHi]; intros [|x l] E; cbn in *; try discriminate.
      - inversion E; auto.
      - apply IHi in E. exact E. }
    rewrite Esk. split.
    + intros [[r [H1 H2]]|[r [H1 H2]]]; exists r; split; auto; apply orb_true_iff; auto.
    + intros [r [H1 H2]]. apply orb_true_iff in H2. destruct H2; [left|right]; eauto.
Qed.

Lemma bright_index_short : forall A (filt : A -> string) mag (f : frame A) filters i limits,
  i <= length limits -> length limits - i < length filters ->
  bright_index filt mag i filters limits f = Err IndexError.
Proof.
  intros A filt mag f; induction filters as [|fl fs IH]; intros i limits Hi Hlen; cbn in *.
  - lia.
  - destruct (nth_error limits i) as [lim|] eqn:E; auto.
    assert (i < length limits) by (apply nth_error_Some; congruence).
    rewrite (IH (S i) limits); auto; lia.
Qed.

Lemma too_bright_spec : forall fl m filters limits,
  too_bright fl m filters limits = true <->
  exists i lim, nth_error filters i = Some fl /\ nth_error limits i = Some lim /\ num_lt m lim.
Proof.
  intros fl m; induction filters as [|fi fs IH]; intros limits; cbn.
  - split; [discriminate|]. intros (i & lim & H & _). destruct i; discriminate.
  - destruct limits as [|li ls].
    + split; [discriminate|]. intros (i & lim & _ & H & _). destruct i; discriminate.
    + rewrite orb_true_iff, andb_true_iff, IH. split.
      * intros [[H1 H2]|(i & lim & H1 & H2 & H3)].
        -- apply String.eqb_eq in H1; subst. exists 0, li; cbn. repeat split; auto. apply nltb_lt; auto.
        -- exists (S i), lim; cbn; auto.
      * intros (i & lim & H1 & H2 & H3). destruct i; cbn in *.
        -- inversion H1; inversion H2; subst. left; split; [apply String.eqb_refl|apply nltb_lt; auto].
        -- right; eauto.
Qed.

Lemma bright_list : forall A (filt : A -> string) mag filters limits (f : frame A),
  length filters <= length limits ->
  label_consistent (fun r => (filt r, mag r)) f ->
  exists out, PPBrightLimit filt mag filters (BList limits) f = Ok out
    /\ rows out = filter (fun r => negb (too_bright (filt r) (mag r) filters limits)) (rows f)
    /\ labels out = seq 0 (length (rows out)).
Proof.
  intros A filt mag filters limits f Hlen Hc. cbn.
  destruct (bright_index_spec A filt mag f filters 0 limits) as [ix [Hix Hs]]; try lia.
  rewrite Hix; cbn.
  rewrite (drop_labels_where _ (fun r => too_bright (filt r) (mag r) filters limits)).
  - cbn. eexists; split; [reflexivity|]. split.
    + rewrite rows_reset_index.
      rewrite rows_filter_snd with (p := fun r => negb (too_bright (filt r) (mag r) filters limits)). auto.
    + rewrite labels_reset_index, length_rows, length_reset_index; auto.
  - intros l r r' H1 H2. specialize (Hc l r r' H1 H2). inversion Hc; congruence.
  - intros l. rewrite Hs. cbn. tauto.
Qed.

(** ** Positional masks *)

Lemma mask_pos_subseq : forall A (p : nat -> A -> bool) f k, subseq (mask_pos p k f) f.
Proof.
  intros A p f; induction f; intros k; cbn; [constructor|].
  destruct (p k (snd a)); constructor; auto.
Qed.

Lemma mask_pos_selected : forall A (p : nat -> A -> bool) (P : nat -> A -> Prop) f k,
  (forall i x, p i x = true <-> P i x) ->
  selected_pos P k (rows f) (rows (mask_pos p k f)).
Proof.
  intros A p P f; induction f as [|[l r] f IH]; intros k H; cbn; [constructor|].
  destruct (p k r) eqn:E; cbn.
  - apply sp_keep; [apply H; auto|apply IH; auto].
  - apply sp_drop; [rewrite <- H; congruence|apply IH; auto].
Qed.

Lemma selected_pos_subseq_mono : forall A (P Q : nat -> A -> Prop) l k l1 l2,
  (forall i x, P i x -> Q i x) ->
  selected_pos P k l l1 -> selected_pos Q k l l2 -> subseq l1 l2.
Proof.
  intros A P Q l; induction l as [|x l IH]; intros k l1 l2 H H1 H2; inversion H1; inversion H2; subst;
    try (constructor; eapply IH; eauto; fail); try (eapply IH; eauto; fail).
  exfalso. match goal with [ HP : P _ _, HN : ~ Q _ _ |- _ ] => apply HN, H, HP end.
Qed.

Lemma selected_pos_all : forall A (P : nat -> A -> Prop) l k l',
  (forall i x, P i x) -> selected_pos P k l l' -> l' = l.
Proof.
  intros A P l; induction l; intros k l' H H1; inversion H1; subst; auto.
  - f_equal; eapply IHl; eauto.
  - exfalso; auto.
Qed.

Lemma selected_pos_none : forall A (P : nat -> A -> Prop) l k l',
  (forall i x, ~ P i x) -> selected_pos P k l l' -> l' = [].
Proof.
  intros A P l; induction l; intros k l' H H1; inversion H1; subst; auto.
  - exfalso; eapply H; eauto.
  - eapply IHl; eauto.
Qed.

Lemma fading_selected : forall A (prob : A -> num) draw f,
  selected_pos (fun i r => num_le (draw i) (prob r)) 0 (rows f)
    (rows (PPFadingFunctionFilter prob draw f)).
Proof.
  intros. unfold PPFadingFunctionFilter, PPDropObservations. rewrite rows_reset_index.
  apply mask_pos_selected. intros; apply nleb_le.
Qed.

Lemma efficiency_ok : forall A t draw (f : frame A), (0 <= t)%Q -> (t <= 1)%Q ->
  exists out, PPDetectionEfficiency (Fin t) draw f = Ok out /\
    selected_pos (fun i _ => num_le (draw i) (Fin t)) 0 (rows f) (rows out).
Proof.
  intros A t draw f H0 H1. unfold PPDetectionEfficiency. cbn.
  assert (E1 : qltb 1 t = false) by (apply qltb_false; auto).
  assert (E2 : qltb t 0 = false) by (apply qltb_false; auto).
  rewrite E1, E2. cbn. eexists; split; [reflexivity|].
  rewrite <- (rows_reset_index A f) at 1.
  apply mask_pos_selected with (p := fun i (_ : A) => nleb (draw i) (Fin t)). intros; apply nleb_le.
Qed.

Lemma efficiency_out_of_bounds : forall A t draw (f : frame A), (t < 0 \/ 1 < t)%Q ->
  PPDetectionEfficiency (Fin t) draw f = Err SysExit.
Proof.
  intros A t draw f H. unfold PPDetectionEfficiency. cbn.
  destruct H as [H|H]; apply qltb_lt in H; rewrite H; cbn; auto. rewrite orb_true_r; auto.
Qed.

(** ** Distance and motion cuts *)

Lemma distance_cut_selected : forall A (objid : A -> string) x y z up lo (f : frame A),
  selected (fun r => exists r', In r' (rows f) /\ objid r' = objid r /\
               num_lt (distance_sq x y z r') (bound_km_sq up) /\
               num_lt (bound_km_sq lo) (distance_sq x y z r'))
    (rows f) (rows (distance_cut objid x y z up lo f)).
Proof.
  intros. unfold distance_cut. rewrite rows_mask. apply selected_filter.
  intros r Hr. rewrite existsb_exists. split.
  - intros [id [H1 H2]]. apply String.eqb_eq in H2. subst id.
    apply in_map_iff in H1. destruct H1 as [r' [E Hin]]. rewrite rows_mask in Hin.
    apply filter_In in Hin. destruct Hin as [Hin Hb]. apply andb_true_iff in Hb. destruct Hb as [Hb1 Hb2].
    apply nltb_lt in Hb1. apply nltb_lt in Hb2. eauto.
  - intros [r' (Hin & E & H1 & H2)]. exists (objid r). split; [|apply String.eqb_refl].
    apply in_map_iff. exists r'. split; auto. rewrite rows_mask. apply filter_In. split; auto.
    apply andb_true_iff; split; apply nltb_lt; auto.
Qed.

Lemma motion_cut_rows : forall A (rr dr : A -> num) up lo (f : frame A),
  label_consistent (fun r => (rr r, dr r)) f ->
  exists out, motion_cut rr dr up lo f = Ok out /\
   selected (fun r => num_lt (nadd (nsqr (rr r)) (nsqr (dr r))) (nsqr up) /\
                      num_lt (nsqr lo) (nadd (nsqr (rr r)) (nsqr (dr r))))
     (rows f) (rows out).
Proof.
  intros A rr dr up lo f Hc. unfold motion_cut.
  set (bad := fun r : A => negb _).
  rewrite (drop_labels_where _ bad).
  - eexists; split; [reflexivity|].
    rewrite rows_filter_snd with (p := fun r => negb (bad r)).
    apply selected_filter. intros r _. unfold bad. rewrite negb_involutive, andb_true_iff, !nltb_lt. tauto.
  - intros l r r' H1 H2. unfold bad. specialize (Hc l r r' H1 H2). inversion Hc. congruence.
  - intros; apply in_labels_mask.
Qed.

(** Translation of a squared comparison into the real-valued comparison of the
    square root with a non-negative bound. *)
Open Scope R_scope.

Lemma sqrt_lt_iff : forall s b, 0 <= s -> 0 <= b -> (sqrt s < b <-> s < b * b).
Proof.
  intros s b Hs Hb. split; intro H.
  - rewrite <- (sqrt_sqrt s Hs). apply Rmult_le_0_lt_compat; auto using sqrt_pos.
  - rewrite <- (sqrt_square b Hb). apply sqrt_lt_1; auto. apply Rle_0_sqr.
Qed.

Lemma lt_sqrt_iff : forall s b, 0 <= s -> 0 <= b -> (b < sqrt s <-> b * b < s).
Proof.
  intros s b Hs Hb. split; intro H.
  - rewrite <- (sqrt_sqrt s Hs). apply Rmult_le_0_lt_compat; auto.
  - rewrite <- (sqrt_square b Hb). apply sqrt_lt_1; auto. apply Rle_0_sqr.
Qed.

Lemma Q2R_lt : forall p q, (p < q)%Q <-> Q2R p < Q2R q.
Proof. intros; split; [apply Qlt_Rlt|apply Rlt_Qlt]. Qed.

Lemma Q2R_0 : Q2R 0 = 0.
Proof. unfold Q2R; cbn. lra. Qed.

Lemma rate_sq_iff : forall a b lo up : Q, (0 <= lo)%Q -> (0 <= up)%Q ->
  (num_lt (nadd (nsqr (Fin a)) (nsqr (Fin b))) (nsqr (Fin up)) /\
   num_lt (nsqr (Fin lo)) (nadd (nsqr (Fin a)) (nsqr (Fin b)))) <-> in_rate_bounds a b lo up.
Proof.
  intros a b lo up Hlo Hup. unfold in_rate_bounds. cbn.
  assert (Rlo : 0 <= Q2R lo) by (rewrite <- Q2R_0; apply Qle_Rle; auto).
  assert (Rup : 0 <= Q2R up) by (rewrite <- Q2R_0; apply Qle_Rle; auto).
  assert (Hs : 0 <= Q2R a * Q2R a + Q2R b * Q2R b) by nra.
  rewrite lt_sqrt_iff, sqrt_lt_iff; auto.
  rewrite <- !Q2R_mult, <- Q2R_plus, <- !Q2R_lt.
  split.
  - intros [H1 H2]. inversion H1; inversion H2; subst; auto.
  - intros [H1 H2]; split; constructor; auto.
Qed.

Lemma au_km_R : Q2R au_km = 149597870.7.
Proof. unfold au_km, Q2R; cbn [Qnum Qden]. lra. Qed.

Lemma distance_sq_iff : forall x y z lo up : Q, (0 <= lo)%Q -> (0 <= up)%Q ->
  (num_lt (nadd (nadd (nsqr (Fin x)) (nsqr (Fin y))) (nsqr (Fin z))) (bound_km_sq (Fin up)) /\
   num_lt (bound_km_sq (Fin lo)) (nadd (nadd (nsqr (Fin x)) (nsqr (Fin y))) (nsqr (Fin z))))
  <-> in_distance_bounds x y z lo up.
Proof.
  intros x y z lo up Hlo Hup. unfold in_distance_bounds. cbn.
  assert (Rlo : 0 <= Q2R lo) by (rewrite <- Q2R_0; apply Qle_Rle; auto).
  assert (Rup : 0 <= Q2R up) by (rewrite <- Q2R_0; apply Qle_Rle; auto).
  assert (Hs : 0 <= Q2R x * Q2R x + Q2R y * Q2R y + Q2R z * Q2R z) by nra.
  rewrite lt_sqrt_iff, sqrt_lt_iff; auto; try nra.
  rewrite <- au_km_R.
  rewrite <- !Q2R_mult, <- !Q2R_plus, <- !Q2R_lt.
  split.
  - intros [H1 H2]. inversion H1; inversion H2; subst; auto.
  - intros [H1 H2]; split; constructor; auto.
Qed.
Open Scope nat_scope.

(** ** Circular footprint *)

Lemma circle_selected : forall A (sep : A -> num) rad f,
  selected (fun r => num_lt (sep r) rad) (rows f) (rows (PPCircleFootprint sep rad f)).
Proof.
  intros. unfold PPCircleFootprint. rewrite rows_reset_index, rows_mask.
  apply selected_filter; intros; apply nltb_lt.
Qed.

Lemma circle_labels : forall A (sep : A -> num) rad f,
  labels (PPCircleFootprint sep rad f) = seq 0 (length (PPCircleFootprint sep rad f)).
Proof.
  intros; unfold PPCircleFootprint. rewrite labels_reset_index, length_reset_index; auto.
Qed.

Lemma mem_filter_seq : forall (p : nat -> bool) i s n,
  mem_nat i (filter p (seq s n)) = (s <=? i) && (i <? s + n) && p i.
Proof.
  intros p i s n. apply eq_iff_eq_true.
  rewrite mem_nat_In, filter_In, in_seq, !andb_true_iff, Nat.leb_le, Nat.ltb_lt. tauto.
Qed.

Lemma sensor_area_spec : forall A fill draw (f : frame A),
  labels f = seq 0 (length f) ->
  exists out, PPSimpleSensorArea fill draw f = Ok out /\
    selected_pos (fun i _ => ~ num_lt fill (draw i)) 0 (rows f) (rows out) /\
    labels out = seq 0 (length out).
Proof.
  intros A fill draw f Hlab. unfold PPSimpleSensorArea, drop_labels.
  rewrite forallb_mem_self.
  2:{ intros l H. unfold sensor_drop in H. apply filter_In in H. rewrite Hlab. tauto. }
  cbn. eexists; split; [reflexivity|]. split.
  2:{ rewrite labels_reset_index, length_reset_index; auto. }
  rewrite rows_reset_index. unfold sensor_drop.
  assert (G : forall (g : frame A) k n, labels g = seq k (length g) -> k + length g <= n ->
    selected_pos (fun i _ => ~ num_lt fill (draw i)) k (rows g)
      (rows (filter (fun r => negb (mem_nat (fst r) (filter (fun i => nltb fill (draw i)) (seq 0 n)))) g))).
  { induction g as [|[l r] g IH]; intros k n Hl Hn; cbn; [constructor|].
    cbn in Hl. inversion Hl; subst. cbn in Hn.
    rewrite mem_filter_seq.
    replace (0 <=? k) with true by (symmetry; apply Nat.leb_le; lia).
    replace (k <? 0 + n) with true by (symmetry; apply Nat.ltb_lt; lia). cbn [andb].
    destruct (nltb fill (draw k)) eqn:E; cbn.
    - apply sp_drop. { apply nltb_lt in E; tauto. } apply IH; auto; lia.
    - apply sp_keep. { intro C; apply nltb_lt in C; congruence. } apply IH; auto; lia. }
  apply G; auto.
Qed.

(** ** Statements of the property file *)

Lemma C07_maglimit_proof : forall A (col : A -> num) lim (f : frame A),
  selected (fun r => num_lt (col r) lim) (rows f) (rows (PPMagnitudeLimit col lim f)) /\
  labels (PPMagnitudeLimit col lim f) = seq 0 (length (rows (PPMagnitudeLimit col lim f))).
Proof. split; [apply maglimit_selected|apply maglimit_labels]. Qed.

Lemma C07_snrlimit_proof : forall A (col : A -> num) lim (f : frame A),
  selected (fun r => num_lt lim (col r)) (rows f) (rows (PPSNRLimit col lim f)) /\
  labels (PPSNRLimit col lim f) = seq 0 (length (rows (PPSNRLimit col lim f))).
Proof. split; [apply snrlimit_selected|apply snrlimit_labels]. Qed.

Lemma C07_bright_proof : forall A (filt : A -> string) (mag : A -> num) filters lim (f : frame A),
  label_consistent mag f ->
  exists out, PPBrightLimit filt mag filters (BFloat lim) f = Ok out /\
    selected (fun r => ~ num_lt (mag r) lim) (rows f) (rows out) /\
    labels out = seq 0 (length (rows out)).
Proof.
  intros A filt mag filters lim f Hc.
  destruct (bright_float A filt mag filters lim f Hc) as (out & H1 & H2 & H3).
  exists out; split; auto. split; auto. rewrite H2. apply selected_filter.
  intros r _. rewrite negb_true_iff, <- nltb_lt. destruct (nltb (mag r) lim); intuition congruence.
Qed.

Lemma C07_nan_proof : forall A (filt : A -> string) (col : A -> num) filters lim (f : frame A) r,
  NoDup (labels f) -> In r (rows f) -> col r = NaN ->
  ~ In r (rows (PPMagnitudeLimit col lim f)) /\
  ~ In r (rows (PPSNRLimit col lim f)) /\
  exists out, PPBrightLimit filt col filters (BFloat lim) f = Ok out /\ In r (rows out).
Proof.
  intros A filt col filters lim f r Hn Hin Hnan. repeat split.
  - intro H. eapply selected_in in H; [|apply maglimit_selected]. destruct H as [_ H].
    rewrite Hnan in H. inversion H.
  - intro H. eapply selected_in in H; [|apply snrlimit_selected]. destruct H as [_ H].
    rewrite Hnan in H. inversion H.
  - destruct (C07_bright_proof A filt col filters lim f (NoDup_label_consistent _ _ _ _ Hn))
      as (out & H1 & H2 & _).
    exists out; split; auto. eapply selected_in; eauto. split; auto. rewrite Hnan. intro C; inversion C.
Qed.

Lemma C08_proof :
  forall A (filt : A -> string) (mag : A -> num) filters limits (f : frame A),
  length filters <= length limits ->
  label_consistent (fun r => (filt r, mag r)) f ->
  exists out, PPBrightLimit filt mag filters (BList limits) f = Ok out /\
    selected (fun r => ~ exists i lim, nth_error filters i = Some (filt r) /\
                          nth_error limits i = Some lim /\ num_lt (mag r) lim)
      (rows f) (rows out) /\
    labels out = seq 0 (length (rows out)).
Proof.
  intros A filt mag filters limits f Hlen Hc.
  destruct (bright_list A filt mag filters limits f Hlen Hc) as (out & H1 & H2 & H3).
  exists out; split; auto. split; auto. rewrite H2. apply selected_filter.
  intros r _. rewrite negb_true_iff, <- too_bright_spec.
  destruct (too_bright (filt r) (mag r) filters limits); intuition congruence.
Qed.

Lemma C08_unlisted_proof :
  forall A (filt : A -> string) (mag : A -> num) filters limits (f : frame A) r out,
  length filters <= length limits ->
  label_consistent (fun r => (filt r, mag r)) f ->
  PPBrightLimit filt mag filters (BList limits) f = Ok out ->
  In r (rows f) -> ~ In (filt r) filters -> In r (rows out).
Proof.
  intros A filt mag filters limits f r out Hlen Hc Hout Hin Hnot.
  destruct (C08_proof A filt mag filters limits f Hlen Hc) as (out' & H1 & H2 & _).
  rewrite H1 in Hout; inversion Hout; subst.
  eapply selected_in; eauto. split; auto. intros (i & lim & E & _). apply Hnot.
  eapply nth_error_In; eauto.
Qed.

Lemma C08_short_proof : forall A (filt : A -> string) (mag : A -> num) filters limits (f : frame A),
  length limits < length filters ->
  PPBrightLimit filt mag filters (BList limits) f = Err IndexError.
Proof.
  intros. cbn. rewrite bright_index_short; auto; lia.
Qed.

Lemma C09_fading_monotone_proof : forall A (p q : A -> num) draw (f : frame A),
  (forall r, num_le (p r) (q r)) ->
  subseq (rows (PPFadingFunctionFilter p draw f)) (rows (PPFadingFunctionFilter q draw f)).
Proof.
  intros A p q draw f H.
  eapply selected_pos_subseq_mono; [|apply fading_selected|apply fading_selected].
  intros i x Hx; cbn in *. eapply num_le_trans; eauto.
Qed.

Lemma C09_fading_extremes_proof : forall A (p : A -> num) draw (f : frame A),
  (forall i, num_le (Fin 0) (draw i) /\ num_lt (draw i) (Fin 1)) ->
  ((forall r, p r = Fin 1) -> rows (PPFadingFunctionFilter p draw f) = rows f) /\
  ((forall r, p r = Fin 0) -> (forall i, num_lt (Fin 0) (draw i)) ->
     rows (PPFadingFunctionFilter p draw f) = []) /\
  ((forall r, p r = NaN) -> rows (PPFadingFunctionFilter p draw f) = []).
Proof.
  intros A p draw f Hd. repeat split.
  - intros Hp. eapply selected_pos_all; [|apply fading_selected].
    intros i x; cbn. rewrite Hp. apply num_lt_le. apply Hd.
  - intros Hp Hpos. eapply selected_pos_none; [|apply fading_selected].
    intros i x; cbn. rewrite Hp. intro C. exact (num_le_not_lt _ _ C (Hpos i)).
  - intros Hp. eapply selected_pos_none; [|apply fading_selected].
    intros i x; cbn. rewrite Hp. intro C; inversion C; congruence.
Qed.

Lemma C09_eff_monotone_proof : forall A s t draw (f : frame A) o1 o2, (s <= t)%Q ->
  PPDetectionEfficiency (Fin s) draw f = Ok o1 -> PPDetectionEfficiency (Fin t) draw f = Ok o2 ->
  subseq (rows o1) (rows o2).
Proof.
  intros A s t draw f o1 o2 Hst H1 H2.
  assert (B : forall u o, PPDetectionEfficiency (Fin u) draw f = Ok o -> (0 <= u)%Q /\ (u <= 1)%Q).
  { intros u o H. unfold PPDetectionEfficiency in H. cbn in H.
    destruct (qltb 1 u) eqn:E1; [discriminate|]. destruct (qltb u 0) eqn:E2; [discriminate|].
    apply qltb_false in E1. apply qltb_false in E2. auto. }
  destruct (B _ _ H1) as [Bs0 Bs1]. destruct (B _ _ H2) as [Bt0 Bt1].
  destruct (efficiency_ok A s draw f Bs0 Bs1) as (o1' & E1 & S1).
  destruct (efficiency_ok A t draw f Bt0 Bt1) as (o2' & E2 & S2).
  rewrite H1 in E1; rewrite H2 in E2; inversion E1; inversion E2; subst.
  eapply selected_pos_subseq_mono; [|exact S1|exact S2].
  intros i x Hx. eapply num_le_trans; [exact Hx|]. constructor; auto.
Qed.

Lemma C10_distance_proof :
  forall A (objid : A -> string) (x y z : A -> Q) (up lo : Q) (f : frame A),
  (0 <= lo)%Q -> (0 <= up)%Q ->
  selected (fun r => exists r', In r' (rows f) /\ objid r' = objid r /\
                        in_distance_bounds (x r') (y r') (z r') lo up)
    (rows f)
    (rows (distance_cut objid (fun r => Fin (x r)) (fun r => Fin (y r)) (fun r => Fin (z r))
             (Fin up) (Fin lo) f)).
Proof.
  intros A objid x y z up lo f Hlo Hup.
  eapply selected_ext; [|apply distance_cut_selected].
  intros r _. split; intros [r' (H1 & H2 & H3)]; exists r'; split; auto; split; auto;
    unfold distance_sq in *; apply distance_sq_iff; auto.
Qed.

Lemma C10_all_or_nothing_proof :
  forall A (objid : A -> string) (x y z : A -> num) up lo (f : frame A) r r',
  In r (rows f) -> In r' (rows f) -> objid r = objid r' ->
  (In r (rows (distance_cut objid x y z up lo f)) <-> In r' (rows (distance_cut objid x y z up lo f))).
Proof.
  intros A objid x y z up lo f r r' H1 H2 E.
  rewrite !(selected_in _ _ _ _ _ (distance_cut_selected A objid x y z up lo f)).
  rewrite E. tauto.
Qed.

Lemma C10_motion_proof :
  forall A (rr dr : A -> Q) (up lo : Q) (f : frame A),
  (0 <= lo)%Q -> (0 <= up)%Q -> NoDup (labels f) ->
  exists out, motion_cut (fun r => Fin (rr r)) (fun r => Fin (dr r)) (Fin up) (Fin lo) f = Ok out /\
    selected (fun r => in_rate_bounds (rr r) (dr r) lo up) (rows f) (rows out).
Proof.
  intros A rr dr up lo f Hlo Hup Hn.
  destruct (motion_cut_rows A (fun r => Fin (rr r)) (fun r => Fin (dr r)) (Fin up) (Fin lo) f)
    as (out & H1 & H2).
  { apply NoDup_label_consistent; auto. }
  exists out; split; auto. eapply selected_ext; [|exact H2].
  intros r _; cbn beta. apply rate_sq_iff; auto.
Qed.

Lemma C10_motion_nonfinite_proof :
  forall A (rr dr : A -> num) (up lo : Q) (f : frame A) out r,
  NoDup (labels f) -> motion_cut rr dr (Fin up) (Fin lo) f = Ok out ->
  In r (rows out) -> exists a b, rr r = Fin a /\ dr r = Fin b.
Proof.
  intros A rr dr up lo f out r Hn Hout Hin.
  destruct (motion_cut_rows A rr dr (Fin up) (Fin lo) f) as (out' & H1 & H2).
  { apply NoDup_label_consistent; auto. }
  rewrite H1 in Hout; inversion Hout; subst.
  eapply selected_in in Hin; [|exact H2]. destruct Hin as [_ [H3 H4]].
  destruct (rr r), (dr r); cbn in *; try (inversion H3; fail); eauto.
Qed.

Lemma C10_negative_refuted_proof :
  exists (up lo : Q) (f : frame (Q * Q)) r out,
    NoDup (labels f) /\ In r (rows f) /\ in_rate_bounds (fst r) (snd r) lo up /\
    motion_cut (fun r => Fin (fst r)) (fun r => Fin (snd r)) (Fin up) (Fin lo) f = Ok out /\
    ~ In r (rows out).
Proof.
  exists 2%Q, (-(1))%Q, [(0, (1#2, 0)%Q)], (1#2, 0)%Q, [].
  repeat split.
  - repeat constructor; auto.
  - left; auto.
  - unfold in_rate_bounds. cbn [fst snd]. unfold Q2R; cbn.
    apply Rlt_le_trans with (r2 := 0%R); [lra|apply sqrt_pos].
  - unfold in_rate_bounds. cbn [fst snd].
    apply sqrt_lt_iff; unfold Q2R; cbn; lra.
  - intros [].
Qed.

Lemma C37_circle_proof : forall A (sep : A -> num) rad (f : frame A),
  selected (fun r => num_lt (sep r) rad) (rows f) (rows (PPCircleFootprint sep rad f)) /\
  labels (PPCircleFootprint sep rad f) = seq 0 (length (PPCircleFootprint sep rad f)).
Proof. split; [apply circle_selected|apply circle_labels]. Qed.

Lemma C37_model_proof : forall A (sep : A -> num) (rad fill : Q) draw (f : frame A),
  ~ (rad == 0)%Q -> ~ (fill == 0)%Q ->
  exists mid out, circle_model sep (Some (Fin rad)) (Some (Fin fill)) draw f = Ok out /\
    selected (fun r => num_lt (sep r) (Fin rad)) (rows f) mid /\
    selected_pos (fun i _ => ~ num_lt (Fin fill) (draw i)) 0 mid (rows out).
Proof.
  intros A sep rad fill draw f Hr Hf.
  exists (rows (PPCircleFootprint sep (Fin rad) f)).
  destruct (sensor_area_spec A (Fin fill) draw (PPCircleFootprint sep (Fin rad) f)
              (circle_labels _ _ _ _)) as (out & H1 & H2 & _).
  exists out. repeat split; auto.
  - unfold circle_model. cbn [truthy].
    destruct (Qeq_bool rad 0) eqn:E1; [apply Qeq_bool_iff in E1; contradiction|].
    destruct (Qeq_bool fill 0) eqn:E2; [apply Qeq_bool_iff in E2; contradiction|]. cbn. exact H1.
  - apply circle_selected.
Qed.

Lemma C37_zero_refuted_proof :
  exists (sep : num -> num) draw (f : frame num) r out,
    (forall i, draw i = Fin (1#2)) /\
    circle_model sep (Some (Fin 0)) (Some (Fin 0)) draw f = Ok out /\
    In r (rows f) /\ num_lt (Fin 0) (sep r) /\ In r (rows out).
Proof.
  exists (fun s => s), (fun _ => Fin (1#2)), (of_rows [Fin 3]), (Fin 3), (of_rows [Fin 3]).
  repeat split; cbn; auto. constructor. reflexivity.
Qed.
