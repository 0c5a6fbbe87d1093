From Coq Require Import String List Arith ZArith QArith Bool Lia Sorting.Sorted Sorting.Permutation.
From Verif Require Import Base.Prelude Base.Num Base.Frame Model.Filters Model.Linking Model.Pipeline
  Spec.Filters Spec.Linking Spec.Pipeline Proofs.Filters Proofs.LinkProps.
Import ListNotations.
Open Scope nat_scope.

Lemma flat_map_map : forall A B C (f : A -> B) (g : B -> list C) l,
  flat_map g (map f l) = flat_map (fun x => g (f x)) l.
Proof. intros; induction l; cbn; congruence. Qed.
Lemma flat_map_flat_map : forall A B C (f : A -> list B) (g : B -> list C) l,
  flat_map g (flat_map f l) = flat_map (fun x => flat_map g (f x)) l.
Proof. intros; induction l; cbn; auto. rewrite flat_map_app. congruence. Qed.
Lemma map_flat_map : forall A B C (f : A -> list B) (g : B -> C) l,
  map g (flat_map f l) = flat_map (fun x => map g (f x)) l.
Proof. intros; induction l; cbn; auto. rewrite map_app. congruence. Qed.
Lemma filter_flat_map : forall A B (f : A -> list B) (p : B -> bool) l,
  filter p (flat_map f l) = flat_map (fun x => filter p (f x)) l.
Proof.
  intros; induction l; cbn; auto. rewrite filter_app. congruence.
Qed.
Lemma flat_map_ext_in : forall A B (f g : A -> list B) l,
  (forall x, In x l -> f x = g x) -> flat_map f l = flat_map g l.
Proof. intros A B f g l H; induction l; cbn; auto. rewrite H, IHl; auto with datatypes. Qed.

Lemma filter_true : forall A (p : A -> bool) l, (forall x, p x = true) -> filter p l = l.
Proof. intros A p l H; induction l; cbn; auto. rewrite H. congruence. Qed.

Section Match.
Context {E P : Type}.
Variable efield : E -> Z.
Variable etime : E -> Q.
Variable pfield : P -> Z.
Variable pfilt : P -> option string.
Variable pstart : P -> Q.
Variable pointings : list P.

(** The pointings an ephemeris row is matched with. *)
Definition partners (e : E) : list P :=
  filter (fun p => Z.eqb (efield e) (pfield p) && match pfilt p with Some _ => true | None => false end) pointings.
Definition matched (js : list E) : list (E * P) := flat_map (fun e => map (pair e) (partners e)) js.

Lemma match_rows : forall js,
  drop_unmatched pfilt (merge_pointing efield pfield pointings js) = matched js.
Proof.
  intro js. unfold drop_unmatched, merge_pointing, matched, partners. rewrite flat_map_flat_map.
  apply flat_map_ext_in. intros e _. induction pointings as [|p ps IH]; cbn; auto.
  destruct (Z.eqb (efield e) (pfield p)) eqn:Ee; cbn [andb].
  - destruct (filter (fun p => Z.eqb (efield e) (pfield p)) ps) as [|q qs] eqn:Ef; cbn in IH |- *;
    destruct (pfilt p); cbn; rewrite <- IH; reflexivity.
  - exact IH.
Qed.
Lemma match_ok : forall js m, PPMatchPointing efield etime pfield pfilt pstart pointings js = Ok m ->
  m = matched js /\ forall x, In x m -> isclose (pstart (snd x)) (etime (fst x)) = true.
Proof.
  intros js m H. unfold PPMatchPointing in H. rewrite match_rows in H.
  destruct (forallb _ _) eqn:E1; inversion H; subst. split; auto. apply forallb_forall; auto.
Qed.
Lemma in_partners : forall e p, In p (partners e) <->
  In p pointings /\ efield e = pfield p /\ pfilt p <> None.
Proof.
  intros. unfold partners. rewrite filter_In, andb_true_iff, Z.eqb_eq.
  destruct (pfilt p); intuition congruence.
Qed.
Lemma in_matched : forall js x, In x (matched js) <->
  In (fst x) js /\ In (snd x) pointings /\ efield (fst x) = pfield (snd x) /\ pfilt (snd x) <> None.
Proof.
  intros js [e p]. unfold matched. rewrite in_flat_map. cbn. split.
  - intros [e' [H1 H2]]. apply in_map_iff in H2. destruct H2 as [p' [H2 H3]]. inversion H2; subst.
    apply in_partners in H3. tauto.
  - intros [H1 H2]. exists e. split; auto. apply in_map_iff. exists p. split; auto. apply in_partners; auto.
Qed.
Lemma partners_one : forall e, NoDup (map pfield pointings) -> length (partners e) <= 1.
Proof.
  intros e. unfold partners. induction pointings as [|p ps IH]; cbn; auto.
  intro H. inversion H; subst.
  destruct (Z.eqb_spec (efield e) (pfield p)) as [Ee|Ee]; cbn [andb]; auto.
  assert (E0 : filter (fun p => Z.eqb (efield e) (pfield p) && match pfilt p with Some _ => true | None => false end) ps = []).
  { destruct (filter _ ps) as [|q l] eqn:Ef; auto. exfalso.
    assert (Hq : In q (q :: l)) by (left; auto). rewrite <- Ef in Hq. apply filter_In in Hq.
    destruct Hq as [Hq1 Hq2]. apply andb_true_iff in Hq2. destruct Hq2 as [Hq2 _]. apply Z.eqb_eq in Hq2.
    apply H2. rewrite <- Ee, Hq2. apply in_map; auto. }
  rewrite E0. destruct (pfilt p); cbn; lia.
Qed.
Lemma matched_subseq : forall js, NoDup (map pfield pointings) -> subseq (map fst (matched js)) js.
Proof.
  intros js H. induction js as [|e js IH]; cbn; [constructor|].
  rewrite map_app, map_map. cbn. assert (Hl := partners_one e H).
  destruct (partners e) as [|p [|q l]]; cbn in *; try lia; constructor; auto.
Qed.
End Match.

Section Round.
Context {E P : Type}.
Variable eid : E -> string.
Variable efield : E -> Z.
Variable etime : E -> Q.
Variable pfield : P -> Z.
Variable pfilt : P -> option string.
Variable pstart : P -> Q.
Variable pointings : list P.
Variable physics : E -> P -> columns.
Variable noise : num -> num -> (num * num * num) -> columns -> columns.
Variable fsep : obs E P -> num.
Variable prob : obs E P -> num.
Variables gauss fov drop : nat -> num.
Variable lsep : obs E P -> obs E P -> num.
Variable tsort : list (obs E P) -> list (obs E P).
Variable ldraws : list num -> nat -> num.
Variable osort : list (obs E P * bool * option Z) -> list (obs E P * bool * option Z).
Variable lweights : nat -> nat -> nat -> Z.
Variable cfg : settings E P.

Notation key := (fun o : obs E P => (o_eph o, o_pnt o)).
Notation data := (fun o : obs E P => (o_eph o, o_pnt o, o_col o)).
Definition seq_labels {A} (f : frame A) : Prop := labels f = seq 0 (length f).

Lemma seq_reset : forall A (f : frame A), seq_labels (reset_index f).
Proof. intros. unfold seq_labels. rewrite labels_reset_index, length_reset_index; auto. Qed.
Lemma seq_of_rows : forall A (l : list A), seq_labels (of_rows l).
Proof. intros. unfold seq_labels. rewrite labels_of_rows. f_equal. unfold of_rows. rewrite combine_length, seq_length. lia. Qed.

Lemma update_labels : forall A B (g : nat -> A -> B) f k, labels (update_pos g k f) = labels f.
Proof. intros A B g f; induction f; intros k; cbn; f_equal; auto. apply IHf. Qed.
Lemma update_length : forall A B (g : nat -> A -> B) f k, length (update_pos g k f) = length f.
Proof. intros A B g f; induction f; intros k; cbn; f_equal; auto. Qed.
Lemma update_keys : forall A B K (h : B -> K) (h' : A -> K) (g : nat -> A -> B) f k,
  (forall i x, h (g i x) = h' x) -> map h (rows (update_pos g k f)) = map h' (rows f).
Proof. intros A B K h h' g f; induction f; intros k H; cbn; f_equal; auto. apply IHf; auto. Qed.

(** *** Randomisation *)
Lemma randomize_labels : forall st f, seq_labels f -> seq_labels (snd (randomize noise gauss cfg st f)).
Proof.
  intros st f H. unfold randomize. destruct (randomization_on cfg); auto. cbn [snd]. unfold seq_labels.
  rewrite update_labels, update_length. destruct (default_snr_cut cfg); auto. apply seq_reset.
Qed.
Lemma randomize_keys : forall st f, subseq (map key (rows (snd (randomize noise gauss cfg st f)))) (map key (rows f)).
Proof.
  intros st f. unfold randomize. destruct (randomization_on cfg); [|apply subseq_refl]. cbn [snd].
  rewrite (update_keys _ _ _ key key) by reflexivity.
  destruct (default_snr_cut cfg); [|apply subseq_refl].
  apply subseq_map. eapply selected_subseq, snrlimit_selected.
Qed.

(** *** Field of view *)
Lemma truthy_false : forall r, truthy (Some r) = false -> exists q, r = Fin q /\ (q == 0)%Q.
Proof.
  intros [| |q|] H; cbn in H; try discriminate. exists q. split; auto.
  apply negb_false_iff, Qeq_bool_iff in H. auto.
Qed.

(** The circle, then the fill factor. *)
Lemma circle_model_rows : forall radius fill draw (f f2 : frame (obs E P)), seq_labels f ->
  circle_model fsep radius fill draw f = Ok f2 ->
  seq_labels f2 /\ exists g, rows g = filter (fun o => match radius with Some r => negb (truthy radius) || nltb (fsep o) r | None => true end) (rows f)
   /\ subseq (rows f2) (rows g) /\ (match fill with Some x => truthy fill | None => false end = false -> f2 = g).
Proof.
  intros radius fill draw f f2 Hs H. unfold circle_model in H.
  set (f1 := match radius with Some r => if truthy radius then PPCircleFootprint fsep r f else f | None => f end) in *.
  assert (H1 : seq_labels f1).
  { unfold f1. destruct radius; auto. destruct (truthy (Some n)); auto. apply circle_labels. }
  assert (H2 : rows f1 = filter (fun o => match radius with Some r => negb (truthy radius) || nltb (fsep o) r | None => true end) (rows f)).
  { unfold f1. destruct radius as [r|].
    - destruct (truthy (Some r)).
      + unfold PPCircleFootprint. rewrite rows_reset_index, rows_mask. reflexivity.
      + cbn. symmetry. clear. induction (rows f); cbn; congruence.
    - symmetry. clear. induction (rows f); cbn; congruence. }
  destruct fill as [x|].
  - destruct (truthy (Some x)) eqn:Et.
    + destruct (sensor_area_spec _ x draw f1 H1) as [o [Ho [Hsel Hl]]].
      rewrite Ho in H. inversion H; subst. split; auto. exists f1. split; auto. split; [|discriminate].
      clear - Hsel. induction Hsel; constructor; auto.
    + inversion H; subst. split; auto. exists f1. split; auto. split; auto. apply subseq_refl.
  - inversion H; subst. split; auto. exists f1. split; auto. split; auto. apply subseq_refl.
Qed.

Definition consistent (f : frame (obs E P)) : Prop := label_consistent data f.

Lemma seq_consistent : forall f, seq_labels f -> consistent f.
Proof. intros f H. apply NoDup_label_consistent. rewrite H. apply seq_NoDup. Qed.

Lemma footprint_consistent : forall on f, consistent f -> consistent (footprint_rows on f).
Proof.
  intros on f H l r r' H1 H2. unfold footprint_rows in *. apply in_flat_map in H1, H2.
  destruct H1 as [[l1 x1] [Hx1 H1]], H2 as [[l2 x2] [Hx2 H2]].
  apply in_map_iff in H1, H2. destruct H1 as [d1 [H1 _]], H2 as [d2 [H2 _]]. cbn in *.
  inversion H1; inversion H2; subst. exact (H l x1 x2 Hx1 Hx2).
Qed.
Lemma visits_consistent : forall on f k, consistent f -> consistent (visits_rows on k f).
Proof.
  intros on f k H.
  assert (G : forall g k l r, In (l, r) (visits_rows on k g) -> exists (x : obs E P) d, In (l, x) g /\ r = set_det (Some d) x).
  { induction g as [|[i x] g IH]; intros k0 l r Hin; cbn in *; [tauto|].
    destruct (on k0) as [d|].
    - destruct Hin as [Hin|Hin].
      + inversion Hin; subst. exists x, d. auto.
      + destruct (IH _ _ _ Hin) as [y [d' [Hy ->]]]. exists y, d'; auto.
    - destruct (IH _ _ _ Hin) as [y [d' [Hy ->]]]. exists y, d'; auto. }
  intros l r r' H1 H2. destruct (G _ _ _ _ H1) as [x [d [Hx ->]]], (G _ _ _ _ H2) as [x' [d' [Hx' ->]]].
  exact (H l x x' Hx Hx').
Qed.

Lemma fov_ok : forall st f st2 f2, seq_labels f -> fov_stage fsep fov cfg st f = Ok (st2, f2) ->
  consistent f2 /\ (forall o, In o (rows f2) -> on_camera fsep cfg o) /\
  (forall o, In o (rows f2) -> exists o', In o' (rows f) /\ data o = data o') /\
  (match cam cfg with CamFootprint on => forall o, length (on o) <= 1 | _ => True end ->
     subseq (map key (rows f2)) (map key (rows f))).
Proof.
  intros st f st2 f2 Hs H. unfold fov_stage in H.
  destruct f as [|x0 f0].
  { inversion H; subst. repeat split; cbn; try tauto; try constructor. intros l r r' []. }
  cbn [nonempty] in H. set (f := x0 :: f0) in *. clearbody f. clear x0 f0.
  destruct (cam cfg) as [|on|on|radius fill] eqn:Ec.
  - inversion H; subst. split; [apply seq_consistent; auto|]. unfold on_camera. rewrite Ec.
    repeat split; eauto. intros; apply subseq_refl.
  - inversion H; subst. split; [apply footprint_consistent, seq_consistent; auto|].
    unfold on_camera. rewrite Ec. split; [|split].
    + intros o Ho. unfold rows, footprint_rows in Ho. apply in_map_iff in Ho. destruct Ho as [[l y] [<- Ho]].
      apply in_flat_map in Ho. destruct Ho as [[l1 y1] [Hy1 Ho]]. apply in_map_iff in Ho.
      destruct Ho as [d [Hd Hin]]. inversion Hd; subst. cbn. eauto.
    + intros o Ho. unfold rows, footprint_rows in Ho. apply in_map_iff in Ho. destruct Ho as [[l y] [<- Ho]].
      apply in_flat_map in Ho. destruct Ho as [[l1 y1] [Hy1 Ho]]. apply in_map_iff in Ho.
      destruct Ho as [d [Hd Hin]]. inversion Hd; subst. cbn. exists y1. split; auto.
      apply in_map_iff. exists (l, y1); auto.
    + intro Hone. clear - Hone. induction f as [|[l y] f IH]; cbn; [constructor|].
      unfold rows. rewrite map_app, map_app. specialize (Hone y). destruct (on y) as [|d [|d' ds]]; cbn in *; try lia.
      * apply ss_drop. apply IH.
      * apply ss_keep. apply IH.
  - inversion H; subst. split; [apply visits_consistent, seq_consistent; auto|].
    unfold on_camera. rewrite Ec. clear Ec H Hs. generalize (on (rows f)). intro g. generalize 0.
    split; [|split].
    + induction f as [|[l y] f IH] in n |- *; cbn; [tauto|]. destruct (g n) as [d|]; [|apply IH].
      intros o [<-|Ho]; [cbn; eauto|eapply IH; eauto].
    + induction f as [|[l y] f IH] in n |- *; cbn; [tauto|]. destruct (g n) as [d|].
      * intros o [<-|Ho]; [cbn; eauto|]. destruct (IH _ _ Ho) as [o' [H1 H2]]; eauto.
      * intros o Ho. destruct (IH _ _ Ho) as [o' [H1 H2]]; eauto.
    + intros _. induction f as [|[l y] f IH] in n |- *; cbn; [constructor|]. destruct (g n) as [d|].
      * apply ss_keep, IH.
      * apply ss_drop, IH.
  - destruct (circle_model _ _ _ _ _) as [f3|e] eqn:Em in H; inversion H; subst.
    destruct (circle_model_rows _ _ _ _ _ Hs Em) as [H1 [g [H2 [H3 H4]]]].
    split; [apply seq_consistent; auto|].
    assert (Hin : forall o, In o (rows f2) -> In o (rows f) /\ match radius with Some r => negb (truthy radius) || nltb (fsep o) r | None => true end = true).
    { intros o Ho. apply (subseq_in _ _ _ _ H3) in Ho. rewrite H2 in Ho. apply filter_In in Ho. exact Ho. }
    unfold on_camera. rewrite Ec. split; [|split].
    + intros o Ho. apply Hin in Ho. destruct Ho as [_ Ho]. destruct radius as [r|]; auto.
      apply orb_true_iff in Ho. destruct Ho as [Ho|Ho].
      * left. apply negb_true_iff, truthy_false in Ho. destruct Ho as [q [-> Hq]].
        eauto.
      * right. apply nltb_lt; auto.
    + intros o Ho. apply Hin in Ho. exists o. tauto.
    + intros _. apply subseq_map. eapply subseq_trans; [exact H3|]. rewrite H2. apply subseq_filter.
Qed.

(** *** Thresholds *)
Lemma snr_rows : forall f, rows (snr_stage cfg f) =
  filter (fun o => match snr_limit cfg with Some lim => nltb lim (k_snr (o_col o)) | None => true end) (rows f).
Proof.
  intro f. unfold snr_stage. destruct (snr_limit cfg).
  - destruct f; cbn [nonempty]; [reflexivity|]. unfold PPSNRLimit. rewrite rows_reset_index, rows_mask. reflexivity.
  - induction (rows f); cbn; congruence.
Qed.
Lemma snr_consistent : forall f, consistent f -> consistent (snr_stage cfg f).
Proof.
  intros f H. unfold snr_stage. destruct (snr_limit cfg); auto. destruct f; auto.
  apply seq_consistent, seq_reset.
Qed.
Lemma mag_rows : forall f, rows (mag_stage cfg f) =
  filter (fun o => match mag_limit cfg with Some lim => nltb (k_trailed (o_col o)) lim | None => true end) (rows f).
Proof.
  intro f. unfold mag_stage. destruct (mag_limit cfg).
  - destruct f; cbn [nonempty]; [reflexivity|]. unfold PPMagnitudeLimit. rewrite rows_reset_index, rows_mask. reflexivity.
  - induction (rows f); cbn; congruence.
Qed.
Lemma mag_consistent : forall f, consistent f -> consistent (mag_stage cfg f).
Proof.
  intros f H. unfold mag_stage. destruct (mag_limit cfg); auto. destruct f; auto.
  apply seq_consistent, seq_reset.
Qed.
Lemma fading_subseq : forall st f, subseq (rows (snd (fading_stage prob drop cfg st f))) (rows f).
Proof.
  intros st f. unfold fading_stage. destruct (fading_on cfg && nonempty f); cbn [snd]; [|apply subseq_refl].
  assert (H := fading_selected _ prob (fun i => drop (n_drop st + i)) f).
  induction H; constructor; auto.
Qed.
Lemma fading_consistent : forall st f, consistent f -> consistent (snd (fading_stage prob drop cfg st f)).
Proof.
  intros st f H. unfold fading_stage. destruct (fading_on cfg && nonempty f); auto. cbn [snd].
  apply seq_consistent, seq_reset.
Qed.

Definition is_saturated (o : obs E P) : bool :=
  match bright cfg with
  | Some (BFloat lim) => nltb (k_psf (o_col o)) lim
  | Some (BList lims) => too_bright (ofilt pfilt o) (k_psf (o_col o)) (filters cfg) lims
  | _ => false
  end.
Lemma bright_ok : forall f f', consistent f -> bright_stage pfilt cfg f = Ok f' ->
  rows f' = filter (fun o => negb (is_saturated o)) (rows f).
Proof.
  intros f f' Hc H. unfold bright_stage, is_saturated in *. destruct (bright cfg) as [a|].
  2:{ injection H as <-. symmetry. apply filter_true. reflexivity. }
  destruct f as [|x f0]; [inversion H; reflexivity|]. cbn [nonempty] in H. set (f := x :: f0) in *. clearbody f.
  destruct a as [lim|lims|].
  - destruct (bright_float _ (ofilt pfilt) (fun o : obs E P => k_psf (o_col o)) (filters cfg) lim f) as [o [Ho [Hr _]]].
    + intros l r r' H1 H2. specialize (Hc l r r' H1 H2). cbn in Hc. congruence.
    + congruence.
  - destruct (le_lt_dec (length (filters cfg)) (length lims)) as [Hl|Hl].
    + destruct (bright_list _ (ofilt pfilt) (fun o : obs E P => k_psf (o_col o)) (filters cfg) lims f Hl) as [o [Ho [Hr _]]].
      * intros l r r' H1 H2. specialize (Hc l r r' H1 H2). cbn in Hc. injection Hc as H3 H4 H5. unfold ofilt. rewrite H4, H5. reflexivity.
      * congruence.
    + cbn in H. rewrite bright_index_short in H; [discriminate|lia|lia].
  - discriminate.
Qed.
Lemma is_saturated_spec : forall o, pfilt (o_pnt o) <> None -> (is_saturated o = true <-> saturated pfilt cfg o).
Proof.
  intros o Ho. unfold is_saturated, saturated. destruct (bright cfg) as [[lim|lims|]|]; try (split; [discriminate|tauto]).
  - apply nltb_lt.
  - rewrite too_bright_spec. unfold ofilt. destruct (pfilt (o_pnt o)) as [fl|]; [|congruence]. split.
    + intros (i & lim & H1 & H2 & H3). exists i, fl, lim. auto.
    + intros (i & f & lim & H1 & H2 & H3 & H4). inversion H2; subst. eauto.
Qed.

Definition passesb (o : obs E P) : bool :=
  (match snr_limit cfg with Some lim => nltb lim (k_snr (o_col o)) | None => true end) &&
  (match mag_limit cfg with Some lim => nltb (k_trailed (o_col o)) lim | None => true end) &&
  negb (is_saturated o).
Lemma passesb_spec : forall o, pfilt (o_pnt o) <> None -> (passesb o = true <-> passes pfilt cfg o).
Proof.
  intros o Ho. unfold passesb, passes. rewrite !andb_true_iff, negb_true_iff.
  rewrite <- (is_saturated_spec o Ho).
  assert (H1 : match snr_limit cfg with Some lim => nltb lim (k_snr (o_col o)) | None => true end = true
     <-> forall lim, snr_limit cfg = Some lim -> num_lt lim (k_snr (o_col o))).
  { destruct (snr_limit cfg) as [lim|]; [rewrite nltb_lt|].
    - split; [intros H l El; inversion El; subst; auto|auto].
    - split; [discriminate|auto]. }
  assert (H2 : match mag_limit cfg with Some lim => nltb (k_trailed (o_col o)) lim | None => true end = true
     <-> forall lim, mag_limit cfg = Some lim -> num_lt (k_trailed (o_col o)) lim).
  { destruct (mag_limit cfg) as [lim|]; [rewrite nltb_lt|].
    - split; [intros H l El; inversion El; subst; auto|auto].
    - split; [discriminate|auto]. }
  rewrite H1, H2, not_true_iff_false. tauto.
Qed.

(** *** All stages before linking *)
Notation detect := (detections efield etime pfield pfilt pstart pointings physics noise fsep prob gauss fov drop cfg).
Notation pairs js := (matched efield pfield pfilt pointings js).

Lemma detections_ok : forall st js st' f, detect st js = Ok (st', f) ->
  (forall o, In o (rows f) -> stems efield pfield pfilt js pointings o /\ passes pfilt cfg o /\ on_camera fsep cfg o) /\ (match cam cfg with CamFootprint on => forall o, length (on o) <= 1 | _ => True end ->
     subseq (map key (rows f)) (pairs js)).
Proof.
  intros st js st' f H. unfold detections in H.
  destruct (PPMatchPointing _ _ _ _ _ _ _) as [m|e] eqn:Em in H; cbn [rbind] in H; [|discriminate].
  apply match_ok in Em. destruct Em as [-> _].
  set (f0 := of_rows (map (measure physics) (pairs js))) in *.
  assert (Hl0 : seq_labels f0) by apply seq_of_rows.
  assert (Hk0 : map key (rows f0) = pairs js).
  { unfold f0. rewrite rows_of_rows, map_map. cbn. rewrite <- (map_id (pairs js)) at 2. apply map_ext. intros []; auto. }
  assert (Hl1 := randomize_labels st f0 Hl0). assert (Hk1 := randomize_keys st f0).
  destruct (randomize noise gauss cfg st f0) as [st1 f1]. cbn [fst snd] in *.
  destruct (fov_stage fsep fov cfg st1 f1) as [[st2 f2]|e] eqn:Ef; cbn [rbind] in H; [|discriminate].
  destruct (fov_ok _ _ _ _ Hl1 Ef) as [Hc2 [Hcam [Hd2 Hk2]]]. cbn [fst snd] in H.
  assert (Hc4 : consistent (mag_stage cfg (snr_stage cfg f2))) by auto using mag_consistent, snr_consistent.
  assert (Hs5 := fading_subseq st2 (mag_stage cfg (snr_stage cfg f2))).
  assert (Hc5 := fading_consistent st2 _ Hc4).
  destruct (fading_stage prob drop cfg st2 (mag_stage cfg (snr_stage cfg f2))) as [st5 f5]. cbn [fst snd] in *.
  destruct (bright_stage pfilt cfg f5) as [f6|e] eqn:Eb; cbn [rmap] in H; [|discriminate]. inversion H; subst f6 st'. clear H.
  assert (Hr := bright_ok _ _ Hc5 Eb).
  assert (Hstem : forall o, In o (rows f2) -> stems efield pfield pfilt js pointings o).
  { intros o Ho. destruct (Hd2 o Ho) as [o' [Ho' Heq]]. cbn in Heq.
    assert (In (key o') (pairs js)).
    { rewrite <- Hk0. eapply subseq_in; [exact Hk1|]. exact (in_map key _ _ Ho'). }
    apply (proj1 (in_matched efield etime pfield pfilt pstart pointings _ _)) in H. cbn in H. injection Heq as H1 H2 H3. unfold stems. rewrite H1, H2. exact H. }
  rewrite mag_rows, snr_rows in Hs5. split.
  - intros o Ho. rewrite Hr in Ho. apply filter_In in Ho. destruct Ho as [Ho Hb].
    apply (subseq_in _ _ _ _ Hs5) in Ho. apply filter_In in Ho. destruct Ho as [Ho Hm].
    apply filter_In in Ho. destruct Ho as [Ho Hsn].
    split; [auto|]. split; [|auto]. apply passesb_spec; [destruct (Hstem o Ho); tauto|].
    unfold passesb. rewrite Hsn, Hm, Hb. reflexivity.
  - intro Hone. rewrite <- Hk0. eapply subseq_trans; [|exact Hk1]. eapply subseq_trans; [|apply Hk2; auto].
    apply subseq_map. rewrite Hr. eapply subseq_trans; [apply subseq_filter|].
    eapply subseq_trans; [exact Hs5|]. eapply subseq_trans; apply subseq_filter.
Qed.

Notation proc := (process eid efield etime pfield pfilt pstart pointings physics noise fsep prob gauss fov drop lsep tsort ldraws osort lweights cfg).

Hypothesis osorter : sorter (fun x : obs E P * bool * option Z => etime (o_eph (fst (fst x)))) osort.

Lemma link_ok : forall st f st' l,
  link_stage eid efield etime lsep tsort ldraws osort lweights cfg st f = Ok (st', l) ->
  (exists l', subseq l' (rows f) /\ Permutation (map fst l) l') /\
  (forall c, linking cfg = Some (c, true) -> forall o x, In (o, x) l -> exists d, x = Some (true, Some d)).
Proof.
  intros st f st' l H. unfold link_stage in H. destruct (linking cfg) as [[c dropu]|].
  2:{ inversion H; subst. split; [|discriminate]. exists (rows f). split; [apply subseq_refl|].
      rewrite map_map. cbn. rewrite map_id. auto. }
  destruct f as [|x0 f0]; cbn [nonempty] in H.
  { inversion H; subst. split; [exists []; split; [constructor|auto]|intros _ _ o x []]. }
  set (f := x0 :: f0) in *. clearbody f. clear x0 f0.
  destruct (PPLinkingFilter _ _ _ _ _ _ _ _ _ _ _ _) as [out|e] eqn:El in H; cbn [rmap] in H; [|discriminate].
  inversion H; subst. clear H.
  destruct (C05_rows_proof _ _ _ _ _ _ _ _ osorter _ _ _ _ _ El) as [_ [_ [l' [Hl1 Hl2]]]].
  split.
  - exists l'. split; auto. rewrite map_map. cbn. exact Hl2.
  - intros c' Hc' o x Hin. inversion Hc'; subst c' dropu.
    destruct (C05_proof _ _ _ _ _ _ _ _ osorter _ _ _ _ _ El) as [date [kept [Hk [Hp _]]]].
    apply in_map_iff in Hin. destruct Hin as [[[o1 b1] d1] [H1 H2]]. inversion H1; subst. cbn in *.
    apply (Permutation_in _ Hp) in H2. apply in_map_iff in H2. destruct H2 as [r [H2 H3]].
    apply (selected_in _ _ _ _ r Hk) in H3. destruct H3 as [_ H3]. specialize (H3 eq_refl). inversion H2; subst.
    destruct (date _) as [d|]; [eauto|congruence].
Qed.

Lemma process_rows : forall st js st' l, proc st js = Ok (st', Some l) ->
  (forall o x, In (o, x) l -> stems efield pfield pfilt js pointings o /\ passes pfilt cfg o /\ on_camera fsep cfg o /\
     (forall c, linking cfg = Some (c, true) -> exists d, x = Some (true, Some d))) /\
  (match cam cfg with CamFootprint on => forall o, length (on o) <= 1 | _ => True end ->
     exists kept, subseq kept (pairs js) /\ Permutation (map (fun r => key (fst r)) l) kept).
Proof.
  intros st js st' l H. unfold process in H. destruct js as [|j js0]; [inversion H|].
  set (js := j :: js0) in *. clearbody js.
  destruct (detect st js) as [[st1 f]|e] eqn:Ed; cbn [rbind] in H; [|discriminate].
  destruct (link_stage _ _ _ _ _ _ _ _ _ _ _) as [[st2 l2]|e] eqn:El in H; cbn [rmap fst snd] in H; [|discriminate].
  assert (l2 = l) by (inversion H; destruct l2; congruence). subst l2. clear H.
  destruct (detections_ok _ _ _ _ Ed) as [Hd Hsub].
  destruct (link_ok _ _ _ _ El) as [[l' [Hl1 Hl2]] Hlink]. split.
  - intros o x Hin.
    assert (Ho : In o (rows f)).
    { eapply subseq_in; [exact Hl1|]. eapply Permutation_in; [exact Hl2|]. change o with (fst (o, x)). apply in_map; auto. }
    destruct (Hd o Ho) as [H1 [H2 H3]]. split; auto. split; auto. split; auto. intros c Hc. eauto.
  - intro Hone. exists (map key l'). split.
    + eapply subseq_trans; [apply subseq_map; exact Hl1|auto].
    + rewrite <- (map_map fst key). apply Permutation_map. exact Hl2.
Qed.
End Round.
