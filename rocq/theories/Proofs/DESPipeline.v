From Coq Require Import String List Arith ZArith QArith Bool Lia Sorting.Sorted Sorting.Permutation.
From Verif Require Import Base.Prelude Base.Num Base.Frame Model.Filters Model.Linking Model.Readers
  Model.Driver Model.Pipeline Model.DES Model.DESPipeline
  Spec.Filters Spec.Linking Spec.Readers Spec.Driver Spec.Pipeline Spec.DES Spec.DESPipeline
  Proofs.Filters Proofs.Driver Proofs.Pipeline Proofs.Chunking Proofs.DES.
Import ListNotations.
Open Scope nat_scope.

Section DES.
Context {E P : Type}.
Variable eid : E -> string.
Variable efield : E -> Z.
Variable etime : E -> Q.
Variables ex ey ez : E -> Q.
Variables erarate edecrate : E -> Q.
Variable pfield : P -> Z.
Variable pfilt : P -> option string.
Variable pstart : P -> Q.
Variable pointings : list P.
Variable physics : E -> P -> columns.
Variable fsep : obs E P -> num.
Variable prob : obs E P -> num.
Variables fov drop : nat -> num.
Variable dsort : list (obs E P) -> list (obs E P).
Variable cfg : des_settings E P.
(** Unused parameters of the shared lemmas. *)
Let noise : num -> num -> (num * num * num) -> columns -> columns := fun _ _ _ c => c.
Let lsep : obs E P -> obs E P -> num := fun _ _ => NaN.
Let lweights : nat -> nat -> nat -> Z := fun _ _ _ => 0%Z.

Notation data := (fun o : obs E P => (o_eph o, o_pnt o, o_col o)).
Notation detect := (des_detections efield etime pfield pfilt pstart pointings physics fsep prob fov drop cfg).
Notation shared := (Model.Pipeline.detections efield etime pfield pfilt pstart pointings physics noise fsep prob fov fov drop (base cfg)).
Notation proc := (des_process eid efield etime ex ey ez erarate edecrate pfield pfilt pstart pointings physics fsep prob fov drop dsort cfg).
Notation cands := (candidates efield pfield pfilt physics pointings).

(** Without an SNR limit, and also with one when nothing is left for it, the
    stages before the distance cut are the shared ones. *)
Lemma des_shared : forall st js st' f, detect st js = Ok (st', f) -> shared st js = Ok (st', f).
Proof.
  intros st js st' f. unfold des_detections, Model.Pipeline.detections.
  destruct (PPMatchPointing _ _ _ _ _ _ _) as [m|e]; cbn [rbind]; [|discriminate].
  unfold randomize. cbn [randomization_on base fst snd].
  destruct (fov_stage _ _ _ _ _) as [[st2 f2]|e]; cbn [rbind fst snd]; [|discriminate].
  unfold des_snr_stage. destruct (s_snr cfg); [destruct f2; cbn [nonempty rbind]; [|discriminate]|cbn [rbind]]; auto.
Qed.

Lemma mask_consistent : forall p (f : frame (obs E P)), consistent f -> consistent (mask p f).
Proof.
  intros p f H l r r' H1 H2. unfold mask in *. apply filter_In in H1, H2. exact (H l r r' (proj1 H1) (proj1 H2)).
Qed.

Lemma des_consistent : forall st js st' f, detect st js = Ok (st', f) -> consistent f.
Proof.
  intros st js st' f H. unfold des_detections in H.
  destruct (PPMatchPointing _ _ _ _ _ _ _) as [m|e]; cbn [rbind] in H; [|discriminate].
  set (f0 := of_rows _) in *. assert (Hl0 : seq_labels f0) by apply seq_of_rows. clearbody f0.
  destruct (fov_stage _ _ _ _ _) as [[st2 f2]|e] eqn:Ef; cbn [rbind fst snd] in H; [|discriminate].
  destruct (fov_ok noise fsep prob fov fov drop lsep lweights (base cfg) _ _ _ _ Hl0 Ef) as [Hc2 _].
  assert (Hc3 : forall f3, des_snr_stage cfg f2 = Ok f3 -> consistent f3).
  { intros f3. unfold des_snr_stage. destruct (s_snr cfg); [destruct (nonempty f2)|]; intro G; inversion G; subst; auto. }
  destruct (des_snr_stage cfg f2) as [f3|e]; cbn [rbind] in H; [|discriminate]. specialize (Hc3 _ eq_refl).
  assert (Hc5 : consistent (snd (fading_stage prob drop (base cfg) st2 (mag_stage (base cfg) f3)))).
  { apply fading_consistent, mag_consistent; auto. }
  destruct (fading_stage _ _ _ _ _) as [st5 f5]. cbn [fst snd] in *.
  destruct (bright_stage _ _ _) as [f6|e] eqn:Eb in H; cbn [rmap] in H; [|discriminate]. injection H as <- <-.
  unfold bright_stage in Eb. destruct (bright (base cfg)) as [a|]; [|inversion Eb; subst; auto].
  destruct (nonempty f5); [|inversion Eb; subst; auto]. unfold PPBrightLimit in Eb. destruct a as [lim|lims|]; [| |discriminate].
  - destruct (drop_labels _ _) in Eb; cbn [rmap] in Eb; [|discriminate]. injection Eb as <-. apply seq_consistent, seq_reset.
  - destruct (bright_index _ _ _ _ _ _) in Eb; cbn [rbind] in Eb; [|discriminate].
    destruct (drop_labels _ _) in Eb; cbn [rmap] in Eb; [|discriminate]. injection Eb as <-. apply seq_consistent, seq_reset.
Qed.

(** ** The cuts of this survey as filters *)
Definition near_b (ctx : list (obs E P)) (o : obs E P) : bool :=
  match s_distance cfg with
  | Some (up, lo) =>
      existsb (fun r => String.eqb (eid (o_eph r)) (eid (o_eph o))
        && (nltb (distance_sq (fun o => Fin (ex (o_eph o))) (fun o => Fin (ey (o_eph o))) (fun o => Fin (ez (o_eph o))) r) (bound_km_sq up)
            && nltb (bound_km_sq lo) (distance_sq (fun o => Fin (ex (o_eph o))) (fun o => Fin (ey (o_eph o))) (fun o => Fin (ez (o_eph o))) r))) ctx
  | None => true
  end.
Definition slow_b (o : obs E P) : bool :=
  match s_motion cfg with
  | Some (up, lo) =>
      let m := nadd (nsqr (Fin (erarate (o_eph o)))) (nsqr (Fin (edecrate (o_eph o)))) in
      nltb m (nsqr up) && nltb (nsqr lo) m
  | None => true
  end.
Definition found_b (ctx : list (obs E P)) (o : obs E P) : bool :=
  negb (s_discovery cfg) ||
  discovered (fun o => etime (o_eph o)) (fun o => ex (o_eph o)) (fun o => ey (o_eph o)) (fun o => ez (o_eph o))
    (filter (fun q => String.eqb (eid (o_eph q)) (eid (o_eph o))) ctx).
Definition cut_distance (l : list (obs E P)) : list (obs E P) := filter (near_b l) l.
Definition cut_motion (l : list (obs E P)) : list (obs E P) := filter slow_b l.
Definition cut_found (l : list (obs E P)) : list (obs E P) := filter (found_b l) l.

Lemma distance_rows : forall f, rows (distance_stage eid ex ey ez cfg f) = cut_distance (rows f).
Proof.
  intro f. unfold distance_stage, cut_distance, near_b. destruct (s_distance cfg) as [[up lo]|].
  2:{ symmetry. apply filter_true. reflexivity. }
  destruct f as [|x f0]; [reflexivity|]. cbn [nonempty]. set (f := x :: f0). clearbody f.
  unfold distance_cut. rewrite rows_mask. apply filter_ext. intro o. rewrite rows_mask.
  induction (rows f) as [|r l IH]; [reflexivity|]. cbn [filter existsb].
  destruct (nltb (distance_sq _ _ _ r) _ && nltb _ (distance_sq _ _ _ r)) eqn:W.
  - cbn [map existsb]. rewrite andb_true_r, IH, String.eqb_sym. reflexivity.
  - rewrite andb_false_r. exact IH.
Qed.
Lemma distance_consistent : forall f, consistent f -> consistent (distance_stage eid ex ey ez cfg f).
Proof.
  intros f H. unfold distance_stage. destruct (s_distance cfg) as [[up lo]|]; auto. destruct (nonempty f); auto.
  apply mask_consistent; auto.
Qed.
Lemma motion_rows : forall f, consistent f -> exists g, motion_stage erarate edecrate cfg f = Ok g /\ rows g = cut_motion (rows f).
Proof.
  intros f H. unfold motion_stage, cut_motion, slow_b. destruct (s_motion cfg) as [[up lo]|].
  2:{ exists f. split; auto. symmetry. apply filter_true. reflexivity. }
  destruct f as [|x f0]; [exists []; auto|]. cbn [nonempty]. set (f := x :: f0) in *. clearbody f.
  destruct (motion_cut_rows _ (fun o : obs E P => Fin (erarate (o_eph o))) (fun o : obs E P => Fin (edecrate (o_eph o))) up lo f) as (g & H1 & H2).
  { intros l r r' A B. specialize (H l r r' A B). cbn in H. congruence. }
  exists g. split; auto. eapply selected_functional; [exact H2|]. apply selected_filter. intros o _. cbn beta.
  rewrite andb_true_iff, !nltb_lt. tauto.
Qed.
Lemma discovery_rows : forall f, (forall l, Permutation (dsort l) l) ->
  Permutation (discovery_stage eid etime ex ey ez dsort cfg f) (cut_found (rows f)).
Proof.
  intros f H. unfold discovery_stage, cut_found, found_b. destruct (s_discovery cfg); cbn [andb negb orb].
  - destruct f as [|x f0]; [constructor|]. cbn [nonempty]. set (f := x :: f0). clearbody f. rewrite DES.filter_rows. apply H.
  - rewrite filter_true; auto.
Qed.

Definition survivors (l : list (obs E P)) : list (obs E P) := cut_found (cut_motion (cut_distance l)).

Lemma process_detect : forall st js st' ol, (forall l, Permutation (dsort l) l) -> proc st js = Ok (st', ol) ->
  (js = [] /\ ol = None) \/ exists f, detect st js = Ok (st', f) /\ Permutation (rows_written ol) (survivors (rows f)).
Proof.
  intros st js st' ol Hd H. unfold des_process in H. destruct js as [|j js0]; [left; inversion H; auto|right].
  set (js := j :: js0) in *. clearbody js.
  destruct (detect st js) as [[st1 f]|e] eqn:Ed; cbn [rbind fst snd] in H; [|discriminate].
  assert (Hc := des_consistent _ _ _ _ Ed).
  destruct (motion_rows _ (distance_consistent _ Hc)) as (g & Hg & Hr). rewrite Hg in H. cbn [rmap] in H.
  injection H as <- <-. exists f. split; auto. unfold survivors. rewrite <- distance_rows, <- Hr.
  eapply perm_trans; [|apply discovery_rows; exact Hd]. destruct (discovery_stage _ _ _ _ _ _ _ _); reflexivity.
Qed.

(** The filters in the words of the specification. *)
Lemma near_spec : forall ctx o, sane_bounds (s_distance cfg) -> In o ctx ->
  (near_b ctx o = true <-> exists o', In o' ctx /\ same_object eid o' o /\ near_enough ex ey ez cfg o').
Proof.
  intros ctx o S Ho. unfold near_b, near_enough. destruct (s_distance cfg) as [[up lo]|].
  - destruct (S _ _ eq_refl) as (u & l & -> & -> & Hu & Hl). rewrite existsb_exists. split.
    + intros (r & Hr & Hb). exists r. rewrite !andb_true_iff in Hb. destruct Hb as (H1 & H2 & H3). split; auto.
      split; [apply String.eqb_eq; auto|]. intros u' l' Eq. injection Eq as <- <-.
      apply nltb_lt in H2, H3. apply distance_sq_iff; auto.
    + intros (r & Hr & H1 & H2). exists r. split; auto. rewrite !andb_true_iff, String.eqb_eq. split; auto.
      specialize (H2 _ _ eq_refl). apply distance_sq_iff in H2; auto. rewrite !nltb_lt. exact H2.
  - split; auto. intros _. exists o. split; auto. split; [reflexivity|discriminate].
Qed.
Lemma slow_spec : forall o, sane_bounds (s_motion cfg) -> (slow_b o = true <-> slow_enough erarate edecrate cfg o).
Proof.
  intros o S. unfold slow_b, slow_enough. destruct (s_motion cfg) as [[up lo]|]; [|split; [discriminate|auto]].
  destruct (S _ _ eq_refl) as (u & l & -> & -> & Hu & Hl). rewrite andb_true_iff, !nltb_lt. split.
  - intros H u' l' Eq. injection Eq as <- <-. apply rate_sq_iff; auto.
  - intros H. specialize (H _ _ eq_refl). apply rate_sq_iff in H; auto.
Qed.

(** ** Discovery *)
Lemma times_perm : forall a b, Permutation a b -> Permutation (times etime a) (times (P := P) etime b).
Proof. intros. apply Permutation_map; auto. Qed.
Lemma window_perm : forall (a b : list (obs E P)) w, Permutation a b -> is_window (distances2 ex ey ez a) w -> is_window (distances2 ex ey ez b) w.
Proof.
  intros a b w H. assert (I : forall d, In d (distances2 ex ey ez a) <-> In d (distances2 ex ey ez b)).
  { intro d. unfold distances2. split; apply Permutation_in; [|symmetry]; apply Permutation_map; auto. }
  intros [(-> & W)|(-> & d & D & W)]; [left|right]; split; auto.
  - intros d D. apply W, I, D.
  - exists d. split; auto. apply I; auto.
Qed.
Notation seen := (discovered (fun o : obs E P => etime (o_eph o)) (fun o => ex (o_eph o)) (fun o => ey (o_eph o)) (fun o => ez (o_eph o))).
Lemma seen_sound : forall a b, Permutation a b -> seen a = true -> discoverable etime ex ey ez b.
Proof.
  intros a b H S ns w G W.
  assert (G' : grouped ns (times etime a)).
  { destruct G as (G1 & G2). split; auto. rewrite G1. symmetry. apply times_perm; auto. }
  assert (W' := window_perm b a w (Permutation_sym H) W).
  destruct (discovered_sound _ _ _ _ a ns w G' W' S) as [?|(? & L & ?)]; auto. right. split; auto. split; auto.
  eapply long_arc_perm; [|exact L]. apply times_perm; auto.
Qed.
Lemma seen_complete : forall a, surely_discoverable etime ex ey ez a -> seen a = true.
Proof. intros a (ns & w & G & W & H). eapply discovered_complete; eauto. Qed.

Lemma filter_perm : forall A (p : A -> bool) l l', Permutation l l' -> Permutation (filter p l) (filter p l').
Proof.
  intros A p l l' H. induction H; cbn.
  - constructor.
  - destruct (p x); auto.
  - destruct (p x), (p y); auto using perm_swap.
  - eapply perm_trans; eauto.
Qed.
Lemma same_filter : forall o l mine, selected (fun r => same_object eid r o) l mine ->
  mine = filter (fun q : obs E P => String.eqb (eid (o_eph q)) (eid (o_eph o))) l.
Proof.
  intros o l mine H. eapply selected_functional; [exact H|]. apply selected_filter. intros r _. apply String.eqb_eq.
Qed.

(** A filter that decides by object: what is kept of one object. *)
Lemma found_own : forall l o, In o (cut_found l) ->
  filter (fun q : obs E P => String.eqb (eid (o_eph q)) (eid (o_eph o))) (cut_found l)
  = filter (fun q => String.eqb (eid (o_eph q)) (eid (o_eph o))) l.
Proof.
  intros l o Ho. unfold cut_found in *. apply filter_In in Ho. destruct Ho as [_ Ho].
  generalize l at 2 3. intro l2. induction l2 as [|q l2 IH]; [reflexivity|]. cbn [filter].
  destruct (String.eqb (eid (o_eph q)) (eid (o_eph o))) eqn:Eq.
  - assert (found_b l q = true).
    { unfold found_b in *. apply String.eqb_eq in Eq. rewrite Eq. exact Ho. }
    rewrite H. cbn [filter]. rewrite Eq, IH. reflexivity.
  - destruct (found_b l q); cbn [filter]; [rewrite Eq|]; exact IH.
Qed.

Hypothesis dsorter : forall l, Permutation (dsort l) l.
(** ** Objects do not influence each other *)
Notation only p l := (filter (fun o : obs E P => p (eid (o_eph o))) l).
Lemma filter_swap : forall A (p q : A -> bool) l, filter p (filter q l) = filter q (filter p l).
Proof.
  intros A p q l. induction l as [|x l IH]; [reflexivity|]. cbn [filter].
  destruct (p x) eqn:Ep, (q x) eqn:Eq; cbn [filter]; rewrite ?Ep, ?Eq, IH; reflexivity.
Qed.
Lemma near_only : forall p l, cut_distance (only p l) = only p (cut_distance l).
Proof.
  intros p l. unfold cut_distance. rewrite (filter_swap _ _ (near_b l)). apply filter_ext_in. intros o Ho. apply filter_In in Ho.
  destruct Ho as [_ Ho]. unfold near_b. destruct (s_distance cfg) as [[up lo]|]; auto.
  clear - Ho. induction l as [|r l IH]; [reflexivity|]. cbn [filter].
  destruct (p (eid (o_eph r))) eqn:Er; cbn [existsb]; rewrite IH; auto.
  destruct (String.eqb_spec (eid (o_eph r)) (eid (o_eph o))) as [Eq|]; auto. congruence.
Qed.
Lemma found_only : forall p l, cut_found (only p l) = only p (cut_found l).
Proof.
  intros p l. unfold cut_found. rewrite (filter_swap _ _ (found_b l)). apply filter_ext_in. intros o Ho.
  apply filter_In in Ho. destruct Ho as [_ Ho]. unfold found_b. f_equal. f_equal.
  clear - Ho. induction l as [|r l IH]; [reflexivity|]. cbn [filter].
  destruct (p (eid (o_eph r))) eqn:Er; cbn [filter]; rewrite IH; auto.
  destruct (String.eqb_spec (eid (o_eph r)) (eid (o_eph o))) as [Eq|]; auto. congruence.
Qed.
Lemma survivors_only : forall p l, survivors (only p l) = only p (survivors l).
Proof.
  intros. unfold survivors. rewrite near_only. unfold cut_motion. rewrite filter_swap. apply found_only.
Qed.
Definition own (js : list E) : list (obs E P) :=
  survivors (flat_map (yields efield pfield pfilt pointings physics fsep (base cfg)) js).
Lemma own_only : forall p js, own (filter (fun e => p (eid e)) js) = only p (own js).
Proof.
  intros p js. unfold own. rewrite <- survivors_only. f_equal. induction js as [|j js IH]; [reflexivity|].
  cbn [filter flat_map]. rewrite filter_app, <- IH.
  assert (Hj : only p (yields efield pfield pfilt pointings physics fsep (base cfg) j)
     = if p (eid j) then yields efield pfield pfilt pointings physics fsep (base cfg) j else []).
  { destruct (p (eid j)) eqn:Ep.
    - rewrite (filter_ext_in _ (fun _ => true)); [apply filter_true; auto|]. intros o Ho. apply (yields_oid eid) in Ho. rewrite Ho. auto.
    - rewrite (filter_ext_in _ (fun _ => false)).
      + clear. induction (yields _ _ _ _ _ _ _ j); auto.
      + intros o Ho. apply (yields_oid eid) in Ho. rewrite Ho. auto. }
  rewrite Hj. destruct (p (eid j)); reflexivity.
Qed.
Lemma process_own : deterministic (base cfg) -> forall st js st' ol, proc st js = Ok (st', ol) -> Permutation (rows_written ol) (own js).
Proof.
  intros det st js st' ol H. destruct (process_detect _ _ _ _ dsorter H) as [(-> & ->)|(f & Hf & Hp)]; [constructor|].
  apply des_shared in Hf. unfold own.
  rewrite <- (det_yields efield etime pfield pfilt pstart pointings physics noise fsep prob fov fov drop lsep lweights (base cfg) det _ _ _ _ Hf). exact Hp.
Qed.

Hypothesis sane_distance : sane_bounds (s_distance cfg).
Hypothesis sane_motion : sane_bounds (s_motion cfg).

Lemma cuts : forall st js st' ol, proc st js = Ok (st', ol) -> forall o, In o (rows_written ol) ->
  stems efield pfield pfilt js pointings o /\ passes pfilt (base cfg) o /\ on_camera fsep (base cfg) o
  /\ slow_enough erarate edecrate cfg o
  /\ (exists o', stems efield pfield pfilt js pointings o' /\ passes pfilt (base cfg) o' /\ on_camera fsep (base cfg) o'
        /\ same_object eid o' o /\ near_enough ex ey ez cfg o')
  /\ (s_discovery cfg = true -> forall mine, selected (fun r => same_object eid r o) (rows_written ol) mine ->
        discoverable etime ex ey ez mine).
Proof.
  intros st js st' ol H o Ho. destruct (process_detect _ _ _ _ dsorter H) as [(-> & ->)|(f & Hf & Hp)]; [destruct Ho|].
  apply des_shared in Hf. destruct (detections_ok efield etime pfield pfilt pstart pointings physics noise fsep prob fov fov drop lsep lweights (base cfg) _ _ _ _ Hf) as [Hd _].
  assert (Ho' := Permutation_in _ Hp Ho). unfold survivors in *. set (D2 := cut_distance (rows f)) in *.
  set (D3 := cut_motion D2) in *.
  assert (H3 : In o D3) by (unfold cut_found in Ho'; apply filter_In in Ho'; tauto).
  assert (H2 : In o D2 /\ slow_b o = true) by (apply filter_In; exact H3).
  destruct H2 as [H2 Hslow]. assert (H1 : In o (rows f) /\ near_b (rows f) o = true) by (apply filter_In; exact H2).
  destruct H1 as [H1 Hnear]. destruct (Hd o H1) as (A1 & A2 & A3).
  split; auto. split; auto. split; auto. split; [apply slow_spec; auto|].
  apply near_spec in Hnear; auto. destruct Hnear as (o' & B1 & B2 & B3). destruct (Hd o' B1) as (C1 & C2 & C3).
  split; [exists o'; auto 10|].
  intros Hon mine Hmine. apply same_filter in Hmine. subst mine.
  unfold cut_found in Ho'. apply filter_In in Ho' as Hfound. destruct Hfound as [_ Hfound]. unfold found_b in Hfound.
  rewrite Hon in Hfound. cbn [negb orb] in Hfound.
  eapply seen_sound; [|exact Hfound]. symmetry.
  eapply perm_trans; [apply filter_perm; exact Hp|]. rewrite found_own; auto.
Qed.

(** ** Without random numbers *)
Hypothesis det : deterministic (base cfg).

Lemma survivors_spec : forall D1,
    selected (fun o => exists o', In o' D1 /\ same_object eid o' o /\ near_enough ex ey ez cfg o') D1 (cut_distance D1) /\
    selected (slow_enough erarate edecrate cfg) (cut_distance D1) (cut_motion (cut_distance D1)) /\
    selected (fun o => s_discovery cfg = true -> forall mine,
       selected (fun r => same_object eid r o) (cut_motion (cut_distance D1)) mine -> seen mine = true)
      (cut_motion (cut_distance D1)) (survivors D1).
Proof.
  intro D1. split; [|split].
  - apply selected_filter. intros o Ho. apply near_spec; auto.
  - apply selected_filter. intros o Ho. apply slow_spec; auto.
  - apply selected_filter. intros o Ho. unfold found_b. rewrite orb_true_iff, negb_true_iff.
    destruct (s_discovery cfg).
    + split.
      * intros [D|D]; [discriminate|]. intros _ mine M. apply same_filter in M. subst mine. exact D.
      * intro D. right. apply (D eq_refl). apply selected_filter. intros r _. apply String.eqb_eq.
    + split; auto. discriminate.
Qed.

Lemma exact : forall st js st' ol, proc st js = Ok (st', ol) ->
  exists found : list (obs E P) -> Prop,
    (forall mine, found mine -> discoverable etime ex ey ez mine) /\
    (forall mine, surely_discoverable etime ex ey ez mine -> found mine) /\
  exists D1 D2 D3 D4,
    selected (fun o => passes pfilt (base cfg) o /\ on_camera fsep (base cfg) o)
      (flat_map (sightings (base cfg)) (cands js)) D1 /\
    selected (fun o => exists o', In o' D1 /\ same_object eid o' o /\ near_enough ex ey ez cfg o') D1 D2 /\
    selected (slow_enough erarate edecrate cfg) D2 D3 /\
    selected (fun o => s_discovery cfg = true -> forall mine, selected (fun r => same_object eid r o) D3 mine -> found mine) D3 D4 /\
    Permutation (rows_written ol) D4.
Proof.
  intros st js st' ol H. exists (fun mine => seen mine = true).
  split; [intros mine; apply seen_sound; reflexivity|]. split; [exact seen_complete|].
  assert (G : exists D1, selected (fun o => passes pfilt (base cfg) o /\ on_camera fsep (base cfg) o)
      (flat_map (sightings (base cfg)) (cands js)) D1 /\ Permutation (rows_written ol) (survivors D1)).
  { destruct (process_detect _ _ _ _ dsorter H) as [(-> & ->)|(f & Hf & Hp)].
    { exists []. split; constructor. }
    exists (rows f). split; auto. clear Hp H. apply des_shared in Hf.
    rewrite (det_rows efield etime pfield pfilt pstart pointings physics noise fsep prob fov fov drop lsep lweights (base cfg) det _ _ _ _ Hf).
    assert (Hfilt : forall o, In o (cands js) -> pfilt (o_pnt o) <> None).
    { intros o Ho. unfold candidates in Ho. apply in_flat_map in Ho. destruct Ho as [e [_ Ho]].
      apply in_map_iff in Ho. destruct Ho as [p [<- Ho]]. apply filter_In in Ho. destruct Ho as [_ Ho].
      apply andb_prop in Ho. destruct Ho as [_ Ho]. cbn. destruct (pfilt p); congruence. }
    replace (filter (passesb pfilt (base cfg)) (flat_map (cam_row fsep (base cfg)) (cands js)))
      with (filter (fun o => match cam (base cfg) with CamCircle (Some r) _ => negb (truthy (Some r)) || nltb (fsep o) r | _ => true end
                             && passesb pfilt (base cfg) o) (flat_map (sightings (base cfg)) (cands js))).
    - apply selected_filter. intros o Ho.
      assert (Hf1 : pfilt (o_pnt o) <> None).
      { apply in_flat_map in Ho. destruct Ho as (o0 & Ho0 & Ho). specialize (Hfilt o0 Ho0).
        unfold sightings in Ho. destruct (cam (base cfg)) as [|on|on|radius fill].
        - destruct Ho as [<-|[]]; auto.
        - apply in_map_iff in Ho. destruct Ho as (d & <- & _). auto.
        - destruct (on [o0] 0); [destruct Ho as [<-|[]]; auto|destruct Ho].
        - destruct Ho as [<-|[]]; auto. }
      rewrite andb_true_iff, passesb_spec by auto.
      assert ((match cam (base cfg) with CamCircle (Some r) _ => negb (truthy (Some r)) || nltb (fsep o) r | _ => true end) = true
            <-> on_camera fsep (base cfg) o); [|tauto].
      apply in_flat_map in Ho. destruct Ho as (o0 & Ho0 & Ho). unfold sightings in Ho.
      unfold on_camera. destruct (cam (base cfg)) as [|on|on|[r|] fill]; try solve [split; auto].
      + apply in_map_iff in Ho. destruct Ho as (d & <- & Hd). split; auto. intros _. exists d, o0. auto.
      + split; auto. intros _. destruct (on [o0] 0) as [d|]; [destruct Ho as [<-|[]]; exists d; reflexivity|destruct Ho].
      + rewrite orb_true_iff, nltb_lt, negb_true_iff.
        assert (truthy (Some r) = false <-> exists q, r = Fin q /\ (q == 0)%Q); [|tauto].
        split; [apply truthy_false|]. intros [q [-> Hq]]. unfold truthy. cbn.
        apply Qeq_bool_iff in Hq. rewrite Hq. reflexivity.
    - clear. induction (cands js) as [|o l IH]; [reflexivity|]. cbn [flat_map]. rewrite !filter_app, IH. f_equal.
      unfold cam_row, sightings. destruct (cam (base cfg)) as [|on|on|[r|] fill]; cbn [andb]; auto.
      + cbn [filter]. destruct (negb _ || _); reflexivity. }
  destruct G as (D1 & HD & Hp). exists D1, (cut_distance D1), (cut_motion (cut_distance D1)), (survivors D1).
  destruct (survivors_spec D1) as (H1 & H2 & H3). auto 6.
Qed.

(** All stages, also with the fading function and the fill factor. *)
Lemma stages : forall st js st' ol, proc st js = Ok (st', ol) ->
  exists found : list (obs E P) -> Prop,
    (forall mine, found mine -> discoverable etime ex ey ez mine) /\
    (forall mine, surely_discoverable etime ex ey ez mine -> found mine) /\
  exists on above caught D1 D2 D3 D4,
    camera_keeps fsep fov (n_fov st) (base cfg) (cands js) on /\
    (s_snr cfg <> None -> on = []) /\
    selected (fun o => forall lim, s_mag cfg = Some lim -> num_lt (k_trailed (o_col o)) lim) on above /\
    (s_fading cfg = false -> caught = above) /\
    (s_fading cfg = true -> selected_pos (fun i o => num_le (drop (n_drop st + i)) (prob o)) 0 above caught) /\
    selected (fun o => ~ saturated pfilt (base cfg) o) caught D1 /\
    selected (fun o => exists o', In o' D1 /\ same_object eid o' o /\ near_enough ex ey ez cfg o') D1 D2 /\
    selected (slow_enough erarate edecrate cfg) D2 D3 /\
    selected (fun o => s_discovery cfg = true -> forall mine, selected (fun r => same_object eid r o) D3 mine -> found mine) D3 D4 /\
    Permutation (rows_written ol) D4.
Proof.
  intros st js st' ol H. exists (fun mine => seen mine = true).
  split; [intros mine; apply seen_sound; reflexivity|]. split; [exact seen_complete|].
  destruct (process_detect _ _ _ _ dsorter H) as [(-> & ->)|(f & Hf & Hp)].
  { exists [], [], [], [], [], [], []. split.
    { destruct (camera_stage fsep prob fov noise (base cfg) st [] st [] eq_refl eq_refl) as [G _]. exact G. }
    repeat split; auto; constructor. }
  unfold des_detections in Hf.
  destruct (PPMatchPointing _ _ _ _ _ _ _) as [m|e] eqn:Em in Hf; cbn [rbind] in Hf; [|discriminate].
  apply match_ok in Em. destruct Em as [-> _].
  set (f0 := of_rows (map (measure physics) (matched efield pfield pfilt pointings js))) in *.
  assert (Hl0 : seq_labels f0) by apply seq_of_rows.
  assert (Hr0 : rows f0 = cands js).
  { unfold f0. rewrite rows_of_rows. unfold matched, candidates, partners. rewrite map_flat_map.
    apply flat_map_ext_in. intros e _. rewrite map_map. reflexivity. }
  clearbody f0.
  destruct (fov_stage _ _ _ _ _) as [[st2 f2]|e] eqn:Ef; cbn [rbind fst snd] in Hf; [|discriminate].
  destruct (camera_stage fsep prob fov noise (base cfg) _ _ _ _ Hl0 Ef) as [HD2 Hn3]. rewrite Hr0 in HD2.
  destruct (fov_ok noise fsep prob fov fov drop lsep lweights (base cfg) _ _ _ _ Hl0 Ef) as [Hc2 [_ [Hd2 _]]].
  assert (Hs : des_snr_stage cfg f2 = Ok f2 /\ (s_snr cfg <> None -> rows f2 = [])).
  { unfold des_snr_stage in *. destruct (s_snr cfg); [|split; [auto|congruence]].
    destruct f2; [auto|]. cbn in Hf. discriminate. }
  destruct Hs as [Hs1 Hs2]. rewrite Hs1 in Hf. cbn [rbind] in Hf.
  assert (Hc4 : consistent (mag_stage (base cfg) f2)) by (apply mag_consistent; auto).
  assert (Hc5 := fading_consistent prob drop (base cfg) st2 _ Hc4).
  assert (Hfo : s_fading cfg = false -> rows (snd (fading_stage prob drop (base cfg) st2 (mag_stage (base cfg) f2)))
                 = rows (mag_stage (base cfg) f2)).
  { intro Hx. unfold fading_stage. cbn [fading_on base]. rewrite Hx. reflexivity. }
  assert (Hfi : s_fading cfg = true -> selected_pos (fun i o => num_le (drop (n_drop st + i)) (prob o)) 0
     (rows (mag_stage (base cfg) f2)) (rows (snd (fading_stage prob drop (base cfg) st2 (mag_stage (base cfg) f2))))).
  { intro Hx. unfold fading_stage. cbn [fading_on base]. rewrite Hx, Hn3. cbn [andb].
    destruct (mag_stage (base cfg) f2) as [|x g]; cbn [nonempty snd]; [constructor|].
    apply (fading_selected _ prob (fun i => drop (n_drop st + i))). }
  assert (Hs5 := fading_subseq prob drop (base cfg) st2 (mag_stage (base cfg) f2)).
  destruct (fading_stage prob drop (base cfg) st2 (mag_stage (base cfg) f2)) as [st5 f5]. cbn [fst snd] in *.
  destruct (bright_stage pfilt (base cfg) f5) as [f6|e] eqn:Eb; cbn [rmap] in Hf; [|discriminate]. injection Hf as <- <-.
  assert (Hfilt : forall o, In o (rows f5) -> pfilt (o_pnt o) <> None).
  { intros o Ho. apply (subseq_in _ _ _ _ Hs5) in Ho. rewrite mag_rows in Ho. apply filter_In in Ho.
    destruct Ho as [Ho _]. destruct (Hd2 o Ho) as [o0 [Ho0 Heq]]. cbn in Heq. injection Heq as _ -> _. rewrite Hr0 in Ho0.
    unfold candidates in Ho0. apply in_flat_map in Ho0. destruct Ho0 as [e [_ Ho0]].
    apply in_map_iff in Ho0. destruct Ho0 as [p [<- Ho0]]. apply filter_In in Ho0. destruct Ho0 as [_ Ho0].
    apply andb_prop in Ho0. destruct Ho0 as [_ Ho0]. cbn. destruct (pfilt p); congruence. }
  exists (rows f2), (rows (mag_stage (base cfg) f2)), (rows f5), (rows f6), (cut_distance (rows f6)),
    (cut_motion (cut_distance (rows f6))), (survivors (rows f6)).
  split; [exact HD2|]. split; [exact Hs2|]. split.
  { rewrite mag_rows. apply selected_filter. intros o _. cbn [mag_limit base]. destruct (s_mag cfg) as [b|].
    - rewrite nltb_lt. split; [intros G lim Hx; injection Hx as <-; auto|auto].
    - split; auto. discriminate. }
  split; [exact Hfo|]. split; [exact Hfi|]. split.
  { rewrite (bright_ok _ _ _ _ Hc5 Eb). apply selected_filter. intros o Ho. rewrite negb_true_iff, <- not_true_iff_false.
    assert (Hsat : is_saturated pfilt (base cfg) o = true <-> saturated pfilt (base cfg) o) by (eapply is_saturated_spec; eauto).
    rewrite Hsat. tauto. }
  destruct (survivors_spec (rows f6)) as (H1 & H2 & H3). auto.
Qed.

End DES.

(** ** Whole runs: a round whose output is made object by object *)
Lemma chunk_all : forall E R S O (oid : O -> string) (local : list (joined E R) -> list O)
    (process : S -> list (joined E R) -> result (S * option (list O)))
    (EPH : list (string * E)) ephem (aux0 : nat -> option nat -> result (list (string * R))) others tables T,
  (forall p js, local (filter (fun j => p (fst (fst j))) js) = filter (fun o => p (oid o)) (local js)) ->
  (forall st js st' ol, process st js = Ok (st', ol) -> Permutation (rows_written ol) (local js)) ->
  exact_reader EPH ephem -> (forall s n, aux0 s n = Ok (slice s n T)) ->
  Forall2 exact_reader tables others ->
  NoDup (map fst T) -> (forall X, In X tables -> NoDup (map fst X)) ->
  (forall i, In i (map fst T) -> forall X, In X tables -> In i (map fst X)) ->
  forall k rounds s0 tr, 0 < k ->
  run (read_external aux0 ephem others) process rounds (Z.of_nat (length T)) (Z.of_nat k) s0 = (Done, tr) ->
  Permutation (concat (written tr)) (local (map (@join1 E R tables T) (filter (fun e => existsb (String.eqb (fst e)) (map fst T)) EPH))).
Proof.
  intros E R S O oid local process EPH ephem aux0 others tables T Hown Hp He Ha Hoth HT HX Hi.
  set (J := @join1 E R tables T).
  set (inb := fun (b : list string) (i : string) => existsb (String.eqb i) b).
  set (ALL := local (map J (filter (fun e => inb (map fst T) (fst e)) EPH))).
  intros k rounds s0 tr Hk Hrun. change (Permutation (concat (written tr)) ALL).
  destruct (C13_external_proof _ _ _ _ EPH ephem aux0 others tables T _ k He Ha Hoth HT HX Hi Hk _ _ _ _ Hrun)
    as [blocks [HF [Hcut [Hcat _]]]].
  assert (Hst := trace_steps _ _ _ _ _ _ _ _ _ _ _ Hrun).
  rewrite concat_written.
  assert (Hsub : forall b, In b blocks -> forall r, In r b -> In r T).
  { intros b Hb r Hr. rewrite <- Hcat. apply in_concat. eauto. }
  assert (Hfm : forall p l, filter (fun j => p (fst (fst j))) (map J l) = map J (filter (fun e => p (fst e)) l)).
  { intros p l. induction l as [|e l IHl]; [reflexivity|]. cbn [map filter]. change (fst (fst (J e))) with (fst e).
    destruct (p (fst e)); cbn [map]; rewrite IHl; reflexivity. }
  assert (Hblock : forall b, (forall r, In r b -> In r T) ->
     local (map J (filter (fun e => inb (map fst b) (fst e)) EPH)) = filter (fun o => inb (map fst b) (oid o)) ALL).
  { intros b Hb. unfold ALL. rewrite <- Hown, Hfm. f_equal. f_equal. clear - Hb.
    induction EPH as [|e l IHl]; [reflexivity|]. cbn [filter].
    destruct (inb (map fst T) (fst e)) eqn:Et; cbn [filter]; rewrite IHl; auto.
    destruct (inb (map fst b) (fst e)) eqn:Eb; auto. exfalso. unfold inb in *. apply existsb_exists in Eb.
    destruct Eb as (i & Ib & Eq). apply String.eqb_eq in Eq. apply not_true_iff_false in Et. apply Et.
    apply existsb_exists. exists i. split; [|apply String.eqb_eq; auto]. apply in_map_iff in Ib.
    destruct Ib as (r & Er & Hr). apply in_map_iff. eauto. }
  assert (Hout : Permutation (flat_map (fun r => rows_written (snd r)) tr)
     (flat_map (fun b => filter (fun o => inb (map fst b) (oid o)) ALL) blocks)).
  { clear Hrun Hcut Hcat. revert blocks HF Hsub. induction tr as [|[js ol] tr IH]; intros blocks HF Hsub.
    - inversion HF; subst. constructor.
    - inversion HF as [|b js' bl tr' Hb HF']; subst. inversion Hst as [|? ? [s [s' Hpr]] Hst']; subst.
      cbn [flat_map snd fst] in *. apply Permutation_app.
      + eapply perm_trans; [exact (Hp _ _ _ _ Hpr)|]. apply Permutation_refl'.
        etransitivity; [|apply (Hblock b); apply Hsub; left; auto]. f_equal.
        eapply (block_rows EPH tables T HT HX b js); [|exact Hb]. apply Hsub. left; auto.
      + apply IH; auto. intros b' Hb'. apply Hsub. right; auto. }
  eapply perm_trans; [exact Hout|].
  assert (Hall : filter (fun o => inb (map fst T) (oid o)) ALL = ALL).
  { rewrite <- Hblock by auto. reflexivity. }
  symmetry. eapply perm_trans; [apply Permutation_refl'; symmetry; exact Hall|].
  unfold inb. replace (map fst T) with (concat (map (map fst) blocks)) by (rewrite <- concat_map, Hcat; reflexivity).
  eapply perm_trans.
  - apply (blocks_perm _ oid (map (map fst) blocks) ALL). rewrite <- concat_map, Hcat. auto.
  - rewrite flat_map_map. reflexivity.
Qed.
Lemma chunk_generic : forall E R S O (oid : O -> string) (local : list (joined E R) -> list O)
    (process : S -> list (joined E R) -> result (S * option (list O)))
    (EPH : list (string * E)) ephem (aux0 : nat -> option nat -> result (list (string * R))) others tables T,
  (forall p js, local (filter (fun j => p (fst (fst j))) js) = filter (fun o => p (oid o)) (local js)) ->
  (forall st js st' ol, process st js = Ok (st', ol) -> Permutation (rows_written ol) (local js)) ->
  exact_reader EPH ephem -> (forall s n, aux0 s n = Ok (slice s n T)) ->
  Forall2 exact_reader tables others ->
  NoDup (map fst T) -> (forall X, In X tables -> NoDup (map fst X)) ->
  (forall i, In i (map fst T) -> forall X, In X tables -> In i (map fst X)) ->
  exists catalogue, forall k rounds s0 tr, 0 < k ->
  run (read_external aux0 ephem others) process rounds (Z.of_nat (length T)) (Z.of_nat k) s0 = (Done, tr) ->
  Permutation (concat (written tr)) catalogue.
Proof. intros. eexists. intros. eapply chunk_all; eauto. Qed.

(** ** Closed statements *)
Lemma C78_cuts_proof : forall E P (eid : E -> string) (efield : E -> Z) (etime ex ey ez erarate edecrate : E -> Q)
    (pfield : P -> Z) (pfilt : P -> option string) (pstart : P -> Q) pointings physics fsep prob fov drop dsort (cfg : des_settings E P),
  (forall l, Permutation (dsort l) l) -> sane_bounds (s_distance cfg) -> sane_bounds (s_motion cfg) ->
  forall st js st' ol, des_process eid efield etime ex ey ez erarate edecrate pfield pfilt pstart pointings physics fsep prob
       fov drop dsort cfg st js = Ok (st', ol) ->
  forall o, In o (rows_written ol) ->
    stems efield pfield pfilt js pointings o /\ passes pfilt (requested cfg) o /\ on_camera fsep (requested cfg) o
    /\ slow_enough erarate edecrate cfg o
    /\ (exists o', stems efield pfield pfilt js pointings o' /\ passes pfilt (requested cfg) o' /\ on_camera fsep (requested cfg) o'
          /\ same_object eid o' o /\ near_enough ex ey ez cfg o')
    /\ (s_discovery cfg = true -> forall mine, selected (fun r => same_object eid r o) (rows_written ol) mine ->
          discoverable etime ex ey ez mine).
Proof. intros. eapply cuts; eauto. Qed.

Lemma C78_exact_proof : forall E P (eid : E -> string) (efield : E -> Z) (etime ex ey ez erarate edecrate : E -> Q)
    (pfield : P -> Z) (pfilt : P -> option string) (pstart : P -> Q) pointings physics fsep prob fov drop dsort (cfg : des_settings E P),
  (forall l, Permutation (dsort l) l) -> sane_bounds (s_distance cfg) -> sane_bounds (s_motion cfg) ->
  deterministic (requested cfg) ->
  forall st js st' ol, des_process eid efield etime ex ey ez erarate edecrate pfield pfilt pstart pointings physics fsep prob
       fov drop dsort cfg st js = Ok (st', ol) ->
  exists found : list (obs E P) -> Prop,
    (forall mine, found mine -> discoverable etime ex ey ez mine) /\
    (forall mine, surely_discoverable etime ex ey ez mine -> found mine) /\
  exists D1 D2 D3 D4,
    selected (fun o => passes pfilt (requested cfg) o /\ on_camera fsep (requested cfg) o)
      (flat_map (sightings (requested cfg)) (candidates efield pfield pfilt physics pointings js)) D1 /\
    selected (fun o => exists o', In o' D1 /\ same_object eid o' o /\ near_enough ex ey ez cfg o') D1 D2 /\
    selected (slow_enough erarate edecrate cfg) D2 D3 /\
    selected (fun o => s_discovery cfg = true -> forall mine, selected (fun r => same_object eid r o) D3 mine -> found mine) D3 D4 /\
    Permutation (rows_written ol) D4.
Proof. intros. eapply exact; eauto. Qed.

Lemma C78_stages_proof : forall E P (eid : E -> string) (efield : E -> Z) (etime ex ey ez erarate edecrate : E -> Q)
    (pfield : P -> Z) (pfilt : P -> option string) (pstart : P -> Q) pointings physics fsep prob fov drop dsort (cfg : des_settings E P),
  (forall l, Permutation (dsort l) l) -> sane_bounds (s_distance cfg) -> sane_bounds (s_motion cfg) ->
  forall st js st' ol, des_process eid efield etime ex ey ez erarate edecrate pfield pfilt pstart pointings physics fsep prob
       fov drop dsort cfg st js = Ok (st', ol) ->
  exists found : list (obs E P) -> Prop,
    (forall mine, found mine -> discoverable etime ex ey ez mine) /\
    (forall mine, surely_discoverable etime ex ey ez mine -> found mine) /\
  exists on above caught D1 D2 D3 D4,
    camera_keeps fsep fov (n_fov st) (requested cfg) (candidates efield pfield pfilt physics pointings js) on /\
    (s_snr cfg <> None -> on = []) /\
    selected (fun o => forall lim, s_mag cfg = Some lim -> num_lt (k_trailed (o_col o)) lim) on above /\
    (s_fading cfg = false -> caught = above) /\
    (s_fading cfg = true -> selected_pos (fun i o => num_le (drop (n_drop st + i)) (prob o)) 0 above caught) /\
    selected (fun o => ~ saturated pfilt (requested cfg) o) caught D1 /\
    selected (fun o => exists o', In o' D1 /\ same_object eid o' o /\ near_enough ex ey ez cfg o') D1 D2 /\
    selected (slow_enough erarate edecrate cfg) D2 D3 /\
    selected (fun o => s_discovery cfg = true -> forall mine, selected (fun r => same_object eid r o) D3 mine -> found mine) D3 D4 /\
    Permutation (rows_written ol) D4.
Proof. intros. eapply stages; eauto. Qed.

Lemma C78_chunk_size_proof : forall E P R (efield : joined E R -> Z) (etime ex ey ez erarate edecrate : joined E R -> Q)
    (pfield : P -> Z) (pfilt : P -> option string) (pstart : P -> Q) pointings physics fsep prob fov drop dsort
    (cfg : des_settings (joined E R) P)
    (EPH : list (string * E)) ephem (aux0 : nat -> option nat -> result (list (string * R))) others tables T,
  (forall l, Permutation (dsort l) l) -> deterministic (requested cfg) ->
  exact_reader EPH ephem -> (forall s n, aux0 s n = Ok (slice s n T)) ->
  Forall2 exact_reader tables others ->
  NoDup (map fst T) -> (forall X, In X tables -> NoDup (map fst X)) ->
  (forall i, In i (map fst T) -> forall X, In X tables -> In i (map fst X)) ->
  exists catalogue, forall k rounds s0 tr, 0 < k ->
  run (read_external aux0 ephem others)
      (des_process (fun j => fst (fst j)) efield etime ex ey ez erarate edecrate pfield pfilt pstart pointings physics fsep prob
         fov drop dsort cfg)
      rounds (Z.of_nat (length T)) (Z.of_nat k) s0 = (Done, tr) ->
  Permutation (concat (written tr)) catalogue.
Proof.
  intros E P R efield etime ex ey ez erarate edecrate pfield pfilt pstart pointings physics fsep prob fov drop dsort cfg
    EPH ephem aux0 others tables T Hd Hdet.
  apply (chunk_generic E R rng (obs (joined E R) P) (fun o => fst (fst (o_eph o)))
    (own (fun j => fst (fst j)) efield etime ex ey ez erarate edecrate pfield pfilt pointings physics fsep cfg)).
  - intros p js. unshelve eapply (own_only (fun j : joined E R => fst (fst j))); try eassumption; exact (fun _ => 0%Q).
  - intros. eapply process_own; eauto.
Qed.

(** No observation is invented or doubled. *)
Lemma C78_count_proof : forall E P (eid : E -> string) (efield : E -> Z) (etime ex ey ez erarate edecrate : E -> Q)
    (pfield : P -> Z) (pfilt : P -> option string) (pstart : P -> Q) pointings physics fsep prob fov drop dsort (cfg : des_settings E P),
  (forall l, Permutation (dsort l) l) -> NoDup (map pfield pointings) ->
  (forall on, s_cam cfg = CamFootprint on -> forall o, length (on o) <= 1) ->
  forall st js st' ol, des_process eid efield etime ex ey ez erarate edecrate pfield pfilt pstart pointings physics fsep prob
       fov drop dsort cfg st js = Ok (st', ol) ->
  exists kept, subseq kept js /\ Permutation (map (fun o => o_eph o) (rows_written ol)) kept.
Proof.
  intros until cfg. intros Hd Hn Hone st js st' ol H.
  destruct (process_detect eid efield etime ex ey ez erarate edecrate pfield pfilt pstart pointings physics fsep prob fov drop dsort cfg _ _ _ _ Hd H)
    as [(-> & ->)|(f & Hf & Hp)].
  { exists []. split; constructor. }
  apply des_shared in Hf.
  destruct (detections_ok efield etime pfield pfilt pstart pointings physics (fun _ _ _ c => c) fsep prob fov fov drop (fun _ _ => NaN) (fun _ _ _ => 0%Z) (base cfg) _ _ _ _ Hf) as [_ Hs].
  specialize (Hs ltac:(cbn; destruct (s_cam cfg); auto)).
  exists (map (fun o => o_eph o) (survivors eid etime ex ey ez erarate edecrate cfg (rows f))). split.
  - eapply subseq_trans.
    { apply subseq_map. unfold survivors, cut_found, cut_motion, cut_distance.
      eapply subseq_trans; [apply subseq_filter|]. eapply subseq_trans; [apply subseq_filter|]. apply subseq_filter. }
    eapply subseq_trans; [|eapply matched_subseq; exact Hn].
    replace (map (fun o => o_eph o) (rows f)) with (map fst (map (fun o : obs E P => (o_eph o, o_pnt o)) (rows f))).
    + apply subseq_map. exact Hs.
    + rewrite map_map. reflexivity.
  - apply Permutation_map. exact Hp.
Qed.
