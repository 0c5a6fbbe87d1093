(** Proofs about chunk sizes in runs that consult random numbers (C107). *)
From Coq Require Import String List Arith ZArith QArith Bool Lia Sorting.Sorted Sorting.Permutation.
From Verif Require Import Base.Prelude Base.Num Base.Frame Model.Filters Model.Linking Model.Readers
  Model.Driver Model.Pipeline
  Spec.Filters Spec.Linking Spec.Readers Spec.Driver Spec.Pipeline Spec.Streams
  Proofs.Filters Proofs.LinkProps Proofs.Combined Proofs.Driver Proofs.Pipeline Proofs.Chunking.
Import ListNotations.
Open Scope nat_scope.

Fixpoint pick {A} (p : nat -> A -> bool) (k : nat) (l : list A) : list A :=
  match l with
  | [] => []
  | x :: l' => if p k x then x :: pick p (S k) l' else pick p (S k) l'
  end.
Lemma pick_app : forall A (p : nat -> A -> bool) a b k, pick p k (a ++ b) = pick p k a ++ pick p (k + length a) b.
Proof.
  intros A p a b. induction a as [|x a IH]; intro k; cbn [app pick length].
  - rewrite Nat.add_0_r. reflexivity.
  - rewrite IH, Nat.add_succ_r. destruct (p k x); reflexivity.
Qed.
Lemma pick_incl : forall A (p : nat -> A -> bool) l k x, In x (pick p k l) -> In x l.
Proof.
  intros A p l. induction l as [|y l IH]; intros k x; cbn; auto. destruct (p k y); cbn; [intros [->|H]|intro H]; eauto.
Qed.
Lemma selected_pick : forall A (p : nat -> A -> bool) n (P : nat -> A -> Prop) k l l', (forall i x, p (n + i) x = true <-> P i x) ->
  selected_pos P k l l' -> l' = pick p (n + k) l.
Proof.
  intros A p n P k l l' H S. induction S as [k|k x l l' HP S IH|k x l l' HP S IH]; cbn [pick]; auto.
  - rewrite (proj2 (H k x) HP). rewrite Nat.add_succ_r in IH. f_equal. exact IH.
  - destruct (p (n + k) x) eqn:E; [exfalso; apply HP, H; auto|]. rewrite Nat.add_succ_r in IH. exact IH.
Qed.

Section Streams.
Context {E P : Type}.
Variable eid : E -> string.
Variable efield : E -> Z.
Variable etime : E -> Q.
Variable pfield : P -> Z.
Variable pfilt : P -> option string.
Variable pstart : P -> Q.
Variable pointings : list P.
Variable physics : E -> P -> columns.
Variable noise : num -> num -> (num * num * num) -> columns -> columns.
Variable fsep : obs E P -> num.
Variable prob : obs E P -> num.
Variables gauss fov drop : nat -> num.
Variable lsep : obs E P -> obs E P -> num.
Variable tsort : list (obs E P) -> list (obs E P).
Variable ldraws : list num -> nat -> num.
Variable osort : list (obs E P * bool * option Z) -> list (obs E P * bool * option Z).
Variable lweights : nat -> nat -> nat -> Z.
Variable cfg : settings E P.
Hypothesis quiet : unrandomised cfg.

Notation detect := (detections efield etime pfield pfilt pstart pointings physics noise fsep prob gauss fov drop cfg).
Notation cands := (candidates efield pfield pfilt physics pointings).
Notation proc := (process eid efield etime pfield pfilt pstart pointings physics noise fsep prob gauss fov drop lsep tsort ldraws osort lweights cfg).
Notation camr := (cam_row fsep cfg).

Definition fills : bool := match cam cfg with CamCircle _ fill => truthy fill | _ => false end.
Definition fillp (i : nat) (_ : obs E P) : bool :=
  match cam cfg with CamCircle _ (Some x) => negb (nltb x (fov i)) | _ => true end.
Definition fadep (i : nat) (o : obs E P) : bool := nleb (drop i) (prob o).

Lemma fov_stream : forall st f st2 f2, seq_labels f -> fov_stage fsep fov cfg st f = Ok (st2, f2) ->
  let A := flat_map camr (rows f) in
  rows f2 = (if fills then pick fillp (n_fov st) A else A) /\ n_fov st2 = n_fov st + (if fills then length A else 0) /\ n_drop st2 = n_drop st.
Proof.
  intros st f st2 f2 Hs H. unfold fov_stage in H. destruct f as [|x0 f0].
  { injection H as <- <-. cbn. destruct fills; repeat split; auto. }
  cbn [nonempty] in H. set (f := x0 :: f0) in *. clearbody f. clear x0 f0.
  destruct quiet as [_ Hcam]. unfold fills, fillp. unfold cam_row. destruct (cam cfg) as [|on|on|radius fill].
  - injection H as <- <-. rewrite flat_map_one. repeat split; lia.
  - injection H as <- <-. split; [|split; [lia|auto]]. unfold footprint_rows, rows. rewrite map_flat_map, flat_map_map.
    apply flat_map_ext_in. intros [l o] _. cbn. rewrite map_map. reflexivity.
  - injection H as <- <-. split; [|split; [lia|auto]]. clear Hs st.
    assert (G : forall pre g, rows f = pre ++ rows g -> rows (visits_rows (on (rows f)) (length pre) g)
       = flat_map (fun o => match on [o] 0 with Some d => [set_det (Some d) o] | None => [] end) (rows g)).
    { intros pre g. revert pre. induction g as [|[i o] g IH]; intros pre E0; [reflexivity|].
      cbn [visits_rows rows map snd flat_map]. assert (E1 : nth_error (rows f) (length pre) = Some o).
      { rewrite E0, nth_error_app2, Nat.sub_diag by lia. reflexivity. }
      rewrite (Hcam _ _ _ E1). specialize (IH (pre ++ [o])). rewrite app_length in IH. cbn [length] in IH.
      replace (S (length pre)) with (length pre + 1) by lia.
      rewrite <- app_assoc in IH. specialize (IH E0).
      unfold rows in *.
      destruct (on [o] 0) as [d|]; cbn [app map snd fst] in *; rewrite <- IH; reflexivity. }
    exact (G [] f eq_refl).
  - set (f1 := match radius with Some r => if truthy radius then PPCircleFootprint fsep r f else f | None => f end) in *.
    assert (L1 : seq_labels f1).
    { unfold f1. destruct radius; auto. destruct (truthy (Some n)); auto. apply circle_labels. }
    assert (R1 : rows f1 = flat_map (fun o => match radius with Some r => if negb (truthy (Some r)) || nltb (fsep o) r then [o] else [] | None => [o] end) (rows f)).
    { unfold f1. destruct radius as [r|].
      - rewrite <- (filter_as_flat_map _ (fun o => negb (truthy (Some r)) || nltb (fsep o) r)). destruct (truthy (Some r)).
        + unfold PPCircleFootprint. rewrite rows_reset_index, rows_mask. reflexivity.
        + symmetry. apply filter_true. auto.
      - symmetry. apply flat_map_one. }
    destruct (circle_model _ _ _ _ _) as [f3|e] eqn:Em in H; [|discriminate]. cbn [rmap] in H. injection H as <- <-. cbn [n_fov n_drop].
    rewrite <- R1. unfold circle_model in Em. fold f1 in Em.
    assert (LN : length (rows f1) = length f1) by (unfold rows; apply map_length).
    destruct fill as [x|].
    + destruct (truthy (Some x)).
      * destruct (sensor_area_spec _ x (fun i => fov (n_fov st + i)) f1 L1) as [o [Ho [Hsel _]]]. rewrite Ho in Em. injection Em as <-.
        split; [|split; [f_equal; symmetry; exact LN|reflexivity]].
        rewrite <- (Nat.add_0_r (n_fov st)). eapply selected_pick; [|exact Hsel].
        intros i y. cbn beta. rewrite negb_true_iff, <- (nltb_lt x (fov (n_fov st + i))). destruct (nltb x _); split; congruence.
      * injection Em as <-. repeat split; auto.
    + injection Em as <-. cbn [truthy]. repeat split; auto.
Qed.

Definition seen (n : nat) (js : list E) : list (obs E P) :=
  if fills then pick fillp n (flat_map camr (cands js)) else flat_map camr (cands js).
Definition used (js : list E) : nat := if fills then length (flat_map camr (cands js)) else 0.
Definition thresholds (o : obs E P) : bool :=
  (match snr_limit cfg with Some lim => nltb lim (k_snr (o_col o)) | None => true end) &&
  (match mag_limit cfg with Some lim => nltb (k_trailed (o_col o)) lim | None => true end).
Definition above (n : nat) (js : list E) : list (obs E P) := filter thresholds (seen n js).
Definition spent (n : nat) (js : list E) : nat := if fading_on cfg then length (above n js) else 0.
Definition out (n m : nat) (js : list E) : list (obs E P) :=
  filter (fun o => negb (is_saturated pfilt cfg o)) (if fading_on cfg then pick fadep m (above n js) else above n js).

Lemma cands_app : forall a b, cands (a ++ b) = cands a ++ cands b.
Proof. intros. unfold candidates. apply flat_map_app. Qed.
Lemma seen_app : forall n a b, seen n (a ++ b) = seen n a ++ seen (n + used a) b.
Proof.
  intros. unfold seen, used. rewrite cands_app, flat_map_app. destruct fills; [apply pick_app|reflexivity].
Qed.
Lemma used_app : forall a b, used (a ++ b) = used a + used b.
Proof. intros. unfold used. rewrite cands_app, flat_map_app, app_length. destruct fills; lia. Qed.
Lemma above_app : forall n a b, above n (a ++ b) = above n a ++ above (n + used a) b.
Proof. intros. unfold above. rewrite seen_app, filter_app. reflexivity. Qed.
Lemma spent_app : forall n a b, spent n (a ++ b) = spent n a + spent (n + used a) b.
Proof. intros. unfold spent. rewrite above_app, app_length. destruct (fading_on cfg); lia. Qed.
Lemma out_app : forall n m a b, out n m (a ++ b) = out n m a ++ out (n + used a) (m + spent n a) b.
Proof.
  intros. unfold out, spent. rewrite above_app. rewrite <- filter_app. f_equal. destruct (fading_on cfg); [apply pick_app|reflexivity].
Qed.
Lemma out_nil : forall n m, out n m [] = [] /\ used [] = 0 /\ spent n [] = 0.
Proof. intros. unfold out, used, spent, above, seen. cbn. destruct fills, (fading_on cfg); cbn; auto. Qed.
Lemma out_from : forall n m js o, In o (out n m js) -> exists j, In j js /\ eid (o_eph o) = eid j.
Proof.
  intros n m js o H. unfold out in H. apply filter_In in H. destruct H as [H _].
  assert (HA : In o (above n js)) by (destruct (fading_on cfg); auto; eapply pick_incl; eauto). clear H.
  unfold above in HA. apply filter_In in HA. destruct HA as [HA _]. unfold seen in HA.
  assert (H : In o (flat_map camr (cands js))) by (destruct fills; auto; eapply pick_incl; eauto). clear HA.
  apply in_flat_map in H. destruct H as [o0 [H0 H]].
  unfold candidates in H0. apply in_flat_map in H0. destruct H0 as [j [Hj H0]]. apply in_map_iff in H0. destruct H0 as [p [<- _]].
  exists j. split; auto. unfold cam_row in H. destruct (cam cfg) as [|on|on|[r|] fill]; cbn in H.
  - destruct H as [<-|[]]; auto.
  - apply in_map_iff in H. destruct H as [d [<- _]]. reflexivity.
  - destruct (on [_] 0); [destruct H as [<-|[]]; auto|destruct H].
  - destruct (_ || _); [destruct H as [<-|[]]; auto|destruct H].
  - destruct H as [<-|[]]; auto.
Qed.

Lemma detect_out : forall st js st' f, detect st js = Ok (st', f) ->
  rows f = out (n_fov st) (n_drop st) js /\ n_fov st' = n_fov st + used js /\ n_drop st' = n_drop st + spent (n_fov st) js.
Proof.
  intros st js st' f H. unfold detections in H.
  destruct (PPMatchPointing _ _ _ _ _ _ _) as [m|e] eqn:Em in H; cbn [rbind] in H; [|discriminate].
  apply match_ok in Em. destruct Em as [-> _].
  set (f0 := of_rows (map (measure physics) (matched efield pfield pfilt pointings js))) in *.
  assert (Hl0 : seq_labels f0) by apply seq_of_rows.
  assert (Hr0 : rows f0 = cands js).
  { unfold f0. rewrite rows_of_rows. unfold matched, candidates, partners. rewrite map_flat_map.
    apply flat_map_ext_in. intros e _. rewrite map_map. reflexivity. }
  assert (Er : randomize noise gauss cfg st f0 = (st, f0)).
  { unfold randomize. destruct quiet as [-> _]. reflexivity. }
  rewrite Er in H. cbn [fst snd] in H.
  destruct (fov_stage fsep fov cfg st f0) as [[st2 f2]|e] eqn:Ef; cbn [rbind] in H; [|discriminate].
  destruct (fov_stream _ _ _ _ Hl0 Ef) as (Hr2 & Hf2 & Hd2). rewrite Hr0 in Hr2, Hf2. fold (seen (n_fov st) js) in Hr2. fold (used js) in Hf2.
  destruct (fov_ok noise fsep prob gauss fov drop lsep lweights cfg _ _ _ _ Hl0 Ef) as [Hc2 _]. cbn [fst snd] in H.
  assert (Hc4 : consistent (mag_stage cfg (snr_stage cfg f2))) by (apply mag_consistent, snr_consistent; auto).
  assert (Hr4 : rows (mag_stage cfg (snr_stage cfg f2)) = above (n_fov st) js).
  { rewrite mag_rows, snr_rows, Hr2. unfold above, thresholds. generalize (seen (n_fov st) js). clear. intro l.
    induction l as [|o l IH]; cbn [filter]; auto.
    destruct (match snr_limit cfg with Some lim => nltb lim (k_snr (o_col o)) | None => true end); cbn [filter andb]; auto.
    destruct (match mag_limit cfg with Some lim => nltb (k_trailed (o_col o)) lim | None => true end); congruence. }
  assert (Hc5 := fading_consistent prob drop cfg st2 _ Hc4).
  set (f4 := mag_stage cfg (snr_stage cfg f2)) in *. clearbody f4.
  assert (H5 : rows (snd (fading_stage prob drop cfg st2 f4)) = (if fading_on cfg then pick fadep (n_drop st) (above (n_fov st) js) else above (n_fov st) js)
    /\ n_fov (fst (fading_stage prob drop cfg st2 f4)) = n_fov st2
    /\ n_drop (fst (fading_stage prob drop cfg st2 f4)) = n_drop st + spent (n_fov st) js).
  { unfold fading_stage, spent. rewrite <- Hr4. destruct (fading_on cfg); cbn [andb]; [|rewrite Nat.add_0_r; auto].
    destruct f4 as [|x g]; cbn [nonempty fst snd]; [cbn; rewrite Nat.add_0_r; auto|].
    set (f4 := x :: g) in *. clearbody f4. cbn [n_fov n_drop]. rewrite Hd2. split; [|split; auto].
    - replace (pick fadep (n_drop st)) with (pick fadep (n_drop st + 0)) by (f_equal; lia). eapply selected_pick; [|apply fading_selected].
      intros i o. apply nleb_le.
    - unfold rows. rewrite map_length. reflexivity. }
  destruct (fading_stage prob drop cfg st2 f4) as [st5 f5]. cbn [fst snd] in *. destruct H5 as (R5 & F5 & D5).
  destruct (bright_stage pfilt cfg f5) as [f6|e] eqn:Eb in H; cbn [rmap] in H; [|discriminate].
  injection H as <- <-. rewrite (bright_ok _ _ _ _ Hc5 Eb), R5. split; [reflexivity|]. split; congruence.
Qed.

Hypothesis osorter : sorter (fun x : obs E P * bool * option Z => etime (o_eph (fst (fst x)))) osort.
Hypothesis tsorter : sorter (fun o : obs E P => etime (o_eph o)) tsort.
Hypothesis sane : link_sane lweights cfg.

Lemma process_stream : exists verdict, forall st js st' ol, proc st js = Ok (st', ol) ->
  let o := out (n_fov st) (n_drop st) js in
  Permutation (rows_written ol) (deco eid cfg verdict o o)
  /\ (linking cfg = None -> rows_written ol = map (fun x => (x, None)) o)
  /\ n_fov st' = n_fov st + used js /\ n_drop st' = n_drop st + spent (n_fov st) js.
Proof.
  destruct (link_local eid efield etime lsep tsort ldraws osort lweights cfg osorter tsorter sane) as [verdict Hv].
  exists verdict. intros st js st' ol H. unfold process in H.
  destruct js as [|j js0].
  { injection H as <- <-. destruct (out_nil (n_fov st) (n_drop st)) as (-> & -> & ->). cbn. unfold deco.
    destruct (linking cfg) as [[? ?]|]; repeat split; auto with arith. }
  set (js := j :: js0) in *. clearbody js.
  destruct (detect st js) as [[st1 f]|e] eqn:Ed; cbn [rbind] in H; [|discriminate].
  cbn [fst snd] in H.
  destruct (link_stage _ _ _ _ _ _ _ _ _ _ _) as [[st2 l2]|e] eqn:El in H; cbn [rmap fst snd] in H; [|discriminate].
  injection H as <- <-.
  assert (Ew : rows_written match l2 with [] => None | x :: l => Some (x :: l) end = l2) by (destruct l2; auto).
  rewrite Ew. destruct (detect_out _ _ _ _ Ed) as (R & F & D). rewrite <- R. cbn zeta.
  split; [exact (Hv _ _ _ _ El)|].
  assert (HL : n_fov st2 = n_fov st1 /\ n_drop st2 = n_drop st1 /\ (linking cfg = None -> l2 = map (fun x => (x, None)) (rows f))).
  { unfold link_stage in El. destruct (linking cfg) as [[c d]|].
    - destruct f; cbn [nonempty] in El; [injection El as <- <-; repeat split; auto|].
      destruct (PPLinkingFilter _ _ _ _ _ _ _ _ _ _ _ _) in El; cbn [rmap] in El; [|discriminate]. injection El as <- <-. cbn. repeat split; auto; discriminate.
    - injection El as <- <-. repeat split; auto. }
  destruct HL as (H1 & H2 & H3). repeat split; auto; congruence.
Qed.
End Streams.

(** *** Whole runs *)
Fixpoint chain {S C O} (process : S -> C -> result (S * option O)) (s : S) (tr : list (C * option O)) : Prop :=
  match tr with
  | [] => True
  | r :: tr' => exists s', process s (fst r) = Ok (s', snd r) /\ chain process s' tr'
  end.
Lemma trace_chain : forall S C O (read : nat -> Z -> result (nat * option C))
    (process : S -> C -> result (S * option O)) lenf size rounds st stt tr,
  main_loop read process rounds lenf size st = (stt, tr) -> chain process (inner st) tr.
Proof.
  intros S C O read process lenf size. induction rounds as [|rounds IH]; intros st stt tr H; cbn [main_loop] in H.
  - destruct (_ <? _)%Z; injection H as <- <-; exact I.
  - destruct (_ <? _)%Z; [|injection H as <- <-; exact I].
    destruct (read _ _) as [[nx [c|]]|e]; try (injection H as <- <-; exact I).
    destruct (process (inner st) c) as [[s' o]|e] eqn:Ep; [|injection H as <- <-; exact I].
    destruct (main_loop _ _ rounds _ _ _) as [stt2 tr2] eqn:Er. cbn [fst snd] in H.
    injection H as <- <-. cbn [chain fst snd]. exists s'. split; [exact Ep|]. apply IH in Er. exact Er.
Qed.

Lemma grouped_blocks : forall E R (blocks : list (list (string * R))) (pre : list (string * E)) per,
  NoDup (map fst (concat blocks)) -> (forall e, In e pre -> ~ In (fst e) (map fst (concat blocks))) ->
  Forall2 (fun t (g : list (string * E)) => Forall (fun e => fst e = fst t) g) (concat blocks) per ->
  flat_map (fun b => filter (fun e => existsb (String.eqb (fst e)) (map fst b)) (pre ++ concat per)) blocks = concat per.
Proof.
  intros E R blocks. induction blocks as [|b bs IH]; intros pre per HN HP HF.
  - cbn in HF. inversion HF. reflexivity.
  - cbn [concat] in HF. apply Forall2_app_inv_l in HF. destruct HF as (p1 & p2 & F1 & F2 & ->).
    cbn [flat_map]. rewrite concat_app.
    assert (M : forall (X : list (string * R)) p, Forall2 (fun t (g : list (string * E)) => Forall (fun e => fst e = fst t) g) X p ->
      forall e, In e (concat p) -> In (fst e) (map fst X)).
    { clear. intros X p H. induction H as [|t g X p Hg H IHH]; intros e He; [destruct He|]. cbn in He. apply in_app_or in He.
      destruct He as [He|He]; [left; symmetry; rewrite Forall_forall in Hg; apply Hg; auto|right; auto]. }
    cbn [concat] in HN, HP. rewrite map_app in HN.
    assert (HD : forall i, In i (map fst b) -> In i (map fst (concat bs)) -> False).
    { clear - HN. intros i H1 H2. induction (map fst b) as [|x l IHl]; [destruct H1|]. cbn in HN. inversion HN; subst.
      destruct H1 as [->|H1]; [apply H3; apply in_or_app; auto|auto]. }
    assert (K : forall l, (forall e, In e l -> ~ In (fst e) (map fst b)) -> filter (fun e : string * E => existsb (String.eqb (fst e)) (map fst b)) l = []).
    { clear. intros l H. induction l as [|e l IHl]; [reflexivity|]. cbn [filter]. destruct (existsb _ _) eqn:Eb.
      - exfalso. apply existsb_exists in Eb. destruct Eb as (i & Hi & Hq). apply String.eqb_eq in Hq. apply (H e); [left; auto|]. congruence.
      - apply IHl. intros; apply H; right; auto. }
    rewrite !filter_app. rewrite (K pre). 2:{ intros e He Hi. apply (HP e He). rewrite map_app. apply in_or_app; auto. }
    rewrite (K (concat p2)). 2:{ intros e He Hi. apply (HD (fst e) Hi). eapply M; eauto. }
    rewrite app_nil_r. cbn [app].
    assert (K1 : filter (fun e : string * E => existsb (String.eqb (fst e)) (map fst b)) (concat p1) = concat p1).
    { assert (forall l, (forall e, In e l -> In (fst e) (map fst b)) -> filter (fun e : string * E => existsb (String.eqb (fst e)) (map fst b)) l = l).
      { clear. intros l H. induction l as [|e l IHl]; [reflexivity|]. cbn [filter]. rewrite (proj2 (existsb_exists _ _)).
        - f_equal. apply IHl. intros; apply H; right; auto.
        - exists (fst e). split; [apply H; left; auto|apply String.eqb_refl]. }
      apply H. intros e He. eapply M; eauto. }
    rewrite K1. f_equal. rewrite app_assoc. apply IH; auto.
    + clear - HN. induction (map fst b); auto. inversion HN; auto.
    + intros e He Hi. apply in_app_or in He. destruct He as [He|He].
      * apply (HP e He). rewrite map_app. apply in_or_app; auto.
      * apply (HD (fst e)); auto. eapply M; eauto.
Qed.

Lemma C107_chunk_size_proof : forall E P R (efield : joined E R -> Z) (etime : joined E R -> Q) (pfield : P -> Z) (pfilt : P -> option string)
    (pstart : P -> Q) pointings physics noise fsep prob gauss fov drop lsep tsort ldraws osort lweights
    (cfg : settings (joined E R) P)
    (EPH : list (string * E)) ephem (aux0 : nat -> option nat -> result (list (string * R))) others tables T,
  unrandomised cfg ->
  sorter (fun x : obs (joined E R) P * bool * option Z => etime (o_eph (fst (fst x)))) osort ->
  sorter (fun o : obs (joined E R) P => etime (o_eph o)) tsort ->
  (forall c d, linking cfg = Some (c, d) -> (1 <= c_window c)%Z /\ (1 <= c_nlink c)%Z /\ (1 <= c_min_obs c)%Z
     /\ forall n k m, generic (lweights n k) m) ->
  exact_reader EPH ephem -> (forall s n, aux0 s n = Ok (slice s n T)) ->
  Forall2 exact_reader tables others ->
  NoDup (map fst T) -> (forall X, In X tables -> NoDup (map fst X)) ->
  (forall i, In i (map fst T) -> forall X, In X tables -> In i (map fst X)) ->
  in_order T EPH ->
  forall s0, exists catalogue, forall k rounds tr, 0 < k ->
  run (read_external aux0 ephem others)
      (process (fun j => fst (fst j)) efield etime pfield pfilt pstart pointings physics noise fsep prob
         gauss fov drop lsep tsort ldraws osort lweights cfg)
      rounds (Z.of_nat (length T)) (Z.of_nat k) s0 = (Done, tr) ->
  Permutation (concat (written tr)) catalogue /\ (linking cfg = None -> concat (written tr) = catalogue).
Proof.
  intros E P R efield etime pfield pfilt pstart pointings physics noise fsep prob gauss fov drop lsep tsort ldraws osort lweights
    cfg EPH ephem aux0 others tables T quiet Ho Ht Hsane He Ha Hoth HT HX Hi [per [Hsel HF2]] s0.
  set (eid := fun j : joined E R => fst (fst j)).
  assert (sane : link_sane lweights cfg).
  { unfold link_sane. destruct (linking cfg) as [[c d]|]; auto. exact (Hsane c d eq_refl). }
  destruct (process_stream eid efield etime pfield pfilt pstart pointings physics noise fsep prob gauss fov drop lsep tsort
    ldraws osort lweights cfg quiet Ho Ht sane) as [verdict Hp].
  set (J := @join1 E R tables T).
  set (O := out efield pfield pfilt pointings physics fsep prob fov drop cfg) in *.
  set (U := used efield pfield pfilt pointings physics fsep cfg) in *.
  set (W := spent efield pfield pfilt pointings physics fsep fov cfg) in *.
  set (ALL := O (n_fov s0) (n_drop s0) (map J (concat per))).
  exists (deco eid cfg verdict ALL ALL).
  intros k rounds tr Hk Hrun.
  destruct (C13_external_proof _ _ _ _ EPH ephem aux0 others tables T _ k He Ha Hoth HT HX Hi Hk _ _ _ _ Hrun)
    as [blocks [HF [Hcut [Hcat _]]]].
  assert (Hch := trace_chain _ _ _ _ _ _ _ _ _ _ _ Hrun). cbn [inner initial] in Hch.
  rewrite concat_written.
  assert (Hsub : forall b, In b blocks -> forall r, In r b -> In r T).
  { intros b Hb r Hr. rewrite <- Hcat. apply in_concat. eauto. }
  assert (EF : concat per = filter (fun e => existsb (String.eqb (fst e)) (map fst T)) EPH).
  { eapply selected_functional; [exact Hsel|]. apply selected_filter. intros e _. rewrite existsb_exists. split.
    - intros (i & Hi1 & Hq). apply String.eqb_eq in Hq. congruence.
    - intro H. exists (fst e). split; auto. apply String.eqb_refl. }
  set (jof := fun b : list (string * R) => map J (filter (fun e => existsb (String.eqb (fst e)) (map fst b)) (concat per))).
  assert (HJ : map fst tr = map jof blocks).
  { clear - HF Hsub EF HT HX. revert Hsub. induction HF as [|b js bl jl Hb HF IH]; intro Hsub; [reflexivity|]. cbn [map]. f_equal.
    - rewrite (block_rows EPH tables T HT HX b js (Hsub b (or_introl eq_refl)) Hb). unfold jof. fold J. f_equal. rewrite EF.
      assert (HS := Hsub b (or_introl eq_refl)). clear - HS. induction EPH as [|e l IHl]; [reflexivity|]. cbn [filter].
      destruct (existsb (String.eqb (fst e)) (map fst T)) eqn:Et; cbn [filter].
      + rewrite IHl. reflexivity.
      + destruct (existsb (String.eqb (fst e)) (map fst b)) eqn:Eb; [exfalso|exact IHl].
        apply existsb_exists in Eb. destruct Eb as (i & Hi & Hq). apply in_map_iff in Hi. destruct Hi as (r & <- & Hr).
        apply not_true_iff_false in Et. apply Et. apply existsb_exists. exists (fst r). split; auto. apply in_map. auto.
    - apply IH. intros b' Hb'. apply Hsub. right; auto. }
  assert (HC : concat (map fst tr) = map J (concat per)).
  { rewrite HJ, <- flat_map_concat_map. subst T.
    assert (G := grouped_blocks E R blocks [] per HT (fun e (h : In e []) => match h with end) HF2). cbn [app] in G.
    symmetry. etransitivity; [apply f_equal; symmetry; exact G|]. unfold jof.
    rewrite !flat_map_concat_map, concat_map, map_map. reflexivity. }
  (* the rows of the run, one chunk after the other *)
  assert (ND : forall l1 b l2, blocks = l1 ++ b :: l2 -> forall i, In i (map fst b) -> ~ In i (map fst (concat l1)) /\ ~ In i (map fst (concat l2))).
  { intros l1 b l2 Eb i Hb. rewrite <- Hcat, Eb, concat_app, !map_app in HT. cbn [concat] in HT. rewrite map_app in HT.
    assert (forall (a c : list string), NoDup (a ++ c) -> forall x, In x a -> In x c -> False).
    { clear. intros a c. induction a as [|y a IHa]; cbn; intros H x; [tauto|]. inversion H; subst. intros [->|H1] H4; [apply H2; apply in_or_app; auto|eauto]. }
    split; intro Hin.
    - eapply (H _ _ HT i); auto. apply in_or_app; auto.
    - assert (HT' : NoDup (map fst b ++ map fst (concat l2))) by (clear - HT; induction (map fst (concat l1)); auto; inversion HT; auto).
      eapply (H _ _ HT' i); auto. }
  assert (MAIN : forall l1 l2 tr2 s, blocks = l1 ++ l2 -> map fst tr2 = map jof l2 ->
     n_fov s = n_fov s0 + U (concat (map jof l1)) -> n_drop s = n_drop s0 + W (n_fov s0) (concat (map jof l1)) ->
     chain (process eid efield etime pfield pfilt pstart pointings physics noise fsep prob
         gauss fov drop lsep tsort ldraws osort lweights cfg) s tr2 ->
     Permutation (flat_map (fun r => rows_written (snd r)) tr2) (deco eid cfg verdict ALL (O (n_fov s) (n_drop s) (concat (map jof l2))))
     /\ (linking cfg = None -> flat_map (fun r => rows_written (snd r)) tr2 = map (fun x => (x, None)) (O (n_fov s) (n_drop s) (concat (map jof l2))))).
  { intros l1 l2. revert l1. induction l2 as [|b l2 IH]; intros l1 tr2 s Eb Em Ef Ed Hc.
    - destruct tr2; [|discriminate]. cbn [map concat flat_map]. unfold O. rewrite (proj1 (out_nil _ _ _ _ _ _ _ _ _ _ _ _)). split; [|reflexivity].
      unfold deco. destruct (linking cfg) as [[? ?]|]; constructor.
    - destruct tr2 as [|[js ol] tr2]; [discriminate|]. cbn [map fst] in Em. injection Em as Ej Em. cbn [chain fst snd] in Hc. destruct Hc as (s' & Hpr & Hc).
      destruct (Hp _ _ _ _ Hpr) as (P1 & P2 & F & D). cbn zeta in P1, P2. fold O in P1, P2. fold U in F. fold W in D.
      assert (Ef' : n_fov s' = n_fov s0 + U (concat (map jof (l1 ++ [b])))).
      { rewrite map_app, concat_app. cbn [map concat]. rewrite app_nil_r. unfold U. rewrite used_app. fold U. rewrite F, Ef, Ej. lia. }
      assert (Ed' : n_drop s' = n_drop s0 + W (n_fov s0) (concat (map jof (l1 ++ [b])))).
      { rewrite map_app, concat_app. cbn [map concat]. rewrite app_nil_r. unfold W. rewrite spent_app. fold W. fold U. rewrite D, Ed, <- Ef, Ej. lia. }
      destruct (IH (l1 ++ [b]) tr2 s') as [I1 I2]; auto. { rewrite <- app_assoc. exact Eb. }
      cbn [flat_map map concat snd]. unfold O. rewrite out_app. fold O U W. rewrite <- Ej, <- F, <- D. split.
      + rewrite deco_app. apply Permutation_app; [|exact I1]. eapply perm_trans; [exact P1|].
        apply Permutation_refl'. unshelve eapply deco_ctx; [exact noise|exact fsep|exact prob|exact lsep|]. intros o Hin.
        destruct (out_from eid _ _ _ _ _ _ _ _ _ _ _ _ _ _ Hin) as (j & Hj & Ho').
        assert (IDJ : forall bb j, In j (jof bb) -> In (eid j) (map fst bb)).
        { clear. intros bb j H. unfold jof in H. apply in_map_iff in H. destruct H as (e & <- & H). apply filter_In in H. destruct H as [_ H].
          apply existsb_exists in H. destruct H as (i & Hi & Hq). apply String.eqb_eq in Hq. change (In (fst e) (map fst bb)). congruence. }
        assert (Hb : In (oid eid o) (map fst b)). { unfold oid. rewrite Ho'. apply IDJ. rewrite <- Ej. exact Hj. }
        destruct (ND l1 b l2 Eb _ Hb) as [N1 N2].
        assert (NONE : forall n m l, ~ In (oid eid o) (map fst (concat l)) -> rows_of (oid eid) (oid eid o) (O n m (concat (map jof l))) = []).
        { intros n m l HN. unfold rows_of. rewrite (filter_ext_in _ (fun _ => false)).
          - clear. induction (O n m (concat (map jof l))); auto.
          - intros o' Ho''. apply String.eqb_neq. intro Heq. apply HN. rewrite <- Heq.
            destruct (out_from eid _ _ _ _ _ _ _ _ _ _ _ _ _ _ Ho'') as (j' & Hj' & E').
            unfold oid. rewrite E'. apply in_concat in Hj'. destruct Hj' as (x & Hx & Hj'). apply in_map_iff in Hx. destruct Hx as (bb & <- & Hbb).
            apply IDJ in Hj'. rewrite concat_map. apply in_concat. exists (map fst bb). split; auto. apply in_map. auto. }
        unfold ALL. rewrite <- HC, HJ, Eb, map_app, concat_app. unfold O. rewrite out_app. fold O U W. rewrite <- Ef, <- Ed. cbn [map concat].
        unfold O. rewrite out_app. fold O U W. unfold rows_of at 2. rewrite !filter_app.
        fold (rows_of (oid eid) (oid eid o) (O (n_fov s0) (n_drop s0) (concat (map jof l1)))).
        fold (rows_of (oid eid) (oid eid o) (O (n_fov s) (n_drop s) (jof b))).
        match goal with |- context [filter _ (O ?n ?m (concat (map jof l2)))] => fold (rows_of (oid eid) (oid eid o) (O n m (concat (map jof l2)))) end.
        rewrite !NONE by auto. rewrite app_nil_r, <- Ej. reflexivity.
      + intro Hn. rewrite map_app. f_equal; auto. }
  destruct (MAIN [] blocks tr s0 eq_refl HJ) as [M1 M2]; auto.
  { unfold U. cbn [map concat]. rewrite (proj1 (proj2 (out_nil efield pfield pfilt pointings physics fsep prob fov drop cfg 0 0))). lia. }
  { unfold W. cbn [map concat]. rewrite (proj2 (proj2 (out_nil efield pfield pfilt pointings physics fsep prob fov drop cfg (n_fov s0) 0))). lia. }
  rewrite <- HJ, HC in M1, M2. fold ALL in M1, M2. split; auto.
  intro Hn. etransitivity; [exact (M2 Hn)|]. unfold deco. rewrite Hn. reflexivity.
Qed.

(** With randomised measurements, or when the ephemeris is not grouped by object,
    the chunk size matters. *)
Lemma C107_randomised_refuted_proof : in_order s_orbits s_grouped /\ exists tr1 tr2,
  s_run true s_grouped 5 1 = (Done, tr1) /\ s_run true s_grouped 5 2 = (Done, tr2) /\ ~ Permutation (concat (written tr1)) (concat (written tr2)).
Proof.
  split.
  - exists [[("a", (1, 10 # 1)); ("a", (2, 11 # 1))]; [("b", (1, 10 # 1))]]%string%Z. split.
    + cbn. repeat (apply sel_keep; [cbn; tauto|]). constructor.
    + repeat constructor.
  - eexists. eexists. split; [vm_compute; reflexivity|]. split; [vm_compute; reflexivity|]. cbn [concat written flat_map app snd]. intro H.
    apply (Permutation_map (fun x => k_trailed (o_col (fst x)))) in H. cbn [map fst o_col k_trailed] in H.
    apply Permutation_sym, (Permutation_in (Fin 2)) in H; cbn in *; [|tauto].
    destruct H as [H|[H|[H|[]]]]; discriminate H.
Qed.
Lemma C107_ungrouped_refuted_proof : unrandomised (s_cfg false) /\ Permutation s_by_time s_grouped /\ exists tr1 tr2,
  s_run false s_by_time 5 1 = (Done, tr1) /\ s_run false s_by_time 5 2 = (Done, tr2) /\ ~ Permutation (concat (written tr1)) (concat (written tr2)).
Proof.
  split; [split; [reflexivity|exact I]|]. split; [apply perm_skip, perm_swap|].
  eexists. eexists. split; [vm_compute; reflexivity|]. split; [vm_compute; reflexivity|]. cbn [concat written flat_map app snd]. intro H.
  apply (Permutation_map (fun x => fst (fst (o_eph (fst x))))) in H. cbn [map fst o_eph] in H.
  apply (Permutation_in "b"%string) in H; cbn in *; [|tauto].
  destruct H as [H|[H|[]]]; discriminate H.
Qed.
