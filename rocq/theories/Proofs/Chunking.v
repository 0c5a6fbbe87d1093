From Coq Require Import String List Arith ZArith QArith Bool Lia Sorting.Sorted Sorting.Permutation.
From Verif Require Import Base.Prelude Base.Num Base.Frame Model.Filters Model.Linking Model.Readers
  Model.Driver Model.Pipeline
  Spec.Filters Spec.Linking Spec.Readers Spec.Driver Spec.Pipeline
  Proofs.Filters Proofs.LinkProps Proofs.Combined Proofs.Driver Proofs.Pipeline.
Import ListNotations.
Open Scope nat_scope.

Section Det.
Context {E P : Type}.
Variable eid : E -> string.
Variable efield : E -> Z.
Variable etime : E -> Q.
Variable pfield : P -> Z.
Variable pfilt : P -> option string.
Variable pstart : P -> Q.
Variable pointings : list P.
Variable physics : E -> P -> columns.
Variable noise : num -> num -> (num * num * num) -> columns -> columns.
Variable fsep : obs E P -> num.
Variable prob : obs E P -> num.
Variables gauss fov drop : nat -> num.
Variable lsep : obs E P -> obs E P -> num.
Variable tsort : list (obs E P) -> list (obs E P).
Variable ldraws : list num -> nat -> num.
Variable osort : list (obs E P * bool * option Z) -> list (obs E P * bool * option Z).
Variable lweights : nat -> nat -> nat -> Z.
Variable cfg : settings E P.
Hypothesis det : deterministic cfg.

Notation detect := (detections efield etime pfield pfilt pstart pointings physics noise fsep prob gauss fov drop cfg).
Notation cands := (candidates efield pfield pfilt physics pointings).
Notation proc := (process eid efield etime pfield pfilt pstart pointings physics noise fsep prob gauss fov drop lsep tsort ldraws osort lweights cfg).

(** What the camera does with one row. *)
Definition cam_row (o : obs E P) : list (obs E P) :=
  match cam cfg with
  | CamFootprint on => map (fun d => set_det (Some d) o) (on o)
  | CamVisits on => match on [o] 0 with Some d => [set_det (Some d) o] | None => [] end
  | CamCircle (Some r) _ => if negb (truthy (Some r)) || nltb (fsep o) r then [o] else []
  | _ => [o]
  end.

Lemma filter_as_flat_map : forall A (p : A -> bool) l, filter p l = flat_map (fun x => if p x then [x] else []) l.
Proof. intros; induction l; cbn; auto. destruct (p a); cbn; congruence. Qed.
Lemma flat_map_one : forall A (l : list A), flat_map (fun x => [x]) l = l.
Proof. intros; induction l; cbn; congruence. Qed.

Lemma fov_det : forall st f st2 f2, seq_labels f -> fov_stage fsep fov cfg st f = Ok (st2, f2) ->
  rows f2 = flat_map cam_row (rows f).
Proof.
  intros st f st2 f2 Hs H. unfold fov_stage in H. destruct f as [|x0 f0]; [inversion H; reflexivity|].
  cbn [nonempty] in H. set (f := x0 :: f0) in *. clearbody f. clear x0 f0.
  destruct det as [_ [_ Hcam]]. unfold cam_row. destruct (cam cfg) as [|on|on|radius fill].
  - injection H as <- <-. symmetry. apply flat_map_one.
  - injection H as <- <-. unfold footprint_rows, rows. rewrite map_flat_map, flat_map_map.
    apply flat_map_ext_in. intros [l o] _. cbn. rewrite map_map. reflexivity.
  - injection H as <- <-. clear Hs st.
    assert (G : forall pre g, rows f = pre ++ rows g -> rows (visits_rows (on (rows f)) (length pre) g)
       = flat_map (fun o => match on [o] 0 with Some d => [set_det (Some d) o] | None => [] end) (rows g)).
    { intros pre g. revert pre. induction g as [|[i o] g IH]; intros pre E0; [reflexivity|].
      cbn [visits_rows rows map snd flat_map]. assert (E1 : nth_error (rows f) (length pre) = Some o).
      { rewrite E0, nth_error_app2, Nat.sub_diag by lia. reflexivity. }
      rewrite (Hcam _ _ _ E1). specialize (IH (pre ++ [o])). rewrite app_length in IH. cbn [length] in IH.
      replace (S (length pre)) with (length pre + 1) by lia.
      rewrite <- app_assoc in IH. specialize (IH E0).
      unfold rows in *.
      destruct (on [o] 0) as [d|]; cbn [app map snd fst] in *; rewrite <- IH; reflexivity. }
    exact (G [] f eq_refl).
  - destruct (circle_model _ _ _ _ _) as [f3|e] eqn:Em in H; [|discriminate]. injection H as <- <-.
    destruct (circle_model_rows fsep _ _ _ _ _ Hs Em) as [_ [g [H2 [_ H4]]]].
    rewrite H4.
    2:{ destruct fill; auto. }
    rewrite H2. destruct radius as [r|].
    + apply filter_as_flat_map.
    + rewrite filter_true by auto. symmetry. apply flat_map_one.
Qed.

Definition yields (e : E) : list (obs E P) := filter (passesb pfilt cfg) (flat_map cam_row (cands [e])).

Lemma cands_flat : forall js, cands js = flat_map (fun e => cands [e]) js.
Proof.
  intro js. unfold candidates. apply flat_map_ext_in. intros e _. cbn. rewrite app_nil_r. reflexivity.
Qed.

Lemma det_rows : forall st js st' f, detect st js = Ok (st', f) ->
  rows f = filter (passesb pfilt cfg) (flat_map cam_row (cands js)).
Proof.
  intros st js st' f H. unfold detections in H.
  destruct (PPMatchPointing _ _ _ _ _ _ _) as [m|e] eqn:Em in H; cbn [rbind] in H; [|discriminate].
  apply match_ok in Em. destruct Em as [-> _].
  set (f0 := of_rows (map (measure physics) (matched efield pfield pfilt pointings js))) in *.
  assert (Hl0 : seq_labels f0) by apply seq_of_rows.
  assert (Hr0 : rows f0 = cands js).
  { unfold f0. rewrite rows_of_rows. unfold matched, candidates, partners. rewrite map_flat_map.
    apply flat_map_ext_in. intros e _. rewrite map_map. reflexivity. }
  assert (Er : randomize noise gauss cfg st f0 = (st, f0)).
  { unfold randomize. destruct det as [-> _]. reflexivity. }
  rewrite Er in H. cbn [fst snd] in H.
  destruct (fov_stage fsep fov cfg st f0) as [[st2 f2]|e] eqn:Ef; cbn [rbind] in H; [|discriminate].
  assert (Hr2 := fov_det _ _ _ _ Hl0 Ef).
  destruct (fov_ok noise fsep prob gauss fov drop lsep lweights cfg _ _ _ _ Hl0 Ef) as [Hc2 _]. cbn [fst snd] in H.
  assert (Efd : forall g, fading_stage prob drop cfg st2 g = (st2, g)).
  { intro g. unfold fading_stage. destruct det as [_ [-> _]]. reflexivity. }
  rewrite Efd in H. cbn [fst snd] in H.
  destruct (bright_stage pfilt cfg _) as [f6|e] eqn:Eb in H; cbn [rmap] in H; [|discriminate].
  injection H as <- <-.
  assert (Hc4 : consistent (mag_stage cfg (snr_stage cfg f2))) by (apply mag_consistent, snr_consistent; auto).
  rewrite (bright_ok _ _ _ _ Hc4 Eb), mag_rows, snr_rows, Hr2, Hr0.
  unfold passesb. generalize (flat_map cam_row (cands js)). clear. intro l.
  induction l as [|o l IH]; cbn [filter]; auto.
  destruct (match snr_limit cfg with Some lim => nltb lim (k_snr (o_col o)) | None => true end); cbn [filter andb]; auto.
  destruct (match mag_limit cfg with Some lim => nltb (k_trailed (o_col o)) lim | None => true end); cbn [filter andb]; auto.
  destruct (negb (is_saturated pfilt cfg o)); congruence.
Qed.

Lemma det_yields : forall st js st' f, detect st js = Ok (st', f) -> rows f = flat_map yields js.
Proof.
  intros st js st' f H. rewrite (det_rows _ _ _ _ H), cands_flat, flat_map_flat_map, filter_flat_map. reflexivity.
Qed.

Lemma yields_oid : forall e o, In o (yields e) -> eid (o_eph o) = eid e.
Proof.
  intros e o H. unfold yields in H. apply filter_In in H. destruct H as [H _].
  apply in_flat_map in H. destruct H as [o0 [H0 H]].
  assert (E0 : o_eph o0 = e).
  { unfold candidates in H0. cbn in H0. rewrite app_nil_r in H0. apply in_map_iff in H0.
    destruct H0 as [p [<- _]]. reflexivity. }
  assert (o_eph o = o_eph o0).
  { unfold cam_row in H. destruct (cam cfg) as [|on|on|[r|] fill]; cbn in H.
    - destruct H as [<-|[]]; auto.
    - apply in_map_iff in H. destruct H as [d [<- _]]. reflexivity.
    - destruct (on [o0] 0); [destruct H as [<-|[]]; auto|destruct H].
    - destruct (_ || _); [destruct H as [<-|[]]; auto|destruct H].
    - destruct H as [<-|[]]; auto. }
  congruence.
Qed.

(** *** What is written, given the rows of each object *)
Hypothesis osorter : sorter (fun x : obs E P * bool * option Z => etime (o_eph (fst (fst x)))) osort.
Hypothesis tsorter : sorter (fun o : obs E P => etime (o_eph o)) tsort.
Definition link_sane : Prop :=
  match linking cfg with
  | Some (c, _) => (1 <= c_window c)%Z /\ (1 <= c_nlink c)%Z /\ (1 <= c_min_obs c)%Z
                   /\ forall n k m, generic (lweights n k) m
  | None => True
  end.
Hypothesis sane : link_sane.

Lemma link_local : exists verdict : list (obs E P) -> option Z,
  forall st f st' l, link_stage eid efield etime lsep tsort ldraws osort lweights cfg st f = Ok (st', l) ->
  Permutation l
    match linking cfg with
    | None => map (fun o => (o, None)) (rows f)
    | Some (_, dropu) =>
        map (fun o => let v := verdict (rows_of (oid eid) (oid eid o) (rows f)) in (o, Some (is_some v, v)))
          (filter (fun o => negb dropu || is_some (verdict (rows_of (oid eid) (oid eid o) (rows f)))) (rows f))
    end.
Proof.
  unfold link_sane in sane. unfold link_stage. destruct (linking cfg) as [[c dropu]|].
  2:{ exists (fun _ => None). intros st f st' l H. injection H as <- <-. auto. }
  destruct sane as (H1 & H2 & H3 & H4).
  destruct (C06_proof (oid eid) (fun o : obs E P => efield (o_eph o)) (fun o : obs E P => etime (o_eph o))
     (fun o : obs E P => k_ra (o_col o)) lsep tsort ldraws tsorter osort osorter c H1 H2 H3) as [verdict Hv].
  exists verdict. intros st f st' l H. destruct f as [|x0 f0]; [injection H as <- <-; auto|].
  cbn [nonempty] in H. set (f := x0 :: f0) in *. clearbody f. clear x0 f0.
  destruct (PPLinkingFilter _ _ _ _ _ _ _ _ _ _ _ _) as [out|e] eqn:El in H; cbn [rmap] in H; [|discriminate].
  injection H as <- <-.
  destruct (Hv (lweights (n_link st)) dropu (rows f) out ltac:(intro; apply H4) El) as [kept [Hk Hp]].
  assert (Ek : kept = filter (fun o => negb dropu || is_some (verdict (rows_of (oid eid) (oid eid o) (rows f)))) (rows f)).
  { eapply selected_functional; [exact Hk|]. apply selected_filter. intros o _.
    destruct dropu; cbn.
    - destruct (verdict _) as [z|]; cbn; split; intros Hx; [discriminate|reflexivity|discriminate|exfalso; apply Hx; reflexivity].
    - split; intros; auto; discriminate. }
  rewrite <- Ek. apply (Permutation_map (fun x => (fst (fst x), Some (snd (fst x), snd x)))) in Hp.
  eapply perm_trans; [exact Hp|]. rewrite map_map. cbn. apply Permutation_refl'. apply map_ext.
  intro o. destruct (verdict _); reflexivity.
Qed.

(** Decoration of rows [l] of a table [ctx]. *)
Definition deco (verdict : list (obs E P) -> option Z) (ctx l : list (obs E P)) : list (out_row (E := E) (P := P)) :=
  match linking cfg with
  | None => map (fun o => (o, None)) l
  | Some (_, dropu) =>
      map (fun o => let v := verdict (rows_of (oid eid) (oid eid o) ctx) in (o, Some (is_some v, v)))
        (filter (fun o => negb dropu || is_some (verdict (rows_of (oid eid) (oid eid o) ctx))) l)
  end.
Lemma deco_app : forall v ctx a b, deco v ctx (a ++ b) = deco v ctx a ++ deco v ctx b.
Proof.
  intros. unfold deco. destruct (linking cfg) as [[c d]|]; [rewrite filter_app|]; apply map_app.
Qed.
Lemma deco_perm : forall v ctx a b, Permutation a b -> Permutation (deco v ctx a) (deco v ctx b).
Proof.
  intros v ctx a b H. unfold deco. destruct (linking cfg) as [[c d]|]; apply Permutation_map; auto.
  clear - H. induction H; cbn.
  - constructor.
  - destruct (_ || _); auto.
  - destruct (_ || _), (_ || _); auto using perm_swap.
  - eapply perm_trans; eauto.
Qed.
Lemma deco_ctx : forall v ctx ctx' l,
  (forall o, In o l -> rows_of (oid eid) (oid eid o) ctx = rows_of (oid eid) (oid eid o) ctx') ->
  deco v ctx l = deco v ctx' l.
Proof.
  intros v ctx ctx' l H. unfold deco. destruct (linking cfg) as [[c d]|]; auto.
  rewrite (filter_ext_in _ (fun o => negb d || is_some (v (rows_of (oid eid) (oid eid o) ctx')))).
  - apply map_ext_in. intros o Ho. apply filter_In in Ho. rewrite H by tauto. reflexivity.
  - intros o Ho. rewrite H by auto. reflexivity.
Qed.

Lemma process_local : exists verdict, forall st js st' ol, proc st js = Ok (st', ol) ->
  Permutation (rows_written ol) (deco verdict (flat_map yields js) (flat_map yields js)).
Proof.
  destruct link_local as [verdict Hv]. exists verdict. intros st js st' ol H. unfold process in H.
  destruct js as [|j js0].
  { injection H as <- <-. cbn. unfold deco. destruct (linking cfg) as [[? ?]|]; auto. }
  set (js := j :: js0) in *. clearbody js.
  destruct (detect st js) as [[st1 f]|e] eqn:Ed; cbn [rbind] in H; [|discriminate].
  cbn [fst snd] in H.
  destruct (link_stage _ _ _ _ _ _ _ _ _ _ _) as [[st2 l2]|e] eqn:El in H; cbn [rmap fst snd] in H; [|discriminate].
  injection H as <- <-.
  assert (Ew : rows_written match l2 with [] => None | x :: l => Some (x :: l) end = l2) by (destruct l2; auto).
  rewrite Ew. rewrite <- (det_yields _ _ _ _ Ed). exact (Hv _ _ _ _ El).
Qed.

Lemma rows_of_yields : forall i js,
  rows_of (oid eid) i (flat_map yields js) = flat_map yields (filter (fun j => String.eqb (eid j) i) js).
Proof.
  intros i js. induction js as [|j js IH]; cbn; auto.
  unfold rows_of in *. rewrite filter_app, IH.
  destruct (String.eqb_spec (eid j) i) as [Ei|Ei].
  - cbn. f_equal. rewrite (filter_ext_in _ (fun _ => true)); [apply filter_true; auto|].
    intros o Ho. apply yields_oid in Ho. unfold oid. rewrite Ho. apply String.eqb_eq; auto.
  - replace (filter _ (yields j)) with (@nil (obs E P)); auto. symmetry.
    rewrite (filter_ext_in _ (fun _ => false)).
    + clear. induction (yields j); auto.
    + intros o Ho. apply yields_oid in Ho. unfold oid. rewrite Ho. apply String.eqb_neq; auto.
Qed.
End Det.

(** *** Joined rows of a block *)
Section Join.
Context {E R : Type}.
Variable EPH : list (string * E).
Variable tables : list (list (string * R)).
Variable T : list (string * R).

Definition look (i : string) (X : list (string * R)) : option R :=
  match find (fun r => String.eqb (fst r) i) X with Some r => Some (snd r) | None => None end.
Definition join1 (e : string * E) : joined E R := (e, map (look (fst e)) (T :: tables)).

Lemma look_in : forall i X a, NoDup (map fst X) -> In (i, a) X -> look i X = Some a.
Proof.
  intros i X a. unfold look. induction X as [|[j b] X IH]; cbn; [tauto|].
  intros Hn [H|H].
  - inversion H; subst. rewrite String.eqb_refl. reflexivity.
  - inversion Hn; subst. destruct (String.eqb_spec j i) as [->|Hne].
    + exfalso. apply H2. change i with (fst (i, a)). apply in_map; auto.
    + auto.
Qed.

Hypothesis Tnd : NoDup (map fst T).
Hypothesis Xnd : forall X, In X tables -> NoDup (map fst X).

Lemma own_data_join : forall b i auxs, (forall r, In r b -> In r T) -> own_data i (b :: tables) auxs ->
  auxs = map (look i) (T :: tables).
Proof.
  intros b i auxs Hb H. unfold own_data in H. inversion H as [|? o ? l [a [-> Ha]] Hr]; subst.
  cbn [map]. f_equal.
  - symmetry. apply look_in; auto.
  - clear - Hr Xnd. revert Xnd. induction Hr as [|X o Xs os [a [-> Ha]] Hr IH]; intro Xnd; cbn; auto.
    f_equal; [symmetry; apply look_in; auto with datatypes|]. apply IH. intros; apply Xnd; right; auto.
Qed.

Lemma block_rows : forall b js, (forall r, In r b -> In r T) -> ext_block EPH tables b js ->
  js = map join1 (filter (fun e => existsb (String.eqb (fst e)) (map fst b)) EPH).
Proof.
  intros b js Hb [eph [Hs HF]].
  assert (He : eph = filter (fun e => existsb (String.eqb (fst e)) (map fst b)) EPH).
  { eapply selected_functional; [exact Hs|]. apply selected_filter. intros e _.
    rewrite existsb_exists. split.
    - intros [i [Hi Hq]]. apply String.eqb_eq in Hq. congruence.
    - intro Hi. exists (fst e). split; auto. apply String.eqb_refl. }
  rewrite <- He. clear He Hs. induction HF as [|e j eph js [H1 H2] HF IH]; cbn; auto.
  f_equal; auto. unfold join1. rewrite <- (own_data_join _ _ _ Hb H2), <- H1. destruct j; auto.
Qed.
End Join.

Lemma filter_disjoint_perm : forall A (p q : A -> bool) l, (forall x, In x l -> p x = true -> q x = true -> False) ->
  Permutation (filter (fun x => p x || q x) l) (filter p l ++ filter q l).
Proof.
  intros A p q l. induction l as [|x l IH]; intro H; cbn; auto.
  specialize (IH ltac:(intros; eapply H; eauto with datatypes)).
  destruct (p x) eqn:Ep, (q x) eqn:Eq; cbn; auto.
  - exfalso. eapply H; eauto with datatypes.
  - apply Permutation_cons_app. auto.
Qed.

Lemma blocks_perm : forall A (id : A -> string) (blocks : list (list string)) l,
  NoDup (concat blocks) ->
  Permutation (filter (fun x => existsb (String.eqb (id x)) (concat blocks)) l)
    (flat_map (fun b => filter (fun x => existsb (String.eqb (id x)) b) l) blocks).
Proof.
  intros A id blocks l. induction blocks as [|b bs IH]; intro H; cbn.
  - clear. induction l; auto.
  - assert (Hd : forall i, In i b -> In i (concat bs) -> False).
    { cbn in H. clear - H. induction b as [|x b IHb]; cbn in *; [tauto|]. inversion H; subst.
      intros i [->|Hi] Hi2; [apply H2; apply in_or_app; auto|eauto]. }
    eapply perm_trans.
    + rewrite (filter_ext _ (fun x => existsb (String.eqb (id x)) b || existsb (String.eqb (id x)) (concat bs))).
      2:{ intro x. apply existsb_app. }
      apply filter_disjoint_perm. intros x _ H1 H2. apply existsb_exists in H1, H2.
      destruct H1 as [i [Hi1 Hi2]], H2 as [j [Hj1 Hj2]]. apply String.eqb_eq in Hi2, Hj2.
      apply (Hd (id x)); congruence.
    + apply Permutation_app_head, IH. cbn in H. clear - H. induction b; auto. inversion H; auto.
Qed.

Lemma trace_steps : forall S C O (read : nat -> Z -> result (nat * option C))
    (process : S -> C -> result (S * option O)) lenf size rounds st stt tr,
  main_loop read process rounds lenf size st = (stt, tr) ->
  Forall (fun r => exists s s', process s (fst r) = Ok (s', snd r)) tr.
Proof.
  intros S C O read process lenf size. induction rounds as [|rounds IH]; intros st stt tr H; cbn [main_loop] in H.
  - destruct (_ <? _)%Z; injection H as <- <-; constructor.
  - destruct (_ <? _)%Z; [|injection H as <- <-; constructor].
    destruct (read _ _) as [[nx [c|]]|e]; try (injection H as <- <-; constructor).
    destruct (process (inner st) c) as [[s' o]|e] eqn:Ep; [|injection H as <- <-; constructor].
    destruct (main_loop _ _ rounds _ _ _) as [stt2 tr2] eqn:Er. cbn [fst snd] in H.
    injection H as <- <-. constructor; [cbn; eauto|]. eapply IH; eauto.
Qed.

Lemma concat_written : forall C A (tr : list (C * option (list A))),
  concat (written tr) = flat_map (fun r => rows_written (snd r)) tr.
Proof.
  intros. unfold written. induction tr as [|[c [l|]] tr IH]; cbn; auto. rewrite IH. reflexivity.
Qed.

Lemma Permutation_flat_map_map : forall A B (f : A -> list B) l l', Permutation l l' ->
  Permutation (flat_map f l) (flat_map f l').
Proof. intros. apply Permutation_flat_map. auto. Qed.

Lemma run_shape : forall E P R (efield : joined E R -> Z) (etime : joined E R -> Q) (pfield : P -> Z) (pfilt : P -> option string)
    (pstart : P -> Q) pointings physics noise fsep prob gauss fov drop lsep tsort ldraws osort lweights
    (cfg : settings (joined E R) P)
    (EPH : list (string * E)) ephem (aux0 : nat -> option nat -> result (list (string * R))) others tables T
    (verdict : list (obs (joined E R) P) -> option Z),
  let eid := fun j : joined E R => fst (fst j) in
  let Y := yields efield pfield pfilt pointings physics fsep cfg in
  let every := map (@join1 E R tables T) (filter (fun e => existsb (String.eqb (fst e)) (map fst T)) EPH) in
  let proc := process eid efield etime pfield pfilt pstart pointings physics noise fsep prob
         gauss fov drop lsep tsort ldraws osort lweights cfg in
  (forall st js st' ol, (forall j, In j js -> In j every) -> proc st js = Ok (st', ol) ->
     Permutation (rows_written ol) (deco eid cfg verdict (flat_map Y js) (flat_map Y js))) ->
  exact_reader EPH ephem -> (forall s n, aux0 s n = Ok (slice s n T)) ->
  Forall2 exact_reader tables others ->
  NoDup (map fst T) -> (forall X, In X tables -> NoDup (map fst X)) ->
  (forall i, In i (map fst T) -> forall X, In X tables -> In i (map fst X)) ->
  forall k rounds s0 tr, 0 < k ->
  run (read_external aux0 ephem others) proc rounds (Z.of_nat (length T)) (Z.of_nat k) s0 = (Done, tr) ->
  Permutation (concat (written tr)) (deco eid cfg verdict (flat_map Y every) (flat_map Y every)).
Proof.
  intros E P R efield etime pfield pfilt pstart pointings physics noise fsep prob gauss fov drop lsep tsort ldraws osort lweights
    cfg EPH ephem aux0 others tables T verdict eid Y0 every proc Hp He Ha Hoth HT HX Hi k rounds s0 tr Hk Hrun. unfold proc in *. clear proc.
  set (J := @join1 E R tables T) in *.
  change Y0 with (yields efield pfield pfilt pointings physics fsep cfg) in *. clear Y0.
  set (Y := yields efield pfield pfilt pointings physics fsep cfg) in *.
  assert (HY : forall i l, rows_of (oid eid) i (flat_map Y l) = flat_map Y (filter (fun j => String.eqb (eid j) i) l)).
  { intros i l. apply rows_of_yields. }
  set (inb := fun (b : list string) (e : string * E) => existsb (String.eqb (fst e)) b) in *.
  change every with (map J (filter (inb (map fst T)) EPH)) in *. clear every.
  set (ALL := flat_map Y (map J (filter (inb (map fst T)) EPH))) in *.
  destruct (C13_external_proof _ _ _ _ EPH ephem aux0 others tables T _ k He Ha Hoth HT HX Hi Hk _ _ _ _ Hrun)
    as [blocks [HF [Hcut [Hcat _]]]].
  assert (Hst := trace_steps _ _ _ _ _ _ _ _ _ _ _ Hrun).
  rewrite concat_written.
  assert (Hsub : forall b, In b blocks -> forall r, In r b -> In r T).
  { intros b Hb r Hr. rewrite <- Hcat. apply in_concat. eauto. }
  assert (Hout : Permutation (flat_map (fun r => rows_written (snd r)) tr)
     (flat_map (fun b => deco eid cfg verdict ALL (flat_map Y (map J (filter (inb (map fst b)) EPH)))) blocks)).
  { clear Hrun Hcut Hcat. revert blocks HF Hsub. induction tr as [|[js ol] tr IH]; intros blocks HF Hsub.
    - inversion HF; subst. constructor.
    - inversion HF as [|b js' bl tr' Hb HF']; subst. inversion Hst as [|? ? [s [s' Hpr]] Hst']; subst.
      cbn [flat_map snd fst] in *. apply Permutation_app.
      + assert (Ejs : js = map J (filter (inb (map fst b)) EPH)).
        { eapply (block_rows EPH tables T HT HX b js); [|exact Hb]. apply Hsub. left; auto. }
        assert (Hevery : forall j, In j js -> In j (map J (filter (inb (map fst T)) EPH))).
        { rewrite Ejs. intros j Hj. apply in_map_iff in Hj. destruct Hj as [e [<- Hj]]. apply in_map.
          apply filter_In in Hj. destruct Hj as [H1 H2]. apply filter_In. split; auto.
          unfold inb in *. apply existsb_exists in H2. destruct H2 as [i [H2 H3]]. apply existsb_exists.
          exists i. split; auto. apply in_map_iff in H2. destruct H2 as [r [<- H2]]. apply in_map.
          eapply Hsub; [left; reflexivity|auto]. }
        eapply perm_trans; [exact (Hp _ _ _ _ Hevery Hpr)|].
        apply Permutation_refl'.
        rewrite Ejs. unshelve eapply deco_ctx; [exact noise|exact fsep|exact prob|exact lsep|]. intros o Hin.
        unfold ALL. rewrite !HY. f_equal.
        assert (Hid : In (oid eid o) (map fst b)).
        { apply in_flat_map in Hin. destruct Hin as [j [Hj Hoj]]. apply (yields_oid eid) in Hoj.
          unfold oid. rewrite Hoj. apply in_map_iff in Hj. destruct Hj as [e [<- Hfe]].
          apply filter_In in Hfe. destruct Hfe as [_ Hfe]. unfold inb in Hfe. apply existsb_exists in Hfe.
          destruct Hfe as [i [Hib Hq]]. apply String.eqb_eq in Hq. change (In (fst e) (map fst b)). rewrite Hq. auto. }
        assert (HidT : In (oid eid o) (map fst T)).
        { apply in_map_iff in Hid. destruct Hid as [r [Hr1 Hr2]]. rewrite <- Hr1. apply in_map. eapply Hsub; [left; reflexivity|auto]. }
        assert (Hflt : forall ids, In (oid eid o) ids ->
           filter (fun j => String.eqb (eid j) (oid eid o)) (map J (filter (inb ids) EPH))
           = map J (filter (fun e => String.eqb (fst e) (oid eid o)) EPH)).
        { intros ids Hin'. clear - Hin'. induction EPH as [|e l IHl]; [reflexivity|]. cbn [filter].
          destruct (inb ids e) eqn:Eb; cbn [map filter].
          - change (eid (J e)) with (fst e). destruct (String.eqb (fst e) (oid eid o)); cbn [map]; rewrite IHl; reflexivity.
          - destruct (String.eqb_spec (fst e) (oid eid o)) as [Eq|_]; auto.
            unfold inb in Eb. exfalso. apply Bool.not_true_iff_false in Eb. apply Eb. apply existsb_exists.
            exists (oid eid o). rewrite Eq. split; auto. apply String.eqb_refl. }
        rewrite !Hflt by auto. reflexivity.
      + apply IH; auto. intros b' Hb'. apply Hsub. right; auto. }
  eapply perm_trans; [exact Hout|].
  assert (Hdf : forall bl : list (list (string * R)), flat_map (fun b => deco eid cfg verdict ALL (flat_map Y (map J (filter (inb (map fst b)) EPH)))) bl
     = deco eid cfg verdict ALL (flat_map Y (map J (flat_map (fun b => filter (inb (map fst b)) EPH) bl)))).
  { induction bl as [|b bl IHb].
    - cbn. unfold deco. destruct (linking cfg) as [[? ?]|]; reflexivity.
    - cbn [flat_map]. rewrite IHb, map_app, flat_map_app, deco_app. reflexivity. }
  rewrite Hdf. apply deco_perm. unfold ALL. apply Permutation_flat_map, Permutation_map.
  symmetry. rewrite <- Hcat, concat_map.
  eapply perm_trans.
  - apply (blocks_perm _ (fun e : string * E => fst e)). rewrite <- concat_map, Hcat. auto.
  - rewrite flat_map_map. reflexivity.
Qed.

Lemma C15_proof : forall E P R (efield : joined E R -> Z) (etime : joined E R -> Q) (pfield : P -> Z) (pfilt : P -> option string)
    (pstart : P -> Q) pointings physics noise fsep prob gauss fov drop lsep tsort ldraws osort lweights
    (cfg : settings (joined E R) P)
    (EPH : list (string * E)) ephem (aux0 : nat -> option nat -> result (list (string * R))) others tables T,
  deterministic cfg ->
  sorter (fun x : obs (joined E R) P * bool * option Z => etime (o_eph (fst (fst x)))) osort ->
  sorter (fun o : obs (joined E R) P => etime (o_eph o)) tsort ->
  (forall c d, linking cfg = Some (c, d) -> (1 <= c_window c)%Z /\ (1 <= c_nlink c)%Z /\ (1 <= c_min_obs c)%Z
     /\ forall n k m, generic (lweights n k) m) ->
  exact_reader EPH ephem -> (forall s n, aux0 s n = Ok (slice s n T)) ->
  Forall2 exact_reader tables others ->
  NoDup (map fst T) -> (forall X, In X tables -> NoDup (map fst X)) ->
  (forall i, In i (map fst T) -> forall X, In X tables -> In i (map fst X)) ->
  exists catalogue, forall k rounds s0 tr, 0 < k ->
  run (read_external aux0 ephem others)
      (process (fun j => fst (fst j)) efield etime pfield pfilt pstart pointings physics noise fsep prob
         gauss fov drop lsep tsort ldraws osort lweights cfg)
      rounds (Z.of_nat (length T)) (Z.of_nat k) s0 = (Done, tr) ->
  Permutation (concat (written tr)) catalogue.
Proof.
  intros E P R efield etime pfield pfilt pstart pointings physics noise fsep prob gauss fov drop lsep tsort ldraws osort lweights
    cfg EPH ephem aux0 others tables T det Ho Ht Hsane He Ha Hoth HT HX Hi.
  set (eid := fun j : joined E R => fst (fst j)).
  assert (sane : link_sane lweights cfg).
  { unfold link_sane. destruct (linking cfg) as [[c d]|]; auto. exact (Hsane c d eq_refl). }
  destruct (process_local eid efield etime pfield pfilt pstart pointings physics noise fsep prob gauss fov drop lsep tsort
    ldraws osort lweights cfg det Ho Ht sane) as [verdict Hp].
  eexists. intros k rounds s0 tr Hk Hrun.
  eapply (run_shape E P R efield etime pfield pfilt pstart pointings physics noise fsep prob gauss fov drop lsep tsort
    ldraws osort lweights cfg EPH ephem aux0 others tables T verdict); eauto.
Qed.

(** *** One round, closed statements *)
Lemma C11_cuts_proof : forall E P (eid : E -> string) (efield : E -> Z) (etime : E -> Q) (pfield : P -> Z) (pfilt : P -> option string)
    (pstart : P -> Q) pointings physics noise fsep prob gauss fov drop lsep tsort ldraws osort lweights (cfg : settings E P),
  sorter (fun x : obs E P * bool * option Z => etime (o_eph (fst (fst x)))) osort ->
  forall st js st' ol, process eid efield etime pfield pfilt pstart pointings physics noise fsep prob
         gauss fov drop lsep tsort ldraws osort lweights cfg st js = Ok (st', ol) ->
  forall o x, In (o, x) (rows_written ol) ->
    passes pfilt cfg o /\ on_camera fsep cfg o /\
    (forall c, linking cfg = Some (c, true) -> exists d, x = Some (true, Some d)).
Proof.
  intros until cfg. intros Hos st js st' ol H o x Hin. destruct ol as [l|]; [|destruct Hin].
  destruct (process_rows eid efield etime pfield pfilt pstart pointings physics noise fsep prob gauss fov drop lsep tsort ldraws osort lweights cfg Hos _ _ _ _ H) as [H1 _]. destruct (H1 o x Hin) as (_ & H2 & H3 & H4). auto.
Qed.

Lemma C11_exact_proof : forall E P (eid : E -> string) (efield : E -> Z) (etime : E -> Q) (pfield : P -> Z) (pfilt : P -> option string)
    (pstart : P -> Q) pointings physics noise fsep prob gauss fov drop lsep tsort ldraws osort lweights (cfg : settings E P),
  deterministic cfg -> linking cfg = None -> (forall on, cam cfg <> CamFootprint on) -> (forall on, cam cfg <> CamVisits on) ->
  forall st js st' ol, process eid efield etime pfield pfilt pstart pointings physics noise fsep prob
         gauss fov drop lsep tsort ldraws osort lweights cfg st js = Ok (st', ol) ->
  selected (fun o => passes pfilt cfg o /\ on_camera fsep cfg o)
    (candidates efield pfield pfilt physics pointings js) (map fst (rows_written ol)).
Proof.
  intros until cfg. intros det Hl Hc Hv st js st' ol H. unfold process in H. destruct js as [|j js0].
  { injection H as <- <-. constructor. }
  set (js := j :: js0) in *. clearbody js. clear j js0.
  destruct (detections _ _ _ _ _ _ _ _ _ _ _ _ _ _ _ _) as [[st1 f]|e] eqn:Ed; cbn [rbind] in H; [|discriminate].
  unfold link_stage in H. rewrite Hl in H. cbn [rmap fst snd] in H.
  assert (Ew : rows_written ol = map (fun o => (o, None)) (rows f)).
  { injection H as _ <-. destruct (rows f); reflexivity. }
  rewrite Ew, map_map. cbn. rewrite map_id.
  rewrite (det_rows efield etime pfield pfilt pstart pointings physics noise fsep prob gauss fov drop lsep lweights cfg det _ _ _ _ Ed).
  assert (Hf : forall o, In o (candidates efield pfield pfilt physics pointings js) -> pfilt (o_pnt o) <> None).
  { intros o Ho. unfold candidates in Ho. apply in_flat_map in Ho. destruct Ho as [e [_ Ho]].
    apply in_map_iff in Ho. destruct Ho as [p [<- Ho]]. apply filter_In in Ho. destruct Ho as [_ Ho].
    apply andb_prop in Ho. destruct Ho as [_ Ho]. cbn. destruct (pfilt p); congruence. }
  revert Hf. generalize (candidates efield pfield pfilt physics pointings js). intros l Hf.
  replace (filter (passesb pfilt cfg) (flat_map (cam_row fsep cfg) l))
    with (filter (fun o => match cam cfg with CamCircle (Some r) _ => negb (truthy (Some r)) || nltb (fsep o) r | _ => true end
                             && passesb pfilt cfg o) l).
  - apply selected_filter. intros o Hol. rewrite Bool.andb_true_iff.
    assert (Hps : passesb pfilt cfg o = true <-> passes pfilt cfg o) by (eapply passesb_spec; eauto).
    rewrite Hps.
    assert ((match cam cfg with CamCircle (Some r) _ => negb (truthy (Some r)) || nltb (fsep o) r | _ => true end) = true
            <-> on_camera fsep cfg o); [|tauto].
    unfold on_camera. destruct det as [_ [_ Hcam]]. destruct (cam cfg) as [|on|on|[r|] fill]; try solve [split; auto].
    + destruct (Hc on eq_refl).
    + destruct (Hv on eq_refl).
    + rewrite Bool.orb_true_iff, nltb_lt, Bool.negb_true_iff.
      assert (truthy (Some r) = false <-> exists q, r = Fin q /\ (q == 0)%Q); [|tauto].
      split; [apply truthy_false|]. intros [q [-> Hq]]. unfold truthy. cbn.
      apply Qeq_bool_iff in Hq. rewrite Hq. reflexivity.
  - clear - Hc Hv. induction l as [|o l IH]; cbn; auto. rewrite filter_app, <- IH.
    unfold cam_row. destruct (cam cfg) as [|on|on|[r|] fill] eqn:Ec; cbn [andb filter].
    + destruct (passesb pfilt cfg o); reflexivity.
    + destruct (Hc on eq_refl).
    + destruct (Hv on eq_refl).
    + destruct (_ || _); cbn [andb filter]; [destruct (passesb pfilt cfg o)|]; reflexivity.
    + destruct (passesb pfilt cfg o); reflexivity.
Qed.

(** ** Every stage of a round *)
Section Stages.
Context {E P : Type}.
Variable fsep : obs E P -> num.
Variable prob : obs E P -> num.
Variables gauss fov drop : nat -> num.
Variable noise : num -> num -> (num * num * num) -> columns -> columns.
Variable cfg : settings E P.

Lemma randomize_stage : forall st f, exists D0,
  selected (fun o => randomization_on cfg = true -> default_snr_cut cfg = true -> num_lt (Fin 2) (k_snr (o_col o))) (rows f) D0 /\
  Forall2 (remeasured cfg noise) D0 (rows (snd (randomize noise gauss cfg st f))) /\
  n_fov (fst (randomize noise gauss cfg st f)) = n_fov st /\ n_drop (fst (randomize noise gauss cfg st f)) = n_drop st.
Proof.
  intros st f. unfold randomize, remeasured. destruct (randomization_on cfg).
  2:{ exists (rows f). split.
      - rewrite <- (filter_true _ (fun _ => true) (rows f)) at 2 by auto. apply selected_filter. intros; split; auto; discriminate.
      - split; [|split; reflexivity]. cbn [snd]. induction (rows f); constructor; auto. split; auto; discriminate. }
  cbn [fst snd n_fov n_drop]. set (f1 := if default_snr_cut cfg then PPSNRLimit _ _ f else f).
  exists (rows f1). split.
  - unfold f1. destruct (default_snr_cut cfg).
    + unfold PPSNRLimit. rewrite rows_reset_index, rows_mask. apply selected_filter. intros o _. rewrite nltb_lt. tauto.
    + rewrite <- (filter_true _ (fun _ => true) (rows f)) at 2 by auto. apply selected_filter. intros; split; auto; discriminate.
  - split; [|split; reflexivity]. clearbody f1.
    assert (G : forall g k (h : nat -> obs E P -> obs E P), (forall i o, (true = false -> h i o = o) /\ (true = true -> o_eph (h i o) = o_eph o /\ o_pnt (h i o) = o_pnt o
        /\ o_det (h i o) = o_det o /\ exists a b c, o_col (h i o) = noise a b c (o_col o))) ->
      Forall2 (fun o o' : obs E P => (true = false -> o' = o) /\ (true = true -> o_eph o' = o_eph o /\ o_pnt o' = o_pnt o
        /\ o_det o' = o_det o /\ exists a b c, o_col o' = noise a b c (o_col o))) (rows g) (rows (update_pos h k g))).
    { induction g as [|[i o] g IH]; intros k h Hh; [constructor|]. cbn [update_pos rows map snd fst].
      constructor; [apply Hh|apply IH, Hh]. }
    apply G. intros i o. split; [discriminate|]. intros _. cbn. split; auto. split; auto. split; auto. eauto.
Qed.

Lemma visits_seq : forall on (f : frame (obs E P)), rows (visits_rows (on (rows f)) 0 f) =
  flat_map (fun i => match nth_error (rows f) i, on (rows f) i with
                     | Some o, Some d => [set_det (Some d) o] | _, _ => [] end) (seq 0 (length (rows f))).
Proof.
  intros on f. generalize (on (rows f)). intro g.
  assert (G : forall pre suf, rows f = pre ++ rows suf -> rows (visits_rows g (length pre) suf) =
     flat_map (fun i => match nth_error (rows f) i, g i with Some o, Some d => [set_det (Some d) o] | _, _ => [] end)
       (seq (length pre) (length (rows suf)))).
  { intros pre suf. revert pre. induction suf as [|[i o] suf IH]; intros pre E0; [reflexivity|].
    assert (E1 : nth_error (rows f) (length pre) = Some o).
    { rewrite E0, nth_error_app2, Nat.sub_diag by lia. reflexivity. }
    specialize (IH (pre ++ [o])). rewrite app_length in IH. cbn [length] in IH.
    rewrite Nat.add_1_r, <- app_assoc in IH. specialize (IH E0).
    cbn [visits_rows rows map length seq flat_map snd fst]. rewrite E1.
    destruct (g (length pre)) as [d|]; cbn [app map snd]; [f_equal|]; exact IH. }
  exact (G [] f eq_refl).
Qed.

Lemma camera_stage : forall st f st2 f2, seq_labels f -> fov_stage fsep fov cfg st f = Ok (st2, f2) ->
  camera_keeps fsep fov (n_fov st) cfg (rows f) (rows f2) /\ n_drop st2 = n_drop st.
Proof.
  intros st f st2 f2 Hs H. unfold fov_stage, camera_keeps in *. destruct f as [|x0 f0].
  { injection H as <- <-. split; auto. destruct (cam cfg) as [|on|on|r [x|]] eqn:Ec; try reflexivity.
    - exists []. split; [constructor|]. destruct x as [| |q|]; try (right; split; [intros (? & ? & _); discriminate|constructor]).
      destruct (Qeq_dec q 0) as [Hq|Hq]; [left; exists q; auto|].
      right. split; [intros (q' & E0 & Hq'); injection E0 as <-; auto|constructor].
    - exists []. split; [constructor|reflexivity]. }
  cbn [nonempty] in H. set (f := x0 :: f0) in *. clearbody f. clear x0 f0.
  destruct (cam cfg) as [|on|on|radius fill] eqn:Ec.
  - injection H as <- <-. auto.
  - injection H as <- <-. split; auto. unfold footprint_rows, rows, sightings. rewrite Ec, map_flat_map, flat_map_map.
    apply flat_map_ext_in. intros [l o] _. cbn. rewrite map_map. reflexivity.
  - injection H as <- <-. split; auto. apply visits_seq.
  - destruct (circle_model _ _ _ _ _) as [f3|e] eqn:Em in H; [|discriminate]. injection H as <- <-. split; auto.
    unfold circle_model in Em.
    set (f1 := match radius with Some r => if truthy radius then PPCircleFootprint fsep r f else f | None => f end) in *.
    assert (H1 : seq_labels f1).
    { unfold f1. destruct radius; auto. destruct (truthy (Some n)); auto. apply circle_labels. }
    assert (H2 : selected (on_camera fsep cfg) (rows f) (rows f1)).
    { unfold f1, on_camera. rewrite Ec. destruct radius as [r|].
      2:{ rewrite <- (filter_true _ (fun _ => true) (rows f)) at 2 by auto. apply selected_filter. tauto. }
      destruct (truthy (Some r)) eqn:Et.
      - unfold PPCircleFootprint. rewrite rows_reset_index, rows_mask. apply selected_filter. intros o _. rewrite nltb_lt.
        split; auto. intros [(q & -> & Hq)|?]; auto. exfalso. unfold truthy in Et.
        apply Qeq_bool_iff in Hq. cbn in Et. rewrite Hq in Et. discriminate.
      - rewrite <- (filter_true _ (fun _ => true) (rows f)) at 2 by auto. apply selected_filter. intros o _. split; auto.
        intros _. left. apply truthy_false. auto. }
    exists (rows f1). split; auto. destruct fill as [x|].
    + destruct (truthy (Some x)) eqn:Et.
      * destruct (sensor_area_spec _ x (fun i => fov (n_fov st + i)) f1 H1) as [o [Ho [Hsel Hl]]].
        rewrite Ho in Em. injection Em as <-. right. split; [|exact Hsel].
        intros (q & -> & Hq). apply Qeq_bool_iff in Hq. cbn in Et. rewrite Hq in Et. discriminate.
      * injection Em as <-. left. apply truthy_false in Et. destruct Et as (q & E0 & Hq). eauto.
    + injection Em as <-. reflexivity.
Qed.
End Stages.

Lemma C11_stages_proof : forall E P (eid : E -> string) (efield : E -> Z) (etime : E -> Q) (pfield : P -> Z) (pfilt : P -> option string)
    (pstart : P -> Q) pointings physics noise fsep prob gauss fov drop lsep tsort ldraws osort lweights (cfg : settings E P),
  sorter (fun x : obs E P * bool * option Z => etime (o_eph (fst (fst x)))) osort ->
  forall st js st' ol, process eid efield etime pfield pfilt pstart pointings physics noise fsep prob
         gauss fov drop lsep tsort ldraws osort lweights cfg st js = Ok (st', ol) ->
  exists clear measured seen above caught unsaturated,
    selected (fun o => randomization_on cfg = true -> default_snr_cut cfg = true -> num_lt (Fin 2) (k_snr (o_col o)))
      (candidates efield pfield pfilt physics pointings js) clear /\
    Forall2 (remeasured cfg noise) clear measured /\
    camera_keeps fsep fov (n_fov st) cfg measured seen /\
    selected (fun o => (forall lim, snr_limit cfg = Some lim -> num_lt lim (k_snr (o_col o))) /\
                       (forall lim, mag_limit cfg = Some lim -> num_lt (k_trailed (o_col o)) lim)) seen above /\
    (fading_on cfg = false -> caught = above) /\
    (fading_on cfg = true -> selected_pos (fun i o => num_le (drop (n_drop st + i)) (prob o)) 0 above caught) /\
    selected (fun o => ~ saturated pfilt cfg o) caught unsaturated /\
    (linking cfg = None -> rows_written ol = map (fun o => (o, None)) unsaturated) /\
    (forall c dropu, linking cfg = Some (c, dropu) -> exists date : string -> option Z, exists kept,
       selected (fun o => dropu = true -> date (eid (o_eph o)) <> None) unsaturated kept /\
       Permutation (rows_written ol)
         (map (fun o => (o, Some (match date (eid (o_eph o)) with Some _ => true | None => false end, date (eid (o_eph o))))) kept)).
Proof.
  intros until cfg. intros Hos st js st' ol H. unfold process in H. destruct js as [|j js0].
  { injection H as <- <-. exists [], [], [], [], [], []. split; [constructor|]. split; [constructor|].
    split; [|split; [constructor|split; [auto|split; [constructor|split; [constructor|split; [auto|]]]]]].
    - destruct (camera_stage fsep prob fov noise cfg st [] st [] eq_refl eq_refl) as [G _]. exact G.
    - intros c dropu _. exists (fun _ => None), []. split; constructor. }
  set (js := j :: js0) in *. clearbody js. clear j js0.
  destruct (detections _ _ _ _ _ _ _ _ _ _ _ _ _ _ _ _) as [[st1 f]|e] eqn:Ed; cbn [rbind] in H; [|discriminate].
  destruct (link_stage _ _ _ _ _ _ _ _ _ _ _) as [[st9 l9]|e] eqn:El in H; cbn [rmap fst snd] in H; [|discriminate].
  assert (Ew : rows_written ol = l9) by (injection H as _ <-; destruct l9; reflexivity). clear H. rewrite Ew. clear Ew ol.
  unfold detections in Ed.
  destruct (PPMatchPointing _ _ _ _ _ _ _) as [m|e] eqn:Em in Ed; cbn [rbind] in Ed; [|discriminate].
  apply match_ok in Em. destruct Em as [-> _].
  set (f0 := of_rows (map (measure physics) (matched efield pfield pfilt pointings js))) in *.
  assert (Hl0 : seq_labels f0) by apply seq_of_rows.
  assert (Hr0 : rows f0 = candidates efield pfield pfilt physics pointings js).
  { unfold f0. rewrite rows_of_rows. unfold matched, candidates, partners. rewrite map_flat_map.
    apply flat_map_ext_in. intros e _. rewrite map_map. reflexivity. }
  clearbody f0.
  destruct (randomize_stage fsep prob gauss noise cfg st f0) as (D0 & HD0 & HD1 & Hn1 & Hn2). rewrite Hr0 in HD0.
  assert (Hl1 := randomize_labels noise gauss cfg st f0 Hl0).
  destruct (randomize noise gauss cfg st f0) as [st1' f1]. cbn [fst snd] in *.
  destruct (fov_stage fsep fov cfg st1' f1) as [[st2 f2]|e] eqn:Ef; cbn [rbind] in Ed; [|discriminate].
  destruct (camera_stage fsep prob fov noise cfg _ _ _ _ Hl1 Ef) as [HD2 Hn3].
  destruct (fov_ok noise fsep prob gauss fov drop lsep lweights cfg _ _ _ _ Hl1 Ef) as [Hc2 [_ [Hd2 _]]]. cbn [fst snd] in Ed.
  assert (Hc4 : consistent (mag_stage cfg (snr_stage cfg f2))) by (apply mag_consistent, snr_consistent; auto).
  assert (Hc5 := fading_consistent prob drop cfg st2 _ Hc4).
  assert (Hfo : fading_on cfg = false -> rows (snd (fading_stage prob drop cfg st2 (mag_stage cfg (snr_stage cfg f2))))
                 = rows (mag_stage cfg (snr_stage cfg f2))).
  { intro Hf. unfold fading_stage. rewrite Hf. reflexivity. }
  assert (Hfi : fading_on cfg = true -> selected_pos (fun i o => num_le (drop (n_drop st + i)) (prob o)) 0
     (rows (mag_stage cfg (snr_stage cfg f2))) (rows (snd (fading_stage prob drop cfg st2 (mag_stage cfg (snr_stage cfg f2)))))).
  { intro Hf. unfold fading_stage. rewrite Hf, Hn3, Hn2. cbn [andb].
    destruct (mag_stage cfg (snr_stage cfg f2)) as [|x g]; cbn [nonempty snd]; [constructor|].
    apply (fading_selected _ prob (fun i => drop (n_drop st + i))). }
  assert (Hs5 := fading_subseq prob drop cfg st2 (mag_stage cfg (snr_stage cfg f2))).
  destruct (fading_stage prob drop cfg st2 (mag_stage cfg (snr_stage cfg f2))) as [st5 f5]. cbn [fst snd] in *.
  destruct (bright_stage pfilt cfg f5) as [f6|e] eqn:Eb; cbn [rmap] in Ed; [|discriminate]. injection Ed as <- <-.
  assert (Hfilt : forall o, In o (rows f5) -> pfilt (o_pnt o) <> None).
  { intros o Ho. apply (subseq_in _ _ _ _ Hs5) in Ho. rewrite mag_rows, snr_rows in Ho. apply filter_In in Ho.
    destruct Ho as [Ho _]. apply filter_In in Ho. destruct Ho as [Ho _].
    destruct (Hd2 o Ho) as [o1 [Ho1 Heq]]. cbn in Heq. injection Heq as _ -> _.
    assert (G : forall a b, Forall2 (remeasured cfg noise) a b -> forall o1, In o1 b -> exists o0, In o0 a /\ o_pnt o1 = o_pnt o0).
    { intros a b G. induction G as [|x y a b Hxy _ IH]; intros z [].
      - subst z. exists x. split; [left; auto|]. destruct Hxy as [A B]. destruct (randomization_on cfg).
        + destruct (B eq_refl) as (_ & Hp & _). exact Hp.
        + rewrite A; auto.
      - destruct (IH z H) as [o0 [? ?]]. exists o0. split; [right; auto|auto]. }
    destruct (G _ _ HD1 o1 Ho1) as [o0 [Ho0 ->]].
    apply (selected_in _ _ _ _ o0 HD0) in Ho0. destruct Ho0 as [Ho0 _].
    unfold candidates in Ho0. apply in_flat_map in Ho0. destruct Ho0 as [e [_ Ho0]].
    apply in_map_iff in Ho0. destruct Ho0 as [p [<- Ho0]]. apply filter_In in Ho0. destruct Ho0 as [_ Ho0].
    apply andb_prop in Ho0. destruct Ho0 as [_ Ho0]. cbn. destruct (pfilt p); congruence. }
  exists D0, (rows f1), (rows f2), (rows (mag_stage cfg (snr_stage cfg f2))), (rows f5), (rows f6).
  split; [exact HD0|]. split; [exact HD1|]. split; [rewrite <- Hn1; exact HD2|]. split.
  { rewrite mag_rows, snr_rows.
    replace (filter _ (filter _ (rows f2))) with (filter (fun o => match snr_limit cfg with Some lim => nltb lim (k_snr (o_col o)) | None => true end
       && match mag_limit cfg with Some lim => nltb (k_trailed (o_col o)) lim | None => true end) (rows f2)).
    - apply selected_filter. intros o _. rewrite andb_true_iff. destruct (snr_limit cfg) as [a|], (mag_limit cfg) as [b|];
        rewrite ?nltb_lt; split; intros [? ?]; split; auto; try (intros ? Hx; injection Hx as <-; auto); intros; discriminate.
    - clear. induction (rows f2) as [|o l IH]; cbn; auto.
      destruct (match snr_limit cfg with Some lim => nltb lim (k_snr (o_col o)) | None => true end); cbn [andb filter]; auto.
      destruct (match mag_limit cfg with Some lim => nltb (k_trailed (o_col o)) lim | None => true end); cbn [filter]; congruence. }
  split; [exact Hfo|]. split; [exact Hfi|]. split.
  { rewrite (bright_ok _ _ _ _ Hc5 Eb). apply selected_filter. intros o Ho. rewrite negb_true_iff, <- not_true_iff_false.
    assert (Hsat : is_saturated pfilt cfg o = true <-> saturated pfilt cfg o) by (eapply is_saturated_spec; eauto).
    rewrite Hsat. tauto. }
  unfold link_stage in El. split.
  - intro Hl. rewrite Hl in El. injection El as _ <-. reflexivity.
  - intros c dropu Hl. rewrite Hl in El. destruct f6 as [|x6 g6]; cbn [nonempty] in El.
    { injection El as _ <-. exists (fun _ => None), []. split; constructor. }
    set (f6 := x6 :: g6) in *. clearbody f6.
    destruct (PPLinkingFilter _ _ _ _ _ _ _ _ _ _ _ _) as [out|e] eqn:Eo in El; cbn [rmap] in El; [|discriminate].
    injection El as _ <-.
    destruct (C05_proof _ _ _ _ _ _ _ _ Hos _ _ _ _ _ Eo) as [date [kept [Hk [Hp _]]]].
    exists date, kept. split; [exact Hk|].
    apply (Permutation_map (fun x => (fst (fst x), Some (snd (fst x), snd x)))) in Hp.
    eapply perm_trans; [exact Hp|]. rewrite map_map. apply Permutation_refl.
Qed.

Lemma C12_provenance_proof : forall E P (eid : E -> string) (efield : E -> Z) (etime : E -> Q) (pfield : P -> Z) (pfilt : P -> option string)
    (pstart : P -> Q) pointings physics noise fsep prob gauss fov drop lsep tsort ldraws osort lweights (cfg : settings E P),
  sorter (fun x : obs E P * bool * option Z => etime (o_eph (fst (fst x)))) osort ->
  forall st js st' ol, process eid efield etime pfield pfilt pstart pointings physics noise fsep prob
         gauss fov drop lsep tsort ldraws osort lweights cfg st js = Ok (st', ol) ->
  forall o x, In (o, x) (rows_written ol) -> stems efield pfield pfilt js pointings o.
Proof.
  intros until cfg. intros Hos st js st' ol H o x Hin. destruct ol as [l|]; [|destruct Hin].
  destruct (process_rows eid efield etime pfield pfilt pstart pointings physics noise fsep prob gauss fov drop lsep tsort ldraws osort lweights cfg Hos _ _ _ _ H) as [H1 _]. destruct (H1 o x Hin) as (H2 & _). auto.
Qed.

Lemma C12_count_proof : forall E P (eid : E -> string) (efield : E -> Z) (etime : E -> Q) (pfield : P -> Z) (pfilt : P -> option string)
    (pstart : P -> Q) pointings physics noise fsep prob gauss fov drop lsep tsort ldraws osort lweights (cfg : settings E P),
  sorter (fun x : obs E P * bool * option Z => etime (o_eph (fst (fst x)))) osort ->
  NoDup (map pfield pointings) ->
  (forall on, cam cfg = CamFootprint on -> forall o, length (on o) <= 1) ->
  forall st js st' ol, process eid efield etime pfield pfilt pstart pointings physics noise fsep prob
         gauss fov drop lsep tsort ldraws osort lweights cfg st js = Ok (st', ol) ->
  exists kept, subseq kept js /\ Permutation (map (fun r => o_eph (fst r)) (rows_written ol)) kept.
Proof.
  intros until cfg. intros Hos Hnd Hone st js st' ol H.
  destruct ol as [l|]; [|exists []; split; [apply subseq_nil|constructor]].
  destruct (process_rows eid efield etime pfield pfilt pstart pointings physics noise fsep prob gauss fov drop lsep tsort ldraws osort lweights cfg Hos _ _ _ _ H) as [_ H1].
  destruct H1 as [kept [Hk Hp]].
  { destruct (cam cfg); auto. }
  exists (map fst kept). split.
  - eapply subseq_trans; [apply subseq_map; exact Hk|]. apply matched_subseq; auto.
  - apply (Permutation_map fst) in Hp. rewrite map_map in Hp. exact Hp.
Qed.
