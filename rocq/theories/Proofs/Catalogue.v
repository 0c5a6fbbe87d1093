From Coq Require Import String List Arith ZArith QArith Qabs Bool Lia Sorting.Sorted Sorting.Permutation.
From Verif Require Import Base.Prelude Base.Num Base.Frame Model.Filters Model.Linking Model.Readers
  Model.Driver Model.Pipeline
  Spec.Filters Spec.Linking Spec.Readers Spec.Driver Spec.Pipeline Spec.Catalogue
  Proofs.Filters Proofs.LinkProps Proofs.Combined Proofs.Driver Proofs.Pipeline Proofs.Chunking.
Import ListNotations.
Open Scope nat_scope.

(** A loop whose rounds do not fail completes. *)
Lemma loop_total : forall S C O (read : nat -> Z -> result (nat * option C))
    (process : S -> C -> result (S * option O)) (Good : C -> Prop) k A (L : list A),
  0 < k ->
  (forall s, s < length L -> exists c, read s (Z.of_nat k) = Ok (s + length (slice s (Some k) L), Some c) /\ Good c) ->
  (forall s c, Good c -> exists s' o, process s c = Ok (s', o)) ->
  forall rounds s0, length L <= rounds * k -> exists tr,
  run read process rounds (Z.of_nat (length L)) (Z.of_nat k) s0 = (Done, tr).
Proof.
  intros S C O read process Good k A L Hk Hr Hp rounds s0 Hrd.
  set (process' := fun s c => match process s c with Ok x => Ok x | Err _ => Ok (s, @None O) end).
  destruct (C13_terminates_proof S C O A L read process' k Hk) with (rounds := rounds) (s0 := s0) as [tr [Htr _]]; auto.
  { intros s Hs. destruct (Hr s Hs) as [c [Hc _]]. eauto. }
  { intros s c. unfold process'. destruct (process s c) as [[s' o]|e]; eauto. }
  exists tr. rewrite <- Htr. unfold run.
  assert (G : forall rounds st, block_start st = Nat.min (Z.to_nat (endChunk st)) (length L) -> (0 <= endChunk st)%Z ->
     startChunk st = endChunk st ->
     main_loop read process rounds (Z.of_nat (length L)) (Z.of_nat k) st
     = main_loop read process' rounds (Z.of_nat (length L)) (Z.of_nat k) st).
  { clear rounds Hrd Htr. induction rounds as [|rounds IH]; intros st Hb He Hs; cbn [main_loop]; auto.
    destruct (Z.ltb_spec (endChunk st) (Z.of_nat (length L))) as [Hlt|]; auto.
    destruct (Hr (block_start st)) as [c [Hc Hg]]; [lia|]. rewrite Hc.
    destruct (Hp (inner st) c Hg) as [s' [o Ho]]. unfold process' at 1. rewrite Ho.
    rewrite IH; auto; cbn [block_start endChunk startChunk]; [|lia].
    rewrite Hb. unfold slice. rewrite firstn_length, skipn_length. lia. }
  apply G; cbn; auto; lia.
Qed.

Section Det.
Context {E P : Type}.
Variable eid : E -> string.
Variable efield : E -> Z.
Variable etime : E -> Q.
Variable pfield : P -> Z.
Variable pfilt : P -> option string.
Variable pstart : P -> Q.
Variable pointings : list P.
Variable physics : E -> P -> columns.
Variable noise : num -> num -> (num * num * num) -> columns -> columns.
Variable fsep : obs E P -> num.
Variable prob : obs E P -> num.
Variables gauss fov drop : nat -> num.
Variable lsep : obs E P -> obs E P -> num.
Variable tsort : list (obs E P) -> list (obs E P).
Variable ldraws : list num -> nat -> num.
Variable osort : list (obs E P * bool * option Z) -> list (obs E P * bool * option Z).
Variable lweights : nat -> nat -> nat -> Z.
Variable cfg : settings E P.
Hypothesis det : deterministic cfg.
Hypothesis osorter : sorter (fun x : obs E P * bool * option Z => etime (o_eph (fst (fst x)))) osort.
Hypothesis tsorter : sorter (fun o : obs E P => etime (o_eph o)) tsort.
Hypothesis sure : sure_linking cfg ldraws lweights.

Notation detect := (detections efield etime pfield pfilt pstart pointings physics noise fsep prob gauss fov drop cfg).
Notation cands := (candidates efield pfield pfilt physics pointings).
Notation proc := (process eid efield etime pfield pfilt pstart pointings physics noise fsep prob gauss fov drop lsep tsort ldraws osort lweights cfg).
Notation Y := (yields efield pfield pfilt pointings physics fsep cfg).
Notation tm := (fun o : obs E P => etime (o_eph o)).
Notation lobj := (linkObject (fun o : obs E P => efield (o_eph o)) tm (fun o : obs E P => k_ra (o_col o)) lsep tsort ldraws).

(** The date an object gets, from its rows. *)
Definition verdict (l : list (obs E P)) : option Z :=
  match linking cfg with
  | Some (c, _) => match lobj c (fun _ => 1%Z) l with Ok v => snd (fst v) | Err _ => None end
  | None => None
  end.

Definition q (c : linkcfg) (l : list (obs E P)) : Z -> Prop :=
  linkable tm lsep (c_maxdt_minutes c) (c_minlen_arcsec c) (c_min_obs c) (c_window c) (c_nlink c)
    (c_night_start c) (tsort l).

Lemma lobj_date : forall c dropu wt l, linking cfg = Some (c, dropu) -> (forall k, 0 < wt k)%Z ->
  (forall o, In o l -> well_phased tm (c_night_start c) o) ->
  exists o date n, lobj c wt l = Ok (o, date, n) /\ forall d, date = Some d <-> first_with (q c l) d.
Proof.
  intros c dropu wt l Hl Hw Hp. destruct (sure c dropu Hl) as (H1 & H2 & H3 & H4 & H5 & H6).
  destruct (C04_one_proof (fun o : obs E P => efield (o_eph o)) tm (fun o : obs E P => k_ra (o_col o)) lsep tsort ldraws tsorter
    c wt l H1 H2 H3 Hp H4 H5 Hw) as (o & date & n & Ho & Hd & _).
  exists o, date, n. split; auto.
Qed.

Lemma verdict_date : forall c dropu l, linking cfg = Some (c, dropu) ->
  (forall o, In o l -> well_phased tm (c_night_start c) o) ->
  forall d, verdict l = Some d <-> first_with (q c l) d.
Proof.
  intros c dropu l Hl Hp. unfold verdict. rewrite Hl.
  destruct (lobj_date c dropu (fun _ => 1%Z) l Hl ltac:(intro; lia) Hp) as (o & date & n & -> & Hd). exact Hd.
Qed.

Lemma option_same : forall (a b : option Z) (Q : Z -> Prop),
  (forall d, a = Some d <-> Q d) -> (forall d, b = Some d <-> Q d) -> a = b.
Proof.
  intros a b Q Ha Hb. destruct a as [x|].
  - symmetry. apply Hb, Ha. reflexivity.
  - destruct b as [y|]; auto. apply Ha, Hb. reflexivity.
Qed.

Lemma link_sure : forall st f st' l,
  (forall c dropu, linking cfg = Some (c, dropu) -> forall o, In o (rows f) -> well_phased tm (c_night_start c) o) ->
  link_stage eid efield etime lsep tsort ldraws osort lweights cfg st f = Ok (st', l) ->
  Permutation l (deco eid cfg verdict (rows f) (rows f)).
Proof.
  intros st f st' l Hph H. unfold link_stage in H. unfold deco. destruct (linking cfg) as [[c dropu]|] eqn:El.
  2:{ injection H as <- <-. auto. }
  destruct f as [|x0 f0]; [injection H as <- <-; auto|].
  cbn [nonempty] in H. set (f := x0 :: f0) in *. clearbody f. clear x0 f0.
  destruct (PPLinkingFilter _ _ _ _ _ _ _ _ _ _ _ _) as [out|e] eqn:Ef in H; cbn [rmap] in H; [|discriminate].
  injection H as <- <-.
  destruct (lf_members _ _ _ _ _ _ _ _ osorter _ _ _ _ _ Ef) as (date & Hd & kept & Hk & Hp & _).
  assert (Hv : forall o, In o (rows f) -> date (oid eid o) = verdict (rows_of (oid eid) (oid eid o) (rows f))).
  { intros o Ho. destruct (Hd o Ho) as (k & v & Hv & ->).
    assert (Hph' : forall x, In x (rows_of (oid eid) (oid eid o) (rows f)) -> well_phased tm (c_night_start c) x).
    { intros x Hx. unfold rows_of in Hx. apply filter_In in Hx. eapply (Hph c dropu eq_refl). tauto. }
    destruct (sure c dropu El) as (_ & _ & _ & _ & _ & H6).
    destruct (lobj_date c dropu (lweights (n_link st) k) _ El (H6 _ _) Hph') as (oo & dt & n & Hx & Hdt).
    rewrite Hv in Hx. injection Hx as ->. cbn [fst snd].
    eapply option_same; [exact Hdt|]. eapply verdict_date; eauto. }
  assert (Ek : kept = filter (fun o => negb dropu || is_some (verdict (rows_of (oid eid) (oid eid o) (rows f)))) (rows f)).
  { eapply selected_functional; [exact Hk|]. apply selected_filter. intros o Ho. rewrite <- Hv by auto.
    destruct dropu; cbn.
    - destruct (date (oid eid o)) as [z|]; cbn; split; intros Hx; [discriminate|reflexivity|discriminate|exfalso; apply Hx; reflexivity].
    - split; intros; auto; discriminate. }
  apply (Permutation_map (fun x => (fst (fst x), Some (snd (fst x), snd x)))) in Hp.
  eapply perm_trans; [exact Hp|]. rewrite map_map, <- Ek. cbn. apply Permutation_refl'. apply map_ext_in.
  intros o Ho. rewrite <- Hv; auto. apply (selected_in _ _ _ _ o Hk) in Ho. tauto.
Qed.

Lemma process_sure : forall st js st' ol,
  (forall c dropu, linking cfg = Some (c, dropu) -> forall o, In o (flat_map Y js) -> well_phased tm (c_night_start c) o) ->
  proc st js = Ok (st', ol) ->
  Permutation (rows_written ol) (deco eid cfg verdict (flat_map Y js) (flat_map Y js)).
Proof.
  intros st js st' ol Hph H. unfold process in H.
  destruct js as [|j js0].
  { injection H as <- <-. cbn. unfold deco. destruct (linking cfg) as [[? ?]|]; auto. }
  set (js := j :: js0) in *. clearbody js.
  destruct (detect st js) as [[st1 f]|e] eqn:Ed; cbn [rbind] in H; [|discriminate].
  cbn [fst snd] in H.
  destruct (link_stage _ _ _ _ _ _ _ _ _ _ _) as [[st2 l2]|e] eqn:El in H; cbn [rmap fst snd] in H; [|discriminate].
  injection H as <- <-.
  assert (Ew : rows_written match l2 with [] => None | x :: l => Some (x :: l) end = l2) by (destruct l2; auto).
  rewrite Ew. revert Hph.
  rewrite <- (det_yields efield etime pfield pfilt pstart pointings physics noise fsep prob gauss fov drop lsep lweights cfg det _ _ _ _ Ed).
  intro Hph. exact (link_sure _ _ _ _ Hph El).
Qed.

(** A round does not fail. *)
Lemma process_total : forall st js,
  timely efield etime pfield pfilt pstart pointings js -> limits_fit cfg ->
  (forall c dropu, linking cfg = Some (c, dropu) -> forall o, In o (flat_map Y js) -> well_phased tm (c_night_start c) o) ->
  exists st' ol, proc st js = Ok (st', ol).
Proof.
  intros st js Ht Hb Hph. unfold process. destruct js as [|j js0]; [eauto|].
  set (js := j :: js0) in *. clearbody js. clear j js0.
  assert (Hd : exists st1 f, detect st js = Ok (st1, f)).
  { unfold detections, PPMatchPointing. rewrite match_rows.
    replace (forallb _ _) with true.
    2:{ symmetry. apply forallb_forall. intros [e p] Hx. apply (in_matched efield etime pfield pfilt pstart) in Hx. cbn [fst snd] in Hx.
        destruct Hx as (H1 & H2 & H3 & H4). unfold isclose. apply Qle_bool_iff. cbn [fst snd]. apply Ht; auto. }
    cbn [rbind]. set (f0 := of_rows (map (measure physics) (matched efield pfield pfilt pointings js))).
    assert (Hl0 : seq_labels f0) by apply seq_of_rows. clearbody f0.
    assert (Er : randomize noise gauss cfg st f0 = (st, f0)).
    { unfold randomize. destruct det as [-> _]. reflexivity. }
    rewrite Er. cbn [fst snd].
    assert (Hf : exists x, fov_stage fsep fov cfg st f0 = Ok x).
    { unfold fov_stage. destruct (nonempty f0); [|eauto]. destruct det as [_ [_ Hcam]].
      destruct (cam cfg) as [|on|on|radius fill]; eauto. unfold circle_model.
      destruct fill as [x|]; [rewrite Hcam|]; cbn [rmap]; eauto. }
    destruct Hf as [[st2 f2] Ef]. rewrite Ef. cbn [rbind fst snd].
    destruct (fov_ok noise fsep prob gauss fov drop lsep lweights cfg _ _ _ _ Hl0 Ef) as [Hc2 _].
    assert (Efd : forall g, fading_stage prob drop cfg st2 g = (st2, g)).
    { intro g. unfold fading_stage. destruct det as [_ [-> _]]. reflexivity. }
    rewrite Efd. cbn [fst snd].
    assert (Hc4 : consistent (mag_stage cfg (snr_stage cfg f2))) by (apply mag_consistent, snr_consistent; auto).
    generalize dependent (mag_stage cfg (snr_stage cfg f2)). intros g Hc.
    assert (Hbr : exists h, bright_stage pfilt cfg g = Ok h).
    { unfold bright_stage, limits_fit in *. destruct (bright cfg) as [a|]; [|eauto].
      destruct (nonempty g); [|eauto]. destruct a as [lim|lims|]; [| |contradiction].
      - destruct (bright_float _ (ofilt pfilt) (fun o : obs E P => k_psf (o_col o)) (filters cfg) lim g) as [o [Ho _]]; [|eauto].
        intros l r r' H1 H2. specialize (Hc l r r' H1 H2). cbn in Hc. congruence.
      - destruct (bright_list _ (ofilt pfilt) (fun o : obs E P => k_psf (o_col o)) (filters cfg) lims g Hb) as [o [Ho _]]; [|eauto].
        intros l r r' H1 H2. specialize (Hc l r r' H1 H2). cbn in Hc. injection Hc as H3 H4 H5. unfold ofilt. rewrite H4, H5. reflexivity. }
    destruct Hbr as [h ->]. cbn [rmap]. eauto. }
  destruct Hd as (st1 & f & Ed). rewrite Ed. cbn [rbind fst snd].
  rewrite <- (det_yields efield etime pfield pfilt pstart pointings physics noise fsep prob gauss fov drop lsep lweights cfg det _ _ _ _ Ed) in Hph.
  assert (Hl : exists x, link_stage eid efield etime lsep tsort ldraws osort lweights cfg st1 f = Ok x).
  { unfold link_stage. destruct (linking cfg) as [[c dropu]|] eqn:El; [|eauto].
    destruct f as [|x0 f0]; cbn [nonempty]; [eauto|]. set (f := x0 :: f0) in *.
    destruct (sure c dropu El) as (H1 & H2 & H3 & _).
    destruct (C56_total_proof (oid eid) (fun o : obs E P => efield (o_eph o)) tm (fun o : obs E P => k_ra (o_col o)) lsep tsort ldraws
       tsorter osort c (lweights (n_link st1)) dropu (rows f) H1 H2 H3) as [out Ho]; [discriminate|eapply Hph; eauto| ].
    rewrite Ho. cbn [rmap]. eauto. }
  destruct Hl as [[st9 l9] ->]. cbn [rmap fst snd]. eauto.
Qed.

(** The rows a table yields, in the words of the statement. *)
Lemma yields_detected : forall js, detected efield pfield pfilt physics fsep cfg pointings js (flat_map Y js).
Proof.
  intro js. unfold detected.
  assert (Hf : forall o, In o (cands js) -> pfilt (o_pnt o) <> None).
  { intros o Ho. unfold candidates in Ho. apply in_flat_map in Ho. destruct Ho as [e [_ Ho]].
    apply in_map_iff in Ho. destruct Ho as [p [<- Ho]]. apply filter_In in Ho. destruct Ho as [_ Ho].
    apply andb_prop in Ho. destruct Ho as [_ Ho]. cbn. destruct (pfilt p); congruence. }
  assert (EY : flat_map Y js = filter (passesb pfilt cfg) (flat_map (cam_row fsep cfg) (cands js))).
  { rewrite (cands_flat efield pfield pfilt pointings physics js), flat_map_flat_map, filter_flat_map. reflexivity. }
  rewrite EY. clear EY. revert Hf. generalize (cands js). intros l Hf.
  set (cam := fun o => match cam cfg with CamCircle (Some r) _ => negb (truthy (Some r)) || nltb (fsep o) r | _ => true end).
  replace (filter (passesb pfilt cfg) (flat_map (cam_row fsep cfg) l))
    with (filter (fun o => cam o && passesb pfilt cfg o) (flat_map (sightings cfg) l)).
  - apply selected_filter. intros o Ho. rewrite andb_true_iff.
    apply in_flat_map in Ho. destruct Ho as [o0 [Ho0 Ho]].
    assert (Hp : pfilt (o_pnt o) <> None /\ (cam o = true <-> on_camera fsep cfg o)).
    { specialize (Hf o0 Ho0). unfold sightings, on_camera, cam in *. destruct (Pipeline.cam cfg) as [|on|on|[r|] fill].
      - destruct Ho as [<-|[]]. tauto.
      - apply in_map_iff in Ho. destruct Ho as [d [<- Hd]]. split; auto. split; auto. intros _. eauto.
      - destruct (on [o0] 0) as [d|]; [|destruct Ho]. destruct Ho as [<-|[]]. split; auto. split; auto. intros _. cbn. eauto.
      - destruct Ho as [<-|[]]. split; auto. rewrite Bool.orb_true_iff, nltb_lt, Bool.negb_true_iff.
        assert (truthy (Some r) = false <-> exists q, r = Fin q /\ (q == 0)%Q); [|tauto].
        split; [apply truthy_false|]. intros [x [-> Hq]]. unfold truthy. cbn.
        apply Qeq_bool_iff in Hq. rewrite Hq. reflexivity.
      - destruct Ho as [<-|[]]. tauto. }
    destruct Hp as [Hp ->].
    assert (Hps : passesb pfilt cfg o = true <-> passes pfilt cfg o) by (eapply passesb_spec; eauto).
    rewrite Hps. tauto.
  - clear Hf. induction l as [|o l IH]; cbn [flat_map]; auto. rewrite !filter_app, <- IH. f_equal. clear IH.
    unfold cam_row, sightings, cam. destruct (Pipeline.cam cfg) as [|on|on|[r|] fill]; cbn [andb filter]; auto.
    destruct (_ || _); cbn [andb filter]; reflexivity.
Qed.

Lemma deco_catalogued : forall D, night_time etime cfg D ->
  catalogued eid etime lsep tsort cfg D (deco eid cfg verdict D D).
Proof.
  intros D Hn. unfold catalogued, deco. destruct (linking cfg) as [[c dropu]|] eqn:El; [|auto].
  exists (fun i => verdict (rows_of (oid eid) i D)).
  exists (filter (fun o => negb dropu || is_some (verdict (rows_of (oid eid) (oid eid o) D))) D).
  split; [|split].
  - intros i d. apply (verdict_date c dropu); auto. intros o Ho. unfold rows_of in Ho. apply filter_In in Ho.
    eapply Hn; eauto. tauto.
  - apply selected_filter. intros o _. destruct dropu; cbn.
    + change (oid eid o) with (eid (o_eph o)).
      destruct (verdict _) as [z|]; cbn; split; intros Hx; [discriminate|reflexivity|discriminate|exfalso; apply Hx; reflexivity].
    + split; intros; auto; discriminate.
  - apply Permutation_refl'. apply map_ext. intro o. change (oid eid o) with (eid (o_eph o)).
    destruct (verdict _); reflexivity.
Qed.

Lemma catalogued_perm : forall D a b, Permutation a b -> catalogued eid etime lsep tsort cfg D b -> catalogued eid etime lsep tsort cfg D a.
Proof.
  intros D a b Hp H. unfold catalogued in *. destruct (linking cfg) as [[c dropu]|].
  - destruct H as (date & kept & H1 & H2 & H3). exists date, kept. split; auto. split; auto. eapply perm_trans; eauto.
  - eapply perm_trans; eauto.
Qed.
End Det.

Lemma complete_join : forall E R (EPH : list (string * E)) (T : list (string * R)) tables,
  NoDup (map fst T) -> (forall X, In X tables -> NoDup (map fst X)) ->
  (forall i, In i (map fst T) -> forall X, In X tables -> In i (map fst X)) ->
  complete_table EPH T tables (map (@join1 E R tables T) (filter (fun e => existsb (String.eqb (fst e)) (map fst T)) EPH)).
Proof.
  intros E R EPH T tables HT HX Hi. unfold complete_table.
  exists (filter (fun e => existsb (String.eqb (fst e)) (map fst T)) EPH). split.
  - apply selected_filter. intros e _. rewrite existsb_exists. split.
    + intros [i [Hin Hq]]. apply String.eqb_eq in Hq. congruence.
    + intro Hin. exists (fst e). split; auto. apply String.eqb_refl.
  - assert (Hlk : forall i X, In i (map fst X) -> exists a : R, look i X = Some a /\ In (i, a) X).
    { intros i X Hin. unfold look. destruct (find (fun r : string * R => String.eqb (fst r) i) X) as [[j a]|] eqn:Ef.
      - apply find_some in Ef. destruct Ef as [H1 H2]. cbn in H2. apply String.eqb_eq in H2. subst j. exists a. auto.
      - apply in_map_iff in Hin. destruct Hin as [r [<- Hr]]. apply (find_none _ _ Ef) in Hr. rewrite String.eqb_refl in Hr. discriminate. }
    assert (G : forall l, (forall e : string * E, In e l -> In (fst e) (map fst T)) ->
      Forall2 (fun e (j : joined E R) => fst j = e /\ own_data (fst e) (T :: tables) (snd j)) l (map (@join1 E R tables T) l)).
    { induction l as [|e l IH]; intro Hl; constructor.
      - split; [reflexivity|]. unfold own_data, join1. cbn [snd map].
        assert (HeT : In (fst e) (map fst T)) by (apply Hl; left; auto).
        constructor; [apply Hlk; auto|]. specialize (Hi _ HeT). clear - Hi Hlk. induction tables as [|X Xs IHx]; constructor.
        + apply Hlk, Hi. left; auto.
        + apply IHx. intros; apply Hi; right; auto.
      - apply IH. intros; apply Hl; right; auto. }
    apply G. intros e He. apply filter_In in He. destruct He as [_ He]. apply existsb_exists in He.
    destruct He as [i [H1 H2]]. apply String.eqb_eq in H2. congruence.
Qed.

(** A completed round had every row at the time of its pointing. *)
Lemma process_timely : forall E P (eid : E -> string) efield etime (pfield : P -> Z) pfilt pstart pointings physics noise fsep prob
    gauss fov drop lsep tsort ldraws osort lweights (cfg : settings E P) st js st' ol,
  process eid efield etime pfield pfilt pstart pointings physics noise fsep prob
         gauss fov drop lsep tsort ldraws osort lweights cfg st js = Ok (st', ol) ->
  timely efield etime pfield pfilt pstart pointings js.
Proof.
  intros until ol. intros H j p Hj Hp Hf Hn. unfold process in H. destruct js as [|j0 js0]; [destruct Hj|].
  set (js := j0 :: js0) in *. clearbody js.
  destruct (detections _ _ _ _ _ _ _ _ _ _ _ _ _ _ _ _) as [[st1 f]|e] eqn:Ed; cbn [rbind] in H; [|discriminate].
  unfold detections in Ed.
  destruct (PPMatchPointing _ _ _ _ _ _ _) as [m|e] eqn:Em in Ed; cbn [rbind] in Ed; [|discriminate].
  apply match_ok in Em. destruct Em as [-> Hc].
  specialize (Hc (j, p)). cbn [fst snd] in Hc. apply Qle_bool_iff. apply Hc.
  apply (in_matched efield etime pfield pfilt pstart). cbn [fst snd]. auto.
Qed.

Lemma C115_catalogue_proof : forall E P R (efield : joined E R -> Z) (etime : joined E R -> Q) (pfield : P -> Z) (pfilt : P -> option string)
    (pstart : P -> Q) pointings physics noise fsep prob gauss fov drop lsep tsort ldraws osort lweights
    (cfg : settings (joined E R) P)
    (EPH : list (string * E)) ephem (aux0 : nat -> option nat -> result (list (string * R))) others tables T,
  deterministic cfg -> sure_linking cfg ldraws lweights ->
  sorter (fun x : obs (joined E R) P * bool * option Z => etime (o_eph (fst (fst x)))) osort ->
  sorter (fun o : obs (joined E R) P => etime (o_eph o)) tsort ->
  exact_reader EPH ephem -> (forall s n, aux0 s n = Ok (slice s n T)) ->
  Forall2 exact_reader tables others ->
  NoDup (map fst T) -> (forall X, In X tables -> NoDup (map fst X)) ->
  (forall i, In i (map fst T) -> forall X, In X tables -> In i (map fst X)) ->
  exists js D,
    complete_table EPH T tables js /\
    detected efield pfield pfilt physics fsep cfg pointings js D /\
    (night_time etime cfg D -> forall k rounds s0, 0 < k ->
       let outcome := run (read_external aux0 ephem others)
         (process (fun j => fst (fst j)) efield etime pfield pfilt pstart pointings physics noise fsep prob
            gauss fov drop lsep tsort ldraws osort lweights cfg)
         rounds (Z.of_nat (length T)) (Z.of_nat k) s0 in
       (fst outcome = Done ->
          timely efield etime pfield pfilt pstart pointings js /\
          catalogued (fun j => fst (fst j)) etime lsep tsort cfg D (concat (written (snd outcome)))) /\
       (timely efield etime pfield pfilt pstart pointings js -> limits_fit cfg ->
          length T <= rounds * k -> fst outcome = Done)).
Proof.
  intros E P R efield etime pfield pfilt pstart pointings physics noise fsep prob gauss fov drop lsep tsort ldraws osort lweights
    cfg EPH ephem aux0 others tables T det sure Hos Hts He Ha Hoth HT HX Hi.
  set (eid := fun j : joined E R => fst (fst j)).
  set (Y := yields efield pfield pfilt pointings physics fsep cfg).
  set (js := map (@join1 E R tables T) (filter (fun e => existsb (String.eqb (fst e)) (map fst T)) EPH)).
  exists js, (flat_map Y js). split; [apply complete_join; auto|]. split; [apply yields_detected; assumption|].
  intros Hn k rounds s0 Hk. cbv zeta.
  set (proc := process eid efield etime pfield pfilt pstart pointings physics noise fsep prob
            gauss fov drop lsep tsort ldraws osort lweights cfg).
  assert (Hsub : forall js', (forall j, In j js' -> In j js) ->
    forall c dropu, linking cfg = Some (c, dropu) -> forall o, In o (flat_map Y js') ->
      well_phased (fun o => etime (o_eph o)) (c_night_start c) o).
  { intros js' Hs c dropu Hl o Ho. apply (Hn c dropu Hl). apply in_flat_map in Ho. destruct Ho as [j [Hj Ho]].
    apply in_flat_map. eauto. }
  assert (Hblk : forall b js', (forall r, In r b -> In r T) -> ext_block EPH tables b js' -> forall j, In j js' -> In j js).
  { intros b js' Hb Hx j Hj. rewrite (block_rows EPH tables T HT HX b js' Hb Hx) in Hj. unfold js.
    apply in_map_iff in Hj. destruct Hj as [e [<- Hj]]. apply in_map. apply filter_In in Hj. destruct Hj as [H1 H2].
    apply filter_In. split; auto. apply existsb_exists in H2. destruct H2 as [i [H2 H3]]. apply existsb_exists.
    exists i. split; auto. apply in_map_iff in H2. destruct H2 as [r [<- H2]]. apply in_map. auto. }
  split.
  - match goal with |- context [run ?a ?b ?c ?d ?e ?f] => destruct (run a b c d e f) as [stt tr] eqn:Er end. cbn [fst snd]. intros ->. split.
    + destruct (C13_external_proof _ _ _ _ EPH ephem aux0 others tables T _ k He Ha Hoth HT HX Hi Hk _ _ _ _ Er)
        as [blocks [HF [Hcut [Hcat _]]]].
      assert (Hst := trace_steps _ _ _ _ _ _ _ _ _ _ _ Er).
      intros j p Hj Hp Hf Hnn.
      assert (Hjt : exists b js', In js' (map fst tr) /\ In b blocks /\ ext_block EPH tables b js' /\ In j js').
      { unfold js in Hj. apply in_map_iff in Hj. destruct Hj as [e [<- Hj]]. apply filter_In in Hj. destruct Hj as [He1 He2].
        apply existsb_exists in He2. destruct He2 as [i [He2 He3]]. apply String.eqb_eq in He3. subst i.
        apply in_map_iff in He2. destruct He2 as [r [Hr1 Hr2]]. rewrite <- Hcat in Hr2. apply in_concat in Hr2.
        destruct Hr2 as [b [Hb Hr]].
        assert (G : forall bl cs, Forall2 (ext_block EPH tables) bl cs -> In b bl -> exists js', In js' cs /\ ext_block EPH tables b js').
        { intros bl cs G. induction G as [|x y bl cs Hxy _ IH]; intros []; [subst; exists y; split; [left|]; auto|].
          destruct IH as [js' [? ?]]; auto. exists js'. split; [right|]; auto. }
        destruct (G _ _ HF Hb) as [js' [Hj1 Hj2]]. exists b, js'. split; auto. split; auto. split; auto.
        rewrite (block_rows EPH tables T HT HX b js'); auto.
        - apply in_map. apply filter_In. split; auto. apply existsb_exists. exists (fst e). split; [|apply String.eqb_refl].
          rewrite <- Hr1. apply in_map; auto.
        - intros r' Hr'. rewrite <- Hcat. apply in_concat. eauto. }
      destruct Hjt as (b & js' & Hin & _ & _ & Hj').
      apply in_map_iff in Hin. destruct Hin as [[js'' ol] [<- Hin]]. rewrite Forall_forall in Hst.
      destruct (Hst _ Hin) as (s & s' & Hpr). cbn [fst snd] in *.
      eapply process_timely; eauto.
    + eapply catalogued_perm; [|eapply deco_catalogued; eauto].
      apply (run_shape E P R efield etime pfield pfilt pstart pointings physics noise fsep prob gauss fov drop lsep tsort
        ldraws osort lweights cfg EPH ephem aux0 others tables T) with (k := k) (rounds := rounds) (s0 := s0); auto.
      intros st js' st' ol Hjs Hpr. eapply process_sure; eauto.
  - intros Ht Hb Hrd.
    destruct (loop_total _ _ _ (read_external aux0 ephem others) proc
       (fun js' => forall j, In j js' -> In j js) k _ T Hk) with (rounds := rounds) (s0 := s0) as [tr Htr]; auto.
    + intros s Hs. destruct (ext_reads E R EPH ephem aux0 others tables T k He Ha Hoth HT HX Hi Hk s Hs) as [c [Hc Hx]].
      exists c. split; auto. eapply Hblk; [|exact Hx]. intros r Hr. unfold slice in Hr.
      rewrite <- (firstn_skipn s T). apply in_or_app. right. rewrite <- (firstn_skipn k (skipn s T)). apply in_or_app. left. exact Hr.
    + intros s c Hc. apply process_total; auto.
      * intros j p Hj. apply Ht; auto.
      * apply Hsub; auto.
    + unfold proc in Htr. exact (f_equal fst Htr).
Qed.
