From Coq Require Import ZArith QArith Qabs String List Bool Lia Lqa.
From Verif Require Import Base.Prelude Model.Pointing Spec.Pointing.
Import ListNotations.
Open Scope string_scope.

Lemma in_filters_iff : forall A filters (p : pointing A),
  in_filters filters p = true <-> exists f, p_filter p = Some f /\ In f filters.
Proof.
  intros A filters p. unfold in_filters. destruct (p_filter p) as [f|].
  - rewrite existsb_exists. split.
    + intros (x & X & E). apply String.eqb_eq in E. subst. eauto.
    + intros (g & G & I). injection G as <-. exists f. split; auto. apply String.eqb_refl.
  - split; [discriminate|]. intros (f & F & _). discriminate.
Qed.

Lemma Forall2_map_r : forall X Y Z (R : X -> Z -> Prop) (f : Y -> Z) l l', Forall2 R l (map f l') <-> Forall2 (fun x y => R x (f y)) l l'.
Proof.
  intros X Y Z R f l l'. revert l. induction l' as [|y l' IH]; intros l; split; intros H; inversion H; subst; constructor; auto; apply IH; auto.
Qed.
Lemma Forall2_same : forall X (R : X -> X -> Prop) l, (forall x, In x l -> R x x) -> Forall2 R l l.
Proof. intros X R l. induction l; intros H; constructor; [apply H; left; auto|apply IHl; intros; apply H; right; auto]. Qed.

Lemma survey_member : forall survey l, existsb (String.eqb survey) l = true <-> In survey l.
Proof.
  intros. rewrite existsb_exists. split.
  - intros (x & X & E). apply String.eqb_eq in E. subst; auto.
  - intros. exists survey. split; auto. apply String.eqb_refl.
Qed.

(** A survey simulated by Rubin: the selected pointings are exactly those in the
    filters, in order, each with its midpoint and otherwise unchanged. *)
Lemma C52_rubin_proof : forall A filters survey fading columns (table : list (pointing A)),
  In survey ["rubin_sim"; "RUBIN_SIM"] ->
  (exists p f, In p table /\ p_filter p = Some f /\ In f filters) ->
  exists chosen out, PPReadPointingDatabase filters survey fading columns table = Ok out
    /\ selected (fun p => exists f, p_filter p = Some f /\ In f filters) table chosen
    /\ Forall2 (fun p q => (p_mid q == p_start p + p_visit p / 2 / 86400)%Q
         /\ p_id q = p_id p /\ p_filter q = p_filter p /\ p_start q = p_start p /\ p_visit q = p_visit p
         /\ p_exposure q = p_exposure p /\ p_c q = p_c p /\ p_k q = p_k p /\ p_other q = p_other p) chosen out.
Proof.
  intros A filters survey fading columns table S (p & f & I & F & G).
  exists (filter (in_filters filters) table), (map with_midpoint (filter (in_filters filters) table)).
  assert (NE : filter (in_filters filters) table <> []).
  { intros X. assert (Y : In p (filter (in_filters filters) table)).
    { apply filter_In. split; auto. apply in_filters_iff. eauto. }
    rewrite X in Y. contradiction. }
  split; [|split].
  - unfold PPReadPointingDatabase. destruct (filter (in_filters filters) table) as [|a l]; [contradiction|].
    assert (R : existsb (String.eqb survey) ["rubin_sim"; "RUBIN_SIM"] = true) by (apply survey_member; auto).
    rewrite R. cbn [rbind].
    assert (D : existsb (String.eqb survey) ["DES"; "des"] = false).
    { destruct S as [<-|[<-|[]]]; reflexivity. }
    rewrite D, andb_false_r. reflexivity.
  - apply selected_filter. intros q _. apply in_filters_iff.
  - apply Forall2_map_r, Forall2_same. intros q _. repeat split; auto.
Qed.

(** The Dark Energy Survey: the midpoint is in the table and the start is set
    half an exposure before. *)
Lemma C52_des_proof : forall A filters survey fading columns (table : list (pointing A)) out,
  In survey ["DES"; "des"] ->
  PPReadPointingDatabase filters survey fading columns table = Ok out ->
  exists chosen, selected (fun p => exists f, p_filter p = Some f /\ In f filters) table chosen
    /\ Forall2 (fun p q => p_mid q = p_mid p /\ (p_mid q == p_start q + p_exposure p / 2 / 86400)%Q
         /\ p_id q = p_id p /\ p_filter q = p_filter p /\ p_visit q = p_visit p
         /\ p_exposure q = p_exposure p /\ p_c q = p_c p /\ p_k q = p_k p /\ p_other q = p_other p) chosen out
    /\ (fading = true -> Forall (fun q => p_c q <> None /\ p_k q <> None) out).
Proof.
  intros A filters survey fading columns table out S H. exists (filter (in_filters filters) table).
  split; [apply selected_filter; intros q _; apply in_filters_iff|].
  unfold PPReadPointingDatabase in H. destruct (filter (in_filters filters) table) as [|a l] eqn:E; [discriminate|].
  rewrite <- E in *. clear E.
  assert (R : existsb (String.eqb survey) ["rubin_sim"; "RUBIN_SIM"] = false) by (destruct S as [<-|[<-|[]]]; reflexivity).
  assert (D : existsb (String.eqb survey) ["DES"; "des"] = true) by (apply survey_member; auto).
  rewrite R, D, andb_true_r in H. cbn [rbind] in H.
  assert (out = map with_start (filter (in_filters filters) table)
          /\ (fading = true -> existsb (fun p : pointing A => match p_c p, p_k p with Some _, Some _ => false | _, _ => true end)
                                 (map with_start (filter (in_filters filters) table)) = false)) as (-> & X).
  { destruct fading; [|split; [congruence|discriminate]].
    destruct (negb _ || negb _); [discriminate|]. destruct (existsb (fun p => _) _) eqn:E; [discriminate|]. split; [congruence|auto]. }
  split.
  - apply Forall2_map_r, Forall2_same. intros q _. repeat split; auto. cbn. lra.
  - intros F. specialize (X F). apply Forall_forall. intros q Q.
    assert (Y : (match p_c q, p_k q with Some _, Some _ => false | _, _ => true end) = false).
    { destruct (match p_c q, p_k q with Some _, Some _ => false | _, _ => true end) eqn:Z; auto.
      assert (existsb (fun p : pointing A => match p_c p, p_k p with Some _, Some _ => false | _, _ => true end)
                (map with_start (filter (in_filters filters) table)) = true) by (apply existsb_exists; eauto). congruence. }
    destruct (p_c q), (p_k q); try discriminate. split; discriminate.
Qed.

(** No pointing in the filters, or another survey name: the run stops. *)
Lemma C52_stops_proof : forall A filters survey fading columns (table : list (pointing A)),
  (forall p f, In p table -> p_filter p = Some f -> ~ In f filters) \/ ~ In survey ["rubin_sim"; "RUBIN_SIM"; "DES"; "des"] ->
  PPReadPointingDatabase filters survey fading columns table = Err SysExit.
Proof.
  intros A filters survey fading columns table H. unfold PPReadPointingDatabase.
  destruct (filter (in_filters filters) table) as [|p l] eqn:E; [reflexivity|].
  destruct H as [H|H].
  - assert (X : In p (filter (in_filters filters) table)) by (rewrite E; left; auto).
    apply filter_In in X. destruct X as (X & Y). apply in_filters_iff in Y. destruct Y as (f & F & G). exfalso. eapply H; eauto.
  - destruct (existsb (String.eqb survey) ["rubin_sim"; "RUBIN_SIM"]) eqn:R.
    { apply survey_member in R. exfalso. apply H. cbn in *. tauto. }
    destruct (existsb (String.eqb survey) ["DES"; "des"]) eqn:D; [|reflexivity].
    apply survey_member in D. exfalso. apply H. cbn in *. tauto.
Qed.

(** * C51 *)

Lemma with_filter_app : forall O A (a b : list (O * option (pointing A))), with_filter (a ++ b) = (with_filter a ++ with_filter b)%list.
Proof.
  intros O A a b. induction a as [|[o [p|]] a IH]; cbn; auto. destruct (p_filter p); cbn; rewrite IH; auto.
Qed.

(** The merged rows of one observation, when identifiers are not repeated. *)
Lemma merged_one : forall O A (field : O -> Z) (o : O) (pts : list (pointing A)),
  NoDup (map p_id pts) ->
  with_filter (left_merge field [o] pts) = []
    /\ (forall p, In p pts -> p_id p = field o -> p_filter p = None)
  \/ exists p, In p pts /\ p_id p = field o /\ p_filter p <> None /\ with_filter (left_merge field [o] pts) = [(o, p)].
Proof.
  intros O A field o pts ND. unfold left_merge. cbn [flat_map]. rewrite app_nil_r.
  assert (F : (filter (fun p => Z.eqb (p_id p) (field o)) pts = [] /\ forall p, In p pts -> p_id p <> field o)
     \/ exists p, In p pts /\ p_id p = field o /\ filter (fun p => Z.eqb (p_id p) (field o)) pts = [p]
          /\ forall q, In q pts -> p_id q = field o -> q = p).
  { induction pts as [|a pts IH]; [left; split; [reflexivity|intros p []]|].
    inversion ND as [|x l NI ND']; subst. specialize (IH ND'). cbn.
    destruct (Z.eqb_spec (p_id a) (field o)) as [E|E].
    - right. exists a. split; [auto|]. split; [auto|]. destruct IH as [(IH & N)|(p & P1 & P2 & P3 & P4)].
      + rewrite IH. split; auto. intros q [<-|Q] X; auto. exfalso. eapply N; eauto.
      + exfalso. apply NI. rewrite E, <- P2. apply in_map; auto.
    - destruct IH as [(IH & N)|(p & P1 & P2 & P3 & P4)].
      + left. split; auto. intros p [<-|P]; auto.
      + right. exists p. repeat split; auto. intros q [<-|Q] X; auto. contradiction. }
  destruct F as [(F & N)|(p & P1 & P2 & P3 & P4)].
  - left. rewrite F. split; [reflexivity|]. intros p P X. exfalso. eapply N; eauto.
  - rewrite P3. cbn. destruct (p_filter p) eqn:PF.
    + right. exists p. repeat split; auto. congruence.
    + left. split; auto. intros q Q X. rewrite (P4 q Q X). auto.
Qed.


Lemma merge_cons : forall O A (field : O -> Z) o obs (pts : list (pointing A)),
  left_merge field (o :: obs) pts = (left_merge field [o] pts ++ left_merge field obs pts)%list.
Proof. intros. unfold left_merge. cbn [flat_map]. rewrite app_nil_r. reflexivity. Qed.

Lemma merged_rows : forall O A (field : O -> Z) (obs : list O) (pts : list (pointing A)),
  NoDup (map p_id pts) ->
  selected (has_pointing field pts) obs (map fst (with_filter (left_merge field obs pts)))
  /\ Forall (fun r => In (snd r) pts /\ p_id (snd r) = field (fst r)) (with_filter (left_merge field obs pts)).
Proof.
  intros O A field obs pts ND. induction obs as [|o obs (IH1 & IH2)]; [split; constructor|].
  rewrite merge_cons, with_filter_app, map_app.
  destruct (merged_one _ _ field o pts ND) as [(E & N)|(p & P1 & P2 & P3 & E)]; rewrite E; cbn.
  - split; [|exact IH2]. apply sel_drop; [|exact IH1]. intros (p & P1 & P2 & P3). apply P3. eapply N; eauto.
  - split; [|constructor; auto]. apply sel_keep; [|exact IH1]. exists p. auto.
Qed.


Lemma C51_matched_proof : forall O A (field : O -> Z) mjd (obs : list O) (pts : list (pointing A)) out,
  NoDup (map p_id pts) ->
  PPMatchPointingToObservations field mjd obs pts = Ok out ->
  selected (has_pointing field pts) obs (map fst out)
  /\ Forall (fun r => In (snd r) pts /\ p_id (snd r) = field (fst r)
                /\ (Qabs (p_start (snd r) - mjd (fst r)) <= tolerance (mjd (fst r)))%Q) out.
Proof.
  intros O A field mjd obs pts out ND H. unfold PPMatchPointingToObservations in H.
  destruct (forallb _ _) eqn:F; [|discriminate]. assert (HO : out = with_filter (left_merge field obs pts)) by congruence. subst out. clear H.
  destruct (merged_rows _ _ field obs pts ND) as (M1 & M2). split; auto.
  rewrite forallb_forall in F. rewrite Forall_forall in *. intros r R. destruct (M2 r R) as (X & Y).
  repeat split; auto. apply Qle_bool_iff, F, R.
Qed.

(** The run goes on exactly when every matched time agrees within numpy's
    tolerance. *)
Lemma C51_stops_proof : forall O A (field : O -> Z) mjd (obs : list O) (pts : list (pointing A)),
  NoDup (map p_id pts) ->
  (PPMatchPointingToObservations field mjd obs pts = Err SysExit <->
   exists o p, In o obs /\ In p pts /\ p_id p = field o /\ p_filter p <> None
     /\ (tolerance (mjd o) < Qabs (p_start p - mjd o))%Q).
Proof.
  intros O A field mjd obs pts ND. unfold PPMatchPointingToObservations.
  destruct (merged_rows _ _ field obs pts ND) as (M1 & M2). rewrite Forall_forall in M2.
  assert (IN : forall o p, In (o, p) (with_filter (left_merge field obs pts)) <->
     In o obs /\ In p pts /\ p_id p = field o /\ p_filter p <> None).
  { clear M1 M2. intros o p. induction obs as [|a obs IH]; [cbn; tauto|].
    rewrite merge_cons, with_filter_app, in_app_iff, IH.
    destruct (merged_one _ _ field a pts ND) as [(E & N)|(q & P1 & P2 & P3 & E)]; rewrite E; cbn.
    - split; [intros [[]|X]; tauto|]. intros ([<-|X] & Y & Z & W); [|tauto]. exfalso. apply W. eapply N; eauto.
    - split.
      + intros [[X|[]]|X]; [|tauto]. injection X as <- <-. auto.
      + intros ([<-|X] & Y & Z & W); [|tauto]. left. left. f_equal.
        assert (G : forall l : list (pointing A), NoDup (map p_id l) -> In q l -> In p l -> p_id q = p_id p -> q = p).
        { clear. induction l as [|x l IH]; intros ND Q P E; [contradiction|]. cbn in ND. inversion ND as [|y m NI ND']; subst.
          destruct Q as [->|Q], P as [->|P]; auto.
          - exfalso. apply NI. rewrite E. apply in_map; auto.
          - exfalso. apply NI. rewrite <- E. apply in_map; auto. }
        apply (G pts); auto. congruence. }
  destruct (forallb _ _) eqn:F.
  - split; [discriminate|]. intros (o & p & Ho & Hp & E & W & T). exfalso.
    rewrite forallb_forall in F. specialize (F (o, p) (proj2 (IN o p) ltac:(auto))). cbn in F. apply Qle_bool_iff in F.
    unfold tolerance in T. lra.
  - split; [intros _|reflexivity].
    assert (X : exists r, In r (with_filter (left_merge field obs pts)) /\ isclose (p_start (snd r)) (mjd (fst r)) = false).
    { clear - F. induction (with_filter (left_merge field obs pts)) as [|r l IH]; [discriminate|]. cbn in F.
      destruct (isclose (p_start (snd r)) (mjd (fst r))) eqn:E.
      - destruct (IH F) as (x & X & Y). exists x. split; [right; auto|auto].
      - exists r. split; [left; auto|auto]. }
    destruct X as ([o p] & R & C). apply IN in R. destruct R as (R1 & R2 & R3 & R4). exists o, p. repeat split; auto.
    cbn in C. unfold isclose in C. unfold tolerance.
    destruct (Qlt_le_dec ((1 # 100000000) + (1 # 100000) * Qabs (mjd o)) (Qabs (p_start p - mjd o))) as [L|L]; auto.
    apply Qle_bool_iff in L. congruence.
Qed.

(** A mismatch of half a day is not noticed at present-day dates: any two times
    that differ by that much pass when the MJD is at least 50000. *)
Lemma C51_mismatch_refuted_proof : forall O A (field : O -> Z) mjd (o : O) (p : pointing A),
  p_id p = field o -> p_filter p <> None -> (50000 <= mjd o)%Q -> (Qabs (p_start p - mjd o) <= 1 # 2)%Q ->
  PPMatchPointingToObservations field mjd [o] [p] = Ok [(o, p)].
Proof.
  intros O A field mjd o p E F M D. unfold PPMatchPointingToObservations, left_merge. cbn.
  rewrite E, Z.eqb_refl. cbn. destruct (p_filter p) as [f|]; [|contradiction]. cbn.
  replace (isclose (p_start p) (mjd o)) with true; [reflexivity|]. symmetry. apply Qle_bool_iff.
  rewrite (Qabs_pos (mjd o)) by lra. lra.
Qed.

(** Repeated identifiers in the pointing table repeat the observation. *)
Lemma C51_repeated_refuted_proof : forall O A (field : O -> Z) mjd (o : O) (p q : pointing A),
  p_id p = field o -> p_id q = field o -> p_filter p <> None -> p_filter q <> None ->
  (p_start p == mjd o)%Q -> (p_start q == mjd o)%Q ->
  PPMatchPointingToObservations field mjd [o] [p; q] = Ok [(o, p); (o, q)].
Proof.
  intros O A field mjd o p q E1 E2 F1 F2 S1 S2. unfold PPMatchPointingToObservations, left_merge. cbn.
  rewrite E1, E2, Z.eqb_refl. cbn. destruct (p_filter p); [|contradiction]. destruct (p_filter q); [|contradiction]. cbn.
  assert (C : forall a b, (a == b)%Q -> isclose a b = true).
  { intros a b X. apply Qle_bool_iff. assert (Y : (Qabs (a - b) == 0)%Q) by (rewrite X; setoid_replace (b - b)%Q with 0%Q by ring; reflexivity).
    rewrite Y. pose proof (Qabs_nonneg b). lra. }
  rewrite !C; auto.
Qed.

(** Together: with the table the reader returned, every matched observation is
    in one of the selected filters. *)
Lemma C51_selected_filters_proof : forall O A (field : O -> Z) mjd (obs : list O) filters survey fading columns
  (table pts : list (pointing A)) out,
  NoDup (map p_id table) ->
  PPReadPointingDatabase filters survey fading columns table = Ok pts ->
  PPMatchPointingToObservations field mjd obs pts = Ok out ->
  selected (fun o => exists p f, In p table /\ p_id p = field o /\ p_filter p = Some f /\ In f filters) obs (map fst out)
  /\ Forall (fun r => exists f, p_filter (snd r) = Some f /\ In f filters) out.
Proof.
  intros O A field mjd obs filters survey fading columns table pts out ND HR HM.
  assert (P : exists g, (forall p : pointing A, p_id (g p) = p_id p /\ p_filter (g p) = p_filter p)
              /\ pts = map g (filter (in_filters filters) table)).
  { unfold PPReadPointingDatabase in HR. destruct (filter (in_filters filters) table) as [|a l] eqn:E; [discriminate|]. rewrite <- E in *. clear E.
    destruct (existsb (String.eqb survey) ["rubin_sim"; "RUBIN_SIM"]).
    - exists with_midpoint. split; [split; reflexivity|]. cbn [rbind] in HR.
      destruct (fading && _); [|congruence]. destruct (negb _ || negb _); [discriminate|]. destruct (existsb (fun p => _) _); [discriminate|congruence].
    - destruct (existsb (String.eqb survey) ["DES"; "des"]); [|discriminate].
      exists with_start. split; [split; reflexivity|]. cbn [rbind] in HR.
      destruct (fading && _); [|congruence]. destruct (negb _ || negb _); [discriminate|]. destruct (existsb (fun p => _) _); [discriminate|congruence]. }
  destruct P as (g & G & ->).
  assert (ND' : NoDup (map p_id (map g (filter (in_filters filters) table)))).
  { rewrite map_map. rewrite (map_ext _ p_id) by (intros; apply G). clear - ND.
    induction table as [|a table IH]; cbn; [constructor|]. cbn in ND. inversion ND as [|x l NI ND1]; subst.
    destruct (in_filters filters a); cbn; auto. constructor; auto. intros X. apply NI.
    apply in_map_iff in X. destruct X as (p & <- & X). apply filter_In in X. apply in_map, X. }
  apply C51_matched_proof in HM; auto. destruct HM as (S & F). split.
  - eapply selected_ext; [|exact S]. intros o _. unfold has_pointing. split.
    + intros (p & P1 & P2 & P3). apply in_map_iff in P1. destruct P1 as (q & <- & Q). apply filter_In in Q. destruct Q as (Q1 & Q2).
      apply in_filters_iff in Q2. destruct Q2 as (f & Q2 & Q3). exists q, f. repeat split; auto. rewrite <- P2. symmetry. apply G.
    + intros (p & f & P1 & P2 & P3 & P4). exists (g p). destruct (G p) as (G1 & G2). repeat split; [|congruence|congruence].
      apply in_map, filter_In. split; auto. apply in_filters_iff. eauto.
  - rewrite Forall_forall in *. intros r R. destruct (F r R) as (X & _). apply in_map_iff in X. destruct X as (q & <- & Q).
    apply filter_In in Q. destruct Q as (_ & Q). apply in_filters_iff in Q. destruct Q as (f & Q2 & Q3). exists f. destruct (G q) as (_ & ->). auto.
Qed.

(** For the Dark Energy Survey the stated midpoint fails for every visit longer
    than its exposure. *)
Lemma C52_des_refuted_proof : forall A filters survey columns (p : pointing A) f,
  In survey ["DES"; "des"] -> p_filter p = Some f -> In f filters -> ~ (p_visit p == p_exposure p)%Q ->
  exists q, PPReadPointingDatabase filters survey false columns [p] = Ok [q]
    /\ ~ (p_mid q == p_start q + p_visit q / 2 / 86400)%Q.
Proof.
  intros A filters survey columns p f S F I N. exists (with_start p). split.
  - unfold PPReadPointingDatabase. cbn [filter].
    assert (X : in_filters filters p = true) by (apply in_filters_iff; eauto). rewrite X.
    destruct S as [<-|[<-|[]]]; reflexivity.
  - cbn [with_start p_mid p_start p_visit]. intros H. apply N. unfold Qdiv in H.
    change (/ 2)%Q with (1#2)%Q in H. change (/ 86400)%Q with (1#86400)%Q in H. lra.
Qed.
