From Coq Require Import String Ascii List Bool Arith Lia ZArith QArith.
From Verif Require Import Base.Prelude Base.Num Model.Config Model.Columns Spec.Config Spec.Columns Proofs.Config.
Import ListNotations.
Open Scope string_scope.
Open Scope list_scope.

Lemma member_in : forall c t, member c t = true <-> In c t.
Proof.
  intros c t. unfold member. rewrite existsb_exists. split.
  - intros (x & H & E). apply String.eqb_eq in E. subst. auto.
  - intro H. exists c. split; auto. apply String.eqb_refl.
Qed.
Lemma member_out : forall c t, member c t = false <-> ~ In c t.
Proof. intros. rewrite <- member_in. destruct (member c t); split; congruence. Qed.
Lemma members_in : forall l t, forallb (fun c => member c t) l = true <-> incl l t.
Proof.
  intros l t. rewrite forallb_forall. unfold incl. split; intros H c Hc; apply member_in; apply H; auto.
Qed.
Lemma need_in : forall l t, incl l t -> need l t = Ok tt.
Proof. intros l t H. unfold need. apply members_in in H. rewrite H. reflexivity. Qed.
Lemma put_in : forall c t x, In x (put c t) <-> In x t \/ x = c.
Proof.
  intros c t x. unfold put. destruct (member c t) eqn:M.
  - apply member_in in M. split; auto. intros [?| ->]; auto.
  - rewrite in_app_iff. cbn. intuition congruence.
Qed.
Lemma puts_in : forall l t x, In x (puts l t) <-> In x t \/ In x l.
Proof.
  induction l as [|c l IH]; intros t x; cbn; [tauto|]. unfold puts in *. cbn. rewrite IH, put_in. intuition congruence.
Qed.
Lemma without_in : forall l t x, In x (without l t) <-> In x t /\ ~ In x l.
Proof. intros. unfold without. rewrite filter_In, negb_true_iff, member_out. tauto. Qed.
Lemma rename_in : forall a b t x, In x (rename_col a b t) <-> (x = b /\ In a t) \/ (x <> a /\ In x t).
Proof.
  intros a b t x. unfold rename_col. rewrite in_map_iff. split.
  - intros (y & E & H). destruct (String.eqb_spec y a); subst; auto.
  - intros [(-> & H)|(N & H)].
    + exists a. rewrite String.eqb_refl. auto.
    + exists x. destruct (String.eqb_spec x a); [contradiction|auto].
Qed.

(** A table has the known columns [B] and those that satisfy [P]. *)
Definition models (B : list string) (P : string -> Prop) (t : cols) : Prop := forall x, In x t <-> In x B \/ P x.

Lemma need_known : forall B P t l, models B P t -> forallb (fun c => member c B) l = true -> need l t = Ok tt.
Proof. intros B P t l H M. apply need_in. apply members_in in M. intros x Hx. apply H. left. auto. Qed.
Lemma models_in : forall B P t c, models B P t -> member c B = true -> member c t = true.
Proof. intros B P t c H M. apply member_in, H. left. apply member_in. auto. Qed.
Lemma models_put : forall B P t c, models B P t -> models (B ++ [c]) P (put c t).
Proof. intros B P t c H x. unfold models in H. rewrite put_in, H, in_app_iff. cbn. intuition congruence. Qed.
Lemma models_puts : forall B P t l, models B P t -> models (B ++ l) P (puts l t).
Proof. intros B P t l H x. unfold models in H. rewrite puts_in, H, in_app_iff. tauto. Qed.
Lemma models_without : forall B P t l, models B P t -> (forall x, P x -> ~ In x l) -> models (without l B) P (without l t).
Proof. intros B P t l H N x. unfold models in H. rewrite !without_in, H. split; [tauto|]. intros [?|Hp]; [tauto|]. split; auto. Qed.
Lemma models_rename : forall B P t a b, models B P t -> ~ P a -> models (rename_col a b B) P (rename_col a b t).
Proof.
  intros B P t a b H N x. unfold models in H. rewrite !rename_in, !H. split.
  - intros [(-> & [?|?])|(? & [?|?])]; tauto.
  - intros [[?|?]|Hp]; [tauto|tauto|]. right. split; [congruence|auto].
Qed.
Lemma models_same : forall B B' P t, models B P t -> forallb (fun c => member c B') B = true ->
  forallb (fun c => member c B) B' = true -> models B' P t.
Proof.
  intros B B' P t H H1 H2 x. unfold models in H. apply members_in in H1, H2. rewrite H. split; (intros [?|?]; [left|right]; auto).
Qed.
Lemma models_ext : forall B P P' t, models B P t -> (forall x, P x <-> P' x) -> models B P' t.
Proof. intros B P P' t H E x. unfold models in H. rewrite H, E. tauto. Qed.
Lemma models_more : forall B P t (b : bool) c, models B P t ->
  models B (fun x => P x \/ (b = true /\ x = c)) (if b then put c t else t).
Proof. intros B P t b c H x. unfold models in H. destruct b; [rewrite put_in|]; rewrite H; intuition congruence. Qed.

(** ** Joins *)
Lemma join_ok : forall l r, In "ObjID" l -> In "ObjID" r -> (forall x, In x l -> In x r -> x = "ObjID") ->
  exists t, join l r = Ok t /\ forall x, In x t <-> In x l \/ In x r.
Proof.
  intros l r Hl Hr H. unfold join. rewrite !need_in by (intros ? [<-|[]]; auto). cbn [rbind].
  destruct (existsb _ _) eqn:E.
  { apply existsb_exists in E. destruct E as (c & Hc & M). apply without_in in Hc. apply member_in in M.
    destruct Hc as [Hc N]. exfalso. apply N. left. symmetry. auto. }
  eexists. split; [reflexivity|]. intro x. rewrite in_app_iff, without_in. cbn.
  destruct (string_dec x "ObjID"); subst; intuition.
Qed.
Lemma joins_ok : forall rs l, In "ObjID" l -> (forall a, In a rs -> In "ObjID" a) ->
  ForallOrdPairs (fun a b => forall x, In x a -> In x b -> x = "ObjID") (l :: rs) ->
  exists t, joins l rs = Ok t /\ forall x, In x t <-> In x l \/ In x (concat rs).
Proof.
  induction rs as [|r rs IH]; intros l Hl Ha Hp.
  - exists l. split; [reflexivity|]. cbn. tauto.
  - inversion Hp as [|? ? H1 H2]; subst. inversion H1 as [|? ? H3 H4]; subst.
    destruct (join_ok l r Hl (Ha r (or_introl eq_refl)) H3) as (t & Ht & Hi). cbn [joins]. rewrite Ht. cbn [rbind].
    destruct (IH t) as (t' & Ht' & Hi').
    + apply Hi. auto.
    + intros a A. apply Ha. right. auto.
    + inversion H2 as [|? ? H5 H6]; subst. constructor; auto. rewrite Forall_forall in *. intros b Hb x Hx Hxb.
      apply Hi in Hx. destruct Hx; [apply (H4 b Hb x)|apply (H5 b Hb x)]; auto.
    + exists t'. split; auto. intro x. rewrite Hi', Hi. cbn. rewrite in_app_iff. tauto.
Qed.

(** ** The tables of one round *)
Section Inputs.
Variable des : bool.
Variable c : configs.
Variable main : string.
Variable query : list string.
Variable aux : list (list string).
Hypothesis D : documented_inputs des c main query aux.
Hypothesis letters : incl (c_filters c) ["u"; "g"; "r"; "i"; "z"; "y"; "Y"].
Notation A := (concat aux).

Definition extra (x : string) : Prop := In x query /\ ~ In x (documented_query des).
Lemma extra_free : forall x, extra x -> ~ In x ("q" :: reserved des).
Proof. intros x [H N]. destruct (doc_query_names _ _ _ _ _ D x H) as [?|[? _]]; auto. Qed.
Lemma query_models : models (documented_query des) extra query.
Proof.
  intro x. unfold extra. assert (H := doc_query _ _ _ _ _ D). split.
  - intro Hx. destruct (in_dec string_dec x (documented_query des)); auto.
  - intros [?|[? _]]; auto.
Qed.
(** A listed name is reserved. *)
Lemma extra_not : forall x, member x ("q" :: reserved des) = true -> ~ extra x.
Proof. intros x M E. apply (extra_free x E). apply member_in. exact M. Qed.
Lemma extra_none : forall l, forallb (fun x => member x ("q" :: reserved des)) l = true -> forall x, extra x -> ~ In x l.
Proof. intros l M x E H. apply members_in in M. apply (extra_free x E). apply M. exact H. Qed.

(** What the pointings contribute to the table after matching. *)
Definition from_pointing : list string :=
  if des then ["visitExposureTime"; "optFilter"; "fieldFiveSigmaDepth_mag"; "fieldRA_deg"; "fieldDec_deg"; "c"; "k"]
  else ["visitTime"; "visitExposureTime"; "optFilter"; "seeingFwhmGeom_arcsec"; "seeingFwhmEff_arcsec"; "fieldFiveSigmaDepth_mag";
        "fieldRA_deg"; "fieldDec_deg"; "fieldRotSkyPos_deg"].
Definition dropped_later : list string := ["observationStartMJD_TAI"; "observationId_"; "observationMidpointMJD_TAI"].

Lemma pointing_ok : forall fad ext, exists p p',
  read_pointing_columns des fad query = Ok p /\ (if ext : bool then Ok p else precompute_columns p) = Ok p'
  /\ models (from_pointing ++ dropped_later) extra (without ["FieldID"] (without pointing_columns_to_skip p'))
  /\ In "FieldID" (without pointing_columns_to_skip p') /\ incl ["optFilter"; "fieldFiveSigmaDepth_mag"] p'.
Proof.
  intros fad ext. assert (H0 := query_models). assert (Hn := extra_not). assert (Hl := extra_none).
  assert (H1 := models_put _ _ _ "observationId_" H0).
  assert (H2 : exists t, t = rename_col "filter" "optFilter" (rename_col "observationId" "FieldID" (put "observationId_" query))
     /\ models (rename_col "filter" "optFilter" (rename_col "observationId" "FieldID" (documented_query des ++ ["observationId_"]))) extra t).
  { eexists. split; [reflexivity|]. apply models_rename; [apply models_rename; auto|]; apply Hn; destruct des; reflexivity. }
  destruct H2 as (t & Et & Ht).
  assert (K : forall p B, models B extra p -> forallb (fun x => member x B) ["fieldRA_deg"; "fieldDec_deg"; "observationMidpointMJD_TAI"; "FieldID"; "optFilter"; "fieldFiveSigmaDepth_mag"] = true ->
    forallb (fun x => member x (without ["FieldID"] (without pointing_columns_to_skip (B ++ precomputed)))) (from_pointing ++ dropped_later) = true ->
    forallb (fun x => member x (from_pointing ++ dropped_later)) (without ["FieldID"] (without pointing_columns_to_skip (B ++ precomputed))) = true ->
    forallb (fun x => member x (without ["FieldID"] (without pointing_columns_to_skip B))) (from_pointing ++ dropped_later) = true ->
    forallb (fun x => member x (from_pointing ++ dropped_later)) (without ["FieldID"] (without pointing_columns_to_skip B)) = true ->
    exists p', (if ext : bool then Ok p else precompute_columns p) = Ok p'
    /\ models (from_pointing ++ dropped_later) extra (without ["FieldID"] (without pointing_columns_to_skip p'))
    /\ In "FieldID" (without pointing_columns_to_skip p') /\ incl ["optFilter"; "fieldFiveSigmaDepth_mag"] p').
  { intros p B M M1 M2 M3 M4 M5. apply members_in in M1.
    assert (G : forall p' B', models B' extra p' -> incl B B' ->
       forallb (fun x => member x (without ["FieldID"] (without pointing_columns_to_skip B'))) (from_pointing ++ dropped_later) = true ->
       forallb (fun x => member x (from_pointing ++ dropped_later)) (without ["FieldID"] (without pointing_columns_to_skip B')) = true ->
       models (from_pointing ++ dropped_later) extra (without ["FieldID"] (without pointing_columns_to_skip p'))
       /\ In "FieldID" (without pointing_columns_to_skip p') /\ incl ["optFilter"; "fieldFiveSigmaDepth_mag"] p').
    { intros p' B' M' HB N1 N2. split; [|split].
      - eapply models_same; [|exact N2|exact N1]. apply models_without; [apply models_without; auto|]; apply Hl; destruct des; reflexivity.
      - apply without_in. split; [apply M'; left; apply HB, M1; cbn; tauto|]. cbn. intuition discriminate.
      - intros x Hx. apply M'. left. apply HB, M1. cbn in *. tauto. }
    destruct ext.
    - exists p. split; auto. apply (G p B); auto. apply incl_refl.
    - exists (puts precomputed p). split.
      + unfold precompute_columns. rewrite (need_in _ p); [reflexivity|]. intros x Hx. apply M. left. apply M1. cbn in *. tauto.
      + apply (G _ (B ++ precomputed)); auto; [apply models_puts; auto|apply incl_appl, incl_refl]. }
  assert (Nid : need ["observationId"] query = Ok tt).
  { eapply need_known; [exact H0|destruct des; reflexivity]. }
  assert (Nf : need ["optFilter"] t = Ok tt) by (eapply need_known; [exact Ht|destruct des; reflexivity]).
  unfold from_pointing in *. unfold read_pointing_columns. rewrite Nid. cbn [rbind]. rewrite <- Et, Nf. cbn [rbind]. destruct des.
  - rewrite (need_known _ _ _ ["observationMidpointMJD_TAI"; "visitExposureTime"] Ht eq_refl). cbn [rbind].
    assert (H3 := models_put _ _ _ "observationStartMJD_TAI" Ht).
    replace (forallb _ ["c"; "k"]) with true.
    2:{ symmetry. apply members_in. intros x Hx. apply H3. left. cbn in *. tauto. }
    rewrite andb_false_r. destruct (K _ _ H3 eq_refl eq_refl eq_refl eq_refl eq_refl) as (p' & ? & ?). eauto.
  - rewrite (need_known _ _ _ ["observationStartMJD_TAI"; "visitTime"] Ht eq_refl). cbn [rbind].
    assert (H3 := models_put _ _ _ "observationMidpointMJD_TAI" Ht).
    destruct (K _ _ H3 eq_refl eq_refl eq_refl eq_refl eq_refl) as (p' & ? & ?). eauto.
Qed.

(** What the auxiliary files and the culling contribute. *)
Definition ar : bool := negb (String.eqb (in_ephemerides_type (c_input c)) "external").
Definition other (x : string) : Prop :=
  (ar = true /\ x = "fieldJD_TDB") \/ (In x A /\ x <> "ObjID") \/ (ar = true /\ x_brute_force (c_expert c) = false /\ x = "q").
Lemma aux_free : forall x, In x A -> In x ephemeris_names -> x = "ObjID".
Proof.
  intros x H E. destruct (doc_names _ _ _ _ _ D x H) as [?|N]; auto. exfalso. apply N. unfold reserved.
  apply in_app_iff. right. apply in_app_iff. left. auto.
Qed.
Lemma generated_spec : forall x, In x generated_cols <-> In x ephemeris_names \/ x = "fieldJD_TDB".
Proof.
  intro x. assert (E : forallb (fun x => member x ("fieldJD_TDB" :: ephemeris_names)) generated_cols = true) by reflexivity.
  assert (E' : forallb (fun x => member x generated_cols) ("fieldJD_TDB" :: ephemeris_names) = true) by reflexivity.
  apply members_in in E, E'. split.
  - intro H. apply E in H. destruct H; auto.
  - intros [H|H]; apply E'; [right|left]; auto.
Qed.
Lemma aux_reserved : forall x, In x A -> x <> "ObjID" -> member x (reserved des) = false.
Proof. intros x H N. apply member_out. destruct (doc_names _ _ _ _ _ D x H); [contradiction|auto]. Qed.

Lemma observation_ok : forall p, incl ["optFilter"; "fieldFiveSigmaDepth_mag"] p ->
  exists t, observation_columns c main aux p = Ok t /\ models ephemeris_names other t.
Proof.
  intros p Hp. unfold observation_columns. assert (AF := aux_free). assert (AR := aux_reserved). assert (D' := D).
  unfold other, ar. destruct D' as [_ _ Dsome Did Dapart _ _ Dorb Dmain DH Dcol _].
  destruct (String.eqb (in_ephemerides_type (c_input c)) "external") eqn:Ee.
  - change ephem_cols with ephemeris_names. destruct (joins_ok aux ephemeris_names) as (t & Ht & Hi).
    + left. reflexivity.
    + exact Did.
    + constructor; auto. apply Forall_forall. intros b Hb x Hx Hxb. apply AF; auto. apply in_concat. eauto.
    + exists t. split; auto. intro x. rewrite Hi. cbn [negb].
      destruct (string_dec x "ObjID"); [subst|]; intuition; try discriminate. left. left. reflexivity.
  - destruct aux as [|a rest] eqn:Ea; [contradiction|]. inversion Dapart as [|? ? Q1 Q2]; subst.
    destruct (joins_ok rest a) as (t & Ht & Hi); auto.
    { apply Did. left. auto. } { intros. apply Did. right. auto. }
    assert (HiA : forall x, In x t <-> In x (concat (a :: rest))).
    { intro x. rewrite Hi. cbn. rewrite in_app_iff. tauto. }
    rewrite Ht. cbn [rbind].
    assert (C : exists t', (if x_brute_force (c_expert c) then Ok t else cull_columns main (c_filters c) p t) = Ok t'
       /\ forall x, In x t' <-> In x (concat (a :: rest)) \/ (x_brute_force (c_expert c) = false /\ x = "q")).
    { destruct (x_brute_force (c_expert c)).
      - exists t. split; auto. intro x. rewrite HiA. intuition discriminate.
      - unfold cull_columns. rewrite (need_in _ p Hp). cbn [rbind].
        assert (G : exists t', (if member "q" t then Ok t else (_ <- need ["epochMJD_TDB"; "FORMAT"] t ;; Ok (put "q" t))%result) = Ok t'
           /\ forall x, In x t' <-> In x (concat (a :: rest)) \/ x = "q").
        { destruct (member "q" t) eqn:Q.
          - exists t. split; auto. intro x. rewrite HiA. apply member_in in Q. apply HiA in Q. intuition (subst; auto).
          - rewrite need_in. 2:{ intros x [<-|[<-|[]]]; apply HiA, Dorb; cbn; auto. }
            cbn [rbind]. exists (put "q" t). split; auto. intro x. rewrite put_in, HiA. tauto. }
        destruct G as (t' & -> & Hi'). cbn [rbind].
        rewrite need_in. 2:{ intros x [<-|[]]. apply Hi'. left. apply in_concat. exists a. split; [left; auto|]. apply Did. left. auto. }
        cbn [rbind]. rewrite need_in.
        2:{ intros x Hx. apply in_flat_map in Hx. destruct Hx as (f & Hf & Hx). apply Hi'. left.
            destruct (String.eqb_spec f main).
            - destruct Hx as [<-|[]]. exact DH.
            - destruct Hx as [<-|[<-|[]]]; [exact DH|]. apply Dcol; auto. unfold several.
              destruct (c_filters c) as [|f1 [|f2 fs]]; cbn in *; try lia. intuition congruence. }
        cbn [rbind]. exists t'. split; auto. intro x. rewrite Hi'. tauto. }
    destruct C as (t' & -> & Hi'). cbn [rbind].
    assert (Hobj : In "ObjID" (concat (a :: rest))).
    { apply in_concat. exists a. split; [left; auto|]. apply Did. left. auto. }
    destruct (join_ok generated_cols t') as (t2 & Ht2 & Hi2).
    + left. reflexivity.
    + apply Hi'. left. auto.
    + intros x Hx Hx'. apply generated_spec in Hx. apply Hi' in Hx'. destruct Hx' as [Hx'|[_ ->]].
      * destruct Hx as [Hx| ->]; [apply AF; auto|]. exfalso.
        assert (N := AR "fieldJD_TDB" Hx'). destruct des; discriminate N; discriminate.
      * destruct Hx as [Hx|Hx]; [|discriminate]. apply member_in in Hx. discriminate.
    + exists t2. split; auto. intro x. rewrite Hi2, generated_spec, Hi'. cbn [negb].
      destruct (string_dec x "ObjID"); [subst|]; intuition. left. left. reflexivity.
Qed.

Lemma other_known : forall x, other x -> ~ In x ephemeris_names /\ ~ In x (from_pointing ++ dropped_later) /\ ~ extra x.
Proof.
  intros x [[_ ->]|[[H N]|(_ & _ & ->)]].
  - split; [|split]; try (rewrite <- member_in; unfold from_pointing; destruct des; discriminate). apply extra_not. destruct des; reflexivity.
  - assert (R := aux_reserved x H N). rewrite member_out in R.
    assert (S1 : forallb (fun y => member y (reserved des)) (ephemeris_names ++ from_pointing ++ dropped_later) = true)
      by (unfold from_pointing; destruct des; vm_compute; reflexivity).
    apply members_in in S1. split; [|split].
    + intro E. apply R, S1. apply in_app_iff. auto.
    + intro E. apply R, S1. apply in_app_iff. auto.
    + intros [E _]. exact (doc_query_apart _ _ _ _ _ D x E H).
  - split; [|split]; try (rewrite <- member_in; unfold from_pointing; destruct des; discriminate). apply extra_not. destruct des; reflexivity.
Qed.
Lemma map_suffixed : forall o s t, (forall x, In x t -> ~ In x o) -> map (suffixed o s) t = t.
Proof.
  intros o s t H. induction t as [|x t IH]; [reflexivity|]. cbn. rewrite IH by (intros; apply H; right; auto). f_equal.
  unfold suffixed. assert (N : member x o = false) by (apply member_out, H; left; auto). rewrite N. reflexivity.
Qed.
Definition unknown (x : string) : Prop := other x \/ extra x.
Lemma match_ok : forall t p', models ephemeris_names other t ->
  models (from_pointing ++ dropped_later) extra (without ["FieldID"] (without pointing_columns_to_skip p')) ->
  In "FieldID" (without pointing_columns_to_skip p') ->
  exists t', match_columns t p' = Ok t' /\ models (ephemeris_names ++ from_pointing) unknown t'.
Proof.
  intros t p' Ht Hp HF. unfold match_columns. rewrite (need_known _ _ _ ["FieldID"] Ht eq_refl). cbn [rbind].
  rewrite need_in by (intros ? [<-|[]]; auto). cbn [rbind]. set (r := without ["FieldID"] _) in *. clearbody r. clear HF p'.
  assert (Apart : forall x, In x t -> In x r -> False).
  { intros x H1 H2. apply Ht in H1. apply Hp in H2. destruct H1 as [H1|H1].
    - destruct H2 as [H2|H2].
      + assert (S1 : forallb (fun y => negb (member y ephemeris_names)) (from_pointing ++ dropped_later) = true)
          by (unfold from_pointing; destruct des; vm_compute; reflexivity).
        rewrite forallb_forall in S1. apply S1 in H2. rewrite negb_true_iff, member_out in H2. auto.
      + apply (extra_free x H2). right. unfold reserved. apply in_app_iff. right. apply in_app_iff. auto.
    - destruct (other_known x H1) as (_ & N1 & N2). destruct H2; auto. }
  rewrite !map_suffixed by (intros x H1 H2; eapply Apart; eauto).
  assert (M : models (ephemeris_names ++ from_pointing ++ dropped_later) unknown (t ++ r)).
  { intro x. unfold unknown. rewrite in_app_iff, (Ht x), (Hp x), (in_app_iff ephemeris_names). tauto. }
  rewrite (need_known _ _ _ ["optFilter"; "observationStartMJD_TAI"; "fieldMJD_TAI"; "observationId_"; "observationMidpointMJD_TAI"] M)
    by (unfold from_pointing; destruct des; reflexivity). cbn [rbind].
  eexists. split; [reflexivity|].
  change ["observationStartMJD_TAI"; "observationId_"; "observationMidpointMJD_TAI"] with dropped_later.
  apply (models_same (without dropped_later (ephemeris_names ++ from_pointing ++ dropped_later))).
  2,3: unfold from_pointing; destruct des; vm_compute; reflexivity.
  apply models_without; auto. intros x [Hx|Hx].
  - destruct (other_known x Hx) as (_ & N & _). intro H. apply N. apply in_app_iff. auto.
  - apply (extra_none dropped_later); auto. destruct des; reflexivity.
Qed.
Lemma unknown_free : forall x, unknown x -> x = "fieldJD_TDB" \/ ~ In x (reserved des).
Proof.
  intros x [[[_ ->]|[[H N]|(_ & _ & ->)]]|H]; auto; right.
  - apply member_out. apply aux_reserved; auto.
  - rewrite <- member_in. destruct des; discriminate.
  - intro R. apply (extra_free x H). right. auto.
Qed.

(** ** Magnitudes *)
Lemma is_colour_spec : forall x, is_colour main x = true <-> colour_of main x.
Proof.
  intro x. unfold is_colour, colour_of. destruct x as [|ch r].
  - split; [discriminate|intros (? & ?); discriminate].
  - rewrite String.eqb_eq. split; [intros ->; eauto|]. intros (ch' & E). injection E as <- ->. reflexivity.
Qed.
Lemma filter_letter : forall f, In f (c_filters c) -> exists ch, f = String ch "" /\ In ch ["u"; "g"; "r"; "i"; "z"; "y"; "Y"]%char.
Proof. intros f H. apply letters in H. cbn in H. intuition (subst; eexists; split; [reflexivity|cbn; tauto]). Qed.
Lemma colour_is : forall f, In f (c_filters c) -> is_colour main (f ++ "-" ++ main)%string = true.
Proof. intros f H. destruct (filter_letter f H) as (ch & -> & _). cbn. apply String.eqb_refl. Qed.

Lemma params_spec : forall phase, In phase ["HG"; "HG1G2"; "HG12"; "linear"; "none"] -> parameters phase = Some (phase_columns phase).
Proof. intros phase H. cbn in H. intuition (subst; reflexivity). Qed.
Lemma filter_parameters_spec : forall fs x, In x (filter_parameters (phase_columns (c_phase_function c)) fs)
  <-> exists p f, In p (phase_columns (c_phase_function c)) /\ In f fs /\ x = (p ++ f)%string.
Proof.
  intros fs x. unfold filter_parameters. rewrite in_flat_map. split.
  - intros (p & Hp & H). apply in_map_iff in H. destruct H as (f & <- & Hf). eauto.
  - intros (p & f & Hp & Hf & ->). exists p. split; auto. apply in_map_iff. eauto.
Qed.


Notation H := ("H_" ++ main)%string.
Notation ps := (phase_columns (c_phase_function c)).
Notation known := (ephemeris_names ++ from_pointing).
Hypothesis phase : In (c_phase_function c) ["HG"; "HG1G2"; "HG12"; "linear"; "none"].

(** A name that is none of the input-dependent ones. *)
Definition plain (x : string) : Prop := ~ colour_of main x /\ ~ parameter_of_filter c x /\ x <> H /\ ~ In x ps.
Definition plainb (x : string) : bool :=
  match x with
  | String "H" (String "_" _) => false
  | String _ (String "-" _) => false
  | _ => negb (member x (["G1"; "G2"; "GS"; "G12"; "S"] ++
           flat_map (fun p => map (fun f => p ++ f)%string ["u"; "g"; "r"; "i"; "z"; "y"; "Y"]) ["G1"; "G2"; "GS"; "G12"; "S"]))
  end.
Lemma phase_sub : incl ps ["G1"; "G2"; "GS"; "G12"; "S"].
Proof.
  cbn in phase. destruct phase as [<-|[<-|[<-|[<-|[<-|[]]]]]]; intros x Hx; cbn in *; tauto.
Qed.
Lemma plainb_plain : forall x, plainb x = true -> plain x.
Proof.
  intros x Hx. split; [|split; [|split]].
  - intros (ch & ->). unfold plainb in Hx. cbn in Hx. destruct ch as [[] [] [] [] [] [] [] []]; discriminate.
  - intros (p & f & Hp & Hf & ->). apply phase_sub in Hp. apply letters in Hf. cbn in Hp, Hf.
    repeat (destruct Hp as [<-|Hp]; [repeat (destruct Hf as [<-|Hf]; [discriminate|]); destruct Hf|]). destruct Hp.
  - intros ->. discriminate.
  - intro Hp. apply phase_sub in Hp. cbn in Hp. repeat (destruct Hp as [<-|Hp]; [discriminate|]). destruct Hp.
Qed.
Lemma known_plain : forall x, In x known -> plain x /\ x <> "H_original".
Proof.
  intros x Hx. assert (S1 : forallb (fun x => plainb x && negb (String.eqb x "H_original")) known = true)
    by (unfold from_pointing; destruct des; vm_compute; reflexivity).
  rewrite forallb_forall in S1. apply S1 in Hx. apply andb_prop in Hx. destruct Hx as [H1 H2]. split; [apply plainb_plain; auto|].
  intros ->. discriminate.
Qed.
Lemma H_letter : exists ch, main = String ch "" /\ In ch ["u"; "g"; "r"; "i"; "z"; "y"; "Y"]%char.
Proof. apply filter_letter. apply (doc_main _ _ _ _ _ D). Qed.
Lemma H_plain : ~ colour_of main H /\ ~ parameter_of_filter c H /\ H <> "H_original" /\ H <> "H_filter" /\ H <> "ObjID" /\ ~ In H ps.
Proof.
  split; [intros (ch & E); discriminate|]. split.
  { intros (p & f & Hp & Hf & E). apply phase_sub in Hp. cbn in Hp. intuition (subst; discriminate). }
  destruct H_letter as (ch & -> & _). split; [discriminate|]. split; [discriminate|]. split; [discriminate|].
  intro Hp. apply phase_sub in Hp. cbn in Hp. intuition discriminate.
Qed.
Lemma H_unknown : unknown H.
Proof. left. right. left. split; [apply (doc_H _ _ _ _ _ D)|apply H_plain]. Qed.
Lemma original_not : ~ unknown "H_original".
Proof. intro U. destruct (unknown_free _ U) as [E|N]; [discriminate|]. apply N. apply member_in. destruct des; reflexivity. Qed.
Lemma filter_not : ~ unknown "H_filter".
Proof. intro U. destruct (unknown_free _ U) as [E|N]; [discriminate|]. apply N. apply member_in. destruct des; reflexivity. Qed.
Lemma ps_plain : forall p, In p ps -> ~ colour_of main p /\ ~ parameter_of_filter c p /\ p <> H /\ p <> "H_original" /\ p <> "H_filter" /\ p <> "ObjID".
Proof.
  intros p Hp. apply phase_sub in Hp. split; [|split; [|split]].
  - intros (ch & ->). cbn in Hp. intuition discriminate.
  - intros (p' & f & Hp' & Hf & ->). apply phase_sub in Hp'. apply letters in Hf. cbn in Hp', Hf.
    repeat (destruct Hp' as [<-|Hp']; [repeat (destruct Hf as [<-|Hf]; [cbn in Hp; intuition discriminate|]); destruct Hf|]). destruct Hp'.
  - intros ->. cbn in Hp. intuition discriminate.
  - cbn in Hp. intuition (subst; discriminate).
Qed.
Lemma unknown_ps : forall p, In p ps -> (unknown p <-> In p A).
Proof.
  intros p Hp. assert (N := ps_plain p Hp). split.
  - intros [[[_ ->]|[[? _]|(_ & _ & ->)]]|E]; auto.
    + apply phase_sub in Hp. cbn in Hp. intuition discriminate.
    + apply phase_sub in Hp. cbn in Hp. intuition discriminate.
    + destruct E as [E N']. destruct (doc_query_names _ _ _ _ _ D p E) as [?|(_ & _ & _ & ?)]; contradiction.
  - intro Ha. left. right. left. tauto.
Qed.
Lemma one_set_dec : {one_set c A} + {~ one_set c A}.
Proof.
  unfold one_set. destruct (forallb (fun x => member x A) ps) eqn:E; [left|right].
  - apply members_in. auto.
  - intro I. apply members_in in I. congruence.
Qed.
(** What is left of the input columns. *)
Definition kept (x : string) : Prop :=
  unknown x /\ (several c -> ~ colour_of main x) /\ (~ one_set c A -> ~ parameter_of_filter c x).
Definition chosen (x : string) : Prop := ~ one_set c A /\ In x ps.

Lemma colours_ok : forall seen t, models known unknown t -> incl seen (c_filters c) -> several c ->
  exists t', colour_columns (c_phase_function c) main (c_filters c) seen t = Ok t'
  /\ models (known ++ ["H_filter"]) (fun x => kept x \/ chosen x) t'.
Proof.
  intros seen t Ht Hs Sv. unfold colour_columns.
  destruct H_plain as (Hp1 & Hp2 & Hp3 & Hp4 & Hp5 & Hp6).
  rewrite need_in by (intros ? [<-|[]]; apply Ht; right; apply H_unknown). cbn [rbind].
  set (mm := (main ++ "-" ++ main)%string). set (t0 := put mm (put "H_original" t)).
  assert (Cmm : colour_of main mm) by (apply is_colour_spec, colour_is, (doc_main _ _ _ _ _ D)).
  assert (I0 : forall x, In x t0 <-> In x known \/ unknown x \/ x = "H_original" \/ x = mm).
  { intro x. unfold t0. rewrite !put_in, (Ht x). tauto. }
  assert (Hseen : forallb (fun f => member (f ++ "-" ++ main)%string t0) seen = true).
  { apply forallb_forall. intros f Hf. apply member_in, I0. destruct (string_dec f main) as [->|N]; auto.
    right. left. left. right. left. split; [apply (doc_colours _ _ _ _ _ D); auto|].
    destruct (filter_letter f (Hs f Hf)) as (ch & -> & _). discriminate. }
  rewrite Hseen. cbn [rbind]. rewrite (params_spec _ phase).
  assert (G : exists t1, match Some ps with
       | None => Err SysExit | Some [] => Ok t0
       | Some ps' => if forallb (fun x => member x t0) (H :: ps') then Ok t0
           else if forallb (fun x => member x t0) (H :: filter_parameters ps' (c_filters c)) then
             (_ <- need (filter_parameters ps' seen) t0 ;; Ok (without (filter_parameters ps' (c_filters c)) (puts ps' t0)))%result
           else Err SysExit end = Ok t1
     /\ forall x, In x t1 <-> (In x t0 /\ (~ one_set c A -> ~ parameter_of_filter c x)) \/ chosen x).
  { assert (E : forallb (fun x => member x t0) (H :: ps) = true <-> one_set c A).
    { rewrite members_in. unfold one_set, incl. split.
      - intros I p Hp. assert (U := I p (or_intror Hp)). apply I0 in U. destruct (ps_plain p Hp) as (P1 & P2 & P3 & P4 & P5 & P6).
        destruct U as [U|[U|[U|U]]]; [|apply unknown_ps; auto|contradiction|subst; contradiction].
        exfalso. apply (known_plain p) in U. destruct U as [(_ & _ & _ & U) _]. contradiction.
      - intros I p [<-|Hp]; apply I0; right; left; [apply H_unknown|]. apply unknown_ps; auto. }
    assert (G1 : one_set c A -> exists t1, (if forallb (fun x => member x t0) (H :: ps) then Ok t0
           else if forallb (fun x => member x t0) (H :: filter_parameters ps (c_filters c)) then
             (_ <- need (filter_parameters ps seen) t0 ;; Ok (without (filter_parameters ps (c_filters c)) (puts ps t0)))%result
           else Err SysExit) = Ok t1 /\ forall x, In x t1 <-> (In x t0 /\ (~ one_set c A -> ~ parameter_of_filter c x)) \/ chosen x).
    { intro O. rewrite (proj2 E O). exists t0. split; auto. intro x. unfold chosen. tauto. }
    destruct one_set_dec as [O|O].
    - destruct ps as [|p0 ps0] eqn:Eps; [|apply G1; auto]. exists t0. split; auto. intro x. unfold chosen. tauto.
    - destruct (doc_phase _ _ _ _ _ D) as [?|[_ Dp]]; [contradiction|].
      destruct ps as [|p0 ps0] eqn:Eps.
      { exfalso. apply O. unfold one_set. rewrite Eps. intros ? []. }
      rewrite <- Eps in *. assert (F : forallb (fun x => member x t0) (H :: ps) = false) by (apply not_true_iff_false; intro F; apply E in F; contradiction). rewrite F.
      assert (Hfp : forall fs, incl fs (c_filters c) -> incl (filter_parameters ps fs) t0).
      { intros fs Hfs x Hx. apply filter_parameters_spec in Hx. destruct Hx as (p & f & Hp & Hf & ->). apply I0. right. left. left. right. left.
        split; [apply Dp; auto|]. apply phase_sub in Hp. cbn in Hp. intuition (subst; discriminate). }
      replace (forallb (fun x => member x t0) (H :: filter_parameters ps (c_filters c))) with true.
      2:{ symmetry. apply members_in. intros x [<-|Hx]; [apply I0; right; left; apply H_unknown|]. exact (Hfp _ (incl_refl _) x Hx). }
      rewrite need_in by (apply Hfp; auto). cbn [rbind]. eexists. split; [reflexivity|]. intro x.
      rewrite without_in, puts_in, filter_parameters_spec. fold (parameter_of_filter c x). unfold chosen.
      assert (In x ps -> ~ parameter_of_filter c x) by (intro Hx; apply (ps_plain x Hx)). tauto. }
  destruct G as (t1 & G1 & I1). 
  match goal with |- context[rbind ?m _] => replace m with (Ok t1 : result cols) by (rewrite <- G1; destruct ps; reflexivity) end.
  cbn [rbind]. eexists. split; [reflexivity|]. intro x. rewrite in_map_iff.
  assert (HH : In H t1).
  { apply I1. left. split; [apply I0; right; left; apply H_unknown|auto]. }
  assert (HO : In "H_original" t1).
  { apply I1. left. split; [apply I0; auto|]. intros _ (p & f & Hp & Hf & E). apply phase_sub in Hp. cbn in Hp. intuition (subst; discriminate). }
  split.
  - intros (y & E & Hy). apply filter_In in Hy. destruct Hy as [Hy Nc]. rewrite negb_true_iff, <- not_true_iff_false, is_colour_spec in Nc.
    destruct (String.eqb_spec y H) as [E1|N1]; [subst x; left; apply in_app_iff; right; left; reflexivity|].
    destruct (String.eqb_spec y "H_original") as [E2|N2]; subst x.
    + right. left. split; [apply H_unknown|]. auto.
    + apply I1 in Hy. destruct Hy as [[Hy Np]|Hy]; [|right; right; auto]. apply I0 in Hy.
      destruct Hy as [Hy|[Hy|[Hy|Hy]]]; [left; apply in_app_iff; auto| |contradiction|subst; contradiction].
      right. left. split; [auto|]. auto.
  - intros [Hx|[Hx|Hx]].
    + apply in_app_iff in Hx. destruct Hx as [Hx|[<-|[]]].
      * destruct (known_plain x Hx) as [(P1 & P2 & P3 & P4) P5]. exists x.
        destruct (String.eqb_spec x H); [contradiction|]. destruct (String.eqb_spec x "H_original"); [contradiction|]. split; auto.
        apply filter_In. rewrite negb_true_iff, <- not_true_iff_false, is_colour_spec. split; auto. apply I1. left. split; auto. apply I0. auto.
      * exists H. rewrite String.eqb_refl. split; auto. apply filter_In. rewrite negb_true_iff, <- not_true_iff_false, is_colour_spec. auto.
    + destruct Hx as (U & N1 & N2). destruct (string_dec x H) as [->|N].
      * exists "H_original". destruct (String.eqb_spec "H_original" H); [congruence|]. split; [reflexivity|].
        apply filter_In. split; auto.
      * exists x. destruct (String.eqb_spec x H); [contradiction|].
        destruct (String.eqb_spec x "H_original") as [->|]; [destruct (original_not U)|]. split; auto.
        apply filter_In. rewrite negb_true_iff, <- not_true_iff_false, is_colour_spec. split; auto. apply I1. left. split; auto. apply I0. auto.
    + destruct Hx as [O Hx]. destruct (ps_plain x Hx) as (P1 & P2 & P3 & P4 & P5 & P6). exists x.
      destruct (String.eqb_spec x H); [contradiction|]. destruct (String.eqb_spec x "H_original"); [contradiction|]. split; auto.
      apply filter_In. rewrite negb_true_iff, <- not_true_iff_false, is_colour_spec. split; auto. apply I1. right. split; auto.
Qed.


(** ** The rest of the round *)
Definition light : Prop := exists m, c_lightcurve c = Some m /\ m <> "".
(** The columns that depend on the input files and on the models. *)
Definition given (x : string) : Prop := kept x \/ chosen x \/ (light /\ x = "Delta_m").
Lemma given_none : forall l,
  forallb (fun x => member x (reserved des) && negb (member x ["fieldJD_TDB"; "Delta_m"; "G1"; "G2"; "GS"; "G12"; "S"])) l = true ->
  forall x, given x -> ~ In x l.
Proof.
  intros l F x G Hx. rewrite forallb_forall in F. apply F in Hx. apply andb_prop in Hx. destruct Hx as [R N].
  rewrite negb_true_iff, member_out in N. apply member_in in R. cbn in N. destruct G as [(U & _)|[(_ & U)|(_ & ->)]].
  - destruct (unknown_free x U); [subst; tauto|auto].
  - apply phase_sub in U. cbn in U. intuition (subst; auto).
  - tauto.
Qed.
Lemma given_not : forall x, forallb (fun x => member x (reserved des) && negb (member x ["fieldJD_TDB"; "Delta_m"; "G1"; "G2"; "GS"; "G12"; "S"])) [x] = true ->
  ~ given x.
Proof. intros x F G. apply (given_none [x] F x G). left. reflexivity. Qed.
Lemma needs_ok : forall l t, (forall x, In x l -> In x t) -> need l t = Ok tt.
Proof. intros l t I. apply need_in. exact I. Qed.
Lemma required_ok : forall l t, incl l t -> required l t = Ok tt.
Proof. intros l t I. unfold required. apply members_in in I. rewrite I. reflexivity. Qed.

(** The table as far as the light curve and activity models. *)
Lemma before_models : forall seen t, models known unknown t -> incl seen (c_filters c) ->
  exists t2, models (known ++ ["H_filter"; "trailedSourceMagTrue"]) (fun x => kept x \/ chosen x) t2 /\
  forall lc ca, magnitude_columns (c_phase_function c) main (c_filters c) seen lc ca t
    = (t <- match lc with Some l => _ <- required l t2 ;; Ok (put "Delta_m" t2) | None => Ok t2 end ;;
       _ <- match ca with Some l => required l t | None => Ok tt end ;; Ok t)%result.
Proof.
  intros seen t Ht Hs. unfold magnitude_columns.
  assert (G : exists t1, (if (1 <? length (c_filters c))%nat then colour_columns (c_phase_function c) main (c_filters c) seen t
        else (_ <- need [H] t ;; Ok (put "H_filter" t))%result) = Ok t1 /\ models (known ++ ["H_filter"]) (fun x => kept x \/ chosen x) t1).
  { destruct (Nat.ltb_spec 1 (length (c_filters c))) as [L|L].
    - apply colours_ok; auto.
    - rewrite need_in by (intros ? [<-|[]]; apply Ht; right; apply H_unknown). cbn [rbind]. eexists. split; [reflexivity|].
      eapply models_ext; [apply models_put; exact Ht|]. intro x. unfold kept, chosen, several.
      assert (O : one_set c A) by (destruct (doc_phase _ _ _ _ _ D) as [?|[S _]]; [auto|unfold several in S; lia]).
      split; [intro U; left; split; [auto|split; [intro; lia|intro N; contradiction]]|]. intros [(U & _)|(N & _)]; [auto|contradiction]. }
  destruct G as (t1 & -> & H1). cbn [rbind].
  assert (HB : incl ephemeris_names (known ++ ["H_filter"])) by (intros x Hx; apply in_app_iff; left; apply in_app_iff; auto).
  assert (E : forall l, incl l ("H_filter" :: ephemeris_names) -> need l t1 = Ok tt).
  { intros l I. apply need_in. intros x Hx. apply H1. left. apply I in Hx. destruct Hx as [<-|Hx]; [apply in_app_iff; right; left; auto|auto]. }
  rewrite (E ["Range_LTC_km"]) by (apply members_in; reflexivity). cbn [rbind].
  replace (if member "Obj_Sun_LTC_km" t1 then Ok tt else need ["Obj_Sun_x_LTC_km"; "Obj_Sun_y_LTC_km"; "Obj_Sun_z_LTC_km"] t1) with (Ok tt : result unit).
  2:{ destruct (member _ t1); auto. symmetry. apply E. apply members_in. reflexivity. }
  cbn [rbind]. rewrite (E ["phase_deg"; "H_filter"]) by (apply members_in; reflexivity). cbn [rbind].
  rewrite (params_spec _ phase). rewrite need_in.
  2:{ intros p Hp. apply H1. right. destruct one_set_dec as [O|O]; [left|right; split; auto].
      destruct (ps_plain p Hp) as (P1 & P2 & _). split; [apply unknown_ps; auto|split; auto]. }
  cbn [rbind]. assert (H2 := models_put _ _ _ "trailedSourceMagTrue" H1). rewrite <- app_assoc in H2. cbn [app] in H2.
  exists (put "trailedSourceMagTrue" t1). split; [exact H2|]. intros lcs cas. reflexivity.
Qed.
Variable lc ca : string -> list string.
Lemma required_not : forall l t y, In y l -> ~ In y t -> required l t = Err ValueError.
Proof.
  intros l t y I N. unfold required. replace (forallb _ l) with false; [reflexivity|]. symmetry. apply not_true_iff_false.
  intro F. apply members_in in F. exact (N (F y I)).
Qed.
(** A column that a model requires and that no table has stops the round. *)
Lemma model_missing : forall seen stats n y, incl seen (c_filters c) -> n <> "" ->
  c_lightcurve c = Some n /\ In y (lc n) \/ c_activity c = Some n /\ In y (ca n) ->
  ~ In y A -> ~ In y query -> ~ In y ("q" :: reserved des) -> ~ In y ps ->
  round_columns des lc ca c main seen query aux stats = Err ValueError.
Proof.
  intros seen stats n y Hs Nn Hm NA NQ NR NP. unfold round_columns.
  destruct (pointing_ok (match c_fading c with FadingOff => false | _ => true end) (String.eqb (in_ephemerides_type (c_input c)) "external"))
    as (p & p' & E1 & E2 & M & HF & Hp).
  rewrite E1. cbn [rbind]. rewrite E2. cbn [rbind]. destruct (observation_ok p' Hp) as (t & -> & Ht). cbn [rbind].
  destruct (match_ok t p' Ht M HF) as (t2 & -> & Ht2). cbn [rbind]. destruct (before_models seen t2 Ht2 Hs) as (t3 & Ht3 & ->).
  assert (R : forallb (fun z => member z ("q" :: reserved des)) (known ++ ["H_filter"; "trailedSourceMagTrue"; "Delta_m"; "fieldJD_TDB"]) = true)
    by (unfold from_pointing; destruct des; vm_compute; reflexivity).
  apply members_in in R.
  assert (N3 : ~ In y t3).
  { intro I. apply Ht3 in I. destruct I as [I|[(U & _)|(_ & U)]]; [| |contradiction].
    - apply NR, R. apply in_app_iff in I. apply in_app_iff. destruct I as [I|[I|[I|[]]]]; [left; exact I|right; left; exact I|right; right; left; exact I].
    - destruct U as [[(_ & ->)|[(U & _)|(_ & _ & ->)]]|[U _]]; try contradiction; apply NR; [|left; reflexivity].
      apply R. apply in_app_iff. right. right. right. right. left. reflexivity. }
  assert (ND : y <> "Delta_m").
  { intros ->. apply NR, R. apply in_app_iff. right. right. right. left. reflexivity. }
  destruct Hm as [[Em Iy]|[Em Iy]]; rewrite Em.
  - unfold model_columns at 1. destruct (String.eqb_spec n ""); [contradiction|]. rewrite (required_not _ _ y Iy N3). reflexivity.
  - unfold model_columns at 2. destruct (String.eqb_spec n ""); [contradiction|].
    destruct (model_columns lc (c_lightcurve c)) as [l|].
    + unfold required at 1. destruct (forallb _ l); [|reflexivity]. cbn [rbind]. rewrite (required_not _ _ y Iy); [reflexivity|].
      rewrite put_in. intros [I|I]; contradiction.
    + cbn [rbind]. rewrite (required_not _ _ y Iy N3). reflexivity.
Qed.
Hypothesis served_lc : models_served c main A lc (c_lightcurve c).
Hypothesis served_ca : models_served c main A ca (c_activity c).
Lemma input_kept_kept : forall x, input_kept c main A x -> x = "ObjID" \/ kept x.
Proof.
  intros x (Hx & N1 & N2). destruct (string_dec x "ObjID"); auto. right. split; [|split; auto]. left. right. left. auto.
Qed.
Lemma model_ok : forall req m B t P, models_served c main A req m -> models B P t -> incl ephemeris_names B -> (forall x, kept x -> P x) ->
  match model_columns req m with Some l => required l t | None => Ok tt end = Ok tt.
Proof.
  intros req m B t P S Ht HB HP. unfold model_columns. destruct m as [n|]; auto. destruct (String.eqb_spec n ""); auto.
  apply required_ok. intros x Hx. apply Ht. destruct (S n x eq_refl n0 Hx) as [Hn|Hn]; [left; auto|].
  destruct (input_kept_kept x Hn) as [->|K]; [left; apply HB; left; reflexivity|right; auto].
Qed.
Lemma magnitude_ok : forall seen t, models known unknown t -> incl seen (c_filters c) ->
  exists t', magnitude_columns (c_phase_function c) main (c_filters c) seen (model_columns lc (c_lightcurve c))
      (model_columns ca (c_activity c)) t = Ok t'
  /\ models (known ++ ["H_filter"; "trailedSourceMagTrue"]) given t'.
Proof.
  intros seen t Ht Hs. destruct (before_models seen t Ht Hs) as (t2 & H2 & ->).
  assert (G : exists t3, match model_columns lc (c_lightcurve c) with
      | Some l => (_ <- required l t2 ;; Ok (put "Delta_m" t2))%result | None => Ok t2 end = Ok t3
      /\ models (known ++ ["H_filter"; "trailedSourceMagTrue"]) given t3).
  { assert (R := model_ok lc (c_lightcurve c) _ t2 _ served_lc H2).
    unfold model_columns in *. unfold given, light. destruct (c_lightcurve c) as [n|].
    - destruct (String.eqb_spec n "") as [->|N].
      + exists t2. split; auto. eapply models_ext; [exact H2|]. intro x. split; [tauto|].
        intros [?|[?|((m & Hm & Nm) & _)]]; auto. congruence.
      + rewrite R. { cbn [rbind]. eexists. split; [reflexivity|]. intro x. rewrite put_in, (H2 x). split.
          - intros [[?|?]| ->]; [auto|tauto|]. right. right. right. split; auto. exists n. auto.
          - intros [?|[?|[?|(_ & ->)]]]; auto. }
        { intros x Hx. apply in_app_iff. left. apply in_app_iff. auto. } { auto. }
    - exists t2. split; auto. eapply models_ext; [exact H2|]. intro x. split; [tauto|].
      intros [?|[?|((m & Hm & Nm) & _)]]; auto. congruence. }
  destruct G as (t3 & -> & H3). cbn [rbind].
  rewrite (model_ok ca (c_activity c) _ t3 _ served_ca H3).
  - cbn [rbind]. exists t3. auto.
  - intros x Hx. apply in_app_iff. left. apply in_app_iff. auto.
  - intros x Hx. left. auto.
Qed.


(** What an accepted configuration says about the switches. *)
Notation x := (c_expert c).
Hypothesis des_switches : des = true ->
  is_on (x_randomization_on x) = false /\ is_on (x_vignetting_on x) = false /\ is_on (x_trailing_losses_on x) = false.

Notation measured := (known ++ ["H_filter"; "trailedSourceMagTrue"; "PSFMagTrue"; "fiveSigmaDepth_mag"] ++ (if des then [] else uncertainty_names)
  ++ ["trailedSourceMag"; "PSFMag"; "RATrue_deg"; "DecTrue_deg"]).
Lemma measure_ok : forall t, models (known ++ ["H_filter"; "trailedSourceMagTrue"]) given t ->
  exists t', (t <- trailing_columns (is_on (x_trailing_losses_on x)) t ;;
    t <- vignetting_columns (is_on (x_vignetting_on x)) t ;;
    t <- (if des then Ok t else uncertainty_columns (is_on (x_trailing_losses_on x)) t) ;;
    measure_columns (is_on (x_randomization_on x)) (x_default_snr_cut x) (is_on (x_trailing_losses_on x)) t)%result = Ok t'
  /\ models measured given t'.
Proof.
  intros t Ht. assert (Gn := given_not). assert (Sw := des_switches).
  assert (H1 := models_put _ _ _ "PSFMagTrue" Ht). assert (H2 := models_put _ _ _ "fiveSigmaDepth_mag" H1).
  assert (E1 : trailing_columns (is_on (x_trailing_losses_on x)) t = Ok (put "PSFMagTrue" t)).
  { unfold trailing_columns. replace (if is_on _ then _ else _) with (Ok tt : result unit).
    2:{ destruct (is_on (x_trailing_losses_on x)); auto. symmetry. eapply need_known; [exact Ht|]. unfold from_pointing.
        destruct des; [|reflexivity]. destruct (Sw eq_refl) as (_ & _ & ?). discriminate. }
    cbn [rbind]. rewrite (need_known _ _ _ ["trailedSourceMagTrue"] Ht); [reflexivity|]. unfold from_pointing. destruct des; reflexivity. }
  rewrite E1. cbn [rbind]. set (t1 := put "PSFMagTrue" t) in *.
  assert (E2 : vignetting_columns (is_on (x_vignetting_on x)) t1 = Ok (put "fiveSigmaDepth_mag" t1)).
  { unfold vignetting_columns. replace (if is_on _ then _ else _) with (Ok tt : result unit).
    2:{ destruct (is_on (x_vignetting_on x)); auto. symmetry. eapply need_known; [exact H1|]. unfold from_pointing. destruct des; reflexivity. }
    cbn [rbind]. rewrite (need_known _ _ _ ["fieldFiveSigmaDepth_mag"] H1); [reflexivity|]. unfold from_pointing. destruct des; reflexivity. }
  rewrite E2. cbn [rbind]. set (t2 := put "fiveSigmaDepth_mag" t1) in *. clearbody t2. clear t1 H1 E1 E2 Ht t.
  unfold from_pointing in *. destruct des.
  - destruct (Sw eq_refl) as (-> & _ & _). cbn [rbind]. unfold measure_columns.
    rewrite (need_known _ _ _ ["RA_deg"; "Dec_deg"; "trailedSourceMagTrue"; "PSFMagTrue"] H2 eq_refl). cbn [rbind].
    eexists. split; [reflexivity|]. eapply models_same; [apply models_puts; exact H2|vm_compute; reflexivity|vm_compute; reflexivity].
  - unfold uncertainty_columns.
    replace (if is_on (x_trailing_losses_on x) then _ else _) with (Ok tt : result unit).
    2:{ destruct (is_on (x_trailing_losses_on x)); auto. symmetry. apply (need_known _ _ _ _ H2); reflexivity. }
    cbn [rbind]. rewrite (need_known _ _ _ ["trailedSourceMagTrue"; "fiveSigmaDepth_mag"; "seeingFwhmGeom_arcsec"; "PSFMagTrue"] H2 eq_refl).
    cbn [rbind]. assert (H3 := models_puts _ _ _ ["astrometricSigma_deg"; "SNRTrailedSourceMag"; "trailedSourceMagSigma"; "SNRPSFMag"; "PSFMagSigma"] H2).
    set (t3 := puts _ t2) in *. clearbody t3. clear H2. unfold measure_columns. destruct (is_on (x_randomization_on x)).
    + replace (if x_default_snr_cut x then _ else _) with (Ok tt : result unit).
      2:{ destruct (x_default_snr_cut x); auto. symmetry. apply (need_known _ _ _ _ H3); reflexivity. }
      cbn [rbind]. rewrite (need_known _ _ _ ["trailedSourceMagTrue"; "trailedSourceMagSigma"] H3 eq_refl). cbn [rbind].
      assert (H4 := models_put _ _ _ "trailedSourceMag" H3).
      replace (if is_on (x_trailing_losses_on x) then _ else _) with (Ok tt : result unit).
      2:{ destruct (is_on (x_trailing_losses_on x)); auto. symmetry. apply (need_known _ _ _ _ H4); reflexivity. }
      cbn [rbind]. assert (H5 := models_put _ _ _ "PSFMag" H4).
      rewrite (need_known _ _ _ ["RA_deg"; "Dec_deg"; "astrometricSigma_deg"] H5 eq_refl). cbn [rbind].
      eexists. split; [reflexivity|]. eapply models_same.
      * apply models_puts. apply models_rename; [apply models_rename; [exact H5|]|]; apply Gn; reflexivity.
      * vm_compute. reflexivity.
      * vm_compute. reflexivity.
    + rewrite (need_known _ _ _ ["RA_deg"; "Dec_deg"; "trailedSourceMagTrue"; "PSFMagTrue"] H3 eq_refl). cbn [rbind].
      eexists. split; [reflexivity|]. eapply models_same; [apply models_puts; exact H3|vm_compute; reflexivity|vm_compute; reflexivity].
Qed.

Definition given2 (y : string) : Prop :=
  given y \/ (In (fov_camera_model (c_fov c)) ["footprint"; "visits_footprint"] /\ y = "detectorID")
  \/ (fov_camera_model (c_fov c) = "visits_footprint" /\ y = "limMag_perChip").
(** The round as far as the camera. *)
Lemma before_camera : forall seen stats, incl seen (c_filters c) -> exists t, models measured given t /\
  round_columns des lc ca c main seen query aux stats
   = (t <- camera_columns (c_fov c) (c_simulation c) t ;;
      t <- limit_columns c t ;;
      t <- (if des then des_cut_columns (c_linking c) t else linking_columns (c_linking c) t) ;;
      out <- output_columns c t ;;
      _ <- (if stats : bool then stats_columns (c_linking c) (put "Obj_Sun_LTC_km" t) else Ok tt) ;; Ok out)%result.
Proof.
  intros seen stats Hs. unfold round_columns.
  destruct (pointing_ok (match c_fading c with FadingOff => false | _ => true end) (String.eqb (in_ephemerides_type (c_input c)) "external"))
    as (p & p' & E1 & E2 & M & HF & Hp).
  rewrite E1. cbn [rbind]. rewrite E2. cbn [rbind]. destruct (observation_ok p' Hp) as (t & -> & Ht). cbn [rbind].
  destruct (match_ok t p' Ht M HF) as (t2 & -> & Ht2). cbn [rbind]. destruct (magnitude_ok seen t2 Ht2 Hs) as (t3 & -> & Ht3). cbn [rbind].
  destruct (measure_ok t3 Ht3) as (t4 & E4 & Ht4). exists t4. split; auto.
  destruct (trailing_columns _ t3) as [u1|]; [|discriminate]. cbn [rbind] in E4 |- *.
  destruct (vignetting_columns _ u1) as [u2|]; [|discriminate]. cbn [rbind] in E4 |- *.
  destruct (if des then Ok u2 else _) as [u3|]; [|discriminate]. cbn [rbind] in E4 |- *.
  rewrite E4. reflexivity.
Qed.
Lemma visits_fails : fov_camera_model (c_fov c) = "visits_footprint" -> c_simulation c = None ->
  forall seen stats, incl seen (c_filters c) -> round_columns des lc ca c main seen query aux stats = Err TypeError.
Proof.
  intros H1 H2 seen stats Hs. destruct (before_camera seen stats Hs) as (t & Ht & ->). unfold camera_columns. rewrite H1, H2. reflexivity.
Qed.
Hypothesis visits_generated : fov_camera_model (c_fov c) = "visits_footprint" -> c_simulation c <> None.
Lemma camera_ok : forall t, models measured given t -> exists t', camera_columns (c_fov c) (c_simulation c) t = Ok t' /\ models measured given2 t'.
Proof.
  intros t Ht. unfold camera_columns, given2.
  assert (N : forall l, forallb (fun y => member y (ephemeris_names ++ ["fieldRA_deg"; "fieldDec_deg"])) l = true -> need l t = Ok tt).
  { intros l F. apply members_in in F. apply need_in. intros y Hy. apply Ht. left. apply F in Hy. apply in_app_iff in Hy.
    destruct Hy as [Hy|Hy]; apply in_app_iff; left; apply in_app_iff; [auto|]. right. clear Ht. unfold from_pointing. cbn in Hy. destruct des; cbn; tauto. }
  assert (S : given "object_separation" -> False) by (apply given_not; destruct des; reflexivity).
  assert (K : ~ In "object_separation" measured) by (rewrite <- member_in; unfold from_pointing; destruct des; discriminate).
  destruct (String.eqb_spec (fov_camera_model (c_fov c)) "footprint") as [->|N1].
  { rewrite N by reflexivity. cbn [rbind]. eexists. split; [reflexivity|]. intro y. rewrite put_in, (Ht y). cbn [In]. intuition congruence. }
  destruct (String.eqb_spec (fov_camera_model (c_fov c)) "visits_footprint") as [Ev|N2].
  { assert (Sim := visits_generated Ev). destruct (c_simulation c); [|congruence]. rewrite Ev. cbn [rbind]. rewrite N by reflexivity. cbn [rbind]. eexists. split; [reflexivity|]. intro y. rewrite puts_in, (Ht y). cbn [In]. intuition congruence. }
  assert (E : forall t', (forall y, In y t' <-> In y measured \/ given y) -> models measured (fun y => given y
     \/ (In (fov_camera_model (c_fov c)) ["footprint"; "visits_footprint"] /\ y = "detectorID")
     \/ (fov_camera_model (c_fov c) = "visits_footprint" /\ y = "limMag_perChip")) t').
  { intros t' Ht' y. rewrite Ht'. cbn [In]. intuition congruence. }
  destruct (String.eqb _ "circle"); [|eexists; split; [reflexivity|apply E; exact Ht]].
  destruct (fov_circle_radius (c_fov c)); [|eexists; split; [reflexivity|apply E; exact Ht]].
  rewrite N by reflexivity. cbn [rbind]. eexists. split; [reflexivity|]. apply E. intro y. rewrite without_in, put_in, (Ht y).
  cbn [In]. split; [intuition congruence|]. intro Hy. split; [auto|]. intros [<-|[]]. tauto.
Qed.


Lemma given2_not : forall y, forallb (fun y => member y (reserved des)
    && negb (member y ["fieldJD_TDB"; "Delta_m"; "G1"; "G2"; "GS"; "G12"; "S"; "detectorID"; "limMag_perChip"])) [y] = true -> ~ given2 y.
Proof.
  intros y F [G|[[_ ->]|[_ ->]]].
  - revert G. apply given_not. cbn [forallb] in *. rewrite andb_true_r in *. apply andb_prop in F. destruct F as [-> F].
    rewrite negb_true_iff, member_out in F. cbn [andb]. rewrite negb_true_iff, member_out.
    intro Hy. apply F.
    assert (I : incl ["fieldJD_TDB"; "Delta_m"; "G1"; "G2"; "GS"; "G12"; "S"] ["fieldJD_TDB"; "Delta_m"; "G1"; "G2"; "GS"; "G12"; "S"; "detectorID"; "limMag_perChip"])
      by (apply members_in; reflexivity). exact (I _ Hy).
  - destruct des; discriminate.
  - destruct des; discriminate.
Qed.

(** The round as far as the limits. *)
Lemma before_limits : forall seen stats, incl seen (c_filters c) -> exists t, models measured given2 t /\
  round_columns des lc ca c main seen query aux stats
   = (t <- limit_columns c t ;;
      t <- (if des then des_cut_columns (c_linking c) t else linking_columns (c_linking c) t) ;;
      out <- output_columns c t ;;
      _ <- (if stats : bool then stats_columns (c_linking c) (put "Obj_Sun_LTC_km" t) else Ok tt) ;; Ok out)%result.
Proof.
  intros seen stats Hs. destruct (before_camera seen stats Hs) as (t4 & Ht4 & ->).
  destruct (camera_ok t4 Ht4) as (t5 & -> & Ht5). exists t5. split; auto.
Qed.
Lemma snr_fails : des = true -> x_snr_limit x <> None -> forall seen stats, incl seen (c_filters c) ->
  round_columns des lc ca c main seen query aux stats = Err KeyError.
Proof.
  intros Hd Hn seen stats Hs. destruct (before_limits seen stats Hs) as (t & Ht & ->). unfold limit_columns.
  destruct (x_snr_limit x); [|congruence]. unfold need. replace (forallb _ ["SNRPSFMag"]) with false; [reflexivity|].
  symmetry. apply not_true_iff_false. intro F. apply members_in in F. assert (I := F "SNRPSFMag" (or_introl eq_refl)).
  apply Ht in I. destruct I as [I|I].
  - apply member_in in I. unfold from_pointing in I. rewrite Hd in I. discriminate I.
  - revert I. apply given2_not. destruct des; reflexivity.
Qed.

Hypothesis lsst_fading : des = false -> forall e, c_fading c <> FadingDES e.
Lemma fading_ok : forall t, models measured given2 t -> exists t', fading_columns (c_fading c) t = Ok t' /\ models measured given2 t'.
Proof.
  intros t Ht. assert (N : forall l, forallb (fun y => member y measured) l = true -> need l t = Ok tt).
  { intros l F. apply (need_known _ _ _ _ Ht). exact F. }
  assert (S : ~ given2 "detection_probability") by (apply given2_not; destruct des; reflexivity).
  assert (K : ~ In "detection_probability" measured) by (rewrite <- member_in; unfold from_pointing; destruct des; discriminate).
  assert (P : models measured given2 (without ["detection_probability"] (put "detection_probability" t))).
  { intro y. rewrite without_in, put_in, (Ht y). cbn [In]. split; [intuition congruence|]. intro Hy. split; [auto|]. intros [<-|[]]. tauto. }
  unfold fading_columns. destruct (c_fading c) as [|w p|e] eqn:Ef.
  - eauto.
  - rewrite need_in.
    + cbn [rbind]. eauto.
    + intros y [<-|[<-|[]]].
      * apply Ht. left. apply member_in. unfold from_pointing. destruct des; reflexivity.
      * destruct (member "limMag_perChip" t) eqn:M; [apply member_in; auto|]. apply Ht. left. apply member_in. unfold from_pointing. destruct des; reflexivity.
  - assert (Hd : des = true). { destruct des eqn:Ed; auto. exfalso. apply (lsst_fading eq_refl e). reflexivity. }
    rewrite N. { cbn [rbind]. eauto. }
    rewrite Hd. unfold from_pointing. rewrite Hd. reflexivity.
Qed.
Hypothesis des_snr : des = true -> x_snr_limit x = None.
Lemma bright_fails : c_saturation c = (true, None) -> forall seen stats, incl seen (c_filters c) ->
  round_columns des lc ca c main seen query aux stats = Err SysExit.
Proof.
  intros Hb seen stats Hs. destruct (before_limits seen stats Hs) as (t & Ht & ->). unfold limit_columns. rewrite Hb.
  replace (match x_snr_limit x with Some _ => _ | None => _ end) with (Ok tt : result unit).
  2:{ destruct (x_snr_limit x) eqn:E; auto. symmetry. apply (need_known _ _ _ _ Ht). unfold from_pointing.
      destruct des; [|reflexivity]. discriminate (des_snr eq_refl). }
  cbn [rbind].
  replace (match x_mag_limit x with Some _ => _ | None => _ end) with (Ok tt : result unit).
  2:{ destruct (x_mag_limit x); auto. symmetry. apply (need_known _ _ _ _ Ht). unfold from_pointing. destruct des; reflexivity. }
  cbn [rbind]. destruct (fading_ok t Ht) as (t' & -> & Ht'). reflexivity.
Qed.
Hypothesis bright_limits : fst (c_saturation c) = true -> snd (c_saturation c) <> None.
Lemma limit_ok : forall t, models measured given2 t -> exists t', limit_columns c t = Ok t' /\ models measured given2 t'.
Proof.
  intros t Ht. unfold limit_columns.
  replace (match x_snr_limit x with Some _ => _ | None => _ end) with (Ok tt : result unit).
  2:{ destruct (x_snr_limit x) eqn:E; auto. symmetry. apply (need_known _ _ _ _ Ht). unfold from_pointing.
      destruct des; [|reflexivity]. discriminate (des_snr eq_refl). }
  cbn [rbind].
  replace (match x_mag_limit x with Some _ => _ | None => _ end) with (Ok tt : result unit).
  2:{ destruct (x_mag_limit x); auto. symmetry. apply (need_known _ _ _ _ Ht). unfold from_pointing. destruct des; reflexivity. }
  cbn [rbind]. destruct (fading_ok t Ht) as (t' & -> & Ht'). cbn [rbind].
  destruct (fst (c_saturation c)) eqn:Es.
  - destruct (snd (c_saturation c)) as [ls|] eqn:El; [|destruct (bright_limits eq_refl eq_refl)].
    rewrite (need_known _ _ _ ["optFilter"; "PSFMag"] Ht') by (unfold from_pointing; destruct des; reflexivity). cbn [rbind]. eauto.
  - cbn [rbind]. eauto.
Qed.

Definition given3 (y : string) : Prop := given2 y \/ (des = false /\ l_ssp (c_linking c) <> None /\ In y linking_names).
Lemma cut_fails : des = true -> l_distance_cut_on (c_linking c) = true -> l_distance_cut (c_linking c) = None ->
  forall seen stats, incl seen (c_filters c) -> round_columns des lc ca c main seen query aux stats = Err TypeError.
Proof.
  intros Hd H1 H2 seen stats Hs. destruct (before_limits seen stats Hs) as (t & Ht & ->).
  destruct (limit_ok t Ht) as (t' & -> & Ht'). cbn [rbind].
  replace (if des then des_cut_columns (c_linking c) t' else linking_columns (c_linking c) t') with (Err TypeError : result cols); [reflexivity|].
  rewrite Hd. unfold des_cut_columns. rewrite H1, H2. rewrite need_in; [reflexivity|].
  intros y Hy. apply Ht'. left. apply in_app_iff. left. apply in_app_iff. left. revert y Hy. apply members_in. reflexivity.
Qed.
Hypothesis cuts_bounded : des = true ->
  (l_distance_cut_on (c_linking c) = true -> l_distance_cut (c_linking c) <> None)
  /\ (l_motion_cut_on (c_linking c) = true -> l_motion_cut (c_linking c) <> None).
Lemma last_ok : forall t, models measured given2 t ->
  exists t', (if des then des_cut_columns (c_linking c) t else linking_columns (c_linking c) t) = Ok t' /\ models measured given3 t'.
Proof.
  intros t Ht. assert (E : forall l, incl l ephemeris_names -> need l t = Ok tt).
  { intros l I. apply need_in. intros y Hy. apply Ht. left. apply in_app_iff. left. apply in_app_iff. left. auto. }
  unfold given3. destruct des eqn:Ed.
  - unfold des_cut_columns. destruct (cuts_bounded eq_refl) as [C1 C2].
    replace (if l_distance_cut_on (c_linking c) then _ else _) with (Ok tt : result unit).
    2:{ destruct (l_distance_cut_on (c_linking c)); auto. rewrite E by (apply members_in; reflexivity). cbn [rbind].
        destruct (l_distance_cut (c_linking c)); auto. destruct (C1 eq_refl eq_refl). }
    cbn [rbind]. replace (if l_motion_cut_on (c_linking c) then _ else _) with (Ok tt : result unit).
    2:{ destruct (l_motion_cut_on (c_linking c)); auto. rewrite E by (apply members_in; reflexivity). cbn [rbind].
        destruct (l_motion_cut (c_linking c)); auto. destruct (C2 eq_refl eq_refl). }
    cbn [rbind]. replace (if l_des_discovery_on (c_linking c) then _ else _) with (Ok tt : result unit).
    2:{ destruct (l_des_discovery_on (c_linking c)); auto. symmetry. apply E, members_in. reflexivity. }
    cbn [rbind]. exists t. split; auto. eapply models_ext; [exact Ht|]. intro y. intuition discriminate.
  - unfold linking_columns. destruct (l_ssp (c_linking c)) as [pp|].
    + rewrite E by (apply members_in; reflexivity). cbn [rbind]. eexists. split; [reflexivity|]. intro y. rewrite puts_in, (Ht y).
      unfold linking_names. intuition discriminate.
    + exists t. split; auto. eapply models_ext; [exact Ht|]. intro y. intuition congruence.
Qed.

(** The table that is handed to the output. *)
Lemma table_ok : forall seen stats, incl seen (c_filters c) -> exists t,
  round_columns des lc ca c main seen query aux stats
   = (out <- output_columns c t ;; _ <- (if stats : bool then stats_columns (c_linking c) (put "Obj_Sun_LTC_km" t) else Ok tt) ;; Ok out)%result
  /\ models measured given3 t.
Proof.
  intros seen stats Hs. destruct (before_limits seen stats Hs) as (t & Ht & ->).
  destruct (limit_ok t Ht) as (t6 & -> & Ht6). cbn [rbind]. destruct (last_ok t6 Ht6) as (t7 & -> & Ht7). exists t7. split; auto.
Qed.
Lemma ar_spec : ar = true <-> in_ephemerides_type (c_input c) <> "external".
Proof. unfold ar. rewrite negb_true_iff. apply String.eqb_neq. Qed.
Lemma pointing_names : forall y, In y from_pointing <-> y = "optFilter" \/ (In y (documented_query des)
  /\ ~ In y ("observationId" :: "filter" :: "observationStartMJD_TAI" :: "observationMidpointMJD_TAI" :: pointing_helpers)).
Proof.
  intro y. set (l := "observationId" :: _).
  assert (F1 : forallb (fun z => member z ("optFilter" :: without l (documented_query des))) from_pointing = true)
    by (unfold from_pointing; destruct des; vm_compute; reflexivity).
  assert (F2 : forallb (fun z => member z from_pointing) ("optFilter" :: without l (documented_query des)) = true)
    by (unfold from_pointing; destruct des; vm_compute; reflexivity).
  apply members_in in F1, F2. rewrite <- without_in. split.
  - intro Hy. apply F1 in Hy. destruct Hy; auto.
  - intros [->|Hy]; apply F2; [left; auto|right; auto].
Qed.
Lemma extra_plain : forall y, extra y -> ~ colour_of main y /\ ~ parameter_of_filter c y.
Proof. intros y [Hy N]. destruct (doc_query_names _ _ _ _ _ D y Hy) as [?|(_ & ? & ? & _)]; [contradiction|auto]. Qed.
Lemma kept_spec : forall y, kept y <-> (ar = true /\ y = "fieldJD_TDB") \/ (input_kept c main A y /\ y <> "ObjID")
  \/ (ar = true /\ x_brute_force x = false /\ y = "q") \/ extra y.
Proof.
  intro y. unfold kept, unknown, other, input_kept.
  assert (P1 : plain "fieldJD_TDB") by (apply plainb_plain; reflexivity). assert (P2 : plain "q") by (apply plainb_plain; reflexivity).
  split; [tauto|]. intros [(? & ->)|[?|[(? & ? & ->)|E]]].
  - destruct P1 as (? & ? & _). tauto.
  - tauto.
  - destruct P2 as (? & ? & _). tauto.
  - destruct (extra_plain y E). tauto.
Qed.
Lemma measured_spec : forall y, In y measured \/ y = "Obj_Sun_LTC_km" <->
  In y ephemeris_names \/ In y from_pointing \/ In y computed_names \/ (des = false /\ In y uncertainty_names).
Proof.
  intro y.
  assert (F1 : forallb (fun z => member z computed_names) ["H_filter"; "trailedSourceMagTrue"; "PSFMagTrue"; "fiveSigmaDepth_mag"; "trailedSourceMag"; "PSFMag"; "RATrue_deg"; "DecTrue_deg"; "Obj_Sun_LTC_km"] = true) by reflexivity.
  assert (F2 : forallb (fun z => member z ["H_filter"; "trailedSourceMagTrue"; "PSFMagTrue"; "fiveSigmaDepth_mag"; "trailedSourceMag"; "PSFMag"; "RATrue_deg"; "DecTrue_deg"; "Obj_Sun_LTC_km"]) computed_names = true) by reflexivity.
  apply members_in in F1, F2. assert (E : In y computed_names <-> In y ["H_filter"; "trailedSourceMagTrue"; "PSFMagTrue"; "fiveSigmaDepth_mag"; "trailedSourceMag"; "PSFMag"; "RATrue_deg"; "DecTrue_deg"; "Obj_Sun_LTC_km"]) by (split; auto).
  rewrite E. clear E F1 F2. rewrite !in_app_iff. cbn [In].
  assert (U : In y (if des then [] else uncertainty_names) <-> des = false /\ In y uncertainty_names).
  { destruct des; [split; [intros []|intros [? _]; discriminate]|tauto]. }
  rewrite U. clear U.
  assert (S : forall a b : string, a = b <-> b = a) by (intros; split; congruence). rewrite (S y). tauto.
Qed.
Lemma catalogue_spec : forall t, models measured given3 t -> forall y, In y (put "Obj_Sun_LTC_km" t) <-> catalogue des c main query A y.
Proof.
  intros t Ht y. rewrite put_in, (Ht y). unfold given3, given2, given, chosen.
  transitivity ((In y measured \/ y = "Obj_Sun_LTC_km") \/ kept y \/ (~ one_set c A /\ In y ps) \/ (light /\ y = "Delta_m")
    \/ (In (fov_camera_model (c_fov c)) ["footprint"; "visits_footprint"] /\ y = "detectorID")
    \/ (fov_camera_model (c_fov c) = "visits_footprint" /\ y = "limMag_perChip")
    \/ (des = false /\ l_ssp (c_linking c) <> None /\ In y linking_names)).
  { generalize (In y measured). intro. tauto. }
  rewrite measured_spec, kept_spec, pointing_names, ar_spec. unfold catalogue. fold light.
  set (l := "observationId" :: _). 
  assert (Q : In y query /\ ~ In y l <-> (In y (documented_query des) /\ ~ In y l) \/ extra y).
  { split.
    - intros [Hq N]. destruct (in_dec string_dec y (documented_query des)); [left; auto|right; split; auto].
    - intros [[Hq N]|E]; [split; auto; apply (doc_query _ _ _ _ _ D); auto|]. split; [apply E|].
      apply (extra_none l); auto. destruct des; vm_compute; reflexivity. }
  rewrite Q. clear Q. clearbody l.
  assert (O : y = "ObjID" -> In y ephemeris_names) by (intros ->; left; reflexivity).
  destruct (string_dec y "ObjID") as [e|n].
  - apply O in e. clear O. split; intros _; left; [exact e|left; exact e].
  - clear O. generalize (In y ephemeris_names) (In y computed_names) (In y uncertainty_names) (In y linking_names) (extra y) (input_kept c main A y)
      (In y (documented_query des) /\ ~ In y l) (In (fov_camera_model (c_fov c)) ["footprint"; "visits_footprint"]).
    intros. tauto.
Qed.


Hypothesis des_ssp : des = true -> l_ssp (c_linking c) = None.
Lemma stats_ok : forall t, models measured given3 t -> stats_columns (c_linking c) (put "Obj_Sun_LTC_km" t) = Ok tt.
Proof.
  intros t Ht. assert (C := catalogue_spec t Ht). unfold stats_columns.
  rewrite need_in.
  2:{ intros y Hy. apply C. unfold catalogue. cbn in Hy. destruct Hy as [<-|[<-|[<-|[<-|[]]]]].
      - left. cbn. tauto.
      - do 4 right. left. reflexivity.
      - do 5 right. left. cbn. tauto.
      - left. cbn. tauto. }
  cbn [rbind]. destruct (l_ssp (c_linking c)) as [pp|] eqn:E; auto.
  assert (L : forall y, In y linking_names -> In y (put "Obj_Sun_LTC_km" t)).
  { intros y Hy. apply C. unfold catalogue. do 11 right. left. rewrite E. split; [|split; [discriminate|auto]].
    destruct des; auto. discriminate (des_ssp eq_refl). }
  destruct (l_drop_unlinked (c_linking c)); apply need_in; intros y Hy; apply L; cbn in *; tauto.
Qed.
Lemma sun_needed : forall t, models measured given3 t -> need ["Obj_Sun_x_LTC_km"; "Obj_Sun_y_LTC_km"; "Obj_Sun_z_LTC_km"] t = Ok tt.
Proof.
  intros t Ht. apply (need_known _ _ _ _ Ht). unfold from_pointing. destruct des; reflexivity.
Qed.

Lemma round_output : forall seen stats, incl seen (c_filters c) -> exists t, models measured given3 t
  /\ round_columns des lc ca c main seen query aux stats = output_columns c t.
Proof.
  intros seen stats Hs. destruct (table_ok seen stats Hs) as (t & -> & Ht). exists t. split; auto.
  destruct (output_columns c t) as [out|]; [|reflexivity]. cbn [rbind].
  destruct stats; [rewrite (stats_ok t Ht)|]; reflexivity.
Qed.
Lemma all_ok : forall seen stats, incl seen (c_filters c) ->
  all_written des c main query A (round_columns des lc ca c main seen query aux stats).
Proof.
  intros seen stats Hs Ho. destruct (round_output seen stats Hs) as (t & Ht & ->). assert (C := catalogue_spec t Ht).
  unfold output_columns. rewrite (sun_needed t Ht). cbn [rbind]. rewrite Ho. cbn [String.eqb Ascii.eqb Bool.eqb].
  change (("all" =? "basic")%string) with false. cbv iota. cbn [rbind].
  assert (I : incl ["ObjID"; "fieldMJD_TAI"; "optFilter"] (put "Obj_Sun_LTC_km" t)).
  { intros y [<-|[<-|[<-|[]]]]; apply C; unfold catalogue; [left; cbn; tauto|left; cbn; tauto|do 4 right; left; reflexivity]. }
  exists (put "Obj_Sun_LTC_km" t). split; auto.
  destruct (String.eqb (o_format (c_output c)) "hdf5"); [rewrite need_in by (intros y [<-|[]]; apply I; left; auto); reflexivity|].
  destruct (String.eqb (o_format (c_output c)) "sqlite3"); [|reflexivity].
  apply members_in in I. rewrite I. reflexivity.
Qed.
Lemma list_ok : forall seen stats, incl seen (c_filters c) ->
  list_written des c main query A (round_columns des lc ca c main seen query aux stats).
Proof.
  intros seen stats Hs l Ho. destruct (round_output seen stats Hs) as (t & Ht & ->). assert (C := catalogue_spec t Ht).
  unfold output_columns. rewrite (sun_needed t Ht). cbn [rbind]. rewrite Ho. split.
  - intros Hl [S1 S2]. replace (forallb _ l) with true.
    2:{ symmetry. apply members_in. intros y Hy. apply C. auto. }
    cbn [rbind]. destruct (String.eqb_spec (o_format (c_output c)) "hdf5") as [E|_].
    { rewrite need_in by (intros y [<-|[]]; apply S1; auto). reflexivity. }
    destruct (String.eqb_spec (o_format (c_output c)) "sqlite3") as [E|_]; [|reflexivity].
    assert (I := S2 E). apply members_in in I. rewrite I. reflexivity.
  - intros y Hy N. replace (forallb _ l) with false; [reflexivity|]. symmetry. apply not_true_iff_false. intro F.
    apply members_in in F. apply N, C, F, Hy.
Qed.
Lemma basic_ok : des = false -> forall seen stats, incl seen (c_filters c) ->
  basic_written c (round_columns des lc ca c main seen query aux stats).
Proof.
  intros Hd seen stats Hs Ho. destruct (round_output seen stats Hs) as (t & Ht & ->). assert (C := catalogue_spec t Ht).
  unfold output_columns. rewrite (sun_needed t Ht). cbn [rbind]. rewrite Ho. cbn [String.eqb].
  assert (B : need basic_columns (put "Obj_Sun_LTC_km" t) = Ok tt).
  { assert (M := models_put _ _ _ "Obj_Sun_LTC_km" Ht). apply (need_known _ _ _ _ M). unfold from_pointing. rewrite Hd. reflexivity. }
  change (String.eqb "basic" "basic") with true. cbv iota. rewrite B. cbn [rbind].
  assert (F : forall out, incl ["ObjID"; "fieldMJD_TAI"; "optFilter"] out ->
    (_ <- (if String.eqb (o_format (c_output c)) "hdf5" then need ["ObjID"] out
        else if String.eqb (o_format (c_output c)) "sqlite3"
        then (if forallb (fun x => member x out) ["ObjID"; "fieldMJD_TAI"; "optFilter"] then Ok tt else Err OperationalError)
        else Ok tt) ;; Ok out)%result = Ok out).
  { intros out I. destruct (String.eqb _ "hdf5"); [rewrite need_in by (intros y [<-|[]]; apply I; left; auto); reflexivity|].
    destruct (String.eqb _ "sqlite3"); [|reflexivity]. apply members_in in I. rewrite I. reflexivity. }
  change basic_names with basic_columns. unfold linked_column. destruct (l_ssp (c_linking c)) as [pp|] eqn:E.
  - destruct (l_drop_unlinked (c_linking c)) eqn:Dr; cbn [rbind].
    + split; [intros [_ ?]; discriminate|]. intros _. apply F. apply members_in. reflexivity.
    + split; [|intros N; exfalso; apply N; split; [discriminate|auto]]. intros _.
      rewrite need_in. { cbn [rbind]. apply F. apply members_in. reflexivity. }
      intros y [<-|[]]. apply C. unfold catalogue. do 11 right. left. rewrite E. split; [auto|]. split; [discriminate|left; auto].
  - split; [intros [N _]; congruence|]. intros _. destruct (l_drop_unlinked (c_linking c)); apply F; apply members_in; reflexivity.
Qed.


Lemma basic_fails : des = true -> o_columns (c_output c) = Keyword "basic" -> forall seen stats, incl seen (c_filters c) ->
  round_columns des lc ca c main seen query aux stats = Err KeyError.
Proof.
  intros Hd Ho seen stats Hs. destruct (round_output seen stats Hs) as (t & Ht & ->).
  unfold output_columns. rewrite (sun_needed t Ht). cbn [rbind]. rewrite Ho. change (String.eqb "basic" "basic") with true. cbv iota.
  unfold need at 1. replace (forallb _ basic_columns) with false; [reflexivity|].
  symmetry. apply not_true_iff_false. intro F. apply members_in in F.
  assert (I : In "astrometricSigma_deg" (put "Obj_Sun_LTC_km" t)) by (apply F; cbn; tauto).
  apply put_in in I. destruct I as [I|I]; [|discriminate]. apply Ht in I. destruct I as [I|[I|(I & _)]].
  - apply member_in in I. unfold from_pointing in I. rewrite Hd in I. discriminate I.
  - revert I. apply given2_not. destruct des; reflexivity.
  - congruence.
Qed.
Lemma index_fails : forall l, o_columns (c_output c) = Columns l -> o_format (c_output c) = "sqlite3" ->
  (forall y, In y l -> catalogue des c main query A y) -> (exists y, In y ["ObjID"; "fieldMJD_TAI"; "optFilter"] /\ ~ In y l) ->
  forall seen stats, incl seen (c_filters c) -> round_columns des lc ca c main seen query aux stats = Err OperationalError.
Proof.
  intros l Ho Hf Hl (y & Hy & N) seen stats Hs. destruct (round_output seen stats Hs) as (t & Ht & ->). assert (C := catalogue_spec t Ht).
  unfold output_columns. rewrite (sun_needed t Ht). cbn [rbind]. rewrite Ho, Hf.
  replace (forallb (fun z => member z (put "Obj_Sun_LTC_km" t)) l) with true.
  2:{ symmetry. apply members_in. intros z Hz. apply C. auto. }
  cbn [rbind]. change (String.eqb "sqlite3" "hdf5") with false. change (String.eqb "sqlite3" "sqlite3") with true. cbv iota.
  replace (forallb (fun z => member z l) ["ObjID"; "fieldMJD_TAI"; "optFilter"]) with false; [reflexivity|].
  symmetry. apply not_true_iff_false. intro F. apply members_in in F. auto.
Qed.

End Inputs.
