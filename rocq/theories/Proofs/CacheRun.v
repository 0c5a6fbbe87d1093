From Coq Require Import String Bool Arith Lia List.
From Verif Require Import Base.Prelude Model.Config Model.Cache Spec.Cache Proofs.Cache.
Import ListNotations.
Open Scope list_scope.

Lemma C91_loaded_proof : forall net unzip dir s w w' p b m c,
  NoDup (all_names s) -> setup net unzip dir (aux_of s) w = (w', Ok (p, b, m, c)) ->
  w_file w' (jpl_planets s) = Some p /\ w_file w' (jpl_small_bodies s) = Some b
  /\ w_file w' (codes s) = Some c /\ w_file w' (meta_kernel s) = Some m
  /\ (forall n, In n (kernels s) -> present w' n)
  /\ (w_file w (meta_kernel s) = None -> m = Meta dir (kernels s) true).
Proof.
  intros net unzip dir s w w' p b m c ND E. destruct (setup_spec _ _ _ _ _ _ _ ND E) as (_ & _ & R).
  destruct (R _ _ _ _ eq_refl) as (A & B & C & D & F & G). auto 10.
Qed.

Lemma C91_kept_proof : forall net unzip dir s w w' r n c,
  NoDup (all_names s) -> setup net unzip dir (aux_of s) w = (w', r) -> w_file w n = Some c -> w_file w' n = Some c.
Proof.
  intros net unzip dir s w w' r n c ND E H. destruct (setup_spec _ _ _ _ _ _ _ ND E) as (K & _). auto.
Qed.

(** ** Where new files come from *)

Lemma url_for_some u n x : url_for u n = Some x -> In (n, x) u.
Proof.
  induction u as [|[k v] u IH]; simpl; [discriminate|]. destruct (url_for u n); [auto|].
  destruct (String.eqb_spec k n) as [->|]; [|discriminate]. intros [= ->]. auto.
Qed.

Lemma url_for_in u n : In n (map fst u) -> exists x, url_for u n = Some x.
Proof.
  induction u as [|[k v] u IH]; simpl; [intros []|]. destruct (url_for u n) eqn:E; [eauto|].
  intros [->|H]; [rewrite String.eqb_refl; eauto|]. destruct (IH H) as [x X]; discriminate.
Qed.

Lemma urls_table s e : In e (urls s) <-> In e (url_table s).
Proof.
  unfold url_table, leap_seconds, earth_historical, earth_predict, orientation, planet_ephemeris, earth_high_precision,
    jpl_planets, jpl_small_bodies, codes_gz. rewrite !named_given.
  unfold urls, datafiles, name_of, url_of. cbn [map df_attr df_name df_url append In]. tauto.
Qed.

Definition from_net (net : nat -> string -> option string) (s : section) (n : string) (c : content) : Prop :=
  exists k u d, In (n, u) (url_table s) /\ net k u = Some d /\ c = Data d.

Lemma fetch_new net s n w w' r k c : fetch net (aux_of s) n w = (w', r) -> w_file w k = None -> w_file w' k = Some c ->
  from_net net s k c.
Proof.
  unfold fetch. destruct (negb _); [intros [= <- <-]; congruence|]. destruct (exists_file w n); [intros [= <- <-]; congruence|].
  destruct (url_for (a_urls (aux_of s)) n) as [u|] eqn:Eu; [|intros [= <- <-]; congruence].
  apply url_for_some, urls_table in Eu.
  destruct (net _ u) as [d|] eqn:En; intros [= <- <-]; simpl; [|congruence].
  destruct (String.eqb_spec k n) as [->|]; [|congruence]. intros _ [= <-]. exists (w_tried w), u, d. auto.
Qed.

(** Every file that appears is downloaded, or is in [made]. *)
Definition grows net s (made : list string) (w w' : world) : Prop :=
  forall k c, w_file w k = None -> w_file w' k = Some c -> In k made \/ from_net net s k c.
Lemma grows_refl net s made w : grows net s made w w.
Proof. intros k c. congruence. Qed.
Lemma grows_trans net s made a b c : grows net s made a b -> keeps b c -> grows net s made b c -> grows net s made a c.
Proof.
  intros G K H k x A C. destruct (w_file b k) as [y|] eqn:B.
  - pose proof (K _ _ B). replace x with y by congruence. eauto.
  - eauto.
Qed.

Lemma fetch_grows net s made n w w' r : fetch net (aux_of s) n w = (w', r) -> grows net s made w w'.
Proof. intros E k c A B. right. eapply fetch_new; eauto. Qed.

Lemma fetch_all_grows net s made l : forall w w' r, fetch_all net (aux_of s) l w = (w', r) -> grows net s made w w'.
Proof.
  induction l as [|n l IH]; intros w w' r; cbn [fetch_all]; [intros [= <- <-]; apply grows_refl|].
  unfold andthen. destruct (fetch net (aux_of s) n w) as [w1 [b|e]] eqn:E.
  - intros H. eapply grows_trans; [eapply fetch_grows; exact E|eapply fetch_all_keeps; exact H|eapply IH; exact H].
  - intros [= <- <-]. eapply fetch_grows; exact E.
Qed.

Lemma setup_grows net unzip dir s w w' r : NoDup (all_names s) -> setup net unzip dir (aux_of s) w = (w', r) ->
  grows net s [meta_kernel s; codes s] w w'.
Proof.
  intros ND. unfold setup, andthen.
  assert (GA : forall w w' r, create_assist_ephemeris net (aux_of s) w = (w', r) -> grows net s [meta_kernel s; codes s] w w').
  { clear. intros w w' r. unfold create_assist_ephemeris, andthen.
    destruct (fetch net (aux_of s) (a_planets (aux_of s)) w) as [w1 [b1|e]] eqn:E1.
    2:{ intros [= <- <-]. eapply fetch_grows; eauto. }
    destruct (fetch net (aux_of s) (a_small (aux_of s)) w1) as [w2 [b2|e]] eqn:E2.
    2:{ intros [= <- <-]. eapply grows_trans; [eapply fetch_grows; eauto|eapply fetch_keeps; eauto|eapply fetch_grows; eauto]. }
    assert (G : grows net s [meta_kernel s; codes s] w w2)
      by (eapply grows_trans; [eapply fetch_grows; eauto|eapply fetch_keeps; eauto|eapply fetch_grows; eauto]).
    unfold contents, give. destruct (w_file w2 _); [|intros [= <- <-]; exact G].
    destruct (w_file w2 _); intros [= <- <-]; exact G. }
  assert (GF : forall w w' r, furnish_spiceypy net dir (aux_of s) w = (w', r) -> grows net s [meta_kernel s; codes s] w w').
  { intros v v' q E. destruct (furnish_spec _ _ _ _ _ _ ND E) as (K & O & _).
    revert E. unfold furnish_spiceypy, andthen. rewrite aux_kernels, aux_meta.
    destruct (fetch_all net (aux_of s) (kernels s) v) as [w1 [[]|e]] eqn:E1.
    2:{ intros [= <- <-]. eapply fetch_all_grows; eauto. }
    pose proof (fetch_all_present _ _ _ _ _ E1) as P1.
    destruct (exists_file w1 (meta_kernel s)) eqn:Em.
    - unfold give. apply exists_file_true in Em. rewrite (fetch_there _ _ _ _ (meta_all s) Em). unfold contents.
      destruct (w_file w1 _); intros [= <- <-]; eapply fetch_all_grows; eauto.
    - destruct (build_done net dir s w1 ND P1) as (w2 & E2 & M2 & T2 & O2). rewrite E2.
      assert (Pm : present w2 (meta_kernel s)) by (eexists; exact M2).
      rewrite (fetch_there _ _ _ _ (meta_all s) Pm). unfold contents. rewrite M2. intros [= <- <-].
      intros k c A B. destruct (String.string_dec k (meta_kernel s)) as [->|D]; [left; left; auto|].
      rewrite (O2 _ D) in B. eapply fetch_all_grows; eauto. }
  assert (GC : forall w w' r, observatory_codes net unzip (aux_of s) w = (w', r) -> grows net s [meta_kernel s; codes s] w w').
  { intros v v' q E. destruct (codes_spec _ _ _ _ _ _ E) as (K & O & _).
    revert E. unfold observatory_codes, andthen. rewrite aux_codes, aux_gz.
    destruct (exists_file v (codes s)) eqn:Ec.
    - apply exists_file_true in Ec. cbn [fetch_all]. unfold andthen. rewrite (fetch_there _ _ _ _ (codes_all s) Ec).
      unfold give, contents. destruct (w_file v _); intros [= <- <-]; apply grows_refl.
    - unfold fetch_unzip, andthen. destruct (fetch net (aux_of s) (codes_gz s) v) as [w1 [b|e]] eqn:E1.
      2:{ intros [= <- <-]. eapply fetch_grows; eauto. }
      pose proof (fetch_grows net s [meta_kernel s; codes s] _ _ _ _ E1) as G1.
      assert (G : forall (u : world) q', (w1, q') = (u, q) -> grows net s [meta_kernel s; codes s] v u) by (intros u q' [= <- <-]; exact G1).
      destruct (b || negb (exists_file w1 (codes s))).
      + destruct (w_file w1 (codes_gz s)) as [[d|? ? ?]|]; [|apply G|apply G].
        destruct (unzip d) as [x|]; [|apply G]. unfold contents.
        destruct (w_file (save (codes s) (Data x) w1) (codes s)); intros [= <- <-]; intros k y A B; simpl in B;
          destruct (String.eqb_spec k (codes s)) as [->|]; try (left; right; left; reflexivity); eapply G1; eauto.
      + unfold contents. destruct (w_file w1 (codes s)); apply G. }
  destruct (create_assist_ephemeris net (aux_of s) w) as [w1 [[p b]|e]] eqn:E1; [|intros [= <- <-]; eauto].
  destruct (furnish_spiceypy net dir (aux_of s) w1) as [w2 [m|e]] eqn:E2;
    destruct (furnish_spec _ _ _ _ _ _ ND E2) as (K2 & _);
    [|intros [= <- <-]; eapply grows_trans; eauto].
  destruct (observatory_codes net unzip (aux_of s) w2) as [w3 [c|e]] eqn:E3;
    destruct (codes_spec _ _ _ _ _ _ E3) as (K3 & _);
    unfold give; intros [= <- <-]; eapply grows_trans; [eapply grows_trans; eauto|exact K3|eauto|eapply grows_trans; eauto|exact K3|eauto].
Qed.

Lemma C91_source_proof : forall net unzip dir s w w' r n c,
  NoDup (all_names s) -> setup net unzip dir (aux_of s) w = (w', r) ->
  w_file w n = None -> w_file w' n = Some c -> n <> meta_kernel s -> n <> codes s ->
  exists k u d, In (n, u) (url_table s) /\ net k u = Some d /\ c = Data d.
Proof.
  intros net unzip dir s w w' r n c ND E A B M C. destruct (setup_grows _ _ _ _ _ _ _ ND E n c A B) as [[<-|[<-|[]]]|H]; auto; contradiction.
Qed.

(** ** Without a network, and with one that answers *)

Lemma fetch_all_there net s l w : (forall n, In n l -> In n (all_names s)) -> (forall n, In n l -> present w n) ->
  fetch_all net (aux_of s) l w = (w, Ok tt).
Proof.
  induction l as [|n l IH]; intros I P; cbn [fetch_all]; [reflexivity|]. unfold andthen.
  rewrite fetch_there; [|apply I; left; auto|apply P; left; auto]. apply IH; intros; [apply I|apply P]; right; auto.
Qed.

Lemma C91_offline_proof : forall net unzip dir s w,
  NoDup (all_names s) -> (forall n, In n (needed s) -> present w n) ->
  exists w' x, setup net unzip dir (aux_of s) w = (w', Ok x) /\ w_tried w' = w_tried w
    /\ (forall n, n <> meta_kernel s -> w_file w' n = w_file w n).
Proof.
  intros net unzip dir s w ND P. unfold needed in P.
  assert (Pp : present w (jpl_planets s)) by (apply P, in_or_app; right; simpl; auto).
  assert (Pb : present w (jpl_small_bodies s)) by (apply P, in_or_app; right; simpl; auto).
  assert (Pc : present w (codes s)) by (apply P, in_or_app; right; simpl; auto).
  assert (Pk : forall n, In n (kernels s) -> present w n) by (intros; apply P, in_or_app; auto).
  unfold setup, andthen.
  assert (A : exists x, create_assist_ephemeris net (aux_of s) w = (w, Ok x)).
  { unfold create_assist_ephemeris, andthen. rewrite aux_planets, aux_small, (fetch_there _ _ _ _ (planets_all s) Pp), (fetch_there _ _ _ _ (small_all s) Pb).
    unfold contents, give. destruct Pp as [p ->], Pb as [b ->]. eauto. }
  destruct A as [x ->].
  assert (F : exists w1 m, furnish_spiceypy net dir (aux_of s) w = (w1, Ok m) /\ w_tried w1 = w_tried w
     /\ (forall k, k <> meta_kernel s -> w_file w1 k = w_file w k)).
  { unfold furnish_spiceypy, andthen. rewrite aux_kernels, aux_meta, fetch_all_there; auto; [|apply kernels_all].
    destruct (exists_file w (meta_kernel s)) eqn:Em.
    - apply exists_file_true in Em. unfold give. rewrite (fetch_there _ _ _ _ (meta_all s) Em). unfold contents. destruct Em as [m ->]. eauto.
    - destruct (build_done net dir s w ND Pk) as (w2 & -> & M2 & T2 & O2).
      assert (Pm : present w2 (meta_kernel s)) by (eexists; exact M2).
      rewrite (fetch_there _ _ _ _ (meta_all s) Pm). unfold contents. rewrite M2. eauto 10. }
  destruct F as (w1 & m & -> & T & O).
  assert (D : codes s <> meta_kernel s).
  { pose proof ND as ND'. unfold all_names in ND'. apply nodup_app_r in ND'.
    repeat match goal with H : NoDup (_ :: _) |- _ => inversion H; clear H; subst end. simpl in *. intros E. rewrite E in *. tauto. }
  assert (Pc1 : present w1 (codes s)) by (unfold present; rewrite (O _ D); exact Pc).
  unfold observatory_codes, andthen. rewrite aux_codes. rewrite (proj2 (exists_file_true w1 (codes s)) Pc1).
  rewrite fetch_all_there; [|intros n [<-|[]]; apply codes_all|intros n [<-|[]]; exact Pc1].
  unfold contents, give. destruct Pc1 as [c ->]. eauto 10.
Qed.

Lemma fetch_answers net s n w : answers net -> In n (map fst (url_table s)) -> In n (all_names s) ->
  exists w' b, fetch net (aux_of s) n w = (w', Ok b) /\ (b = true -> exists d, w_file w' n = Some (Data d)).
Proof.
  intros A U I. unfold fetch. rewrite registered by exact I. cbn [negb]. destruct (exists_file w n); [exists w, false; split; auto; discriminate|].
  destruct (url_for_in (a_urls (aux_of s)) n) as [u E].
  { apply in_map_iff in U. destruct U as ([k v] & <- & H). apply in_map_iff. exists (k, v). split; auto. apply urls_table. exact H. }
  rewrite E. destruct (A (w_tried w) u) as [d ->]. eexists _, true. split; [reflexivity|]. intros _. exists d. simpl.
  rewrite String.eqb_refl. reflexivity.
Qed.

Lemma fetch_all_answers net s l : answers net -> (forall n, In n l -> In n (map fst (url_table s)) /\ In n (all_names s)) ->
  forall w, exists w', fetch_all net (aux_of s) l w = (w', Ok tt).
Proof.
  intros A. induction l as [|n l IH]; intros U w; cbn [fetch_all]; [eexists; reflexivity|].
  unfold andthen. destruct (U n (or_introl eq_refl)) as [U1 U2]. destruct (fetch_answers net s n w A U1 U2) as (w1 & b & -> & _).
  apply IH. intros k Hk. apply U. right; exact Hk.
Qed.

Lemma table_names s n : In n (map fst (url_table s)) <-> In n (kernels s ++ [jpl_planets s; jpl_small_bodies s; codes_gz s]).
Proof. unfold kernels. simpl. tauto. Qed.

Lemma unzip_answers net unzip s w : answers net -> sound_zip unzip -> sane s w -> NoDup (all_names s) ->
  exists w', fetch_unzip net unzip (aux_of s) (codes_gz s) (codes s) w = (w', Ok tt) /\ present w' (codes s) /\ present w' (codes_gz s)
    /\ sane s w' /\ (forall n c, n <> codes s -> w_file w n = Some c -> w_file w' n = Some c).
Proof.
  intros A Z S ND. unfold fetch_unzip, andthen.
  assert (D : codes_gz s <> codes s).
  { pose proof ND as ND'. unfold all_names in ND'. apply nodup_app_r in ND'.
    repeat match goal with H : NoDup (_ :: _) |- _ => inversion H; clear H; subst end. simpl in *. intros E. rewrite E in *. tauto. }
  destruct (fetch_answers net s (codes_gz s) w A) as (w1 & b & E & N); [apply table_names, in_or_app; right; simpl; auto|apply gz_all|].
  rewrite E. pose proof (fetch_keeps _ _ _ _ _ _ E) as K. pose proof (fetch_present _ _ _ _ _ _ E) as [g G].
  assert (S1 : exists d, g = Data d).
  { destruct b; [destruct (N eq_refl) as [d Dd]; exists d; congruence|].
    unfold fetch in E. destruct (negb _); [discriminate|]. destruct (exists_file w (codes_gz s)); [|destruct (url_for _ _); [destruct (net _ _)|]; discriminate].
    injection E as <-. apply S. exact G. }
  destruct S1 as [d ->].
  destruct (b || negb (exists_file w1 (codes s))) eqn:Q.
  - rewrite G. destruct (Z d) as [x ->]. eexists. split; [reflexivity|]. split; [exists (Data x); simpl; rewrite String.eqb_refl; reflexivity|].
    assert (W : w_file (save (codes s) (Data x) w1) (codes_gz s) = Some (Data d)).
    { simpl. destruct (String.eqb_spec (codes_gz s) (codes s)); [contradiction|exact G]. }
    split; [eexists; exact W|]. split; [intros c; rewrite W; intros [= <-]; eauto|].
    intros n c Dn Hc. simpl. destruct (String.eqb_spec n (codes s)); [contradiction|auto].
  - apply orb_false_iff in Q. destruct Q as [_ Q]. apply negb_false_iff, exists_file_true in Q.
    exists w1. split; [reflexivity|]. split; [exact Q|]. split; [eexists; exact G|]. split; [|intros; apply K; auto].
    intros c. rewrite G. intros [= <-]. eauto.
Qed.

Lemma C91_recovers_proof : forall net unzip dir s w,
  NoDup (all_names s) -> answers net -> sound_zip unzip -> sane s w ->
  exists w' x, setup net unzip dir (aux_of s) w = (w', Ok x).
Proof.
  intros net unzip dir s w ND A Z S. unfold setup, andthen.
  assert (Sk : forall v w, keeps v w -> forall n, present v n -> present w n) by (intros; eapply keeps_present; eauto).
  assert (E1 : exists w1 x, create_assist_ephemeris net (aux_of s) w = (w1, Ok x)).
  { unfold create_assist_ephemeris, andthen. rewrite aux_planets, aux_small.
    destruct (fetch_answers net s (jpl_planets s) w A) as (w1 & b1 & E1 & _); [apply table_names, in_or_app; right; simpl; auto|apply planets_all|].
    rewrite E1. destruct (fetch_answers net s (jpl_small_bodies s) w1 A) as (w2 & b2 & E2 & _); [apply table_names, in_or_app; right; simpl; auto|apply small_all|].
    rewrite E2. unfold contents, give. pose proof (fetch_present _ _ _ _ _ _ E1) as P1. pose proof (fetch_present _ _ _ _ _ _ E2) as [b Pb].
    eapply Sk in P1; [|eapply fetch_keeps; exact E2]. destruct P1 as [p ->]. rewrite Pb. eauto. }
  destruct E1 as (w1 & [p b] & E1). rewrite E1.
  assert (E2 : exists w2 m, furnish_spiceypy net dir (aux_of s) w1 = (w2, Ok m)).
  { unfold furnish_spiceypy, andthen. rewrite aux_kernels, aux_meta.
    destruct (fetch_all_answers net s (kernels s) A) with (w := w1) as [w2 E2].
    { intros n Hn. split; [apply table_names, in_or_app; auto|apply kernels_all; auto]. }
    rewrite E2. pose proof (fetch_all_present _ _ _ _ _ E2) as P2. destruct (exists_file w2 (meta_kernel s)) eqn:Em.
    - apply exists_file_true in Em. unfold give. rewrite (fetch_there _ _ _ _ (meta_all s) Em). unfold contents. destruct Em as [m ->]. eauto.
    - destruct (build_done net dir s w2 ND P2) as (w3 & -> & M3 & _). assert (Pm : present w3 (meta_kernel s)) by (eexists; exact M3).
      rewrite (fetch_there _ _ _ _ (meta_all s) Pm). unfold contents. rewrite M3. eauto. }
  destruct E2 as (w2 & m & E2). rewrite E2.
  assert (S2 : sane s w2).
  { assert (D : codes_gz s <> jpl_planets s /\ codes_gz s <> jpl_small_bodies s /\ codes_gz s <> meta_kernel s).
    { pose proof ND as ND'. unfold all_names in ND'. apply nodup_app_r in ND'.
      repeat match goal with H : NoDup (_ :: _) |- _ => inversion H; clear H; subst end. simpl in *.
      repeat split; intros E; rewrite E in *; tauto. }
    assert (Dk : ~ In (codes_gz s) (kernels s)).
    { intros I. unfold all_names in ND. change (kernels s ++ [jpl_planets s; jpl_small_bodies s; meta_kernel s; codes s; codes_gz s])
        with (kernels s ++ [jpl_planets s; jpl_small_bodies s; meta_kernel s; codes s] ++ codes_gz s :: []) in ND.
      rewrite app_assoc in ND. apply NoDup_remove_2 in ND. apply ND. rewrite app_nil_r. apply in_or_app. auto. }
    destruct (assist_spec _ _ _ _ _ E1) as (_ & O1 & _). destruct (furnish_spec _ _ _ _ _ _ ND E2) as (_ & O2 & _).
    intros c. rewrite O2, O1 by tauto. apply S. }
  unfold observatory_codes, andthen. rewrite aux_codes, aux_gz. destruct (exists_file w2 (codes s)) eqn:Ec.
  - apply exists_file_true in Ec. rewrite fetch_all_there; [|intros n [<-|[]]; apply codes_all|intros n [<-|[]]; exact Ec].
    unfold contents, give. destruct Ec as [c ->]. eauto.
  - destruct (unzip_answers net unzip s w2 A Z S2 ND) as (w3 & -> & [c C] & _). unfold contents, give. rewrite C. eauto.
Qed.
