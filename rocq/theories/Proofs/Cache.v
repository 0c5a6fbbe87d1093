From Coq Require Import String Bool Arith Lia List.
From Verif Require Import Base.Prelude Model.Config Model.Cache Spec.Cache.
Import ListNotations.
Open Scope list_scope.

Lemma named_given s k d : named s k d = given s k d.
Proof.
  unfold named, given. induction s as [|[k' v] s IH]; simpl; auto. destruct (String.eqb k' k); auto.
Qed.

Lemma aux_kernels s : a_kernels (aux_of s) = kernels s.
Proof. unfold kernels, leap_seconds, earth_historical, earth_predict, orientation, planet_ephemeris, earth_high_precision. rewrite !named_given. reflexivity. Qed.
Lemma aux_meta s : a_meta (aux_of s) = meta_kernel s.
Proof. unfold meta_kernel. rewrite named_given. reflexivity. Qed.
Lemma aux_codes s : a_codes (aux_of s) = codes s.
Proof. unfold codes. rewrite named_given. reflexivity. Qed.
Lemma aux_gz s : a_codes_gz (aux_of s) = codes_gz s.
Proof. unfold codes_gz. rewrite named_given. reflexivity. Qed.
Lemma aux_planets s : a_planets (aux_of s) = jpl_planets s.
Proof. unfold jpl_planets. rewrite named_given. reflexivity. Qed.
Lemma aux_small s : a_small (aux_of s) = jpl_small_bodies s.
Proof. unfold jpl_small_bodies. rewrite named_given. reflexivity. Qed.
Lemma aux_files s n : In n (a_files (aux_of s)) <-> In n (all_names s).
Proof.
  unfold all_names, kernels, leap_seconds, earth_historical, earth_predict, orientation, planet_ephemeris, earth_high_precision,
    jpl_planets, jpl_small_bodies, meta_kernel, codes, codes_gz. rewrite !named_given. simpl. tauto.
Qed.

Arguments aux_of : simpl never.
Arguments kernels : simpl never.
Arguments all_names : simpl never.

Lemma registered s n : In n (all_names s) -> existsb (String.eqb n) (a_files (aux_of s)) = true.
Proof. intros H. apply existsb_exists. exists n. split; [apply aux_files; exact H|apply String.eqb_refl]. Qed.

Lemma exists_file_true w n : exists_file w n = true <-> present w n.
Proof. unfold exists_file, present. destruct (w_file w n); split; intros H; eauto; try discriminate. destruct H; discriminate. Qed.
Lemma exists_file_false w n : exists_file w n = false <-> w_file w n = None.
Proof. unfold exists_file. destruct (w_file w n); split; congruence. Qed.

(** ** Files that are there stay as they are *)

Definition keeps (w w' : world) : Prop := forall n c, w_file w n = Some c -> w_file w' n = Some c.
Lemma keeps_refl w : keeps w w. Proof. intros n c H; exact H. Qed.
Lemma keeps_trans a b c : keeps a b -> keeps b c -> keeps a c. Proof. intros H K n x E. auto. Qed.
Lemma keeps_present w w' n : keeps w w' -> present w n -> present w' n.
Proof. intros K [c H]. exists c. auto. Qed.

Lemma save_new n c w : w_file w n = None -> keeps w (save n c w).
Proof.
  intros H k x E. simpl. destruct (String.eqb_spec k n) as [->|]; [congruence|exact E].
Qed.

Lemma fetch_keeps net a n w w' r : fetch net a n w = (w', r) -> keeps w w'.
Proof.
  unfold fetch. destruct (negb _); [intros [= <- <-]; apply keeps_refl|].
  destruct (exists_file w n) eqn:E; [intros [= <- <-]; apply keeps_refl|].
  apply exists_file_false in E. destruct (url_for _ _) as [u|]; [|intros [= <- <-]; apply keeps_refl].
  destruct (net _ _); intros [= <- <-]; [|intros k c H; exact H].
  intros k c H. simpl. destruct (String.eqb_spec k n) as [->|]; [congruence|exact H].
Qed.

Lemma fetch_present net a n w w' b : fetch net a n w = (w', Ok b) -> present w' n.
Proof.
  unfold fetch. destruct (negb _); [discriminate|]. destruct (exists_file w n) eqn:E.
  - intros [= <- <-]. apply exists_file_true. exact E.
  - destruct (url_for _ _); [|discriminate]. destruct (net _ _); [|discriminate]. intros [= <- <-].
    exists (Data s0). simpl. rewrite String.eqb_refl. reflexivity.
Qed.

Lemma fetch_other net a n w w' r k : fetch net a n w = (w', r) -> k <> n -> w_file w' k = w_file w k.
Proof.
  unfold fetch. destruct (negb _); [intros [= <- <-]; auto|]. destruct (exists_file w n); [intros [= <- <-]; auto|].
  destruct (url_for _ _); [|intros [= <- <-]; auto]. destruct (net _ _); intros [= <- <-] N; simpl; auto.
  destruct (String.eqb_spec k n); [contradiction|reflexivity].
Qed.

Lemma fetch_all_keeps net a l : forall w w' r, fetch_all net a l w = (w', r) -> keeps w w'.
Proof.
  induction l as [|n l IH]; intros w w' r; simpl; [intros [= <- <-]; apply keeps_refl|].
  unfold andthen. destruct (fetch net a n w) as [w1 [b|e]] eqn:E.
  - intros H. eapply keeps_trans; [eapply fetch_keeps; exact E|eapply IH; exact H].
  - intros [= <- <-]. eapply fetch_keeps; exact E.
Qed.

Lemma fetch_all_present net a l : forall w w', fetch_all net a l w = (w', Ok tt) -> forall n, In n l -> present w' n.
Proof.
  induction l as [|n l IH]; intros w w'; simpl; [intros _ n []|].
  unfold andthen. destruct (fetch net a n w) as [w1 [b|e]] eqn:E; [|discriminate].
  intros H k [<-|Hk]; [|eapply IH; eauto]. eapply keeps_present; [eapply fetch_all_keeps; exact H|eapply fetch_present; exact E].
Qed.

Lemma fetch_all_other net a l k : ~ In k l -> forall w w' r, fetch_all net a l w = (w', r) -> w_file w' k = w_file w k.
Proof.
  induction l as [|n l IH]; intros N w w' r; simpl; [intros [= <- <-]; auto|].
  unfold andthen. simpl in N. destruct (fetch net a n w) as [w1 [b|e]] eqn:E.
  - intros H. rewrite (IH ltac:(tauto) _ _ _ H). eapply fetch_other; [exact E|]. intros ->; tauto.
  - intros [= <- <-]. eapply fetch_other; [exact E|]. intros ->; tauto.
Qed.

Lemma write_names_other net dir a l k : k <> a_meta a -> forall done w w' r,
  write_names net dir a done l w = (w', r) -> forall c, w_file w k = Some c -> w_file w' k = Some c.
Proof.
  intros N. induction l as [|n l IH]; intros done w w' r; simpl.
  - intros [= <- <-] c H. simpl. destruct (String.eqb_spec k (a_meta a)); [contradiction|exact H].
  - unfold andthen. destruct (fetch net a n w) as [w1 [b|e]] eqn:E.
    + intros H c Hc. apply (IH _ _ _ _ H). simpl. destruct (String.eqb_spec k (a_meta a)); [contradiction|].
      eapply fetch_keeps; eauto.
    + intros [= <- <-] c Hc. eapply fetch_keeps; eauto.
Qed.

Lemma build_other net dir a k w w' r : k <> a_meta a -> build_meta_kernel_file net dir a w = (w', r) ->
  forall c, w_file w k = Some c -> w_file w' k = Some c.
Proof.
  intros N H c Hc. unfold build_meta_kernel_file in H. eapply write_names_other; eauto. simpl.
  destruct (String.eqb_spec k (a_meta a)); [contradiction|exact Hc].
Qed.

Lemma build_keeps net dir a w w' r : w_file w (a_meta a) = None -> build_meta_kernel_file net dir a w = (w', r) -> keeps w w'.
Proof.
  intros N H k c Hc. eapply build_other; eauto. intros ->. congruence.
Qed.

Lemma fetch_there net s n w : In n (all_names s) -> present w n -> fetch net (aux_of s) n w = (w, Ok false).
Proof. intros I P. unfold fetch. rewrite registered by exact I. simpl. apply exists_file_true in P. rewrite P. reflexivity. Qed.

Lemma write_names_done net dir s l : ~ In (meta_kernel s) l -> (forall n, In n l -> In n (all_names s)) -> forall done w,
  (forall n, In n l -> present w n) ->
  exists w', write_names net dir (aux_of s) done l w = (w', Ok tt)
    /\ w_file w' (meta_kernel s) = Some (Meta dir (done ++ l) true) /\ w_tried w' = w_tried w
    /\ (forall k, k <> meta_kernel s -> w_file w' k = w_file w k).
Proof.
  intros N I. induction l as [|n l IH]; intros done w P; cbn [write_names].
  - exists (save (meta_kernel s) (Meta dir done true) w). rewrite <- (aux_meta s) at 1. split; [reflexivity|].
    rewrite app_nil_r. simpl. rewrite String.eqb_refl. split; auto. split; auto.
    intros k K. destruct (String.eqb_spec k (meta_kernel s)); [contradiction|reflexivity].
  - unfold andthen. rewrite fetch_there; [|apply I; left; auto|apply P; left; auto]. rewrite aux_meta.
    destruct (IH ltac:(simpl in N; tauto) ltac:(intros; apply I; right; auto) (done ++ [n])
      (save (meta_kernel s) (Meta dir (done ++ [n]) false) w)) as (w' & E & M & T & O).
    { intros k Hk. destruct (P k (or_intror Hk)) as [c C]. exists c. simpl.
      destruct (String.eqb_spec k (meta_kernel s)) as [->|]; [exfalso; apply N; right; exact Hk|exact C]. }
    exists w'. split; [exact E|]. rewrite <- app_assoc in M. split; [exact M|]. split; [exact T|].
    intros k K. rewrite (O k K). simpl. destruct (String.eqb_spec k (meta_kernel s)); [contradiction|reflexivity].
Qed.

Lemma nodup_app_r {A} (l m : list A) : NoDup (l ++ m) -> NoDup m.
Proof. induction l; simpl; auto. intros H. inversion H; auto. Qed.

Lemma nodup_meta s : NoDup (all_names s) -> ~ In (meta_kernel s) (kernels s).
Proof.
  unfold all_names. intros ND I.
  change (kernels s ++ [jpl_planets s; jpl_small_bodies s; meta_kernel s; codes s; codes_gz s])
    with (kernels s ++ [jpl_planets s; jpl_small_bodies s] ++ meta_kernel s :: [codes s; codes_gz s]) in ND.
  rewrite app_assoc in ND. apply NoDup_remove_2 in ND. apply ND. apply in_or_app. left. apply in_or_app. auto.
Qed.
Lemma kernels_all s n : In n (kernels s) -> In n (all_names s).
Proof. intros. apply in_or_app. auto. Qed.
Lemma meta_all s : In (meta_kernel s) (all_names s).
Proof. apply in_or_app. right. simpl. auto. Qed.
Lemma codes_all s : In (codes s) (all_names s).
Proof. apply in_or_app. right. simpl. auto 10. Qed.
Lemma gz_all s : In (codes_gz s) (all_names s).
Proof. apply in_or_app. right. simpl. auto 10. Qed.
Lemma planets_all s : In (jpl_planets s) (all_names s).
Proof. apply in_or_app. right. simpl. auto. Qed.
Lemma small_all s : In (jpl_small_bodies s) (all_names s).
Proof. apply in_or_app. right. simpl. auto. Qed.

Lemma build_done net dir s w : NoDup (all_names s) -> (forall n, In n (kernels s) -> present w n) ->
  exists w', build_meta_kernel_file net dir (aux_of s) w = (w', Ok tt)
    /\ w_file w' (meta_kernel s) = Some (Meta dir (kernels s) true) /\ w_tried w' = w_tried w
    /\ (forall k, k <> meta_kernel s -> w_file w' k = w_file w k).
Proof.
  intros ND P. unfold build_meta_kernel_file. rewrite aux_kernels, aux_meta.
  destruct (write_names_done net dir s (kernels s) (nodup_meta s ND) (kernels_all s) []
    (save (meta_kernel s) (Meta dir [] false) w)) as (w' & E & M & T & O).
  { intros n Hn. destruct (P n Hn) as [c C]. exists c. simpl. destruct (String.eqb_spec n (meta_kernel s)) as [->|]; auto.
    exfalso. apply (nodup_meta s ND Hn). }
  exists w'. split; [exact E|]. split; [exact M|]. split; [exact T|].
  intros k K. rewrite (O k K). simpl. destruct (String.eqb_spec k (meta_kernel s)); [contradiction|reflexivity].
Qed.

(** ** What a run finds *)

Lemma furnish_spec net dir s w w' r : NoDup (all_names s) -> furnish_spiceypy net dir (aux_of s) w = (w', r) ->
  keeps w w' /\ (forall k, k <> meta_kernel s -> ~ In k (kernels s) -> w_file w' k = w_file w k) /\
  (w_file w (meta_kernel s) = None -> w_file w' (meta_kernel s) = None \/ w_file w' (meta_kernel s) = Some (Meta dir (kernels s) true)) /\
  (forall m, r = Ok m -> w_file w' (meta_kernel s) = Some m /\ (forall n, In n (kernels s) -> present w' n)
     /\ (w_file w (meta_kernel s) = None -> m = Meta dir (kernels s) true)).
Proof.
  intros ND. unfold furnish_spiceypy, andthen. rewrite aux_kernels, aux_meta.
  destruct (fetch_all net (aux_of s) (kernels s) w) as [w1 [[]|e]] eqn:E1.
  2:{ intros [= <- <-]. split; [eapply fetch_all_keeps; exact E1|]. split.
      { intros k _ N. eapply fetch_all_other; eauto. } split; [|discriminate].
      intros M. left. rewrite (fetch_all_other _ _ _ _ (nodup_meta s ND) _ _ _ E1). exact M. }
  pose proof (fetch_all_keeps _ _ _ _ _ _ E1) as K1. pose proof (fetch_all_present _ _ _ _ _ E1) as P1.
  pose proof (fetch_all_other _ _ _ _ (nodup_meta s ND) _ _ _ E1) as M1.
  assert (O1 : forall k, ~ In k (kernels s) -> w_file w1 k = w_file w k) by (intros; eapply fetch_all_other; eauto).
  destruct (exists_file w1 (meta_kernel s)) eqn:Em.
  - unfold give. apply exists_file_true in Em. rewrite (fetch_there _ _ _ _ (meta_all s) Em).
    unfold contents. destruct Em as [m Em]. rewrite Em. intros [= <- <-]. split; [exact K1|]. split; [intros; apply O1; auto|]. split.
    { intros N. congruence. }
    intros m' [= <-]. split; [exact Em|]. split; [exact P1|]. intros N. congruence.
  - apply exists_file_false in Em. destruct (build_done net dir s w1 ND P1) as (w2 & E2 & M2 & T2 & O2). rewrite E2.
    assert (Pm : present w2 (meta_kernel s)) by (eexists; exact M2).
    rewrite (fetch_there _ _ _ _ (meta_all s) Pm). unfold contents. rewrite M2. intros [= <- <-].
    split.
    { intros n c Hc. destruct (String.string_dec n (meta_kernel s)) as [->|D].
      - rewrite (K1 _ _ Hc) in Em. discriminate.
      - rewrite (O2 _ D). auto. }
    split; [intros k D N; rewrite (O2 _ D); auto|]. split; [auto|].
    intros m [= <-]. split; [exact M2|]. split; [|reflexivity].
    intros n Hn. destruct (P1 n Hn) as [c C]. exists c. rewrite O2; auto. intros ->. apply (nodup_meta s ND Hn).
Qed.

Lemma assist_spec net s w w' r : create_assist_ephemeris net (aux_of s) w = (w', r) ->
  keeps w w' /\ (forall k, k <> jpl_planets s -> k <> jpl_small_bodies s -> w_file w' k = w_file w k) /\
  (forall p b, r = Ok (p, b) -> w_file w' (jpl_planets s) = Some p /\ w_file w' (jpl_small_bodies s) = Some b).
Proof.
  unfold create_assist_ephemeris, andthen. rewrite aux_planets, aux_small.
  destruct (fetch net (aux_of s) (jpl_planets s) w) as [w1 [b1|e]] eqn:E1.
  2:{ intros [= <- <-]. split; [eapply fetch_keeps; eauto|]. split; [|discriminate]. intros; eapply fetch_other; eauto. }
  destruct (fetch net (aux_of s) (jpl_small_bodies s) w1) as [w2 [b2|e]] eqn:E2.
  2:{ intros [= <- <-]. split; [eapply keeps_trans; eapply fetch_keeps; eauto|]. split; [|discriminate].
      intros. rewrite (fetch_other _ _ _ _ _ _ _ E2) by auto. eapply fetch_other; eauto. }
  assert (K : keeps w w2) by (eapply keeps_trans; eapply fetch_keeps; eauto).
  assert (O : forall k, k <> jpl_planets s -> k <> jpl_small_bodies s -> w_file w2 k = w_file w k).
  { intros. rewrite (fetch_other _ _ _ _ _ _ _ E2) by auto. eapply fetch_other; eauto. }
  unfold contents, give.
  destruct (w_file w2 (jpl_planets s)) as [p|] eqn:Ep; [|intros [= <- <-]; split; auto; split; auto; discriminate].
  destruct (w_file w2 (jpl_small_bodies s)) as [b|] eqn:Eb; [|intros [= <- <-]; split; auto; split; auto; discriminate].
  intros [= <- <-]. split; auto. split; auto. intros p' b' [= <- <-]. auto.
Qed.

Lemma codes_spec net unzip s w w' r : observatory_codes net unzip (aux_of s) w = (w', r) ->
  keeps w w' /\ (forall k, k <> codes s -> k <> codes_gz s -> w_file w' k = w_file w k) /\
  (forall c, r = Ok c -> w_file w' (codes s) = Some c).
Proof.
  unfold observatory_codes, andthen. rewrite aux_codes, aux_gz.
  destruct (exists_file w (codes s)) eqn:E.
  - apply exists_file_true in E. simpl. unfold andthen. rewrite (fetch_there _ _ _ _ (codes_all s) E). unfold give, contents.
    destruct E as [c Ec]. rewrite Ec. intros [= <- <-]. split; [apply keeps_refl|]. split; auto. intros c' [= <-]; auto.
  - apply exists_file_false in E. unfold fetch_unzip, andthen.
    destruct (fetch net (aux_of s) (codes_gz s) w) as [w1 [b|e]] eqn:E1.
    2:{ intros [= <- <-]. split; [eapply fetch_keeps; eauto|]. split; [|discriminate]. intros; eapply fetch_other; eauto. }
    pose proof (fetch_keeps _ _ _ _ _ _ E1) as K1.
    assert (O1 : forall k, k <> codes_gz s -> w_file w1 k = w_file w k) by (intros; eapply fetch_other; eauto).
    assert (G : (w1, Err OSError) = (w', r) ->
      keeps w w' /\ (forall k, k <> codes s -> k <> codes_gz s -> w_file w' k = w_file w k) /\
      (forall c, r = Ok c -> w_file w' (codes s) = Some c)).
    { intros [= <- <-]. split; auto. split; auto. discriminate. }
    destruct (b || negb (exists_file w1 (codes s))).
    + destruct (w_file w1 (codes_gz s)) as [[d|? ? ?]|]; [|exact G|exact G].
      destruct (unzip d) as [x|]; [|exact G]. unfold contents. simpl. rewrite String.eqb_refl. intros [= <- <-].
      split.
      { intros n c Hc. simpl. destruct (String.eqb_spec n (codes s)) as [->|]; [congruence|auto]. }
      split.
      { intros k A B. simpl. destruct (String.eqb_spec k (codes s)); [contradiction|auto]. }
      intros c [= <-]. simpl. rewrite String.eqb_refl. reflexivity.
    + unfold contents. destruct (w_file w1 (codes s)) as [c|] eqn:Ec; intros [= <- <-]; split; auto; split; auto; try discriminate.
      intros c' [= <-]. exact Ec.
Qed.

Lemma setup_spec net unzip dir s w w' r : NoDup (all_names s) -> setup net unzip dir (aux_of s) w = (w', r) ->
  keeps w w' /\
  (w_file w (meta_kernel s) = None -> w_file w' (meta_kernel s) = None \/ w_file w' (meta_kernel s) = Some (Meta dir (kernels s) true)) /\
  (forall p b m c, r = Ok (p, b, m, c) -> w_file w' (jpl_planets s) = Some p /\ w_file w' (jpl_small_bodies s) = Some b
     /\ w_file w' (meta_kernel s) = Some m /\ w_file w' (codes s) = Some c
     /\ (forall n, In n (kernels s) -> present w' n)
     /\ (w_file w (meta_kernel s) = None -> m = Meta dir (kernels s) true)).
Proof.
  intros ND.
  assert (D : forall x y, In (x, y) [(meta_kernel s, jpl_planets s); (meta_kernel s, jpl_small_bodies s); (meta_kernel s, codes s); (meta_kernel s, codes_gz s)] -> x <> y).
  { pose proof ND as ND'. unfold all_names in ND'. apply nodup_app_r in ND'.
    repeat match goal with H : NoDup (_ :: _) |- _ => inversion H; clear H; subst end. simpl in *.
    intros x y [[= <- <-]|[[= <- <-]|[[= <- <-]|[[= <- <-]|[]]]]] E; rewrite ?E in *; intuition congruence. }
  unfold setup, andthen.
  destruct (create_assist_ephemeris net (aux_of s) w) as [w1 [[p b]|e]] eqn:E1.
  2:{ intros [= <- <-]. destruct (assist_spec _ _ _ _ _ E1) as (K & O & _). split; auto. split; [|discriminate].
      intros N. left. rewrite O; auto; apply D; simpl; auto. }
  destruct (assist_spec _ _ _ _ _ E1) as (K1 & O1 & R1). destruct (R1 _ _ eq_refl) as [Rp Rb].
  assert (M1 : w_file w1 (meta_kernel s) = w_file w (meta_kernel s)) by (apply O1; apply D; simpl; auto).
  destruct (furnish_spiceypy net dir (aux_of s) w1) as [w2 [m|e]] eqn:E2;
    destruct (furnish_spec _ _ _ _ _ _ ND E2) as (K2 & O2 & N2 & R2).
  2:{ intros [= <- <-]. split; [eapply keeps_trans; eauto|]. split; [|discriminate]. rewrite <- M1. exact N2. }
  destruct (R2 _ eq_refl) as (Rm & Rk & Rn).
  destruct (observatory_codes net unzip (aux_of s) w2) as [w3 [c|e]] eqn:E3;
    destruct (codes_spec _ _ _ _ _ _ E3) as (K3 & O3 & R3).
  - unfold give. intros [= <- <-]. split; [eapply keeps_trans; [exact K1|eapply keeps_trans; eauto]|]. split.
    + rewrite O3 by (apply D; simpl; auto). rewrite <- M1. exact N2.
    + intros p' b' m' c' [= <- <- <- <-]. split; [apply K3, K2, Rp|]. split; [apply K3, K2, Rb|]. split; [apply K3, Rm|].
      split; [apply R3; reflexivity|]. split; [|rewrite <- M1; exact Rn].
      intros n Hn. eapply keeps_present; [exact K3|auto].
  - intros [= <- <-]. split; [eapply keeps_trans; [exact K1|eapply keeps_trans; eauto]|]. split; [|discriminate].
    rewrite O3 by (apply D; simpl; auto). rewrite <- M1. exact N2.
Qed.
