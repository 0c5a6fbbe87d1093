From Coq Require Import String List Arith ZArith QArith Bool Lia Lqa Sorting.Sorted Sorting.Permutation.
From Verif Require Import Base.Prelude Base.Num Model.Linking Spec.Linking.
Import ListNotations.
Open Scope Z_scope.

(** ** Tracklets *)
Section Night.
Context {A : Type}.
Variable tm : A -> Q.
Variable sep : A -> A -> num.

Lemma time_sorted_iff : forall l, time_sorted tm l = true <-> chronological tm l.
Proof.
  unfold chronological. split.
  - intro H. apply Sorted_StronglySorted; [intros x y z; apply Qle_trans|].
    revert H; induction l as [|a [|b l] IH]; intro H; [constructor|constructor; constructor|].
    cbn [time_sorted] in H. apply andb_true_iff in H as [H1 H2].
    constructor; [apply IH; auto|]. constructor. apply Qle_bool_iff; auto.
  - induction l as [|a [|b l] IH]; intro H; auto.
    inversion H as [|? ? H1 H2]; subst. inversion H2; subst.
    cbn [time_sorted]. apply andb_true_iff; split; [apply Qle_bool_iff; auto|apply IH; auto].
Qed.

Lemma chrono_app : forall l1 l2, chronological tm (l1 ++ l2) ->
  chronological tm l1 /\ chronological tm l2 /\
  forall a b, In a l1 -> In b l2 -> (tm a <= tm b)%Q.
Proof.
  unfold chronological. induction l1 as [|x l1 IH]; cbn; intros l2 H.
  - repeat split; auto; [constructor|intros ? ? []].
  - inversion H as [|? ? H1 H2]; subst. destruct (IH _ H1) as (I1 & I2 & I3).
    rewrite Forall_app in H2. destruct H2 as [F1 F2]. repeat split; auto.
    + constructor; auto.
    + intros a b [<-|Ha] Hb; auto. rewrite Forall_forall in F2; auto.
Qed.

Lemma chrono_nth : forall l i j a b, chronological tm l ->
  nth_error l i = Some a -> nth_error l j = Some b -> (tm a < tm b)%Q -> (i < j)%nat.
Proof.
  intros l i j a b Hc Hi Hj Hlt.
  destruct (le_lt_dec j i) as [L|L]; auto. exfalso.
  destruct (Nat.eq_dec i j) as [->|Hne].
  { rewrite Hi in Hj; inversion Hj; subst. exact (Qlt_irrefl _ Hlt). }
  apply nth_error_split in Hj as (l1 & l2 & -> & <-).
  destruct (chrono_app _ _ Hc) as (_ & H2 & _).
  inversion H2 as [|? ? H3 H4]; subst. rewrite Forall_forall in H4.
  assert (In a l2).
  { rewrite nth_error_app2 in Hi by lia.
    destruct (i - length l1)%nat as [|k] eqn:E; [lia|]. cbn in Hi. eapply nth_error_In; eauto. }
  apply (Qlt_not_le _ _ Hlt). apply H4; auto.
Qed.

Lemma minutes_iff : forall d m : Q, (d < m / (60 * 24) <-> d * 1440 < m)%Q.
Proof.
  intros d m. assert (E : (m / (60 * 24) == m * (1 # 1440))%Q) by (unfold Qdiv; apply Qmult_comp; reflexivity).
  rewrite E. split; intro H; lra.
Qed.

Lemma pair_ok_tracklet : forall maxdt minlen k l, chronological tm l -> 
  (existsb (fun i => existsb (pair_ok tm sep (maxdt / (60 * 24)) (minlen / 3600) k l i) (seq 0 (length l)))
     (seq 0 (length l)) = true
   <-> tracklet tm sep maxdt minlen k l).
Proof.
  intros maxdt minlen k l Hc. rewrite existsb_exists. split.
  - intros (i & _ & H). rewrite existsb_exists in H. destruct H as (j & _ & H).
    unfold pair_ok in H.
    destruct (nth_error l i) as [b|] eqn:Ei; [|discriminate].
    destruct (nth_error l j) as [a|] eqn:Ej; [|discriminate].
    rewrite !andb_true_iff in H. destruct H as [[[H1 H2] H3] H4].
    apply qltb_lt in H1. apply qltb_lt in H2. apply nltb_lt in H3. apply Z.leb_le in H4.
    assert (Hab : (tm a < tm b)%Q) by lra.
    assert (Hji := chrono_nth _ _ _ _ _ Hc Ej Ei Hab).
    apply nth_error_split in Ej as (l1 & l2 & -> & <-).
    rewrite nth_error_app2 in Ei by lia.
    destruct (i - length l1)%nat as [|m] eqn:E; [lia|]. cbn in Ei.
    apply nth_error_split in Ei as (l2' & l3 & -> & <-).
    exists l1, a, l2', b, l3. repeat split; auto.
    + apply minutes_iff; auto.
    + lia.
  - intros (l1 & a & l2 & b & l3 & -> & H1 & H2 & H3 & H4).
    exists (length l1 + S (length l2))%nat. split.
    { apply in_seq. rewrite !app_length; cbn; rewrite !app_length; cbn. lia. }
    apply existsb_exists. exists (length l1). split.
    { apply in_seq. rewrite !app_length; cbn; rewrite !app_length; cbn. lia. }
    unfold pair_ok.
    rewrite nth_error_app2 by lia. replace (length l1 + S (length l2) - length l1)%nat with (S (length l2)) by lia.
    cbn [nth_error]. rewrite nth_error_app2 by lia. rewrite Nat.sub_diag. cbn [nth_error].
    rewrite nth_error_app2 by lia. rewrite Nat.sub_diag. cbn [nth_error].
    rewrite !andb_true_iff. repeat split.
    + apply qltb_lt. lra.
    + apply qltb_lt. apply minutes_iff; auto.
    + apply nltb_lt; auto.
    + apply Z.leb_le. lia.
Qed.

Lemma tracklet_length : forall maxdt minlen k l,
  tracklet tm sep maxdt minlen k l -> k <= Z.of_nat (length l).
Proof.
  intros maxdt minlen k l (l1 & a & l2 & b & l3 & -> & _ & _ & _ & H).
  rewrite !app_length; cbn; rewrite !app_length; cbn. lia.
Qed.

Lemma hasTracklet_ok : forall maxdt minlen k l, 1 <= k -> chronological tm l ->
  exists b, hasTracklet tm sep maxdt minlen k l = Ok b /\
            (b = true <-> tracklet_night tm sep maxdt minlen k l).
Proof.
  intros maxdt minlen k l Hk Hc. unfold hasTracklet.
  destruct (Z.ltb_spec (Z.of_nat (length l)) k) as [L|L].
  - exists false; split; auto. split; [discriminate|].
    intros [[-> Hn]|[_ H]].
    + destruct l; [congruence|cbn in L; lia].
    + apply tracklet_length in H. lia.
  - rewrite (proj2 (time_sorted_iff l) Hc). cbn [negb].
    destruct (Z.eqb_spec k 1) as [->|Hne].
    + exists true; split; auto. split; auto. intros _. left. split; auto.
      intros ->. cbn in L. lia.
    + eexists; split; [reflexivity|]. rewrite pair_ok_tracklet by auto.
      unfold tracklet_night. intuition lia.
Qed.

Lemma hasTracklet_err : forall maxdt minlen k l e,
  hasTracklet tm sep maxdt minlen k l = Err e ->
  e = ValueError /\ ~ chronological tm l.
Proof.
  intros maxdt minlen k l e. unfold hasTracklet.
  destruct (_ <? _); [discriminate|].
  destruct (time_sorted tm l) eqn:E; cbn [negb].
  - destruct (_ =? _); discriminate.
  - intro H; inversion H; split; auto. rewrite <- time_sorted_iff. congruence.
Qed.

Lemma hasTracklet_unsorted : forall maxdt minlen k l, k <= Z.of_nat (length l) ->
  ~ chronological tm l -> hasTracklet tm sep maxdt minlen k l = Err ValueError.
Proof.
  intros maxdt minlen k l Hk Hc. unfold hasTracklet.
  destruct (Z.ltb_spec (Z.of_nat (length l)) k); [lia|].
  rewrite <- time_sorted_iff in Hc. destruct (time_sorted tm l); [congruence|reflexivity].
Qed.

(** ** Nights *)

Lemma insert_unique_in : forall x y l, In y (insert_unique x l) <-> y = x \/ In y l.
Proof.
  intros x y l; induction l as [|z l IH]; cbn.
  - intuition.
  - destruct (x <? z); cbn; [intuition|].
    destruct (Z.eqb_spec x z); cbn; [subst; intuition|]. rewrite IH. intuition.
Qed.

Lemma insert_unique_sorted : forall x l, StronglySorted Z.lt l -> StronglySorted Z.lt (insert_unique x l).
Proof.
  intros x l; induction l as [|z l IH]; cbn; intro H.
  - repeat constructor.
  - inversion H as [|? ? H1 H2]; subst.
    destruct (Z.ltb_spec x z).
    + constructor; auto. constructor; auto. rewrite Forall_forall in *. intros y Hy. specialize (H2 y Hy). lia.
    + destruct (Z.eqb_spec x z); auto. constructor; auto.
      rewrite Forall_forall in *. intros y Hy. apply insert_unique_in in Hy as [->|Hy]; [lia|auto].
Qed.

Lemma unique_in : forall y l, In y (unique l) <-> In y l.
Proof.
  intros y l; unfold unique; induction l as [|x l IH]; cbn; [tauto|].
  rewrite insert_unique_in, IH. intuition.
Qed.

Lemma unique_sorted : forall l, StronglySorted Z.lt (unique l).
Proof. unfold unique; induction l; cbn; [constructor|apply insert_unique_sorted; auto]. Qed.

Lemma ssorted_filter : forall B (R : B -> B -> Prop) f l, StronglySorted R l -> StronglySorted R (filter f l).
Proof.
  intros B R f l H; induction H as [|x l H IH F]; cbn; [constructor|].
  destruct (f x); auto. constructor; auto.
  rewrite Forall_forall in *. intros y Hy. apply filter_In in Hy. apply F; tauto.
Qed.

(** In a list sorted by a key, the elements with key <= x form a prefix. *)
Lemma firstn_count : forall B (key : B -> Z) x l,
  StronglySorted (fun a b => key a <= key b) l ->
  firstn (length (filter (fun y => y <=? x) (map key l))) l = filter (fun r => key r <=? x) l.
Proof.
  intros B key x l H; induction H as [|r l H IH F]; cbn; auto.
  destruct (Z.leb_spec (key r) x); cbn; [f_equal; auto|].
  assert (E : filter (fun r => key r <=? x) l = []).
  { clear IH H. induction F as [|y l Hy F IH]; cbn; auto. destruct (Z.leb_spec (key y) x); [lia|auto]. }
  assert (E' : filter (fun y => y <=? x) (map key l) = []).
  { clear IH H. induction F as [|y l Hy F IH]; cbn; auto. destruct (Z.leb_spec (key y) x); [lia|apply IH].
    cbn in E. destruct (Z.leb_spec (key y) x); [discriminate|auto]. }
  rewrite E, E'. reflexivity.
Qed.

Lemma slice_night : forall B (key : B -> Z) l p d,
  StronglySorted (fun a b => key a <= key b) l -> p < d ->
  (forall r, In r l -> key r <= p \/ d <= key r) ->
  slice (length (filter (fun y => y <=? p) (map key l)))
        (length (filter (fun y => y <=? d) (map key l))) l
  = filter (fun r => key r =? d) l.
Proof.
  intros B key l p d H Hpd Hgap. unfold slice. rewrite firstn_count by auto.
  induction H as [|r l H IH F]; cbn; auto.
  assert (Hr := Hgap r (or_introl eq_refl)).
  assert (Hgap' : forall x, In x l -> key x <= p \/ d <= key x) by (intros; apply Hgap; right; auto).
  specialize (IH Hgap').
  destruct (Z.leb_spec (key r) d) as [L|L]; cbn [length].
  - destruct (Z.leb_spec (key r) p) as [L1|L1].
    + cbn [length skipn]. destruct (Z.eqb_spec (key r) d); [lia|]. auto.
    + assert (E : filter (fun y => y <=? p) (map key l) = []).
      { clear - F L1. induction F as [|y l Hy F IH]; cbn; auto. destruct (Z.leb_spec (key y) p); [lia|auto]. }
      rewrite E in *. cbn in *. destruct (Z.eqb_spec (key r) d); [f_equal; auto|lia].
  - destruct (Z.leb_spec (key r) p) as [L1|L1]; [lia|].
    destruct (Z.eqb_spec (key r) d); [lia|].
    exact IH.
Qed.

Lemma slice_first : forall B (key : B -> Z) l d,
  StronglySorted (fun a b => key a <= key b) l ->
  (forall r, In r l -> d <= key r) ->
  slice 0 (length (filter (fun y => y <=? d) (map key l))) l = filter (fun r => key r =? d) l.
Proof.
  intros B key l d H Hmin.
  rewrite <- (slice_night B key l (d - 1) d H) by (try lia; intros; right; auto).
  f_equal. clear H. induction l as [|r l IH]; cbn; auto.
  assert (Hr := Hmin r (or_introl eq_refl)). destruct (Z.leb_spec (key r) (d - 1)); [lia|].
  apply IH; intros; apply Hmin; right; auto.
Qed.

Lemma night_loop_spec : forall (test : list A -> result bool) (key : A -> Z) l ds p,
  StronglySorted (fun a b => key a <= key b) l ->
  StronglySorted Z.lt ds ->
  Forall (fun d => p < d) ds ->
  (forall r, In r l -> key r <= p \/ In (key r) ds) ->
  night_loop test l (searchsorted_right (map key l) p) (map (searchsorted_right (map key l)) ds)
  = fold_right (fun d acc => (h <- test (filter (fun r => key r =? d) l) ;; r <- acc ;; Ok (h :: r))%result)
      (Ok []) ds.
Proof.
  intros test key l ds; induction ds as [|d ds IH]; intros p Hl Hds Hp Hcov; cbn; auto.
  inversion Hp as [|? ? Hpd Hp']; subst. inversion Hds as [|? ? Hds' Hd]; subst.
  unfold searchsorted_right in *. rewrite slice_night.
  - rewrite IH; auto. intros r Hr. specialize (Hcov r Hr). cbn in Hcov. destruct Hcov as [C|[<-|C]].
    + left; lia.
    + left; lia.
    + right; auto.
  - auto.
  - auto.
  - intros r Hr. destruct (Hcov r Hr) as [C|[<-|C]]; [left; auto|right; lia|].
    right. rewrite Forall_forall in Hd. specialize (Hd _ C). lia.
Qed.

Lemma fold_ok : forall (test : list A -> result bool) (g : Z -> list A) ds,
  (forall d, In d ds -> exists b, test (g d) = Ok b) ->
  exists hs, fold_right (fun d acc => (h <- test (g d) ;; r <- acc ;; Ok (h :: r))%result) (Ok []) ds = Ok hs
    /\ Forall2 (fun d h => test (g d) = Ok h) ds hs.
Proof.
  intros test g ds; induction ds as [|d ds IH]; intro H; cbn.
  - exists []; split; auto.
  - destruct (H d (or_introl eq_refl)) as [b Hb].
    destruct IH as [hs [E F]]; [intros; apply H; right; auto|].
    rewrite Hb, E. cbn. exists (b :: hs); split; auto.
Qed.

Lemma chronological_filter : forall f l, chronological tm l -> chronological tm (filter f l).
Proof. intros; apply ssorted_filter; auto. Qed.

Lemma trackletsInNights_ok : forall (key : A -> Z) l maxdt minlen k,
  1 <= k -> chronological tm l -> StronglySorted (fun a b => key a <= key b) l ->
  exists nights flags,
    trackletsInNights tm sep (map key l) l maxdt minlen k = Ok (nights, flags) /\
    StronglySorted Z.lt nights /\ (forall d, In d nights <-> exists r, In r l /\ key r = d) /\
    Forall2 (fun d h => h = true <-> tracklet_night tm sep maxdt minlen k (filter (fun r => key r =? d) l))
      nights flags.
Proof.
  intros key l maxdt minlen k Hk Hc Hs. unfold trackletsInNights.
  set (nights := unique (map key l)).
  assert (Hin : forall d, In d nights <-> exists r, In r l /\ key r = d).
  { intro d. unfold nights. rewrite unique_in, in_map_iff. split; intros [r [H1 H2]]; exists r; auto. }
  assert (Hn : StronglySorted Z.lt nights) by apply unique_sorted.
  set (test := hasTracklet tm sep maxdt minlen k).
  assert (Hmin : exists p, Forall (fun d => p < d) nights /\ (searchsorted_right (map key l) p = 0)%nat).
  { destruct nights as [|d ds] eqn:E.
    - exists 0. split; [constructor|]. destruct l as [|r l']; auto.
      exfalso. apply (in_nil (a := key r)). apply Hin. exists r; split; [left|]; auto.
    - exists (d - 1). split.
      + inversion Hn as [|? ? H1 H2]; subst. constructor; [lia|]. eapply Forall_impl; [|exact H2]. cbn; lia.
      + unfold searchsorted_right.
        assert (forall r, In r l -> d <= key r).
        { intros r Hr. assert (In (key r) (d :: ds)) as [<-|C] by (apply Hin; eauto); [lia|].
          inversion Hn as [|? ? H1 H2]; subst. rewrite Forall_forall in H2. specialize (H2 _ C). lia. }
        clear - H. induction l as [|r l IH]; cbn; auto.
        assert (d <= key r) by (apply H; left; auto). destruct (Z.leb_spec (key r) (d - 1)); [lia|].
        apply IH; intros; apply H; right; auto. }
  destruct Hmin as (p & Hp & H0).
  assert (E : night_loop test l 0 (map (searchsorted_right (map key l)) nights)
     = fold_right (fun d acc => (h <- test (filter (fun r => key r =? d) l) ;; r <- acc ;; Ok (h :: r))%result)
      (Ok []) nights).
  { rewrite <- H0. apply night_loop_spec; auto. intros r Hr. right. apply Hin; eauto. }
  destruct (fold_ok test (fun d => filter (fun r => key r =? d) l) nights) as (hs & E2 & F).
  { intros d _. destruct (hasTracklet_ok maxdt minlen k (filter (fun r => key r =? d) l) Hk) as (b & Hb & _).
    - apply chronological_filter; auto.
    - exists b; auto. }
  rewrite E2 in E. rewrite E. cbn. exists nights, hs. repeat split; auto; try apply Hin.
  clear - F Hk Hc. induction F as [|d h ds hs Hd F IH]; constructor; auto.
  destruct (hasTracklet_ok maxdt minlen k (filter (fun r => key r =? d) l) Hk) as (b & Hb & Hiff).
  - apply chronological_filter; auto.
  - unfold test in *. assert (h = b) by congruence. subst; auto.
Qed.
End Night.
