From Coq Require Import String List Arith ZArith QArith Bool Lia Sorting.Sorted Sorting.Permutation.
From Verif Require Import Base.Prelude Base.Num Model.Linking Spec.Linking Proofs.Linking.
Import ListNotations.
Open Scope Z_scope.

(** ** Arrays *)

Definition zsum (l : list Z) : Z := fold_right Z.add 0 l.

Lemma upd_length : forall l i v, length (upd l i v) = length l.
Proof. induction l; destruct i; cbn; auto. Qed.

Lemma nth_upd : forall l i v j, (i < length l)%nat ->
  nth j (upd l i v) 0 = if Nat.eqb j i then v else nth j l 0.
Proof.
  induction l as [|x l IH]; intros i v j H; cbn in H; [lia|].
  destruct i, j; cbn; auto. apply IH; lia.
Qed.

Definition scatter_step (n0 : Z) (a : list Z) (x : Z * bool) : list Z :=
  upd a (Z.to_nat (fst x - n0)) (if snd x then 1 else 0).

Lemma scatter_length : forall n0 nf a, length (fold_left (scatter_step n0) nf a) = length a.
Proof.
  intros n0 nf; induction nf as [|x nf IH]; intro a; cbn; auto.
  rewrite IH. unfold scatter_step. apply upd_length.
Qed.

Lemma scatter_nth : forall n0 nf a i, NoDup (map fst nf) ->
  (forall x, In x nf -> n0 <= fst x < n0 + Z.of_nat (length a)) ->
  nth i (fold_left (scatter_step n0) nf a) 0
  = if existsb (fun x => fst x =? n0 + Z.of_nat i) nf
    then (if existsb (fun x => (fst x =? n0 + Z.of_nat i) && snd x) nf then 1 else 0)
    else nth i a 0.
Proof.
  intros n0 nf; induction nf as [|[n b] nf IH]; intros a i Hd Hr; cbn [fold_left existsb]; auto.
  inversion Hd as [|? ? Hni Hd']; subst.
  assert (Hn : n0 <= n < n0 + Z.of_nat (length a)) by (apply (Hr (n, b)); left; auto).
  rewrite IH; auto.
  2:{ intros x Hx. unfold scatter_step. rewrite upd_length. apply Hr; right; auto. }
  unfold scatter_step; cbn [fst snd]. rewrite nth_upd by lia.
  destruct (Z.eqb_spec n (n0 + Z.of_nat i)) as [E|E]; cbn [orb andb].
  - assert (F : forall p, existsb (fun x => (fst x =? n0 + Z.of_nat i) && p x) nf = false).
    { intros p. apply not_true_is_false. intro C. apply existsb_exists in C as (x & Hx & C).
      apply andb_true_iff in C as [C _]. apply Z.eqb_eq in C. apply Hni.
      apply in_map_iff. exists x; split; auto. cbn. lia. }
    assert (F1 := F (fun _ => true)).
    replace (existsb (fun x : Z * bool => fst x =? n0 + Z.of_nat i) nf) with false.
    2:{ symmetry. rewrite <- F1. clear. induction nf as [|x nf IH]; cbn; auto. rewrite IH, andb_true_r; auto. }
    rewrite (F snd). replace (Z.to_nat (n - n0)) with i by lia. rewrite Nat.eqb_refl.
    destruct b; auto.
  - destruct (Nat.eqb_spec i (Z.to_nat (n - n0))) as [E'|E'].
    + exfalso; apply E. lia.
    + reflexivity.
Qed.

Lemma cumsum_length : forall l acc, length (cumsum acc l) = length l.
Proof. induction l; intros; cbn; auto. Qed.

Lemma cumsum_nth : forall l acc i, (i < length l)%nat ->
  nth i (cumsum acc l) 0 = acc + zsum (firstn (S i) l).
Proof.
  induction l as [|x l IH]; intros acc i H; cbn in H; [lia|].
  destruct i as [|i]; cbn [cumsum nth].
  - cbn. destruct l; cbn; lia.
  - rewrite IH by lia. cbn [firstn zsum fold_right]. unfold zsum. cbn [fold_right]. lia.
Qed.

Lemma trailing_length : forall w l, length (trailing w l) = length l.
Proof. intros; unfold trailing. rewrite map_length, seq_length; auto. Qed.

Lemma trailing_nth : forall w l i, (i < length l)%nat ->
  nth i (trailing w l) 0 = nth i l 0 - (if (i <? w)%nat then 0 else nth (i - w) l 0).
Proof.
  intros w l i H. unfold trailing.
  set (f := fun i => nth i l 0 - (if (i <? w)%nat then 0 else nth (i - w) l 0)).
  rewrite nth_indep with (d' := f 0%nat) by (rewrite map_length, seq_length; auto).
  rewrite map_nth, seq_nth by auto. reflexivity.
Qed.

Definition ones (l : list Z) : nat := length (filter (fun x => negb (x =? 0)) l).

Lemma fill_length : forall wt l k, length (fill wt k l) = length l.
Proof. intros wt; induction l as [|x l IH]; intros; cbn; auto. destruct (x =? 0); cbn; auto. Qed.

Lemma fill_sum : forall wt l k n,
  zsum (firstn n (fill wt k l)) = prefix_sum wt (k + ones (firstn n l)) - prefix_sum wt k.
Proof.
  intros wt; induction l as [|x l IH]; intros k n; cbn [fill].
  - rewrite !firstn_nil. cbn. rewrite Nat.add_0_r. lia.
  - destruct n as [|n]; [cbn; rewrite Nat.add_0_r; lia|].
    unfold ones. destruct (x =? 0) eqn:E; cbn [firstn filter]; rewrite E; cbn [negb].
    + cbn [zsum fold_right]. unfold zsum in IH. fold (ones (firstn n l)). unfold zsum; cbn [fold_right].
      rewrite IH. lia.
    + unfold zsum in *; cbn [fold_right length]. rewrite IH. fold (ones (firstn n l)).
      replace (k + S (ones (firstn n l)))%nat with (S k + ones (firstn n l))%nat by lia.
      cbn [prefix_sum]. lia.
Qed.

Lemma sum_ones : forall l, Forall (fun x => x = 0 \/ x = 1) l -> zsum l = Z.of_nat (ones l).
Proof.
  intros l H; induction H as [|x l Hx H IH]; auto.
  unfold zsum, ones in *; cbn [fold_right filter].
  destruct Hx as [->| ->]; cbn [Z.eqb negb length] in *; lia.
Qed.

(** ** Counting tracklet nights *)

Section Count.
Variable T : list Z.
Hypothesis Tnd : NoDup T.

Definition cnt (x : Z) : nat := length (filter (fun t => t <=? x) T).

Lemma cnt_step : forall x,
  cnt x = (cnt (x - 1) + if existsb (Z.eqb x) T then 1 else 0)%nat.
Proof.
  intro x. unfold cnt. clear -Tnd. induction Tnd as [|t T' Hn Hd IH]; cbn; auto. specialize (IH Hd).
  assert (N : x = t -> existsb (Z.eqb x) T' = false).
  { intros ->. apply not_true_is_false. intro C. apply existsb_exists in C as (y & Hy & C).
    apply Z.eqb_eq in C; subst; contradiction. }
  destruct (Z.eqb_spec x t) as [E|E]; cbn [orb].
  - rewrite (N E) in IH. cbv iota in IH. destruct (Z.leb_spec t x); destruct (Z.leb_spec t (x - 1)); cbn [length]; lia.
  - destruct (Z.leb_spec t x); destruct (Z.leb_spec t (x - 1)); cbn [length]; lia.
Qed.

Lemma filter_le_length : forall (f g : Z -> bool) l, (forall x, In x l -> f x = true -> g x = true) ->
  (length (filter f l) <= length (filter g l))%nat.
Proof.
  intros f g l H; induction l as [|x l IH]; cbn; auto.
  assert (IH' := IH (fun y Hy => H y (or_intror Hy))).
  assert (Hx := H x (or_introl eq_refl)).
  destruct (f x); [rewrite Hx by auto; cbn; lia|]. destruct (g x); cbn; lia.
Qed.

Lemma cnt_mono : forall x y, x <= y -> (cnt x <= cnt y)%nat.
Proof.
  intros x y H; unfold cnt. apply filter_le_length. intros t _ Ht.
  apply Z.leb_le in Ht. apply Z.leb_le. lia.
Qed.

Lemma cnt_window : forall x y, x <= y ->
  (cnt y = cnt x + length (filter (fun t => (x <? t)%Z && (t <=? y)%Z) T))%nat.
Proof.
  intros x y H; unfold cnt. clear Tnd. induction T as [|t T' IH]; cbn; auto.
  destruct (Z.leb_spec t y); destruct (Z.leb_spec t x); destruct (Z.ltb_spec x t); cbn; lia.
Qed.

Lemma cnt_eq_none : forall x y t, x <= y -> cnt x = cnt y -> In t T -> ~ (x < t <= y).
Proof.
  intros x y t Hxy E Ht C. rewrite (cnt_window x y Hxy) in E.
  assert (In t (filter (fun t => (x <? t)%Z && (t <=? y)%Z) T)).
  { apply filter_In; split; auto. apply andb_true_iff; split; [apply Z.ltb_lt|apply Z.leb_le]; lia. }
  destruct (filter (fun t => (x <? t)%Z && (t <=? y)%Z) T); [contradiction|cbn in E; lia].
Qed.

Lemma cnt_lt_some : forall x y, x <= y -> (cnt x < cnt y)%nat -> exists t, In t T /\ x < t <= y.
Proof.
  intros x y Hxy E. rewrite (cnt_window x y Hxy) in E.
  destruct (filter (fun t => (x <? t)%Z && (t <=? y)%Z) T) as [|t r] eqn:F; [cbn in E; lia|].
  assert (H : In t (t :: r)) by (left; auto). rewrite <- F in H. apply filter_In in H as [H1 H2].
  apply andb_true_iff in H2 as [H2 H3]. exists t. split; auto. split; [apply Z.ltb_lt|apply Z.leb_le]; auto.
Qed.

Lemma qualifies_cnt : forall w n d, 0 <= w ->
  (qualifies (fun t => In t T) w n d <-> n <= Z.of_nat (cnt d) - Z.of_nat (cnt (d - w))).
Proof.
  intros w n d Hw. rewrite (cnt_window (d - w) d) by lia. split.
  - intros (S & Hnd & HS & Hlen).
    assert (length S <= length (filter (fun t => (d - w <? t)%Z && (t <=? d)%Z) T))%nat.
    { apply NoDup_incl_length; auto. intros t Ht. destruct (HS t Ht) as [H1 [H2 H3]].
      apply filter_In; split; auto. apply andb_true_iff; split; [apply Z.ltb_lt|apply Z.leb_le]; lia. }
    lia.
  - intro H. exists (filter (fun t => (d - w <? t)%Z && (t <=? d)%Z) T). repeat split.
    + apply NoDup_filter; auto.
    + apply filter_In in H0; tauto.
    + apply filter_In in H0 as [_ C]. apply andb_true_iff in C as [C _]. apply Z.ltb_lt; auto.
    + apply filter_In in H0 as [_ C]. apply andb_true_iff in C as [_ C]. apply Z.leb_le; auto.
    + lia.
Qed.

Lemma same_window_cnt : forall w d d', 0 <= w -> d' < d -> (cnt (d - w) < cnt d)%nat ->
  (same_window (fun t => In t T) w d d' <-> cnt d = cnt d' /\ cnt (d - w) = cnt (d' - w)).
Proof.
  intros w d d' Hw Hd Hne. unfold same_window, in_window. split.
  - intro H. destruct (cnt_lt_some (d - w) d) as (t0 & Ht0 & B0); [lia|auto|].
    assert (B1 := proj1 (H t0 Ht0) B0).
    split.
    + assert (M := cnt_mono d' d ltac:(lia)).
      destruct (Nat.eq_dec (cnt d) (cnt d')) as [|Hn]; auto. exfalso.
      destruct (cnt_lt_some d' d) as (t & Ht & B); [lia|lia|]. specialize (H t Ht). lia.
    + assert (M := cnt_mono (d' - w) (d - w) ltac:(lia)).
      destruct (Nat.eq_dec (cnt (d - w)) (cnt (d' - w))) as [|Hn]; auto. exfalso.
      destruct (cnt_lt_some (d' - w) (d - w)) as (t & Ht & B); [lia|lia|]. specialize (H t Ht). lia.
  - intros [E1 E2] t Ht.
    assert (N1 := cnt_eq_none d' d t ltac:(lia) (eq_sym E1) Ht).
    assert (N2 := cnt_eq_none (d' - w) (d - w) t ltac:(lia) (eq_sym E2) Ht). lia.
Qed.
End Count.

(** ** Keeping the entries whose sum changes *)

Fixpoint keep (s : Z -> Z) (prev : Z) (l : list Z) : list Z :=
  match l with
  | [] => []
  | d :: l' => if s d - prev =? 0 then keep s (s d) l' else d :: keep s (s d) l'
  end.

Lemma keep_in : forall s l prev d, In d (keep s prev l) <->
  exists l1 l2, l = l1 ++ d :: l2 /\ s d <> last (map s l1) prev.
Proof.
  intros s l; induction l as [|x l IH]; intros prev d; cbn [keep].
  - split; [intros []|]. intros (l1 & l2 & E & _). destruct l1; discriminate.
  - assert (R : In d (keep s (s x) l) <-> exists l1 l2, x :: l = (x :: l1) ++ d :: l2 /\ s d <> last (map s (x :: l1)) prev).
    { rewrite IH. split; intros (l1 & l2 & E & H); exists l1, l2.
      - subst. split; auto. cbn [map]. destruct l1 as [|y l1]; auto.
        cbn [map] in *. change (last (s x :: s y :: map s l1) prev) with (last (s y :: map s l1) prev).
        intro C; apply H; rewrite C. clear. generalize (s y). induction l1 as [|z l1 IH]; intro v; auto.
        cbn [map last]. destruct l1; auto. apply (IH (s z)).
      - inversion E; subst. split; auto. cbn [map] in H. destruct l1 as [|y l1]; auto.
        cbn [map] in *. change (last (s x :: s y :: map s l1) prev) with (last (s y :: map s l1) prev) in H.
        intro C; apply H; rewrite C. clear. generalize (s y). induction l1 as [|z l1 IH]; intro v; auto.
        cbn [map last]. destruct l1; auto. apply (IH (s z)). }
    destruct (Z.eqb_spec (s x - prev) 0) as [E|E].
    + rewrite R. split.
      * intros (l1 & l2 & H). exists (x :: l1), l2; auto.
      * intros (l1 & l2 & H & H'). destruct l1 as [|y l1].
        -- cbn in H, H'. inversion H; subst. lia.
        -- inversion H; subst. exists l1, l2; auto.
    + cbn [In]. rewrite R. split.
      * intros [->|(l1 & l2 & H)]; [exists [], l; cbn; split; auto; lia|exists (x :: l1), l2; auto].
      * intros (l1 & l2 & H & H'). destruct l1 as [|y l1].
        -- inversion H; auto.
        -- inversion H; subst. right. exists l1, l2; auto.
Qed.

Lemma keep_subseq : forall s l prev, subseq (keep s prev l) l.
Proof.
  intros s l; induction l as [|x l IH]; intro prev; cbn; [constructor|].
  destruct (_ =? 0); [apply ss_drop|apply ss_keep]; auto.
Qed.

Lemma subseq_ssorted : forall B (R : B -> B -> Prop) l l', subseq l' l -> StronglySorted R l -> StronglySorted R l'.
Proof.
  intros B R l l' H; induction H; intro S; auto.
  - inversion S as [|? ? S1 S2]; subst. constructor; auto.
    rewrite Forall_forall in *. intros y Hy. apply S2. eapply subseq_in; eauto.
  - inversion S; auto.
Qed.

(** Adjacent members of a sorted list that enumerates [q]. *)
Lemma sorted_split_first : forall (q : Z -> Prop) D d l2, StronglySorted Z.lt D ->
  (forall x, In x D <-> q x) -> D = d :: l2 -> first_with q d.
Proof.
  intros q D d l2 S H ->. split; [apply H; left; auto|].
  intros e He C. apply H in C as [<-|C]; [lia|].
  inversion S as [|? ? S1 S2]; subst. rewrite Forall_forall in S2. specialize (S2 _ C). lia.
Qed.

Lemma ssorted_app : forall l1 l2, StronglySorted Z.lt (l1 ++ l2) ->
  StronglySorted Z.lt l1 /\ StronglySorted Z.lt l2 /\ forall a b, In a l1 -> In b l2 -> a < b.
Proof.
  induction l1 as [|x l1 IH]; cbn; intros l2 H.
  - repeat split; auto; [constructor|intros ? ? []].
  - inversion H as [|? ? H1 H2]; subst. destruct (IH _ H1) as (I1 & I2 & I3).
    rewrite Forall_app in H2. destruct H2 as [F1 F2]. repeat split; auto.
    + constructor; auto.
    + intros a b [<-|Ha] Hb; auto. rewrite Forall_forall in F2; auto.
Qed.

Lemma sorted_split_prev : forall (q : Z -> Prop) D l1 d' d l2, StronglySorted Z.lt D ->
  (forall x, In x D <-> q x) -> D = (l1 ++ [d']) ++ d :: l2 -> previous q d d'.
Proof.
  intros q D l1 d' d l2 S H ->.
  destruct (ssorted_app _ _ S) as (S1 & S2 & S3).
  destruct (ssorted_app _ _ S1) as (_ & _ & S4).
  assert (Hd' : In d' (l1 ++ [d'])) by (apply in_or_app; right; left; auto).
  repeat split.
  - apply H. apply in_or_app; left; auto.
  - apply S3; [auto|left; auto].
  - intros e [He1 He2] C. apply H in C. apply in_app_or in C as [C|C].
    + apply in_app_or in C as [C|[<-|[]]]; [|lia]. assert (e < d') by (apply S4; [auto|left; auto]). lia.
    + destruct C as [<-|C]; [lia|]. inversion S2 as [|? ? S5 S6]; subst.
      rewrite Forall_forall in S6. specialize (S6 _ C). lia.
Qed.

Lemma previous_functional : forall q d a b, previous q d a -> previous q d b -> a = b.
Proof.
  intros q d a b (Qa & La & Na) (Qb & Lb & Nb).
  destruct (Z.lt_trichotomy a b) as [L|[L|L]]; auto; exfalso.
  - apply (Na b); auto.
  - apply (Nb a); auto.
Qed.

Lemma keep_spec : forall (q : Z -> Prop) s D, StronglySorted Z.lt D -> (forall x, In x D <-> q x) ->
  forall d, In d (keep s 0 D) <->
    (first_with q d /\ s d <> 0) \/ (q d /\ exists d', previous q d d' /\ s d <> s d').
Proof.
  intros q s D S H d. rewrite keep_in. split.
  - intros (l1 & l2 & E & Hs). destruct l1 as [|x l1] using rev_ind.
    + left. split; auto. eapply sorted_split_first; eauto.
    + right. clear IHl1. rewrite map_app in Hs. cbn in Hs. rewrite last_last in Hs. split.
      * apply H. rewrite E. apply in_or_app; right; left; auto.
      * exists x. split; auto. eapply sorted_split_prev; eauto.
  - intros C.
    assert (Hin : In d D) by (apply H; destruct C as [[[C _] _]|[C _]]; auto).
    apply in_split in Hin as (l1 & l2 & E). exists l1, l2. split; auto.
    destruct l1 as [|x l1] using rev_ind.
    + cbn. destruct C as [[_ C]|[_ (d' & Hp & _)]]; auto.
      exfalso. destruct (sorted_split_first q D d l2 S H E) as [_ F].
      destruct Hp as (Hq & Hl & _). exact (F d' Hl Hq).
    + clear IHl1. rewrite map_app; cbn. rewrite last_last.
      assert (Hx := sorted_split_prev q D l1 x d l2 S H E).
      destruct C as [[C _]|[_ (d' & Hp & Hs)]].
      * exfalso. destruct Hx as (Hq & Hl & _). exact (proj2 C x Hl Hq).
      * rewrite (previous_functional _ _ _ _ Hx Hp). auto.
Qed.

(** ** discoveryOpportunities *)

Lemma list_min_le : forall l x, In x l -> list_min l <= x.
Proof.
  intros l x H; unfold list_min. generalize (hd 0 l) as b. induction l as [|y l IH]; intro b; cbn; [destruct H|].
  destruct H as [->|H]; [lia|]. specialize (IH H b). lia.
Qed.

Lemma list_max_ge : forall l x, In x l -> x <= list_max l.
Proof.
  intros l x H; unfold list_max. generalize (hd 0 l) as b. induction l as [|y l IH]; intro b; cbn; [destruct H|].
  destruct H as [->|H]; [lia|]. specialize (IH H b). lia.
Qed.

Lemma filter_combine_map : forall (s : nat -> Z) idx prev (n0 : Z),
  map (fun x => Z.of_nat (fst x) + n0)
    (filter (fun x => negb (snd x =? 0)) (combine idx (diffs prev (map s idx))))
  = keep (fun d => s (Z.to_nat (d - n0))) prev (map (fun i => Z.of_nat i + n0) idx).
Proof.
  intros s idx; induction idx as [|i idx IH]; intros prev n0; cbn [map diffs combine filter keep]; auto.
  cbn [snd]. rewrite Z.add_simpl_r, Nat2Z.id.
  destruct (s i - prev =? 0); cbn [negb map fst]; rewrite IH; auto.
Qed.

Lemma ssorted_seq : forall n k n0, StronglySorted Z.lt (map (fun i => Z.of_nat i + n0) (seq k n)).
Proof.
  induction n as [|n IH]; intros k n0; cbn; constructor; auto.
  apply Forall_forall. intros x Hx. apply in_map_iff in Hx as (i & <- & Hi). apply in_seq in Hi. lia.
Qed.

Lemma map_filter_comm : forall A B (f : A -> B) (p : B -> bool) l,
  map f (filter (fun a => p (f a)) l) = filter p (map f l).
Proof. intros A B f p l; induction l; cbn; auto. destruct (p (f a)); cbn; congruence. Qed.

Lemma match_nonempty : forall A B (l : list A) (a b : B), l <> [] ->
  match l with [] => a | _ :: _ => b end = b.
Proof. intros A B [|x l] a b H; [congruence|auto]. Qed.

Lemma map_fst_combine : forall A B (a : list A) (b : list B), length b = length a -> map fst (combine a b) = a.
Proof. intros A B a; induction a; destruct b; cbn; intros; try lia; auto. f_equal; auto. Qed.

Lemma ssorted_NoDup : forall l, StronglySorted Z.lt l -> NoDup l.
Proof.
  induction 1 as [|x l H IH F]; constructor; auto. intro C. rewrite Forall_forall in F.
  specialize (F _ C). lia.
Qed.

Lemma firstn_S_nth : forall (l : list Z) i, (i < length l)%nat -> firstn (S i) l = firstn i l ++ [nth i l 0].
Proof.
  induction l as [|x l IH]; intros i H; cbn in H; [lia|]. destruct i; [destruct l; auto|].
  cbn [firstn app nth]. rewrite <- IH by lia. reflexivity.
Qed.

Lemma ones_app : forall a b, ones (a ++ b) = (ones a + ones b)%nat.
Proof. intros; unfold ones. rewrite filter_app, app_length; auto. Qed.

Lemma keep_ext : forall s s' l prev, (forall d, In d l -> s d = s' d) -> keep s prev l = keep s' prev l.
Proof.
  intros s s' l; induction l as [|x l IH]; intros prev H; cbn; auto.
  rewrite <- (H x) by (left; auto). rewrite IH by (intros; apply H; right; auto). auto.
Qed.

Lemma filter_ext_in' : forall A (f g : A -> bool) l, (forall x, In x l -> f x = g x) -> filter f l = filter g l.
Proof. intros A f g l H; induction l as [|x l IH]; cbn; auto. rewrite (H x) by (left; auto). rewrite IH by (intros; apply H; right; auto). auto. Qed.

Section Disc.
Variables (nights : list Z) (flags : list bool) (window nlink : Z) (wt : nat -> Z).
Hypothesis Hsort : StronglySorted Z.lt nights.
Hypothesis Hlen : length flags = length nights.
Hypothesis Hw : 1 <= window.

Let nf := combine nights flags.
Let T := map fst (filter snd nf).
Let n0 := list_min nights.
Let nlen := Z.to_nat (list_max nights + window - n0 + 1).
Let c := cnt T.

Lemma nf_nodup : NoDup (map fst nf).
Proof. unfold nf. rewrite map_fst_combine by auto. apply ssorted_NoDup; auto. Qed.

Lemma T_sorted : StronglySorted Z.lt T.
Proof.
  unfold T. assert (H : StronglySorted Z.lt (map fst nf)) by (unfold nf; rewrite map_fst_combine; auto).
  eapply subseq_ssorted; [|exact H]. apply subseq_map, subseq_filter.
Qed.

Lemma T_nodup : NoDup T.
Proof. apply ssorted_NoDup, T_sorted. Qed.

Lemma T_in : forall t, In t T <-> In (t, true) nf.
Proof.
  intro t. unfold T. rewrite in_map_iff. split.
  - intros ([x b] & <- & H). apply filter_In in H as [H1 H2]. cbn in *; subst; auto.
  - intro H. exists (t, true). split; auto. apply filter_In; split; auto.
Qed.

Lemma nf_range : forall x, In x nf -> n0 <= fst x <= list_max nights.
Proof.
  intros [t b] H. apply in_combine_l in H. cbn. split; [apply list_min_le|apply list_max_ge]; auto.
Qed.

Lemma T_range : forall t, In t T -> n0 <= t <= list_max nights.
Proof. intros t H. apply T_in in H. exact (nf_range _ H). Qed.

Lemma z_nth : forall i, nth i (scatter n0 nlen nf) 0 = if existsb (Z.eqb (n0 + Z.of_nat i)) T then 1 else 0.
Proof.
  intro i. unfold scatter. change (fold_left _ nf (repeat 0 nlen)) with (fold_left (scatter_step n0) nf (repeat 0 nlen)).
  rewrite scatter_nth.
  - assert (E : existsb (fun x => (fst x =? n0 + Z.of_nat i) && snd x) nf = existsb (Z.eqb (n0 + Z.of_nat i)) T).
    { apply eq_true_iff_eq. rewrite !existsb_exists. split.
      - intros ([t b] & H1 & H2). cbn in H2. apply andb_true_iff in H2 as [H2 ->]. apply Z.eqb_eq in H2.
        exists t. split; [apply T_in; auto|apply Z.eqb_eq; auto].
      - intros (t & H1 & H2). apply Z.eqb_eq in H2. exists (t, true). split; [apply T_in; auto|].
        cbn. rewrite andb_true_r. apply Z.eqb_eq; auto. }
    rewrite E. destruct (existsb (fun x => fst x =? n0 + Z.of_nat i) nf) eqn:E2; auto.
    destruct (existsb (Z.eqb (n0 + Z.of_nat i)) T) eqn:E3.
    + rewrite <- E in *. exfalso. apply existsb_exists in E as (x & Hx & C). apply andb_true_iff in C as [C _].
      assert (existsb (fun x => fst x =? n0 + Z.of_nat i) nf = true) by (apply existsb_exists; exists x; auto). congruence.
    + clear. generalize nlen as m. revert i. induction i; destruct m; cbn; auto.
  - apply nf_nodup.
  - intros x Hx. rewrite repeat_length. apply nf_range in Hx. unfold nlen. lia.
Qed.

Lemma z_length : length (scatter n0 nlen nf) = nlen.
Proof.
  unfold scatter. change (fold_left _ nf (repeat 0 nlen)) with (fold_left (scatter_step n0) nf (repeat 0 nlen)).
  rewrite scatter_length, repeat_length; auto.
Qed.

Lemma c_before : forall x, x < n0 -> c x = 0%nat.
Proof.
  intros x H. unfold c, cnt. destruct (filter (fun t => t <=? x) T) as [|t r] eqn:E; auto.
  exfalso. assert (I : In t (filter (fun t => t <=? x) T)) by (rewrite E; left; auto).
  apply filter_In in I as [I1 I2]. apply T_range in I1. apply Z.leb_le in I2. lia.
Qed.

Lemma ones_prefix : forall i, (i <= nlen)%nat ->
  ones (firstn i (scatter n0 nlen nf)) = c (n0 + Z.of_nat i - 1).
Proof.
  induction i as [|i IH]; intro H.
  - cbn. rewrite c_before by lia. auto.
  - rewrite firstn_S_nth by (rewrite z_length; lia). rewrite ones_app, IH by lia.
    rewrite z_nth. unfold c. rewrite (cnt_step T T_nodup (n0 + Z.of_nat (S i) - 1)).
    replace (n0 + Z.of_nat (S i) - 1) with (n0 + Z.of_nat i) by lia.
    destruct (existsb (Z.eqb (n0 + Z.of_nat i)) T); cbn; auto.
Qed.

Lemma z01 : forall i, Forall (fun x => x = 0 \/ x = 1) (firstn i (scatter n0 nlen nf)).
Proof.
  intro i. apply Forall_forall. intros x Hx.
  assert (H : In x (scatter n0 nlen nf)).
  { rewrite <- (firstn_skipn i). apply in_or_app; auto. }
  apply In_nth with (d := 0) in H as (k & _ & <-). rewrite z_nth. destruct (existsb _ T); auto.
Qed.

Lemma arr_nth : forall i, (i < nlen)%nat ->
  nth i (trailing (Z.to_nat window) (cumsum 0 (scatter n0 nlen nf))) 0
  = Z.of_nat (c (n0 + Z.of_nat i)) - Z.of_nat (c (n0 + Z.of_nat i - window)).
Proof.
  intros i H. rewrite trailing_nth by (rewrite cumsum_length, z_length; auto).
  rewrite cumsum_nth by (rewrite z_length; auto).
  rewrite sum_ones by apply z01. rewrite ones_prefix by lia.
  replace (n0 + Z.of_nat (S i) - 1) with (n0 + Z.of_nat i) by lia.
  destruct (Nat.ltb_spec i (Z.to_nat window)) as [L|L].
  - rewrite (c_before (n0 + Z.of_nat i - window)) by lia. lia.
  - rewrite cumsum_nth by (rewrite z_length; lia).
    rewrite sum_ones by apply z01. rewrite ones_prefix by lia.
    replace (n0 + Z.of_nat (S (i - Z.to_nat window)) - 1) with (n0 + Z.of_nat i - window) by lia. lia.
Qed.

Lemma arr2_nth : forall i, (i < nlen)%nat ->
  nth i (trailing (Z.to_nat window) (cumsum 0 (fill wt 0 (scatter n0 nlen nf)))) 0
  = prefix_sum wt (c (n0 + Z.of_nat i)) - prefix_sum wt (c (n0 + Z.of_nat i - window)).
Proof.
  intros i H. rewrite trailing_nth by (rewrite cumsum_length, fill_length, z_length; auto).
  rewrite cumsum_nth by (rewrite fill_length, z_length; auto).
  rewrite fill_sum, Nat.add_0_l. rewrite ones_prefix by lia.
  replace (n0 + Z.of_nat (S i) - 1) with (n0 + Z.of_nat i) by lia.
  destruct (Nat.ltb_spec i (Z.to_nat window)) as [L|L].
  - rewrite (c_before (n0 + Z.of_nat i - window)) by lia. cbn. lia.
  - rewrite cumsum_nth by (rewrite fill_length, z_length; lia).
    rewrite fill_sum, Nat.add_0_l. rewrite ones_prefix by lia.
    replace (n0 + Z.of_nat (S (i - Z.to_nat window)) - 1) with (n0 + Z.of_nat i - window) by lia.
    cbn [prefix_sum]. lia.
Qed.

Definition wsum (d : Z) : Z := prefix_sum wt (c d) - prefix_sum wt (c (d - window)).
Definition qual (d : Z) : Prop := qualifies (fun t => In (t, true) nf) window nlink d.

Lemma qual_cnt : forall d, qual d <-> nlink <= Z.of_nat (c d) - Z.of_nat (c (d - window)).
Proof.
  intro d. unfold c. rewrite <- qualifies_cnt; [|apply T_nodup|lia]. unfold qual, qualifies.
  split; intros (S & H1 & H2 & H3); exists S; repeat split; auto; try (apply H2; auto).
  - apply T_in, H2; auto.
  - apply T_in. apply H2; auto.
Qed.

Lemma qual_range : forall d, 1 < nlink -> qual d -> n0 <= d < n0 + Z.of_nat nlen.
Proof.
  intros d Hn H. apply qual_cnt in H.
  destruct (cnt_lt_some T (d - window) d) as (t & Ht & B); [lia|fold c; lia|].
  apply T_range in Ht. unfold nlen. lia.
Qed.

(** All qualifying nights, in order. *)
Definition quals : list Z :=
  filter (fun d => nlink <=? Z.of_nat (c d) - Z.of_nat (c (d - window)))
    (map (fun i => Z.of_nat i + n0) (seq 0 nlen)).

Lemma quals_sorted : StronglySorted Z.lt quals.
Proof. apply ssorted_filter, ssorted_seq. Qed.

Lemma quals_in : 1 < nlink -> forall d, In d quals <-> qual d.
Proof.
  intros Hn d. unfold quals. rewrite filter_In, Z.leb_le, <- qual_cnt. split; [tauto|].
  intro H; split; auto. apply qual_range in H; auto.
  apply in_map_iff. exists (Z.to_nat (d - n0)). split; [lia|]. apply in_seq. lia.
Qed.

Lemma disc_nights_keep : 1 < nlink -> nights <> [] ->
  disc_nights nights flags window nlink wt = Ok (keep wsum 0 quals).
Proof.
  intros Hn Hne. unfold disc_nights. destruct (Z.ltb_spec 1 nlink); [|lia].
  rewrite match_nonempty by auto.
  destruct (Z.leb_spec window 0); [lia|].
  fold nf. fold n0. fold nlen. f_equal.
  rewrite filter_combine_map.
  assert (EQ : map (fun i => Z.of_nat i + n0)
     (filter (fun i => nlink <=? nth i (trailing (Z.to_nat window) (cumsum 0 (scatter n0 nlen nf))) 0) (seq 0 nlen))
     = quals).
  { unfold quals. rewrite <- map_filter_comm. f_equal. apply filter_ext_in'.
    intros i Hi. apply in_seq in Hi. rewrite arr_nth by lia. rewrite (Z.add_comm n0). auto. }
  rewrite EQ. apply keep_ext. intros d Hd. apply quals_in in Hd; auto. apply qual_range in Hd; auto.
  rewrite arr2_nth by lia. unfold wsum. replace (n0 + Z.of_nat (Z.to_nat (d - n0))) with d by lia. auto.
Qed.

Lemma qual_nonempty : forall d, 1 <= nlink -> qual d -> (c (d - window) < c d)%nat.
Proof. intros d Hn H. apply qual_cnt in H. lia. Qed.

Lemma same_window_nf : forall d d', d' < d -> (c (d - window) < c d)%nat ->
  (same_window (fun t => In (t, true) nf) window d d' <-> c d = c d' /\ c (d - window) = c (d' - window)).
Proof.
  intros d d' Hd Hne. unfold c. rewrite <- same_window_cnt by (auto; lia).
  unfold same_window. split; intros H t Ht; apply H; apply T_in; auto.
Qed.

Lemma c_bound : forall d, (c d <= length T)%nat.
Proof. intro d. unfold c, cnt. generalize T as l. induction l; cbn; [lia|]. destruct (_ <=? _); cbn; lia. Qed.

Lemma T_length : (length T <= length nights)%nat.
Proof.
  unfold T. rewrite map_length. transitivity (length nf).
  - generalize nf as l. induction l; cbn; [lia|]. destruct (snd a); cbn; lia.
  - unfold nf. rewrite combine_length. lia.
Qed.

Theorem disc_exact : 1 < nlink -> nights <> [] -> generic wt (length nights) ->
  exists disc, disc_nights nights flags window nlink wt = Ok disc /\ StronglySorted Z.lt disc /\
  forall d, In d disc <->
    first_with qual d \/
    (qual d /\ exists d', previous qual d d' /\ ~ same_window (fun t => In (t, true) nf) window d d').
Proof.
  intros Hn Hne Hg. exists (keep wsum 0 quals). split; [apply disc_nights_keep; auto|]. split.
  { eapply subseq_ssorted; [apply keep_subseq|apply quals_sorted]. }
  intro d. rewrite (keep_spec qual wsum quals quals_sorted (quals_in Hn) d).
  assert (L := T_length).
  split.
  - intros [[H1 H2]|[H1 (d' & Hp & Hs)]]; [left; auto|right]. split; auto. exists d'; split; auto.
    intro C. apply same_window_nf in C as [C1 C2]; [|apply Hp|apply qual_nonempty; [lia|auto]].
    apply Hs. unfold wsum. rewrite C1, C2. auto.
  - intros [H|[H1 (d' & Hp & Hs)]].
    + left; split; auto. assert (B := qual_nonempty d ltac:(lia) (proj1 H)). assert (B2 := c_bound d).
      unfold wsum. destruct (Hg _ _ _ _ (conj B (Nat.le_trans _ _ _ B2 L)) (conj B (Nat.le_trans _ _ _ B2 L))) as [G _].
      auto.
    + right; split; auto. exists d'; split; auto. intro C. apply Hs.
      assert (B := qual_nonempty d ltac:(lia) H1). assert (B2 := c_bound d).
      assert (B' := qual_nonempty d' ltac:(lia) (proj1 Hp)). assert (B2' := c_bound d').
      apply same_window_nf; [apply Hp|auto|].
      destruct (Hg _ _ _ _ (conj B (Nat.le_trans _ _ _ B2 L)) (conj B' (Nat.le_trans _ _ _ B2' L))) as [_ G].
      destruct (G C) as [G1 G2]. auto.
Qed.

Theorem disc_sound : 1 < nlink -> nights <> [] ->
  exists disc, disc_nights nights flags window nlink wt = Ok disc /\ StronglySorted Z.lt disc /\
  forall d, In d disc -> qual d /\
    forall d', previous qual d d' -> ~ same_window (fun t => In (t, true) nf) window d d'.
Proof.
  intros Hn Hne. exists (keep wsum 0 quals). split; [apply disc_nights_keep; auto|]. split.
  { eapply subseq_ssorted; [apply keep_subseq|apply quals_sorted]. }
  intros d Hd. rewrite (keep_spec qual wsum quals quals_sorted (quals_in Hn) d) in Hd.
  destruct Hd as [[H1 H2]|[H1 (d' & Hp & Hs)]].
  - split; [apply H1|]. intros d' (Q' & L' & _). exfalso. exact (proj2 H1 d' L' Q').
  - split; auto. intros e He C. assert (e = d') by (eapply previous_functional; eauto). subst e.
    apply same_window_nf in C as [C1 C2]; [|apply Hp|apply qual_nonempty; [lia|auto]].
    apply Hs. unfold wsum. rewrite C1, C2. auto.
Qed.

Lemma prefix_sum_lt : forall b a, (forall k, 0 < wt k) -> (a < b)%nat -> prefix_sum wt a < prefix_sum wt b.
Proof.
  intros b a H L; induction L as [|b L IH]; cbn [prefix_sum]; [specialize (H a)|specialize (H b)]; lia.
Qed.

Theorem disc_first : 1 < nlink -> nights <> [] -> (forall k, 0 < wt k) ->
  exists disc, disc_nights nights flags window nlink wt = Ok disc /\
  (forall d, hd_error disc = Some d <-> first_with qual d) /\
  (forall d, qual d -> disc <> []).
Proof.
  intros Hn Hne Hp. exists (keep wsum 0 quals). split; [apply disc_nights_keep; auto|].
  assert (K := keep_spec qual wsum quals quals_sorted (quals_in Hn)).
  assert (S : StronglySorted Z.lt (keep wsum 0 quals)) by (eapply subseq_ssorted; [apply keep_subseq|apply quals_sorted]).
  assert (F : forall d, first_with qual d -> In d (keep wsum 0 quals)).
  { intros d Hd. apply K. left; split; auto.
    assert (B := qual_nonempty d ltac:(lia) (proj1 Hd)). unfold wsum.
    assert (P := prefix_sum_lt _ _ Hp B). lia. }
  assert (HQ : forall d, In d (keep wsum 0 quals) -> qual d).
  { intros d Hd. apply (quals_in Hn). eapply subseq_in; [apply keep_subseq|eauto]. }
  assert (X : forall e, qual e -> exists f, first_with qual f).
    { intros e Qe. assert (Iq := proj2 (quals_in Hn e) Qe). destruct quals as [|y ys] eqn:Eq; [destruct Iq|].
      exists y. eapply sorted_split_first with (D := y :: ys); eauto; [rewrite <- Eq; apply quals_sorted|].
      rewrite <- Eq. apply quals_in; auto. }
  split.
  2:{ intros e Qe C. destruct (X e Qe) as (f & Hf). apply F in Hf. rewrite C in Hf. destruct Hf. }
  intro d. split.
  - intro H. destruct (keep wsum 0 quals) as [|x l] eqn:E; [discriminate|]. inversion H; subst x.
    split; [apply HQ; left; auto|]. intros e He Qe.
    destruct (X e Qe) as (f & Hf). assert (If := F f Hf).
    assert (f <= e). { destruct (Z.le_gt_cases f e); auto. exfalso. exact (proj2 Hf e ltac:(lia) Qe). }
    inversion S as [|? ? S1 S2]; subst. rewrite Forall_forall in S2.
    destruct If as [->|If]; [lia|]. specialize (S2 _ If). lia.
  - intro Hd. assert (I := F d Hd). destruct (keep wsum 0 quals) as [|x l]; [destruct I|].
    destruct I as [->|I]; auto. exfalso.
    inversion S as [|? ? S1 S2]; subst. rewrite Forall_forall in S2. specialize (S2 _ I).
    apply (proj2 Hd x); auto. apply HQ. left; auto.
Qed.
End Disc.
