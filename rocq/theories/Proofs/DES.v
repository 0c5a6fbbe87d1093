From Coq Require Import ZArith QArith Qabs Qminmax String List Bool Arith Lia Lqa Sorting.Sorted Sorting.Permutation.
From Verif Require Import Base.Prelude Base.Num Base.Sort Model.DES Spec.DES.
Import ListNotations.
Open Scope Q_scope.

Lemma minimum_spec : forall l x, (In (minimum x l) (x :: l)) /\ (forall t, In t (x :: l) -> minimum x l <= t).
Proof.
  induction l as [|y l IH]; intros x; cbn [minimum].
  - split; [left; auto|]. intros t [<-|[]]. lra.
  - destruct (qltb y x) eqn:E.
    + apply qltb_lt in E. destruct (IH y) as (H1 & H2). split; [destruct H1; [right; left|right; right]; auto|].
      intros t [<-|[<-|T]]; [|apply H2; left; auto|apply H2; right; auto]. specialize (H2 y (or_introl eq_refl)). lra.
    + apply qltb_false in E. destruct (IH x) as (H1 & H2). split; [destruct H1; [left|right; right]; auto|].
      intros t [<-|[<-|T]]; [apply H2; left; auto| |apply H2; right; auto]. specialize (H2 x (or_introl eq_refl)). lra.
Qed.
Lemma maximum_spec : forall l x, (In (maximum x l) (x :: l)) /\ (forall t, In t (x :: l) -> t <= maximum x l).
Proof.
  induction l as [|y l IH]; intros x; cbn [maximum].
  - split; [left; auto|]. intros t [<-|[]]. lra.
  - destruct (qltb x y) eqn:E.
    + apply qltb_lt in E. destruct (IH y) as (H1 & H2). split; [destruct H1; [right; left|right; right]; auto|].
      intros t [<-|[<-|T]]; [|apply H2; left; auto|apply H2; right; auto]. specialize (H2 y (or_introl eq_refl)). lra.
    + apply qltb_false in E. destruct (IH x) as (H1 & H2). split; [destruct H1; [left|right; right]; auto|].
      intros t [<-|[<-|T]]; [apply H2; left; auto| |apply H2; right; auto]. specialize (H2 x (or_introl eq_refl)). lra.
Qed.

(** The first time of another night after [t1] and the last one before [t2]. *)
Lemma arccut_loop_spec : forall t1 t2 l a b,
  let (a', b') := arccut_loop t1 t2 l a b in
  (a' = a \/ (In a' l /\ 7#10 < a' - t1)) /\ a' <= a /\ (forall t, In t l -> 7#10 < t - t1 -> a' <= t)
  /\ (b' = b \/ (In b' l /\ 7#10 < t2 - b')) /\ b <= b' /\ (forall t, In t l -> 7#10 < t2 - t -> t <= b').
Proof.
  intros t1 t2 l. induction l as [|t l IH]; intros a b; cbn [arccut_loop].
  - repeat split; auto; try lra; intros ? [].
  - set (a1 := if qltb (7#10) (t - t1) && qltb t a then t else a).
    set (b1 := if qltb (7#10) (t2 - t) && qltb b t then t else b).
    specialize (IH a1 b1). destruct (arccut_loop t1 t2 l a1 b1) as [a' b'].
    destruct IH as (I1 & I2 & I3 & J1 & J2 & J3).
    assert (HA : (a1 = a \/ (a1 = t /\ 7#10 < t - t1)) /\ a1 <= a /\ (7#10 < t - t1 -> a1 <= t)).
    { unfold a1. destruct (qltb (7#10) (t - t1)) eqn:E1; cbn [andb].
      - apply qltb_lt in E1. destruct (qltb t a) eqn:E2; [apply qltb_lt in E2|apply qltb_false in E2]; repeat split; auto; lra.
      - apply qltb_false in E1. repeat split; auto; lra. }
    assert (HB : (b1 = b \/ (b1 = t /\ 7#10 < t2 - t)) /\ b <= b1 /\ (7#10 < t2 - t -> t <= b1)).
    { unfold b1. destruct (qltb (7#10) (t2 - t)) eqn:E1; cbn [andb].
      - apply qltb_lt in E1. destruct (qltb b t) eqn:E2; [apply qltb_lt in E2|apply qltb_false in E2]; repeat split; auto; lra.
      - apply qltb_false in E1. repeat split; auto; lra. }
    clearbody a1 b1. destruct HA as (A1 & A2 & A3), HB as (B1 & B2 & B3).
    split; [|split; [lra|split; [|split; [|split; [lra|]]]]].
    + destruct I1 as [->|(I & I')]; [|right; split; [right; auto|auto]].
      destruct A1 as [->|(-> & X)]; [left; auto|right; split; [left; auto|auto]].
    + intros u [<-|U] X; [specialize (A3 X); lra|]. apply I3; auto.
    + destruct J1 as [->|(J & J')]; [|right; split; [right; auto|auto]].
      destruct B1 as [->|(-> & X)]; [left; auto|right; split; [left; auto|auto]].
    + intros u [<-|U] X; [specialize (B3 X); lra|]. apply J3; auto.
Qed.

Lemma Qabs_far : forall a b, b <= a -> Qabs (a - b) == a - b.
Proof. intros. apply Qabs_pos. lra. Qed.
Lemma Qabs_far' : forall a b, a <= b -> Qabs (a - b) == b - a.
Proof. intros. rewrite Qabs_neg by lra. lra. Qed.

Lemma C53_arc_proof : forall times, compute_arccut times = true <-> long_arc times.
Proof.
  intros times. destruct times as [|x r].
  - split; [discriminate|]. intros (f & l & [] & _).
  - unfold compute_arccut. destruct (minimum_spec r x) as (M1 & M2). destruct (maximum_spec r x) as (N1 & N2).
    set (t1 := minimum x r) in *. set (t2 := maximum x r) in *. clearbody t1 t2.
    pose proof (arccut_loop_spec t1 t2 (x :: r) t2 t1) as S.
    destruct (arccut_loop t1 t2 (x :: r) t2 t1) as [a b]. destruct S as (A1 & A2 & A3 & B1 & B2 & B3).
    set (times := x :: r) in *. clearbody times. cbn [minimum].
    assert (E : qltb ((1 # 2) * (36525 # 100)) (if qltb (b - t1) (t2 - a) then b - t1 else t2 - a) = true
                <-> 365.25 / 2 < t2 - a /\ 365.25 / 2 < b - t1).
    { rewrite qltb_lt. assert (H : (1 # 2) * (36525 # 100) == 365.25 / 2) by reflexivity. rewrite H.
      destruct (qltb (b - t1) (t2 - a)) eqn:Q; [apply qltb_lt in Q|apply qltb_false in Q]; split; intros; try lra; tauto. }
    rewrite E. clear E. assert (H : 365.25 / 2 == 7305 # 40) by reflexivity. rewrite !H.
    pose proof (M2 t2 N1) as L12. split.
    + intros (HA & HB). exists t1, t2. split; [auto|]. split; [auto|]. split; [intros; split; auto|].
      unfold still_long. setoid_rewrite H. split.
      * exists a, t2. destruct A1 as [->|(A & A')]; [lra|].
        pose proof (M2 a A). pose proof (N2 a A). rewrite !Qabs_far by lra. repeat split; auto; lra.
      * exists t1, b. destruct B1 as [->|(B & B')]; [lra|].
        pose proof (M2 b B). pose proof (N2 b B). rewrite !Qabs_far' by lra. repeat split; auto; lra.
    + intros (f & l & F & L & FL & SF & SL). unfold still_long in *. setoid_rewrite H in SF. setoid_rewrite H in SL.
      assert (Ef : f == t1) by (pose proof (M2 f F); destruct (FL t1 M1); lra).
      assert (El : l == t2) by (pose proof (N2 l L); destruct (FL t2 N1); lra).
      destruct SF as (p & q & P & Q & P1 & Q1 & PQ). destruct SL as (p' & q' & P' & Q' & P1' & Q1' & PQ').
      pose proof (M2 p P). pose proof (N2 q Q). pose proof (M2 p' P'). pose proof (N2 q' Q').
      rewrite Qabs_far in P1 by lra. rewrite Qabs_far' in Q1' by (pose proof (N2 q' Q'); lra).
      assert (a <= p) by (apply A3; auto; lra). assert (q' <= b) by (apply B3; auto; lra). split; lra.
Qed.

(** * Nights *)

Lemma nunique_skip : forall r before rest,
  (forall x, In x r -> exists s, In s before /\ Qabs (s - x) < 4#10) ->
  nunique_loop before (r ++ rest) = nunique_loop (before ++ r) rest.
Proof.
  induction r as [|x r IH]; intros before rest H; cbn [nunique_loop app].
  - rewrite app_nil_r. reflexivity.
  - replace (existsb (fun s => qltb (Qabs (s - x)) (4#10)) before) with true.
    2:{ symmetry. apply existsb_exists. destruct (H x (or_introl eq_refl)) as (s & S1 & S2). exists s. split; auto. apply qltb_lt; auto. }
    cbn [Nat.add]. rewrite IH.
    + rewrite <- app_assoc. reflexivity.
    + intros y Y. destruct (H y (or_intror Y)) as (s & S1 & S2). exists s. split; auto. apply in_app_iff; auto.
Qed.

Definition close (n : list Q) : Prop := n <> [] /\ forall a b, In a n -> In b n -> Qabs (a - b) < 4#10.
Definition apart (n m : list Q) : Prop := forall a b, In a n -> In b m -> 4#10 < b - a.

Lemma nunique_nights : forall ns before,
  Forall close ns -> StronglySorted apart ns ->
  (forall s t, In s before -> In t (concat ns) -> 4#10 <= Qabs (s - t)) ->
  nunique_loop before (concat ns) = length ns.
Proof.
  induction ns as [|n ns IH]; intros before C S B; [reflexivity|].
  inversion C as [|? ? (NE & CN) C']; subst. inversion S as [|? ? S' F]; subst.
  destruct n as [|t r]; [contradiction|]. cbn [concat app nunique_loop length].
  replace (existsb (fun s => qltb (Qabs (s - t)) (4#10)) before) with false.
  2:{ symmetry. destruct (existsb _ _) eqn:E; auto. apply existsb_exists in E. destruct E as (s & S1 & S2). apply qltb_lt in S2.
      specialize (B s t S1 ltac:(left; reflexivity)). lra. }
  cbn [Nat.add]. f_equal. rewrite nunique_skip.
  - apply IH; auto. intros s u U V. apply in_app_iff in U. rewrite in_app_iff in U. cbn in U.
    destruct U as [[U|[<-|[]]]|U].
    + apply B; auto. cbn. right. apply in_app_iff. auto.
    + apply in_concat in V. destruct V as (m & M1 & M2). rewrite Forall_forall in F. specialize (F m M1 t u ltac:(left; auto) M2).
      rewrite Qabs_far' by lra. lra.
    + apply in_concat in V. destruct V as (m & M1 & M2). rewrite Forall_forall in F. specialize (F m M1 s u ltac:(right; auto) M2).
      rewrite Qabs_far' by lra. lra.
  - intros x X. exists t. split; [apply in_app_iff; right; left; auto|]. apply CN; [left; auto|right; auto].
Qed.

Definition starts (ns : list (list Q)) : list Q := flat_map (fun n => match n with [] => [] | a :: _ => [a] end) ns.

Lemma detections_nights : forall ns n prev r,
  Forall close ns -> StronglySorted apart (n :: ns) ->
  In prev n -> incl r n -> (forall a b, In a n -> In b n -> Qabs (a - b) < 4#10) ->
  detections prev (r ++ concat ns) = starts ns.
Proof.
  induction ns as [|m ns IH]; intros n prev r C S P R CN.
  - cbn. rewrite app_nil_r. revert prev P. induction r as [|x r IHr]; intros prev P; [reflexivity|]. cbn.
    replace (qltb (4#10) (x - prev)) with false.
    2:{ symmetry. apply qltb_false. pose proof (CN x prev (R x (or_introl eq_refl)) P). pose proof (Qle_Qabs (x - prev)). lra. }
    apply IHr; [intros y Y; apply R; right; auto|apply R; left; auto].
  - inversion C as [|? ? (NE & CM) C']; subst. inversion S as [|? ? S' F]; subst. inversion F as [|? ? AM F']; subst.
    revert prev P. induction r as [|x r IHr]; intros prev P.
    + destruct m as [|t m]; [contradiction|]. cbn.
      replace (qltb (4#10) (t - prev)) with true.
      2:{ symmetry. apply qltb_lt. apply AM; auto. left; auto. }
      f_equal. apply (IH (t :: m)); auto; [left; auto|intros y Y; right; auto].
    + cbn [app detections].
      replace (qltb (4#10) (x - prev)) with false.
      2:{ symmetry. apply qltb_false. pose proof (CN x prev (R x (or_introl eq_refl)) P). pose proof (Qle_Qabs (x - prev)). lra. }
      apply IHr; [intros y Y; apply R; right; auto|apply R; left; auto].
Qed.

Lemma detections_starts : forall ns t rest, Forall close ns -> StronglySorted apart ns -> concat ns = t :: rest ->
  t :: detections t rest = starts ns.
Proof.
  intros ns t rest C S E. destruct ns as [|n ns]; [discriminate|].
  inversion C as [|? ? (NE & CN) C']; subst. destruct n as [|a n]; [contradiction|]. cbn in E. injection E as <- <-. cbn. f_equal.
  apply (detections_nights ns (a :: n)); auto; [left; auto|intros y Y; right; auto].
Qed.

(** * Triplets *)

Lemma triplet_step : forall a b c l f s, triplet_loop (a :: b :: c :: l) f s
  = if qltb (c - b) f && qltb (b - a) s then triplet_loop (b :: c :: l) (c - b) (b - a) else triplet_loop (b :: c :: l) f s.
Proof. reflexivity. Qed.
Lemma triplet_loop_le : forall det f s, fst (triplet_loop det f s) <= f /\ snd (triplet_loop det f s) <= s.
Proof.
  induction det as [|a det IH]; intros f s; [cbn; lra|]. destruct det as [|b [|c det]]; [cbn; lra|cbn; lra|].
  rewrite triplet_step. destruct (qltb (c - b) f && qltb (b - a) s) eqn:E.
  - apply andb_true_iff in E. destruct E as (E1 & E2). apply qltb_lt in E1, E2. destruct (IH (c - b) (b - a)). split; lra.
  - apply IH.
Qed.
Lemma triplet_loop_sound : forall det f s,
  triplet_loop det f s = (f, s)
  \/ exists l1 a b c l2, det = l1 ++ a :: b :: c :: l2 /\ triplet_loop det f s = (c - b, b - a).
Proof.
  induction det as [|a det IH]; intros f s; [left; reflexivity|]. destruct det as [|b [|c det]]; [left; reflexivity|left; reflexivity|].
  rewrite triplet_step. destruct (qltb (c - b) f && qltb (b - a) s).
  - right. destruct (IH (c - b) (b - a)) as [E|(l1 & p & q & r & l2 & E1 & E2)].
    + exists [], a, b, c, det. auto.
    + exists (a :: l1), p, q, r, l2. split; [cbn; f_equal; exact E1|exact E2].
  - destruct (IH f s) as [E|(l1 & p & q & r & l2 & E1 & E2)]; [left; auto|right].
    exists (a :: l1), p, q, r, l2. split; [cbn; f_equal; exact E1|exact E2].
Qed.
Lemma triplet_loop_complete : forall l1 a b c l2 f s,
  c - b < f -> b - a < s ->
  (forall pre p q r post, l1 ++ [a; b] = pre ++ p :: q :: r :: post -> c - b < r - q /\ b - a < q - p) ->
  fst (triplet_loop (l1 ++ a :: b :: c :: l2) f s) <= c - b /\ snd (triplet_loop (l1 ++ a :: b :: c :: l2) f s) <= b - a.
Proof.
  induction l1 as [|x l1 IH]; intros a b c l2 f s F S H.
  - change ([] ++ a :: b :: c :: l2) with (a :: b :: c :: l2). rewrite triplet_step.
    replace (qltb (c - b) f) with true by (symmetry; apply qltb_lt; auto).
    replace (qltb (b - a) s) with true by (symmetry; apply qltb_lt; auto). cbn [andb]. apply triplet_loop_le.
  - assert (IHH : forall pre p q r post, l1 ++ [a; b] = pre ++ p :: q :: r :: post -> c - b < r - q /\ b - a < q - p).
    { intros pre p q r post E. apply (H (x :: pre) p q r post). cbn. f_equal. exact E. }
    cbn [app]. destruct l1 as [|y l1].
    + cbn [app]. rewrite triplet_step. specialize (H [] x a b [] eq_refl).
      destruct (qltb (b - a) f && qltb (a - x) s) eqn:E.
      * apply (IH a b c l2); auto; lra.
      * apply (IH a b c l2); auto; lra.
    + cbn [app]. destruct l1 as [|w l1].
      * cbn [app]. rewrite triplet_step. specialize (H [] x y a [b] eq_refl).
        destruct (qltb (a - y) f && qltb (y - x) s); apply (IH a b c l2); auto; lra.
      * cbn [app]. rewrite triplet_step. specialize (H [] x y w (l1 ++ [a; b]) eq_refl).
        destruct (qltb (w - y) f && qltb (y - x) s); apply (IH a b c l2); auto; lra.
Qed.

Lemma starts_cons : forall n ns, n <> [] -> exists a, hd_error n = Some a /\ starts (n :: ns) = a :: starts ns.
Proof. intros [|a n] ns H; [contradiction|]. exists a. split; reflexivity. Qed.
Lemma starts_hd : forall n ns a, hd_error n = Some a -> starts (n :: ns) = a :: starts ns.
Proof. intros [|x n] ns a H; [discriminate|]. cbn in H. injection H as ->. reflexivity. Qed.
Lemma starts_app : forall a b, starts (a ++ b) = starts a ++ starts b.
Proof. intros. unfold starts. apply flat_map_app. Qed.
Lemma starts_split : forall ns l1 l2, Forall close ns -> starts ns = l1 ++ l2 ->
  exists m1 m2, ns = m1 ++ m2 /\ starts m1 = l1 /\ starts m2 = l2.
Proof.
  induction ns as [|n ns IH]; intros l1 l2 C E.
  - cbn in E. symmetry in E. apply app_eq_nil in E. destruct E as (-> & ->). exists [], []. auto.
  - inversion C as [|? ? (NE & _) C']; subst. destruct (starts_cons n ns NE) as (a & A1 & A2). rewrite A2 in E.
    destruct l1 as [|x l1].
    + cbn in E. exists [], (n :: ns). split; [auto|]. split; [auto|]. rewrite A2. auto.
    + cbn in E. injection E as -> E. destruct (IH l1 l2 C' E) as (m1 & m2 & -> & E1 & E2).
      exists (n :: m1), m2. split; [auto|]. split; auto. destruct (starts_cons n m1 NE) as (a' & B1 & B2). rewrite B2, E1. congruence.
Qed.
Lemma starts_three : forall ns a b c l, Forall close ns -> starts ns = a :: b :: c :: l ->
  exists n1 n2 n3 m, ns = n1 :: n2 :: n3 :: m /\ hd_error n1 = Some a /\ hd_error n2 = Some b /\ hd_error n3 = Some c.
Proof.
  intros ns a b c l C E.
  assert (T : forall ns x l, Forall close ns -> starts ns = x :: l -> exists n m, ns = n :: m /\ hd_error n = Some x /\ starts m = l).
  { clear. intros [|n ns] x l C E; [discriminate|]. inversion C as [|? ? (NE & _) C']; subst.
    destruct n as [|y n]; [contradiction|]. cbn in E. injection E as -> E. exists (x :: n), ns. auto. }
  destruct (T _ _ _ C E) as (n1 & m1 & -> & H1 & E1). apply Forall_inv_tail in C.
  destruct (T _ _ _ C E1) as (n2 & m2 & -> & H2 & E2). apply Forall_inv_tail in C.
  destruct (T _ _ _ C E2) as (n3 & m3 & -> & H3 & E3). exists n1, n2, n3, m3. auto.
Qed.

Lemma triplet_nights_sound : forall ns w, Forall close ns -> StronglySorted apart ns -> w <= 999 ->
  compute_triplet (concat ns) w = true -> triplet ns w.
Proof.
  intros ns w C S W H. unfold compute_triplet in H. destruct (concat ns) as [|t rest] eqn:E; [discriminate|].
  rewrite (detections_starts ns t rest C S E) in H.
  destruct (triplet_loop_sound (starts ns) 999 999) as [X|(l1 & a & b & c & l2 & E1 & E2)].
  - rewrite X in H. apply andb_true_iff in H. destruct H as (H & _). apply qltb_lt in H. lra.
  - rewrite E2 in H. apply andb_true_iff in H. destruct H as (H1 & H2). apply qltb_lt in H1, H2.
    destruct (starts_split ns _ _ C E1) as (m1 & m2 & -> & F1 & F2). apply Forall_app in C. destruct C as (C1 & C2).
    destruct (starts_three _ _ _ _ _ C2 F2) as (n1 & n2 & n3 & m & -> & X1 & X2 & X3).
    exists m1, n1, n2, n3, m, a, b, c. repeat split; auto.
Qed.

Lemma triplet_nights_complete : forall ns w, Forall close ns -> StronglySorted apart ns -> w <= 999 ->
  shortest_triplet ns w -> compute_triplet (concat ns) w = true.
Proof.
  intros ns w C S W (before & n1 & n2 & n3 & after & a & b & c & E & X1 & X2 & X3 & W1 & W2 & M).
  unfold compute_triplet.
  assert (ST : starts ns = starts before ++ a :: b :: c :: starts after).
  { rewrite E, starts_app, (starts_hd _ _ _ X1), (starts_hd _ _ _ X2), (starts_hd _ _ _ X3). reflexivity. }
  destruct (concat ns) as [|t rest] eqn:E'.
  { exfalso. subst ns. rewrite concat_app in E'. apply app_eq_nil in E'. destruct E' as (_ & E'). destruct n1; discriminate. }
  rewrite (detections_starts ns t rest C S E'), ST.
  assert (L := triplet_loop_complete (starts before) a b c (starts after) 999 999 ltac:(lra) ltac:(lra)).
  destruct (triplet_loop (starts before ++ a :: b :: c :: starts after) 999 999) as [f s]. cbn in L.
  destruct L as (L1 & L2).
  - intros pre p q r post EQ.
    assert (CB : Forall close (before ++ [n1; n2])).
    { subst ns. apply Forall_app in C. destruct C as (C1 & C2). apply Forall_app. split; auto.
      pose proof (Forall_inv C2) as K1. pose proof (Forall_inv (Forall_inv_tail C2)) as K2. constructor; [exact K1|constructor; [exact K2|constructor]]. }
    assert (SB : starts (before ++ [n1; n2]) = pre ++ p :: q :: r :: post).
    { rewrite starts_app, <- EQ, (starts_hd _ _ _ X1), (starts_hd _ _ _ X2). reflexivity. }
    destruct (starts_split _ _ _ CB SB) as (m1 & m2 & F & F1 & F2). rewrite F in CB. apply Forall_app in CB. destruct CB as (_ & CB).
    destruct (starts_three _ _ _ _ _ CB F2) as (k1 & k2 & k3 & k & -> & Y1 & Y2 & Y3).
    destruct (M _ _ _ _ _ _ _ _ F Y1 Y2 Y3). split; auto.
  - apply andb_true_iff. split; apply qltb_lt; lra.
Qed.

(** * Sorted permutations of rational numbers agree up to equality *)

Lemma sorted_perm_eq : forall a b : list Q,
  (forall x y, In x a -> In y a -> x <= y -> y <= x -> x = y) ->
  StronglySorted Qle a -> StronglySorted Qle b -> Permutation a b -> a = b.
Proof.
  induction a as [|x a IH]; intros b AS SA SB P.
  - apply Permutation_nil in P. auto.
  - destruct b as [|y b]; [symmetry in P; apply Permutation_nil in P; discriminate|].
    inversion SA as [|? ? SA' FA]; subst. inversion SB as [|? ? SB' FB]; subst. rewrite Forall_forall in FA, FB.
    assert (Y : In y (x :: a)) by (eapply Permutation_in; [symmetry; exact P|left; auto]).
    assert (X : In x (y :: b)) by (eapply Permutation_in; [exact P|left; auto]).
    assert (x = y).
    { apply AS; [left; auto|exact Y| |].
      - destruct Y as [->|Y]; [lra|apply FA; auto].
      - destruct X as [->|X]; [lra|apply FB; auto]. }
    subst y. f_equal. apply IH; auto.
    + intros u v U V. apply AS; right; auto.
    + eapply Permutation_cons_inv; eauto.
Qed.
Lemma sorted_map_red : forall l, StronglySorted Qle l -> StronglySorted Qle (map Qred l).
Proof.
  induction 1 as [|x l S IH F]; cbn; constructor; auto. rewrite Forall_forall in *. intros y Y.
  apply in_map_iff in Y. destruct Y as (u & <- & U). rewrite !Qred_correct. auto.
Qed.
Lemma sorted_perm_Qeq : forall a b, StronglySorted Qle a -> StronglySorted Qle b -> Permutation a b -> Forall2 Qeq a b.
Proof.
  intros a b SA SB P.
  assert (E : map Qred a = map Qred b).
  { apply sorted_perm_eq; try apply sorted_map_red; auto; [|apply Permutation_map; auto].
    intros x y X Y L M. apply in_map_iff in X, Y. destruct X as (u & <- & _), Y as (v & <- & _).
    pose proof (Qred_correct u) as U. pose proof (Qred_correct v) as V. apply Qred_complete. rewrite U, V in L, M. apply Qle_antisym; assumption. }
  clear - E. revert b E. induction a as [|x a IH]; intros [|y b] E; try discriminate; constructor.
  - cbn in E. injection E as E _. rewrite <- (Qred_correct x), <- (Qred_correct y), E. reflexivity.
  - apply IH. cbn in E. injection E as _ E. exact E.
Qed.

Lemma regroup : forall ns s, Forall2 Qeq s (concat ns) -> exists ns', s = concat ns' /\ Forall2 (Forall2 Qeq) ns' ns.
Proof.
  induction ns as [|n ns IH]; intros s H; cbn in H.
  - inversion H; subst. exists []. split; constructor.
  - apply Forall2_app_inv_r in H. destruct H as (s1 & s2 & H1 & H2 & ->). destruct (IH s2 H2) as (ns' & -> & R).
    exists (s1 :: ns'). split; [reflexivity|constructor; auto].
Qed.
Lemma Forall2_In_l : forall (R : Q -> Q -> Prop) l l' x, Forall2 R l l' -> In x l -> exists y, In y l' /\ R x y.
Proof. intros R l l' x H. induction H; intros I; [contradiction|]. destruct I as [<-|I]; [exists y; split; [left; auto|auto]|].
  destruct (IHForall2 I) as (z & Z & W). exists z. split; [right; auto|auto]. Qed.
Lemma close_eq : forall n n', Forall2 Qeq n' n -> close n -> close n'.
Proof.
  intros n n' H (NE & C). split; [intros ->; inversion H; subst; contradiction|].
  intros a b A B. destruct (Forall2_In_l _ _ _ _ H A) as (a' & A1 & A2). destruct (Forall2_In_l _ _ _ _ H B) as (b' & B1 & B2).
  rewrite A2, B2. apply C; auto.
Qed.
Lemma apart_eq : forall n n' m m', Forall2 Qeq n' n -> Forall2 Qeq m' m -> apart n m -> apart n' m'.
Proof.
  intros n n' m m' H K C a b A B. destruct (Forall2_In_l _ _ _ _ H A) as (a' & A1 & A2). destruct (Forall2_In_l _ _ _ _ K B) as (b' & B1 & B2).
  rewrite A2, B2. apply C; auto.
Qed.
Lemma hd_eq : forall n' n a', Forall2 Qeq n' n -> hd_error n' = Some a' -> exists a, hd_error n = Some a /\ a' == a.
Proof. intros n' n a' H E. destruct H as [|x y l l' X R]; [discriminate|]. cbn in E. injection E as <-. exists y. auto. Qed.
Lemma hd_eq' : forall n' n a, Forall2 Qeq n' n -> hd_error n = Some a -> exists a', hd_error n' = Some a' /\ a' == a.
Proof. intros n' n a' H E. destruct H as [|x y l l' X R]; [discriminate|]. cbn in E. injection E as <-. exists x. auto. Qed.

Lemma nights_eq : forall ns ns', Forall2 (Forall2 Qeq) ns' ns -> Forall close ns -> StronglySorted apart ns ->
  Forall close ns' /\ StronglySorted apart ns' /\ length ns' = length ns.
Proof.
  intros ns ns' H. induction H as [|n' n ns' ns H R IH]; intros C S; [repeat split; constructor|].
  inversion C; subst. inversion S as [|? ? S' F]; subst. destruct IH as (I1 & I2 & I3); auto.
  repeat split; [constructor; auto; eapply close_eq; eauto| |cbn; congruence]. constructor; auto.
  clear - F R H. induction R as [|m' m ns' ns K R IH]; constructor; inversion F; subst; auto. eapply apart_eq; eauto.
Qed.
Lemma triplet_eq : forall ns ns' w, Forall2 (Forall2 Qeq) ns' ns -> triplet ns' w -> triplet ns w.
Proof.
  intros ns ns' w H (be & n1 & n2 & n3 & af & a & b & c & -> & X1 & X2 & X3 & W1 & W2).
  apply Forall2_app_inv_l in H. destruct H as (be' & r & H1 & H2 & ->).
  inversion H2 as [|? m1 ? r1 K1 H3]; subst. inversion H3 as [|? m2 ? r2 K2 H4]; subst. inversion H4 as [|? m3 ? r3 K3 H5]; subst.
  destruct (hd_eq _ _ _ K1 X1) as (a' & Y1 & E1). destruct (hd_eq _ _ _ K2 X2) as (b' & Y2 & E2). destruct (hd_eq _ _ _ K3 X3) as (c' & Y3 & E3).
  exists be', m1, m2, m3, r3, a', b', c'. repeat split; auto; lra.
Qed.
Lemma shortest_eq : forall ns ns' w, Forall2 (Forall2 Qeq) ns' ns -> shortest_triplet ns w -> shortest_triplet ns' w.
Proof.
  intros ns ns' w H (be & n1 & n2 & n3 & af & a & b & c & -> & X1 & X2 & X3 & W1 & W2 & M).
  apply Forall2_app_inv_r in H. destruct H as (be' & r & H1 & H2 & ->).
  inversion H2 as [|m1 ? r1 ? K1 H3]; subst. inversion H3 as [|m2 ? r2 ? K2 H4]; subst. inversion H4 as [|m3 ? r3 ? K3 H5]; subst.
  destruct (hd_eq' _ _ _ K1 X1) as (a' & Y1 & E1). destruct (hd_eq' _ _ _ K2 X2) as (b' & Y2 & E2). destruct (hd_eq' _ _ _ K3 X3) as (c' & Y3 & E3).
  exists be', m1, m2, m3, r3, a', b', c'. repeat split; auto; try lra.
  - clear H5 H4 H3 H2. assert (G : Forall2 (Forall2 Qeq) (be' ++ [m1; m2]) (be ++ [n1; n2])) by (apply Forall2_app; auto).
    rewrite H in G. apply Forall2_app_inv_l in G. destruct G as (pre' & rr & G1 & G2 & GE).
    inversion G2 as [|? k1 ? q1 L1 G3]; subst. inversion G3 as [|? k2 ? q2 L2 G4]; subst. inversion G4 as [|? k3 ? q3 L3 G5]; subst.
    destruct (hd_eq _ _ _ L1 H0) as (p' & Z1 & F1). destruct (hd_eq _ _ _ L2 H6) as (q' & Z2 & F2). destruct (hd_eq _ _ _ L3 H7) as (r' & Z3 & F3).
    destruct (M _ _ _ _ _ _ _ _ GE Z1 Z2 Z3). lra.
  - clear H5 H4 H3 H2. assert (G : Forall2 (Forall2 Qeq) (be' ++ [m1; m2]) (be ++ [n1; n2])) by (apply Forall2_app; auto).
    rewrite H in G. apply Forall2_app_inv_l in G. destruct G as (pre' & rr & G1 & G2 & GE).
    inversion G2 as [|? k1 ? q1 L1 G3]; subst. inversion G3 as [|? k2 ? q2 L2 G4]; subst. inversion G4 as [|? k3 ? q3 L3 G5]; subst.
    destruct (hd_eq _ _ _ L1 H0) as (p' & Z1 & F1). destruct (hd_eq _ _ _ L2 H6) as (q' & Z2 & F2). destruct (hd_eq _ _ _ L3 H7) as (r' & Z3 & F3).
    destruct (M _ _ _ _ _ _ _ _ GE Z1 Z2 Z3). lra.
Qed.

Lemma long_arc_perm : forall a b, Permutation a b -> long_arc a -> long_arc b.
Proof.
  intros a b P (f & l & F & L & FL & (p & q & SF) & (p' & q' & SL)).
  assert (I : forall x, In x a <-> In x b) by (intros x; split; apply Permutation_in; auto; symmetry; auto).
  exists f, l. rewrite <- !I. split; [auto|]. split; [auto|]. split; [intros t T; apply FL, I, T|].
  split; [exists p, q|exists p', q']; rewrite <- !I; auto.
Qed.

(** * The filter *)
Section Filter.
Context {A : Type}.
Variables (objid : A -> string) (time x y z : A -> Q).

Lemma window_spec : forall obs, obs <> [] -> is_window (map (distance2 x y z) obs) (window x y z obs).
Proof.
  intros [|r rest] H; [contradiction|]. unfold window. cbn [map].
  destruct (minimum_spec (map (distance2 x y z) rest) (distance2 x y z r)) as (M1 & M2).
  assert (B : bound == 7479893535 * 7479893535) by reflexivity.
  destruct (Qle_bool bound _) eqn:E.
  - apply Qle_bool_iff in E. left. split; auto. intros d D. specialize (M2 d D). rewrite B in E. lra.
  - right. split; auto. exists (minimum (distance2 x y z r) (map (distance2 x y z) rest)). split; [exact M1|].
    apply Qnot_le_lt. intros L. rewrite <- B in L. apply Qle_bool_iff in L. congruence.
Qed.
Lemma is_window_unique : forall l w w', is_window l w -> is_window l w' -> w = w'.
Proof.
  intros l w w' [(-> & H)|(-> & d & D & H)] [(-> & K)|(-> & e & E & K)]; auto.
  - specialize (H e E). lra.
  - specialize (K d D). lra.
Qed.

Lemma discovered_sound : forall obs ns w,
  grouped ns (map time obs) -> is_window (map (distance2 x y z) obs) w -> discovered time x y z obs = true ->
  (9 <= length ns)%nat \/ ((7 <= length ns)%nat /\ long_arc (map time obs) /\ triplet ns w).
Proof.
  intros obs ns w (P & S & C & AP) W H. unfold discovered in H.
  set (s := sort_by (fun t => t) (map time obs)) in *.
  assert (PS : Permutation s (map time obs)) by apply sort_by_perm.
  assert (SS : StronglySorted Qle s) by (apply (sort_by_sorted Q (fun t => t))).
  assert (F : Forall2 Qeq s (concat ns)) by (apply sorted_perm_Qeq; auto; rewrite PS, P; auto).
  clearbody s. destruct (regroup ns s F) as (ns' & -> & R). destruct (nights_eq _ _ R C AP) as (C' & AP' & L).
  unfold compute_nunique in H. rewrite nunique_nights in H by (auto; intros ? ? []). rewrite L in H.
  apply orb_true_iff in H. destruct H as [H|H]; [left; apply Nat.leb_le; auto|].
  apply andb_true_iff in H. destruct H as (H & H7). apply andb_true_iff in H. destruct H as (H1 & H2).
  right. split; [apply Nat.leb_le; auto|]. split.
  - apply C53_arc_proof in H1. eapply long_arc_perm; eauto.
  - assert (obs <> []) by (intros ->; cbn in PS; symmetry in PS; apply Permutation_nil in PS; rewrite PS in H2; discriminate).
    rewrite (is_window_unique _ _ _ (window_spec obs H) W) in H2.
    eapply triplet_eq; eauto. apply triplet_nights_sound; auto. destruct W as [(-> & _)|(-> & _)]; lra.
Qed.
Lemma discovered_complete : forall obs ns w,
  grouped ns (map time obs) -> is_window (map (distance2 x y z) obs) w ->
  (9 <= length ns)%nat \/ ((7 <= length ns)%nat /\ long_arc (map time obs) /\ shortest_triplet ns w) ->
  discovered time x y z obs = true.
Proof.
  intros obs ns w (P & S & C & AP) W H. unfold discovered.
  set (s := sort_by (fun t => t) (map time obs)) in *.
  assert (PS : Permutation s (map time obs)) by apply sort_by_perm.
  assert (SS : StronglySorted Qle s) by (apply (sort_by_sorted Q (fun t => t))).
  assert (F : Forall2 Qeq s (concat ns)) by (apply sorted_perm_Qeq; auto; rewrite PS, P; auto).
  clearbody s. destruct (regroup ns s F) as (ns' & -> & R). destruct (nights_eq _ _ R C AP) as (C' & AP' & L).
  unfold compute_nunique. rewrite nunique_nights by (auto; intros ? ? []). rewrite L.
  apply orb_true_iff. destruct H as [H|(H1 & H2 & H3)]; [left; apply Nat.leb_le; auto|right].
  rewrite !andb_true_iff. split; [|apply Nat.leb_le; auto]. split.
  - apply C53_arc_proof. eapply long_arc_perm; [symmetry; exact PS|auto].
  - assert (obs <> []).
    { intros ->. cbn in H2. destruct H2 as (f & l & [] & _). }
    rewrite (is_window_unique _ _ _ (window_spec obs H) W).
    apply triplet_nights_complete; auto; [destruct W as [(-> & _)|(-> & _)]; lra|]. eapply shortest_eq; eauto.
Qed.

Lemma filter_rows : forall (sort_values : list A -> list A) obs,
  DESDiscoveryFilter objid time x y z sort_values obs
  = sort_values (filter (fun r => discovered time x y z (filter (fun q => String.eqb (objid q) (objid r)) obs)) obs).
Proof.
  intros sv obs. unfold DESDiscoveryFilter. f_equal. apply filter_ext_in. intros r R.
  destruct (discovered time x y z (filter (fun q => String.eqb (objid q) (objid r)) obs)) eqn:D.
  - apply existsb_exists. exists (objid r). split; [|apply String.eqb_refl]. apply filter_In. split; [|exact D].
    apply nodup_In, in_map, R.
  - destruct (existsb _ _) eqn:E; auto. apply existsb_exists in E. destruct E as (o & O & EQ). apply String.eqb_eq in EQ. subst o.
    apply filter_In in O. destruct O as (_ & O). congruence.
Qed.
End Filter.

Lemma filter_selected : forall A (objid : A -> string) o obs l,
  selected (fun r => objid r = o) obs l -> l = filter (fun r => String.eqb (objid r) o) obs.
Proof.
  intros A objid o obs l H. eapply selected_functional; [exact H|]. apply selected_filter. intros r _. apply String.eqb_eq.
Qed.

(** All detections of an object are kept or none, each as often as before, in
    order of time. *)
Lemma C53_per_object_proof : forall A (objid : A -> string) (time x y z : A -> Q) sort_values obs,
  (forall l, Permutation (sort_values l) l /\ StronglySorted (fun a b => time a <= time b) (sort_values l)) ->
  exists kept : string -> Prop, exists chosen,
    selected (fun r => kept (objid r)) obs chosen
    /\ Permutation (DESDiscoveryFilter objid time x y z sort_values obs) chosen
    /\ StronglySorted (fun a b => time a <= time b) (DESDiscoveryFilter objid time x y z sort_values obs).
Proof.
  intros A objid time x y z sv obs H. rewrite filter_rows.
  exists (fun o => discovered time x y z (filter (fun q => String.eqb (objid q) o) obs) = true).
  eexists. split; [|split; [apply H|apply H]]. apply selected_filter. intros r _. tauto.
Qed.

(** A kept object meets the documented criteria. *)
Lemma C53_sound_proof : forall A (objid : A -> string) (time x y z : A -> Q) sort_values obs r mine ns w,
  (forall l, Permutation (sort_values l) l) ->
  selected (fun q => objid q = objid r) obs mine -> grouped ns (map time mine) ->
  is_window (map (fun q => x q * x q + y q * y q + z q * z q) mine) w ->
  In r (DESDiscoveryFilter objid time x y z sort_values obs) ->
  (9 <= length ns)%nat \/ ((7 <= length ns)%nat /\ long_arc (map time mine) /\ triplet ns w).
Proof.
  intros A objid time x y z sv obs r mine ns w P S G W I. rewrite filter_rows in I.
  eapply Permutation_in in I; [|apply P]. apply filter_In in I. destruct I as (I & D).
  rewrite <- (filter_selected _ objid (objid r) obs mine S) in D. eapply discovered_sound; eauto.
Qed.

(** An object seen on nine nights is kept, and so is one that meets the second
    criterion by a triple shorter than all earlier ones. *)
Lemma C53_complete_proof : forall A (objid : A -> string) (time x y z : A -> Q) sort_values obs r mine ns w,
  (forall l, Permutation (sort_values l) l) ->
  selected (fun q => objid q = objid r) obs mine -> grouped ns (map time mine) ->
  is_window (map (fun q => x q * x q + y q * y q + z q * z q) mine) w ->
  In r obs ->
  (9 <= length ns)%nat \/ ((7 <= length ns)%nat /\ long_arc (map time mine) /\ shortest_triplet ns w) ->
  In r (DESDiscoveryFilter objid time x y z sort_values obs).
Proof.
  intros A objid time x y z sv obs r mine ns w P S G W I H. rewrite filter_rows.
  eapply Permutation_in; [symmetry; apply P|]. apply filter_In. split; auto.
  rewrite <- (filter_selected _ objid (objid r) obs mine S). eapply discovered_complete; eauto.
Qed.

(** Seven nights, an arc of 610 days and three nights 50 days apart, at 40 au:
    not discovered, because the short first gap of 10 days hides the triplet. *)
Lemma C53_missed_refuted_proof : forall (sort_values : list (string * Q) -> list (string * Q)),
  (forall l, Permutation (sort_values l) l) ->
  let obs := map (fun t => ("a"%string, t)) [0; 10; 110; 160; 210; 410; 610] in
  let ns := map (fun t => [t]) [0; 10; 110; 160; 210; 410; 610] in
  let far := fun _ : string * Q => 40 * (1495978707 # 10) in
  let nought := fun _ : string * Q => 0 in
  grouped ns (map snd obs) /\ length ns = 7%nat /\ long_arc (map snd obs) /\ triplet ns 60
  /\ is_window (map (fun q => far q * far q + nought q * nought q + nought q * nought q) obs) 60
  /\ DESDiscoveryFilter fst snd far nought nought sort_values obs = [].
Proof.
  intros sv P obs ns far nought. split; [|split; [reflexivity|split; [|split; [|split]]]].
  - unfold grouped. cbn. split; [reflexivity|]. split; [repeat constructor; cbv; discriminate|]. split.
    + repeat constructor; try discriminate; intros a b [<-|[]] [<-|[]]; reflexivity.
    + repeat constructor; intros a b [<-|[]] [<-|[]]; reflexivity.
  - apply C53_arc_proof. vm_compute. reflexivity.
  - exists [[0]; [10]], [110], [160], [210], [[410]; [610]], 110, 160, 210. repeat split.
  - right. split; auto. eexists. split; [left; reflexivity|]. reflexivity.
  - rewrite filter_rows. assert (E : filter (fun r => discovered snd far nought nought (filter (fun q => String.eqb (fst q) (fst r)) obs)) obs = []).
    { vm_compute. reflexivity. }
    rewrite E. specialize (P []). symmetry in P. apply Permutation_nil in P. exact P.
Qed.
