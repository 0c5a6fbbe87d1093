(** Proofs about cameras made of equal CCDs. *)
From Coq Require Import String List Arith Bool ZArith QArith Lia Lqa Permutation Sorted.
From Verif Require Import Base.Prelude Base.Frame Base.Sort Model.VisitsFootprint Spec.Bricks Proofs.VisitsFootprint.
Import ListNotations.
Open Scope Q_scope.

(** ** Distances in one coordinate *)
Lemma below_far : forall q x, 0 < x -> q <= 0 -> x * x <= (q - x) * (q - x).
Proof. intros. nra. Qed.
Lemma below_far_s : forall q x, 0 < x -> q < 0 -> x * x < (q - x) * (q - x).
Proof. intros. nra. Qed.
Lemma above_far : forall q x w, x < w -> w <= q -> (w - x) * (w - x) <= (q - x) * (q - x).
Proof. intros. nra. Qed.
Lemma above_far_s : forall q x w, x < w -> w < q -> (w - x) * (w - x) < (q - x) * (q - x).
Proof. intros. nra. Qed.

(** A point [q] is no farther from the point (x, y) than the five points of the
    CCD [0, 2a] x [0, 2b] are. *)
Definition rival (a b x y qx qy : Q) : Prop :=
  let d := (qx - x) * (qx - x) + (qy - y) * (qy - y) in
  d <= x * x + y * y /\ d <= (2 * a - x) * (2 * a - x) + y * y /\ d <= x * x + (2 * b - y) * (2 * b - y)
  /\ d <= (2 * a - x) * (2 * a - x) + (2 * b - y) * (2 * b - y) /\ d <= (a - x) * (a - x) + (b - y) * (b - y).

Section Geometry.
Variables a b x y : Q.
Hypotheses (X0 : 0 < x) (X1 : x < 2 * a) (Y0 : 0 < y) (Y1 : y < 2 * b).

Lemma rival_x : forall qx qy, qx < 0 \/ 2 * a < qx -> qy <= 0 \/ 2 * b <= qy -> ~ rival a b x y qx qy.
Proof.
  intros qx qy A B (R1 & R2 & R3 & R4 & _).
  destruct A as [A|A], B as [B|B].
  - pose proof (below_far_s qx x X0 A). pose proof (below_far qy y Y0 B). lra.
  - pose proof (below_far_s qx x X0 A). pose proof (above_far qy y (2 * b) Y1 B). lra.
  - pose proof (above_far_s qx x (2 * a) X1 A). pose proof (below_far qy y Y0 B). lra.
  - pose proof (above_far_s qx x (2 * a) X1 A). pose proof (above_far qy y (2 * b) Y1 B). lra.
Qed.
Lemma rival_y : forall qx qy, qx <= 0 \/ 2 * a <= qx -> qy < 0 \/ 2 * b < qy -> ~ rival a b x y qx qy.
Proof.
  intros qx qy A B (R1 & R2 & R3 & R4 & _).
  destruct A as [A|A], B as [B|B].
  - pose proof (below_far qx x X0 A). pose proof (below_far_s qy y Y0 B). lra.
  - pose proof (below_far qx x X0 A). pose proof (above_far_s qy y (2 * b) Y1 B). lra.
  - pose proof (above_far qx x (2 * a) X1 A). pose proof (below_far_s qy y Y0 B). lra.
  - pose proof (above_far qx x (2 * a) X1 A). pose proof (above_far_s qy y (2 * b) Y1 B). lra.
Qed.
(** The centre of another CCD in the same row or column. *)
Lemma rival_centre_row : forall qx qy, qx < - a \/ 3 * a < qx -> qy == b -> ~ rival a b x y qx qy.
Proof.
  intros qx qy A B (_ & _ & _ & _ & R).
  assert (E : (qy - y) * (qy - y) == (b - y) * (b - y)) by (rewrite B; ring).
  assert (L : (a - x) * (a - x) < (qx - x) * (qx - x)); [|lra]. destruct A as [A|A]; nra.
Qed.
Lemma rival_centre_column : forall qx qy, qx == a -> qy < - b \/ 3 * b < qy -> ~ rival a b x y qx qy.
Proof.
  intros qx qy B A (_ & _ & _ & _ & R).
  assert (E : (qx - x) * (qx - x) == (a - x) * (a - x)) by (rewrite B; ring).
  assert (L : (b - y) * (b - y) < (qy - y) * (qy - y)); [|lra]. destruct A as [A|A]; nra.
Qed.

(** A corner of a CCD shifted by half a width, the gap being [2c]. *)
Variable c : Q.
Hypotheses (G : 0 < c) (GW : c * (a + c) <= b * b).

Lemma half_shift : forall t, t < a ->
  (c - t) * (c - t) + b * b < t * t -> (c - t) * (c - t) < (a - t) * (a - t) -> False.
Proof.
  intros t T H1 H2.
  assert (A : 0 < a) by lra.
  assert (K : c * c + b * b < 2 * (c * t)) by lra.
  assert (C : 0 < c * c) by (apply Qmult_lt_0_compat; auto).
  destruct (Qlt_le_dec c a) as [L|L].
  - assert (M : 2 * t < a + c).
    { destruct (Qlt_le_dec (2 * t) (a + c)) as [Z|Z]; auto. exfalso.
      assert (0 <= (a - c) * (2 * t - (a + c))) by (apply Qmult_le_0_compat; lra). lra. }
    assert (0 < c * (a + c - 2 * t)) by (apply Qmult_lt_0_compat; lra). lra.
  - assert (0 < c * (a - t)) by (apply Qmult_lt_0_compat; lra). assert (0 <= c * (c - a)) by (apply Qmult_le_0_compat; lra). lra.
Qed.
Lemma rival_shift : forall qx qy, qx == a + c \/ qx == a - c ->
  (y <= b /\ (qy < - (2 * b) \/ 2 * b < qy)) \/ (b <= y /\ (qy < 0 \/ 4 * b < qy)) -> ~ rival a b x y qx qy.
Proof.
  intros qx qy A B (R1 & R2 & R3 & R4 & R5).
  assert (F : exists D e, D == (qy - y) * (qy - y) /\ e < D /\ (b - y) * (b - y) + b * b < D
     /\ (qx - x) * (qx - x) + D <= x * x + e /\ (qx - x) * (qx - x) + D <= (2 * a - x) * (2 * a - x) + e).
  { destruct B as [[Y B]|[Y B]].
    - exists ((qy - y) * (qy - y)), (y * y). split; [reflexivity|].
      assert ((2 * b - y) * (2 * b - y) < (qy - y) * (qy - y)) by (destruct B; nra).
      split; [nra|split; [nra|auto]].
    - exists ((qy - y) * (qy - y)), ((2 * b - y) * (2 * b - y)). split; [reflexivity|].
      assert (y * y < (qy - y) * (qy - y)) by (destruct B; nra).
      split; [nra|split; [nra|auto]]. }
  destruct F as (D & e & F0 & F1 & F2 & F3 & F4).
  assert (R6 : (qx - x) * (qx - x) + b * b < (a - x) * (a - x)).
  { destruct B as [[Y B]|[Y B]]; lra. }
  destruct A as [A|A].
  - apply (half_shift (x - a)); [lra| |].
    + rewrite A in R6. lra.
    + rewrite A in F4. lra.
  - apply (half_shift (a - x)); [lra| |].
    + rewrite A in R6. lra.
    + rewrite A in F3. lra.
Qed.
End Geometry.
Lemma rival_shift_ : forall a b c x y, 0 < x -> x < 2 * a -> 0 < y -> y < 2 * b -> 0 < c -> c * (a + c) <= b * b -> forall qx qy,
  qx == a + c \/ qx == a - c -> (y <= b /\ (qy < - (2 * b) \/ 2 * b < qy)) \/ (b <= y /\ (qy < 0 \/ 4 * b < qy)) -> ~ rival a b x y qx qy.
Proof. intros. eapply rival_shift; eauto. Qed.

(** ** The three nearest points *)
Lemma sorted_split : forall A (key : A -> Q) (l r : list A) x y,
  StronglySorted (fun a b => key a <= key b) (l ++ r) -> In x l -> In y r -> key x <= key y.
Proof.
  intros A key l. induction l as [|z l IH]; intros r x y S I J; [destruct I|].
  inversion S as [|? ? S' F]; subst. destruct I as [I|I]; [subst z|eauto].
  rewrite Forall_forall in F. apply F. apply in_or_app. auto.
Qed.
Lemma combine_seq_in : forall A (l : list A) s i x, In (i, x) (combine (seq s (length l)) l) <-> (s <= i)%nat /\ nth_error l (i - s) = Some x.
Proof.
  intros A l. induction l as [|y l IH]; intros s i x; cbn [length seq combine In].
  - split; [intros []|]. intros [_ H]. destruct (i - s)%nat; discriminate.
  - rewrite IH. split.
    + intros [E|[L N]].
      * inversion E; subst. split; [lia|]. rewrite Nat.sub_diag. reflexivity.
      * split; [lia|]. replace (i - s)%nat with (S (i - S s)) by lia. exact N.
    + intros [L N]. destruct (Nat.eq_dec i s) as [E|E].
      * subst. rewrite Nat.sub_diag in N. inversion N. auto.
      * right. split; [lia|]. replace (i - s)%nat with (S (i - S s)) in N by lia. exact N.
Qed.
Lemma nearest3 : forall (pts : list (Q * Q)) p (own : nat -> bool),
  (3 <= length pts)%nat -> (exists o, (o < length pts)%nat /\ own o = true) ->
  (forall i j k q r s, i <> j -> i <> k -> j <> k ->
     (forall n z, In (n, z) [(i, q); (j, r); (k, s)] -> own n = false /\ nth_error pts n = Some z
        /\ forall o u, own o = true -> nth_error pts o = Some u -> qdist2 z p <= qdist2 u p) -> False) ->
  exists i, own i = true /\ In i (kd_query pts 3 p).
Proof.
  intros pts p own L [o [Ho Oo]] H. unfold kd_query.
  set (key := fun q : nat * (Q * Q) => qdist2 (snd q) p).
  set (l := combine (seq 0 (length pts)) pts).
  assert (P : Permutation (sort_by key l) l) by apply sort_by_perm.
  assert (S : StronglySorted (fun a b => key a <= key b) (sort_by key l)) by apply sort_by_sorted.
  assert (M : forall n z, In (n, z) (sort_by key l) <-> nth_error pts n = Some z).
  { intros n z. transitivity (In (n, z) l); [split; apply Permutation_in; [|apply Permutation_sym]; exact P|].
    unfold l. rewrite combine_seq_in, Nat.sub_0_r. split; [tauto|]. intro; split; [lia|auto]. }
  assert (D : NoDup (map fst (sort_by key l))).
  { apply (Permutation_NoDup (l := seq 0 (length pts))); [|apply seq_NoDup].
    apply Permutation_sym. rewrite P. unfold l.
    assert (E : forall A B (x : list A) (y : list B), length x = length y -> map fst (combine x y) = x).
    { intros A B x. induction x; intros [|b y] E; cbn in *; try discriminate; auto. f_equal. apply IHx. congruence. }
    rewrite E; [apply Permutation_refl|apply seq_length]. }
  assert (N : length (sort_by key l) = length pts).
  { rewrite (Permutation_length P). unfold l. rewrite combine_length, seq_length. apply Nat.min_id. }
  destruct (sort_by key l) as [|[i q] [|[j r] [|[k s] rest]]] eqn:E; try (cbn in N; lia). clear E.
  cbn [firstn map fst].
  destruct (own i) eqn:Oi; [exists i; split; [auto|left; auto]|].
  destruct (own j) eqn:Oj; [exists j; split; [auto|right; left; auto]|].
  destruct (own k) eqn:Ok; [exists k; split; [auto|right; right; left; auto]|].
  exfalso. cbn [map fst] in D. inversion D as [|? ? D1 D']; subst. inversion D' as [|? ? D2 D'']; subst.
  apply (H i j k q r s).
  - intro; subst; apply D1; left; auto.
  - intro; subst; apply D1; right; left; auto.
  - intro; subst; apply D2; left; auto.
  - intros n z I. split; [|split].
    + destruct I as [I|[I|[I|[]]]]; inversion I; subst; auto.
    + apply M. destruct I as [I|[I|[I|[]]]]; inversion I; subst; cbn; auto.
    + intros o' u Oo' Hu. apply M in Hu.
      apply (sorted_split _ key [(i, q); (j, r); (k, s)] rest (n, z) (o', u)); auto.
      destruct Hu as [Hu|[Hu|[Hu|Hu]]]; auto; inversion Hu; subst; congruence.
Qed.

(** ** Points of the other CCDs *)
Lemma Zle_scaled : forall m n u, (m <= n)%Z -> 0 < u -> inject_Z m * u <= inject_Z n * u.
Proof. intros m n u H U. apply Qmult_le_compat_r; [rewrite <- Zle_Qle; auto|apply Qlt_le_weak; auto]. Qed.

Section Places.
Variables a b c v x y : Q.
Hypotheses (X0 : 0 < x) (X1 : x < 2 * a) (Y0 : 0 < y) (Y1 : y < 2 * b) (G : 0 < c) (V : 0 < v) (GW : c * (a + c) <= b * b).
Variables d k : Z.
Hypothesis A : k = 0%Z -> (2 <= Z.abs d)%Z.
Let D := inject_Z d * (a + c).
Let K := inject_Z k * (2 * b + v).

Lemma d_far : (2 <= Z.abs d)%Z -> D <= - (2 * (a + c)) \/ 2 * (a + c) <= D.
Proof.
  intro H. assert (U : 0 < a + c) by lra. unfold D. destruct (Z_le_gt_dec 0 d).
  - right. pose proof (Zle_scaled 2 d (a + c) ltac:(lia) U) as L. change (inject_Z 2) with 2 in L. lra.
  - left. pose proof (Zle_scaled d (-2) (a + c) ltac:(lia) U) as L. change (inject_Z (-2)) with (-(2)) in L. lra.
Qed.
Lemma k_far : k <> 0%Z -> K <= - (2 * b + v) \/ 2 * b + v <= K.
Proof.
  intro H. assert (U : 0 < 2 * b + v) by lra. unfold K. destruct (Z_le_gt_dec 0 k).
  - right. pose proof (Zle_scaled 1 k _ ltac:(lia) U) as L. change (inject_Z 1) with 1 in L. lra.
  - left. pose proof (Zle_scaled k (-1) _ ltac:(lia) U) as L. change (inject_Z (-1)) with (-(1)) in L. lra.
Qed.
Lemma k_far2 : k <> 0%Z -> k <> 1%Z -> k <> (-1)%Z -> K <= - (2 * (2 * b + v)) \/ 2 * (2 * b + v) <= K.
Proof.
  intros H H1 H2. assert (U : 0 < 2 * b + v) by lra. unfold K. destruct (Z_le_gt_dec 0 k).
  - right. pose proof (Zle_scaled 2 k _ ltac:(lia) U) as L. change (inject_Z 2) with 2 in L. lra.
  - left. pose proof (Zle_scaled k (-2) _ ltac:(lia) U) as L. change (inject_Z (-2)) with (-(2)) in L. lra.
Qed.
Lemma d_is : forall m, d = m -> D == inject_Z m * (a + c).
Proof. intros m H. unfold D. rewrite H. reflexivity. Qed.
Lemma k_is : forall m, k = m -> K == inject_Z m * (2 * b + v).
Proof. intros m H. unfold K. rewrite H. reflexivity. Qed.

Lemma rival_centre : ~ rival a b x y (D + a) (K + b).
Proof.
  destruct (Z.eq_dec k 0) as [E|E].
  - pose proof (k_is 0 E) as KE. change (inject_Z 0) with 0 in KE.
    destruct (d_far (A E)); apply rival_centre_row; auto; lra.
  - pose proof (k_far E) as KF. destruct (Z.eq_dec d 0) as [F|F].
    + pose proof (d_is 0 F) as DE. change (inject_Z 0) with 0 in DE. apply rival_centre_column; auto; lra.
    + assert (DF : D <= - (a + c) \/ a + c <= D).
      { assert (U : 0 < a + c) by lra. unfold D. destruct (Z_le_gt_dec 0 d).
        - right. pose proof (Zle_scaled 1 d _ ltac:(lia) U) as L. change (inject_Z 1) with 1 in L. lra.
        - left. pose proof (Zle_scaled d (-1) _ ltac:(lia) U) as L. change (inject_Z (-1)) with (-(1)) in L. lra. }
      apply rival_x; auto; lra.
Qed.
Definition across : Z := if Qle_bool y b then (-1)%Z else 1%Z.
Definition edge : Q := if Qle_bool y b then 2 * b else 0.
Lemma rival_corner : forall cx cy, cx == 0 \/ cx == 2 * a -> cy == 0 \/ cy == 2 * b -> rival a b x y (D + cx) (K + cy) ->
  k = across /\ cy == edge /\ ((d = 1%Z /\ cx == 0) \/ (d = (-1)%Z /\ cx == 2 * a)).
Proof.
  intros cx cy CX CY R.
  destruct (Z_le_gt_dec 2 (Z.abs d)) as [E|E].
  { exfalso. destruct (d_far E) as [F|F]; (destruct (Z.eq_dec k 0) as [Z|Z];
      [pose proof (k_is 0 Z) as KE; change (inject_Z 0) with 0 in KE|pose proof (k_far Z) as KF]);
      revert R; apply rival_x; auto; lra. }
  assert (Z : k <> 0%Z) by (intro Z; pose proof (A Z); lia).
  pose proof (k_far Z) as KF.
  assert (DC : d = 0%Z \/ d = 1%Z \/ d = (-1)%Z) by lia.
  assert (S : d <> 0%Z -> D + cx == a + c \/ D + cx == a - c -> k = across /\ cy == edge).
  { intros _ SX. unfold across, edge.
    pose proof (k_is 1) as K1. pose proof (k_is (-1)) as KM. change (inject_Z 1) with 1 in K1. change (inject_Z (-1)) with (-(1)) in KM.
    destruct (Qle_bool y b) eqn:Y.
    - apply Qle_bool_iff in Y.
      destruct (Qlt_le_dec (K + cy) (- (2 * b))) as [B1|B1]; [exfalso; revert R; apply (rival_shift_ a b c x y); auto|].
      destruct (Qlt_le_dec (2 * b) (K + cy)) as [B2|B2]; [exfalso; revert R; apply (rival_shift_ a b c x y); auto|].
      assert (KK : k = (-1)%Z).
      { destruct (Z.eq_dec k (-1)) as [|Z1]; auto. exfalso. destruct (Z.eq_dec k 1) as [Z2|Z2]; [specialize (K1 Z2); lra|].
        pose proof (k_far2 Z Z2 Z1). lra. }
      specialize (KM KK). split; auto. lra.
    - assert (Y' : b <= y) by (destruct (Qlt_le_dec y b) as [L|L]; auto; apply Qlt_le_weak, Qle_bool_iff in L; congruence).
      destruct (Qlt_le_dec (K + cy) 0) as [B1|B1]; [exfalso; revert R; apply (rival_shift_ a b c x y); auto|].
      destruct (Qlt_le_dec (4 * b) (K + cy)) as [B2|B2]; [exfalso; revert R; apply (rival_shift_ a b c x y); auto|].
      assert (KK : k = 1%Z).
      { destruct (Z.eq_dec k 1) as [|Z1]; auto. exfalso. destruct (Z.eq_dec k (-1)) as [Z2|Z2]; [specialize (KM Z2); lra|].
        pose proof (k_far2 Z Z1 Z2). lra. }
      specialize (K1 KK). split; auto. lra. }
  destruct DC as [F|[F|F]].
  - exfalso. pose proof (d_is 0 F) as DE. change (inject_Z 0) with 0 in DE. revert R. apply rival_y; auto; lra.
  - pose proof (d_is 1 F) as DE. change (inject_Z 1) with 1 in DE.
    destruct CX as [CX|CX]; [|exfalso; revert R; apply rival_x; auto; lra].
    destruct S; [lia|left; lra|]. auto.
  - pose proof (d_is (-1) F) as DE. change (inject_Z (-1)) with (-(1)) in DE.
    destruct CX as [CX|CX]; [exfalso; revert R; apply rival_x; auto; lra|].
    destruct S; [lia|right; lra|]. auto.
Qed.
End Places.

(** ** The five points of a CCD *)
Definition five (c : ccd) (t : nat) : option (Q * Q) := nth_error [c_center c; c_ll c; c_lr c; c_ur c; c_ul c] t.
Lemma points_nth : forall rows j t, (t < 5)%nat ->
  nth_error (ccd_points rows) (5 * j + t) = match nth_error rows j with Some c => five c t | None => None end.
Proof.
  intro rows. induction rows as [|c rows IH]; intros j t T.
  - destruct j; cbn; [destruct t; auto|]. reflexivity.
  - unfold ccd_points in *. cbn [flat_map]. destruct j as [|j].
    + cbn [nth_error Nat.mul Nat.add]. unfold five. rewrite nth_error_app1; auto.
    + rewrite nth_error_app2 by (cbn; lia). replace (5 * S j + t - length [c_center c; c_ll c; c_lr c; c_ur c; c_ul c])%nat with (5 * j + t)%nat by (cbn [length]; lia).
      rewrite IH by auto. reflexivity.
Qed.
Lemma points_length : forall rows, length (ccd_points rows) = (5 * length rows)%nat.
Proof. intro rows. unfold ccd_points. induction rows; cbn [flat_map]; auto. rewrite app_length, IHrows. cbn [length]. lia. Qed.

Lemma div5 : forall j t, (t < 5 -> (5 * j + t) / 5 = j)%nat.
Proof. intros j t T. rewrite Nat.mul_comm, Nat.div_add_l by lia. rewrite Nat.div_small by auto. lia. Qed.

Definition cornerx (e : bool) (w : Q) (t : nat) : Q :=
  match t with 1%nat | 4%nat => if e then w else 0 | _ => if e then 0 else w end.
Definition cornery (h : Q) (t : nat) : Q := match t with 1%nat | 2%nat => 0 | _ => h end.
Lemma outline_points : forall X Y w h c, outline X Y w h c -> exists e,
  (exists z, five c 0 = Some z /\ same_point z (X + w / 2, Y + h / 2)) /\
  forall t, (0 < t < 5)%nat -> exists z, five c t = Some z /\ same_point z (X + cornerx e w t, Y + cornery h t).
Proof.
  intros X Y w h c [C O].
  destruct O as [(O1 & O2 & O3 & O4)|(O1 & O2 & O3 & O4)]; [exists false|exists true]; (split; [exists (c_center c); auto|]);
    intros t T; destruct t as [|[|[|[|[|t]]]]]; try lia; cbn [cornerx cornery five nth_error]; eexists; (split; [reflexivity|]);
    unfold same_point in *; cbn [fst snd] in *; repeat match goal with H : _ /\ _ |- _ => destruct H end; split; lra.
Qed.
Lemma corners_differ : forall e w h t u, 0 < w -> 0 < h -> (0 < t < 5)%nat -> (0 < u < 5)%nat ->
  cornerx e w t == cornerx e w u -> cornery h t == cornery h u -> t = u.
Proof.
  intros e w h t u W H T U.
  destruct t as [|[|[|[|[|t]]]]]; try lia; destruct u as [|[|[|[|[|u]]]]]; try lia; auto; destruct e; cbn [cornerx cornery]; intros; lra.
Qed.

(** ** The CCD a point is on is a candidate *)
Lemma rival_compat : forall a b x y qx qx' qy qy', qx == qx' -> qy == qy' -> rival a b x y qx qy -> rival a b x y qx' qy'.
Proof. intros a b x y qx qx' qy qy' E F R. unfold rival in *. cbv zeta in *. rewrite <- E, <- F. exact R. Qed.

Section Camera.
Variables (rows : list ccd) (x0 y0 w g h v : Q) (place : nat -> Z * Z).
Hypotheses (W : 0 < w) (Gp : 0 < g) (Hp : 0 < h) (Vp : 0 < v) (GW : g * (w + g) <= h * h).
Let X i := x0 + inject_Z (fst (place i)) * ((w + g) / 2).
Let Y i := y0 + inject_Z (snd (place i)) * (h + v).
Hypothesis O : forall i c, nth_error rows i = Some c -> outline (X i) (Y i) w h c.
Hypothesis P : forall i j, (i < length rows)%nat -> (j < length rows)%nat -> i <> j -> snd (place i) = snd (place j) ->
  (2 <= Z.abs (fst (place i) - fst (place j)))%Z.
Variables (i : nat) (ci : ccd) (px py : Q).
Hypotheses (Hi : nth_error rows i = Some ci) (PX0 : X i < px) (PX1 : px < X i + w) (PY0 : Y i < py) (PY1 : py < Y i + h).

Let a := w / 2.
Let b := h / 2.
Let c := g / 2.
Let wa : w == 2 * a. Proof. unfold a. field. Qed.
Let hb : h == 2 * b. Proof. unfold b. field. Qed.
Let gc : g == 2 * c. Proof. unfold c. field. Qed.
Let ac : (w + g) / 2 == a + c. Proof. unfold a, c. field. Qed.
Let x := px - X i.
Let y := py - Y i.

Lemma own_rival : forall q, (forall t u, (t < 5)%nat -> five ci t = Some u -> qdist2 q (px, py) <= qdist2 u (px, py)) ->
  rival a b x y (fst q - X i) (snd q - Y i).
Proof.
  intros q R. destruct (outline_points _ _ _ _ _ (O _ _ Hi)) as (e & (z0 & F0 & S0) & C).
  assert (B : forall cx cy, (exists t z, (t < 5)%nat /\ five ci t = Some z /\ same_point z (X i + cx, Y i + cy)) ->
    (fst q - X i - x) * (fst q - X i - x) + (snd q - Y i - y) * (snd q - Y i - y) <= (cx - x) * (cx - x) + (cy - y) * (cy - y)).
  { intros cx cy (t & z & T & F & [S1 S2]). pose proof (R t z T F) as L. unfold qdist2 in L. cbn [fst snd] in L, S1, S2. rewrite S1, S2 in L.
    unfold x, y. lra. }
  assert (K : forall cx cy, (cx == 0 \/ cx == 2 * a) -> (cy == 0 \/ cy == 2 * b) -> exists t z, (t < 5)%nat /\ five ci t = Some z /\ same_point z (X i + cx, Y i + cy)).
  { intros cx cy CX CY.
    assert (T : exists t, (0 < t < 5)%nat /\ cornerx e w t == cx /\ cornery h t == cy).
    { destruct CX as [CX|CX], CY as [CY|CY]; destruct e.
      - exists 2%nat. cbn. split; [lia|]. split; lra.
      - exists 1%nat. cbn. split; [lia|]. split; lra.
      - exists 3%nat. cbn. split; [lia|]. split; lra.
      - exists 4%nat. cbn. split; [lia|]. split; lra.
      - exists 1%nat. cbn. split; [lia|]. split; lra.
      - exists 2%nat. cbn. split; [lia|]. split; lra.
      - exists 4%nat. cbn. split; [lia|]. split; lra.
      - exists 3%nat. cbn. split; [lia|]. split; lra. }
    destruct T as (t & T & E1 & E2). destruct (C t T) as (z & F & S1 & S2). exists t, z. split; [lia|]. split; auto.
    unfold same_point in *. cbn [fst snd] in *. rewrite <- E1, <- E2. auto. }
  pose proof (B 0 0 (K 0 0 ltac:(left; reflexivity) ltac:(left; reflexivity))).
  pose proof (B (2 * a) 0 (K _ _ ltac:(right; reflexivity) ltac:(left; reflexivity))).
  pose proof (B 0 (2 * b) (K _ _ ltac:(left; reflexivity) ltac:(right; reflexivity))).
  pose proof (B (2 * a) (2 * b) (K _ _ ltac:(right; reflexivity) ltac:(right; reflexivity))).
  assert (Z : exists t z, (t < 5)%nat /\ five ci t = Some z /\ same_point z (X i + a, Y i + b)) by (exists 0%nat, z0; split; [lia|auto]).
  pose proof (B a b Z). clear B K R.
  unfold rival. repeat split; lra.
Qed.

Lemma place_inj : forall j k, (j < length rows)%nat -> (k < length rows)%nat -> fst (place j) = fst (place k) -> snd (place j) = snd (place k) -> j = k.
Proof. intros j k J K E F. destruct (Nat.eq_dec j k) as [|N]; auto. pose proof (P j k J K N F). rewrite E in *. lia. Qed.

Lemma foreign_rival : forall j cj t z, nth_error rows j = Some cj -> j <> i -> (t < 5)%nat -> five cj t = Some z ->
  rival a b x y (fst z - X i) (snd z - Y i) ->
  snd (place j) = (snd (place i) + across b y)%Z /\ (0 < t)%nat /\ snd z == Y j + edge b y /\
  ((fst (place j) = (fst (place i) + 1)%Z /\ fst z == X j) \/ (fst (place j) = (fst (place i) - 1)%Z /\ fst z == X j + w)).
Proof.
  intros j cj t z Hj N T F R.
  destruct (outline_points _ _ _ _ _ (O _ _ Hj)) as (e & (z0 & F0 & S0) & C).
  set (d := (fst (place j) - fst (place i))%Z). set (k := (snd (place j) - snd (place i))%Z).
  assert (XD : X j == X i + inject_Z d * (a + c)).
  { unfold X, d. rewrite ac. unfold Z.sub. rewrite inject_Z_plus, inject_Z_opp. ring. }
  assert (YD : Y j == Y i + inject_Z k * (2 * b + v)).
  { unfold Y, k. rewrite hb. unfold Z.sub. rewrite inject_Z_plus, inject_Z_opp. ring. }
  assert (A : k = 0%Z -> (2 <= Z.abs d)%Z).
  { intro K. apply P; auto; try (apply nth_error_Some; congruence). unfold k in K. lia. }
  assert (GC : c * (a + c) <= b * b).
  { assert (E1 : g * (w + g) == 4 * (c * (a + c))) by (rewrite wa, gc; ring). assert (E2 : h * h == 4 * (b * b)) by (rewrite hb; ring). lra. }
  assert (x > 0) by (unfold x; lra). assert (x < 2 * a) by (unfold x; lra).
  assert (y > 0) by (unfold y; lra). assert (y < 2 * b) by (unfold y; lra).
  assert (0 < c) by lra.
  destruct t as [|t].
  - exfalso. rewrite F0 in F. inversion F; subst z0. destruct S0 as [S1 S2]. cbn [fst snd] in S1, S2. fold a in S1. fold b in S2.
    apply (rival_centre a b c v x y) with (d := d) (k := k); auto.
    eapply rival_compat; [| |exact R]; lra.
  - destruct (C (S t) ltac:(lia)) as (z' & F' & S1 & S2). rewrite F in F'. inversion F'; subst z'. cbn [fst snd] in S1, S2.
    destruct (rival_corner a b c v x y) with (d := d) (k := k) (cx := cornerx e w (S t)) (cy := cornery h (S t)) as (K & EY & EX); auto.
    + assert (cornerx e w (S t) = 0 \/ cornerx e w (S t) = w) as [E|E] by (destruct e, t as [|[|[|[|t]]]]; cbn; auto); rewrite E; [left; reflexivity|right; exact wa].
    + assert (cornery h (S t) = 0 \/ cornery h (S t) = h) as [E|E] by (destruct t as [|[|t]]; cbn; auto); rewrite E; [left; reflexivity|right; exact hb].
    + eapply rival_compat; [| |exact R]; lra.
    + split; [unfold k in K; lia|]. split; [lia|]. split; [lra|].
      destruct EX as [[D EX]|[D EX]]; [left|right]; (split; [unfold d in D; lia|lra]).
Qed.

Lemma own_near : (1 < length rows)%nat -> In i (candidates 3 rows [(px, py)]).
Proof.
  intro L. unfold candidates. apply Nat.ltb_lt in L as L'. rewrite L'. apply nodup_In. cbn [flat_map]. rewrite app_nil_r.
  pose proof (points_length rows) as PL. replace (Nat.min 3 (length (ccd_points rows))) with 3%nat by lia.
  assert (Li : (i < length rows)%nat) by (apply nth_error_Some; congruence).
  assert (S5 : forall n, exists j t, n = (5 * j + t)%nat /\ (t < 5)%nat /\ (n / 5 = j)%nat).
  { intro n. exists (n / 5)%nat, (n mod 5)%nat. split; [apply Nat.div_mod; lia|]. split; [apply Nat.mod_upper_bound; lia|reflexivity]. }
  destruct (nearest3 (ccd_points rows) (px, py) (fun n => n / 5 =? i)%nat) as (n & E & I).
  - lia.
  - exists (5 * i + 0)%nat. split; [lia|]. apply Nat.eqb_eq. apply div5. lia.
  - intros n1 n2 n3 z1 z2 z3 N12 N13 N23 H.
    assert (Q : forall n z, In (n, z) [(n1, z1); (n2, z2); (n3, z3)] -> exists j t cj, n = (5 * j + t)%nat /\ (t < 5)%nat /\ nth_error rows j = Some cj /\ five cj t = Some z /\
       snd (place j) = (snd (place i) + across b y)%Z /\ (0 < t)%nat /\ snd z == Y j + edge b y /\
       ((fst (place j) = (fst (place i) + 1)%Z /\ fst z == X j) \/ (fst (place j) = (fst (place i) - 1)%Z /\ fst z == X j + w))).
    { intros n z I. destruct (H n z I) as (E & Hn & R). destruct (S5 n) as (j & t & En & T & Dj). exists j, t.
      rewrite En, (points_nth rows j t T) in Hn. destruct (nth_error rows j) as [cj|] eqn:Hj; [|discriminate]. exists cj.
      repeat (split; [auto; fail|]). apply (foreign_rival j cj t z); auto.
      - intro. subst j. apply Nat.eqb_neq in E. congruence.
      - apply own_rival. intros u q U Hu. apply (R (5 * i + u)%nat).
        + apply Nat.eqb_eq, div5. auto.
        + rewrite points_nth by auto. rewrite Hi. exact Hu. }
    assert (U : forall n z m u, In (n, z) [(n1, z1); (n2, z2); (n3, z3)] -> In (m, u) [(n1, z1); (n2, z2); (n3, z3)] -> n <> m ->
       exists j k, (n / 5 = j /\ m / 5 = k)%nat /\ ((fst (place j) = (fst (place i) + 1)%Z /\ fst (place k) = (fst (place i) - 1)%Z) \/ (fst (place j) = (fst (place i) - 1)%Z /\ fst (place k) = (fst (place i) + 1)%Z))).
    { intros n z m u In1 In2 N.
      destruct (Q n z In1) as (j & t & cj & E1 & T1 & Hj & F1 & P1 & Z1 & Y1 & D1).
      destruct (Q m u In2) as (k & s & ck & E2 & T2 & Hk & F2 & P2 & Z2 & Y2 & D2).
      exists j, k. split; [split; [rewrite E1|rewrite E2]; apply div5; auto|].
      assert (Same : fst (place j) = fst (place k) -> fst z - X j == fst u - X k -> False).
      { intros Ej Ez. apply N. assert (j = k).
        { apply place_inj; auto; try (apply nth_error_Some; congruence). congruence. }
        subst k. rewrite Hk in Hj. inversion Hj; subst ck. destruct (outline_points _ _ _ _ _ (O _ _ Hk)) as (e & _ & C).
        destruct (C t ltac:(lia)) as (z' & F' & A1 & A2). rewrite F1 in F'. inversion F'; subst z'.
        destruct (C s ltac:(lia)) as (u' & F'' & B1 & B2). rewrite F2 in F''. inversion F''; subst u'. cbn [fst snd] in *.
        assert (t = s) by (apply (corners_differ e w h); auto; lra || lia). lia. }
      destruct D1 as [[D1 G1]|[D1 G1]], D2 as [[D2 G2]|[D2 G2]]; auto; exfalso; apply Same; try congruence; lra. }
    destruct (U n1 z1 n2 z2 ltac:(cbn; auto) ltac:(cbn; auto) N12) as (j1 & j2 & [J1 J2] & D12).
    destruct (U n1 z1 n3 z3 ltac:(cbn; auto) ltac:(cbn; auto) N13) as (j1' & j3 & [J1' J3] & D13).
    destruct (U n2 z2 n3 z3 ltac:(cbn; auto) ltac:(cbn; auto) N23) as (j2' & j3' & [J2' J3'] & D23).
    subst. lia.
  - apply Nat.eqb_eq in E. apply in_map_iff. exists n. auto.
Qed.
End Camera.

(** ** Inside a CCD *)
Lemma Qltb_iff : forall p q, Qltb p q = true <-> p < q.
Proof.
  intros p q. unfold Qltb. rewrite negb_true_iff. split; intro H.
  - apply Qnot_le_lt. intro L. apply Qle_bool_iff in L. congruence.
  - apply not_true_is_false. intro L. apply Qle_bool_iff in L. apply (Qle_not_lt _ _ L H).
Qed.
Lemma pos_scaled : forall s z, 0 < s -> (0 < s * z <-> 0 < z).
Proof.
  intros s z S. split; intro H; [|apply Qmult_lt_0_compat; auto].
  apply Qnot_le_lt. intro L. assert (0 <= s * - z) by (apply Qmult_le_0_compat; lra). lra.
Qed.
Lemma contains_outline : forall X Y w h c px py, 0 < w -> 0 < h -> outline X Y w h c ->
  (contains c (px, py) = true <-> X < px /\ px < X + w /\ Y < py /\ py < Y + h).
Proof.
  intros X Y w h c px py W H [_ O]. unfold contains. cbv zeta. rewrite orb_true_iff. cbn [forallb]. rewrite !andb_true_iff, !Qltb_iff.
  unfold qside. unfold same_point in O. cbn [fst snd] in *.
  destruct O as [([A1 B1] & [A2 B2] & [A3 B3] & [A4 B4])|([A1 B1] & [A2 B2] & [A3 B3] & [A4 B4])]; rewrite A1, A2, A3, A4, B1, B2, B3, B4; clear A1 A2 A3 A4 B1 B2 B3 B4.
  - pose proof (pos_scaled w (py - Y) W). pose proof (pos_scaled w (Y + h - py) W). pose proof (pos_scaled h (px - X) H). pose proof (pos_scaled h (X + w - px) H).
    split.
    + intros [(L1 & L2 & L3 & L4 & _)|(L1 & L2 & L3 & L4 & _)].
      * assert (0 < w * (py - Y)) by lra. assert (0 < w * (Y + h - py)) by lra. assert (0 < h * (px - X)) by lra. assert (0 < h * (X + w - px)) by lra. repeat split; lra || (apply Qlt_minus_iff; intuition lra).
      * exfalso. assert (0 < w * h) by (apply Qmult_lt_0_compat; auto). lra.
    + intros (L1 & L2 & L3 & L4). left.
      assert (0 < w * (py - Y)) by (apply Qmult_lt_0_compat; lra). assert (0 < w * (Y + h - py)) by (apply Qmult_lt_0_compat; lra).
      assert (0 < h * (px - X)) by (apply Qmult_lt_0_compat; lra). assert (0 < h * (X + w - px)) by (apply Qmult_lt_0_compat; lra).
      repeat split; lra.
  - pose proof (pos_scaled w (py - Y) W). pose proof (pos_scaled w (Y + h - py) W). pose proof (pos_scaled h (px - X) H). pose proof (pos_scaled h (X + w - px) H).
    split.
    + intros [(L1 & L2 & L3 & L4 & _)|(L1 & L2 & L3 & L4 & _)].
      * exfalso. assert (0 < w * h) by (apply Qmult_lt_0_compat; auto). lra.
      * assert (0 < w * (py - Y)) by lra. assert (0 < w * (Y + h - py)) by lra. assert (0 < h * (px - X)) by lra. assert (0 < h * (X + w - px)) by lra. repeat split; lra || (apply Qlt_minus_iff; intuition lra).
    + intros (L1 & L2 & L3 & L4). right.
      assert (0 < w * (py - Y)) by (apply Qmult_lt_0_compat; lra). assert (0 < w * (Y + h - py)) by (apply Qmult_lt_0_compat; lra).
      assert (0 < h * (px - X)) by (apply Qmult_lt_0_compat; lra). assert (0 < h * (X + w - px)) by (apply Qmult_lt_0_compat; lra).
      repeat split; lra.
Qed.
Lemma on_outline : forall X Y w h c px py, 0 < w -> 0 < h -> outline X Y w h c ->
  (on_ccd c px py <-> X < px /\ px < X + w /\ Y < py /\ py < Y + h).
Proof.
  intros X Y w h c px py W H [_ O]. unfold on_ccd. unfold same_point in O. cbn [fst snd] in *.
  destruct O as [([A1 B1] & [A2 B2] & [A3 B3] & [A4 B4])|([A1 B1] & [A2 B2] & [A3 B3] & [A4 B4])]; rewrite A1, A3, B1, B3; split.
  - intros [[L|L] M]; repeat split; lra.
  - intros (L1 & L2 & L3 & L4). split; [left|]; split; lra.
  - intros [[L|L] M]; repeat split; lra.
  - intros (L1 & L2 & L3 & L4). split; [right|]; split; lra.
Qed.

Lemma camera_contains : forall rows i c px py, camera rows -> nth_error rows i = Some c -> (contains c (px, py) = true <-> on_ccd c px py).
Proof.
  intros rows i c px py (x0 & y0 & w & g & h & v & place & W & G & H & V & GW & O & P) Hi. specialize (O i c Hi).
  rewrite (contains_outline _ _ _ _ _ _ _ W H O), (on_outline _ _ _ _ _ _ _ W H O). reflexivity.
Qed.
Lemma camera_apart : forall rows i j c d px py, camera rows -> nth_error rows i = Some c -> nth_error rows j = Some d ->
  on_ccd c px py -> on_ccd d px py -> i = j.
Proof.
  intros rows i j c d px py (x0 & y0 & w & g & h & v & place & W & G & H & V & GW & O & P) Hi Hj Ci Dj.
  destruct (Nat.eq_dec i j) as [|N]; auto. exfalso.
  apply (on_outline _ _ _ _ _ _ _ W H (O _ _ Hi)) in Ci. apply (on_outline _ _ _ _ _ _ _ W H (O _ _ Hj)) in Dj.
  assert (Li : (i < length rows)%nat) by (apply nth_error_Some; congruence). assert (Lj : (j < length rows)%nat) by (apply nth_error_Some; congruence).
  specialize (P i j Li Lj N).
  set (m := fst (place i)) in *. set (m' := fst (place j)) in *. set (n := snd (place i)) in *. set (n' := snd (place j)) in *. clearbody m m' n n'.
  assert (E : (w + g) / 2 == (w + g) * (1 # 2)) by field. rewrite E in Ci, Dj. clear E.
  assert (HV : 0 < h + v) by lra. assert (U : 0 < (w + g) * (1 # 2)) by lra.
  assert (step : forall s t u, (s + 1 <= t)%Z -> 0 < u -> inject_Z s * u + u <= inject_Z t * u).
  { intros s t u L Up. pose proof (Zle_scaled _ _ u L Up) as K. rewrite inject_Z_plus in K. change (inject_Z 1) with 1 in K. lra. }
  destruct (Z_lt_le_dec n n') as [L|L].
  - pose proof (step n n' (h + v) ltac:(lia) HV). lra.
  - destruct (Z_lt_le_dec n' n) as [L'|L'].
    + pose proof (step n' n (h + v) ltac:(lia) HV). lra.
    + assert (n = n') by lia. specialize (P ltac:(auto)). destruct (Z_le_gt_dec m m').
      * pose proof (step m (m' - 1)%Z _ ltac:(lia) U). pose proof (step (m' - 1)%Z m' _ ltac:(lia) U). lra.
      * pose proof (step m' (m - 1)%Z _ ltac:(lia) U). pose proof (step (m - 1)%Z m _ ltac:(lia) U). lra.
Qed.
Lemma camera_candidate : forall rows i c px py, camera rows -> nth_error rows i = Some c -> on_ccd c px py -> In i (candidates 3 rows [(px, py)]).
Proof.
  intros rows i c px py (x0 & y0 & w & g & h & v & place & W & G & H & V & GW & O & P) Hi Ci.
  apply (on_outline _ _ _ _ _ _ _ W H (O _ _ Hi)) in Ci. destruct Ci as (C1 & C2 & C3 & C4).
  destruct (Nat.le_gt_cases (length rows) 1) as [L|L].
  - assert (i < length rows)%nat by (apply nth_error_Some; congruence). assert (i = 0)%nat by lia. subst i.
    unfold candidates. apply Nat.ltb_ge in L. rewrite L. left. reflexivity.
  - apply (own_near rows x0 y0 w g h v place W G H V GW O P i c px py Hi C1 C2 C3 C4 L).
Qed.

(** ** Right ascension *)
Lemma unwrap_dec : forall buffer o, snd (unwrap buffer [o] o) = o_dec o.
Proof. intros. unfold unwrap. destruct (Qltb buffer 180); reflexivity. Qed.
Lemma unwrap_some : forall buffer o, exists k : Z, fst (unwrap buffer [o] o) == o_ra o + 360 * inject_Z k.
Proof.
  intros buffer o. unfold unwrap. cbv zeta.
  destruct (Qltb buffer 180); [|exists 0%Z; cbn [fst]; change (inject_Z 0) with 0; ring].
  cbn [fst existsb].
  repeat match goal with |- context [if ?x then _ else _] => destruct x end;
    first [exists 0%Z; change (inject_Z 0) with 0; ring|exists 1%Z; change (inject_Z 1) with 1; ring|exists (-1)%Z; change (inject_Z (-1)) with (-(1)); ring].
Qed.
Lemma unwrap_near : forall buffer o k, buffer <= 90 -> 0 <= o_ra o -> o_ra o < 360 -> 0 <= o_field_ra o -> o_field_ra o <= 360 ->
  o_field_ra o - buffer < o_ra o + 360 * inject_Z k -> o_ra o + 360 * inject_Z k < o_field_ra o + buffer ->
  fst (unwrap buffer [o] o) == o_ra o + 360 * inject_Z k.
Proof.
  intros buffer o k B R0 R1 F0 F1 N1 N2. unfold unwrap. cbv zeta.
  destruct (Qltb buffer 180) eqn:E; [clear E|exfalso; assert (buffer < 180) as L by lra; apply Qltb_iff in L; congruence].
  cbn [fst existsb]. rewrite !orb_false_r.
  assert (D : forall p q, {Qltb p q = true /\ p < q} + {Qltb p q = false /\ q <= p}).
  { intros p q. destruct (Qltb p q) eqn:E; [left; split; auto; apply Qltb_iff; auto|right; split; auto]. apply Qnot_lt_le. intro L. apply Qltb_iff in L. congruence. }
  assert (K : (k = 0 \/ k = 1 \/ k = -1)%Z).
  { destruct (Z_le_gt_dec k 1) as [L1|L1].
    - destruct (Z_le_gt_dec (-1) k) as [L2|L2]; [lia|]. exfalso. assert (L3 : (k <= -2)%Z) by lia. rewrite Zle_Qle in L3. change (inject_Z (-2)) with (-(2)) in L3. lra.
    - exfalso. assert (L3 : (2 <= k)%Z) by lia. rewrite Zle_Qle in L3. change (inject_Z 2) with 2 in L3. lra. }
  assert (KQ : inject_Z k == 0 \/ inject_Z k == 1 \/ inject_Z k == -(1)).
  { destruct K as [K|[K|K]]; subst k; [left|right; left|right; right]; reflexivity. }
  destruct (D 360 (o_field_ra o + buffer)) as [[E1 L1]|[E1 L1]]; rewrite E1;
  destruct (D (o_field_ra o - buffer) 0) as [[E2 L2]|[E2 L2]]; rewrite E2; try lra.
  - destruct (D (o_ra o) 180) as [[E3 L3]|[E3 L3]]; rewrite E3; lra.
  - destruct (D 180 (o_ra o)) as [[E3 L3]|[E3 L3]]; rewrite E3; lra.
Qed.

(** ** Observations kept *)
Lemma C93_kept_proof : forall (set_order : list nat -> list nat) (query : string -> list ccd) buffer (f : frame vobs) lab id lim,
  (forall l, Permutation (set_order l) l) ->
  (forall a b x y, In (a, x) f -> In (b, y) f -> o_field x = o_field y -> o_field_ra x = o_field_ra y) ->
  buffer <= 90 ->
  (forall a o, In (a, o) f -> camera (query (o_field o)) /\ 0 <= o_ra o /\ o_ra o < 360 /\ 0 <= o_field_ra o /\ o_field_ra o <= 360
     /\ forall c ra dec, In c (query (o_field o)) -> on_ccd c ra dec -> o_field_ra o - buffer < ra /\ ra < o_field_ra o + buffer) ->
  (In (lab, (id, lim)) (PPVisitsFootprint set_order query buffer 3 f) <->
   exists o c (turn : Z), In (lab, o) f /\ In c (query (o_field o)) /\ on_ccd c (o_ra o + 360 * inject_Z turn) (o_dec o) /\ c_id c = id /\ c_lim c = lim).
Proof.
  intros so query buffer f lab id lim S F B H.
  assert (E : forall o, unwrap buffer [o] o = (fst (unwrap buffer [o] o), o_dec o)) by (intro o; rewrite <- (unwrap_dec buffer o); apply surjective_pairing).
  rewrite (C74_own_proof so query buffer 3 f lab id lim S F).
  - split.
    + intros (o & i & c & Ho & Hi & Hc & E1 & E2). destruct (unwrap_some buffer o) as [k K]. exists o, c, k.
      destruct (H _ _ Ho) as (Cam & _). rewrite E in Hc. apply (camera_contains _ _ _ _ _ Cam Hi) in Hc.
      repeat (split; [eauto using nth_error_In; fail|]). split; [|auto]. unfold on_ccd in *. rewrite <- K. exact Hc.
    + intros (o & c & k & Ho & Ic & Oc & E1 & E2). destruct (H _ _ Ho) as (Cam & R0 & R1 & F0 & F1 & N).
      destruct (N c _ _ Ic Oc) as [N1 N2]. pose proof (unwrap_near buffer o k B R0 R1 F0 F1 N1 N2) as K.
      apply In_nth_error in Ic. destruct Ic as [i Hi]. exists o, i, c. split; [auto|]. split; [auto|]. split; [|auto].
      rewrite E. apply (camera_contains _ _ _ _ _ Cam Hi). unfold on_ccd in *. rewrite K. exact Oc.
  - intros a o i j c d Ho Hi Hj Hc Hd. destruct (H _ _ Ho) as (Cam & _). rewrite E in Hc, Hd.
    apply (camera_contains _ _ _ _ _ Cam Hi) in Hc. apply (camera_contains _ _ _ _ _ Cam Hj) in Hd. eapply camera_apart; eauto.
  - intros a o i c Ho Hi Hc. destruct (H _ _ Ho) as (Cam & _). rewrite E in *. apply (camera_contains _ _ _ _ _ Cam Hi) in Hc. eapply camera_candidate; eauto.
Qed.

Lemma C93_rows_proof : forall (set_order : list nat -> list nat) (query : string -> list ccd) buffer (f : frame vobs),
  map fst f = seq 0 (length f) ->
  (forall l, Permutation (set_order l) l) ->
  (forall a b x y, In (a, x) f -> In (b, y) f -> o_field x = o_field y -> o_field_ra x = o_field_ra y) ->
  buffer <= 90 ->
  (forall a o, In (a, o) f -> camera (query (o_field o)) /\ 0 <= o_ra o /\ o_ra o < 360 /\ 0 <= o_field_ra o /\ o_field_ra o <= 360
     /\ forall c ra dec, In c (query (o_field o)) -> on_ccd c ra dec -> o_field_ra o - buffer < ra /\ ra < o_field_ra o + buffer) ->
  exists g, visits_filter set_order query buffer 3 f = Ok g /\
  forall lab o id lim, In (lab, (o, (id, lim))) g <->
   exists c (turn : Z), In (lab, o) f /\ In c (query (o_field o)) /\ on_ccd c (o_ra o + 360 * inject_Z turn) (o_dec o) /\ c_id c = id /\ c_lim c = lim.
Proof.
  intros so query buffer f L S F B H. destruct (C74_rows_proof so query buffer 3 f L) as (g & E & G). exists g. split; [exact E|].
  intros lab o id lim. rewrite G, (C93_kept_proof so query buffer f lab id lim S F B H).
  assert (U : forall o', In (lab, o) f -> In (lab, o') f -> o = o').
  { intros o' I I'. assert (D : NoDup (map fst f)) by (rewrite L; apply seq_NoDup).
    clear - D I I'. induction f as [|[k x] f IH]; [destruct I|]. cbn [map fst] in D. inversion D as [|? ? D1 D2]; subst.
    destruct I as [I|I], I' as [I'|I'].
    - congruence.
    - inversion I; subst. destruct D1. apply in_map_iff. exists (lab, o'). auto.
    - inversion I'; subst. destruct D1. apply in_map_iff. exists (lab, o). auto.
    - auto. }
  split.
  - intros [Ho (o' & c & k & Ho' & R)]. assert (o = o') by auto. subst o'. exists c, k. tauto.
  - intros (c & k & Ho & R). split; [auto|]. exists o, c, k. tauto.
Qed.

(** ** At most one CCD each *)
Lemma group_labels : forall so query buffer num (g : frame vobs) x, exists p, map fst (one_group so query buffer num g x) = map fst (filter p g).
Proof.
  intros so query buffer num g x. unfold one_group. destruct (query x) as [|c0 rows0].
  - exists (fun _ => false). cbn. induction g; cbn; auto.
  - set (rows := c0 :: rows0). set (u := unwrap buffer (map snd g)). set (cand := so _). clearbody u cand.
    exists (fun r => match first_ccd rows cand (u (snd r)) with Some _ => true | None => false end).
    induction g as [|r g IH]; cbn [flat_map filter map]; auto. destruct (first_ccd rows cand (u (snd r))); cbn [app map]; [f_equal|]; auto.
Qed.
Lemma filter_labels : forall A (f : frame A) p, NoDup (map fst f) -> NoDup (map fst (filter p f)).
Proof.
  intros A f p. induction f as [|r f IH]; cbn [filter map]; intro D; auto. inversion D as [|? ? D1 D2]; subst.
  destruct (p r); cbn [map]; auto. constructor; auto. intro I. apply D1. apply in_map_iff in I. destruct I as (z & E & I). apply filter_In in I. apply in_map_iff. exists z. tauto.
Qed.
Lemma NoDup_parts : forall A B (F : A -> list B) l, NoDup l -> (forall x, In x l -> NoDup (F x)) ->
  (forall x y z, In x l -> In y l -> In z (F x) -> In z (F y) -> x = y) -> NoDup (flat_map F l).
Proof.
  intros A B F l. induction l as [|x l IH]; intros D N U; cbn [flat_map]; [constructor|]. inversion D as [|? ? D1 D2]; subst.
  assert (R : NoDup (flat_map F l)) by (apply IH; auto; intros; [apply N; right; auto|eapply U; eauto; right; auto]).
  assert (S : forall z, In z (F x) -> ~ In z (flat_map F l)).
  { intros z I J. apply in_flat_map in J. destruct J as (y & Iy & J). apply D1. rewrite (U x y z); auto; [left; auto|right; auto]. }
  specialize (N x ltac:(left; auto)). clear - R S N. induction (F x) as [|z k IH]; cbn [app]; auto. inversion N; subst. constructor.
  - rewrite in_app_iff. intros [I|I]; auto. apply (S z); auto. left; auto.
  - apply IH; auto. intros w I. apply S. right; auto.
Qed.
Lemma C93_once_proof : forall set_order query buffer num (f : frame vobs), NoDup (map fst f) ->
  NoDup (map fst (PPVisitsFootprint set_order query buffer num f)).
Proof.
  intros so query buffer num f D. unfold PPVisitsFootprint.
  assert (E : forall (F : string -> list (nat * (nat * Q))) l, map fst (flat_map F l) = flat_map (fun x => map fst (F x)) l).
  { intros F l. induction l; cbn [flat_map]; auto. rewrite map_app. congruence. }
  rewrite E. apply NoDup_parts.
  - apply NoDup_nodup.
  - intros x _. destruct (group_labels so query buffer num (filter (fun r => String.eqb (o_field (snd r)) x) f) x) as [p ->].
    apply filter_labels, filter_labels, D.
  - intros x y z _ _ I J.
    assert (K : forall x, In z (map fst (one_group so query buffer num (filter (fun r => String.eqb (o_field (snd r)) x) f) x)) ->
      exists o, In (z, o) f /\ o_field o = x).
    { intros x' I'. destruct (group_labels so query buffer num (filter (fun r => String.eqb (o_field (snd r)) x') f) x') as [p Ep]. rewrite Ep in I'.
      apply in_map_iff in I'. destruct I' as ([z' o] & Ez & I'). cbn in Ez. subst z'. apply filter_In in I'. destruct I' as [I' _]. apply filter_In in I'. destruct I' as [I' Ef].
      cbn in Ef. apply String.eqb_eq in Ef. exists o. auto. }
    destruct (K x I) as (o & Io & <-). destruct (K y J) as (o' & Io' & <-). f_equal.
    clear - D Io Io'. induction f as [|[k q] f IH]; [destruct Io|]. cbn [map fst] in D. inversion D as [|? ? D1 D2]; subst.
    destruct Io as [I|I], Io' as [J|J]; auto; [congruence| |].
    + inversion I; subst. destruct D1. apply in_map_iff. exists (z, o'). auto.
    + inversion J; subst. destruct D1. apply in_map_iff. exists (z, o). auto.
Qed.

(** ** Concrete cameras *)
Definition brick_wall : list ccd := [box 1 0 0 2 1; box 2 (21#10) 0 (41#10) 1; box 3 (105#100) (11#10) (305#100) (21#10)].
Lemma brick_wall_camera : camera brick_wall.
Proof.
  exists 0, 0, 2, (1#10), 1, (1#10), (fun i => match i with 0%nat => (0, 0)%Z | 1%nat => (2, 0)%Z | _ => (1, 1)%Z end).
  do 5 (split; [lra|]). split.
  - intros i c H. destruct i as [|[|[|i]]]; cbn in H; [| | |destruct i; discriminate]; inversion H; subst; clear H;
      unfold outline, same_point; (split; [vm_compute; auto|left; vm_compute; repeat split; reflexivity]).
  - intros i j Li Lj N E. cbn in Li, Lj. destruct i as [|[|[|i]]], j as [|[|[|j]]]; cbn in *; try lia.
Qed.

Definition on_wall : vobs := {| o_field := "v"; o_ra := 105#100; o_dec := 95#100; o_field_ra := 2 |}.

(** A camera within 2.2 degrees of right ascension of its centre, near declination
    -60, looked at with the shipped radius of 1.5 degrees. *)
Definition southern : list ccd := [box 1 (-(6#10)) (-(605#10)) (5#10) (-60); box 2 (6#10) (-(605#10)) (17#10) (-60)].
Lemma southern_camera : camera southern.
Proof.
  exists (-(6#10)), (-(605#10)), (11#10), (1#10), (1#2), (1#10), (fun i => match i with 0%nat => (0, 0)%Z | _ => (2, 0)%Z end).
  do 5 (split; [lra|]). split.
  - intros i c H. destruct i as [|[|i]]; cbn in H; [| |destruct i; discriminate]; inversion H; subst; clear H;
      unfold outline, same_point; (split; [vm_compute; auto|left; vm_compute; repeat split; reflexivity]).
  - intros i j Li Lj N E. cbn in Li, Lj. destruct i as [|[|i]], j as [|[|j]]; cbn in *; try lia.
Qed.
Lemma C93_wrap_refuted_proof : exists (query : string -> list ccd) (o : vobs) c,
  camera (query (o_field o)) /\ 0 <= o_ra o /\ o_ra o < 360 /\ 0 <= o_field_ra o /\ o_field_ra o <= 360 /\
  (forall d ra dec, In d (query (o_field o)) -> on_ccd d ra dec -> o_field_ra o - (22#10) < ra /\ ra < o_field_ra o + (22#10) /\ -61 < dec /\ dec <= -60) /\
  In c (query (o_field o)) /\ on_ccd c (o_ra o - 360) (o_dec o) /\
  PPVisitsFootprint (fun l => l) query (3#2) 3 [(0%nat, o)] = [].
Proof.
  exists (fun _ => southern), {| o_field := "v"; o_ra := 3597#10; o_dec := -(601#10); o_field_ra := 16#10 |}, (box 1 (-(6#10)) (-(605#10)) (5#10) (-60)).
  split; [exact southern_camera|]. cbn [o_ra o_field_ra o_dec o_field].
  split; [lra|]. split; [lra|]. split; [lra|]. split; [lra|]. split.
  - intros d ra dec [I|[I|[]]] O; subst d; unfold on_ccd in O; cbn in O; destruct O as [[O|O] O']; lra.
  - split; [left; reflexivity|]. split; [|vm_compute; reflexivity]. unfold on_ccd. cbn. split; [left|]; split; lra.
Qed.

(** Rows shifted by another part of a CCD. *)
Definition shifted : list ccd :=
  [box 1 0 0 2 1; box 2 (4#10) (11#10) (24#10) (21#10); box 3 (-(17#10)) (11#10) (3#10) (21#10); box 4 (4#10) (-(11#10)) (24#10) (-(1#10)); box 5 (-(17#10)) (-(11#10)) (3#10) (-(1#10))].
Lemma C93_missed_refuted_proof : exists (query : string -> list ccd) (o : vobs) c,
  (forall i j d e ra dec, nth_error (query (o_field o)) i = Some d -> nth_error (query (o_field o)) j = Some e -> on_ccd d ra dec -> on_ccd e ra dec -> i = j) /\
  In c (query (o_field o)) /\ on_ccd c (o_ra o) (o_dec o) /\
  PPVisitsFootprint (fun l => l) query (3#2) 3 [(0%nat, o)] = [].
Proof.
  exists (fun _ => shifted), {| o_field := "v"; o_ra := 35#100; o_dec := 1#2; o_field_ra := 10 |}, (box 1 0 0 2 1).
  cbn [o_ra o_field_ra o_dec o_field]. split.
  - intros i j d e ra dec Hi Hj Od Oe.
    destruct i as [|[|[|[|[|i]]]]]; cbn in Hi; try (destruct i; discriminate); inversion Hi; subst d;
    destruct j as [|[|[|[|[|j]]]]]; cbn in Hj; try (destruct j; discriminate); inversion Hj; subst e; auto; exfalso;
    unfold on_ccd in Od, Oe; cbn in Od, Oe; destruct Od as [[O1|O1] O2], Oe as [[O3|O3] O4]; lra.
  - split; [left; reflexivity|]. split; [|vm_compute; reflexivity]. unfold on_ccd. cbn. split; [left|]; split; lra.
Qed.
