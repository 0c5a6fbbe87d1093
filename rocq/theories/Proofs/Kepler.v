From Coq Require Import Reals ZArith List Bool Lia Lra Psatz.
From Verif Require Import Base.Prelude Model.Sphere Model.Kepler Spec.Sphere Spec.Kepler.
Import ListNotations.
Open Scope R_scope.

(** ** Argument reduction *)

Lemma pow4_pos n : 0 < 4 ^ n. Proof. apply pow_lt; lra. Qed.

Lemma reduce_spec fuel : forall n x m y, reduce fuel n x = (m, y) ->
  exists k, m = (n + k)%nat /\ x = 4 ^ k * y /\ (k <= fuel)%nat /\ (Rabs y <= 1/10 \/ k = fuel).
Proof.
  induction fuel as [|fuel IH]; intros n x m y H; simpl in H.
  - injection H as <- <-. exists 0%nat. repeat split; [lia|simpl; ring|lia|auto].
  - destruct (Rlt_dec (1/10) (Rabs x)) as [C|C].
    + destruct (IH _ _ _ _ H) as (k & E1 & E2 & E3 & E4). exists (S k).
      repeat split; [lia| |lia|destruct E4; [auto|right; lia]].
      simpl. lra.
    + injection H as <- <-. exists 0%nat. repeat split; [lia|simpl; ring|lia|left; lra].
Qed.

Lemma pow4_INR n : INR n <= 4 ^ n.
Proof.
  induction n as [|n IH]; [simpl; lra|]. rewrite S_INR. change (4 ^ S n) with (4 * 4 ^ n).
  assert (1 <= 4 ^ n) by (apply pow_R1_Rle; lra). lra.
Qed.

Lemma up_nat x : 0 <= x -> x <= INR (Z.to_nat (up x)).
Proof.
  intros H. destruct (archimed x) as [A _].
  assert (0 <= up x)%Z by (apply le_IZR; lra).
  rewrite INR_IZR_INZ, Z2Nat.id by lia. lra.
Qed.

Lemma reduce_done x n y : reduce (Z.to_nat (up (10 * Rabs x))) 0 x = (n, y) ->
  x = 4 ^ n * y /\ Rabs y <= 1/10.
Proof.
  intros H. destruct (reduce_spec _ _ _ _ _ H) as (k & E1 & E2 & _ & E4). simpl in E1. subst k.
  split; auto. destruct E4 as [E4|E4]; auto.
  pose proof (up_nat (10 * Rabs x)) as U. rewrite <- E4 in U.
  pose proof (Rabs_pos x). pose proof (pow4_INR n). pose proof (pow4_pos n).
  rewrite E2, Rabs_mult, (Rabs_right (4 ^ n)) in U by lra.
  assert (10 * (4 ^ n * Rabs y) <= 4 ^ n).
  { apply Rle_trans with (INR n); auto. apply U. rewrite E2, Rabs_mult, (Rabs_right (4^n)) in H0 by lra. lra. }
  apply Rmult_le_reg_l with (4 ^ n); auto. lra.
Qed.

(** ** Defects of the identities between Stumpff functions *)

Definition kappa (d : four) : R := c1 d * c1 d - c2 d * (1 + c0 d).
Definition delta (x : R) (d : four) : R := c0 d + x * c2 d - 1.

Lemma kappa_double d : kappa (double d) = 0.
Proof. unfold kappa, double; simpl. field. Qed.

Lemma kappa_doubles n d : (0 < n)%nat -> kappa (doubles n d) = 0.
Proof.
  revert d. induction n as [|n IH]; intros d H; [lia|]. simpl.
  destruct n; [simpl; apply kappa_double|apply IH; lia].
Qed.

Lemma kappa_small_eq x : kappa (stumpff_small x) =
  x^7 * (-1 / 10461394944000 + x * (1 / 23538138624000 + x * (-1 / 313841848320000
   + x * (1 / 10356780994560000 + x * (-1 / 632705166213120000 + x * (1 / 61688753705779200000
   + x * (-1 / 8769293603713843200000 + x * (1 / 1710012252724199424000000)))))))).
Proof. unfold kappa, stumpff_small; simpl. field. Qed.

Lemma horner_bound x a b A B : Rabs x <= 1/10 -> Rabs a <= A -> Rabs b <= B -> Rabs (a + x * b) <= A + B / 10.
Proof.
  intros Hx Ha Hb. eapply Rle_trans; [apply Rabs_triang|]. rewrite Rabs_mult.
  assert (Rabs x * Rabs b <= 1/10 * B) by (apply Rmult_le_compat; auto using Rabs_pos). lra.
Qed.

Lemma Rabs_bound a A : - A <= a <= A -> Rabs a <= A.
Proof. intros [H1 H2]. apply Rabs_le; lra. Qed.

Lemma horner_step x a b : Rabs x <= 1/10 -> Rabs a <= 1 / 300000000000000 ->
  Rabs b <= 1 / 100000000000000 -> Rabs (a + x * b) <= 1 / 100000000000000.
Proof. intros Hx Ha Hb. eapply Rle_trans; [apply (horner_bound x a b _ _ Hx Ha Hb)|lra]. Qed.

Lemma kappa_small x : Rabs x <= 1/10 -> Rabs (kappa (stumpff_small x)) <= 1 / 100000000000000000000.
Proof.
  intros H. rewrite kappa_small_eq, Rabs_mult.
  assert (H7 : Rabs (x^7) <= (1/10)^7).
  { rewrite <- RPow_abs. apply pow_incr. split; auto using Rabs_pos. }
  apply Rle_trans with ((1/10)^7 * (1/10461394944000 + (1/23538138624000 + 1/100000000000000/10)/10)); [|lra].
  apply Rmult_le_compat; auto using Rabs_pos.
  apply horner_bound; auto; [apply Rabs_bound; lra|].
  apply horner_bound; auto; [apply Rabs_bound; lra|].
  repeat (apply horner_step; [exact H|apply Rabs_bound; lra|]). apply Rabs_bound; lra.
Qed.

Lemma kappa_stumpff x : Rabs (kappa (stumpff x)) <= 1 / 100000000000000000000.
Proof.
  unfold stumpff. destruct (reduce _ _ _) as [n y] eqn:E. apply reduce_done in E as [_ E].
  destruct n; [apply kappa_small; exact E|].
  rewrite kappa_doubles by lia. rewrite Rabs_R0. lra.
Qed.

Lemma delta_small x : delta x (stumpff_small x) = 0.
Proof. unfold delta, stumpff_small; simpl. ring. Qed.

Lemma delta_double x d : delta (4 * x) (double d) = 2 * (delta x d * (1 + c0 d) + x * kappa d).
Proof. unfold delta, kappa, double; simpl. field. Qed.

Lemma c0_double_le d : -1 <= c0 d <= 1 -> -1 <= c0 (double d) <= 1.
Proof. simpl. nra. Qed.

Lemma c0_double_ge d : 1 <= c0 d -> 1 <= c0 (double d).
Proof. simpl. nra. Qed.

(** The defect of c0 = 1 - x c2 is proportional to |x|, with a factor c0 on
    the hyperbolic side. *)
Lemma delta_doubles_ell K n : forall x d, 0 <= K -> 0 <= x -> -1 <= c0 d <= 1 -> kappa d = 0 ->
  Rabs (delta x d) <= K * x -> Rabs (delta (4 ^ n * x) (doubles n d)) <= K * (4 ^ n * x).
Proof.
  induction n as [|n IH]; intros x d HK Hx Hc Hk Hd.
  - simpl. rewrite Rmult_1_l. exact Hd.
  - simpl doubles. replace (4 ^ S n * x) with (4 ^ n * (4 * x)) by (simpl; ring).
    apply IH; auto; [lra|apply c0_double_le; auto|apply kappa_double|].
    rewrite delta_double, Hk. replace (2 * (delta x d * (1 + c0 d) + x * 0)) with ((2 * (1 + c0 d)) * delta x d) by ring.
    rewrite Rabs_mult, Rabs_right by lra.
    apply Rle_trans with (4 * (K * x)); [|lra].
    apply Rmult_le_compat; auto using Rabs_pos; lra.
Qed.

Lemma delta_doubles_hyp K n : forall x d, 0 <= K -> x <= 0 -> 1 <= c0 d -> kappa d = 0 ->
  Rabs (delta x d) <= K * (- x) * c0 d ->
  Rabs (delta (4 ^ n * x) (doubles n d)) <= K * (- (4 ^ n * x)) * c0 (doubles n d).
Proof.
  induction n as [|n IH]; intros x d HK Hx Hc Hk Hd.
  - simpl. rewrite Rmult_1_l. exact Hd.
  - simpl doubles. replace (4 ^ S n * x) with (4 ^ n * (4 * x)) by (simpl; ring).
    apply IH; auto; [lra|apply c0_double_ge; auto|apply kappa_double|].
    rewrite delta_double, Hk. replace (2 * (delta x d * (1 + c0 d) + x * 0)) with ((2 * (1 + c0 d)) * delta x d) by ring.
    rewrite Rabs_mult, Rabs_right by lra.
    apply Rle_trans with (2 * (1 + c0 d) * (K * (- x) * c0 d)).
    + apply Rmult_le_compat_l; lra.
    + simpl c0. assert (0 <= K * (- x)) by (apply Rmult_le_pos; lra).
      replace (2 * (1 + c0 d) * (K * - x * c0 d)) with ((K * - x) * (2 * (1 + c0 d) * c0 d)) by ring.
      replace (K * - (4 * x) * (2 * c0 d * c0 d - 1)) with ((K * - x) * (4 * (2 * c0 d * c0 d - 1))) by ring.
      apply Rmult_le_compat_l; auto. nra.
Qed.

Lemma d2_range x : Rabs x <= 1/10 -> 0 < c2 (stumpff_small x) <= 1.
Proof.
  intros H. simpl.
  assert (S : forall a d, 0 <= a <= 2 -> 12 <= d -> 0 <= 1 - x * a / d <= 2).
  { intros a d Ha Hd. assert (Hx : Rabs (x * a / d) <= 1/10).
    { unfold Rdiv at 1. rewrite !Rabs_mult.
      rewrite (Rabs_right a) by lra. rewrite (Rabs_right (/ d)) by (apply Rle_ge, Rlt_le, Rinv_0_lt_compat; lra).
      apply Rle_trans with (1/10 * 2 * (/ 12)); [|lra].
      repeat apply Rmult_le_compat; try lra; auto using Rabs_pos.
      - apply Rmult_le_pos; auto using Rabs_pos; lra.
      - apply Rlt_le, Rinv_0_lt_compat; lra.
      - apply Rinv_le_contravar; lra. }
   unfold Rabs in Hx. destruct (Rcase_abs _); lra. }
  assert (S' : forall a d, 0 <= a <= 2 -> 12 <= d -> 9/10 <= 1 - x * a / d <= 11/10).
  { intros a d Ha Hd. assert (Hx : Rabs (x * a / d) <= 1/10).
    { unfold Rdiv at 1. rewrite !Rabs_mult.
      rewrite (Rabs_right a) by lra. rewrite (Rabs_right (/ d)) by (apply Rle_ge, Rlt_le, Rinv_0_lt_compat; lra).
      apply Rle_trans with (1/10 * 2 * (/ 12)); [|lra].
      repeat apply Rmult_le_compat; try lra; auto using Rabs_pos.
      - apply Rmult_le_pos; auto using Rabs_pos; lra.
      - apply Rlt_le, Rinv_0_lt_compat; lra.
      - apply Rinv_le_contravar; lra. }
    unfold Rabs in Hx. destruct (Rcase_abs _); lra. }
  assert (0 <= 1 - x / 182 <= 2) as H0.
  { unfold Rabs in H. destruct (Rcase_abs x); lra. }
  match goal with |- 0 < (1 - x * ?a / 12) / 2 <= 1 => assert (9/10 <= 1 - x * a / 12 <= 11/10) end.
  { apply S'; [|lra]. repeat (apply S; [|lra]). exact H0. }
  lra.
Qed.

Lemma doubles_S n d : doubles (S n) d = doubles n (double d). Proof. reflexivity. Qed.

Lemma delta_stumpff x :
  Rabs (delta x (stumpff x)) <= 1 / 100000000000000000000 * Rabs x * Rmax 1 (c0 (stumpff x)).
Proof.
  unfold stumpff. destruct (reduce _ _ _) as [n y] eqn:E. apply reduce_done in E as [E Hy].
  subst x.
  destruct n as [|n].
  { simpl pow. rewrite Rmult_1_l. change (doubles 0 (stumpff_small y)) with (stumpff_small y).
    rewrite delta_small, Rabs_R0. apply Rmult_le_pos; [apply Rmult_le_pos; [lra|apply Rabs_pos]|].
    apply Rle_trans with 1; [lra|apply Rmax_l]. }
  rewrite doubles_S. replace (4 ^ S n * y) with (4 ^ n * (4 * y)) by (simpl; ring).
  assert (HD : delta (4 * y) (double (stumpff_small y)) = 2 * (y * kappa (stumpff_small y))).
  { rewrite delta_double, delta_small. ring. }
  assert (HA : Rabs (delta (4 * y) (double (stumpff_small y))) <= 1 / 100000000000000000000 * Rabs (4 * y)).
  { rewrite HD, !Rabs_mult, (Rabs_right 2), (Rabs_right 4) by lra.
    pose proof (kappa_small y Hy). pose proof (Rabs_pos y). nra. }
  pose proof (d2_range y Hy) as H2.
  assert (H0 : c0 (stumpff_small y) = 1 - y * c2 (stumpff_small y)) by reflexivity.
  pose proof (pow4_pos n) as P.
  destruct (Rle_dec 0 y) as [Hs|Hs].
  - rewrite (Rabs_right (4 * y)) in HA by lra.
    eapply Rle_trans; [apply (delta_doubles_ell (1 / 100000000000000000000) n (4 * y)); [| | | |exact HA]|].
    + lra.
    + lra.
    + apply c0_double_le. rewrite H0. assert (y <= 1/10) by (rewrite Rabs_right in Hy; lra). nra.
    + apply kappa_double.
    + rewrite Rabs_right by nra.
      rewrite <- (Rmult_1_r (1 / 100000000000000000000 * (4 ^ n * (4 * y)))) at 1.
      apply Rmult_le_compat_l; [nra|apply Rmax_l].
  - rewrite (Rabs_left (4 * y)) in HA by lra.
    assert (C : 1 <= c0 (double (stumpff_small y))) by (apply c0_double_ge; rewrite H0; nra).
    eapply Rle_trans; [apply (delta_doubles_hyp (1 / 100000000000000000000) n (4 * y)); [| | | |]|].
    + lra.
    + lra.
    + exact C.
    + apply kappa_double.
    + eapply Rle_trans; [exact HA|]. nra.
    + rewrite (Rabs_left (4 ^ n * (4 * y))) by nra.
      apply Rmult_le_compat_l; [nra|apply Rmax_r].
Qed.

(** ** The state in the orbit plane *)

Lemma rdiv_ok a b c : rdiv a b = Ok c -> b <> 0 /\ c = a / b.
Proof. unfold rdiv. destruct (Req_EM_T b 0); [discriminate|]. intros [= <-]; auto. Qed.

(** Kepler's equation of lines 94-96 at perihelion, as a residual. *)
Definition residual (mu q t s : R) (d : four) : R := t - (q * s * c1 d + mu * s * s * s * c3 d).

Lemma in_plane_ok mu q v2 alpha t s x v : in_plane mu q v2 alpha t s = Ok (x, v) ->
  let d := stumpff (alpha * s * s) in
  let r := q * c0 d + mu * (s * s) * c2 d in
  q <> 0 /\ r <> 0
  /\ x = V3 (q - mu * (s * s) * c2 d) ((t - mu * (s * s * s) * c3 d) * sqrt v2) 0
  /\ v = V3 (- (mu * s * c1 d / r)) ((q * c0 d / r) * sqrt v2) 0.
Proof.
  intros H d r. unfold in_plane in H. fold d in H.
  set (r' := q * c0 d + q * 0 * s * c1 d + mu * s * s * c2 d) in H.
  assert (Er : r' = r) by (unfold r', r; ring). rewrite Er in H. clear r' Er.
  unfold rbind in H.
  destruct (rdiv mu q) as [k0|] eqn:E0; [|discriminate].
  destruct (rdiv mu (r * q)) as [k1|] eqn:E1; [|discriminate].
  destruct (rdiv mu r) as [k2|] eqn:E2; [|discriminate].
  apply rdiv_ok in E0 as [Hq ->]. apply rdiv_ok in E1 as [_ ->]. apply rdiv_ok in E2 as [Hr ->].
  assert (P : forall a b a' b' : vec, @Ok (vec * vec) (a, b) = Ok (a', b') -> a = a' /\ b = b')
    by (intros ? ? ? ? [= -> ->]; auto).
  apply P in H as [<- <-]. unfold vadd, scale; simpl.
  split; [exact Hq|split; [exact Hr|]].
  split; f_equal; try ring.
  - field; auto.
  - field; auto.
  - assert (r - mu * (c2 d * s * s) = q * c0 d) by (unfold r; ring).
    replace (q * c0 d) with (r - mu * (c2 d * s * s)) by lra. field; auto.
Qed.

Lemma C43_momentum_in_plane_proof :
  forall mu q e t s x v, 0 < mu -> 0 < q -> 0 <= e ->
  in_plane mu q (mu * (1 + e) / q) (2 * mu / q - mu * (1 + e) / q) t s = Ok (x, v) ->
  let d := stumpff ((2 * mu / q - mu * (1 + e) / q) * s * s) in
  let r := q * c0 d + mu * (s * s) * c2 d in
  cross x v = V3 0 0 (momentum_of_elements mu q e
     * (1 + (mu * (s * s) * kappa d + mu * s * c1 d * residual mu q t s d / q) / r)).
Proof.
  intros mu q e t s x v Hmu Hq He H d r. apply in_plane_ok in H.
  fold d in H. fold r in H. destruct H as (_ & Hr & -> & ->).
  unfold cross; simpl. f_equal; try ring.
  assert (Hs : q * sqrt (mu * (1 + e) / q) = momentum_of_elements mu q e).
  { unfold momentum_of_elements. rewrite <- (sqrt_square q) at 1 by lra.
    rewrite <- sqrt_mult_alt by nra. f_equal. field. lra. }
  rewrite <- Hs. unfold residual, kappa. set (w := sqrt _).
  unfold r in *. field. split; [|lra].
  intros Z. apply Hr. lra.
Qed.

(** Distance and speed for an exact root and exact identities. *)
Lemma C43_energy_in_plane_proof :
  forall mu q e t s x v, 0 < mu -> 0 < q -> 0 <= e ->
  in_plane mu q (mu * (1 + e) / q) (2 * mu / q - mu * (1 + e) / q) t s = Ok (x, v) ->
  let y := (2 * mu / q - mu * (1 + e) / q) * s * s in
  let d := stumpff y in
  let r := q * c0 d + mu * (s * s) * c2 d in
  residual mu q t s d = 0 -> kappa d = 0 -> delta y d = 0 -> 0 < r ->
  length3 x = r /\ binding mu x v = binding_of_elements mu q e.
Proof.
  intros mu q e t s x v Hmu Hq He H y d r HR HK HD Hr. apply in_plane_ok in H.
  fold y in H. fold d in H. fold r in H. destruct H as (_ & _ & -> & ->).
  unfold residual in HR. unfold kappa in HK. unfold delta in HD.
  assert (W : sqrt (mu * (1 + e) / q) * sqrt (mu * (1 + e) / q) = mu * (1 + e) / q).
  { apply sqrt_sqrt. apply Rmult_le_pos; [nra|apply Rlt_le, Rinv_0_lt_compat; lra]. }
  set (w := sqrt _) in *. clearbody w.
  assert (Ey : y = mu * (1 - e) / q * (s * s)) by (unfold y; field; lra).
  assert (Ec0 : c0 d = 1 - y * c2 d) by lra.
  assert (Er : r = q + mu * e * (s * s) * c2 d).
  { unfold r. rewrite Ec0, Ey. field. lra. }
  assert (Ec1 : c1 d * c1 d = c2 d * (2 - y * c2 d)) by (rewrite Ec0 in HK; lra).
  assert (Eg : t - mu * (s * s * s) * c3 d = q * s * c1 d) by lra.
  assert (L : length3 (V3 (q - mu * (s * s) * c2 d) ((t - mu * (s * s * s) * c3 d) * w) 0) = r).
  { unfold length3; simpl. rewrite Eg.
    replace ((q - mu * (s * s) * c2 d) * (q - mu * (s * s) * c2 d) + q * s * c1 d * w * (q * s * c1 d * w) + 0 * 0)
      with ((q - mu * (s * s) * c2 d) * (q - mu * (s * s) * c2 d) + q * q * (s * s) * (c1 d * c1 d) * (w * w)) by ring.
    rewrite W, Ec1, Ey. 
    replace ((q - mu * (s * s) * c2 d) * (q - mu * (s * s) * c2 d) + q * q * (s * s) * (c2 d * (2 - mu * (1 - e) / q * (s * s) * c2 d)) * (mu * (1 + e) / q))
      with (r * r) by (rewrite Er; field; lra).
    apply sqrt_square. lra. }
  split; auto. unfold binding. rewrite L. unfold binding_of_elements; simpl.
  replace (- (mu * s * c1 d / r) * - (mu * s * c1 d / r) + q * c0 d / r * w * (q * c0 d / r * w) + 0 * 0)
    with ((mu * mu * (s * s) * (c1 d * c1 d) + q * q * (c0 d * c0 d) * (w * w)) / (r * r)) by (field; lra).
  rewrite W, Ec1, Ec0, Ey.
  apply Rmult_eq_reg_r with (r * r); [|nra].
  replace ((2 * mu / r - (mu * mu * (s * s) * (c2 d * (2 - mu * (1 - e) / q * (s * s) * c2 d)) +
     q * q * ((1 - mu * (1 - e) / q * (s * s) * c2 d) * (1 - mu * (1 - e) / q * (s * s) * c2 d)) *
     (mu * (1 + e) / q)) / (r * r)) * (r * r))
   with (2 * mu * r - (mu * mu * (s * s) * (c2 d * (2 - mu * (1 - e) / q * (s * s) * c2 d)) +
     q * q * ((1 - mu * (1 - e) / q * (s * s) * c2 d) * (1 - mu * (1 - e) / q * (s * s) * c2 d)) *
     (mu * (1 + e) / q))) by (field; lra).
  rewrite Er. field. lra.
Qed.
