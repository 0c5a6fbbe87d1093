(** Accuracy of the Stumpff functions of elliptic orbits. *)
From Coq Require Import Reals ZArith List Bool Lia Lra Psatz.
From Verif Require Import Base.Prelude Model.Sphere Model.Kepler Proofs.Kepler.
Open Scope R_scope.

(** The four values are within [b] of those of the angle [th]. *)
Definition close (th b : R) (d : four) : Prop :=
  Rabs (c0 d - cos th) <= b /\ Rabs (c1 d - sin th / th) <= b
  /\ Rabs (c2 d - (1 - cos th) / (th * th)) <= b /\ Rabs (c3 d - (th - sin th) / (th * th * th)) <= b.

(** ** Small angles *)
Lemma fact_S n : INR (fact (S n)) = INR (S n) * INR (fact n).
Proof. rewrite fact_simpl, mult_INR. reflexivity. Qed.
Lemma f1 : INR (fact 1) = 1. Proof. rewrite fact_S, INR_IZR_INZ. cbn. lra. Qed.
Lemma f2 : INR (fact 2) = 2. Proof. rewrite fact_S, f1, INR_IZR_INZ. cbn [Z.of_nat Pos.of_succ_nat Pos.succ]. lra. Qed.
Lemma f3 : INR (fact 3) = 6. Proof. rewrite fact_S, f2, INR_IZR_INZ. cbn [Z.of_nat Pos.of_succ_nat Pos.succ]. lra. Qed.
Lemma f4 : INR (fact 4) = 24. Proof. rewrite fact_S, f3, INR_IZR_INZ. cbn [Z.of_nat Pos.of_succ_nat Pos.succ]. lra. Qed.
Lemma f5 : INR (fact 5) = 120. Proof. rewrite fact_S, f4, INR_IZR_INZ. cbn [Z.of_nat Pos.of_succ_nat Pos.succ]. lra. Qed.
Lemma f6 : INR (fact 6) = 720. Proof. rewrite fact_S, f5, INR_IZR_INZ. cbn [Z.of_nat Pos.of_succ_nat Pos.succ]. lra. Qed.
Lemma f7 : INR (fact 7) = 5040. Proof. rewrite fact_S, f6, INR_IZR_INZ. cbn [Z.of_nat Pos.of_succ_nat Pos.succ]. lra. Qed.
Lemma f8 : INR (fact 8) = 40320. Proof. rewrite fact_S, f7, INR_IZR_INZ. cbn [Z.of_nat Pos.of_succ_nat Pos.succ]. lra. Qed.
Lemma f9 : INR (fact 9) = 362880. Proof. rewrite fact_S, f8, INR_IZR_INZ. cbn [Z.of_nat Pos.of_succ_nat Pos.succ]. lra. Qed.
Lemma f10 : INR (fact 10) = 3628800. Proof. rewrite fact_S, f9, INR_IZR_INZ. cbn [Z.of_nat Pos.of_succ_nat Pos.succ]. lra. Qed.
Lemma f11 : INR (fact 11) = 39916800. Proof. rewrite fact_S, f10, INR_IZR_INZ. cbn [Z.of_nat Pos.of_succ_nat Pos.succ]. lra. Qed.
Lemma f12 : INR (fact 12) = 479001600. Proof. rewrite fact_S, f11, INR_IZR_INZ. cbn [Z.of_nat Pos.of_succ_nat Pos.succ]. lra. Qed.
Lemma f13 : INR (fact 13) = 6227020800. Proof. rewrite fact_S, f12, INR_IZR_INZ. cbn [Z.of_nat Pos.of_succ_nat Pos.succ]. lra. Qed.
Lemma f14 : INR (fact 14) = 87178291200. Proof. rewrite fact_S, f13, INR_IZR_INZ. cbn [Z.of_nat Pos.of_succ_nat Pos.succ]. lra. Qed.
Lemma f15 : INR (fact 15) = 1307674368000. Proof. rewrite fact_S, f14, INR_IZR_INZ. cbn [Z.of_nat Pos.of_succ_nat Pos.succ]. lra. Qed.
Lemma f16 : INR (fact 16) = 20922789888000. Proof. rewrite fact_S, f15, INR_IZR_INZ. cbn [Z.of_nat Pos.of_succ_nat Pos.succ]. lra. Qed.
Lemma f17 : INR (fact 17) = 355687428096000. Proof. rewrite fact_S, f16, INR_IZR_INZ. cbn [Z.of_nat Pos.of_succ_nat Pos.succ]. lra. Qed.

Lemma close_small : forall th, 0 < th -> th * th <= 1/10 -> close th (1 / 100000000000000000000) (stumpff_small (th * th)).
Proof.
  intros th P S.
  assert (L : th <= 1) by nra.
  destruct (pre_cos_bound th 3) as [C1 C2]; [lra|lra|].
  destruct (pre_sin_bound th 3) as [S1 S2]; [lra|lra|].
  unfold cos_approx, cos_term, sin_approx, sin_term in *. change (2 * 3 + 1)%nat with 7%nat in *. change (2 * (3 + 1))%nat with 8%nat in *.
  cbn [sum_f_R0] in *. cbn [Nat.mul Nat.add] in *. change (fact 0) with 1%nat in *. change (INR 1) with 1 in *. rewrite ?f1, ?f2, ?f3, ?f4, ?f5, ?f6, ?f7, ?f8, ?f9, ?f10, ?f11, ?f12, ?f13, ?f14, ?f15, ?f16, ?f17 in *.
  set (y := th * th) in *. set (d := stumpff_small y).
  assert (Y : 0 < y) by (unfold y; nra).
  assert (Y7 : 0 <= y ^ 7 <= 1/10000000).
  { split; [apply pow_le; lra|]. replace (1/10000000) with ((1/10) ^ 7) by lra. apply pow_incr. lra. }
  assert (Y8 : 0 <= y * y ^ 7 <= 1/100000000) by (split; [apply Rmult_le_pos; lra|]; replace (1/100000000) with (1/10 * (1/10000000)) by lra; apply Rmult_le_compat; lra).
  assert (C : Rabs (c0 d - cos th) <= y * y ^ 7 / 20922789888000).
  { match type of C1 with ?A <= _ => assert (E1 : A = c0 d) by (unfold d, stumpff_small, y; cbn [c0]; field) end.
    match type of C2 with _ <= ?A => assert (E2 : A = c0 d + y * y ^ 7 / 20922789888000) by (unfold d, stumpff_small, y; cbn [c0]; field) end.
    rewrite E1 in C1. rewrite E2 in C2. apply Rabs_le. lra. }
  assert (D : Rabs (th * c1 d - sin th) <= th * (y * y ^ 7) / 355687428096000).
  { match type of S1 with ?A <= _ => assert (E1 : A = th * c1 d) by (unfold d, stumpff_small, y; cbn [c1]; field) end.
    match type of S2 with _ <= ?A => assert (E2 : A = th * c1 d + th * (y * y ^ 7) / 355687428096000) by (unfold d, stumpff_small, y; cbn [c1]; field) end.
    rewrite E1 in S1. rewrite E2 in S2. apply Rabs_le. lra. }
  clear C1 C2 S1 S2.
  assert (I0 : c0 d = 1 - y * c2 d) by reflexivity. assert (I1 : c1 d = 1 - y * c3 d) by reflexivity.
  clearbody d.
  assert (G : forall a k b, 0 < k -> Rabs (k * a) <= k * b -> Rabs a <= b).
  { intros a k b K H. rewrite Rabs_mult, (Rabs_right k) in H by lra. nra. }
  split; [|split; [|split]].
  - eapply Rle_trans; [exact C|]. lra.
  - apply (G _ th); auto. replace (th * (c1 d - sin th / th)) with (th * c1 d - sin th) by (field; lra). eapply Rle_trans; [exact D|].
    replace (th * (y * y ^ 7) / 355687428096000) with (th * (y * y ^ 7 / 355687428096000)) by field. apply Rmult_le_compat_l; lra.
  - apply (G _ y); auto. replace (th * th) with y by reflexivity. replace (y * (c2 d - (1 - cos th) / y)) with (- (c0 d - cos th)) by (rewrite I0; field; lra). rewrite Rabs_Ropp.
    eapply Rle_trans; [exact C|]. replace (y * y ^ 7 / 20922789888000) with (y * (y ^ 7 / 20922789888000)) by field. apply Rmult_le_compat_l; lra.
  - apply (G _ (th * y)); [nra|]. replace (th * th) with y by reflexivity. replace (th * y * (c3 d - (th - sin th) / (y * th))) with (- (th * c1 d - sin th)) by (rewrite I1; field; lra). rewrite Rabs_Ropp.
    eapply Rle_trans; [exact D|]. assert (0 < th * y) by nra. replace (th * (y * y ^ 7) / 355687428096000) with (th * y * (y ^ 7 / 355687428096000)) by field. apply Rmult_le_compat_l; lra.
Qed.

(** ** Doubling *)
Lemma Rabs_inv_le : forall x b, Rabs x <= b -> - b <= x <= b.
Proof. intros x b H. unfold Rabs in H. destruct (Rcase_abs x); lra. Qed.
Lemma sin_lower : forall x, 0 < x -> x - x * x * x / 2 <= sin x.
Proof.
  intros x P. destruct (Rle_dec x 4) as [L|L].
  - destruct (pre_sin_bound x 0) as [S _]; [lra|lra|]. unfold sin_approx, sin_term in S. cbn [Nat.mul Nat.add sum_f_R0] in S. rewrite f1, f3 in S.
    assert (0 < x * x * x) by (apply Rmult_lt_0_compat; [nra|lra]). simpl in S. lra.
  - pose proof (SIN_bound x). assert (16 * x <= x * x * x) by nra. lra.
Qed.
Lemma close_double : forall th b d, 0 < th -> 0 <= b -> close th b d -> close (2 * th) (4 * b + 2 * (b * b)) (double d).
Proof.
  intros th b d T0 B (A0 & A1 & A2 & A3). unfold double, close. cbn [c0 c1 c2 c3].
  set (k2 := (1 - cos th) / (th * th)) in *. set (k3 := (th - sin th) / (th * th * th)) in *. set (k1 := sin th / th) in *. set (k0 := cos th) in *.
  assert (N0 : -1 <= k0 <= 1) by apply COS_bound.
  assert (T : th <> 0) by lra.
  assert (N1 : -1 <= k1 <= 1).
  { assert (- th <= sin th <= th).
    { split; [|apply Rlt_le, sin_lt_x; auto]. destruct (Rle_dec th 1) as [L|L]; [pose proof (sin_lower th T0); nra|pose proof (SIN_bound th); lra]. }
    unfold k1. split; apply Rmult_le_reg_r with th; auto; replace (sin th / th * th) with (sin th) by (field; auto); lra. }
  assert (N3 : 0 <= k3 <= 1/2).
  { assert (0 < th * th * th) by (apply Rmult_lt_0_compat; [nra|lra]). pose proof (sin_lower th T0). pose proof (sin_lt_x th T0).
    unfold k3. split; apply Rmult_le_reg_r with (th * th * th); auto; replace ((th - sin th) / (th * th * th) * (th * th * th)) with (th - sin th) by (field; auto); lra. }
  replace (cos (2 * th)) with (2 * k0 * k0 - 1) by (unfold k0; rewrite cos_2a_cos; ring).
  replace (sin (2 * th) / (2 * th)) with (k0 * k1) by (unfold k1, k0; rewrite sin_2a; field; auto).
  replace ((1 - (2 * k0 * k0 - 1)) / (2 * th * (2 * th))) with (k1 * k1 / 2).
  2:{ unfold k0, k1. pose proof (sin2_cos2 th) as E. unfold Rsqr in E. replace (1 - (2 * cos th * cos th - 1)) with (2 * (sin th * sin th)) by lra. field; auto. }
  replace ((2 * th - sin (2 * th)) / (2 * th * (2 * th) * (2 * th))) with ((k2 + k0 * k3) / 4) by (unfold k2, k3, k0; rewrite sin_2a; field; auto).
  set (e0 := c0 d - k0) in *. set (e1 := c1 d - k1) in *. set (e2 := c2 d - k2) in *. set (e3 := c3 d - k3) in *.
  replace (c0 d) with (k0 + e0) by (unfold e0; ring). replace (c1 d) with (k1 + e1) by (unfold e1; ring).
  replace (c2 d) with (k2 + e2) by (unfold e2; ring). replace (c3 d) with (k3 + e3) by (unfold e3; ring).
  clearbody e0 e1 e2 e3 k0 k1 k2 k3.
  assert (M : forall p q P Q, Rabs p <= P -> Rabs q <= Q -> Rabs (p * q) <= P * Q).
  { intros p q P Q H H'. rewrite Rabs_mult. apply Rmult_le_compat; auto using Rabs_pos. }
  assert (K0 : Rabs k0 <= 1) by (apply Rabs_le; lra). assert (K1 : Rabs k1 <= 1) by (apply Rabs_le; lra). assert (K3 : Rabs k3 <= 1/2) by (apply Rabs_le; lra).
  pose proof (M _ _ _ _ A0 K0) as M1. pose proof (M _ _ _ _ A0 A0) as M2. pose proof (M _ _ _ _ A0 K1) as M3. pose proof (M _ _ _ _ A1 K0) as M4.
  pose proof (M _ _ _ _ A0 A1) as M5. pose proof (M _ _ _ _ A1 K1) as M6. pose proof (M _ _ _ _ A1 A1) as M7. pose proof (M _ _ _ _ A0 K3) as M8.
  pose proof (M _ _ _ _ A3 K0) as M9. pose proof (M _ _ _ _ A0 A3) as M10.
  assert (BB : 0 <= b * b) by nra.
  repeat match goal with H : Rabs _ <= _ |- _ => apply Rabs_inv_le in H end.
  split; [apply Rabs_le; lra|]. split; [apply Rabs_le; lra|]. split; [apply Rabs_le; lra|]. apply Rabs_le; lra.
Qed.

Lemma close_doubles : forall n th b d, 0 < th -> 0 <= b -> 4 ^ n * b <= 1 -> close th b d ->
  close (2 ^ n * th) (4 ^ n * b * (1 + 4 ^ n * b)) (doubles n d).
Proof.
  assert (G : forall n k th b d, 0 < th -> 0 <= b -> 4 ^ (n + k) * b <= 1 -> close (2 ^ k * th) (4 ^ k * b * (1 + 4 ^ k * b)) d ->
    close (2 ^ (n + k) * th) (4 ^ (n + k) * b * (1 + 4 ^ (n + k) * b)) (doubles n d)).
  { induction n as [|n IH]; intros k th b d P B L C; cbn [doubles]; [exact C|].
    replace (S n + k)%nat with (n + S k)%nat in * by lia. apply IH; auto.
    assert (P2 : 0 < 2 ^ k) by (apply pow_lt; lra). pose proof (pow4_pos k) as P4.
    set (u := 4 ^ k * b) in *.
    assert (U0 : 0 <= u) by (unfold u; apply Rmult_le_pos; lra).
    assert (U1 : u <= 1).
    { unfold u. apply Rle_trans with (4 ^ (n + S k) * b); auto. apply Rmult_le_compat_r; auto. apply Rle_pow; [lra|lia]. }
    assert (D : close (2 * (2 ^ k * th)) (4 * (u * (1 + u)) + 2 * (u * (1 + u) * (u * (1 + u)))) (double d)).
    { apply close_double; auto; [apply Rmult_lt_0_compat; auto|]. apply Rmult_le_pos; lra. }
    assert (E1 : 2 ^ S k * th = 2 * (2 ^ k * th)) by (simpl; ring). assert (E2 : 4 ^ S k * b = 4 * u) by (unfold u; simpl; ring).
    rewrite E1, E2.
    assert (M : 4 * (u * (1 + u)) + 2 * (u * (1 + u) * (u * (1 + u))) <= 4 * u * (1 + 4 * u)).
    { assert ((1 + u) * (1 + u) <= 6) by nra. assert (0 <= u * u) by nra. nra. }
    destruct D as (D0 & D1 & D2 & D3). repeat split; lra. }
  intros n th b d P B L C. specialize (G n 0%nat th b d P B). rewrite Nat.add_0_r in G. apply G; auto.
  destruct C as (C0 & C1 & C2 & C3). replace (2 ^ 0 * th) with th by (simpl; ring). replace (4 ^ 0 * b) with b by (simpl; ring).
  assert (b <= b * (1 + b)) by nra. repeat split; lra.
Qed.

(** ** All angles *)
Lemma reduce_small : forall fuel n x m y, reduce fuel n x = (m, y) -> m = n \/ 1/10 < Rabs (4 * y).
Proof.
  induction fuel as [|fuel IH]; intros n x m y H; cbn [reduce] in H; [injection H as <- <-; auto|].
  destruct (Rlt_dec (1/10) (Rabs x)) as [C|C]; [|injection H as <- <-; auto].
  destruct (IH _ _ _ _ H) as [E|E]; [|auto]. right. subst m.
  assert (y = x / 4); [|subst y; replace (4 * (x / 4)) with x by field; auto].
  destruct fuel as [|fuel]; cbn [reduce] in H; [injection H; auto|].
  destruct (Rlt_dec (1/10) (Rabs (x / 4))); [|injection H; auto].
  destruct (reduce_spec _ _ _ _ _ H) as (k & K & _). lia.
Qed.
Lemma stumpff_close : forall th, 0 < th -> th <= 1000000 ->
  close th ((1 + th * th) / 1000000000000000000) (stumpff (th * th)).
Proof.
  intros th P L. unfold stumpff. destruct (reduce (Z.to_nat (up (10 * Rabs (th * th)))) 0 (th * th)) as [n y] eqn:R.
  pose proof (reduce_done _ _ _ R) as [E B]. pose proof (reduce_small _ _ _ _ _ R) as S. cbv zeta in *.
  pose proof (pow4_pos n) as P4. assert (P2 : 0 < 2 ^ n) by (apply pow_lt; lra).
  assert (E24 : 2 ^ n * 2 ^ n = 4 ^ n) by (rewrite <- Rpow_mult_distr; f_equal; lra).
  set (z := th / 2 ^ n).
  assert (Z : 0 < z) by (apply Rdiv_lt_0_compat; auto).
  assert (Ey : y = z * z).
  { apply Rmult_eq_reg_l with (4 ^ n); [|lra]. rewrite <- E. unfold z. rewrite <- E24. field. lra. }
  rewrite Ey in *. rewrite (Rabs_right (z * z)) in B by nra.
  assert (U : 4 ^ n <= 1 + 40 * (th * th)).
  { destruct S as [->|S]; [simpl; nra|]. rewrite Rabs_right in S by nra. rewrite E. nra. }
  pose proof (close_small z Z B) as C0.
  assert (Q : 4 ^ n * (1 / 100000000000000000000) <= (1 + 40 * (th * th)) / 100000000000000000000) by lra.
  assert (T2 : th * th <= 1000000000000) by nra.
  assert (C : close (2 ^ n * z) (4 ^ n * (1 / 100000000000000000000) * (1 + 4 ^ n * (1 / 100000000000000000000))) (doubles n (stumpff_small (z * z)))).
  { apply close_doubles; auto; lra. }
  replace (2 ^ n * z) with th in C by (unfold z; field; lra).
  set (u := 4 ^ n * (1 / 100000000000000000000)) in *.
  assert (0 <= u) by (unfold u; lra).
  assert (M : u * (1 + u) <= (1 + th * th) / 1000000000000000000) by nra.
  destruct C as (D0 & D1 & D2 & D3). repeat split; lra.
Qed.
