(** The uncertainties computed in binary64 arithmetic are near those of the formulas. *)
From Coq Require Import String Reals ZArith Bool Lia Lra.
From Flocq Require Import Core.
From Verif Require Import Base.Prelude Model.Sphere Model.Photometry Model.LinkingFloat Model.Rounding Model.FadingFloat Model.UncertaintyFloat
  Spec.LinkingFloat Spec.Rounding Spec.UncertaintyFloat Spec.UncertaintyClose Proofs.LinkingFloat Proofs.Rounding Proofs.FadingFloat Proofs.AngleFloat Proofs.UncertaintyFloat.
Open Scope R_scope.

Local Instance prec53u : Prec_gt_0 53 := eq_refl.
Definition u : R := / 1125899906842624.
Lemma u_pow : / 2 ^ 50 = u. Proof. unfold u. lra. Qed.
Lemma u_pos : 0 < u. Proof. unfold u. lra. Qed.
(** [a] is [b] up to [n] units, and [b] is between 2^-k and 2^k. *)
Definition ok (n : R) (k : Z) (a b : R) : Prop :=
  0 <= n <= 2000 /\ bpow radix2 (- k) <= b <= bpow radix2 k /\ Rabs (a - b) <= n * u * b.
Lemma ok_pos : forall n k a b, ok n k a b -> 0 < b /\ b / 2 <= a <= 2 * b.
Proof.
  intros n k a b (N & B & R). assert (G := bpow_gt_0 radix2 (- k)). apply Rabs_le_inv in R.
  assert (n * u * b <= / 2 * b). { apply Rmult_le_compat_r; [lra|]. unfold u. lra. }
  lra.
Qed.
Lemma fl_ok : forall n k a b, ok n k a b -> n <= 1999 -> (0 <= k <= 900)%Z -> finish a = Real (fl a) /\ ok (n + 1) k (fl a) b.
Proof.
  intros n k a b O N K. destruct (ok_pos _ _ _ _ O) as [P A]. destruct O as (N' & B & R).
  assert (T := fl_two a). rewrite (Rabs_right a) in T by lra.
  assert (E : eta <= u / 8 * b).
  { assert (E1 : eta <= bpow radix2 (-1000)) by (apply bpow_le; lia).
    apply Rle_trans with (1 := E1). replace (-1000)%Z with (- (100) + - (900))%Z by lia. rewrite bpow_plus.
    apply Rmult_le_compat; try apply bpow_ge_0.
    - apply Rle_trans with (bpow radix2 (-53)); [apply bpow_le; lia|]. unfold u. cbn. lra.
    - apply Rle_trans with (2 := proj1 B). apply bpow_le. lia. }
  assert (S : small = u / 8) by (rewrite small_val; unfold u; lra).
  assert (D : Rabs (fl a - a) <= u * b). { rewrite S in T. assert (u / 8 * a <= u / 8 * (2 * b)) by (apply Rmult_le_compat_l; [assert (U := u_pos); lra|lra]). assert (U := u_pos). assert (0 <= u * b) by (apply Rmult_le_pos; lra). lra. }
  split.
  - apply (fb a (k + 1)); [lia|]. rewrite bpow_plus_1. change (IZR radix2) with 2. lra.
  - split; [lra|]. split; [exact B|]. replace (fl a - b) with (fl a - a + (a - b)) by ring.
    apply Rle_trans with (1 := Rabs_triang _ _). lra.
Qed.
Lemma ok_weaken : forall n k n' k' a b, ok n k a b -> n <= n' <= 2000 -> (k <= k')%Z -> ok n' k' a b.
Proof.
  intros n k n' k' a b O N K. destruct (ok_pos _ _ _ _ O) as [P _]. destruct O as (N' & B & R). split; [lra|]. split.
  - assert (B1 := bpow_le radix2 k k' K). assert (B2 := bpow_le radix2 (- k') (- k) ltac:(lia)). lra.
  - apply Rle_trans with (1 := R). apply Rmult_le_compat_r; [lra|]. apply Rmult_le_compat_r; [assert (U := u_pos); lra|lra].
Qed.
Lemma exact_ok : forall k b, bpow radix2 (- k) <= b <= bpow radix2 k -> ok 0 k b b.
Proof. intros k b B. split; [lra|]. split; [exact B|]. rewrite Rminus_diag_eq, Rabs_R0 by reflexivity. lra. Qed.
Lemma lit_ok : forall k x, bpow radix2 (- k) <= x <= bpow radix2 k -> (0 <= k <= 900)%Z -> ok 1 k (fl x) x.
Proof. intros k x X K. destruct (fl_ok 0 k x x (exact_ok k x X) ltac:(lra) K) as [_ O]. replace 1 with (0 + 1) by ring. exact O. Qed.
Lemma factor : forall n k a b, ok n k a b -> exists e, a = b * (1 + e) /\ Rabs e <= n * u.
Proof.
  intros n k a b O. destruct (ok_pos _ _ _ _ O) as [P _]. destruct O as (N & B & R). exists ((a - b) / b). split; [field; lra|].
  unfold Rdiv. rewrite Rabs_mult, (Rabs_right (/ b)) by (left; apply Rinv_0_lt_compat; lra).
  apply Rmult_le_reg_r with b; [lra|]. rewrite Rmult_assoc, Rinv_l, Rmult_1_r by lra. exact R.
Qed.
Lemma from_factor : forall n k b e, 0 <= n <= 2000 -> 0 < b -> bpow radix2 (- k) <= b <= bpow radix2 k -> Rabs e <= n * u -> ok n k (b * (1 + e)) b.
Proof.
  intros n k b e N P B E. split; [exact N|]. split; [exact B|]. replace (b * (1 + e) - b) with (e * b) by ring.
  rewrite Rabs_mult, (Rabs_right b) by lra. apply Rmult_le_compat_r; lra.
Qed.
Lemma mid_mul : forall b b' k k', bpow radix2 (- k) <= b <= bpow radix2 k -> bpow radix2 (- k') <= b' <= bpow radix2 k' ->
  bpow radix2 (- (k + k')) <= b * b' <= bpow radix2 (k + k').
Proof.
  intros b b' k k' B B'. assert (G := bpow_gt_0 radix2 (- k)). assert (G' := bpow_gt_0 radix2 (- k')).
  replace (- (k + k'))%Z with (- k + - k')%Z by lia. rewrite !bpow_plus. split; apply Rmult_le_compat; lra.
Qed.
Lemma mid_inv : forall b k, bpow radix2 (- k) <= b <= bpow radix2 k -> bpow radix2 (- k) <= / b <= bpow radix2 k.
Proof.
  intros b k B. assert (G := bpow_gt_0 radix2 (- k)). split.
  - rewrite bpow_opp. apply Rinv_le_contravar; lra.
  - replace k with (- - k)%Z by lia. rewrite (bpow_opp radix2 (- k)). apply Rinv_le_contravar; lra.
Qed.
Lemma mul_err : forall n n' e e', 0 <= n <= 2000 -> 0 <= n' <= 2000 -> Rabs e <= n * u -> Rabs e' <= n' * u -> Rabs ((1 + e) * (1 + e') - 1) <= (n + n' + / 2) * u.
Proof.
  intros n n' e e' N N' E E'. replace ((1 + e) * (1 + e') - 1) with (e + e' + e * e') by ring.
  assert (Q : Rabs (e * e') <= / 2 * u).
  { rewrite Rabs_mult. apply Rle_trans with (2000 * u * (2000 * u)); [|unfold u; lra].
    apply Rmult_le_compat; try apply Rabs_pos; [apply Rle_trans with (1 := E)|apply Rle_trans with (1 := E')]; apply Rmult_le_compat_r; try lra; left; exact u_pos. }
  apply Rle_trans with (1 := Rabs_triang _ _). assert (T := Rabs_triang e e'). lra.
Qed.
Lemma inv_err : forall n e, 0 <= n <= 2000 -> Rabs e <= n * u -> exists e', / (1 + e) = 1 + e' /\ Rabs e' <= (n + / 4) * u.
Proof.
  intros n e N E. assert (S : Rabs e <= 2000 * u) by (apply Rle_trans with (1 := E); apply Rmult_le_compat_r; [left; exact u_pos|lra]).
  assert (S' := S). apply Rabs_le_inv in S'. assert (U : 2000 * u <= / 100000) by (unfold u; lra).
  exists (/ (1 + e) - 1). split; [ring|]. replace (/ (1 + e) - 1) with (- e + e * (e * / (1 + e))) by (field; lra).
  apply Rle_trans with (1 := Rabs_triang _ _). rewrite Rabs_Ropp.
  assert (Q : Rabs (e * (e * / (1 + e))) <= / 4 * u).
  { rewrite !Rabs_mult. assert (I : 0 < / (1 + e) <= 2). { split; [apply Rinv_0_lt_compat; lra|]. replace 2 with (/ / 2) by lra. apply Rinv_le_contravar; lra. }
    rewrite (Rabs_right (/ (1 + e))) by lra. apply Rle_trans with (2000 * u * (2000 * u * 2)); [|unfold u; lra].
    apply Rmult_le_compat; try apply Rabs_pos; [apply Rmult_le_pos; [apply Rabs_pos|lra]|exact S|]. apply Rmult_le_compat; try apply Rabs_pos; lra. }
  lra.
Qed.
Lemma prod_ok : forall n k a b n' k' a' b', ok n k a b -> ok n' k' a' b' -> n + n' <= 1995 -> ok (n + n' + / 2) (k + k') (a * a') (b * b').
Proof.
  intros n k a b n' k' a' b' O O' N. destruct (ok_pos _ _ _ _ O) as [P _]. destruct (ok_pos _ _ _ _ O') as [P' _].
  destruct (factor _ _ _ _ O) as (e & -> & E). destruct (factor _ _ _ _ O') as (e' & -> & E'). destruct O as (N1 & B & _). destruct O' as (N2 & B' & _).
  assert (M := mul_err n n' e e' N1 N2 E E').
  replace (b * (1 + e) * (b' * (1 + e'))) with (b * b' * (1 + ((1 + e) * (1 + e') - 1))) by ring.
  apply from_factor; [lra|apply Rmult_lt_0_compat; lra|apply mid_mul; assumption|exact M].
Qed.
Lemma inv_ok : forall n k a b, ok n k a b -> n <= 1990 -> ok (n + / 4) k (/ a) (/ b).
Proof.
  intros n k a b O N. destruct (ok_pos _ _ _ _ O) as [P A]. destruct (factor _ _ _ _ O) as (e & E1 & E). destruct O as (N1 & B & _).
  destruct (inv_err n e N1 E) as (e' & I & E'). assert (NZ : 1 + e <> 0) by (intro Z; rewrite Z, Rmult_0_r in E1; lra).
  replace (/ a) with (/ b * (1 + e')) by (rewrite <- I, E1; field; lra).
  apply from_factor; [lra|apply Rinv_0_lt_compat; lra|apply mid_inv; exact B|exact E'].
Qed.
Lemma mul_ok : forall n k a b n' k' a' b', ok n k a b -> ok n' k' a' b' -> n + n' <= 1990 -> (0 <= k + k' <= 900)%Z ->
  exists w, multiply (Real a) (Real a') = Real w /\ ok (n + n' + 2) (k + k') w (b * b').
Proof.
  intros n k a b n' k' a' b' O O' N K. assert (Q := prod_ok _ _ _ _ _ _ _ _ O O' ltac:(lra)). destruct (fl_ok _ _ _ _ Q ltac:(lra) K) as [F R].
  exists (fl (a * a')). split; [exact F|]. apply (ok_weaken _ _ _ _ _ _ R); [lra|lia].
Qed.
Lemma div_ok : forall n k a b n' k' a' b', ok n k a b -> ok n' k' a' b' -> n + n' <= 1990 -> (0 <= k + k' <= 900)%Z ->
  exists w, quotient (Real a) (Real a') = Real w /\ ok (n + n' + 2) (k + k') w (b / b').
Proof.
  intros n k a b n' k' a' b' O O' N K. destruct (ok_pos _ _ _ _ O') as [P A].
  assert (N1 := proj1 O). assert (N2 := proj1 O').
  assert (Q := prod_ok _ _ _ _ _ _ _ _ O (inv_ok _ _ _ _ O' ltac:(lra)) ltac:(lra)). destruct (fl_ok _ _ _ _ Q ltac:(lra) K) as [F R].
  exists (fl (a * / a')). cbn [quotient]. destruct (Req_EM_T a' 0); [lra|]. split; [exact F|]. apply (ok_weaken _ _ _ _ _ _ R); [lra|lia].
Qed.
Lemma add_ok : forall n k a b a' b', ok n k a b -> ok n k a' b' -> n <= 1990 -> (0 <= k <= 800)%Z ->
  exists w, plus (Real a) (Real a') = Real w /\ ok (n + 1) (k + 1) w (b + b').
Proof.
  intros n k a b a' b' O O' N K. destruct (ok_pos _ _ _ _ O) as [P _]. destruct (ok_pos _ _ _ _ O') as [P' _]. destruct O as (N1 & B & R). destruct O' as (N2 & B' & R').
  assert (Q : ok n (k + 1) (a + a') (b + b')).
  { split; [exact N1|]. split.
    - rewrite bpow_plus_1. change (IZR radix2) with 2. assert (M := bpow_le radix2 (- (k + 1)) (- k) ltac:(lia)). lra.
    - replace (a + a' - (b + b')) with ((a - b) + (a' - b')) by ring. apply Rle_trans with (1 := Rabs_triang _ _). lra. }
  destruct (fl_ok _ _ _ _ Q ltac:(lra) ltac:(lia)) as [F S]. exists (fl (a + a')). split; [exact F|exact S].
Qed.
Lemma root_ok : forall n k a b, ok n k a b -> n <= 1990 -> (0 <= k <= 900)%Z -> exists w, root (Real a) = Real w /\ ok (n + 1) k w (sqrt b).
Proof.
  intros n k a b O N K. destruct (ok_pos _ _ _ _ O) as [P A]. destruct O as (N1 & B & R).
  assert (SB := sqrt_lt_R0 b P). assert (SA := sqrt_pos a).
  assert (Q : ok n k (sqrt a) (sqrt b)).
  { split; [exact N1|]. split.
    - destruct (Rle_or_lt 1 b) as [G|G].
      + assert (1 <= sqrt b) by (rewrite <- sqrt_1; apply sqrt_le_1; lra). assert (sqrt b <= b). { rewrite <- (sqrt_sqrt b) at 2 by lra. rewrite <- (Rmult_1_r (sqrt b)) at 1. apply Rmult_le_compat_l; lra. }
        assert (bpow radix2 (- k) <= 1) by (rewrite <- e0; apply bpow_le; lia). lra.
      + assert (sqrt b <= 1) by (rewrite <- sqrt_1; apply sqrt_le_1; lra). assert (b <= sqrt b). { rewrite <- (sqrt_sqrt b) at 1 by lra. rewrite <- (Rmult_1_r (sqrt b)) at 3. apply Rmult_le_compat_l; lra. }
        assert (1 <= bpow radix2 k) by (rewrite <- e0; apply bpow_le; lia). lra.
    - apply Rmult_le_reg_r with (sqrt a + sqrt b); [lra|]. rewrite <- (Rabs_right (sqrt a + sqrt b)) at 1 by lra. rewrite <- Rabs_mult.
      replace ((sqrt a - sqrt b) * (sqrt a + sqrt b)) with (sqrt a * sqrt a - sqrt b * sqrt b) by ring. rewrite !sqrt_sqrt by lra.
      apply Rle_trans with (1 := R). rewrite <- (sqrt_sqrt b) at 1 by lra. assert (0 <= n * u * sqrt b * sqrt a).
      { apply Rmult_le_pos; [apply Rmult_le_pos; [apply Rmult_le_pos; [lra|left; exact u_pos]|lra]|lra]. }
      lra. }
  destruct (fl_ok _ _ _ _ Q ltac:(lra) K) as [F S]. exists (fl (sqrt a)). cbn [root]. rewrite rltb_nn by lra. split; [exact F|exact S].
Qed.

(** ** Logarithm and power *)
Lemma ln10_ge : 2 <= ln 10.
Proof.
  assert (E : exp 2 <= 10). { replace 2 with (1 + 1) by ring. rewrite exp_plus. assert (H := exp_le_3). assert (P := exp_pos 1). assert (exp 1 * exp 1 <= 3 * 3) by (apply Rmult_le_compat; lra). lra. }
  rewrite <- (ln_exp 2). destruct (Req_dec (exp 2) 10) as [->|N]; [lra|]. left. apply ln_increasing; [apply exp_pos|lra].
Qed.
Lemma ln10_le : ln 10 <= 5 / 2.
Proof.
  assert (E : 10 <= exp (5 / 2)).
  { replace (5 / 2) with (INR 20 * / 8) by (cbn; lra). rewrite exp_pow. assert (H := exp_ge (/ 8)).
    apply Rle_trans with ((9 / 8) ^ 20); [lra|]. apply pow_incr. lra. }
  rewrite <- (ln_exp (5 / 2)). destruct (Req_dec 10 (exp (5 / 2))) as [<-|N]; [lra|]. left. apply ln_increasing; lra.
Qed.
Lemma ln_le_minus : forall x, 0 < x -> ln x <= x - 1.
Proof. intros x X. assert (H := exp_ge (ln x)). rewrite exp_ln in H by exact X. lra. Qed.
Lemma ln_mono : forall x y, 0 < x <= y -> ln x <= ln y.
Proof. intros x y H. destruct (Req_dec x y) as [->|N]; [lra|]. left. apply ln_increasing; lra. Qed.
Lemma log2_le : forall j x, (0 <= j)%Z -> 1 <= x <= bpow radix2 j -> 0 <= ln x / ln 10 <= IZR j / 3.
Proof.
  intros j x J X. assert (L := ln10_ge). assert (I : 0 < / ln 10) by (apply Rinv_0_lt_compat; lra).
  assert (P : 0 <= ln x) by (rewrite <- ln_1; apply ln_mono; lra). split; [apply Rmult_le_pos; lra|].
  assert (A : ln x <= IZR j * ln 2).
  { apply Rle_trans with (ln (bpow radix2 j)); [apply ln_mono; lra|]. right. rewrite <- (Z2Nat.id j J). rewrite <- p2. rewrite ln_pow by lra. rewrite INR_IZR_INZ. reflexivity. }
  assert (B : 3 * ln 2 <= ln 10). { replace 3 with (INR 3) by (cbn; lra). rewrite <- ln_pow by lra. apply ln_mono. lra. }
  assert (J' : 0 <= IZR j) by (apply IZR_le; lia). apply Rmult_le_reg_r with (ln 10); [lra|]. unfold Rdiv. rewrite Rmult_assoc, Rinv_l, Rmult_1_r by lra.
  apply Rle_trans with (1 := A). assert (IZR j * (3 * ln 2) <= IZR j * ln 10) by (apply Rmult_le_compat_l; lra). lra.
Qed.
Lemma log_ok : forall L n k j a b, accurate_log L -> ok n k a b -> n <= 1990 -> 1 <= a -> format a -> 1 <= b <= bpow radix2 j -> (0 <= j <= 900)%Z ->
  exists y, L (Real a) = Real y /\ 0 <= y <= (IZR j + 2) / 3 /\ Rabs (y - ln b / ln 10) <= ((n + 1) / 2 + (IZR j + 1) / 3) * u.
Proof.
  intros L n k j a b LA O N A FA B J. assert (U := u_pos). assert (UU : u <= / 1000000) by (unfold u; lra).
  destruct (ok_pos _ _ _ _ O) as [P Q]. assert (N1 := proj1 O).
  assert (AJ : a <= bpow radix2 (j + 1)) by (rewrite bpow_plus_1; change (IZR radix2) with 2; lra).
  assert (T : bpow radix2 (j + 1) < bpow radix2 1024) by (apply bpow_lt; lia).
  assert (BA : binary64 a) by (split; [exact FA|rewrite Rabs_right; lra]). destruct (LA a BA A) as (y & EY & Y). rewrite u_pow in Y. exists y. split; [exact EY|].
  destruct (log2_le (j + 1) a ltac:(lia) (conj A AJ)) as [A0 A1]. rewrite plus_IZR in A1.
  assert (L10 := ln10_ge). assert (I10 : 0 < / ln 10 <= / 2) by (split; [apply Rinv_0_lt_compat; lra|apply Rinv_le_contravar; lra]).
  destruct (factor _ _ _ _ O) as (e & EA & E). destruct (factor _ _ _ _ (inv_ok _ _ _ _ O N)) as (e' & EA' & E').
  assert (D : Rabs (ln a - ln b) <= (n + 1) * u).
  { apply Rabs_le_inv in E. apply Rabs_le_inv in E'.
    assert (X1 : ln a - ln b <= e).
    { assert (H := ln_le_minus (a / b) ltac:(apply Rmult_lt_0_compat; [lra|apply Rinv_0_lt_compat; lra])). unfold Rdiv in H. rewrite ln_mult, ln_Rinv in H; [|lra|lra|apply Rinv_0_lt_compat; lra].
      replace (a * / b) with (1 + e) in H by (rewrite EA; field; lra). lra. }
    assert (X2 : ln b - ln a <= e').
    { assert (H := ln_le_minus (b * / a) ltac:(apply Rmult_lt_0_compat; [lra|apply Rinv_0_lt_compat; lra])). rewrite ln_mult, ln_Rinv in H; [|lra|lra|apply Rinv_0_lt_compat; lra].
      rewrite EA' in H. replace (b * (/ b * (1 + e'))) with (1 + e') in H by (field; lra). lra. }
    apply Rabs_le. lra. }
  assert (D' : Rabs (ln a / ln 10 - ln b / ln 10) <= (n + 1) / 2 * u).
  { replace (ln a / ln 10 - ln b / ln 10) with ((ln a - ln b) * / ln 10) by (unfold Rdiv; ring). rewrite Rabs_mult, (Rabs_right (/ ln 10)) by lra.
    apply Rle_trans with ((n + 1) * u * / 2); [apply Rmult_le_compat; try lra; apply Rabs_pos|lra]. }
  assert (Y' : Rabs (y - ln a / ln 10) <= (IZR j + 1) / 3 * u).
  { apply Rle_trans with (1 := Y). rewrite Rmult_comm. apply Rmult_le_compat_r; lra. }
  assert (UL : u * (ln a / ln 10) <= ln a / ln 10) by (rewrite <- (Rmult_1_l (ln a / ln 10)) at 2; apply Rmult_le_compat_r; lra).
  split.
  - assert (Y2 := Y). apply Rabs_le_inv in Y2. assert (J0 : 0 <= IZR j <= 900) by (split; apply IZR_le; lia).
    assert (Y3 := Y'). apply Rabs_le_inv in Y3. assert ((IZR j + 1) / 3 * u <= 1000 * u) by (apply Rmult_le_compat_r; lra). lra.
  - replace (y - ln b / ln 10) with ((y - ln a / ln 10) + (ln a / ln 10 - ln b / ln 10)) by ring. apply Rle_trans with (1 := Rabs_triang _ _). lra.
Qed.
Lemma exp_near : forall t, Rabs t <= / 1000000 -> Rabs (exp t - 1) <= Rabs t + 2 * (Rabs t * Rabs t).
Proof.
  intros t T. assert (A := exp_ge t). assert (B := exp_ge (- t)). assert (P := exp_pos t). assert (T' := T). apply Rabs_le_inv in T'.
  assert (C : exp t <= 1 + t + 2 * (t * t)).
  { rewrite exp_Ropp in B. assert (M : (1 + - t) * exp t <= 1). { apply Rle_trans with (/ exp t * exp t); [apply Rmult_le_compat_r; lra|rewrite Rinv_l; lra]. }
    apply Rmult_le_reg_l with (1 + - t); [lra|]. apply Rle_trans with (1 := M).
    assert (0 <= t * t) by apply Rle_0_sqr. assert (2 * (t * t) * t <= 2 * (t * t) * / 1000000) by (apply Rmult_le_compat_l; lra). lra. }
  assert (Q : Rabs t * Rabs t = t * t) by (rewrite <- Rabs_mult; apply Rabs_right; apply Rle_ge; apply Rle_0_sqr). rewrite Q.
  assert (0 <= t * t) by apply Rle_0_sqr. apply Rabs_le. unfold Rabs. destruct (Rcase_abs t); lra.
Qed.
Lemma pow_ok : forall P v e, accurate_power P -> Rabs e <= 54 -> Rabs (v - e) <= 55 * u -> exists y, P (Real v) = Real y /\ ok 140 180 y (Rpower 10 e).
Proof.
  intros P v e PA E D. assert (U := u_pos). assert (UU : 55 * u <= / 1000000000) by (unfold u; lra). assert (D' := D). apply Rabs_le_inv in D'. apply Rabs_le_inv in E.
  destruct (PA v ltac:(apply Rabs_le; lra)) as (y & EY & Y). exists y. split; [exact EY|]. rewrite u_pow in Y.
  assert (PE := Rpower_pos e). set (X := Rpower 10 e) in *.
  assert (EV : Rpower 10 v = X * exp ((v - e) * ln 10)). { unfold X, Rpower. rewrite <- exp_plus. f_equal. ring. }
  assert (L1 := ln10_ge). assert (L2 := ln10_le).
  assert (T : Rabs ((v - e) * ln 10) <= 138 * u). { rewrite Rabs_mult, (Rabs_right (ln 10)) by lra. apply Rle_trans with (55 * u * (5 / 2)); [apply Rmult_le_compat; try lra; apply Rabs_pos|lra]. }
  assert (N := exp_near ((v - e) * ln 10) ltac:(lra)). set (w := exp ((v - e) * ln 10) - 1) in *.
  assert (W : Rabs w <= 138 * u + / 4 * u).
  { apply Rle_trans with (1 := N). assert (Rabs ((v - e) * ln 10) * Rabs ((v - e) * ln 10) <= 138 * u * (138 * u)) by (apply Rmult_le_compat; try apply Rabs_pos; exact T).
    assert (138 * u * (138 * u) <= / 8 * u) by (unfold u; lra). lra. }
  assert (EV' : Rpower 10 v = X + X * w) by (rewrite EV; unfold w; ring).
  assert (WX : Rabs (X * w) <= (138 + / 4) * u * X). { rewrite Rabs_mult, (Rabs_right X) by lra. rewrite Rmult_comm. apply Rmult_le_compat_r; lra. }
  assert (S : u * Rpower 10 v <= 3 / 2 * u * X).
  { rewrite EV'. apply Rabs_le_inv in WX. assert ((138 + / 4) * u * X <= / 2 * X) by (apply Rmult_le_compat_r; lra).
    apply Rle_trans with (u * (3 / 2 * X)); [apply Rmult_le_compat_l; lra|lra]. }
  split; [lra|]. split.
  - assert (B1 : 10 ^ 54 <= bpow radix2 180) by (change (bpow radix2 180) with (IZR (Z.pow_pos 2 180)); lra).
    assert (X1 : X <= 10 ^ 54). { unfold X. rewrite <- Rpower_pow by lra. apply Rle_Rpower; [lra|]. rewrite INR_IZR_INZ. cbn. lra. }
    assert (X2 : / 10 ^ 54 <= X). { unfold X. rewrite <- Rpower_pow by lra. rewrite <- Rpower_Ropp. apply Rle_Rpower; [lra|]. rewrite INR_IZR_INZ. cbn. lra. }
    assert (B2 : bpow radix2 (- (180)) <= / 10 ^ 54) by (rewrite bpow_opp; apply Rinv_le_contravar; lra). lra.
  - assert (0 <= u * X) by (apply Rmult_le_pos; lra). replace (y - X) with ((y - Rpower 10 v) + X * w) by (rewrite EV'; ring). apply Rle_trans with (1 := Rabs_triang _ _). lra.
Qed.

(** ** Signal-to-noise ratio *)
Lemma tiny_ok : forall x, Rabs x <= 1000 -> Rabs (fl x - x) <= / 8 * u * Rabs x + / 100 * u.
Proof.
  intros x X. assert (T := fl_two x). rewrite small_val in T. assert (E := eta_small'). rewrite small_val in E. unfold u. lra.
Qed.
Lemma exponent : forall mh mm d, Rabs (mh - mm) <= 80 * u -> Rabs (mm - d) <= 135 ->
  exists v, multiply (literal (4 / 10)) (minus (Real mh) (Real d)) = Real v /\ Rabs (v - 4 / 10 * (mm - d)) <= 55 * u.
Proof.
  intros mh mm d H M. assert (U := u_pos). assert (UU : 1000 * u <= / 1000000) by (unfold u; lra). assert (H' := H). apply Rabs_le_inv in H'. assert (M' := M). apply Rabs_le_inv in M'.
  assert (A1 : Rabs (mh + - d) <= 136) by (apply Rabs_le; lra). unfold literal. cbn [minus plus].
  destruct (fl_within (mh + - d) 136 ltac:(lia) A1) as [B1 ->]. cbn [multiply].
  assert (T1 := tiny_ok (mh + - d) ltac:(lra)). assert (T1' : Rabs (fl (mh + - d) - (mh + - d)) <= 171 / 10 * u).
  { apply Rle_trans with (1 := T1). assert (/ 8 * u * Rabs (mh + - d) <= / 8 * u * 136) by (apply Rmult_le_compat_l; lra). lra. }
  assert (T2 := tiny_ok (4 / 10) ltac:(rewrite Rabs_right; lra)). rewrite (Rabs_right (4 / 10)) in T2 by lra.
  assert (F4 : Rabs (fl (4 / 10)) <= 41 / 100) by (apply Rabs_le; apply Rabs_le_inv in T2; lra).
  assert (A2 : Rabs (fl (4 / 10) * fl (mh + - d)) <= 56). { rewrite Rabs_mult. apply Rle_trans with (41 / 100 * 136); [apply Rmult_le_compat; try apply Rabs_pos; lra|lra]. }
  destruct (fl_within _ 56 ltac:(lia) A2) as [_ ->]. eexists. split; [reflexivity|].
  assert (T3 := tiny_ok _ (Rle_trans _ _ 1000 A2 ltac:(lra))). assert (T3' : Rabs (fl (fl (4 / 10) * fl (mh + - d)) - fl (4 / 10) * fl (mh + - d)) <= 71 / 10 * u).
  { apply Rle_trans with (1 := T3). assert (/ 8 * u * Rabs (fl (4 / 10) * fl (mh + - d)) <= / 8 * u * 56) by (apply Rmult_le_compat_l; lra). lra. }
  set (q := fl (fl (4 / 10) * fl (mh + - d))) in *. set (f := fl (4 / 10)) in *. set (g := fl (mh + - d)) in *.
  assert (X1 : Rabs ((f - 4 / 10) * g) <= 82 / 10 * u).
  { rewrite Rabs_mult. apply Rle_trans with (6 / 100 * u * 136); [apply Rmult_le_compat; try apply Rabs_pos; lra|lra]. }
  replace (q - 4 / 10 * (mm - d)) with ((q - f * g) + (f - 4 / 10) * g + 4 / 10 * ((g - (mh + - d)) + (mh - mm))) by ring.
  apply Rabs_le_inv in T3'. apply Rabs_le_inv in X1. apply Rabs_le_inv in T1'. apply Rabs_le. lra.
Qed.
Lemma C0_ok : ok 2 10 C0 (1 / 1000).
Proof. split; [lra|]. split; [cbn; lra|]. unfold C0, u. apply Rabs_le. lra. Qed.
Lemma G0_ok : ok 1 5 G0 (39 / 1000).
Proof. unfold G0. rewrite <- fl_0039. apply lit_ok; [cbn; lra|lia]. Qed.
Lemma snr_ok : forall P mh mm d, accurate_power P -> Rabs (mh - mm) <= 80 * u -> Rabs (mm - d) <= 135 ->
  exists w, snr_f P (Real mh) (Real d) = Real w /\ ok 289 366 w (exact_snr mm d).
Proof.
  intros P mh mm d PA H M. rewrite snr_unfold. destruct (exponent mh mm d H M) as (v & EV & V). unfold literal in EV. rewrite EV. cbv zeta.
  assert (E : Rabs (4 / 10 * (mm - d)) <= 54) by (rewrite Rabs_mult, (Rabs_right (4 / 10)) by lra; lra).
  destruct (pow_ok P v _ PA E V) as (x & -> & X). set (Z := Rpower 10 (4 / 10 * (mm - d))) in *.
  destruct (mul_ok _ _ _ _ _ _ _ _ C0_ok X ltac:(lra) ltac:(lia)) as (a & -> & A).
  destruct (mul_ok _ _ _ _ _ _ _ _ G0_ok X ltac:(lra) ltac:(lia)) as (b & -> & B).
  destruct (mul_ok _ _ _ _ _ _ _ _ B X ltac:(lra) ltac:(lia)) as (c & -> & C).
  assert (A' := ok_weaken _ _ 285 365 _ _ A ltac:(lra) ltac:(lia)). assert (C' := ok_weaken _ _ 285 365 _ _ C ltac:(lra) ltac:(lia)).
  destruct (add_ok _ _ _ _ _ _ A' C' ltac:(lra) ltac:(lia)) as (r & -> & R).
  destruct (root_ok _ _ _ _ R ltac:(lra) ltac:(lia)) as (s & -> & S).
  assert (O1 : ok 0 0 1 1) by (apply exact_ok; cbn; lra).
  destruct (div_ok _ _ _ _ _ _ _ _ O1 S ltac:(lra) ltac:(lia)) as (w & -> & W). exists w. split; [reflexivity|].
  unfold exact_snr. fold Z. replace (1 / 1000 * Z + 39 / 1000 * Z ^ 2) with (1 / 1000 * Z + 39 / 1000 * Z * Z) by ring.
  apply (ok_weaken _ _ _ _ _ _ W); [lra|lia].
Qed.
Lemma times_close : forall q y z e j, format q -> 0 <= q <= 3 -> 0 <= y <= j -> j <= 300 -> Rabs (y - z) <= e * u -> 0 <= e <= 1000 ->
  exists w, multiply (literal q) (Real y) = Real w /\ Rabs (w - q * z) <= (q * e + q * j / 8 + / 100) * u.
Proof.
  intros q y z e j F Q Y J D E. assert (U := u_pos). unfold literal. rewrite fl_float by exact F. cbn [multiply].
  assert (QY : 0 <= q * y <= q * j) by (split; [apply Rmult_le_pos; lra|apply Rmult_le_compat_l; lra]).
  assert (QJ : q * j <= 900) by (apply Rle_trans with (3 * 300); [apply Rmult_le_compat; lra|lra]).
  destruct (fl_within (q * y) 900 ltac:(lia) ltac:(rewrite Rabs_right; lra)) as [_ ->]. eexists. split; [reflexivity|].
  assert (T := tiny_ok (q * y) ltac:(rewrite Rabs_right; lra)). rewrite (Rabs_right (q * y)) in T by lra.
  assert (T1 : / 8 * u * (q * y) <= / 8 * u * (q * j)) by (apply Rmult_le_compat_l; lra).
  assert (T2 : Rabs (q * (y - z)) <= q * (e * u)) by (rewrite Rabs_mult, (Rabs_right q) by lra; apply Rmult_le_compat_l; lra).
  replace (fl (q * y) - q * z) with ((fl (q * y) - q * y) + q * (y - z)) by ring. apply Rle_trans with (1 := Rabs_triang _ _). lra.
Qed.
Lemma sigma_ok : forall L w s, accurate_log L -> ok 289 366 w s -> exists e, calcPhotometricUncertainty_f L (Real w) = Real e /\ Rabs (e - exact_sigma s) <= 730 * u.
Proof.
  intros L w s LA W. unfold calcPhotometricUncertainty_f. assert (O1 : ok 0 0 1 1) by (apply exact_ok; cbn; lra).
  destruct (div_ok _ _ _ _ _ _ _ _ O1 W ltac:(lra) ltac:(lia)) as (q & -> & Q). assert (Q' := ok_weaken _ _ 291 366 _ _ Q ltac:(lra) ltac:(lia)).
  assert (O1' := ok_weaken _ _ 291 366 _ _ O1 ltac:(lra) ltac:(lia)).
  destruct (add_ok _ _ _ _ _ _ O1' Q' ltac:(lra) ltac:(lia)) as (r & ER & R).
  destruct (ok_pos _ _ _ _ Q') as [PQ AQ].
  assert (R1 : 1 <= r /\ format r). { cbn [plus] in ER.
    destruct (finish_cases (1 + q)) as [[G _]|[G _]]; rewrite G in ER; [|discriminate]. injection ER as <-. split; [apply fl_ge_float; [apply (format_int 1); lia|lra]|apply fl_format]. }
  rewrite ER.
  assert (RB : 1 <= 1 + 1 / s <= bpow radix2 367) by (split; [lra|]; change 367%Z with (366 + 1)%Z; exact (proj2 (proj1 (proj2 R)))).
  destruct (log_ok L _ _ 367 r _ LA R ltac:(lra) (proj1 R1) (proj2 R1) RB ltac:(lia)) as (y & -> & Y & D).
  assert (F25 : format (25 / 10)). { replace (25 / 10) with (IZR 5 * bpow radix2 (-1)) by (cbn; lra). apply dyadic; lia. }
  destruct (times_close (25 / 10) y _ _ 123 F25 ltac:(lra) ltac:(lra) ltac:(lra) D ltac:(lra)) as (e & -> & E'). exists e. split; [reflexivity|].
  unfold exact_sigma. apply Rle_trans with (1 := E'). apply Rmult_le_compat_r; [left; exact u_pos|lra].
Qed.
Lemma astro_ok : forall P s k mh mm d, accurate_power P -> Rabs (mh - mm) <= 80 * u -> Rabs (mm - d) <= 135 -> / 2 ^ 10 <= s <= 2 ^ 10 ->
  Rabs (k - / 3600000) <= u * / 3600000 ->
  exists w, multiply (fst (calcAstrometricUncertainty_f P (Real mh) (Real d) (multiply (Real s) (Real 1000)))) (Real k) = Real w
    /\ ok 600 800 w (exact_astrometric s (exact_snr mm d)).
Proof.
  intros P s k mh mm d PA H M S K. destruct (snr_ok P mh mm d PA H M) as (v & EV & V).
  unfold calcAstrometricUncertainty_f, random_error_f. cbn [fst]. rewrite EV.
  assert (OS : ok 0 10 s s) by (apply exact_ok; cbn; lra). assert (OT : ok 0 10 1000 1000) by (apply exact_ok; cbn; lra).
  destruct (mul_ok _ _ _ _ _ _ _ _ OS OT ltac:(lra) ltac:(lia)) as (f & -> & F).
  assert (O6 : ok 1 1 (fl (6 / 10)) (6 / 10)) by (apply lit_ok; [cbn; lra|lia]). unfold literal.
  destruct (mul_ok _ _ _ _ _ _ _ _ O6 F ltac:(lra) ltac:(lia)) as (g & -> & G).
  destruct (div_ok _ _ _ _ _ _ _ _ G V ltac:(lra) ltac:(lia)) as (e & -> & E).
  destruct (mul_ok _ _ _ _ _ _ _ _ E E ltac:(lra) ltac:(lia)) as (e2 & -> & E2).
  assert (T : multiply (Real 10) (Real 10) = Real 100).
  { cbn [multiply]. replace (10 * 10) with 100 by ring. apply small_finish; [apply (format_int 100); lia|rewrite Rabs_right; lra]. }
  rewrite T. assert (OH : ok 0 7 100 100) by (apply exact_ok; cbn; lra).
  assert (OH' := ok_weaken _ _ 594 774 _ _ OH ltac:(lra) ltac:(lia)). assert (E2' := ok_weaken _ _ 594 774 _ _ E2 ltac:(lra) ltac:(lia)).
  destruct (add_ok _ _ _ _ _ _ OH' E2' ltac:(lra) ltac:(lia)) as (r & -> & R). destruct (root_ok _ _ _ _ R ltac:(lra) ltac:(lia)) as (q & -> & Q).
  assert (OK : ok 1 22 k (/ 3600000)) by (split; [lra|]; split; [cbn; lra|lra]).
  destruct (mul_ok _ _ _ _ _ _ _ _ Q OK ltac:(lra) ltac:(lia)) as (w & -> & W). exists w. split; [reflexivity|].
  unfold exact_astrometric, Rdiv at 1. replace (10 ^ 2 + (6 / 10 * (1000 * s) / exact_snr mm d) ^ 2) with (100 + 6 / 10 * (s * 1000) / exact_snr mm d * (6 / 10 * (s * 1000) / exact_snr mm d)).
  - apply (ok_weaken _ _ _ _ _ _ W); [lra|lia].
  - unfold Rdiv. ring.
Qed.

(** ** Trailing losses *)
Lemma fin0 : finish 0 = Real 0. Proof. apply small_finish; [apply format_0|rewrite Rabs_R0; lra]. Qed.
Lemma fin1 : finish 1 = Real 1. Proof. apply small_finish; [apply (format_int 1); lia|rewrite Rabs_R1; lra]. Qed.
Lemma rate_ok : forall v, / 2 ^ 100 <= Rabs v <= 1000 -> exists w, multiply (Real v) (Real v) = Real w /\ ok 2 200 w (v ^ 2).
Proof.
  intros v V. rewrite p2 in V. change (Z.of_nat 100) with 100%Z in V. rewrite <- bpow_opp in V.
  assert (T : 1000 <= bpow radix2 100) by (apply Rle_trans with (bpow radix2 10); [cbn; lra|apply bpow_le; lia]).
  assert (O : ok 0 100 (Rabs v) (Rabs v)) by (apply exact_ok; lra).
  destruct (mul_ok _ _ _ _ _ _ _ _ O O ltac:(lra) ltac:(lia)) as (w & E & W).
  assert (Q : Rabs v * Rabs v = v ^ 2). { rewrite <- Rabs_mult. rewrite Rabs_right by (apply Rle_ge; apply Rle_0_sqr). ring. }
  exists w. cbn [multiply] in *. rewrite Q in *. replace (v * v) with (v ^ 2) by ring. split; [exact E|]. apply (ok_weaken _ _ _ _ _ _ W); [lra|lia].
Qed.
Lemma sum_ok : forall v w, v = 0 \/ / 2 ^ 100 <= Rabs v <= 1000 -> w = 0 \/ / 2 ^ 100 <= Rabs w <= 1000 -> ~ (v = 0 /\ w = 0) ->
  exists c, plus (multiply (Real v) (Real v)) (multiply (Real w) (Real w)) = Real c /\ ok 3 201 c (v ^ 2 + w ^ 2).
Proof.
  assert (Z : multiply (Real 0) (Real 0) = Real 0) by (cbn [multiply]; rewrite Rmult_0_l; exact fin0).
  assert (ONE : forall b a, ok 2 200 b a -> exists c, finish b = Real c /\ ok 3 201 c a).
  { intros b a O. destruct (fl_ok _ _ _ _ O ltac:(lra) ltac:(lia)) as [F R]. exists (fl b). split; [exact F|]. apply (ok_weaken _ _ _ _ _ _ R); [lra|lia]. }
  intros v w V W N. destruct V as [->|V]; destruct W as [->|W]; [tauto| | |].
  - destruct (rate_ok w W) as (b & -> & B). rewrite Z. cbn [plus]. rewrite Rplus_0_l. replace (0 ^ 2 + w ^ 2) with (w ^ 2) by ring. apply ONE. exact B.
  - destruct (rate_ok v V) as (b & -> & B). rewrite Z. cbn [plus]. rewrite Rplus_0_r. replace (v ^ 2 + 0 ^ 2) with (v ^ 2) by ring. apply ONE. exact B.
  - destruct (rate_ok v V) as (b & -> & B). destruct (rate_ok w W) as (b' & -> & B'). destruct (add_ok _ _ _ _ _ _ B B' ltac:(lra) ltac:(lia)) as (c & -> & C).
    exists c. split; [reflexivity|]. apply (ok_weaken _ _ _ _ _ _ C); [lra|lia].
Qed.
Lemma N_case : forall dra ddec s t, dra = 0 \/ / 2 ^ 100 <= Rabs dra <= 1000 -> ddec = 0 \/ / 2 ^ 100 <= Rabs ddec <= 1000 ->
  / 2 ^ 10 <= s <= 2 ^ 10 -> / 2 ^ 20 <= t <= 2 ^ 20 -> ~ (dra = 0 /\ ddec = 0) ->
  exists x, trail_f (Real dra) (Real ddec) (Real s) (Real t) = Real x /\ ok 10 240 x (trail_length dra ddec s t) /\ trail_length dra ddec s t <= bpow radix2 37.
Proof.
  intros dra ddec s t A B S T N. destruct (sum_ok dra ddec A B N) as (c & EC & C). unfold trail_f. rewrite EC.
  destruct (root_ok _ _ _ _ C ltac:(lra) ltac:(lia)) as (r & -> & R).
  assert (O24 : ok 0 5 24 24) by (apply exact_ok; cbn; lra). assert (OT : ok 0 20 t t) by (apply exact_ok; cbn; lra). assert (OS : ok 0 10 s s) by (apply exact_ok; cbn; lra).
  destruct (div_ok _ _ _ _ _ _ _ _ R O24 ltac:(lra) ltac:(lia)) as (v & -> & V). destruct (mul_ok _ _ _ _ _ _ _ _ V OT ltac:(lra) ltac:(lia)) as (w & -> & W).
  destruct (div_ok _ _ _ _ _ _ _ _ W OS ltac:(lra) ltac:(lia)) as (x & -> & X). exists x. split; [reflexivity|]. split; [apply (ok_weaken _ _ _ _ _ _ X); [lra|lia]|].
  assert (Q : forall y, y = 0 \/ / 2 ^ 100 <= Rabs y <= 1000 -> y ^ 2 <= 1000000).
  { intros y Y. assert (AY : Rabs y <= 1000) by (destruct Y as [->|Y]; [rewrite Rabs_R0; lra|lra]).
    replace (y ^ 2) with (Rabs y * Rabs y) by (rewrite <- Rabs_mult, Rabs_right by (apply Rle_ge; apply Rle_0_sqr); ring).
    replace 1000000 with (1000 * 1000) by ring. apply Rmult_le_compat; try apply Rabs_pos; exact AY. }
  assert (QA := Q _ A). assert (QB := Q _ B). assert (PA := pow2_ge_0 dra). assert (PB := pow2_ge_0 ddec).
  assert (SQ : 0 <= sqrt (dra ^ 2 + ddec ^ 2) <= 1536). { split; [apply sqrt_pos|]. rewrite <- (sqrt_square 1536) by lra. apply sqrt_le_1; lra. }
  unfold trail_length. change 37%Z with (7 + 20 - - (10))%Z. apply div_le; [|cbn; lra]. apply mul_le; [replace (bpow radix2 7) with 128 by (cbn; lra); lra|replace (bpow radix2 20) with 1048576 by (cbn; lra); lra].
Qed.
Lemma trail_ok : forall dra ddec s t, ordinary dra ddec s t ->
  (dra = 0 /\ ddec = 0 /\ trail_f (Real dra) (Real ddec) (Real s) (Real t) = Real 0 /\ trail_length dra ddec s t = 0)
  \/ exists x, trail_f (Real dra) (Real ddec) (Real s) (Real t) = Real x /\ ok 10 240 x (trail_length dra ddec s t) /\ trail_length dra ddec s t <= bpow radix2 37.
Proof.
  intros dra ddec s t (A & B & S & T). destruct (Req_dec dra 0) as [Z1|Z1]; [destruct (Req_dec ddec 0) as [Z2|Z2]|].
  - left. subst. split; [reflexivity|]. split; [reflexivity|]. split.
    + unfold trail_f. cbn [multiply]. rewrite Rmult_0_l, fin0. cbn [plus]. rewrite Rplus_0_l, fin0. cbn [root]. rewrite rltb_nn by lra. rewrite sqrt_0, fin0.
      unfold quotient at 2. destruct (Req_EM_T 24 0); [lra|]. unfold Rdiv. rewrite Rmult_0_l, fin0. cbn [multiply]. rewrite Rmult_0_l, fin0. cbn [quotient].
      destruct (Req_EM_T s 0); [lra|]. unfold Rdiv. rewrite Rmult_0_l, fin0. reflexivity.
    + unfold trail_length. replace (0 ^ 2 + 0 ^ 2) with 0 by ring. rewrite sqrt_0. unfold Rdiv. ring.
  - right. revert Z2. intro Z2. assert (N : ~ (dra = 0 /\ ddec = 0)) by tauto. revert N. clear Z1 Z2. intro N. exact (N_case _ _ _ _ A B S T N).
  - right. assert (N : ~ (dra = 0 /\ ddec = 0)) by tauto. exact (N_case _ _ _ _ A B S T N).
Qed.

Lemma loss_ok : forall L a b x X, accurate_log L -> / 4 <= a <= 1 -> / 512 <= b <= 2 ->
  (x = 0 /\ X = 0 \/ ok 10 240 x X /\ X <= bpow radix2 37) ->
  exists l, loss_f L a b (Real x) = Real l /\ Rabs (l - trailing_loss a b X) <= 65 * u /\ 0 <= trailing_loss a b X <= 32.
Proof.
  intros L a b x X LA A B H. assert (U := u_pos).
  assert (OA : ok 1 9 (fl a) a) by (apply lit_ok; [cbn; lra|lia]). assert (OB : ok 1 9 (fl b) b) by (apply lit_ok; [cbn; lra|lia]).
  assert (O1 : ok 0 0 1 1) by (apply exact_ok; cbn; lra).
  assert (F125 : format (125 / 100)). { replace (125 / 100) with (IZR 5 * bpow radix2 (-2)) by (cbn; lra). apply dyadic; lia. }
  destruct H as [[-> ->]|[O XB]].
  - unfold loss_f, literal. cbn [multiply]. rewrite Rmult_0_l, fin0. cbn [multiply]. rewrite !Rmult_0_r, !fin0. cbn [plus]. rewrite Rplus_0_r, fin1. cbn [quotient].
    destruct (Req_EM_T 1 0); [lra|]. replace (0 / 1) with 0 by (unfold Rdiv; ring). rewrite fin0. cbn [plus]. rewrite Rplus_0_r, fin1.
    assert (B1 : binary64 1) by (split; [apply (format_int 1); lia|rewrite Rabs_R1; assert (T := top_big); lra]). destruct (LA 1 B1 ltac:(lra)) as (y & -> & Y). rewrite ln_1 in Y.
    assert (y0 : y = 0). { unfold Rdiv in Y. rewrite Rmult_0_l, Rmult_0_r, Rminus_0_r in Y. destruct (Req_dec y 0) as [E|E]; [exact E|]. assert (P := Rabs_pos_lt y E). lra. }
    rewrite y0. cbn [multiply]. rewrite Rmult_0_r, fin0. exists 0. split; [reflexivity|].
    assert (TZ : trailing_loss a b 0 = 0). { unfold trailing_loss. replace (1 + a * 0 ^ 2 / (1 + b * 0)) with 1 by (field; lra). rewrite ln_1. unfold Rdiv. ring. }
    rewrite TZ, Rminus_0_r, Rabs_R0. lra.
  - unfold loss_f. destruct (ok_pos _ _ _ _ O) as [PX _].
    destruct (mul_ok _ _ _ _ _ _ _ _ O O ltac:(lra) ltac:(lia)) as (x2 & -> & X2). unfold literal at 2 3.
    destruct (mul_ok _ _ _ _ _ _ _ _ OA X2 ltac:(lra) ltac:(lia)) as (ax & -> & AX). destruct (mul_ok _ _ _ _ _ _ _ _ OB O ltac:(lra) ltac:(lia)) as (bx & -> & BX).
    assert (O1' := ok_weaken _ _ 13 249 _ _ O1 ltac:(lra) ltac:(lia)). assert (BX' := ok_weaken _ _ 13 249 _ _ BX ltac:(lra) ltac:(lia)).
    destruct (add_ok _ _ _ _ _ _ O1' BX' ltac:(lra) ltac:(lia)) as (d & -> & D). destruct (div_ok _ _ _ _ _ _ _ _ AX D ltac:(lra) ltac:(lia)) as (q & -> & Q).
    assert (O1'' := ok_weaken _ _ 41 740 _ _ O1 ltac:(lra) ltac:(lia)). assert (Q' := ok_weaken _ _ 41 740 _ _ Q ltac:(lra) ltac:(lia)).
    destruct (add_ok _ _ _ _ _ _ O1'' Q' ltac:(lra) ltac:(lia)) as (r & ER & R). destruct (ok_pos _ _ _ _ Q') as [PQ AQ].
    assert (R1 : 1 <= r /\ format r). { cbn [plus] in ER. destruct (finish_cases (1 + q)) as [[G _]|[G _]]; rewrite G in ER; [|discriminate]. injection ER as <-. split; [apply fl_ge_float; [apply (format_int 1); lia|lra]|apply fl_format]. }
    assert (BXP : 0 < b * X) by (apply Rmult_lt_0_compat; lra).
    assert (ZB : a * (X * X) / (1 + b * X) <= bpow radix2 74).
    { change 74%Z with (0 + (37 + 37) - 0)%Z. apply div_le; [|rewrite e0; lra]. apply mul_le; [rewrite e0; lra|]. apply mul_le; lra. }
    rewrite ER. assert (ONE : 1 <= bpow radix2 74) by (rewrite <- e0; apply bpow_le; lia).
    assert (RB : 1 <= 1 + a * (X * X) / (1 + b * X) <= bpow radix2 75) by (split; [lra|]; change 75%Z with (74 + 1)%Z; rewrite bpow_plus_1; change (IZR radix2) with 2; lra).
    destruct (log_ok L _ _ 75 r _ LA R ltac:(lra) (proj1 R1) (proj2 R1) RB ltac:(lia)) as (y & -> & Y & E).
    destruct (times_close (125 / 100) y _ _ 26 F125 ltac:(lra) ltac:(lra) ltac:(lra) E ltac:(lra)) as (l & -> & L1). exists l. split; [reflexivity|].
    assert (EX : trailing_loss a b X = 125 / 100 * (ln (1 + a * (X * X) / (1 + b * X)) / ln 10)) by (unfold trailing_loss; replace (X ^ 2) with (X * X) by ring; reflexivity).
    rewrite EX. split.
    + apply Rle_trans with (1 := L1). apply Rmult_le_compat_r; lra.
    + assert (G := log2_le 75 _ ltac:(lia) RB). lra.
Qed.
Lemma adjusted : forall L dra ddec s t m, accurate_log L -> ordinary dra ddec s t -> Rabs m <= 50 ->
  exists l mh, calcTrailingLoss_f L true (Real dra) (Real ddec) (Real s) (Real t) = Real l
    /\ Rabs (l - trailing_loss (761 / 1000) (1162 / 1000) (trail_length dra ddec s t)) <= 65 * u
    /\ plus (Real m) (Real l) = Real mh /\ Rabs (mh - (m + trailing_loss (761 / 1000) (1162 / 1000) (trail_length dra ddec s t))) <= 80 * u
    /\ 0 <= trailing_loss (761 / 1000) (1162 / 1000) (trail_length dra ddec s t) <= 32.
Proof.
  intros L dra ddec s t m LA O M. assert (U := u_pos). assert (UU : 1000 * u <= / 1000000) by (unfold u; lra). unfold calcTrailingLoss_f.
  assert (H : exists x, trail_f (Real dra) (Real ddec) (Real s) (Real t) = Real x /\ (x = 0 /\ trail_length dra ddec s t = 0 \/ ok 10 240 x (trail_length dra ddec s t) /\ trail_length dra ddec s t <= bpow radix2 37)).
  { destruct (trail_ok _ _ _ _ O) as [(_ & _ & E & Z)|(x & E & X)]; [exists 0|exists x]; auto. }
  destruct H as (x & -> & H). destruct (loss_ok L (761 / 1000) (1162 / 1000) x _ LA ltac:(lra) ltac:(lra) H) as (l & -> & E & B).
  set (T := trailing_loss _ _ _) in *. exists l. assert (E' := E). apply Rabs_le_inv in E'. apply Rabs_le_inv in M. cbn [plus].
  assert (A : Rabs (m + l) <= 83) by (apply Rabs_le; lra). destruct (fl_within (m + l) 83 ltac:(lia) A) as [_ ->]. exists (fl (m + l)).
  split; [reflexivity|]. split; [exact E|]. split; [reflexivity|]. split; [|exact B].
  assert (F := tiny_ok (m + l) ltac:(lra)). assert (/ 8 * u * Rabs (m + l) <= / 8 * u * 83) by (apply Rmult_le_compat_l; lra).
  apply Rabs_le_inv in F. apply Rabs_le. lra.
Qed.

(** ** Rows *)
Lemma rel12 : forall n k a b, ok n k a b -> n <= 1000 -> Rabs (a - b) <= / 10 ^ 12 * b.
Proof. intros n k a b O N. destruct (ok_pos _ _ _ _ O) as [P _]. destruct O as (_ & _ & R). apply Rle_trans with (1 := R). apply Rmult_le_compat_r; [lra|]. apply Rle_trans with (1000 * u); [apply Rmult_le_compat_r; [left; exact u_pos|exact N]|unfold u; lra]. Qed.
Lemma abs12 : forall n, n <= 1000 -> n * u <= / 10 ^ 12.
Proof. intros n N. apply Rle_trans with (1000 * u); [apply Rmult_le_compat_r; [left; exact u_pos|exact N]|unfold u; lra]. Qed.
Lemma columns : forall P L s k mh mm d, accurate_power P -> accurate_log L -> / 2 ^ 10 <= s <= 2 ^ 10 -> Rabs (k - / 3600000) <= / 2 ^ 50 * / 3600000 ->
  Rabs (mh - mm) <= 80 * u -> Rabs (mm - d) <= 135 ->
  relatively (snr_f P (Real mh) (Real d)) (exact_snr mm d) /\ absolutely (calcPhotometricUncertainty_f L (snr_f P (Real mh) (Real d))) (exact_sigma (exact_snr mm d))
  /\ relatively (multiply (fst (calcAstrometricUncertainty_f P (Real mh) (Real d) (multiply (Real s) (Real 1000)))) (Real k)) (exact_astrometric s (exact_snr mm d)).
Proof.
  intros P L s k mh mm d PA LA S K H M. rewrite u_pow in K. destruct (snr_ok P mh mm d PA H M) as (w & E & W). destruct (sigma_ok L w _ LA W) as (e & E1 & E2).
  destruct (astro_ok P s k mh mm d PA H M S K) as (q & Q1 & Q2). rewrite E. split; [exists w; split; [reflexivity|]; apply (rel12 _ _ _ _ W); lra|].
  split; [exists e; split; [exact E1|]; apply Rle_trans with (1 := E2); apply abs12; lra|]. exists q. split; [exact Q1|]. apply (rel12 _ _ _ _ Q2). lra.
Qed.
Lemma C110_close_proof : forall P L k on dra ddec s t m p d, accurate_power P -> accurate_log L -> Rabs (k - / 3600000) <= / 2 ^ 50 * / 3600000 ->
  ordinary dra ddec s t -> Rabs m <= 50 -> Rabs p <= 50 -> Rabs d <= 50 -> binary64 m ->
  let r := addUncertainties_f P L k on (Real dra) (Real ddec) (Real s) (Real t) (Real m) (Real p) (Real d) in
  let m' := if on then m + trailing_loss (761 / 1000) (1162 / 1000) (trail_length dra ddec s t) else m in
  relatively (SNRTrailedSourceMag r) (exact_snr m' d) /\ relatively (SNRPSFMag r) (exact_snr p d)
  /\ absolutely (trailedSourceMagSigma r) (exact_sigma (exact_snr m' d)) /\ absolutely (PSFMagSigma r) (exact_sigma (exact_snr p d))
  /\ relatively (astrometricSigma_deg r) (exact_astrometric s (exact_snr m' d)).
Proof.
  intros P L k on dra ddec s t m p d PA LA K O M Q D [FM TM] r m'. assert (U := u_pos). assert (S := proj1 (proj2 (proj2 O))).
  assert (M' := M). apply Rabs_le_inv in M'. assert (Q' := Q). apply Rabs_le_inv in Q'. assert (D' := D). apply Rabs_le_inv in D'.
  destruct (columns P L s k p p d PA LA S K) as (B1 & B2 & _); [rewrite Rminus_diag_eq, Rabs_R0 by reflexivity; lra|apply Rabs_le; lra|].
  assert (A : exists mh, plus (Real m) (if on then calcTrailingLoss_f L true (Real dra) (Real ddec) (Real s) (Real t) else Real 0) = Real mh /\ Rabs (mh - m') <= 80 * u /\ Rabs (m' - d) <= 135).
  { unfold m'. destruct on.
    - destruct (adjusted L dra ddec s t m LA O M) as (l & mh & E1 & _ & E2 & E3 & E4). exists mh. rewrite E1. split; [exact E2|]. split; [exact E3|]. apply Rabs_le. lra.
    - exists m. cbn [plus]. rewrite Rplus_0_r, finish_real; rewrite fl_float by exact FM; [|exact TM]. split; [reflexivity|]. split; [rewrite Rminus_diag_eq, Rabs_R0 by reflexivity; lra|apply Rabs_le; lra]. }
  destruct A as (mh & E & E1 & E2). destruct (columns P L s k mh m' d PA LA S K E1 E2) as (A1 & A2 & A3).
  unfold r, addUncertainties_f. rewrite E. cbn [SNRTrailedSourceMag SNRPSFMag trailedSourceMagSigma PSFMagSigma astrometricSigma_deg]. repeat split; assumption.
Qed.
Lemma C110_loss_proof : forall L dra ddec s t, accurate_log L -> ordinary dra ddec s t ->
  absolutely (calcTrailingLoss_f L true (Real dra) (Real ddec) (Real s) (Real t)) (trailing_loss (761 / 1000) (1162 / 1000) (trail_length dra ddec s t))
  /\ absolutely (calcTrailingLoss_f L false (Real dra) (Real ddec) (Real s) (Real t)) (trailing_loss (420 / 1000) (3 / 1000) (trail_length dra ddec s t)).
Proof.
  intros L dra ddec s t LA O. unfold calcTrailingLoss_f.
  assert (H : exists x, trail_f (Real dra) (Real ddec) (Real s) (Real t) = Real x /\ (x = 0 /\ trail_length dra ddec s t = 0 \/ ok 10 240 x (trail_length dra ddec s t) /\ trail_length dra ddec s t <= bpow radix2 37)).
  { destruct (trail_ok _ _ _ _ O) as [(_ & _ & E & Z)|(x & E & X)]; [exists 0|exists x]; auto. }
  destruct H as (x & -> & H). split.
  - destruct (loss_ok L (761 / 1000) (1162 / 1000) x _ LA ltac:(lra) ltac:(lra) H) as (l & -> & E & B). exists l. split; [reflexivity|]. apply Rle_trans with (1 := E). apply abs12. lra.
  - destruct (loss_ok L (420 / 1000) (3 / 1000) x _ LA ltac:(lra) ltac:(lra) H) as (l & -> & E & B). exists l. split; [reflexivity|]. apply Rle_trans with (1 := E). apply abs12. lra.
Qed.

(** ** Model/Photometry.v has these formulas *)
Lemma C110_formulas_proof : forall on r, 
  Photometry.addUncertainties on r
  = Ok (let m := if on then Photometry.p_trailed_true r + trailing_loss (761 / 1000) (1162 / 1000) (trail_length (Photometry.p_ra_rate r) (Photometry.p_dec_rate r) (Photometry.p_seeing_geom r) (Photometry.p_texp r))
                 else Photometry.p_trailed_true r in
        let p := Photometry.p_psf_true r in let d := Photometry.p_depth r in
        {| Photometry.s_ast_deg := exact_astrometric (Photometry.p_seeing_geom r) (exact_snr m d); Photometry.s_snr_trailed := exact_snr m d;
           Photometry.s_sig_trailed := exact_sigma (exact_snr m d); Photometry.s_snr_psf := exact_snr p d; Photometry.s_sig_psf := exact_sigma (exact_snr p d) |}).
Proof.
  intros on r. unfold Photometry.addUncertainties.
  assert (SN : forall m d s, Photometry.calcAstrometricUncertainty m d (s * 1000) = (exact_astrometric s (exact_snr m d) * 3600000, exact_snr m d, 6 / 10 * (1000 * s) / exact_snr m d)).
  { intros m d s. unfold Photometry.calcAstrometricUncertainty, Photometry.calcRandomAstrometricErrorPerCoord.
    replace (0.4 * (m - d)) with (4 / 10 * (m - d)) by lra. set (X := Rpower 10 (4 / 10 * (m - d))).
    assert (E : 1 / sqrt ((0.04 - 0.039) * X + 0.039 * X * X) = exact_snr m d). { unfold exact_snr. fold X. do 2 f_equal. lra. }
    rewrite E. assert (E2 : 0.60 * (s * 1000) / exact_snr m d = 6 / 10 * (1000 * s) / exact_snr m d) by (unfold Rdiv; f_equal; lra). rewrite E2.
    f_equal. f_equal. unfold exact_astrometric. set (q := 6 / 10 * (1000 * s) / exact_snr m d). replace (10 * 10 + q * q) with (10 ^ 2 + q ^ 2) by ring. field. }
  assert (PH : forall v, Photometry.calcPhotometricUncertainty v = exact_sigma v). { intro v. unfold Photometry.calcPhotometricUncertainty, exact_sigma, Sphere.log10. lra. }
  assert (LS : forall a b c e, Photometry.calcTrailingLoss a b c e "trailedSource"%string = Ok (trailing_loss (761 / 1000) (1162 / 1000) (trail_length a b c e))).
  { intros a b c e. unfold Photometry.calcTrailingLoss. cbn [String.eqb Ascii.eqb Bool.eqb]. unfold trailing_loss, trail_length, Sphere.log10. f_equal. }
  rewrite LS. destruct on; cbn [rbind]; rewrite !SN; cbn [fst snd]; rewrite !PH, ?Rplus_0_r; cbv zeta; f_equal; f_equal; unfold exact_astrometric; field.
Qed.

(** ** Correctly rounded functions are accurate *)
Lemma rounded_power_accurate : accurate_power rounded_power.
Proof.
  intros x X. apply Rabs_le_inv in X. cbn [rounded_power]. rewrite u_pow.
  assert (A : Rpower 10 x <= 10 ^ 100). { rewrite <- Rpower_pow by lra. apply Rle_Rpower; [lra|]. rewrite INR_IZR_INZ. cbn. lra. }
  assert (B : / 10 ^ 100 <= Rpower 10 x). { rewrite <- Rpower_pow by lra. rewrite <- Rpower_Ropp. apply Rle_Rpower; [lra|]. rewrite INR_IZR_INZ. cbn. lra. }
  assert (B1 : 10 ^ 100 <= bpow radix2 400) by (change (bpow radix2 400) with (IZR (Z.pow_pos 2 400)); lra).
  assert (B2 : bpow radix2 (- (400)) <= / 10 ^ 100) by (rewrite bpow_opp; apply Rinv_le_contravar; lra).
  destruct (fl_ok 0 400 _ _ (exact_ok 400 (Rpower 10 x) ltac:(lra)) ltac:(lra) ltac:(lia)) as [-> R]. eexists. split; [reflexivity|].
  destruct R as (_ & _ & R). rewrite Rplus_0_l, Rmult_1_l in R. exact R.
Qed.
Lemma rounded_log_accurate : accurate_log rounded_log.
Proof.
  intros x [FX TX] X. cbn [rounded_log]. rewrite u_pow. rewrite Rabs_right in TX by lra. assert (L1 := ln10_ge). assert (L2 := ln10_le). assert (I : 0 < / ln 10) by (apply Rinv_0_lt_compat; lra).
  destruct (Req_dec x 1) as [->|N].
  - rewrite ln_1. unfold Rdiv. rewrite Rmult_0_l, fin0. exists 0. split; [reflexivity|]. rewrite Rminus_0_r, Rabs_R0. lra.
  - assert (X1 : 1 + bpow radix2 (-52) <= x).
    { replace (1 + bpow radix2 (-52)) with (succ radix2 (FLT_exp (-1074) 53) 1).
      - apply (succ_le_lt radix2 (FLT_exp (-1074) 53) 1 x (format_int 1 ltac:(lia)) FX). lra.
      - rewrite succ_eq_pos by lra. f_equal. replace 1 with (bpow radix2 0) by reflexivity. rewrite ulp_bpow. reflexivity. }
    assert (G : bpow radix2 (- (60)) <= ln x / ln 10 <= bpow radix2 60).
    { assert (T52 : 0 < bpow radix2 (-52) <= / 2) by (split; [apply bpow_gt_0|cbn; lra]).
      assert (A : bpow radix2 (-52) / 2 <= ln x).
      { assert (H := ln_le_minus (/ x) ltac:(apply Rinv_0_lt_compat; lra)). rewrite ln_Rinv in H by lra.
        assert (/ x <= / (1 + bpow radix2 (-52))) by (apply Rinv_le_contravar; lra).
        assert (Q : / (1 + bpow radix2 (-52)) <= 1 - bpow radix2 (-52) / 2).
        { apply Rmult_le_reg_l with (1 + bpow radix2 (-52)); [lra|]. rewrite Rinv_r by lra. set (z := bpow radix2 (-52)) in *. assert (z * z <= z * / 2) by (apply Rmult_le_compat_l; lra). lra. }
        lra. }
      split.
      - apply Rle_trans with (bpow radix2 (-52) / 2 * (2 / 5)); [replace (- (60))%Z with (-52 + -8)%Z by lia; rewrite bpow_plus; replace (bpow radix2 (-8)) with (/ 256) by (cbn; lra); lra|].
        apply Rmult_le_compat; try lra. replace (2 / 5) with (/ (5 / 2)) by lra. apply Rinv_le_contravar; lra.
      - destruct (log2_le 1024 x ltac:(lia) ltac:(lra)) as [_ H]. apply Rle_trans with (1 := H). apply Rle_trans with (bpow radix2 10); [cbn; lra|apply bpow_le; lia]. }
    destruct (fl_ok 0 60 _ _ (exact_ok 60 (ln x / ln 10) G) ltac:(lra) ltac:(lia)) as [-> R]. eexists. split; [reflexivity|].
    destruct R as (_ & _ & R). rewrite Rplus_0_l, Rmult_1_l in R. exact R.
Qed.
