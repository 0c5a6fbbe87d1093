(** Magnitudes, depths and times of visits in binary64 arithmetic. *)
From Coq Require Import List Reals ZArith Bool Lia Lra.
From Flocq Require Import Core.
From Verif Require Import Base.Prelude Model.Photometry Model.LinkingFloat Model.Rounding Model.FadingFloat Model.UncertaintyFloat Model.MagnitudeFloat
  Spec.LinkingFloat Spec.Rounding Spec.UncertaintyFloat Spec.UncertaintyClose Spec.MagnitudeFloat
  Proofs.LinkingFloat Proofs.Rounding Proofs.FadingFloat Proofs.AngleFloat Proofs.UncertaintyFloat Proofs.UncertaintyClose.
Import ListNotations.
Open Scope R_scope.

Local Instance prec53m : Prec_gt_0 53 := eq_refl.

(** ** The logarithm of a computed value *)
Lemma log_any : forall L n k a b B, accurate_log10 L -> ok n k a b -> n <= 1990 -> (0 <= k <= 900)%Z -> format a -> Rabs (ln b / ln 10) <= B -> B <= 1000 ->
  exists y, L (Real a) = Real y /\ Rabs (y - ln b / ln 10) <= ((n + 1) / 2 + B + 1) * u.
Proof.
  intros L n k a b B LA O N K FA HB B1. assert (U := u_pos). assert (UU : 2000 * u <= / 1000000) by (unfold u; lra).
  destruct (ok_pos _ _ _ _ O) as [P Q]. assert (N1 := proj1 O). assert (BK := proj1 (proj2 O)).
  assert (T : bpow radix2 (k + 1) < bpow radix2 1024) by (apply bpow_lt; lia).
  assert (AK : a <= bpow radix2 (k + 1)) by (rewrite bpow_plus_1; change (IZR radix2) with 2; lra).
  assert (BA : binary64 a) by (split; [exact FA|rewrite Rabs_right; lra]). destruct (LA a BA ltac:(lra)) as (y & EY & Y). rewrite u_pow in Y. exists y. split; [exact EY|].
  assert (L10 := ln10_ge). assert (I10 : 0 < / ln 10 <= / 2) by (split; [apply Rinv_0_lt_compat; lra|apply Rinv_le_contravar; lra]).
  destruct (factor _ _ _ _ O) as (e & EA & E). destruct (factor _ _ _ _ (inv_ok _ _ _ _ O N)) as (e' & EA' & E').
  assert (D : Rabs (ln a - ln b) <= (n + 1) * u).
  { apply Rabs_le_inv in E. apply Rabs_le_inv in E'.
    assert (X1 : ln a - ln b <= e).
    { assert (H := ln_le_minus (a / b) ltac:(apply Rmult_lt_0_compat; [lra|apply Rinv_0_lt_compat; lra])). unfold Rdiv in H. rewrite ln_mult, ln_Rinv in H; [|lra|lra|apply Rinv_0_lt_compat; lra].
      replace (a * / b) with (1 + e) in H by (rewrite EA; field; lra). lra. }
    assert (X2 : ln b - ln a <= e').
    { assert (H := ln_le_minus (b * / a) ltac:(apply Rmult_lt_0_compat; [lra|apply Rinv_0_lt_compat; lra])). rewrite ln_mult, ln_Rinv in H; [|lra|lra|apply Rinv_0_lt_compat; lra].
      rewrite EA' in H. replace (b * (/ b * (1 + e'))) with (1 + e') in H by (field; lra). lra. }
    apply Rabs_le. lra. }
  assert (D' : Rabs (ln a / ln 10 - ln b / ln 10) <= (n + 1) / 2 * u).
  { replace (ln a / ln 10 - ln b / ln 10) with ((ln a - ln b) * / ln 10) by (unfold Rdiv; ring). rewrite Rabs_mult, (Rabs_right (/ ln 10)) by lra.
    apply Rle_trans with ((n + 1) * u * / 2); [apply Rmult_le_compat; try lra; apply Rabs_pos|lra]. }
  assert (AB : Rabs (ln a / ln 10) <= B + 1).
  { replace (ln a / ln 10) with ((ln a / ln 10 - ln b / ln 10) + ln b / ln 10) by ring. apply Rle_trans with (1 := Rabs_triang _ _).
    assert ((n + 1) / 2 * u <= 2000 * u) by (apply Rmult_le_compat_r; lra). lra. }
  assert (Y' : Rabs (y - ln a / ln 10) <= (B + 1) * u). { apply Rle_trans with (1 := Y). rewrite Rmult_comm. apply Rmult_le_compat_r; lra. }
  replace (y - ln b / ln 10) with ((y - ln a / ln 10) + (ln a / ln 10 - ln b / ln 10)) by ring. apply Rle_trans with (1 := Rabs_triang _ _). lra.
Qed.
(** ** Distances *)
Lemma au_pos : 100000000 <= au_km <= 200000000. Proof. unfold au_km. lra. Qed.
Lemma reach_bits : forall d, in_reach d -> bpow radix2 (- (50)) <= d <= bpow radix2 50.
Proof.
  intros d D. unfold in_reach, au_km in D. change (bpow radix2 50) with (IZR (Z.pow_pos 2 50)). rewrite bpow_opp. change (bpow radix2 50) with (IZR (Z.pow_pos 2 50)). lra.
Qed.
Lemma k_ok : forall k, converts k -> ok 1 30 k (/ au_km).
Proof.
  intros k K. unfold converts in K. rewrite u_pow in K. split; [lra|]. split; [|lra]. rewrite bpow_opp. change (bpow radix2 30) with (IZR (Z.pow_pos 2 30)).
  unfold au_km. lra.
Qed.
Lemma range_ok : forall k r, converts k -> in_reach r -> exists w, range_au_f k (Real r) = Real w /\ ok 3 80 w (r / au_km) /\ format w.
Proof.
  intros k r K R. assert (O := prod_ok _ _ _ _ _ _ _ _ (exact_ok 50 r (reach_bits r R)) (k_ok k K) ltac:(lra)).
  destruct (fl_ok _ _ _ _ O ltac:(lra) ltac:(lia)) as [F S]. exists (fl (r * k)). split; [exact F|]. split; [|apply fl_format].
  apply (ok_weaken _ _ _ _ _ _ S); [lra|lia].
Qed.
Lemma sq_abs : forall x, Rabs (fl (x * x) - x * x) <= small * (x * x) + eta.
Proof. intro x. assert (T := fl_two (x * x)). rewrite (Rabs_right (x * x)) in T by (apply Rle_ge, Rle_0_sqr). exact T. Qed.
Lemma squares_ok : forall x y z, bpow radix2 (- (100)) <= x ^ 2 + y ^ 2 + z ^ 2 <= bpow radix2 100 ->
  exists w, plus (plus (multiply (Real x) (Real x)) (multiply (Real y) (Real y))) (multiply (Real z) (Real z)) = Real w /\ ok 2 100 w (x ^ 2 + y ^ 2 + z ^ 2).
Proof.
  intros x y z S. assert (X0 := Rle_0_sqr x). assert (Y0 := Rle_0_sqr y). assert (Z0 := Rle_0_sqr z). unfold Rsqr in *.
  replace (x ^ 2 + y ^ 2 + z ^ 2) with (x * x + y * y + z * z) in * by ring. set (q := x * x + y * y + z * z) in *.
  assert (G := bpow_gt_0 radix2 (- (100))).
  assert (EB : eta <= small / 1000 * q).
  { apply Rle_trans with (small / 1000 * bpow radix2 (- (100))); [|apply Rmult_le_compat_l; [rewrite small_val; lra|lra]].
    apply Rle_trans with (bpow radix2 (-80) * bpow radix2 (- (100))); [rewrite <- bpow_plus; apply bpow_le; lia|]. apply Rmult_le_compat_r; [lra|]. rewrite small_val. cbn. lra. }
  destruct (fb (x * x) 100 ltac:(lia) ltac:(unfold q in *; lra)) as [F1 A1]. destruct (fb (y * y) 100 ltac:(lia) ltac:(unfold q in *; lra)) as [F2 A2]. destruct (fb (z * z) 100 ltac:(lia) ltac:(unfold q in *; lra)) as [F3 A3].
  cbn [multiply]. rewrite F1, F2, F3. cbn [plus].
  assert (E1 := sq_abs x). assert (E2 := sq_abs y). assert (E3 := sq_abs z).
  assert (SP : 0 < small <= / 1000000) by (rewrite small_val; lra).
  destruct (fb (fl (x * x) + fl (y * y)) 101 ltac:(lia) (add_le _ _ 100 A1 A2)) as [F4 A4]. rewrite F4. cbn [plus].
  set (X := fl (x * x)) in *. set (Y := fl (y * y)) in *. set (Z := fl (z * z)) in *.
  assert (E4 := fl_two (X + Y)). set (W := fl (X + Y)) in *.
  assert (A3' : 0 <= Z <= bpow radix2 101) by (apply (up _ 100); [lia|exact A3]).
  destruct (fb (W + Z) 102 ltac:(lia) (add_le _ _ 101 A4 A3')) as [F5 A5]. exists (fl (W + Z)). split; [exact F5|].
  assert (E5 := fl_two (W + Z)). rewrite (Rabs_right (X + Y)) in E4 by lra. rewrite (Rabs_right (W + Z)) in E5 by lra.
  apply Rabs_le_inv in E1. apply Rabs_le_inv in E2. apply Rabs_le_inv in E3. apply Rabs_le_inv in E4. apply Rabs_le_inv in E5.
  assert (XY : X + Y <= 3 / 2 * q). { assert (small * (x * x) <= / 1000000 * (x * x)) by (apply Rmult_le_compat_r; lra). assert (small * (y * y) <= / 1000000 * (y * y)) by (apply Rmult_le_compat_r; lra). assert (small / 1000 * q <= / 1000000 * q) by (apply Rmult_le_compat_r; lra). unfold q in *. lra. }
  assert (S4 : small * (X + Y) <= small * (3 / 2 * q)) by (apply Rmult_le_compat_l; lra).
  assert (WZ : W + Z <= 4 * q).
  { assert (small * (3 / 2 * q) <= / 1000000 * (3 / 2 * q)) by (apply Rmult_le_compat_r; lra). assert (small * (z * z) <= / 1000000 * (z * z)) by (apply Rmult_le_compat_r; lra). assert (small / 1000 * q <= / 1000000 * q) by (apply Rmult_le_compat_r; lra). unfold q in *. lra. }
  assert (S5 : small * (W + Z) <= small * (4 * q)) by (apply Rmult_le_compat_l; lra).
  assert (S1 : small * (x * x) + small * (y * y) + small * (z * z) = small * q) by (unfold q; ring).
  split; [lra|]. split; [lra|]. replace (2 * u * q) with (16 * (small * q)) by (rewrite small_val; unfold u; field).
  assert (SQ : 0 <= small * q) by (apply Rmult_le_pos; lra).
  apply Rabs_le. unfold q in *. lra.
Qed.
Lemma sun_ok : forall k x y z, converts k -> in_reach (sqrt (x ^ 2 + y ^ 2 + z ^ 2)) ->
  exists w, sun_distance_f k (Real x) (Real y) (Real z) = Real w /\ ok 6 130 w (sqrt (x ^ 2 + y ^ 2 + z ^ 2) / au_km) /\ format w.
Proof.
  intros k x y z K R. set (q := x ^ 2 + y ^ 2 + z ^ 2) in *. assert (RB := reach_bits _ R).
  assert (Q0 : 0 <= q) by (unfold q; assert (X := pow2_ge_0 x); assert (Y := pow2_ge_0 y); assert (Z := pow2_ge_0 z); lra).
  assert (QB : bpow radix2 (- (100)) <= q <= bpow radix2 100).
  { rewrite <- (sqrt_sqrt q Q0). assert (G := bpow_gt_0 radix2 (- (50))). replace (- (100))%Z with (- (50) + - (50))%Z by lia. replace 100%Z with (50 + 50)%Z by lia. rewrite !bpow_plus. split; apply Rmult_le_compat; lra. }
  destruct (squares_ok x y z QB) as (w & E & O). unfold sun_distance_f. rewrite E. fold q in O.
  destruct (root_ok _ _ _ _ O ltac:(lra) ltac:(lia)) as (v & E2 & O2). rewrite E2.
  assert (O3 := prod_ok _ _ _ _ _ _ _ _ O2 (k_ok k K) ltac:(lra)).
  destruct (fl_ok _ _ _ _ O3 ltac:(lra) ltac:(lia)) as [F S]. exists (fl (v * k)). split; [exact F|]. split; [|apply fl_format]. apply (ok_weaken _ _ _ _ _ _ S); [lra|lia].
Qed.
Lemma reach_log : forall d, in_reach d -> Rabs (ln (d / au_km) / ln 10) <= 6.
Proof.
  intros d D. unfold in_reach in D. assert (A := au_pos). assert (L10 := ln10_ge).
  assert (X : / 10 ^ 6 <= d / au_km <= 10 ^ 6). { split; apply Rmult_le_reg_r with au_km; try lra; unfold Rdiv; rewrite (Rmult_assoc d), Rinv_l, Rmult_1_r; lra. }
  assert (P6 : 0 < / 10 ^ 6) by lra. assert (T : ln (10 ^ 6) = 6 * ln 10) by (replace (10 ^ 6) with (Rpower 10 6) by (rewrite <- (Rpower_pow 6 10) by lra; f_equal; cbn; lra); unfold Rpower; rewrite ln_exp; reflexivity).
  assert (U1 := ln_mono _ _ (conj P6 (proj1 X))). assert (U2 := ln_mono (d / au_km) (10 ^ 6) ltac:(lra)). rewrite ln_Rinv in U1 by lra. rewrite T in U1, U2.
  apply Rabs_le. split; apply Rmult_le_reg_r with (ln 10); try lra; unfold Rdiv; rewrite Rmult_assoc, Rinv_l; lra.
Qed.
(** ** The apparent magnitude *)
Lemma five_times : forall y e B n, Rabs (y - e) <= n * u -> 0 <= n <= 100 -> Rabs e <= B -> B <= 100 ->
  exists v, multiply (Real 5) (Real y) = Real v /\ Rabs (v - 5 * e) <= (5 * n + B + 1) * u.
Proof.
  intros y e B n D N E B1. assert (U := u_pos). assert (UU : 1000 * u <= / 1000000) by (unfold u; lra). assert (D' := D). apply Rabs_le_inv in D'. apply Rabs_le_inv in E.
  assert (NU : 0 <= n * u <= 100 * u) by (split; [apply Rmult_le_pos; lra|apply Rmult_le_compat_r; lra]).
  assert (Y5 : Rabs (5 * y) <= 5 * B + 1) by (apply Rabs_le; lra).
  destruct (fl_within (5 * y) 2000 ltac:(lia) ltac:(lra)) as [_ F]. exists (fl (5 * y)). split; [exact F|].
  assert (T := tiny_ok (5 * y) ltac:(lra)). assert (/ 8 * u * Rabs (5 * y) <= / 8 * u * (5 * B + 1)) by (apply Rmult_le_compat_l; lra).
  apply Rabs_le_inv in T. assert (0 <= u * B) by (apply Rmult_le_pos; lra). apply Rabs_le. lra.
Qed.
Lemma sum_close : forall a b A B n m, Rabs (a - A) <= n * u -> Rabs (b - B) <= m * u -> Rabs A + Rabs B <= 400 -> 0 <= n <= 500 -> 0 <= m <= 500 ->
  exists v, plus (Real a) (Real b) = Real v /\ Rabs (v - (A + B)) <= (n + m + 52) * u.
Proof.
  intros a b A B n m DA DB AB N M. assert (U := u_pos). assert (UU : 1000 * u <= / 1000000) by (unfold u; lra).
  assert (NU : 0 <= n * u <= 500 * u) by (split; [apply Rmult_le_pos; lra|apply Rmult_le_compat_r; lra]).
  assert (MU : 0 <= m * u <= 500 * u) by (split; [apply Rmult_le_pos; lra|apply Rmult_le_compat_r; lra]).
  assert (S : Rabs (a + b) <= 401).
  { replace (a + b) with ((a - A) + (b - B) + (A + B)) by ring. apply Rle_trans with (1 := Rabs_triang _ _). assert (T1 := Rabs_triang (a - A) (b - B)). assert (T2 := Rabs_triang A B). lra. }
  destruct (fl_within (a + b) 2000 ltac:(lia) ltac:(lra)) as [_ F]. exists (fl (a + b)). split; [exact F|].
  assert (T := tiny_ok (a + b) ltac:(lra)). assert (/ 8 * u * Rabs (a + b) <= / 8 * u * 401) by (apply Rmult_le_compat_l; lra).
  apply Rabs_le_inv in T. apply Rabs_le_inv in DA. apply Rabs_le_inv in DB. apply Rabs_le. lra.
Qed.
Lemma C113_close_proof : forall L k range x y z m, accurate_log10 L -> converts k -> in_reach range -> in_reach (sqrt (x ^ 2 + y ^ 2 + z ^ 2)) -> Rabs m <= 100 ->
  exists v, apparent_f L k (Real range) (Real x) (Real y) (Real z) (Real m) = Real v
    /\ Rabs (v - magnitude_at range (sqrt (x ^ 2 + y ^ 2 + z ^ 2)) m) <= / 10 ^ 12.
Proof.
  intros L k range x y z m LA K R S M. unfold apparent_f. assert (U := u_pos).
  destruct (range_ok k range K R) as (w & -> & O & F). destruct (sun_ok k x y z K S) as (w' & -> & O' & F').
  assert (B := reach_log _ R). assert (B' := reach_log _ S).
  destruct (log_any L _ _ _ _ 6 LA O ltac:(lra) ltac:(lia) F B ltac:(lra)) as (l & -> & D).
  destruct (log_any L _ _ _ _ 6 LA O' ltac:(lra) ltac:(lia) F' B' ltac:(lra)) as (l' & -> & D').
  unfold magnitude_at. set (e := ln (range / au_km) / ln 10) in *. set (e' := ln (sqrt (x ^ 2 + y ^ 2 + z ^ 2) / au_km) / ln 10) in *.
  destruct (five_times l e 6 11 ltac:(lra) ltac:(lra) B ltac:(lra)) as (v & -> & V).
  destruct (five_times l' e' 6 11 ltac:(lra) ltac:(lra) B' ltac:(lra)) as (v' & -> & V').
  assert (A5 : Rabs (5 * e) <= 30) by (rewrite Rabs_mult, (Rabs_right 5) by lra; lra). assert (A5' : Rabs (5 * e') <= 30) by (rewrite Rabs_mult, (Rabs_right 5) by lra; lra).
  destruct (sum_close v v' (5 * e) (5 * e') 62 62 ltac:(lra) ltac:(lra) ltac:(lra) ltac:(lra) ltac:(lra)) as (s & -> & Z).
  assert (A6 := Rabs_triang (5 * e) (5 * e')).
  destruct (sum_close s m (5 * e + 5 * e') m 176 0 ltac:(lra) ltac:(rewrite Rminus_diag_eq, Rabs_R0 by reflexivity; lra) ltac:(lra) ltac:(lra) ltac:(lra)) as (t & -> & T).
  exists t. split; [reflexivity|]. apply Rle_trans with (1 := T). unfold u. lra.
Qed.
(** ** Orders *)
Lemma reals_mono : forall a b c d, at_most (Real a) (Real b) -> at_most (Real c) (Real d) -> at_most (plus (Real a) (Real c)) (plus (Real b) (Real d)).
Proof. intros a b c d A B. cbn in *. apply fin_mono. lra. Qed.
Lemma mag_real : forall L k range x y z, accurate_log10 L -> converts k -> in_reach range -> in_reach (sqrt (x ^ 2 + y ^ 2 + z ^ 2)) ->
  exists a b v, range_au_f k (Real range) = Real a /\ sun_distance_f k (Real x) (Real y) (Real z) = Real b /\ 0 < a /\ 0 < b
  /\ (exists p q, multiply (Real 5) (L (Real a)) = Real p /\ multiply (Real 5) (L (Real b)) = Real q /\ plus (Real p) (Real q) = Real v).
Proof.
  intros L k range x y z LA K R S. assert (U := u_pos).
  destruct (range_ok k range K R) as (w & -> & O & F). destruct (sun_ok k x y z K S) as (w' & -> & O' & F').
  assert (B := reach_log _ R). assert (B' := reach_log _ S).
  destruct (log_any L _ _ _ _ 6 LA O ltac:(lra) ltac:(lia) F B ltac:(lra)) as (l & E & D).
  destruct (log_any L _ _ _ _ 6 LA O' ltac:(lra) ltac:(lia) F' B' ltac:(lra)) as (l' & E' & D').
  set (e := ln (range / au_km) / ln 10) in *. set (e' := ln (sqrt (x ^ 2 + y ^ 2 + z ^ 2) / au_km) / ln 10) in *.
  destruct (five_times l e 6 11 ltac:(lra) ltac:(lra) B ltac:(lra)) as (v & M & V).
  destruct (five_times l' e' 6 11 ltac:(lra) ltac:(lra) B' ltac:(lra)) as (v' & M' & V').
  assert (A5 : Rabs (5 * e) <= 30) by (rewrite Rabs_mult, (Rabs_right 5) by lra; lra). assert (A5' : Rabs (5 * e') <= 30) by (rewrite Rabs_mult, (Rabs_right 5) by lra; lra).
  destruct (sum_close v v' (5 * e) (5 * e') 62 62 ltac:(lra) ltac:(lra) ltac:(lra) ltac:(lra) ltac:(lra)) as (s & T & Z).
  exists w, w', s. split; [reflexivity|]. split; [reflexivity|]. split; [destruct (ok_pos _ _ _ _ O); lra|]. split; [destruct (ok_pos _ _ _ _ O'); lra|].
  exists v, v'. rewrite E, E'. auto.
Qed.
Lemma sq_le : forall x y, Rabs x <= Rabs y -> at_most (multiply (Real x) (Real x)) (multiply (Real y) (Real y)).
Proof. intros x y H. cbn [multiply]. apply fin_mono. assert (T := Rsqr_le_abs_1 x y H). exact T. Qed.
Lemma sq_nn : forall x, nn (multiply (Real x) (Real x)).
Proof. intro x. cbn [multiply]. apply nn_finish. apply (Rle_0_sqr x). Qed.
Lemma C113_order_proof : forall L k range x y z m range' x' y' z' m', accurate_log10 L -> increasing_log10 L -> converts k ->
  in_reach range -> in_reach (sqrt (x ^ 2 + y ^ 2 + z ^ 2)) -> in_reach range' -> in_reach (sqrt (x' ^ 2 + y' ^ 2 + z' ^ 2)) ->
  range <= range' -> Rabs x <= Rabs x' -> Rabs y <= Rabs y' -> Rabs z <= Rabs z' -> m <= m' ->
  at_most (apparent_f L k (Real range) (Real x) (Real y) (Real z) (Real m)) (apparent_f L k (Real range') (Real x') (Real y') (Real z') (Real m')).
Proof.
  intros L k range x y z m range' x' y' z' m' LA LI K R S R' S' HR HX HY HZ HM.
  destruct (mag_real L k range x y z LA K R S) as (a & b & v & EA & EB & PA & PB & p & q & EP & EQ & EV).
  destruct (mag_real L k range' x' y' z' LA K R' S') as (a' & b' & v' & EA' & EB' & PA' & PB' & p' & q' & EP' & EQ' & EV').
  unfold apparent_f. rewrite EA, EB, EA', EB', EP, EQ, EP', EQ', EV, EV'.
  assert (KP : 0 < k) by (destruct (ok_pos _ _ _ _ (k_ok k K)); lra).
  assert (COM : forall c, multiply c (Real k) = multiply (Real k) c).
  { intros [?|t|[|]|]; cbn [multiply]; try reflexivity. rewrite Rmult_comm. reflexivity. }
  assert (A : at_most (Real a) (Real a')). { rewrite <- EA, <- EA'. unfold range_au_f. rewrite !COM. apply scale_mono; [exact KP|exact HR]. }
  assert (B : at_most (Real b) (Real b')).
  { rewrite <- EB, <- EB'. unfold sun_distance_f. rewrite !COM. apply scale_mono; [exact KP|].
    assert (N1 := sq_nn x). assert (N2 := sq_nn y). assert (N3 := sq_nn z).
    assert (P1 := plus_mono _ _ _ _ N1 N2 (sq_le _ _ HX) (sq_le _ _ HY)). assert (P2 := plus_nn _ _ N1 N2).
    assert (P3 := plus_mono _ _ _ _ P2 N3 P1 (sq_le _ _ HZ)). exact (proj2 (root_mono _ _ (plus_nn _ _ P2 N3) P3)). }
  assert (P : at_most (Real p) (Real p')). { rewrite <- EP, <- EP'. apply scale_mono; [lra|]. apply LI; [exact PA|exact A]. }
  assert (Q : at_most (Real q) (Real q')). { rewrite <- EQ, <- EQ'. apply scale_mono; [lra|]. apply LI; [exact PB|exact B]. }
  assert (V := reals_mono _ _ _ _ P Q). rewrite EV, EV' in V. apply reals_mono; [exact V|exact HM].
Qed.

(** ** PSF magnitudes *)
Lemma C113_psf_proof : forall L on dra ddec seeing texp m, library_log L -> practical dra ddec seeing texp -> binary64 m ->
  let p := psf_mag_f L on (Real dra) (Real ddec) (Real seeing) (Real texp) (Real m) in
  at_most (Real m) p /\ (on = false \/ dra = 0 /\ ddec = 0 -> p = Real m).
Proof.
  intros L on dra ddec seeing texp m LL P [FM TM] p. unfold p, psf_mag_f. destruct on; [|split; [cbn; lra|reflexivity]].
  destruct (loss_nn L false dra ddec seeing texp LL P) as (l & -> & N & Z).
  assert (E : finish m = Real m) by (rewrite finish_real; rewrite fl_float by exact FM; [reflexivity|exact TM]).
  cbn [plus]. split.
  - rewrite <- E. apply fin_mono. lra.
  - intros [D|[D1 D2]]; [discriminate|]. rewrite (Z D1 D2), Rplus_0_l. exact E.
Qed.

Lemma accurate_from_1 : forall L, accurate_log10 L -> accurate_log L.
Proof.
  intros L A x B X. destruct (A x B ltac:(lra)) as (y & E & Y). exists y. split; [exact E|]. rewrite (Rabs_right (ln x / ln 10)) in Y; [exact Y|].
  assert (L10 := ln10_ge). assert (H := ln_mono 1 x ltac:(lra)). rewrite ln_1 in H. apply Rle_ge, Rmult_le_pos; [lra|left; apply Rinv_0_lt_compat; lra].
Qed.
Lemma C113_trailing_proof : forall L dra ddec s t m, accurate_log10 L -> ordinary dra ddec s t -> Rabs m <= 100 ->
  absolutely (psf_mag_f L true (Real dra) (Real ddec) (Real s) (Real t) (Real m)) (m + trailing_loss (420 / 1000) (3 / 1000) (trail_length dra ddec s t)).
Proof.
  intros L dra ddec s t m LA O M. apply accurate_from_1 in LA. unfold psf_mag_f, calcTrailingLoss_f.
  assert (H : exists x, trail_f (Real dra) (Real ddec) (Real s) (Real t) = Real x /\ (x = 0 /\ trail_length dra ddec s t = 0 \/ ok 10 240 x (trail_length dra ddec s t) /\ trail_length dra ddec s t <= bpow radix2 37)).
  { destruct (trail_ok _ _ _ _ O) as [(_ & _ & E & Z)|(x & E & X)]; [exists 0|exists x]; auto. }
  destruct H as (x & -> & H). destruct (loss_ok L (420 / 1000) (3 / 1000) x _ LA ltac:(lra) ltac:(lra) H) as (l & -> & E & B).
  set (z := trailing_loss (420 / 1000) (3 / 1000) (trail_length dra ddec s t)) in *.
  destruct (sum_close l m z m 65 0 E ltac:(rewrite Rminus_diag_eq, Rabs_R0 by reflexivity; lra) ltac:(rewrite (Rabs_right z) by lra; lra) ltac:(lra) ltac:(lra)) as (v & -> & V).
  exists v. split; [reflexivity|]. rewrite (Rplus_comm m z). apply Rle_trans with (1 := V). unfold u. lra.
Qed.

(** ** The fraction of the light *)
Definition xf (i : Z) : R := fl (IZR i * 2 / 100).
Definition yf (a : Z) : R := fl (fl (IZR a / 1000000) / fl (623885 / 1000000)).
Fixpoint pl (i a : Z) (l : list Z) (t : R) : R :=
  match l with
  | [] => IZR a
  | b :: l' => if Rlt_dec t (IZR (i + 1)) then IZR a + (IZR b - IZR a) * (t - IZR i) else pl (i + 1) b l' t
  end.
Fixpoint drops (a : Z) (l : list Z) : bool :=
  match l with
  | [] => (200000 <=? a)%Z && (a <=? 623885)%Z
  | b :: l' => (200000 <=? a)%Z && (a <=? 623885)%Z && (b <=? a)%Z && (a - b <=? 40000)%Z && drops b l'
  end.
Lemma drops_head : forall a l, drops a l = true -> 200000 <= IZR a <= 623885.
Proof. intros a [|b l]; cbn [drops]; rewrite ?andb_true_iff, ?Z.leb_le; intro H; split; apply IZR_le; lia. Qed.
Lemma drops_step : forall a b l, drops a (b :: l) = true -> 0 <= IZR a - IZR b <= 40000 /\ drops b l = true.
Proof. intros a b l. cbn [drops]. rewrite ?andb_true_iff, ?Z.leb_le. intro H. rewrite <- minus_IZR. split; [split; apply IZR_le; lia|tauto]. Qed.
Lemma pl_start : forall l i a, pl i a l (IZR i) = IZR a.
Proof. intros [|b l] i a; cbn [pl]; [reflexivity|]. destruct (Rlt_dec (IZR i) (IZR (i + 1))) as [H|H]; [ring|]. rewrite plus_IZR in H. lra. Qed.
Lemma pl_lip : forall l i a t s, drops a l = true -> IZR i <= t <= s -> 0 <= pl i a l t - pl i a l s <= 40000 * (s - t).
Proof.
  induction l as [|b l IH]; intros i a t s D H; cbn [pl]; [lra|]. destruct (drops_step _ _ _ D) as [AB D'].
  assert (I1 : IZR (i + 1) = IZR i + 1) by apply plus_IZR.
  assert (seg : forall v w, 0 <= v -> v <= w -> 0 <= (IZR a - IZR b) * (w - v) <= 40000 * (w - v)) by (intros v w V W; split; [apply Rmult_le_pos; lra|apply Rmult_le_compat_r; lra]).
  destruct (Rlt_dec t (IZR (i + 1))) as [T|T]; destruct (Rlt_dec s (IZR (i + 1))) as [S|S]; try lra.
  - assert (Q := seg (t - IZR i) (s - IZR i) ltac:(lra) ltac:(lra)).
    replace (IZR a + (IZR b - IZR a) * (t - IZR i) - (IZR a + (IZR b - IZR a) * (s - IZR i))) with ((IZR a - IZR b) * (s - IZR i - (t - IZR i))) by ring. lra.
  - assert (Q := seg (t - IZR i) 1 ltac:(lra) ltac:(lra)). assert (R := IH (i + 1)%Z b (IZR (i + 1)) s D' ltac:(lra)). rewrite pl_start in R.
    replace (IZR a + (IZR b - IZR a) * (t - IZR i)) with (IZR b + (IZR a - IZR b) * (1 - (t - IZR i))) by ring. lra.
  - apply IH; [exact D'|lra].
Qed.
Lemma fl_small : forall x B, Rabs x <= B -> Rabs (fl x - x) <= small * (1 + B).
Proof. intros x B H. assert (E := fl_err x). rewrite <- small_val in E. assert (small * (1 + Rabs x) <= small * (1 + B)) by (apply Rmult_le_compat_l; [rewrite small_val|]; lra). lra. Qed.
Ltac sm := rewrite small_val in *; lra.
Lemma xf_close : forall i, (0 <= i <= 101)%Z -> Rabs (xf i - IZR i / 50) <= 4 * small.
Proof.
  intros i I. assert (0 <= IZR i <= 101) by (split; apply IZR_le; lia). assert (F := fl_small (IZR i * 2 / 100) 3 ltac:(apply Rabs_le; lra)).
  replace (IZR i / 50) with (IZR i * 2 / 100) by lra. unfold xf. lra.
Qed.
Lemma yf_close : forall a, 200000 <= IZR a <= 623885 -> Rabs (yf a - IZR a / 623885) <= 10 * small /\ yf a <= 1.
Proof.
  intros a A. unfold yf. assert (F1 := fl_small (IZR a / 1000000) 1 ltac:(apply Rabs_le; lra)). assert (F2 := fl_small (623885 / 1000000) 1 ltac:(apply Rabs_le; lra)).
  assert (M : fl (IZR a / 1000000) <= fl (623885 / 1000000)) by (apply fl_mono; lra).
  set (p := fl (IZR a / 1000000)) in *. set (q := fl (623885 / 1000000)) in *. apply Rabs_le_inv in F1. apply Rabs_le_inv in F2.
  assert (SV := small_val). assert (Q : 62 / 100 <= q) by lra. assert (P0 : 0 <= p) by lra.
  assert (IQ : / q <= 2) by (apply Rle_trans with (/ (62 / 100)); [apply Rinv_le_contravar; lra|lra]). assert (IQ0 : 0 < / q) by (apply Rinv_0_lt_compat; lra).
  assert (PQ : 0 <= p / q <= 1). { split; [apply Rmult_le_pos; lra|]. apply Rmult_le_reg_r with q; [lra|]. unfold Rdiv. rewrite Rmult_assoc, Rinv_l; lra. }
  assert (F3 := fl_small (p / q) 1 ltac:(apply Rabs_le; lra)). split; [|apply fl_le_float; [apply (format_int 1); lia|lra]].
  assert (D : Rabs (p / q - IZR a / 623885) <= 8 * small).
  { set (c := IZR a / 623885) in *. assert (C : 0 <= c <= 1) by (unfold c; lra).
    replace (p / q - c) with ((p - q * c) * / q) by (field; lra). rewrite Rabs_mult, (Rabs_right (/ q)) by lra.
    assert (Rabs (p - q * c) <= 4 * small).
    { replace (p - q * c) with ((p - IZR a / 1000000) - (q - 623885 / 1000000) * c) by (unfold c; field).
      assert (G : Rabs ((q - 623885 / 1000000) * c) <= 2 * small). { rewrite Rabs_mult, (Rabs_right c) by lra. assert (Rabs (q - 623885 / 1000000) <= 2 * small) by (apply Rabs_le; lra). assert (Rabs (q - 623885 / 1000000) * c <= 2 * small * 1) by (apply Rmult_le_compat; try lra; apply Rabs_pos). lra. }
      apply Rabs_le_inv in G. apply Rabs_le. lra. }
    apply Rle_trans with (4 * small * 2); [apply Rmult_le_compat; try lra; apply Rabs_pos|lra]. }
  apply Rabs_le_inv in D. apply Rabs_le_inv in F3. apply Rabs_le. lra.
Qed.
(** One step of numpy's interpolation. *)
Lemma segment : forall i a b x, (0 <= i <= 100)%Z -> 200000 <= IZR a <= 623885 -> 200000 <= IZR b <= 623885 -> 0 <= IZR a - IZR b <= 40000 -> xf i <= x < xf (i + 1) ->
  exists w t, plus (multiply (quotient (minus (Real (yf b)) (Real (yf a))) (minus (Real (xf (i + 1))) (Real (xf i)))) (minus (Real x) (Real (xf i)))) (Real (yf a)) = Real w
    /\ w <= yf a /\ format w /\ 0 <= t <= 1 /\ Rabs (IZR i + t - x * 50) <= 2000 * small /\ Rabs (w - (IZR a + (IZR b - IZR a) * t) / 623885) <= 60 * small.
Proof.
  intros i a b x HI A B AB X. assert (SV := small_val).
  assert (X0 := xf_close i ltac:(lia)). assert (X1 := xf_close (i + 1) ltac:(lia)). rewrite plus_IZR in X1.
  destruct (yf_close a A) as [Y0 L0]. destruct (yf_close b B) as [Y1 L1]. assert (II : 0 <= IZR i <= 100) by (split; apply IZR_le; lia).
  assert (YM : yf b <= yf a). { unfold yf. apply fl_mono. apply Rmult_le_compat_r; [left; apply Rinv_0_lt_compat; apply lit_pos; lra|]. apply fl_mono. lra. }
  set (xa := xf i) in *. set (xb := xf (i + 1)) in *. set (ya := yf a) in *. set (yb := yf b) in *.
  assert (FYA : format ya) by apply fl_format.
  apply Rabs_le_inv in X0. apply Rabs_le_inv in X1. apply Rabs_le_inv in Y0. apply Rabs_le_inv in Y1.
  set (ca := IZR a / 623885) in *. set (cb := IZR b / 623885) in *.
  assert (CAB : 3 / 10 <= cb /\ cb <= ca <= 1 /\ ca - cb <= 1 / 10) by (unfold ca, cb; lra).
  cbn [minus plus].
  change (yb + - ya) with (yb - ya). change (xb + - xa) with (xb - xa). change (x + - xa) with (x - xa).
  destruct (fl_within (yb - ya) 1 ltac:(lia) ltac:(apply Rabs_le; lra)) as [_ ->]. destruct (fl_within (xb - xa) 1 ltac:(lia) ltac:(apply Rabs_le; lra)) as [_ ->].
  destruct (fl_within (x - xa) 1 ltac:(lia) ltac:(apply Rabs_le; lra)) as [_ ->]. cbn [quotient].
  assert (FD := fl_small (yb - ya) 1 ltac:(apply Rabs_le; lra)). assert (FE := fl_small (xb - xa) 1 ltac:(apply Rabs_le; lra)). assert (FT := fl_small (x - xa) 1 ltac:(apply Rabs_le; lra)).
  assert (D0 : fl (yb - ya) <= 0) by (apply fl_le_float; [apply format_0|lra]). assert (T0 : 0 <= fl (x - xa)) by (apply fl_ge_float; [apply format_0|lra]).
  assert (TE : fl (x - xa) <= fl (xb - xa)) by (apply fl_mono; lra).
  set (D := fl (yb - ya)) in *. set (E := fl (xb - xa)) in *. set (T := fl (x - xa)) in *.
  apply Rabs_le_inv in FD. apply Rabs_le_inv in FE. apply Rabs_le_inv in FT.
  assert (EB : 19 / 1000 <= E <= 21 / 1000) by lra. destruct (Req_EM_T E 0) as [Z|_]; [lra|].
  assert (IE : 0 < / E <= 60) by (split; [apply Rinv_0_lt_compat; lra|apply Rle_trans with (/ (19 / 1000)); [apply Rinv_le_contravar; lra|lra]]).
  assert (DE : - 12 <= D / E <= 0).
  { assert (- D * / E <= 2 / 10 * 60) by (apply Rmult_le_compat; lra). assert (0 <= - D * / E) by (apply Rmult_le_pos; lra). unfold Rdiv. lra. }
  destruct (fl_within (D / E) 12 ltac:(lia) ltac:(apply Rabs_le; lra)) as [BS ->]. cbn [multiply].
  assert (S0 : fl (D / E) <= 0) by (apply fl_le_float; [apply format_0|lra]). assert (FS := fl_small (D / E) 12 ltac:(apply Rabs_le; lra)). set (s := fl (D / E)) in *.
  apply Rabs_le_inv in BS. assert (ST : - 1 <= s * T <= 0).
  { assert (- s * T <= 12 * (21 / 1000)) by (apply Rmult_le_compat; lra). assert (0 <= - s * T) by (apply Rmult_le_pos; lra). lra. }
  destruct (fl_within (s * T) 1 ltac:(lia) ltac:(apply Rabs_le; lra)) as [BP ->]. cbn [plus].
  assert (P0 : fl (s * T) <= 0) by (apply fl_le_float; [apply format_0|lra]). assert (FP := fl_small (s * T) 1 ltac:(apply Rabs_le; lra)). set (P := fl (s * T)) in *.
  apply Rabs_le_inv in BP. destruct (fl_within (P + ya) 2 ltac:(lia) ltac:(apply Rabs_le; lra)) as [_ ->].
  assert (FW := fl_small (P + ya) 2 ltac:(apply Rabs_le; lra)).
  exists (fl (P + ya)), (T / E). split; [reflexivity|]. split; [apply fl_le_float; [exact FYA|lra]|]. split; [apply fl_format|].
  assert (T1 : 0 <= T / E <= 1). { split; [apply Rmult_le_pos; lra|]. apply Rmult_le_reg_r with E; [lra|]. unfold Rdiv. rewrite Rmult_assoc, Rinv_l; lra. }
  split; [exact T1|]. split.
  - replace (IZR i + T / E - x * 50) with ((T - E * (x * 50 - IZR i)) * / E) by (field; lra). rewrite Rabs_mult, (Rabs_right (/ E)) by lra.
    set (tau := x * 50 - IZR i) in *. assert (TB : - 1 <= tau <= 2) by (unfold tau; lra).
    assert (G : Rabs (T - E * tau) <= 33 * small).
    { replace (T - E * tau) with ((T - (x - xa)) - (xa - IZR i / 50) - (E - 1 / 50) * tau) by (unfold tau; field).
      assert (Q : Rabs ((E - 1 / 50) * tau) <= 20 * small).
      { rewrite Rabs_mult. assert (Rabs (E - 1 / 50) <= 10 * small) by (apply Rabs_le; lra). assert (Rabs tau <= 2) by (apply Rabs_le; lra).
        apply Rle_trans with (10 * small * 2); [apply Rmult_le_compat; try lra; apply Rabs_pos|lra]. }
      apply Rabs_le_inv in Q. apply Rabs_le. lra. }
    apply Rle_trans with (33 * small * 60); [apply Rmult_le_compat; try lra; apply Rabs_pos|lra].
  - set (t := T / E) in *. replace ((IZR a + (IZR b - IZR a) * t) / 623885) with (ca + (cb - ca) * t) by (unfold ca, cb; field).
    assert (G1 : Rabs (s * T - D * t) <= 1 * small).
    { replace (s * T - D * t) with ((s - D / E) * T) by (unfold t; field; lra). rewrite Rabs_mult, (Rabs_right T) by lra.
      apply Rle_trans with (small * (1 + 12) * (21 / 1000)); [apply Rmult_le_compat; try lra; apply Rabs_pos|lra]. }
    assert (G2 : Rabs ((D - (cb - ca)) * t) <= 22 * small).
    { rewrite Rabs_mult, (Rabs_right t) by lra. assert (Rabs (D - (cb - ca)) <= 22 * small) by (apply Rabs_le; lra).
      apply Rle_trans with (22 * small * 1); [apply Rmult_le_compat; try lra; apply Rabs_pos|lra]. }
    apply Rabs_le_inv in G1. apply Rabs_le_inv in G2. apply Rabs_le_inv in FP. apply Rabs_le_inv in FW. apply Rabs_le. lra.
Qed.
Definition entry (p : Z * Z) : R * R := (xf (fst p), yf (snd p)).
Lemma walk : forall l i a x, (0 <= i)%Z -> (i + Z.of_nat (length l) <= 100)%Z -> drops a l = true -> xf i <= x ->
  exists w, interp_from_f (xf i) (yf a) (map entry (number (i + 1) l)) x = Real w /\ w <= 1 /\ format w
    /\ exists t, IZR i <= t /\ Rabs (t - x * 50) <= 2000 * small /\ Rabs (w - pl i a l t / 623885) <= 60 * small.
Proof.
  induction l as [|b l IH]; intros i a x I0 IL D X; cbn [number map interp_from_f entry fst snd pl]; assert (SV := small_val);
    assert (X0 := xf_close i ltac:(lia)); apply Rabs_le_inv in X0.
  - destruct (yf_close a (drops_head _ _ D)) as [Y L]. exists (yf a). split; [reflexivity|]. split; [exact L|]. split; [apply fl_format|].
    exists (Rmax (IZR i) (x * 50)). split; [apply Rmax_l|]. split; [unfold Rmax; destruct (Rle_dec (IZR i) (x * 50)); apply Rabs_le; lra|lra].
  - destruct (drops_step _ _ _ D) as [AB D']. cbn [length] in IL. rewrite Nat2Z.inj_succ in IL. assert (HA := drops_head _ _ D). assert (HB := drops_head _ _ D').
    assert (I1 : IZR (i + 1) = IZR i + 1) by apply plus_IZR.
    destruct (Rlt_dec x (xf (i + 1))) as [LT|GE].
    + destruct (segment i a b x ltac:(lia) HA HB AB (conj X LT)) as (w & t & E & W & F & T & C & V). destruct (yf_close a HA) as [Y L].
      destruct (Req_EM_T x (xf i)) as [EQ|_].
      * exists (yf a). split; [reflexivity|]. split; [lra|]. split; [apply fl_format|]. exists (IZR i). split; [lra|]. split; [rewrite EQ; apply Rabs_le; lra|].
        destruct (Rlt_dec (IZR i) (IZR (i + 1))); [|lra]. replace (IZR a + (IZR b - IZR a) * (IZR i - IZR i)) with (IZR a) by ring. lra.
      * exists w. split; [exact E|]. split; [lra|]. split; [exact F|]. exists (IZR i + t). split; [lra|]. split; [exact C|].
        destruct (Rlt_dec (IZR i + t) (IZR (i + 1))) as [H|H].
        -- replace (IZR i + t - IZR i) with t by ring. exact V.
        -- replace (IZR i + t) with (IZR (i + 1)) by lra. rewrite pl_start. replace t with 1 in V by lra. replace (IZR a + (IZR b - IZR a) * 1) with (IZR b) in V by ring. exact V.
    + destruct (IH (i + 1)%Z b x ltac:(lia) ltac:(lia) D' ltac:(lra)) as (w & E & W & F & t & T & C & V). exists w. split; [exact E|]. split; [exact W|]. split; [exact F|].
      exists t. split; [lra|]. split; [exact C|]. destruct (Rlt_dec t (IZR (i + 1))); [lra|exact V].
Qed.
Lemma pl_at : forall k l i a t c d, nth_error (a :: l) k = Some c -> nth_error (a :: l) (S k) = Some d -> IZR i + INR k <= t <= IZR i + INR (S k) ->
  pl i a l t = IZR c + (IZR d - IZR c) * (t - IZR i - INR k).
Proof.
  induction k as [|k IH]; intros l i a t c d C D T; destruct l as [|b l]; cbn in C, D; try discriminate.
  - injection C as <-. injection D as <-. cbn [pl INR] in *. rewrite plus_IZR. destruct (Rlt_dec t (IZR i + 1)); [f_equal; f_equal; lra|].
    replace t with (IZR (i + 1)) by (rewrite plus_IZR; lra). rewrite pl_start, plus_IZR. lra.
  - cbn [pl]. rewrite !S_INR in T. assert (K0 := pos_INR k). rewrite plus_IZR. destruct (Rlt_dec t (IZR i + 1)); [lra|].
    rewrite (IH l (i + 1)%Z b t c d C D); [rewrite plus_IZR, S_INR; f_equal; f_equal; lra|rewrite plus_IZR, S_INR; lra].
Qed.
Lemma pl_end : forall l i a t, IZR i + INR (length l) <= t -> pl i a l t = IZR (last (a :: l) 0%Z).
Proof.
  induction l as [|b l IH]; intros i a t T; [reflexivity|]. cbn [pl]. change (length (b :: l)) with (S (length l)) in T. rewrite S_INR in T. assert (K := pos_INR (length l)).
  rewrite plus_IZR. destruct (Rlt_dec t (IZR i + 1)); [lra|]. rewrite IH by (rewrite plus_IZR; lra). reflexivity.
Qed.
Definition tail : list Z := Eval cbv in tl published.
Lemma published_is : published = 623885%Z :: tail. Proof. reflexivity. Qed.
Lemma table_is : vignet_table_f = (xf 0, yf 623885) :: map entry (number (0 + 1) tail).
Proof. unfold vignet_table_f. change vignet_frac with (623885%Z :: tail). reflexivity. Qed.
Lemma xf0 : xf 0 = 0. Proof. unfold xf. replace (0 * 2 / 100) with 0 by lra. apply fl_0. Qed.
Lemma tail_drops : drops 623885 tail = true. Proof. vm_compute. reflexivity. Qed.
Lemma fraction_pl : forall theta f, fraction_at theta f -> 0 <= theta /\ f = pl 0 623885 tail (theta * 50) / 623885.
Proof.
  intros theta f [(i & a & b & A & B & T & ->)|[T ->]].
  - rewrite published_is in A, B. assert (P := pos_INR i). split; [lra|]. rewrite (pl_at i tail 0%Z 623885%Z (theta * 50) a b A B) by lra. f_equal. f_equal. f_equal. lra.
  - split; [lra|]. rewrite pl_end; [reflexivity|]. replace (INR (length tail)) with 100 by (rewrite INR_IZR_INZ; reflexivity). lra.
Qed.
Lemma last_le : forall l a, drops a l = true -> drops (last (a :: l) 0%Z) [] = true.
Proof.
  induction l as [|b l IH]; intros a D; [exact D|]. destruct (drops_step _ _ _ D) as [_ D']. exact (IH b D').
Qed.
Lemma light : forall theta f, fraction_at theta f ->
  exists w, interp_f vignet_table_f (Real theta) = Real w /\ w <= 1 /\ format w /\ Rabs (w - f) <= 200 * small /\ 32 / 100 <= f <= 1.
Proof.
  intros theta f H. destruct (fraction_pl _ _ H) as [T0 ->]. rewrite table_is. cbn [interp_f]. destruct (Rlt_dec theta (xf 0)) as [L|_]; [rewrite xf0 in L; lra|].
  destruct (walk tail 0 623885 theta ltac:(lia) ltac:(vm_compute; discriminate) tail_drops ltac:(rewrite xf0; lra)) as (w & E & W & F & t & T & C & V).
  exists w. split; [exact E|]. split; [exact W|]. split; [exact F|]. assert (SV := small_val).
  assert (LIP : Rabs (pl 0 623885 tail t - pl 0 623885 tail (theta * 50)) <= 40000 * (2000 * small)).
  { apply Rabs_le_inv in C. destruct (Rle_dec t (theta * 50)) as [H1|H1].
    - assert (Q := pl_lip tail 0 623885 t (theta * 50) tail_drops ltac:(lra)). apply Rabs_le. lra.
    - assert (Q := pl_lip tail 0 623885 (theta * 50) t tail_drops ltac:(lra)). apply Rabs_le. lra. }
  split. { apply Rabs_le_inv in LIP. apply Rabs_le_inv in V. apply Rabs_le. lra. }
  assert (U := pl_lip tail 0 623885 (IZR 0) (theta * 50) tail_drops ltac:(lra)). rewrite pl_start in U.
  assert (MX := Rmax_l (theta * 50) 100). assert (U2 := pl_lip tail 0 623885 (theta * 50) (Rmax (theta * 50) 100) tail_drops ltac:(lra)).
  rewrite (pl_end tail 0 623885 (Rmax (theta * 50) 100)) in U2.
  - change (last (623885%Z :: tail) 0%Z) with 201974%Z in U2. lra.
  - replace (INR (length tail)) with 100 by (rewrite INR_IZR_INZ; reflexivity). rewrite Rplus_0_l. apply Rmax_r.
Qed.
Lemma yf_1 : yf 623885 = 1.
Proof. unfold yf. assert (P := lit_pos (623885 / 1000000) ltac:(lra)). unfold Rdiv. rewrite Rinv_r by (change (623885 * / 1000000) with (623885 / 1000000); lra). apply fl_1. Qed.
Lemma flat : forall k l i x, (0 <= i)%Z -> (i + Z.of_nat (k + length l) <= 100)%Z -> xf i <= x <= xf (i + Z.of_nat k) ->
  interp_from_f (xf i) 1 (map entry (number (i + 1) (repeat 623885%Z k ++ l))) x = Real 1.
Proof.
  assert (SV := small_val).
  assert (UP : forall i, (0 <= i <= 99)%Z -> xf i < xf (i + 1)).
  { intros i I. assert (A := xf_close i ltac:(lia)). assert (B := xf_close (i + 1) ltac:(lia)). rewrite plus_IZR in B. apply Rabs_le_inv in A. apply Rabs_le_inv in B. lra. }
  induction k as [|k IH]; intros l i x I0 IL X.
  - rewrite Z.add_0_r in X. cbn [repeat app]. destruct l as [|b l]; [reflexivity|]. cbn [number map interp_from_f entry fst snd]. cbn [length] in IL.
    assert (U := UP i ltac:(lia)). destruct (Rlt_dec x (xf (i + 1))); [|lra]. destruct (Req_EM_T x (xf i)); [reflexivity|lra].
  - cbn [repeat app number map interp_from_f entry fst snd]. rewrite yf_1. destruct (Rlt_dec x (xf (i + 1))) as [L|G].
    + destruct (Req_EM_T x (xf i)); [reflexivity|]. assert (U := UP i ltac:(lia)).
      assert (A := xf_close i ltac:(lia)). assert (B := xf_close (i + 1) ltac:(lia)). rewrite plus_IZR in B. apply Rabs_le_inv in A. apply Rabs_le_inv in B.
      cbn [minus plus]. rewrite Rplus_opp_r. assert (F0 : finish 0 = Real 0) by (apply small_finish; [apply format_0|rewrite Rabs_R0; lra]). rewrite F0.
      assert (E := fl_small (xf (i + 1) + - xf i) 1 ltac:(apply Rabs_le; lra)). apply Rabs_le_inv in E.
      destruct (fl_within (xf (i + 1) + - xf i) 1 ltac:(lia) ltac:(apply Rabs_le; lra)) as [_ ->]. destruct (fl_within (x + - xf i) 1 ltac:(lia) ltac:(apply Rabs_le; lra)) as [_ ->].
      cbn [quotient]. destruct (Req_EM_T (fl (xf (i + 1) + - xf i)) 0) as [Z|_]; [lra|]. unfold Rdiv. rewrite Rmult_0_l, F0. cbn [multiply]. rewrite Rmult_0_l, F0. cbn [plus]. rewrite Rplus_0_l.
      apply small_finish; [apply (format_int 1); lia|rewrite Rabs_right; lra].
    + apply IH; [lia|lia|]. split; [lra|]. replace (i + 1 + Z.of_nat k)%Z with (i + Z.of_nat (S k))%Z by lia. lra.
Qed.
Definition rest33 : list Z := Eval cbv in skipn 32 tail.
Lemma tail_flat : tail = repeat 623885%Z 32 ++ rest33. Proof. reflexivity. Qed.
Lemma full : forall theta, binary64 theta -> 0 <= theta <= 64 / 100 -> interp_f vignet_table_f (Real theta) = Real 1.
Proof.
  intros theta [F _] T. rewrite table_is. cbn [interp_f]. destruct (Rlt_dec theta (xf 0)) as [L|_]; [rewrite xf0 in L; lra|]. rewrite yf_1, tail_flat.
  apply flat; [lia|vm_compute; discriminate|]. rewrite xf0. split; [lra|]. change (0 + Z.of_nat 32)%Z with 32%Z. unfold xf. apply fl_ge_float; [exact F|lra].
Qed.
(** ** The depth *)
Lemma near_ok : forall w f, Rabs (w - f) <= 200 * small -> 32 / 100 <= f <= 1 -> ok 80 2 w f.
Proof.
  intros w f D F. rewrite small_val in D. split; [lra|]. split; [rewrite bpow_opp; change (bpow radix2 2) with 4; lra|]. unfold u. lra.
Qed.
Lemma log_1 : forall L, accurate_log10 L -> L (Real 1) = Real 0.
Proof.
  intros L A. assert (B1 : binary64 1). { split; [apply (format_int 1); lia|]. rewrite Rabs_right by lra. assert (T := top_big). lra. }
  destruct (A 1 B1 ltac:(lra)) as (y & -> & H). rewrite ln_1 in H. unfold Rdiv in H. rewrite Rmult_0_l, Rabs_R0, Rmult_0_r, Rminus_0_r in H. f_equal. apply Rabs_le_inv in H. lra.
Qed.
Lemma C113_depth_proof : forall L theta f d, accurate_log10 L -> binary64 theta -> fraction_at theta f -> binary64 d -> Rabs d <= 100 ->
  depth_f L false (Real d) (Real theta) = Real d
  /\ exists v, depth_f L true (Real d) (Real theta) = Real v /\ v <= d /\ Rabs (v - (d + 5 / 2 * (ln f / ln 10))) <= / 10 ^ 12
     /\ (theta <= 64 / 100 -> v = d).
Proof.
  intros L theta f d LA BT FR [FD TD] D. split; [reflexivity|]. unfold depth_f, vignetFunc_f. destruct (light theta f FR) as (w & E & W & F & N & FB).
  assert (O := near_ok w f N FB). assert (WP : 0 < w) by (destruct (ok_pos _ _ _ _ O); lra). assert (L10 := ln10_ge). assert (U := u_pos). assert (UU : 1000 * u <= / 10 ^ 13 * 20) by (unfold u; lra).
  assert (LB : - 2 <= ln f <= 0).
  { split; [|rewrite <- ln_1; apply ln_mono; lra]. assert (H := ln_le_minus (/ f) ltac:(apply Rinv_0_lt_compat; lra)). rewrite ln_Rinv in H by lra.
    assert (/ f <= / (32 / 100)) by (apply Rinv_le_contravar; lra). assert (/ (32 / 100) = 25 / 8) by lra.
    assert (H2 := ln_le_minus (/ f / (25 / 8)) ltac:(apply Rmult_lt_0_compat; [apply Rinv_0_lt_compat|]; lra)).
    unfold Rdiv in H2. rewrite !ln_mult in H2 by (try apply Rinv_0_lt_compat; lra). rewrite !ln_Rinv in H2 by lra.
    assert (H3 := ln_le_minus (5 / 2) ltac:(lra)). assert (H4 := ln_le_minus (5 / 4) ltac:(lra)).
    assert (S : ln (25 / 8) = ln (5 / 2) + ln (5 / 4)) by (rewrite <- ln_mult by lra; f_equal; lra).
    assert (/ f * / (25 / 8) <= 1) by (apply Rmult_le_reg_r with (25 / 8); [lra|]; rewrite Rmult_assoc, Rinv_l; lra).
    unfold Rdiv in S. assert (ln (25 * / 8) <= 7 / 4) by (unfold Rdiv in *; lra). assert (ln (25 * / 8) = ln 25 - ln 8) by (rewrite ln_mult, ln_Rinv by lra; lra). lra. }
  assert (LQ : Rabs (ln f / ln 10) <= 1).
  { apply Rabs_le. split; apply Rmult_le_reg_r with (ln 10); try lra; unfold Rdiv; rewrite Rmult_assoc, Rinv_l; lra. }
  destruct (log_any L _ _ _ _ 1 LA O ltac:(lra) ltac:(lia) F LQ ltac:(lra)) as (y & EY & Y).
  assert (BW : binary64 w). { split; [exact F|]. rewrite Rabs_right by lra. assert (T := top_big). lra. }
  assert (Y0 : y <= 0).
  { destruct (LA w BW WP) as (y' & EY' & Y'). rewrite EY in EY'. injection EY' as <-. assert (H := ln_mono w 1 ltac:(lra)). rewrite ln_1 in H.
    set (q := ln w / ln 10) in *. assert (Q : q <= 0). { apply Rmult_le_reg_r with (ln 10); [lra|]. unfold q, Rdiv. rewrite Rmult_assoc, Rinv_l; lra. }
    rewrite (Rabs_left1 q Q) in Y'. apply Rabs_le_inv in Y'. assert (/ 2 ^ 50 * - q <= 1 * - q) by (apply Rmult_le_compat_r; lra). lra. }
  rewrite E, EY. cbn [multiply]. set (lg := ln f / ln 10) in *. assert (YB := Y). apply Rabs_le_inv in YB. assert (LQ' := LQ). apply Rabs_le_inv in LQ'.
  assert (AB : Rabs (-5 / 2 * y) <= 3) by (apply Rabs_le; lra).
  destruct (fl_within (-5 / 2 * y) 3 ltac:(lia) AB) as [AB2 ->]. cbn [minus plus]. assert (P0 : 0 <= fl (-5 / 2 * y)) by (apply fl_ge_float; [apply format_0|lra]).
  assert (T1 := tiny_ok (-5 / 2 * y) ltac:(lra)). set (z := fl (-5 / 2 * y)) in *. rewrite Rabs_right in AB2 by lra. apply Rabs_le_inv in D.
  destruct (fl_within (d + - z) 200 ltac:(lia) ltac:(apply Rabs_le; lra)) as [_ ->]. assert (T2 := tiny_ok (d + - z) ltac:(apply Rabs_le; lra)).
  exists (fl (d + - z)). split; [reflexivity|]. split; [apply fl_le_float; [exact FD|lra]|]. split.
  - assert (/ 8 * u * Rabs (-5 / 2 * y) <= / 8 * u * 3) by (apply Rmult_le_compat_l; lra).
    assert (/ 8 * u * Rabs (d + - z) <= / 8 * u * 104) by (apply Rmult_le_compat_l; [lra|apply Rabs_le; lra]).
    apply Rabs_le_inv in T1. apply Rabs_le_inv in T2. apply Rabs_le. lra.
  - intro FL. destruct (fraction_pl _ _ FR) as [T0 _]. rewrite (full theta BT (conj T0 FL)) in E. injection E as <-.
    rewrite (log_1 L LA) in EY. injection EY as <-. unfold z. rewrite Rmult_0_r, fl_0, Ropp_0, Rplus_0_r. apply fl_float. exact FD.
Qed.

(** ** Times *)
Lemma half_day : forall s, 0 <= s <= 1000000 -> exists h, divide (divide (Real s) (Real 2)) (Real 86400) = Real h /\ 0 <= h <= 6 /\ format h /\ h = fl (fl (s / 2) / 86400) /\ Rabs (h - s / 172800) <= 2 * u.
Proof.
  intros s S. cbn [divide]. assert (TB : 2 ^ 30 <= bpow radix2 30) by (cbn; lra).
  destruct (fb (s / 2) 30 ltac:(lia) ltac:(lra)) as [-> B]. cbn [divide].
  assert (S1 : fl (s / 2) <= 500000) by (apply fl_le_float; [apply (format_int 500000); lia|lra]).
  destruct (fl_within (fl (s / 2) / 86400) 6 ltac:(lia) ltac:(apply Rabs_le; lra)) as [B2 ->].
  assert (P : 0 <= fl (fl (s / 2) / 86400)) by (apply fl_ge_float; [apply format_0|lra]).
  exists (fl (fl (s / 2) / 86400)). split; [reflexivity|]. rewrite Rabs_right in B2 by lra. split; [lra|]. split; [apply fl_format|]. split; [reflexivity|].
  assert (T1 := fl_small (s / 2) 500000 ltac:(apply Rabs_le; lra)). assert (T2 := fl_small (fl (s / 2) / 86400) 6 ltac:(apply Rabs_le; lra)).
  apply Rabs_le_inv in T1. apply Rabs_le_inv in T2. rewrite small_val in *. unfold u. apply Rabs_le. lra.
Qed.
Lemma C114_midpoint_proof : forall t s, a_time t -> a_duration s ->
  exists m, midpoint_f (Real t) (Real s) = Real m /\ t <= m /\ Rabs (m - (t + s / 172800)) <= / 10 ^ 10
    /\ forall t' s', a_time t' -> a_duration s' -> t <= t' -> s <= s' -> exists m', midpoint_f (Real t') (Real s') = Real m' /\ m <= m'.
Proof.
  assert (H : forall t s, a_time t -> a_duration s -> exists h, midpoint_f (Real t) (Real s) = Real (fl (t + h)) /\ h = fl (fl (s / 2) / 86400) /\ 0 <= h <= 6 /\ Rabs (h - s / 172800) <= 2 * u).
  { intros t s [[FT _] T] [_ S]. destruct (half_day s S) as (h & E & B & F & HE & D). exists h. unfold midpoint_f. rewrite E. cbn [plus]. split; [|auto].
    apply (fb (t + h) 20 ltac:(lia)). change (bpow radix2 20) with 1048576. lra. }
  intros t s AT AS. destruct (H t s AT AS) as (h & E & HE & B & D). destruct AT as [[FT _] T]. exists (fl (t + h)). split; [exact E|]. split; [apply fl_ge_float; [exact FT|lra]|]. split.
  - assert (R := fl_small (t + h) 140000 ltac:(apply Rabs_le; lra)). apply Rabs_le_inv in R. apply Rabs_le_inv in D. rewrite small_val in R. unfold u in D. apply Rabs_le. lra.
  - intros t' s' AT' AS' TT SS. destruct (H t' s' AT' AS') as (h' & E' & HE' & B' & D'). exists (fl (t' + h')). split; [exact E'|]. apply fl_mono.
    assert (h <= h') by (rewrite HE, HE'; apply fl_mono; apply Rmult_le_compat_r; [lra|]; apply fl_mono; lra). lra.
Qed.
Lemma C114_start_proof : forall m e, a_time m -> a_duration e ->
  exists t, des_start_f (Real m) (Real e) = Real t /\ t <= m /\ Rabs (t - (m - e / 172800)) <= / 10 ^ 10
    /\ forall m' e', a_time m' -> a_duration e' -> m <= m' -> e' <= e -> exists t', des_start_f (Real m') (Real e') = Real t' /\ t <= t'.
Proof.
  assert (H : forall t s, a_time t -> a_duration s -> exists h, des_start_f (Real t) (Real s) = Real (fl (t - h)) /\ h = fl (fl (s / 2) / 86400) /\ 0 <= h <= 6 /\ Rabs (h - s / 172800) <= 2 * u).
  { intros t s [[FT _] T] [_ S]. destruct (half_day s S) as (h & E & B & F & HE & D). exists h. unfold des_start_f. rewrite E. cbn [minus plus]. split; [|auto].
    change (t + - h) with (t - h). destruct (Rle_dec h t) as [L|L].
    - apply (fb (t - h) 20 ltac:(lia)). change (bpow radix2 20) with 1048576. lra.
    - apply (fl_within (t - h) 6 ltac:(lia)). apply Rabs_le. lra. }
  intros t s AT AS. destruct (H t s AT AS) as (h & E & HE & B & D). destruct AT as [[FT _] T]. exists (fl (t - h)). split; [exact E|]. split; [apply fl_le_float; [exact FT|lra]|]. split.
  - assert (R := fl_small (t - h) 140000 ltac:(apply Rabs_le; lra)). apply Rabs_le_inv in R. apply Rabs_le_inv in D. rewrite small_val in R. unfold u in D. apply Rabs_le. lra.
  - intros t' s' AT' AS' TT SS. destruct (H t' s' AT' AS') as (h' & E' & HE' & B' & D'). exists (fl (t' - h')). split; [exact E'|]. apply fl_mono.
    assert (h' <= h) by (rewrite HE, HE'; apply fl_mono; apply Rmult_le_compat_r; [lra|]; apply fl_mono; lra). lra.
Qed.
(** ** A logarithm that meets the hypotheses *)
Lemma rounded_log10_accurate : accurate_log10 rounded_log.
Proof.
  intros x [FX TX] X. destruct (Rle_dec 1 x) as [G|G].
  { destruct (rounded_log_accurate x (conj FX TX) G) as (y & E & Y). exists y. split; [exact E|]. rewrite (Rabs_right (ln x / ln 10)); [exact Y|].
    assert (L := ln10_ge). assert (H := ln_mono 1 x ltac:(lra)). rewrite ln_1 in H. apply Rle_ge, Rmult_le_pos; [lra|left; apply Rinv_0_lt_compat; lra]. }
  cbn [rounded_log]. rewrite u_pow. assert (L1 := ln10_ge). assert (L2 := ln10_le). assert (I : 0 < / ln 10) by (apply Rinv_0_lt_compat; lra).
  assert (X1 : x <= 1 - bpow radix2 (-53)).
  { replace (1 - bpow radix2 (-53)) with (pred radix2 (FLT_exp (-1074) 53) 1).
    - apply (pred_ge_gt radix2 (FLT_exp (-1074) 53) x 1 FX (format_int 1 ltac:(lia))). lra.
    - replace 1 with (bpow radix2 0) at 1 by reflexivity. rewrite (pred_bpow radix2 (FLT_exp (-1074) 53) 0). reflexivity. }
  assert (XL : bpow radix2 (-1074) <= x). { apply (generic_format_ge_bpow radix2 (FLT_exp (-1074) 53) (-1074)); [intro e; unfold FLT_exp; lia|exact X|exact FX]. }
  assert (A : ln x <= - bpow radix2 (-53)) by (assert (H := ln_le_minus x X); lra).
  assert (B : - 1074 <= ln x).
  { assert (H := ln_mono (bpow radix2 (-1074)) x (conj (bpow_gt_0 _ _) XL)). rewrite bpow_powerRZ in H. change (IZR radix2) with 2 in H. rewrite powerRZ_Rpower in H by lra. unfold Rpower in H. rewrite ln_exp in H.
    assert (L := ln_le_minus 2 ltac:(lra)). assert (-1074 * 1 <= -1074 * ln 2) by lra. lra. }
  set (q := - (ln x / ln 10)). assert (Q : bpow radix2 (- (60)) <= q <= bpow radix2 60).
  { unfold q. replace (- (ln x / ln 10)) with (- ln x * / ln 10) by (unfold Rdiv; ring). split.
    - apply Rle_trans with (bpow radix2 (-53) * (2 / 5)); [replace (- (60))%Z with (-53 + -7)%Z by lia; rewrite bpow_plus; assert (G0 := bpow_gt_0 radix2 (-53)); apply Rmult_le_compat_l; [lra|cbn; lra]|].
      apply Rmult_le_compat; [apply bpow_ge_0|lra|lra|]. replace (2 / 5) with (/ (5 / 2)) by lra. apply Rinv_le_contravar; lra.
    - apply Rle_trans with (1074 * 1); [apply Rmult_le_compat; try lra; [assert (G0 := bpow_gt_0 radix2 (-53)); lra|]; rewrite <- Rinv_1; apply Rinv_le_contravar; lra|]. change (bpow radix2 60) with (IZR (Z.pow_pos 2 60)). lra. }
  assert (QP : 0 < q) by (assert (G0 := bpow_gt_0 radix2 (- (60))); lra).
  destruct (fl_ok 0 60 _ _ (exact_ok 60 q Q) ltac:(lra) ltac:(lia)) as [F R]. exists (- fl q).
  assert (OP : fl (- q) = - fl q) by (apply round_NE_opp). split.
  - replace (ln x / ln 10) with (- q) by (unfold q; ring). unfold finish in *. rewrite OP, Rabs_Ropp. destruct (Rlt_dec (Rabs (fl q)) (bpow radix2 1024)); [reflexivity|discriminate].
  - destruct R as (_ & _ & R). rewrite Rplus_0_l, Rmult_1_l in R. replace (ln x / ln 10) with (- q) by (unfold q; ring).
    replace (- fl q - - q) with (- (fl q - q)) by ring. rewrite !Rabs_Ropp, (Rabs_right q) by lra. exact R.
Qed.
Lemma rounded_log10_increasing : increasing_log10 rounded_log.
Proof.
  intros x y X H. cbn [rounded_log]. apply fin_mono. apply Rmult_le_compat_r; [left; apply Rinv_0_lt_compat; assert (L := ln10_ge); lra|]. apply ln_mono. lra.
Qed.
