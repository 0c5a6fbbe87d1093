(** Great-circle distances computed in binary64 arithmetic are near the true ones. *)
From Coq Require Import String List Reals ZArith QArith Qreals Lia Lra Psatz.
From Flocq Require Import Core.
From Verif Require Import Base.Prelude Base.Num Model.Sphere Model.LinkingFloat Model.Rounding Model.FadingFloat Model.AngleFloat Model.UncertaintyFloat Model.MagnitudeFloat Model.SeparationFloat
  Spec.Sphere Spec.Linking Spec.LinkingFloat Spec.Rounding Spec.MagnitudeFloat Spec.SeparationFloat
  Proofs.Sphere Proofs.Sky Proofs.Complete Proofs.LinkingFloat Proofs.Rounding Proofs.FadingFloat Proofs.AngleFloat Proofs.UncertaintyFloat Proofs.UncertaintyClose Proofs.MagnitudeFloat.
Open Scope R_scope.

Local Instance prec53s : Prec_gt_0 53 := eq_refl.
Local Notation eta := Proofs.Rounding.eta.

(** ** pi *)
Definition P0 : R := 884279719003555 / 281474976710656.
Lemma pi_machin : 0 <= PI - P0 <= / 10 ^ 15.
Proof.
  destruct (PI_2_3_7_ineq 8) as [L H]. unfold tg_alt, PI_2_3_7_tg, Ratan_seq in L, H. cbn [sum_f_R0 Nat.mul Nat.add] in L, H.
  unfold P0. simpl in L, H. lra.
Qed.
Definition k0 : R := 5030569068109113 / 288230376151711744.
Lemma factor_val : divide np_pi (Real 180) = Real k0.
Proof.
  unfold np_pi. cbn [divide]. assert (E : fl (884279719003555 / 281474976710656 / 180) = k0).
  { rewrite (fl_at _ (-5) 5030569068109113); [|lia| |].
    - replace (bpow radix2 (-5 - 53)) with (/ 288230376151711744) by (cbn; lra). unfold k0. lra.
    - replace (bpow radix2 (-5 - 1)) with (/ 64) by (cbn; lra). replace (bpow radix2 (-5)) with (/ 32) by (cbn; lra). rewrite Rabs_right; lra.
    - replace (bpow radix2 (53 - -5)) with 288230376151711744 by (cbn; lra). apply Rabs_lt. lra. }
  rewrite finish_real; rewrite E; [reflexivity|]. assert (T := top_big). unfold k0. rewrite Rabs_right; lra.
Qed.
Lemma quarter : fl (90 * k0) = P0 / 2.
Proof.
  rewrite (fl_at _ 1 7074237752028440); [|lia| |].
  - replace (bpow radix2 (1 - 53)) with (/ 4503599627370496) by (cbn; lra). unfold P0. lra.
  - replace (bpow radix2 (1 - 1)) with 1 by (cbn; lra). replace (bpow radix2 1) with 2 by (cbn; lra). unfold k0. rewrite Rabs_right; lra.
  - replace (bpow radix2 (53 - 1)) with 4503599627370496 by (cbn; lra). unfold k0. apply Rabs_lt. lra.
Qed.
Lemma k0_near : Rabs (k0 - PI / 180) <= u / 90.
Proof. assert (P := pi_machin). unfold P0 in P. unfold k0, u. apply Rabs_le. lra. Qed.
Lemma eta_u : 0 < eta <= u * u / 1000000.
Proof.
  split; [apply eta_pos|]. apply Rle_trans with (1 := eta_tiny). unfold u.
  apply Rle_trans with (/ 10 ^ 37); [apply Rinv_le_contravar; [apply pow_lt; lra|apply Rle_pow; [lra|lia]]|lra].
Qed.
Lemma small_u : small = u / 8. Proof. rewrite small_val. unfold u. lra. Qed.
Lemma fl_u : forall x, Rabs (fl x - x) <= u / 8 * Rabs x + eta.
Proof. intro x. rewrite <- small_u. apply fl_two. Qed.
Lemma fl_real : forall x, Rabs x <= 2000 -> finish x = Real (fl x) /\ binary64 (fl x) /\ Rabs (fl x) <= 2000.
Proof.
  intros x X. destruct (fl_within x 2000 ltac:(lia) X) as [B F]. split; [exact F|]. split; [|exact B]. apply fl_binary64. assert (T := top_big). lra.
Qed.

(** ** Angles in radians *)
Lemma radians : forall x, Rabs x <= 360 ->
  deg2rad_f (Real x) = Real (fl (x * k0)) /\ binary64 (fl (x * k0)) /\ Rabs (fl (x * k0) - x * PI / 180) <= Rabs x * (u / 60) + eta.
Proof.
  intros x X. unfold deg2rad_f. rewrite factor_val. cbn [multiply]. assert (A := Rabs_pos x).
  assert (K : Rabs (x * k0) = Rabs x * k0) by (rewrite Rabs_mult, (Rabs_right k0) by (unfold k0; lra); reflexivity).
  destruct (fl_real (x * k0)) as (F & B & _); [rewrite K; unfold k0; lra|]. split; [exact F|]. split; [exact B|].
  assert (E := fl_u (x * k0)). rewrite K in E. assert (N := k0_near).
  replace (fl (x * k0) - x * PI / 180) with (fl (x * k0) - x * k0 + x * (k0 - PI / 180)) by field.
  apply Rle_trans with (1 := Rabs_triang _ _). rewrite (Rabs_mult x).
  assert (Q : Rabs x * Rabs (k0 - PI / 180) <= Rabs x * (u / 90)) by (apply Rmult_le_compat_l; lra).
  assert (W : u / 8 * (Rabs x * k0) <= Rabs x * (u * 3 / 1000)). { replace (u / 8 * (Rabs x * k0)) with (Rabs x * (u * (k0 / 8))) by field. apply Rmult_le_compat_l; [lra|]. assert (U := u_pos). apply Rle_trans with (u * (3 / 1000)); [|lra]. apply Rmult_le_compat_l; [lra|]. unfold k0. lra. }
  assert (Z : Rabs x * (u * 3 / 1000) + Rabs x * (u / 90) <= Rabs x * (u / 60)). { rewrite <- Rmult_plus_distr_l. apply Rmult_le_compat_l; [lra|]. assert (U := u_pos). lra. }
  lra.
Qed.
Lemma fl_neg : forall x, fl (- x) = - fl x.
Proof. intro x. apply round_NE_opp. Qed.
Lemma latitude : forall x, Rabs x <= 90 -> - (PI / 2) <= fl (x * k0) <= PI / 2.
Proof.
  intros x X. apply Rabs_le_inv in X. assert (P := pi_machin). assert (Q := quarter).
  assert (K : 0 < k0) by (unfold k0; lra).
  assert (U := fl_mono (x * k0) (90 * k0) ltac:(apply Rmult_le_compat_r; lra)).
  assert (L := fl_mono (- (90 * k0)) (x * k0) ltac:(replace (- (90 * k0)) with (- 90 * k0) by ring; apply Rmult_le_compat_r; lra)).
  rewrite fl_neg in L. lra.
Qed.

(** ** Products, sums and roots of numbers between 0 and 1 *)
(** [a] is [b] up to [n] units and [m] times the least of all. *)
Definition rel (n m a b : R) : Prop := 0 <= n <= 100 /\ 0 <= m <= 100 /\ 0 <= a /\ 0 <= b <= 1 /\ Rabs (a - b) <= n * u * b + m * eta.
Lemma rel_top : forall n m a b, rel n m a b -> a <= b + / 1000 * b + m * eta /\ a <= 2.
Proof.
  intros n m a b (N & M & A & B & E). apply Rabs_le_inv in E. assert (U : n * u <= / 1000) by (unfold u; lra).
  assert (T := eta_u). assert (UU : u * u <= / 1000) by (unfold u; lra).
  assert (n * u * b <= / 1000 * b) by (apply Rmult_le_compat_r; lra). assert (m * eta <= 100 * eta) by (apply Rmult_le_compat_r; lra). lra.
Qed.
Lemma rel_fl : forall n m a b, rel n m a b -> n <= 99 -> m <= 98 -> finish a = Real (fl a) /\ binary64 (fl a) /\ rel (n + / 4) (m + 2) (fl a) b.
Proof.
  intros n m a b R N' M'. destruct (rel_top _ _ _ _ R) as [T T2]. destruct R as (N & M & A & B & E).
  destruct (fl_real a) as (F & BB & _); [rewrite Rabs_right; lra|]. split; [exact F|]. split; [exact BB|].
  assert (D := fl_u a). rewrite (Rabs_right a) in D by lra. assert (ET := eta_u). assert (U := u_pos).
  split; [lra|]. split; [lra|]. split; [apply fl_ge_float; [apply format_0|exact A]|]. split; [exact B|].
  replace (fl a - b) with (fl a - a + (a - b)) by ring. apply Rle_trans with (1 := Rabs_triang _ _).
  assert (Q : u / 8 * a <= u / 8 * (b + / 1000 * b + m * eta)) by (apply Rmult_le_compat_l; lra).
  assert (S : u / 8 * (m * eta) <= eta). { replace (u / 8 * (m * eta)) with (u / 8 * m * eta) by ring. rewrite <- (Rmult_1_l eta) at 2. apply Rmult_le_compat_r; [lra|]. apply Rle_trans with (u / 8 * 100); [apply Rmult_le_compat_l; lra|unfold u; lra]. }
  assert (0 <= u * b) by (apply Rmult_le_pos; lra). lra.
Qed.
Lemma rel_mul : forall n m a b n' m' a' b', rel n m a b -> rel n' m' a' b' -> n + n' <= 90 -> 2 * m + 2 * m' <= 90 ->
  rel (n + n' + / 4) (2 * m + 2 * m') (a * a') (b * b').
Proof.
  intros n m a b n' m' a' b' R R' NN MM. destruct (rel_top _ _ _ _ R') as [T T2]. destruct R as (N & M & A & B & E). destruct R' as (N' & M' & A' & B' & E').
  assert (U := u_pos). assert (ET := eta_u). split; [lra|]. split; [lra|]. split; [apply Rmult_le_pos; lra|].
  split; [split; [apply Rmult_le_pos; lra|replace 1 with (1 * 1) by ring; apply Rmult_le_compat; lra]|].
  replace (a * a' - b * b') with ((a - b) * b' + (a - b) * (a' - b') + b * (a' - b')) by ring.
  eapply Rle_trans; [apply Rabs_triang|]. apply Rle_trans with ((n * u * b + m * eta) * b' + (n * u * b + m * eta) * (n' * u * b' + m' * eta) + b * (n' * u * b' + m' * eta)).
  { apply Rplus_le_compat; [eapply Rle_trans; [apply Rabs_triang|]; apply Rplus_le_compat|]; rewrite Rabs_mult.
    - rewrite (Rabs_right b') by lra. apply Rmult_le_compat_r; lra.
    - apply Rmult_le_compat; try apply Rabs_pos; lra.
    - rewrite (Rabs_right b) by lra. apply Rmult_le_compat_l; lra. }
  assert (NU : 0 <= n * u <= / 1000) by (split; [apply Rmult_le_pos; lra|unfold u; lra]).
  assert (NU' : 0 <= n' * u <= / 1000) by (split; [apply Rmult_le_pos; lra|unfold u; lra]).
  assert (Y : 0 <= m * eta) by (apply Rmult_le_pos; lra). assert (Y' : 0 <= m' * eta) by (apply Rmult_le_pos; lra).
  assert (X1 : 0 <= b * b') by (apply Rmult_le_pos; lra).
  assert (Q1 : m * eta * b' <= m * eta) by (rewrite <- (Rmult_1_r (m * eta)) at 2; apply Rmult_le_compat_l; lra).
  assert (Q2 : b * (m' * eta) <= m' * eta) by (rewrite <- (Rmult_1_l (m' * eta)) at 2; apply Rmult_le_compat_r; lra).
  assert (Q3 : n * u * b * (n' * u * b') <= u / 4 * (b * b')).
  { replace (n * u * b * (n' * u * b')) with (n * u * (n' * u) * (b * b')) by ring. apply Rmult_le_compat_r; [exact X1|].
    apply Rle_trans with (100 * u * (100 * u)); [apply Rmult_le_compat; try lra; apply Rmult_le_compat_r; lra|unfold u; lra]. }
  assert (Q4 : n * u * b * (m' * eta) <= / 1000 * (m' * eta)). { apply Rmult_le_compat_r; [exact Y'|]. apply Rle_trans with (n * u * 1); [apply Rmult_le_compat_l; lra|lra]. }
  assert (Q5 : m * eta * (n' * u * b') <= m * eta * / 1000). { apply Rmult_le_compat_l; [exact Y|]. apply Rle_trans with (n' * u * 1); [apply Rmult_le_compat_l; lra|lra]. }
  assert (Q6 : m * eta * (m' * eta) <= m * eta * / 1000). { apply Rmult_le_compat_l; [exact Y|]. assert (m' * eta <= 100 * eta) by (apply Rmult_le_compat_r; lra). assert (u * u <= / 1000) by (unfold u; lra). lra. }
  replace ((n * u * b + m * eta) * b' + (n * u * b + m * eta) * (n' * u * b' + m' * eta) + b * (n' * u * b' + m' * eta))
    with ((n + n') * u * (b * b') + m * eta * b' + n * u * b * (n' * u * b') + n * u * b * (m' * eta) + m * eta * (n' * u * b') + m * eta * (m' * eta) + b * (m' * eta)) by ring.
  lra.
Qed.
Lemma rel_add : forall n m a b n' m' a' b', rel n m a b -> rel n' m' a' b' -> b + b' <= 1 -> n' <= n -> m + m' <= 100 -> rel n (m + m') (a + a') (b + b').
Proof.
  intros n m a b n' m' a' b' (N & M & A & B & E) (N' & M' & A' & B' & E') S NN MM. split; [lra|]. split; [lra|]. split; [lra|]. split; [lra|].
  replace (a + a' - (b + b')) with (a - b + (a' - b')) by ring. apply Rle_trans with (1 := Rabs_triang _ _).
  assert (n' * u * b' <= n * u * b'). { apply Rmult_le_compat_r; [lra|]. apply Rmult_le_compat_r; [left; exact u_pos|lra]. }
  lra.
Qed.
Lemma rel_abs : forall n m a b, 0 <= n <= 100 -> 0 <= m <= 100 -> Rabs b <= 1 -> Rabs (a - b) <= n * u * Rabs b + m * eta -> rel n m (Rabs a) (Rabs b).
Proof.
  intros n m a b N M B E. split; [lra|]. split; [lra|]. split; [apply Rabs_pos|]. split; [split; [apply Rabs_pos|exact B]|].
  apply Rle_trans with (2 := E). apply Rabs_triang_inv2.
Qed.
Lemma squared_rel : forall n m a b, rel n m (Rabs a) (Rabs b) -> n <= 40 -> m <= 20 ->
  squared (Real a) = Real (fl (a * a)) /\ rel (2 * n + / 2) (4 * m + 2) (fl (a * a)) (b * b).
Proof.
  intros n m a b R N M. assert (Q := rel_mul _ _ _ _ _ _ _ _ R R ltac:(lra) ltac:(lra)).
  assert (SQ : forall x, Rabs x * Rabs x = x * x) by (intro x; rewrite <- Rabs_mult; apply Rabs_right; nra). rewrite !SQ in Q.
  destruct (rel_fl _ _ _ _ Q ltac:(lra) ltac:(lra)) as (F & _ & Q'). split; [exact F|].
  replace (2 * n + / 2) with (n + n + / 4 + / 4) by field. replace (4 * m + 2) with (2 * m + 2 * m + 2) by ring. exact Q'.
Qed.
Lemma root_rel : forall n m a b, rel n m a b -> Rabs (sqrt a - sqrt b) <= n * u + u / 10.
Proof.
  intros n m a b (N & M & A & B & E). apply Rabs_le_inv in E. assert (U := u_pos). assert (ET := eta_u).
  set (d := m * eta) in *. assert (D : 0 <= d <= u * u / 10000). { split; [apply Rmult_le_pos; lra|]. apply Rle_trans with (100 * eta); [apply Rmult_le_compat_r; lra|lra]. }
  assert (SD : sqrt d <= u / 100). { rewrite <- (sqrt_square (u / 100)) by lra. apply sqrt_le_1_alt. lra. }
  assert (NU : 0 <= n * u <= / 1000) by (split; [apply Rmult_le_pos; lra|unfold u; lra]). set (e := n * u) in *.
  assert (SB : 0 <= sqrt b <= 1). { split; [apply sqrt_pos|]. rewrite <- sqrt_1. apply sqrt_le_1_alt. lra. }
  assert (BB : sqrt b * sqrt b = b) by (apply sqrt_sqrt; lra). assert (DD : sqrt d * sqrt d = d) by (apply sqrt_sqrt; lra). assert (PD := sqrt_pos d).
  assert (AA : sqrt a * sqrt a = a) by (apply sqrt_sqrt; lra). assert (PA := sqrt_pos a).
  assert (ES : 0 <= e * sqrt b <= e). { split; [apply Rmult_le_pos; lra|]. rewrite <- (Rmult_1_r e) at 2. apply Rmult_le_compat_l; lra. }
  apply Rabs_le. split.
  - apply Rnot_lt_le. intro H.
    assert (H1 : sqrt a + sqrt d < sqrt b * (1 - e)) by lra.
    assert (H2 : (sqrt a + sqrt d) * (sqrt a + sqrt d) < sqrt b * (1 - e) * (sqrt b * (1 - e))) by (apply Rmult_le_0_lt_compat; lra).
    replace (sqrt b * (1 - e) * (sqrt b * (1 - e))) with (b * ((1 - e) * (1 - e))) in H2 by (rewrite <- BB at 1; ring).
    assert (b * ((1 - e) * (1 - e)) <= b * (1 - e)). { apply Rmult_le_compat_l; [lra|]. rewrite <- (Rmult_1_r (1 - e)) at 3. apply Rmult_le_compat_l; lra. }
    assert (0 <= sqrt a * sqrt d) by (apply Rmult_le_pos; lra). nra.
  - apply Rnot_lt_le. intro H.
    assert (H1 : sqrt b * (1 + e) + sqrt d < sqrt a) by lra.
    assert (P1 : 0 <= sqrt b * (1 + e)) by (apply Rmult_le_pos; lra).
    assert (H2 : (sqrt b * (1 + e) + sqrt d) * (sqrt b * (1 + e) + sqrt d) < sqrt a * sqrt a) by (apply Rmult_le_0_lt_compat; lra).
    assert (0 <= sqrt b * (1 + e) * sqrt d) by (apply Rmult_le_pos; lra).
    assert (X : (sqrt b * (1 + e) + sqrt d) * (sqrt b * (1 + e) + sqrt d) = b * (1 + e) * (1 + e) + 2 * (sqrt b * (1 + e) * sqrt d) + d) by (transitivity (sqrt b * sqrt b * (1 + e) * (1 + e) + 2 * (sqrt b * (1 + e) * sqrt d) + sqrt d * sqrt d); [ring|rewrite BB, DD; ring]).
    assert (b * (1 + e) <= b * (1 + e) * (1 + e)). { rewrite <- (Rmult_1_r (b * (1 + e))) at 1. apply Rmult_le_compat_l; [apply Rmult_le_pos; lra|lra]. }
    lra.
Qed.

(** ** Sines *)
Lemma sin_above : forall x, 0 <= x <= 16 / 10 -> x / 2 <= sin x.
Proof.
  intros x X. assert (P := pi_machin). unfold P0 in P. destruct (SIN x ltac:(lra) ltac:(lra)) as [L _]. apply Rle_trans with (2 := L).
  unfold sin_lb, sin_approx, sin_term. cbn [sum_f_R0 Nat.mul Nat.add]. simpl. 
  assert (x * x <= 256 / 100) by nra. assert (0 <= x * x) by nra. assert (0 <= x * x * x) by (apply Rmult_le_pos; nra).
  assert (Q : x * x * x <= x * (256 / 100)) by nra.
  assert (W : 0 <= x * x * x * (x * x)) by (apply Rmult_le_pos; nra).
  assert (V : x * x * x * (x * x) * (x * x) <= x * x * x * (x * x) * (256 / 100)) by (apply Rmult_le_compat_l; lra).
  nra.
Qed.
Lemma sin_far : forall x, Rabs x <= 16 / 10 -> Rabs x <= 2 * Rabs (sin x).
Proof.
  intros x X. unfold Rabs in X at 1. unfold Rabs at 1. destruct (Rcase_abs x) as [N|N].
  - assert (S := sin_above (- x) ltac:(lra)). rewrite sin_neg in S. rewrite Rabs_left1; lra.
  - assert (S := sin_above x ltac:(lra)). rewrite Rabs_right; lra.
Qed.
Lemma sin_close : forall x y, Rabs (sin x - sin y) <= Rabs (x - y).
Proof.
  intros x y. rewrite form4. rewrite !Rabs_mult, (Rabs_right 2) by lra.
  assert (C : Rabs (cos ((x + y) / 2)) <= 1) by (apply Rabs_le; apply COS_bound).
  assert (S : Rabs (sin ((x - y) / 2)) <= Rabs ((x - y) / 2)).
  { unfold Rabs at 2. destruct (Rcase_abs ((x - y) / 2)) as [N|N].
    - destruct (Rle_dec (- ((x - y) / 2)) 1) as [L|L].
      + assert (Q := sin_lt_x (- ((x - y) / 2)) ltac:(lra)). assert (P := pi_machin). unfold P0 in P. assert (G := sin_ge_0 (- ((x - y) / 2)) ltac:(lra) ltac:(lra)). rewrite sin_neg in *. rewrite Rabs_left1; lra.
      + apply Rle_trans with 1; [apply Rabs_le; apply SIN_bound|lra].
    - destruct (Req_dec ((x - y) / 2) 0) as [->|Z]; [rewrite sin_0, Rabs_R0; lra|]. destruct (Rle_dec ((x - y) / 2) 1) as [L|L].
      + assert (Q := sin_lt_x ((x - y) / 2) ltac:(lra)). assert (P := pi_machin). unfold P0 in P. assert (G := sin_ge_0 ((x - y) / 2) ltac:(lra) ltac:(lra)). rewrite Rabs_right; lra.
      + apply Rle_trans with 1; [apply Rabs_le; apply SIN_bound|lra]. }
  assert (E : Rabs ((x - y) / 2) = Rabs (x - y) / 2) by (unfold Rdiv; rewrite Rabs_mult, (Rabs_right (/ 2)) by lra; reflexivity).
  assert (A := Rabs_pos (cos ((x + y) / 2))). assert (B := Rabs_pos (sin ((x - y) / 2))). assert (D := Rabs_pos (x - y)). nra.
Qed.
(** Angles up to 60 degrees are known as well as their sines. *)
Lemma from_sine : forall a b, 0 <= a <= PI / 3 -> 0 <= b <= PI / 3 -> Rabs (a - b) <= 4 * Rabs (sin a - sin b).
Proof.
  intros a b A B. assert (P := pi_machin). unfold P0 in P. rewrite form4. rewrite !Rabs_mult, (Rabs_right 2) by lra.
  assert (C : / 2 <= Rabs (cos ((a + b) / 2))).
  { assert (E : cos (PI / 3) = / 2) by (rewrite cos_PI3; lra). assert (D : cos (PI / 3) <= cos ((a + b) / 2)) by (apply cos_decr_1; lra). rewrite Rabs_right; lra. }
  assert (S := sin_far ((a - b) / 2) ltac:(apply Rabs_le; lra)).
  assert (E : Rabs ((a - b) / 2) = Rabs (a - b) / 2) by (unfold Rdiv; rewrite Rabs_mult, (Rabs_right (/ 2)) by lra; reflexivity). rewrite E in S.
  assert (Z := Rabs_pos (sin ((a - b) / 2))). nra.
Qed.

(** ** The angle between two directions *)
Definition dir (a d : R) : vec := V3 (cos d * cos a) (cos d * sin a) (sin d).
Lemma dir_unit : forall a d, unit (dir a d).
Proof.
  intros a d. unfold unit, dir. cbn. assert (A := sc1 a). assert (D := sc1 d).
  replace (cos d * cos a * (cos d * cos a) + cos d * sin a * (cos d * sin a) + sin d * sin d)
    with (cos d * cos d * (sin a * sin a + cos a * cos a) + sin d * sin d) by ring. unfold Rsqr in *. nra.
Qed.
Lemma cos_abs : forall x, cos (Rabs x) = cos x.
Proof. intro x. unfold Rabs. destruct (Rcase_abs x); [apply cos_neg|reflexivity]. Qed.
Lemma cos_small : forall x a, Rabs x <= a -> a <= PI -> cos a <= cos x.
Proof. intros x a H A. rewrite <- (cos_abs x). assert (P := Rabs_pos x). apply cos_decr_1; lra. Qed.
Lemma nearby : forall a d a' d' e f, Rabs (a - a') <= e -> Rabs (d - d') <= f -> e + f <= PI -> cos (e + f) <= dt (dir a d) (dir a' d').
Proof.
  intros a d a' d' e f E F S. assert (PE := Rabs_pos (a - a')). assert (PF := Rabs_pos (d - d')).
  apply (angle_triangle (dir a d) (dir a' d) (dir a' d')); try apply dir_unit; try lra.
  - assert (X : dt (dir a d) (dir a' d) = cos d * cos d * cos (a - a') + sin d * sin d) by (unfold dt, dir; cbn; rewrite cos_minus; ring).
    rewrite X. assert (Q := sc1 d). assert (C := cos_small _ _ E ltac:(lra)). assert (B := COS_bound (a - a')).
    apply Rle_trans with (1 := C). assert (0 <= sin d * sin d * (1 - cos (a - a'))) by (apply Rmult_le_pos; nra). nra.
  - assert (X : dt (dir a' d) (dir a' d') = cos (d - d')).
    { unfold dt, dir. cbn. rewrite cos_minus. assert (Q := sc1 a').
      replace (cos d * cos a' * (cos d' * cos a') + cos d * sin a' * (cos d' * sin a') + sin d * sin d') with (cos d * cos d' * (cos a' * cos a' + sin a' * sin a') + sin d * sin d') by ring. rewrite Q. ring. }
    rewrite X. apply cos_small; lra.
Qed.
Lemma cos_inj_le : forall x y, 0 <= x <= PI -> 0 <= y <= PI -> cos y <= cos x -> x <= y.
Proof. intros x y X Y C. apply Rnot_lt_le. intro H. assert (Q := cos_decreasing_1 y x ltac:(lra) ltac:(lra) ltac:(lra) ltac:(lra) H). lra. Qed.
Lemma moved : forall p q p' q' e t t', unit p -> unit q -> unit p' -> unit q' -> 0 <= e <= / 10 -> cos e <= dt p p' -> cos e <= dt q q' ->
  0 <= t <= PI -> 0 <= t' <= PI -> cos t = dt p q -> cos t' = dt p' q' -> Rabs (t' - t) <= 2 * e.
Proof.
  intros p q p' q' e t t' P Q P' Q' E EP EQ T T' CT CT'. assert (PI3 := pi_machin). unfold P0 in PI3.
  assert (sym : forall x y, dt x y = dt y x) by (intros [] []; unfold dt; cbn; ring).
  assert (U : t' <= t + 2 * e).
  { destruct (Rle_dec (t + 2 * e) PI) as [L|L]; [|lra]. apply cos_inj_le; try lra. rewrite CT'. replace (t + 2 * e) with (e + (t + e)) by ring.
    apply (angle_triangle p' p q'); auto; try lra. - rewrite sym. exact EP.
    - apply (angle_triangle p q q'); auto; lra. }
  apply Rabs_le. split; [|lra]. assert (L : t <= t' + 2 * e); [|lra]. destruct (Rle_dec (t' + 2 * e) PI) as [M|M]; [|lra].
  apply cos_inj_le; try lra. rewrite CT. replace (t' + 2 * e) with (e + (t' + e)) by ring.
  apply (angle_triangle p p' q); auto; try lra. apply (angle_triangle p' q' q); auto; try lra. rewrite sym. exact EQ.
Qed.
Lemma half_angle : forall a1 d1 h d2 t, 0 <= t <= PI -> cos t = dt (dir a1 d1) (dir (a1 + 2 * h) d2) ->
  sqrt (sin ((d2 - d1) / 2) * sin ((d2 - d1) / 2) + cos d1 * cos d2 * (sin h * sin h)) = sin (t / 2).
Proof.
  intros a1 d1 h d2 t T C. assert (H := haversine_a a1 d1 (a1 + 2 * h) d2). replace ((a1 + 2 * h - a1) / 2) with h in H by field.
  replace (sin ((d2 - d1) / 2) * sin ((d2 - d1) / 2) + cos d1 * cos d2 * (sin h * sin h)) with (sin ((d2 - d1) / 2) ^ 2 + cos d1 * cos d2 * sin h ^ 2) by ring.
  rewrite H. unfold dt, dir in C. cbn in C. rewrite <- C.
  assert (S : (1 - cos t) / 2 = sin (t / 2) * sin (t / 2)). { replace (cos t) with (cos (2 * (t / 2))) by (f_equal; field). rewrite cos_2a_sin. field. }
  rewrite S. apply sqrt_square. apply sin_ge_0; lra.
Qed.

(** ** The computed angle *)
Section Accurate.
Variables SI CO AS : cell -> cell.
Hypothesis HS : accurate_sin SI.
Hypothesis HC : accurate_cos CO.
Hypothesis HA : accurate_arcsin AS.

Lemma sine : forall x, binary64 x -> Rabs x <= 10 -> exists y, SI (Real x) = Real y /\ Rabs (y - sin x) <= u * Rabs (sin x).
Proof. intros x B X. destruct (HS x B X) as (y & E & R). exists y. rewrite u_pow in R. auto. Qed.
Lemma cosine : forall x, binary64 x -> - (PI / 2) <= x <= PI / 2 -> exists y, CO (Real x) = Real y /\ rel 1 0 y (cos x).
Proof.
  intros x B X. assert (P := pi_machin). unfold P0 in P. destruct (HC x B) as (y & E & R); [apply Rabs_le; lra|]. exists y. split; [exact E|].
  assert (G : 0 <= cos x) by (apply cos_ge_0; lra). assert (C := COS_bound x). rewrite u_pow, (Rabs_right (cos x)) in R by lra. assert (U := u_pos).
  split; [lra|]. split; [lra|]. split; [|split; [lra|lra]]. apply Rabs_le_inv in R. assert (u * cos x <= 1 * cos x) by (apply Rmult_le_compat_r; [lra|unfold u; lra]). lra.
Qed.
Lemma halved : forall a b, binary64 a -> binary64 b -> Rabs (b - a) <= 20 ->
  exists h, divide (minus (Real b) (Real a)) (Real 2) = Real h /\ binary64 h /\ Rabs (h - (b - a) / 2) <= 3 / 8 * u * Rabs ((b - a) / 2) + eta.
Proof.
  intros a b [FA _] [FB _] D. assert (U := u_pos). assert (ET := eta_u).
  assert (R := sub_rel b a FB FA). rewrite small_u in R. destruct (fl_real (b - a)) as (F1 & _ & T1); [lra|].
  cbn [minus plus]. change (b + - a) with (b - a). rewrite F1. cbn [divide]. set (d := fl (b - a)) in *.
  assert (H2 : forall x, Rabs (x / 2) = Rabs x / 2) by (intro x; unfold Rdiv; rewrite Rabs_mult, (Rabs_right (/ 2)) by lra; reflexivity).
  destruct (fl_real (d / 2)) as (F2 & B2 & _); [rewrite H2; lra|]. exists (fl (d / 2)). split; [exact F2|]. split; [exact B2|].
  assert (E := fl_u (d / 2)). rewrite H2 in E. rewrite H2.
  assert (TD : Rabs d <= Rabs (b - a) + u / 8 * Rabs (b - a)). { replace d with (d - (b - a) + (b - a)) by ring. apply Rle_trans with (1 := Rabs_triang _ _). lra. }
  replace (fl (d / 2) - (b - a) / 2) with (fl (d / 2) - d / 2 + (d - (b - a)) / 2) by field. apply Rle_trans with (1 := Rabs_triang _ _). rewrite (H2 (d - (b - a))).
  assert (A := Rabs_pos (b - a)). assert (Q : u / 8 * (Rabs d / 2) <= u / 8 * (Rabs (b - a) + u / 8 * Rabs (b - a)) / 2) by nra.
  assert (W : u / 8 * Rabs (b - a) <= Rabs (b - a)). { rewrite <- (Rmult_1_l (Rabs (b - a))) at 2. apply Rmult_le_compat_r; [lra|unfold u; lra]. }
  assert (V : u / 8 * (Rabs (b - a) + u / 8 * Rabs (b - a)) / 2 <= u / 8 * (2 * Rabs (b - a)) / 2). { unfold Rdiv at 1 3. apply Rmult_le_compat_r; [lra|]. apply Rmult_le_compat_l; lra. }
  lra.
Qed.
Lemma central : forall l1 f1 l2 f2, binary64 l1 -> binary64 f1 -> binary64 l2 -> binary64 f2 -> Rabs l1 <= 7 -> Rabs l2 <= 7 ->
  - (PI / 2) <= f1 <= PI / 2 -> - (PI / 2) <= f2 <= PI / 2 ->
  exists h, Rabs (2 * h - (l2 - l1)) <= 6 * u /\
  forall t, 0 <= t <= PI -> cos t = dt (dir l1 f1) (dir (l1 + 2 * h) f2) ->
  exists s, haversine_f SI CO AS (Real l1) (Real f1) (Real l2) (Real f2) = multiply (Real 2) (AS (Real s)) /\ binary64 s /\ 0 <= s /\ Rabs (s - sin (t / 2)) <= 8 * u.
Proof.
  intros l1 f1 l2 f2 B1 B2 B3 B4 A1 A2 F1 F2. assert (P := pi_machin). unfold P0 in P. assert (U := u_pos). assert (ET := eta_u). assert (US : u <= / 1000000) by (unfold u; lra).
  assert (UU : u * u <= u / 1000000) by nra.
  apply Rabs_le_inv in A1. apply Rabs_le_inv in A2.
  destruct (halved f1 f2 B2 B4) as (g & EG & BG & RG); [apply Rabs_le; lra|].
  destruct (halved l1 l2 B1 B3) as (h & EH & BH & RH); [apply Rabs_le; lra|].
  assert (DL : Rabs ((l2 - l1) / 2) <= 7) by (apply Rabs_le; lra). assert (DF : Rabs ((f2 - f1) / 2) <= 16 / 10) by (apply Rabs_le; lra).
  exists h. split.
  { replace (2 * h - (l2 - l1)) with (2 * (h - (l2 - l1) / 2)) by field. rewrite Rabs_mult, (Rabs_right 2) by lra.
    assert (3 / 8 * u * Rabs ((l2 - l1) / 2) <= 3 / 8 * u * 7) by (apply Rmult_le_compat_l; lra). lra. }
  intros t T CT. assert (HALF := half_angle l1 f1 h f2 t ltac:(lra) CT).
  assert (TH : forall x y e b, Rabs (x - y) <= e -> Rabs y <= b -> Rabs x <= e + b) by (intros x y e b X Y; replace x with (x - y + y) by ring; apply Rle_trans with (1 := Rabs_triang _ _); lra).
  assert (AG : Rabs g <= 10). { apply Rle_trans with (1 := TH _ _ _ _ RG DF). assert (3 / 8 * u * Rabs ((f2 - f1) / 2) <= 3 / 8 * u * (16 / 10)) by (apply Rmult_le_compat_l; lra). lra. }
  assert (AH : Rabs h <= 10). { apply Rle_trans with (1 := TH _ _ _ _ RH DL). assert (3 / 8 * u * Rabs ((l2 - l1) / 2) <= 3 / 8 * u * 7) by (apply Rmult_le_compat_l; lra). lra. }
  destruct (sine g BG AG) as (p & EP & RP). destruct (sine h BH AH) as (q & EQ & RQ).
  destruct (cosine f1 B2 F1) as (c1 & EC1 & RC1). destruct (cosine f2 B4 F2) as (c2 & EC2 & RC2).
  set (D := (f2 - f1) / 2) in *.
  assert (QR : rel 1 0 (Rabs q) (Rabs (sin h))) by (apply rel_abs; [lra|lra|apply Rabs_le; apply SIN_bound|lra]).
  assert (PR : rel 2 2 (Rabs p) (Rabs (sin D))).
  { apply rel_abs; [lra|lra|apply Rabs_le; apply SIN_bound|]. assert (G := sin_close g D). assert (SF := sin_far D DF).
    assert (Z := Rabs_pos (sin D)). assert (G2 : Rabs (sin g - sin D) <= 3 / 4 * u * Rabs (sin D) + eta). { assert (3 / 8 * u * Rabs D <= 3 / 8 * u * (2 * Rabs (sin D))) by (apply Rmult_le_compat_l; lra). lra. }
    assert (SG := TH _ _ _ _ G2 (Rle_refl _)). assert (u * Rabs (sin g) <= u * (3 / 4 * u * Rabs (sin D) + eta + Rabs (sin D))) by (apply Rmult_le_compat_l; lra).
    assert (0 <= u * Rabs (sin D)) by (apply Rmult_le_pos; lra).
    assert (u * (3 / 4 * u * Rabs (sin D)) <= u * Rabs (sin D) / 100). { replace (u * (3 / 4 * u * Rabs (sin D))) with (3 / 4 * u * (u * Rabs (sin D))) by ring. apply Rle_trans with (/ 100 * (u * Rabs (sin D))); [apply Rmult_le_compat_r; lra|lra]. }
    assert (u * eta <= eta / 100). { apply Rle_trans with (/ 100 * eta); [apply Rmult_le_compat_r; lra|lra]. }
    replace (p - sin D) with (p - sin g + (sin g - sin D)) by ring. apply Rle_trans with (1 := Rabs_triang _ _). lra. }
  destruct (squared_rel _ _ _ _ PR ltac:(lra) ltac:(lra)) as (E1 & R1). destruct (squared_rel _ _ _ _ QR ltac:(lra) ltac:(lra)) as (E2 & R2).
  assert (R3 := rel_mul _ _ _ _ _ _ _ _ RC1 RC2 ltac:(lra) ltac:(lra)). destruct (rel_fl _ _ _ _ R3 ltac:(lra) ltac:(lra)) as (E3 & _ & R3').
  assert (R4 := rel_mul _ _ _ _ _ _ _ _ R3' R2 ltac:(lra) ltac:(lra)). destruct (rel_fl _ _ _ _ R4 ltac:(lra) ltac:(lra)) as (E4 & _ & R4').
  assert (SUM : sin D * sin D + cos f1 * cos f2 * (sin h * sin h) = sin (t / 2) * sin (t / 2)).
  { rewrite <- HALF. symmetry. apply sqrt_sqrt. apply Rplus_le_le_0_compat; [nra|]. apply Rmult_le_pos; [apply (proj2 (proj2 (proj2 R3)))|nra]. }
  assert (SB := SIN_bound (t / 2)).
  assert (R5 := rel_add _ _ _ _ _ _ _ _ R4' R1 ltac:(rewrite Rplus_comm, SUM; nra) ltac:(lra) ltac:(lra)).
  rewrite (Rplus_comm (cos f1 * cos f2 * _)) in R5. rewrite (Rplus_comm (fl (fl (c1 * c2) * _))) in R5. rewrite SUM in R5.
  destruct (rel_fl _ _ _ _ R5 ltac:(lra) ltac:(lra)) as (E5 & _ & R6). set (a := fl (fl (p * p) + fl (fl (c1 * c2) * fl (q * q)))) in *.
  assert (RT := root_rel _ _ _ _ R6). assert (S0 : 0 <= sin (t / 2)) by (apply sin_ge_0; lra). rewrite sqrt_square in RT by exact S0.
  assert (AP : 0 <= a) by apply R6.
  assert (RS : 0 <= sqrt a <= 2) by (split; [apply sqrt_pos|apply Rabs_le_inv in RT; lra]).
  destruct (fl_real (sqrt a)) as (F7 & B7 & _); [rewrite Rabs_right; lra|]. set (s := fl (sqrt a)) in *.
  assert (D7 := fl_u (sqrt a)). fold s in D7. rewrite (Rabs_right (sqrt a)) in D7 by lra.
  assert (P7 : 0 <= s) by (apply fl_ge_float; [apply format_0|lra]).
  exists s. split; [|split; [exact B7|split; [exact P7|]]].
  - unfold haversine_f. rewrite EG, EH, EP, EQ, EC1, EC2, E1, E2. cbn [multiply]. rewrite E3. cbn [multiply]. rewrite E4. cbn [plus]. rewrite E5. cbn [root].
    unfold rltb. destruct (Rlt_dec a 0) as [N|_]; [lra|]. rewrite F7. reflexivity.
  - replace (s - sin (t / 2)) with (s - sqrt a + (sqrt a - sin (t / 2))) by ring. apply Rle_trans with (1 := Rabs_triang _ _).
    assert (u / 8 * sqrt a <= u / 8 * 2) by (apply Rmult_le_compat_l; lra). lra.
Qed.
Lemma arc_sine : forall s, 0 <= s <= 1 -> 0 <= asin s <= PI / 2 /\ s <= asin s.
Proof.
  intros s S. assert (SA : sin (asin s) = s) by (apply sin_asin; lra). assert (AB := asin_bound s).
  assert (A0 : 0 <= asin s). { apply Rnot_lt_le. intro H. assert (sin (asin s) < 0) by (apply sin_lt_0_var; lra). lra. }
  split; [lra|]. assert (Q := sin_close (asin s) 0). rewrite sin_0, !Rminus_0_r, SA, !Rabs_right in Q by lra. exact Q.
Qed.
(** Up to 90 degrees. *)
Lemma arc_close : forall s t, binary64 s -> 0 <= s -> Rabs (s - sin (t / 2)) <= 8 * u -> 0 <= t <= PI / 2 + 100 * u ->
  exists c, multiply (Real 2) (AS (Real s)) = Real c /\ 0 <= c /\ Rabs (c - t) <= 100 * u.
Proof.
  intros s t B7 P7 NS T. assert (P := pi_machin). unfold P0 in P. assert (U := u_pos). assert (ET := eta_u). assert (US : u <= / 1000000) by (unfold u; lra). assert (UU : u * u <= u / 1000000) by nra.
  assert (ST : sin (t / 2) <= 8 / 10).
  { apply Rle_trans with (sin (PI / 4) + 50 * u).
    - assert (Q := sin_close (t / 2) (PI / 4)). destruct (Rle_dec (t / 2) (PI / 4)) as [L|L].
      + assert (sin (t / 2) <= sin (PI / 4)) by (apply sin_incr_1; lra). lra.
      + rewrite (Rabs_right (t / 2 - PI / 4)) in Q by lra. apply Rabs_le_inv in Q. lra.
    - rewrite sin_PI4. assert (W : 14 / 10 <= sqrt 2). { rewrite <- (sqrt_square (14 / 10)) by lra. apply sqrt_le_1_alt. lra. }
      assert (/ sqrt 2 <= / (14 / 10)) by (apply Rinv_le_contravar; lra). lra. }
  assert (TS : s <= 82 / 100) by (apply Rabs_le_inv in NS; lra).
  destruct (HA s B7 ltac:(lra)) as (y & EY & RY). rewrite u_pow in RY.
  assert (SA : sin (asin s) = s) by (apply sin_asin; lra). destruct (arc_sine s ltac:(lra)) as [AB _].
  assert (A3 : asin s <= PI / 3).
  { apply Rnot_lt_le. intro H. assert (sin (PI / 3) < sin (asin s)) by (apply sin_increasing_1; lra). rewrite sin_PI3 in *.
    assert (17 / 10 <= sqrt 3). { rewrite <- (sqrt_square (17 / 10)) by lra. apply sqrt_le_1_alt. lra. } lra. }
  assert (NA := from_sine (asin s) (t / 2) ltac:(lra) ltac:(lra)). rewrite SA in NA.
  assert (Y0 : 0 <= y /\ Rabs (y - t / 2) <= 34 * u).
  { assert (UA : u * asin s <= u * (16 / 10)) by (apply Rmult_le_compat_l; lra). assert (UB : u * asin s <= asin s) by (rewrite <- (Rmult_1_l (asin s)) at 2; apply Rmult_le_compat_r; lra).
    split; [apply Rabs_le_inv in RY; lra|]. replace (y - t / 2) with (y - asin s + (asin s - t / 2)) by ring. apply Rle_trans with (1 := Rabs_triang _ _). lra. }
  destruct Y0 as [Y0 NY]. assert (Y2 : y <= 2) by (apply Rabs_le_inv in NY; lra).
  destruct (fl_real (2 * y)) as (F8 & _ & _); [rewrite Rabs_right; lra|]. exists (fl (2 * y)). split; [|split].
  - rewrite EY. exact F8.
  - apply fl_ge_float; [apply format_0|lra].
  - assert (D8 := fl_u (2 * y)). rewrite (Rabs_right (2 * y)) in D8 by lra. assert (u / 8 * (2 * y) <= u / 8 * 4) by (apply Rmult_le_compat_l; lra).
    replace (fl (2 * y) - t) with (fl (2 * y) - 2 * y + 2 * (y - t / 2)) by field. apply Rle_trans with (1 := Rabs_triang _ _).
    rewrite (Rabs_mult 2), (Rabs_right 2) by lra. lra.
Qed.
(** Beyond, and not opposite. *)
Lemma arc_far : forall s t, binary64 s -> 0 <= s -> Rabs (s - sin (t / 2)) <= 8 * u -> PI / 2 - 100 * u <= t <= 298 / 100 ->
  exists c, multiply (Real 2) (AS (Real s)) = Real c /\ 13 / 10 <= c <= 4.
Proof.
  intros s t B7 P7 NS T. assert (P := pi_machin). unfold P0 in P. assert (U := u_pos). assert (ET := eta_u). assert (US : u <= / 1000000) by (unfold u; lra). assert (UU : u * u <= u / 1000000) by nra.
  apply Rabs_le_inv in NS.
  assert (LO : 7 / 10 <= sin (t / 2)).
  { apply Rle_trans with (sin (PI / 4) - 50 * u).
    - rewrite sin_PI4. assert (W : sqrt 2 <= 142 / 100). { rewrite <- (sqrt_square (142 / 100)) by lra. apply sqrt_le_1_alt. lra. }
      assert (W1 : 0 < sqrt 2) by (apply sqrt_lt_R0; lra). assert (/ (142 / 100) <= / sqrt 2) by (apply Rinv_le_contravar; lra). lra.
    - destruct (Rle_dec (PI / 4) (t / 2)) as [L|L].
      + assert (sin (PI / 4) <= sin (t / 2)) by (apply sin_incr_1; lra). lra.
      + assert (Q := sin_close (t / 2) (PI / 4)). rewrite (Rabs_left1 (t / 2 - PI / 4)) in Q by lra. apply Rabs_le_inv in Q. lra. }
  assert (HI : sin (t / 2) <= 999 / 1000 + / 2000).
  { rewrite <- cos_shift. set (y := (PI / 2 - t / 2) / 2). replace (PI / 2 - t / 2) with (2 * y) by (unfold y; field). rewrite cos_2a_sin.
    assert (Y := sin_above y ltac:(unfold y; lra)). assert (4 / 100 <= y) by (unfold y; lra). nra. }
  destruct (HA s B7 ltac:(lra)) as (y & EY & RY). rewrite u_pow in RY. destruct (arc_sine s ltac:(lra)) as [AB AS'].
  assert (UB : u * asin s <= / 1000000 * asin s) by (apply Rmult_le_compat_r; lra). apply Rabs_le_inv in RY.
  destruct (fl_real (2 * y)) as (F8 & _ & _); [rewrite Rabs_right; lra|]. exists (fl (2 * y)). split; [rewrite EY; exact F8|].
  assert (D8 := fl_u (2 * y)). rewrite (Rabs_right (2 * y)) in D8 by lra. assert (u / 8 * (2 * y) <= u / 8 * 4) by (apply Rmult_le_compat_l; lra). apply Rabs_le_inv in D8. lra.
Qed.
End Accurate.

Lemma factor_back : Rabs (Proofs.AngleFloat.R0 - 180 / PI) <= 30 * u.
Proof.
  assert (P := pi_machin). unfold P0 in P.
  replace (Proofs.AngleFloat.R0 - 180 / PI) with ((Proofs.AngleFloat.R0 * PI - 180) * / PI) by (field; lra).
  rewrite Rabs_mult, (Rabs_right (/ PI)) by (left; apply Rinv_0_lt_compat; lra).
  assert (I : 0 < / PI <= / 3) by (split; [apply Rinv_0_lt_compat; lra|apply Rinv_le_contravar; lra]).
  apply Rle_trans with (90 * u * / 3); [|lra]. apply Rmult_le_compat; [apply Rabs_pos|lra| |lra].
  unfold Proofs.AngleFloat.R0, u. apply Rabs_le. lra.
Qed.
Lemma separation : forall S C Z ra dec ra' dec' d, accurate_sin S -> accurate_cos C -> accurate_arcsin Z ->
  position (ra, dec) -> position (ra', dec') -> distance_between (ra, dec) (ra', dec') d ->
  exists s t, off_axis_f S C Z (Real ra) (Real dec) (Real ra') (Real dec') = rad2deg_f (multiply (Real 2) (Z (Real s)))
    /\ binary64 s /\ 0 <= s /\ Rabs (s - sin (t / 2)) <= 8 * u /\ 0 <= t /\ Rabs (t - d * PI / 180) <= 50 * u.
Proof.
  intros S C Z ra dec ra' dec' d HS HC HA (B1 & L1 & B2 & L2) (B3 & L3 & B4 & L4) [DB DC]. cbn [fst snd] in *.
  assert (P := pi_machin). unfold P0 in P. assert (U := u_pos). assert (ET := eta_u). assert (US : u <= / 1000000) by (unfold u; lra). assert (UU : u * u <= u / 1000000) by nra.
  destruct (radians ra L1) as (E1 & F1 & R1). destruct (radians dec ltac:(lra)) as (E2 & F2 & R2).
  destruct (radians ra' L3) as (E3 & F3 & R3). destruct (radians dec' ltac:(lra)) as (E4 & F4 & R4).
  assert (T2 := latitude dec L2). assert (T4 := latitude dec' L4).
  assert (SC : forall x b, Rabs x <= b -> Rabs x * (u / 60) <= b * (u / 60)) by (intros x b X; apply Rmult_le_compat_r; lra).
  assert (Q1 := SC _ _ L1). assert (Q2 := SC _ _ L2). assert (Q3 := SC _ _ L3). assert (Q4 := SC _ _ L4).
  set (l1 := fl (ra * k0)) in *. set (f1 := fl (dec * k0)) in *. set (l2 := fl (ra' * k0)) in *. set (f2 := fl (dec' * k0)) in *.
  assert (big : forall x l, Rabs x <= 360 -> Rabs (l - x * PI / 180) <= 360 * (u / 60) + eta -> Rabs l <= 7).
  { intros x l X H. apply Rabs_le_inv in X. apply Rabs_le_inv in H. assert (x * PI <= 360 * PI) by (apply Rmult_le_compat_r; lra). assert (- 360 * PI <= x * PI) by (apply Rmult_le_compat_r; lra). apply Rabs_le. lra. }
  destruct (central S C Z HS HC l1 f1 l2 f2 F1 F2 F3 F4 (big ra l1 L1 ltac:(lra)) (big ra' l2 L3 ltac:(lra)) T2 T4) as (h & RH & HC').
  set (t := d * PI / 180). assert (T : 0 <= t <= PI). { assert (0 <= d * PI) by (apply Rmult_le_pos; lra). assert (d * PI <= 180 * PI) by (apply Rmult_le_compat_r; lra). unfold t. lra. }
  set (p := dir l1 f1) in *. set (q := dir (l1 + 2 * h) f2) in *. set (t' := acos (dt p q)).
  assert (BT := dt_bound p q (dir_unit _ _) (dir_unit _ _)). assert (T' : 0 <= t' <= PI) by apply acos_bound. assert (CT' : cos t' = dt p q) by (apply cos_acos; lra).
  assert (M : Rabs (t' - t) <= 2 * (25 * u)).
  { apply (moved (dir (ra * PI / 180) (dec * PI / 180)) (dir (ra' * PI / 180) (dec' * PI / 180)) p q (25 * u) t t'); try apply dir_unit; auto; try lra.
    - replace (25 * u) with (20 * u + 5 * u) by ring. apply nearby; [rewrite Rabs_minus_sym; lra|rewrite Rabs_minus_sym; lra|lra].
    - replace (25 * u) with (20 * u + 5 * u) by ring. apply nearby; [|rewrite Rabs_minus_sym; lra|lra].
      replace (ra' * PI / 180 - (l1 + 2 * h)) with (- (l2 - ra' * PI / 180) + - (2 * h - (l2 - l1))) by ring.
      apply Rle_trans with (1 := Rabs_triang _ _). rewrite !Rabs_Ropp. lra. }
  destruct (HC' t' T' CT') as (s & ES & BS & PS & NS). exists s, t'. split; [|split; [exact BS|split; [exact PS|split; [exact NS|split; [lra|lra]]]]].
  unfold off_axis_f. rewrite E1, E2, E3, E4, ES. reflexivity.
Qed.
Lemma to_degrees : forall c, 0 <= c <= 4 -> exists y, rad2deg_f (Real c) = Real y /\ binary64 y /\ 0 <= y /\ Rabs (y - c * (180 / PI)) <= 200 * u.
Proof.
  intros c CB. assert (U := u_pos). assert (ET := eta_u). assert (US : u <= / 1000000) by (unfold u; lra). assert (UU : u * u <= u / 1000000) by nra.
  assert (FB := factor_back). assert (FR : 57 <= Proofs.AngleFloat.R0 <= 58) by (unfold Proofs.AngleFloat.R0; lra). unfold rad2deg_f. rewrite radeg_val. set (K := Proofs.AngleFloat.R0) in *.
  assert (CK : 0 <= c * K <= 232). { split; [apply Rmult_le_pos; lra|]. apply Rle_trans with (4 * 58); [apply Rmult_le_compat; lra|lra]. }
  destruct (fl_real (c * K)) as (F5 & B5 & _); [rewrite Rabs_right; lra|]. exists (fl (c * K)). split; [exact F5|]. split; [exact B5|].
  split; [apply fl_ge_float; [apply format_0|lra]|]. assert (D5 := fl_u (c * K)). rewrite (Rabs_right (c * K)) in D5 by lra. assert (u / 8 * (c * K) <= u / 8 * 232) by (apply Rmult_le_compat_l; lra).
  replace (fl (c * K) - c * (180 / PI)) with (fl (c * K) - c * K + c * (K - 180 / PI)) by ring.
  apply Rle_trans with (1 := Rabs_triang _ _). rewrite (Rabs_mult c), (Rabs_right c) by lra. assert (c * Rabs (K - 180 / PI) <= 4 * (30 * u)) by (apply Rmult_le_compat; try apply Rabs_pos; lra). lra.
Qed.
Lemma C116_distance_proof : forall S C Z p q d, accurate_sin S -> accurate_cos C -> accurate_arcsin Z -> position p -> position q -> distance_between p q d ->
  (d <= 90 -> exists y, haversine_np_f S C Z (Real (fst p)) (Real (snd p)) (Real (fst q)) (Real (snd q)) = Real y /\ binary64 y /\ 0 <= y /\ Rabs (y - d) <= / 10 ^ 11)
  /\ (90 < d <= 170 -> exists y, haversine_np_f S C Z (Real (fst p)) (Real (snd p)) (Real (fst q)) (Real (snd q)) = Real y /\ binary64 y /\ 70 <= y).
Proof.
  intros S C Z [ra dec] [ra' dec'] d HS HC HA HP HQ HD. cbn [fst snd].
  change (haversine_np_f S C Z (Real ra) (Real dec) (Real ra') (Real dec')) with (off_axis_f S C Z (Real ra) (Real dec) (Real ra') (Real dec')).
  destruct (separation _ _ _ _ _ _ _ _ HS HC HA HP HQ HD) as (s & t & E & B & S0 & NS & T0 & NT). destruct HD as [DB _].
  assert (P := pi_machin). unfold P0 in P. assert (U := u_pos). assert (US : u <= / 1000000) by (unfold u; lra). apply Rabs_le_inv in NT.
  assert (I : 0 < 180 / PI <= 60). { split; [apply Rmult_lt_0_compat; [lra|apply Rinv_0_lt_compat; lra]|]. assert (/ PI <= / 3) by (apply Rinv_le_contravar; lra). unfold Rdiv. lra. }
  assert (BK : d * PI / 180 * (180 / PI) = d) by (field; lra). split; intro D.
  - assert (d * PI <= 90 * PI) by (apply Rmult_le_compat_r; lra). destruct (arc_close Z HA s t B S0 NS ltac:(lra)) as (c & EC & C0 & RC). apply Rabs_le_inv in RC.
    destruct (to_degrees c ltac:(lra)) as (y & EY & BY & Y0 & RY). exists y. rewrite E, EC, EY. split; [reflexivity|]. split; [exact BY|]. split; [exact Y0|].
    replace (y - d) with (y - c * (180 / PI) + (c - d * PI / 180) * (180 / PI)) by (rewrite Rmult_minus_distr_r, BK; ring). apply Rle_trans with (1 := Rabs_triang _ _).
    rewrite (Rabs_mult (c - _)), (Rabs_right (180 / PI)) by lra.
    assert (Rabs (c - d * PI / 180) * (180 / PI) <= 150 * u * 60) by (apply Rmult_le_compat; [apply Rabs_pos|lra|apply Rabs_le; lra|lra]).
    assert (9200 * u <= / 10 ^ 11) by (unfold u; lra). lra.
  - assert (90 * PI <= d * PI) by (apply Rmult_le_compat_r; lra). assert (d * PI <= 170 * PI) by (apply Rmult_le_compat_r; lra).
    destruct (arc_far Z HA s t B S0 NS ltac:(lra)) as (c & EC & C0).
    destruct (to_degrees c ltac:(lra)) as (y & EY & BY & Y0 & RY). exists y. rewrite E, EC, EY. split; [reflexivity|]. split; [exact BY|]. apply Rabs_le_inv in RY.
    assert (J : 57 <= 180 / PI). { apply Rmult_le_reg_r with PI; [lra|]. unfold Rdiv. rewrite Rmult_assoc, Rinv_l by lra. lra. }
    assert (13 / 10 * 57 <= c * (180 / PI)) by (apply Rmult_le_compat; lra). lra.
Qed.
Lemma C116_same_place_proof : forall S C Z p, accurate_sin S -> accurate_cos C -> accurate_arcsin Z -> position p ->
  haversine_np_f S C Z (Real (fst p)) (Real (snd p)) (Real (fst p)) (Real (snd p)) = Real 0.
Proof.
  intros S C Z [ra dec] HS HC HA (B1 & L1 & B2 & L2). cbn [fst snd] in *. assert (P := pi_machin). unfold P0 in P.
  destruct (radians ra L1) as (E1 & F1 & _). destruct (radians dec ltac:(lra)) as (E2 & F2 & _). assert (T2 := latitude dec L2).
  assert (F0 : finish 0 = Real 0) by (apply small_finish; [apply format_0|rewrite Rabs_R0; lra]).
  assert (Z0 : binary64 0) by (split; [apply format_0|rewrite Rabs_R0; apply bpow_gt_0]).
  destruct (cosine C HC _ F2 T2) as (c & EC & RC).
  assert (S0 : S (Real 0) = Real 0). { destruct (HS 0 Z0 ltac:(rewrite Rabs_R0; lra)) as (y & E & H). rewrite sin_0, Rabs_R0, Rminus_0_r, Rmult_0_r in H. rewrite E. f_equal. apply Rabs_le_inv in H. lra. }
  assert (A0 : Z (Real 0) = Real 0). { destruct (HA 0 Z0 ltac:(lra)) as (y & E & H). rewrite asin_0, Rminus_0_r, Rmult_0_r in H. rewrite E. f_equal. apply Rabs_le_inv in H. lra. }
  destruct (rel_fl _ _ _ _ (rel_mul _ _ _ _ _ _ _ _ RC RC ltac:(lra) ltac:(lra)) ltac:(lra) ltac:(lra)) as (E3 & _ & _).
  unfold haversine_np_f. rewrite E1, E2, EC. cbn [minus plus]. rewrite !Rplus_opp_r, F0. cbn [divide]. unfold Rdiv. rewrite Rmult_0_l, F0, S0. unfold squared. cbn [multiply]. rewrite Rmult_0_l, F0, E3. cbn [multiply].
  rewrite Rmult_0_r, F0. cbn [plus]. rewrite Rplus_0_l, F0. cbn [root]. unfold rltb. destruct (Rlt_dec 0 0) as [N|_]; [lra|]. rewrite sqrt_0, F0, A0. cbn [multiply]. rewrite Rmult_0_r, F0.
  unfold rad2deg_f. rewrite radeg_val. cbn [multiply]. rewrite Rmult_0_l. exact F0.
Qed.

(** ** The depth at a position *)
Lemma fraction_some : forall y, 0 <= y -> exists f, fraction_at y f.
Proof.
  intros y Y. destruct (Rle_dec 2 y) as [L|L]; [exists (201974 / 623885); right; auto|].
  destruct (archimed (y * 50)) as [A1 A2]. set (k := (Rdefinitions.up (y * 50) - 1)%Z). assert (K : IZR k <= y * 50 < IZR k + 1) by (unfold k; rewrite minus_IZR; lra).
  assert (K0 : (-1 < k)%Z) by (apply lt_IZR; lra). assert (K1 : (k < 100)%Z) by (apply lt_IZR; lra).
  assert (IK : INR (Z.to_nat k) = IZR k) by (rewrite INR_IZR_INZ, Z2Nat.id by lia; reflexivity).
  assert (LEN : length published = 101%nat) by reflexivity.
  destruct (nth_error published (Z.to_nat k)) as [a|] eqn:EA; [|apply nth_error_None in EA; lia].
  destruct (nth_error published (S (Z.to_nat k))) as [b|] eqn:EB; [|apply nth_error_None in EB; lia].
  eexists. left. exists (Z.to_nat k), a, b. split; [exact EA|]. split; [exact EB|]. split; [rewrite S_INR, IK; lra|reflexivity].
Qed.
Lemma fraction_close : forall y f y' f' e, fraction_at y f -> fraction_at y' f' -> Rabs (y' - y) <= e -> Rabs (f' - f) <= 4 * e /\ 32 / 100 <= f <= 1.
Proof.
  intros y f y' f' e F F' D. split; [|destruct (light _ _ F) as (w & _ & _ & _ & _ & B); exact B].
  destruct (fraction_pl _ _ F) as [Y ->]. destruct (fraction_pl _ _ F') as [Y' ->]. apply Rabs_le_inv in D. apply Rabs_le.
  destruct (Rle_dec y y') as [L|L].
  - assert (Q := pl_lip tail 0 623885 (y * 50) (y' * 50) tail_drops ltac:(lra)). lra.
  - assert (Q := pl_lip tail 0 623885 (y' * 50) (y * 50) tail_drops ltac:(lra)). lra.
Qed.
Lemma C116_depth_proof : forall S C Z L p q m d f, accurate_sin S -> accurate_cos C -> accurate_arcsin Z -> accurate_log10 L ->
  position p -> position q -> distance_between p q d -> d <= 90 -> fraction_at d f -> binary64 m -> Rabs m <= 100 ->
  exists v, vignettingEffects_f S C Z L (Real (fst p)) (Real (snd p)) (Real (fst q)) (Real (snd q)) (Real m) = Real v
    /\ v <= m /\ Rabs (v - (m + 5 / 2 * (ln f / ln 10))) <= / 10 ^ 9 /\ (d <= 63 / 100 -> v = m).
Proof.
  intros S C Z L p q m d f HS HC HA HL HP HQ HD D90 F BM M.
  destruct (proj1 (C116_distance_proof S C Z p q d HS HC HA HP HQ HD) D90) as (y & EY & BY & Y0 & RY).
  destruct (fraction_some y Y0) as (f' & F'). destruct (fraction_close _ _ _ _ _ F F' RY) as [DF FB]. destruct (fraction_close _ _ _ _ _ F' F ltac:(rewrite Rabs_minus_sym; exact RY)) as [_ FB'].
  destruct (C113_depth_proof L y f' m HL BY F' BM M) as (_ & v & EV & VM & NV & V64). exists v. split; [|split; [exact VM|split]].
  - unfold vignettingEffects_f. change (off_axis_f S C Z (Real (fst p)) (Real (snd p)) (Real (fst q)) (Real (snd q))) with (haversine_np_f S C Z (Real (fst p)) (Real (snd p)) (Real (fst q)) (Real (snd q))). rewrite EY. exact EV.
  - assert (L10 := ln10_ge). assert (up : forall a b, 32 / 100 <= a <= 1 -> 32 / 100 <= b <= 1 -> Rabs (a - b) <= 4 * / 10 ^ 11 -> ln a - ln b <= 16 * / 10 ^ 11).
    { intros a b A B AB. assert (IP : 0 < / b) by (apply Rinv_0_lt_compat; lra). assert (H := ln_le_minus (a * / b) ltac:(apply Rmult_lt_0_compat; lra)). rewrite ln_mult, ln_Rinv in H by lra.
      assert (E : a * / b - 1 = (a - b) * / b) by (field; lra). assert (IB : 0 < / b <= 4). { split; [apply Rinv_0_lt_compat; lra|]. apply Rle_trans with (/ (32 / 100)); [apply Rinv_le_contravar; lra|lra]. }
      assert (AE := Rle_abs (a - b)). assert ((a - b) * / b <= 4 * / 10 ^ 11 * 4). { apply Rle_trans with (Rabs (a - b) * / b); [apply Rmult_le_compat_r; lra|]. apply Rmult_le_compat; try apply Rabs_pos; lra. } lra. }
    assert (U1 := up f' f FB' FB DF). assert (U2 := up f f' FB FB' ltac:(rewrite Rabs_minus_sym; exact DF)).
    assert (I10 : 0 < / ln 10 <= / 2) by (split; [apply Rinv_0_lt_compat; lra|apply Rinv_le_contravar; lra]).
    replace (v - (m + 5 / 2 * (ln f / ln 10))) with (v - (m + 5 / 2 * (ln f' / ln 10)) + 5 / 2 * ((ln f' - ln f) * / ln 10)) by (field; lra).
    apply Rle_trans with (1 := Rabs_triang _ _). rewrite (Rabs_mult (5 / 2)), (Rabs_mult (ln f' - ln f)), (Rabs_right (5 / 2)), (Rabs_right (/ ln 10)) by lra.
    assert (Rabs (ln f' - ln f) * / ln 10 <= 16 * / 10 ^ 11 * / 2) by (apply Rmult_le_compat; [apply Rabs_pos|lra|apply Rabs_le; lra|lra]).
    assert (/ 10 ^ 12 = / 1000000000000) by (f_equal; lra). lra.
  - intro D. apply V64. apply Rabs_le_inv in RY. lra.
Qed.

(** ** Tracklets *)
Lemma linkable_same : forall A tm (sep sep' : A -> A -> num) maxdt minlen min_obs window nlink start l d,
  (forall a b, In a l -> In b l -> (tm a < tm b)%Q -> ((tm b - tm a) * 1440 < maxdt)%Q -> num_lt (Fin (minlen / 3600)) (sep b a) <-> num_lt (Fin (minlen / 3600)) (sep' b a)) ->
  linkable tm sep maxdt minlen min_obs window nlink start l d -> linkable tm sep' maxdt minlen min_obs window nlink start l d.
Proof.
  intros A tm sep sep' maxdt minlen min_obs window nlink start l d H (S & N & W & L). exists S. split; [exact N|]. split; [|exact L]. intros t T. destruct (W t T) as [O I]. split; [|exact I].
  destruct O as [O|[M (l1 & a & l2 & b & l3 & E & T1 & T2 & T3 & T4)]]; [left; exact O|right]. split; [exact M|]. exists l1, a, l2, b, l3. repeat split; auto.
  assert (X : forall x, In x (l1 ++ a :: l2 ++ b :: l3) -> In x l). { intros x K. rewrite <- E in K. apply filter_In in K. apply K. }
  apply H; auto; apply X; apply in_or_app; right; [left; reflexivity|right; apply in_or_app; right; left; reflexivity].
Qed.
Lemma C116_linked_proof : forall A oid (src : A -> Z) (tm : A -> Q) (ra : A -> num) sep tsort draws, sorter tm tsort ->
  forall osort, sorter (fun x : A * bool * option Z => tm (fst (fst x))) osort ->
  forall s wts drop l (place : A -> R * R) (true_sep : A -> A -> num) S C Z,
  (1 <= s_window s)%Z -> (1 <= s_nlink s)%Z -> (1 <= s_min_obs s)%Z -> l <> nil ->
  clear_times oid tm (s_time s) (s_separation s) (s_night_start s) l ->
  (forall r, In r l -> dark (tm r - s_night_start s / 24)) ->
  s_p s = Fin 1 -> (forall g i, num_lt (draws g i) (Fin 1)) ->
  (forall k j, / 1000000000 <= wts k j <= 1) -> (Z.of_nat (length l) <= 1000000)%Z ->
  accurate_sin S -> accurate_cos C -> accurate_arcsin Z -> (forall r, In r l -> position (place r)) ->
  (forall r r' y, In r l -> In r' l ->
     haversine_np_f S C Z (Real (fst (place r))) (Real (snd (place r))) (Real (fst (place r'))) (Real (snd (place r'))) = Real y ->
     exists q, sep r r' = Fin q /\ Q2R q = y) ->
  (forall r r', In r l -> In r' l -> oid r = oid r' -> (0 < tm r - tm r' < s_time s)%Q ->
     exists d, distance_between (place r) (place r') d /\ d <= 170 /\ clear_separation (s_separation s) d
       /\ (num_lt (Fin (s_separation s / 3600)) (true_sep r r') <-> Q2R (s_separation s / 3600) < d)) ->
  let q r := linkable tm true_sep (s_time s * 24 * 60) (s_separation s) (s_min_obs s) (s_window s) (s_nlink s)
             (s_night_start s / 24) (tsort (rows_of oid (oid r) l)) in
  exists out, PPLinkingFilter_f oid src tm ra sep tsort draws s osort wts drop l = Ok out /\
    (forall r b dt, In (r, b, dt) out -> In r l /\
       (b = true <-> exists d, q r d) /\ (forall d, dt = Some d <-> first_with (q r) d)) /\
    (forall r d, In r l -> q r d -> exists b dt, In (r, b, dt) out).
Proof.
  intros A oid src tm ra sep tsort draws Hts osort Hos s wts drop l place true_sep S C Z Hw Hn Ho Hne (M1 & [M2 M2'] & M3 & M4 & M5) Hph Hp Hd Hr Hm HS HC HA HP Hsep Htrue q.
  assert (LS : 0 < Q2R (s_separation s / 3600) <= 50).
  { split; [replace 0 with (Q2R 0) by (unfold Q2R; cbn; field)|replace 50 with (Q2R 50) by (unfold Q2R; cbn; field)].
    - apply Qlt_Rlt. apply Qlt_shift_div_l; [reflexivity|]. rewrite Qmult_0_l. apply Qlt_le_trans with (2 := M2). reflexivity.
    - apply Qle_Rle. apply Qle_shift_div_r; [reflexivity|exact M2']. }
  set (lim := Q2R (s_separation s / 3600)) in *.
  (* computed and true separations *)
  assert (K : forall r r', In r l -> In r' l -> oid r = oid r' -> (0 < tm r - tm r' < s_time s)%Q ->
    exists x, sep r r' = Fin x /\ clear_of (s_separation s / 3600) x /\ (num_lt (Fin (s_separation s / 3600)) (sep r r') <-> num_lt (Fin (s_separation s / 3600)) (true_sep r r'))).
  { intros r r' I I' O G. destruct (Htrue r r' I I' O G) as (d & D1 & D2 & D3 & D4). unfold clear_separation in D3. fold lim in D3.
    destruct (C116_distance_proof S C Z _ _ d HS HC HA (HP r I) (HP r' I') D1) as [N F].
    assert (Y : exists y, haversine_np_f S C Z (Real (fst (place r))) (Real (snd (place r))) (Real (fst (place r'))) (Real (snd (place r'))) = Real y
      /\ ((y < lim - / 10 ^ 11 /\ d < lim) \/ (lim + / 10 ^ 11 < y /\ lim < d))).
    { assert (T1 : / 10 ^ 10 = 10 * / 10 ^ 11) by lra. assert (T2 : 0 < / 10 ^ 11 < 1) by lra. destruct (Rle_dec d 90) as [L|L].
      - destruct (N L) as (y & E & _ & _ & R). exists y. split; [exact E|]. apply Rabs_le_inv in R. destruct (Rle_dec lim d) as [Q|Q].
        + right. rewrite Rabs_right in D3; lra.
        + left. rewrite Rabs_left1 in D3; lra.
      - destruct (F ltac:(lra)) as (y & E & _ & R). exists y. split; [exact E|]. right. lra. }
    destruct Y as (y & E & YD). destruct (Hsep r r' y I I' E) as (x & SX & <-). exists x. split; [exact SX|].
    assert (SM : lim * / 1125899906842624 < / 10 ^ 11) by lra.
    assert (QM : Q2R (s_separation s / 3600 * (1 - (1 # 1125899906842624))) = lim * (1 - / 1125899906842624)) by (rewrite Q2R_mult, Q2R_minus; fold lim; unfold Q2R at 1 2; cbn [Qnum Qden]; f_equal; lra).
    assert (QP : Q2R (s_separation s / 3600 * (1 + (1 # 1125899906842624))) = lim * (1 + / 1125899906842624)) by (rewrite Q2R_mult, Q2R_plus; fold lim; unfold Q2R at 1 2; cbn [Qnum Qden]; f_equal; lra).
    assert (CMP : num_lt (Fin (s_separation s / 3600)) (Fin x) <-> lim < Q2R x). { split; intro H; [inversion H; subst; apply Qlt_Rlt; assumption|constructor; apply Rlt_Qlt; exact H]. }
    split.
    - unfold clear_of. destruct YD as [[YL _]|[YL _]]; [left|right]; apply Rlt_Qlt; [rewrite QM|rewrite QP]; lra.
    - rewrite SX, CMP, D4. destruct YD as [[YL DL]|[YL DL]]; assert (0 < / 10 ^ 11) by lra; split; intro; lra. }
  assert (MG : margins oid tm sep (s_time s) (s_separation s) (s_night_start s) l).
  { split; [exact M1|]. split; [exact M2|]. split; [exact M3|]. split; [exact M4|]. split; [exact M5|]. intros r r' x I I' O G E. destruct (K r r' I I' O G) as (x' & E' & CL & _). rewrite E in E'. inversion E'. subst. exact CL. }
  destruct (C101_linked_proof A oid src tm ra sep tsort draws Hts osort Hos s wts drop l Hw Hn Ho Hne MG Hph Hp Hd Hr Hm) as (out & EO & H1 & H2).
  assert (SAME : forall r, In r l -> forall d, linkable tm sep (s_time s * 24 * 60) (s_separation s) (s_min_obs s) (s_window s) (s_nlink s) (s_night_start s / 24) (tsort (rows_of oid (oid r) l)) d <-> q r d).
  { intros r I d. assert (X : forall a b, In a (tsort (rows_of oid (oid r) l)) -> In b (tsort (rows_of oid (oid r) l)) -> (tm a < tm b)%Q -> ((tm b - tm a) * 1440 < s_time s * 24 * 60)%Q ->
      num_lt (Fin (s_separation s / 3600)) (sep b a) <-> num_lt (Fin (s_separation s / 3600)) (true_sep b a)).
    { intros a b Ia Ib T1 T2. assert (IN : forall x, In x (tsort (rows_of oid (oid r) l)) -> In x l /\ oid x = oid r).
      { intros x H. apply (Permutation.Permutation_in _ (proj1 (Hts _))) in H. apply filter_In in H. destruct H as [H E]. apply String.eqb_eq in E. auto. }
      destruct (IN a Ia) as [La Oa]. destruct (IN b Ib) as [Lb Ob]. destruct (K b a Lb La ltac:(congruence)) as (x & _ & _ & E); [|exact E].
      split; [apply (Qplus_lt_l _ _ (tm a)); ring_simplify; exact T1|]. apply (Qmult_lt_r _ _ 1440); [reflexivity|]. apply Qlt_le_trans with (1 := T2). setoid_replace (s_time s * 24 * 60)%Q with (s_time s * 1440)%Q by ring. apply Qle_refl. }
    split; intro H; [eapply linkable_same; [exact X|exact H]|]. eapply linkable_same; [|exact H]. intros a b Ia Ib T1 T2. symmetry. apply X; auto. }
  exists out. split; [exact EO|]. split.
  - intros r b dt I. destruct (H1 r b dt I) as (I1 & I2 & I3). split; [exact I1|]. split.
    + rewrite I2. split; intros (d & H); exists d; apply (SAME r I1); exact H.
    + intro d. rewrite I3. split; intros [F1 F2]; (split; [apply (SAME r I1); exact F1|]; intros e E F; apply (F2 e E); apply (SAME r I1); exact F).
  - intros r d I H. apply (H2 r d I). apply (SAME r I). exact H.
Qed.

(** ** Functions that meet the hypotheses, and rationals that are floats *)
Definition exact_fun (f : R -> R) (c : cell) : cell := match c with Real x => Real (f x) | _ => Nan end.
Lemma exact_accurate : accurate_sin (exact_fun sin) /\ accurate_cos (exact_fun cos) /\ accurate_arcsin (exact_fun asin).
Proof.
  assert (I : 0 <= / 2 ^ 50) by lra. repeat split; intros x _ X; eexists; (split; [reflexivity|]); rewrite Rminus_diag_eq, Rabs_R0 by reflexivity; apply Rmult_le_pos; try apply Rabs_pos; try exact I.
  apply arc_sine. exact X.
Qed.
Definition as_rational (y : R) : Q :=
  let m := Ztrunc (scaled_mantissa radix2 (FLT_exp (-1074) 53) y) in
  let e := cexp radix2 (FLT_exp (-1074) 53) y in
  if (0 <=? e)%Z then inject_Z (m * 2 ^ e) else Qmake m (Z.to_pos (2 ^ (- e))).
Lemma as_rational_value : forall y, generic_format radix2 (FLT_exp (-1074) 53) y -> Q2R (as_rational y) = y.
Proof.
  intros y F. unfold as_rational. set (m := Ztrunc _). set (e := cexp _ _ y). transitivity (IZR m * bpow radix2 e); [|symmetry; exact F].
  destruct (Z.leb_spec 0 e) as [E|E]; unfold Q2R; cbn [Qnum Qden inject_Z].
  - rewrite mult_IZR, Rinv_1, Rmult_1_r. f_equal. destruct e as [|p|p]; [reflexivity|reflexivity|lia].
  - f_equal. rewrite Z2Pos.id by (apply Z.pow_pos_nonneg; lia). destruct e as [|p|p]; [lia|lia|]. reflexivity.
Qed.
Lemma flat_distance : forall a b d, 0 <= d <= 180 -> (a - b) = d \/ (a - b) = 360 - d -> distance_between (a, 0) (b, 0) d.
Proof.
  intros a b d D H. split; [exact D|]. unfold direction. cbn [fst snd vx vy vz]. replace (0 * PI / 180) with 0 by field. rewrite cos_0, sin_0.
  replace (1 * cos (a * PI / 180) * (1 * cos (b * PI / 180)) + 1 * sin (a * PI / 180) * (1 * sin (b * PI / 180)) + 0 * 0) with (cos (a * PI / 180 - b * PI / 180)) by (rewrite cos_minus; ring).
  replace (a * PI / 180 - b * PI / 180) with ((a - b) * PI / 180) by field. destruct H as [-> | ->]; [reflexivity|].
  replace ((360 - d) * PI / 180) with (- (d * PI / 180) + 2 * INR 1 * PI) by (cbn; field). rewrite cos_period, cos_neg. reflexivity.
Qed.
Lemma half_position : forall n, (Z.abs n <= 720)%Z -> position (IZR n / 2, 0).
Proof.
  intros n N. assert (T := top_big). assert (A : Rabs (IZR n) <= 720) by (rewrite <- abs_IZR; apply IZR_le; exact N).
  assert (H : Rabs (IZR n / 2) <= 360) by (unfold Rdiv; rewrite Rabs_mult, (Rabs_right (/ 2)) by lra; lra).
  repeat split; cbn [fst snd]; try rewrite Rabs_R0; try apply bpow_gt_0; try lra.
  - replace (IZR n / 2) with (IZR n * bpow radix2 (-1)) by (cbn; lra). apply dyadic; lia.
  - apply generic_format_0.
Qed.
