(** Uncertainties in binary64 arithmetic. *)
From Coq Require Import Reals ZArith Bool Lia Lra.
From Flocq Require Import Core.
From Verif Require Import Base.Prelude Model.LinkingFloat Model.Rounding Model.FadingFloat Model.UncertaintyFloat
  Spec.LinkingFloat Spec.Rounding Spec.UncertaintyFloat Proofs.LinkingFloat Proofs.Rounding Proofs.FadingFloat Proofs.AngleFloat.
Open Scope R_scope.

Notation nn c := (at_most (Real 0) c).
Lemma format_0 : format 0. Proof. apply generic_format_0. Qed.
Lemma nn_finish : forall x, 0 <= x -> nn (finish x).
Proof.
  intros x X. destruct (finish_cases x) as [[-> _]|[-> _]]; cbn.
  - apply fl_ge_float; [apply format_0|exact X].
  - unfold rltb. destruct (Rlt_dec x 0); [lra|exact I].
Qed.
Lemma fin_mono : forall x y, x <= y -> at_most (finish x) (finish y).
Proof. exact finish_mono. Qed.
Lemma am_refl : forall a b, at_most a b -> at_most a a /\ at_most b b.
Proof. intros [?|x|[|]|] [?|y|[|]|]; cbn; try tauto; intros; split; auto; lra. Qed.
Lemma am_trans : forall a b c, at_most a b -> at_most b c -> at_most a c.
Proof. intros [?|x|[|]|] [?|y|[|]|] [?|z|[|]|]; cbn; try tauto; lra. Qed.
Lemma nn_cases : forall c, nn c -> (exists x, c = Real x /\ 0 <= x) \/ c = Inf false.
Proof. intros [?|x|[|]|]; cbn; try tauto; intros; left; eauto. Qed.
Lemma fin_inf : forall x, 0 <= x -> at_most (finish x) (Inf false).
Proof. intros x X. assert (N := nn_finish x X). destruct (nn_cases _ N) as [(y & -> & _)| ->]; exact I. Qed.

Lemma plus_nn : forall a b, nn a -> nn b -> nn (plus a b).
Proof. intros a b A B. destruct (nn_cases _ A) as [(x & -> & X)| ->]; destruct (nn_cases _ B) as [(y & -> & Y)| ->]; cbn [plus]; try exact I. apply nn_finish. lra. Qed.
Lemma plus_mono : forall a b a' b', nn a -> nn b -> at_most a a' -> at_most b b' -> at_most (plus a b) (plus a' b').
Proof.
  intros a b a' b' A B C D. assert (A' := am_trans _ _ _ A C). assert (B' := am_trans _ _ _ B D).
  destruct (nn_cases _ A) as [(x & -> & X)| ->]; destruct (nn_cases _ B) as [(y & -> & Y)| ->];
    destruct (nn_cases _ A') as [(x' & -> & X')| ->]; destruct (nn_cases _ B') as [(y' & -> & Y')| ->]; cbn [at_most] in C, D; try contradiction; cbn [plus Bool.eqb]; try exact I;
    try (apply fin_inf; lra). apply fin_mono. lra.
Qed.
Lemma scale_nn : forall k a, 0 < k -> nn a -> nn (multiply (Real k) a).
Proof.
  intros k a K A. destruct (nn_cases _ A) as [(x & -> & X)| ->]; cbn [multiply].
  - apply nn_finish. apply Rmult_le_pos; lra.
  - destruct (Req_EM_T k 0); [lra|]. rewrite rltb_pos by exact K. exact I.
Qed.
Lemma scale_mono : forall k a b, 0 < k -> at_most a b -> at_most (multiply (Real k) a) (multiply (Real k) b).
Proof. intros k a b K. exact (multiply_mono a b k K). Qed.
Lemma rltb_nn : forall x, 0 <= x -> rltb x 0 = false.
Proof. intros x X. unfold rltb. destruct (Rlt_dec x 0); [lra|auto]. Qed.
(** k x^2, rounded twice. *)
Lemma quad_mono : forall k a b, 0 < k -> nn a -> at_most a b ->
  nn (multiply (multiply (Real k) a) a) /\ at_most (multiply (multiply (Real k) a) a) (multiply (multiply (Real k) b) b).
Proof.
  intros k a b K A C. assert (B := am_trans _ _ _ A C).
  assert (Q : forall y, 0 <= y -> nn (multiply (multiply (Real k) (Real y)) (Real y)) /\ at_most (multiply (multiply (Real k) (Real y)) (Real y)) (Inf false)).
  { intros y Y. cbn [multiply]. destruct (finish_cases (k * y)) as [[-> G]|[-> G]]; cbn [multiply].
    - assert (0 <= fl (k * y)) by (apply fl_ge_float; [apply format_0|apply Rmult_le_pos; lra]). split; [apply nn_finish|apply fin_inf]; apply Rmult_le_pos; lra.
    - rewrite rltb_nn by (apply Rmult_le_pos; lra). destruct (Req_EM_T y 0) as [->|N].
      + rewrite Rmult_0_r, fl_0, Rabs_R0 in G. assert (T := top_half). lra.
      + rewrite rltb_nn by exact Y. split; exact I. }
  destruct (nn_cases _ A) as [(x & -> & X)| ->]; destruct (nn_cases _ B) as [(y & -> & Y)| ->]; cbn [at_most] in C; try contradiction.
  - split; [apply Q; exact X|]. cbn [multiply].
    assert (XY : k * x <= k * y) by (apply Rmult_le_compat_l; lra). assert (M := fl_mono _ _ XY).
    destruct (Q x X) as [Qx _]. destruct (Q y Y) as [Qy _]. revert Qx Qy. cbn [multiply].
    assert (FX : 0 <= fl (k * x)) by (apply fl_ge_float; [apply format_0|apply Rmult_le_pos; lra]).
    assert (O := fin_mono _ _ XY). revert O.
    destruct (finish_cases (k * x)) as [[-> G]|[-> G]]; destruct (finish_cases (k * y)) as [[-> G']|[-> G']]; cbn [multiply];
      rewrite ?(rltb_nn (k * x)) by (apply Rmult_le_pos; lra); rewrite ?(rltb_nn (k * y)) by (apply Rmult_le_pos; lra); intros O Qx Qy.
    + apply fin_mono. apply Rmult_le_compat; lra.
    + revert Qy. destruct (Req_EM_T y 0); [cbn; tauto|]. rewrite rltb_nn by exact Y. intros _. apply fin_inf. apply Rmult_le_pos; lra.
    + cbn in O. contradiction.
    + revert Qx Qy. destruct (Req_EM_T x 0); [cbn; tauto|]. destruct (Req_EM_T y 0); [cbn; tauto|]. rewrite !rltb_nn by assumption. intros; exact I.
  - split; [apply Q; exact X|]. destruct (Q x X) as [_ Q2]. assert (E : multiply (multiply (Real k) (Inf false)) (Inf false) = Inf false).
    { cbn [multiply]. destruct (Req_EM_T k 0); [lra|]. rewrite rltb_pos by exact K. reflexivity. }
    rewrite E. exact Q2.
  - assert (E : multiply (multiply (Real k) (Inf false)) (Inf false) = Inf false).
    { cbn [multiply]. destruct (Req_EM_T k 0); [lra|]. rewrite rltb_pos by exact K. reflexivity. }
    rewrite E. split; exact I.
Qed.
Lemma square_mono : forall a b, nn a -> at_most a b -> nn (multiply a a) /\ at_most (multiply a a) (multiply b b).
Proof.
  intros a b A C. assert (B := am_trans _ _ _ A C).
  destruct (nn_cases _ A) as [(x & -> & X)| ->]; destruct (nn_cases _ B) as [(y & -> & Y)| ->]; cbn [at_most] in C; try contradiction; cbn [multiply xorb].
  - split; [apply nn_finish; apply Rmult_le_pos; lra|apply fin_mono; apply Rmult_le_compat; lra].
  - split; [apply nn_finish|apply fin_inf]; apply Rmult_le_pos; lra.
  - split; exact I.
Qed.
Lemma root_mono : forall a b, nn a -> at_most a b -> nn (root a) /\ at_most (root a) (root b).
Proof.
  intros a b A C. assert (B := am_trans _ _ _ A C).
  destruct (nn_cases _ A) as [(x & -> & X)| ->]; destruct (nn_cases _ B) as [(y & -> & Y)| ->]; cbn [at_most] in C; try contradiction; cbn [root]; rewrite ?rltb_nn by assumption.
  - split; [apply nn_finish; apply sqrt_pos|apply fin_mono; apply sqrt_le_1; lra].
  - split; [apply nn_finish|apply fin_inf]; apply sqrt_pos.
  - split; exact I.
Qed.
Lemma quotient_anti : forall k a b, 0 < k -> nn a -> at_most a b -> nn (quotient (Real k) b) /\ at_most (quotient (Real k) b) (quotient (Real k) a).
Proof.
  intros k a b K A C. assert (B := am_trans _ _ _ A C).
  assert (P : forall y, 0 <= y -> y <> 0 -> 0 <= k / y) by (intros y Y N; apply Rmult_le_pos; [lra|left; apply Rinv_0_lt_compat; lra]).
  destruct (nn_cases _ A) as [(x & -> & X)| ->]; destruct (nn_cases _ B) as [(y & -> & Y)| ->]; cbn [at_most] in C; try contradiction; cbn [quotient].
  - destruct (Req_EM_T k 0); [lra|]. rewrite (rltb_nn k) by lra. destruct (Req_EM_T y 0) as [EY|NY]; destruct (Req_EM_T x 0) as [EX|NX]; try (split; exact I); try lra.
    + split; [apply nn_finish|apply fin_inf]; apply P; assumption.
    + split; [apply nn_finish; apply P; assumption|]. apply fin_mono. apply Rmult_le_compat_l; [lra|]. apply Rinv_le_contravar; lra.
  - destruct (Req_EM_T k 0); [lra|]. rewrite (rltb_nn k) by lra. split; [cbn; lra|]. destruct (Req_EM_T x 0); [exact I|]. apply nn_finish. apply P; assumption.
  - split; cbn; lra.
Qed.

(** ** Literals *)
Lemma dyadic : forall n e, (Z.abs n < 2 ^ 53)%Z -> (-1074 <= e)%Z -> format (IZR n * bpow radix2 e).
Proof. intros n e N E. apply generic_format_FLT. exists (Float radix2 n e); auto. Qed.
Lemma bp : forall k, bpow radix2 (Zpos k) = IZR (Z.pow_pos 2 k). Proof. reflexivity. Qed.
Lemma lit_pos : forall x, / 512 <= x -> 0 < fl x.
Proof.
  intros x X. apply Rlt_le_trans with (/ 512); [lra|]. apply fl_ge_float; [|exact X].
  replace (/ 512) with (IZR 1 * bpow radix2 (-9)) by (cbn; lra). apply dyadic; lia.
Qed.
Lemma fl_004 : fl (4 / 100) = 5764607523034235 / 144115188075855872.
Proof.
  rewrite (fl_at _ (-4) 5764607523034235); [|lia| |].
  - replace (bpow radix2 (-4 - 53)) with (/ 144115188075855872) by (cbn; lra). lra.
  - replace (bpow radix2 (-4 - 1)) with (/ 32) by (cbn; lra). replace (bpow radix2 (-4)) with (/ 16) by (cbn; lra). rewrite Rabs_right; lra.
  - replace (bpow radix2 (53 - -4)) with 144115188075855872 by (cbn; lra). apply Rabs_lt. lra.
Qed.
Lemma fl_0039 : fl (39 / 1000) = 5620492334958379 / 144115188075855872.
Proof.
  rewrite (fl_at _ (-4) 5620492334958379); [|lia| |].
  - replace (bpow radix2 (-4 - 53)) with (/ 144115188075855872) by (cbn; lra). lra.
  - replace (bpow radix2 (-4 - 1)) with (/ 32) by (cbn; lra). replace (bpow radix2 (-4)) with (/ 16) by (cbn; lra). rewrite Rabs_right; lra.
  - replace (bpow radix2 (53 - -4)) with 144115188075855872 by (cbn; lra). apply Rabs_lt. lra.
Qed.
Lemma small_finish : forall x, format x -> Rabs x <= 2000 -> finish x = Real x.
Proof. intros x F X. rewrite finish_real; rewrite fl_float by exact F; [reflexivity|]. assert (T := top_big). lra. Qed.
Definition C0 : R := 144115188075856 / 144115188075855872.
Lemma c0_val : minus (literal (4 / 100)) (literal (39 / 1000)) = Real C0.
Proof.
  unfold literal. rewrite fl_004, fl_0039. cbn [minus plus].
  replace (5764607523034235 / 144115188075855872 + - (5620492334958379 / 144115188075855872)) with C0 by (unfold C0; lra).
  apply small_finish; [|unfold C0; rewrite Rabs_right; lra]. unfold C0.
  replace (144115188075856 / 144115188075855872) with (IZR 144115188075856 * bpow radix2 (-57)) by (cbn; lra). apply dyadic; lia.
Qed.
Definition G0 : R := 5620492334958379 / 144115188075855872.
Lemma C0_pos : 0 < C0. Proof. unfold C0. lra. Qed.
Lemma G0_pos : 0 < G0. Proof. unfold G0. lra. Qed.
Lemma snr_unfold : forall P m d, snr_f P m d =
  let x := P (multiply (Real (fl (4 / 10))) (minus m d)) in quotient (Real 1) (root (plus (multiply (Real C0) x) (multiply (multiply (Real G0) x) x))).
Proof. intros. unfold snr_f. rewrite c0_val. unfold literal. rewrite fl_0039. reflexivity. Qed.
Lemma radicand : forall a b, nn a -> at_most a b ->
  let r x := plus (multiply (Real C0) x) (multiply (multiply (Real G0) x) x) in nn (r a) /\ at_most (r a) (r b).
Proof.
  intros a b A C r. destruct (quad_mono G0 a b G0_pos A C) as [N M]. assert (S1 := scale_nn C0 a C0_pos A). assert (S2 := scale_mono C0 a b C0_pos C).
  split; [apply plus_nn; assumption|apply plus_mono; assumption].
Qed.
Lemma snr_anti : forall P m d m' d', library_power P -> at_most (minus m d) (minus m' d') ->
  nn (snr_f P m' d') /\ at_most (snr_f P m' d') (snr_f P m d).
Proof.
  intros P m d m' d' (_ & PM & PN & _) H. rewrite !snr_unfold. cbv zeta.
  assert (F4 : 0 < fl (4 / 10)) by (apply lit_pos; lra). assert (X := scale_mono _ _ _ F4 H).
  assert (N := PN _ (proj1 (am_refl _ _ X))). assert (M := PM _ _ X).
  destruct (radicand _ _ N M) as [R1 R2]. destruct (root_mono _ _ R1 R2) as [R3 R4]. apply quotient_anti; [lra|exact R3|exact R4].
Qed.
Lemma photo_anti : forall L a b, library_log L -> nn a -> at_most a b ->
  nn (calcPhotometricUncertainty_f L b) /\ at_most (calcPhotometricUncertainty_f L b) (calcPhotometricUncertainty_f L a).
Proof.
  intros L a b (L1 & LI & LM & _) A C. unfold calcPhotometricUncertainty_f, literal.
  destruct (quotient_anti 1 a b ltac:(lra) A C) as [Q1 Q2].
  assert (F25 : 0 < fl (25 / 10)) by (apply lit_pos; lra).
  assert (ONE : forall c, nn c -> at_most (Real 1) (plus (Real 1) c)).
  { intros c N. apply am_trans with (plus (Real 1) (Real 0)).
    - cbn [plus]. rewrite Rplus_0_r. rewrite small_finish; [cbn; lra|apply (format_int 1); lia|rewrite Rabs_R1; lra].
    - apply plus_mono; [cbn; lra|cbn; lra|cbn; lra|exact N]. }
  assert (P := plus_mono (Real 1) _ (Real 1) _ ltac:(cbn; lra) Q1 ltac:(cbn; lra) Q2).
  split; [|apply scale_mono; [exact F25|apply LM; [apply ONE; exact Q1|exact P]]].
  apply scale_nn; [exact F25|]. rewrite <- L1 at 1. apply LM; [cbn; lra|apply ONE; exact Q1].
Qed.
Lemma p2 : forall n, 2 ^ n = bpow radix2 (Z.of_nat n).
Proof. induction n as [|n IH]; [reflexivity|]. rewrite Nat2Z.inj_succ. unfold Z.succ. rewrite bpow_plus_1. rewrite <- IH. reflexivity. Qed.
Lemma bpow_format : forall e, (-1000 <= e <= 1000)%Z -> format (bpow radix2 e).
Proof. intros e E. rewrite <- (Rmult_1_l (bpow radix2 e)). apply (dyadic 1); lia. Qed.
Lemma fb : forall x e, (-1000 <= e <= 1000)%Z -> 0 <= x <= bpow radix2 e -> finish x = Real (fl x) /\ 0 <= fl x <= bpow radix2 e.
Proof.
  intros x e E X. assert (A : 0 <= fl x) by (apply fl_ge_float; [apply format_0|lra]).
  assert (B : fl x <= bpow radix2 e) by (apply fl_le_float; [apply bpow_format; exact E|lra]).
  split; [|lra]. apply finish_real. rewrite Rabs_right by lra. apply Rle_lt_trans with (1 := B). apply bpow_lt. lia.
Qed.
Lemma fbl : forall x a, (-1000 <= a <= 1000)%Z -> bpow radix2 a <= x -> bpow radix2 a <= fl x.
Proof. intros x a E X. apply fl_ge_float; [apply bpow_format; exact E|exact X]. Qed.
Lemma mul_le : forall x y a b, 0 <= x <= bpow radix2 a -> 0 <= y <= bpow radix2 b -> 0 <= x * y <= bpow radix2 (a + b).
Proof. intros x y a b X Y. rewrite bpow_plus. split; [apply Rmult_le_pos; lra|apply Rmult_le_compat; lra]. Qed.
Lemma add_le : forall x y a, 0 <= x <= bpow radix2 a -> 0 <= y <= bpow radix2 a -> 0 <= x + y <= bpow radix2 (a + 1).
Proof. intros x y a X Y. rewrite bpow_plus_1. change (IZR radix2) with 2. lra. Qed.
Lemma div_le : forall x y a b, 0 <= x <= bpow radix2 a -> bpow radix2 b <= y -> 0 <= x / y <= bpow radix2 (a - b).
Proof.
  intros x y a b X Y. assert (B := bpow_gt_0 radix2 b). assert (I := Rinv_0_lt_compat y ltac:(lra)). unfold Zminus. rewrite bpow_plus, bpow_opp. unfold Rdiv.
  split; [apply Rmult_le_pos; lra|]. apply Rmult_le_compat; try lra. apply Rinv_le_contravar; lra.
Qed.
Lemma up : forall x a b, (a <= b)%Z -> 0 <= x <= bpow radix2 a -> 0 <= x <= bpow radix2 b.
Proof. intros x a b H X. assert (B := bpow_le radix2 a b H). lra. Qed.
Lemma e0 : bpow radix2 0 = 1. Proof. reflexivity. Qed.
Lemma lit_range : forall x k, / 512 <= x <= bpow radix2 k -> (0 <= k <= 100)%Z -> 0 < fl x <= bpow radix2 k.
Proof. intros x k X K. split; [apply lit_pos; lra|]. apply fl_le_float; [apply bpow_format; lia|lra]. Qed.

Lemma K_pos : forall s, / 2 ^ 100 <= s <= 2 ^ 100 -> exists k, 0 < k /\ multiply (literal (6 / 10)) (multiply (Real s) (Real 1000)) = Real k.
Proof.
  intros s S. rewrite p2 in S. change (Z.of_nat 100) with 100%Z in S. rewrite <- bpow_opp in S. assert (B := bpow_gt_0 radix2 (- (100))).
  unfold literal. cbn [multiply]. assert (T : 1000 <= bpow radix2 10) by (cbn; lra).
  assert (X : 0 <= s * 1000 <= bpow radix2 110) by (change 110%Z with (100 + 10)%Z; apply mul_le; lra).
  destruct (fb _ 110 ltac:(lia) X) as [-> Y]. cbn [multiply].
  assert (Z1 := fbl (s * 1000) (- (100)) ltac:(lia) ltac:(lra)).
  assert (H6 : / 2 <= fl (6 / 10)) by (replace (/ 2) with (bpow radix2 (-1)) by (cbn; lra); apply fbl; [lia|cbn; lra]).
  assert (L6 := lit_range (6 / 10) 0 ltac:(rewrite e0; lra) ltac:(lia)).
  assert (W := mul_le (fl (6 / 10)) _ 0 110 ltac:(lra) Y). destruct (fb _ (0 + 110) ltac:(lia) W) as [-> V].
  exists (fl (fl (6 / 10) * fl (s * 1000))). split; [|reflexivity].
  apply Rlt_le_trans with (bpow radix2 (- (101))); [apply bpow_gt_0|]. apply fbl; [lia|].
  replace (- (101))%Z with (-1 + - (100))%Z by lia. rewrite bpow_plus. replace (bpow radix2 (-1)) with (/ 2) by (cbn; lra).
  apply Rmult_le_compat; lra.
Qed.
Lemma trail_real : forall dra ddec s t, practical dra ddec s t -> exists x, trail_f (Real dra) (Real ddec) (Real s) (Real t) = Real x /\ 0 <= x <= bpow radix2 301
  /\ (dra = 0 -> ddec = 0 -> x = 0).
Proof.
  intros dra ddec s t (A & B & S & T). rewrite p2 in A, B, S, T. change (Z.of_nat 100) with 100%Z in *. rewrite <- bpow_opp in S.
  assert (SQ : forall v, Rabs v <= bpow radix2 100 -> 0 <= v * v <= bpow radix2 200).
  { intros v V. replace (v * v) with (Rabs v * Rabs v) by (rewrite <- Rabs_mult; apply Rabs_right; apply Rle_ge; apply Rle_0_sqr).
    change 200%Z with (100 + 100)%Z. apply mul_le; split; try exact V; apply Rabs_pos. }
  unfold trail_f. cbn [multiply].
  destruct (fb _ 200 ltac:(lia) (SQ _ A)) as [-> A1]. destruct (fb _ 200 ltac:(lia) (SQ _ B)) as [-> B1]. cbn [plus].
  destruct (fb _ (200 + 1) ltac:(lia) (add_le _ _ 200 A1 B1)) as [-> C1]. cbn [root]. rewrite rltb_nn by lra.
  assert (D : 0 <= sqrt (fl (fl (dra * dra) + fl (ddec * ddec))) <= bpow radix2 101).
  { split; [apply sqrt_pos|]. rewrite <- (sqrt_square (bpow radix2 101)) by apply bpow_ge_0. apply sqrt_le_1; [lra|apply Rle_0_sqr|].
    rewrite <- bpow_plus. apply (up _ (200 + 1)); [lia|exact C1]. }
  destruct (fb _ 101 ltac:(lia) D) as [-> D1]. unfold quotient at 2. destruct (Req_EM_T 24 0); [lra|].
  assert (E1 : 0 <= fl (sqrt (fl (fl (dra * dra) + fl (ddec * ddec)))) / 24 <= bpow radix2 101).
  { change 101%Z with (101 - 0)%Z. apply div_le; [exact D1|rewrite e0; lra]. }
  destruct (fb _ 101 ltac:(lia) E1) as [-> F1]. cbn [multiply].
  destruct (fb _ (101 + 100) ltac:(lia) (mul_le _ _ 101 100 F1 T)) as [-> G1]. cbn [quotient].
  assert (PS := bpow_gt_0 radix2 (- (100))). destruct (Req_EM_T s 0); [lra|].
  destruct (fb _ (101 + 100 - - (100)) ltac:(lia) (div_le _ _ (101 + 100) (- (100)) G1 (proj1 S))) as [-> H1].
  eexists. split; [reflexivity|]. split; [exact H1|]. intros -> ->.
  rewrite !Rmult_0_r, !fl_0, Rplus_0_r, fl_0, sqrt_0, fl_0. unfold Rdiv. rewrite !Rmult_0_l, fl_0, Rmult_0_l, fl_0, Rmult_0_l, fl_0. reflexivity.
Qed.
Lemma loss_real : forall L a b x, library_log L -> 0 <= x <= bpow radix2 301 -> / 512 <= a <= 1 -> / 512 <= b <= 2 ->
  exists l, loss_f L a b (Real x) = Real l /\ 0 <= l /\ (x = 0 -> l = 0).
Proof.
  intros L a b x (L1 & LI & LM & LF) X A B. unfold loss_f, literal. cbn [multiply].
  assert (FA := lit_range a 0 ltac:(rewrite e0; lra) ltac:(lia)). assert (FB := lit_range b 1 ltac:(change (bpow radix2 1) with 2; lra) ltac:(lia)).
  destruct (fb _ (301 + 301) ltac:(lia) (mul_le _ _ 301 301 X X)) as [-> Y]. cbn [multiply].
  destruct (fb _ (0 + (301 + 301)) ltac:(lia) (mul_le (fl a) _ 0 (301 + 301) ltac:(lra) Y)) as [-> N].
  destruct (fb _ (1 + 301) ltac:(lia) (mul_le (fl b) _ 1 301 ltac:(lra) X)) as [-> D]. cbn [plus].
  assert (ONE : 0 <= 1 <= bpow radix2 (1 + 301)) by (split; [lra|]; rewrite <- e0; apply bpow_le; lia).
  destruct (fb _ (1 + 301 + 1) ltac:(lia) (add_le _ _ _ ONE D)) as [-> E]. cbn [quotient].
  assert (E1 : bpow radix2 0 <= fl (1 + fl (fl b * x))) by (apply fbl; [lia|rewrite e0; lra]).
  rewrite e0 in E1. destruct (Req_EM_T (fl (1 + fl (fl b * x))) 0); [lra|].
  destruct (fb _ (0 + (301 + 301) - 0) ltac:(lia) (div_le _ _ (0 + (301 + 301)) 0 N E1)) as [-> Q]. cbn [plus].
  set (q := fl (fl (fl a * fl (x * x)) / fl (1 + fl (fl b * x)))) in *.
  assert (ONE' : 0 <= 1 <= bpow radix2 602) by (split; [lra|]; rewrite <- e0; apply bpow_le; lia).
  destruct (fb _ (602 + 1) ltac:(lia) (add_le _ _ 602 ONE' Q)) as [-> R].
  assert (R1 : bpow radix2 0 <= fl (1 + q)) by (apply fbl; [lia|rewrite e0; lra]). rewrite e0 in R1.
  assert (LT : bpow radix2 (602 + 1) < bpow radix2 1024) by (apply bpow_lt; lia).
  destruct (LF (fl (1 + q)) ltac:(lra)) as (y & LY & YB).
  assert (Y0 : 0 <= y). { assert (M := LM (Real 1) (Real (fl (1 + q))) ltac:(cbn; lra) R1). rewrite L1, LY in M. exact M. }
  rewrite LY. cbn [multiply].
  assert (F1 := lit_range (125 / 100) 1 ltac:(change (bpow radix2 1) with 2; lra) ltac:(lia)).
  assert (YB' : 0 <= y <= bpow radix2 9) by (split; [lra|]; replace (bpow radix2 9) with 512 by (cbn; lra); lra).
  destruct (fb _ (1 + 9) ltac:(lia) (mul_le (fl (125 / 100)) _ 1 9 ltac:(lra) YB')) as [-> Z1].
  eexists. split; [reflexivity|]. split; [lra|]. intros ->.
  assert (q0 : q = 0). { unfold q. rewrite Rmult_0_r, fl_0, Rmult_0_r, fl_0. unfold Rdiv. rewrite Rmult_0_l. apply fl_0. }
  rewrite q0, Rplus_0_r, fl_1, L1 in LY. injection LY as <-. rewrite Rmult_0_r. apply fl_0.
Qed.
Lemma loss_nn : forall L md dra ddec s t, library_log L -> practical dra ddec s t ->
  exists l, calcTrailingLoss_f L md (Real dra) (Real ddec) (Real s) (Real t) = Real l /\ 0 <= l /\ (dra = 0 -> ddec = 0 -> l = 0).
Proof.
  intros L md dra ddec s t LL P. destruct (trail_real _ _ _ _ P) as (x & E & X & Z). unfold calcTrailingLoss_f. rewrite E.
  destruct md; [destruct (loss_real L (761 / 1000) (1162 / 1000) x LL X ltac:(lra) ltac:(lra)) as (l & -> & N & Z')
               |destruct (loss_real L (420 / 1000) (3 / 1000) x LL X ltac:(lra) ltac:(lra)) as (l & -> & N & Z')];
    exists l; (split; [reflexivity|]; split; [exact N|]); intros A B; apply Z', Z; assumption.
Qed.

(** ** Rows *)
Lemma astro_order : forall P s k m d m' d', library_power P -> / 2 ^ 100 <= s <= 2 ^ 100 -> 0 < k -> at_most (minus m d) (minus m' d') ->
  let e m d := multiply (fst (calcAstrometricUncertainty_f P m d (multiply (Real s) (Real 1000)))) (Real k) in
  at_most (e m d) (e m' d') /\ forall f, binary64 f -> f <= 10 * k -> at_most (Real f) (e m d).
Proof.
  intros P s k m d m' d' LP S K H e. destruct (K_pos s S) as (w & W & E).
  destruct (snr_anti P m d m' d' LP H) as [N M]. destruct (snr_anti P m d m d LP (proj1 (am_refl _ _ H))) as [N' _].
  assert (F : forall a, nn a -> nn (random_error_f (multiply (Real s) (Real 1000)) a)).
  { intros a A. unfold random_error_f. rewrite E. apply (quotient_anti w a a W A (proj2 (am_refl _ _ A))). }
  assert (G : at_most (random_error_f (multiply (Real s) (Real 1000)) (snr_f P m d)) (random_error_f (multiply (Real s) (Real 1000)) (snr_f P m' d'))).
  { unfold random_error_f. rewrite E. apply (quotient_anti w _ _ W N M). }
  assert (T : multiply (Real 10) (Real 10) = Real 100).
  { cbn [multiply]. replace (10 * 10) with 100 by ring. apply small_finish; [apply (format_int 100); lia|rewrite Rabs_right; lra]. }
  assert (COM : forall a, multiply a (Real k) = multiply (Real k) a).
  { intros [?|x|[|]|]; cbn [multiply]; try reflexivity. rewrite Rmult_comm. reflexivity. }
  unfold e, calcAstrometricUncertainty_f. cbn [fst]. rewrite T, !COM.
  destruct (square_mono _ _ (F _ N') G) as [Q1 Q2].
  assert (H1 : nn (Real 100)) by (cbn; lra). assert (H2 : at_most (Real 100) (Real 100)) by (cbn; lra).
  assert (PM := plus_mono _ _ _ _ H1 Q1 H2 Q2). assert (PN := plus_nn _ _ H1 Q1).
  destruct (root_mono _ _ PN PM) as [_ RM]. split; [apply scale_mono; assumption|].
  intros f [FF FT] B. apply am_trans with (multiply (Real k) (root (Real 100))).
  - cbn [root]. rewrite rltb_nn by lra. replace 100 with (10 * 10) by ring. rewrite sqrt_square by lra.
    rewrite (small_finish 10); [|apply (format_int 10); lia|rewrite Rabs_right; lra]. cbn [multiply].
    apply am_trans with (finish f).
    + rewrite finish_real; rewrite fl_float by exact FF; [cbn; lra|exact FT].
    + apply fin_mono. lra.
  - apply scale_mono; [exact K|]. apply root_mono; [exact H1|].
    apply am_trans with (plus (Real 100) (Real 0)).
    + cbn [plus]. rewrite Rplus_0_r. rewrite small_finish; [cbn; lra|apply (format_int 100); lia|rewrite Rabs_right; lra].
    + apply plus_mono; [exact H1|cbn; lra|exact H2|exact Q1].
Qed.
Lemma real_minus : forall m d m' d', m <= m' -> d' <= d -> at_most (minus (Real m) (Real d)) (minus (Real m') (Real d')).
Proof. intros. cbn [minus plus]. apply fin_mono. lra. Qed.
Lemma shifted_minus : forall a b d d', at_most a b -> d' <= d -> at_most (minus a (Real d)) (minus b (Real d')).
Proof.
  intros a b d d' H D. destruct a as [?|x|[|]|]; destruct b as [?|y|[|]|]; cbn [at_most] in H; try contradiction; cbn [minus plus]; auto.
  - apply fin_mono. lra.
  - destruct (finish_cases (x + - d)) as [[-> _]|[-> _]]; cbn; auto. destruct (rltb _ 0); auto.
  - destruct (finish_cases (y + - d')) as [[-> _]|[-> _]]; cbn; auto.
Qed.
Definition lost (L : cell -> cell) (on : bool) (dra ddec s t m : R) : cell :=
  plus (Real m) (if on then calcTrailingLoss_f L true (Real dra) (Real ddec) (Real s) (Real t) else Real 0).
Lemma lost_order : forall L on dra ddec s t m m', library_log L -> practical dra ddec s t -> m <= m' ->
  at_most (lost L on dra ddec s t m) (lost L on dra ddec s t m') /\ at_most (lost L false dra ddec s t m) (lost L on dra ddec s t m)
  /\ (dra = 0 -> ddec = 0 -> lost L on dra ddec s t m = lost L false dra ddec s t m).
Proof.
  intros L on dra ddec s t m m' LL P M. destruct (loss_nn L true _ _ _ _ LL P) as (l & E & N & Z). unfold lost. rewrite E.
  destruct on; cbn [plus]; (split; [apply fin_mono; lra|]; split; [apply fin_mono; lra|]); [|reflexivity].
  intros A B. rewrite (Z A B). reflexivity.
Qed.

Lemma C109_order_proof : forall P L k on dra ddec s t m p d m' p' d', library_power P -> library_log L -> 0 < k -> practical dra ddec s t ->
  m <= m' -> p <= p' -> d' <= d ->
  let r := addUncertainties_f P L k on (Real dra) (Real ddec) (Real s) (Real t) (Real m) (Real p) (Real d) in
  let r' := addUncertainties_f P L k on (Real dra) (Real ddec) (Real s) (Real t) (Real m') (Real p') (Real d') in
  at_most (Real 0) (SNRTrailedSourceMag r') /\ at_most (SNRTrailedSourceMag r') (SNRTrailedSourceMag r)
  /\ at_most (Real 0) (SNRPSFMag r') /\ at_most (SNRPSFMag r') (SNRPSFMag r)
  /\ at_most (Real 0) (trailedSourceMagSigma r) /\ at_most (trailedSourceMagSigma r) (trailedSourceMagSigma r')
  /\ at_most (Real 0) (PSFMagSigma r) /\ at_most (PSFMagSigma r) (PSFMagSigma r')
  /\ at_most (astrometricSigma_deg r) (astrometricSigma_deg r').
Proof.
  intros P L k on dra ddec s t m p d m' p' d' LP LL K PR M Q D r r'.
  destruct (lost_order L on dra ddec s t m m' LL PR M) as [O _]. fold (lost L on dra ddec s t m) in r. fold (lost L on dra ddec s t m') in r'.
  assert (O1 := shifted_minus _ _ d d' O D). assert (O2 := real_minus p d p' d' Q D).
  destruct (snr_anti P _ _ _ _ LP O1) as [A1 A2]. destruct (snr_anti P _ _ _ _ LP O2) as [B1 B2].
  destruct (photo_anti L _ _ LL A1 A2) as [C1 C2]. destruct (photo_anti L _ _ LL B1 B2) as [D1 D2].
  destruct (astro_order P s k _ _ _ _ LP (proj1 (proj2 (proj2 PR))) K O1) as [E1 _].
  unfold r, r', addUncertainties_f. cbn [SNRTrailedSourceMag SNRPSFMag trailedSourceMagSigma PSFMagSigma astrometricSigma_deg calcAstrometricUncertainty_f snd].
  repeat split; assumption.
Qed.
Lemma C109_floor_proof : forall P L k on dra ddec s t m p d f, library_power P -> library_log L -> 0 < k -> practical dra ddec s t ->
  binary64 f -> f <= 10 * k ->
  at_most (Real f) (astrometricSigma_deg (addUncertainties_f P L k on (Real dra) (Real ddec) (Real s) (Real t) (Real m) (Real p) (Real d))).
Proof.
  intros P L k on dra ddec s t m p d f LP LL K PR F B. destruct (lost_order L on dra ddec s t m m LL PR ltac:(lra)) as [O _].
  apply (proj2 (astro_order P s k _ _ _ _ LP (proj1 (proj2 (proj2 PR))) K (shifted_minus _ _ d d O ltac:(lra))) f F B).
Qed.
Lemma C109_losses_proof : forall P L k dra ddec s t m p d, library_power P -> library_log L -> 0 < k -> practical dra ddec s t ->
  let on := addUncertainties_f P L k true (Real dra) (Real ddec) (Real s) (Real t) (Real m) (Real p) (Real d) in
  let off := addUncertainties_f P L k false (Real dra) (Real ddec) (Real s) (Real t) (Real m) (Real p) (Real d) in
  at_most (SNRTrailedSourceMag on) (SNRTrailedSourceMag off) /\ at_most (trailedSourceMagSigma off) (trailedSourceMagSigma on)
  /\ at_most (astrometricSigma_deg off) (astrometricSigma_deg on) /\ SNRPSFMag on = SNRPSFMag off /\ PSFMagSigma on = PSFMagSigma off
  /\ (dra = 0 -> ddec = 0 -> on = off).
Proof.
  intros P L k dra ddec s t m p d LP LL K PR on off. destruct (lost_order L true dra ddec s t m m LL PR ltac:(lra)) as (_ & O & Z).
  assert (O1 := shifted_minus _ _ d d O ltac:(lra)). destruct (snr_anti P _ _ _ _ LP O1) as [A1 A2]. destruct (photo_anti L _ _ LL A1 A2) as [C1 C2].
  destruct (astro_order P s k _ _ _ _ LP (proj1 (proj2 (proj2 PR))) K O1) as [E1 _].
  split; [exact A2|]. split; [exact C2|]. split; [exact E1|]. split; [reflexivity|]. split; [reflexivity|].
  intros A B. specialize (Z A B). unfold lost in Z. unfold on, off, addUncertainties_f. rewrite Z. reflexivity.
Qed.
Lemma C109_loss_proof : forall L trailed dra ddec s t, library_log L -> practical dra ddec s t ->
  exists l, calcTrailingLoss_f L trailed (Real dra) (Real ddec) (Real s) (Real t) = Real l /\ 0 <= l /\ (dra = 0 -> ddec = 0 -> l = 0).
Proof. exact loss_nn. Qed.

Lemma five : forall P m, library_power P -> snr_f P (Real m) (Real m) = Real 5.
Proof.
  intros P m (P0 & _). rewrite snr_unfold. cbv zeta. cbn [minus plus].
  replace (m + - m) with 0 by ring. rewrite (small_finish 0); [|apply format_0|rewrite Rabs_R0; lra]. cbn [multiply].
  rewrite Rmult_0_r. rewrite (small_finish 0); [|apply format_0|rewrite Rabs_R0; lra]. rewrite P0. cbn [multiply].
  assert (FC : format C0). { unfold C0. replace (144115188075856 / 144115188075855872) with (IZR 144115188075856 * bpow radix2 (-57)) by (cbn; lra). apply dyadic; lia. }
  assert (FG : format G0). { unfold G0. replace (5620492334958379 / 144115188075855872) with (IZR 5620492334958379 * bpow radix2 (-57)) by (cbn; lra). apply dyadic; lia. }
  rewrite !Rmult_1_r. rewrite (small_finish C0); [|exact FC|unfold C0; rewrite Rabs_right; lra].
  rewrite (small_finish G0); [|exact FG|unfold G0; rewrite Rabs_right; lra]. cbn [multiply]. rewrite Rmult_1_r.
  rewrite (small_finish G0); [|exact FG|unfold G0; rewrite Rabs_right; lra]. cbn [plus].
  set (V := 5764607523034235 / 144115188075855872). replace (C0 + G0) with V by (unfold V, C0, G0; lra).
  assert (FV : format V). { unfold V. replace (5764607523034235 / 144115188075855872) with (IZR 5764607523034235 * bpow radix2 (-57)) by (cbn; lra). apply dyadic; lia. }
  rewrite (small_finish V); [|exact FV|unfold V; rewrite Rabs_right; lra]. cbn [root]. rewrite rltb_nn by (unfold V; lra).
  assert (SV : 14411518807585587 / 72057594037927936 < sqrt V < 14411518807585589 / 72057594037927936).
  { split; [rewrite <- (sqrt_square (14411518807585587 / 72057594037927936)) by lra|rewrite <- (sqrt_square (14411518807585589 / 72057594037927936)) by lra];
    apply sqrt_lt_1_alt; unfold V; lra. }
  assert (E2 : fl (sqrt V) = 7205759403792794 / 36028797018963968).
  { rewrite (fl_at _ (-2) 7205759403792794); [|lia| |].
    - replace (bpow radix2 (-2 - 53)) with (/ 36028797018963968) by (cbn; lra). lra.
    - replace (bpow radix2 (-2 - 1)) with (/ 8) by (cbn; lra). replace (bpow radix2 (-2)) with (/ 4) by (cbn; lra). rewrite Rabs_right; lra.
    - replace (bpow radix2 (53 - -2)) with 36028797018963968 by (cbn; lra). apply Rabs_lt. lra. }
  rewrite finish_real; rewrite E2; [|rewrite Rabs_right by lra; assert (T := top_big); lra]. cbn [quotient].
  destruct (Req_EM_T (7205759403792794 / 36028797018963968) 0); [lra|].
  assert (E5 : fl (1 / (7205759403792794 / 36028797018963968)) = 5).
  { replace (1 / (7205759403792794 / 36028797018963968)) with (36028797018963968 / 7205759403792794) by field. rewrite (fl_at _ 3 (5 * 1125899906842624)); [|lia| |].
    - rewrite mult_IZR. replace (bpow radix2 (3 - 53)) with (/ 1125899906842624) by (cbn; lra). lra.
    - replace (bpow radix2 (3 - 1)) with 4 by (cbn; lra). replace (bpow radix2 3) with 8 by (cbn; lra). rewrite Rabs_right; lra.
    - rewrite mult_IZR. replace (bpow radix2 (53 - 3)) with 1125899906842624 by (cbn; lra). apply Rabs_lt. lra. }
  rewrite finish_real; rewrite E5; [reflexivity|]. rewrite Rabs_right by lra. assert (T := top_big). lra.
Qed.
Lemma C109_five_proof : forall P L k on dra ddec s t m p d, library_power P -> library_log L -> practical dra ddec s t ->
  (p = d -> SNRPSFMag (addUncertainties_f P L k on (Real dra) (Real ddec) (Real s) (Real t) (Real m) (Real p) (Real d)) = Real 5)
  /\ (m = d -> binary64 m -> (on = false \/ dra = 0 /\ ddec = 0) ->
      SNRTrailedSourceMag (addUncertainties_f P L k on (Real dra) (Real ddec) (Real s) (Real t) (Real m) (Real p) (Real d)) = Real 5).
Proof.
  intros P L k on dra ddec s t m p d LP LL PR. split.
  - intros ->. apply five. exact LP.
  - intros -> [FF FT] H. unfold addUncertainties_f. cbn [SNRTrailedSourceMag calcAstrometricUncertainty_f snd].
    fold (lost L on dra ddec s t d). destruct (lost_order L on dra ddec s t d d LL PR ltac:(lra)) as (_ & _ & Z).
    assert (E : lost L on dra ddec s t d = lost L false dra ddec s t d) by (destruct H as [->|[A B]]; [reflexivity|apply Z; assumption]).
    rewrite E. unfold lost. cbn [plus]. rewrite Rplus_0_r, finish_real; rewrite fl_float by exact FF; [|exact FT]. apply five. exact LP.
Qed.

(** ** Practical magnitudes *)
Lemma ten42 : 10 ^ 42 <= bpow radix2 140 /\ bpow radix2 (- (140)) <= / 10 ^ 42.
Proof.
  assert (H : 10 ^ 42 <= bpow radix2 140) by (change (bpow radix2 140) with (IZR (Z.pow_pos 2 140)); lra).
  split; [exact H|]. rewrite bpow_opp. apply Rinv_le_contravar; [lra|exact H].
Qed.
Lemma snr_real : forall P m d, library_power P -> Rabs (m - d) <= 100 -> exists v, snr_f P (Real m) (Real d) = Real v /\ bpow radix2 (- (145)) <= v.
Proof.
  intros P m d (_ & _ & _ & PB) H. rewrite snr_unfold. cbv zeta. cbn [minus plus].
  destruct (fl_within (m + - d) 100 ltac:(lia) H) as [H1 ->]. cbn [multiply].
  assert (F4 : / 4 <= fl (4 / 10) <= 41 / 100).
  { split.
    - apply fl_ge_float; [replace (/ 4) with (bpow radix2 (-2)) by (cbn; lra); apply bpow_format; lia|lra].
    - apply Rle_trans with (13 / 32); [|lra]. apply fl_le_float; [|lra]. replace (13 / 32) with (IZR 13 * bpow radix2 (-5)) by (cbn; lra). apply dyadic; lia. }
  assert (H2 : Rabs (fl (4 / 10) * fl (m + - d)) <= 41).
  { rewrite Rabs_mult, (Rabs_right (fl (4 / 10))) by lra. apply Rle_trans with (41 / 100 * 100); [|lra]. apply Rmult_le_compat; try lra. apply Rabs_pos. }
  destruct (fl_within _ 41 ltac:(lia) H2) as [H3 ->]. destruct (PB _ H3) as (y & -> & Y). destruct ten42 as [T1 T2].
  assert (Y1 : 0 <= y <= bpow radix2 140) by (assert (B := bpow_gt_0 radix2 (- (140))); lra). cbn [multiply].
  assert (RC : 0 <= C0 <= bpow radix2 0) by (rewrite e0; unfold C0; lra). assert (RG : 0 <= G0 <= bpow radix2 0) by (rewrite e0; unfold G0; lra).
  destruct (fb _ (0 + 140) ltac:(lia) (mul_le _ _ 0 140 RC Y1)) as [-> A]. destruct (fb _ (0 + 140) ltac:(lia) (mul_le _ _ 0 140 RG Y1)) as [-> B]. cbn [multiply].
  destruct (fb _ (0 + 140 + 140) ltac:(lia) (mul_le _ _ (0 + 140) 140 B Y1)) as [-> D]. cbn [plus].
  assert (A' := up _ (0 + 140) (0 + 140 + 140) ltac:(lia) A). destruct (fb _ (0 + 140 + 140 + 1) ltac:(lia) (add_le _ _ _ A' D)) as [-> E].
  assert (LB : bpow radix2 (- (150)) <= fl (C0 * y)).
  { apply fbl; [lia|]. replace (- (150))%Z with (- (10) + - (140))%Z by lia. rewrite bpow_plus.
    apply Rmult_le_compat; try apply bpow_ge_0; [|lra]. replace (bpow radix2 (- (10))) with (/ 1024) by (cbn; lra). unfold C0. lra. }
  assert (LS : bpow radix2 (- (150)) <= fl (fl (C0 * y) + fl (fl (G0 * y) * y))) by (apply fbl; [lia|lra]).
  cbn [root]. rewrite rltb_nn by lra. set (w := fl (fl (C0 * y) + fl (fl (G0 * y) * y))) in *.
  assert (SQ : bpow radix2 (- (75)) <= sqrt w <= bpow radix2 141).
  { split.
    - rewrite <- (sqrt_square (bpow radix2 (- (75)))) by apply bpow_ge_0. rewrite <- bpow_plus. apply sqrt_le_1; [apply bpow_ge_0|lra|exact LS].
    - rewrite <- (sqrt_square (bpow radix2 141)) by apply bpow_ge_0. rewrite <- bpow_plus. apply sqrt_le_1; [lra|apply bpow_ge_0|]. apply (up _ (0 + 140 + 140 + 1)); [lia|exact E]. }
  assert (B75 := bpow_gt_0 radix2 (- (75))). destruct (fb (sqrt w) 141 ltac:(lia) ltac:(lra)) as [-> R]. assert (R1 := fbl (sqrt w) (- (75)) ltac:(lia) (proj1 SQ)). cbn [quotient].
  destruct (Req_EM_T (fl (sqrt w)) 0); [lra|].
  assert (ONE : 0 <= 1 <= bpow radix2 0) by (rewrite e0; lra).
  destruct (fb _ (0 - - (75)) ltac:(lia) (div_le 1 _ 0 (- (75)) ONE R1)) as [-> Q].
  eexists. split; [reflexivity|]. apply fbl; [lia|]. apply Rle_trans with (/ bpow radix2 141); [rewrite <- bpow_opp; apply bpow_le; lia|].
  unfold Rdiv. rewrite Rmult_1_l. apply Rinv_le_contravar; lra.
Qed.
Lemma photo_real : forall L v, library_log L -> bpow radix2 (- (145)) <= v -> exists e, calcPhotometricUncertainty_f L (Real v) = Real e /\ 0 <= e.
Proof.
  intros L v LL V. assert (B := bpow_gt_0 radix2 (- (145))). assert (NV : nn (Real v)) by (cbn; lra).
  destruct (photo_anti L (Real v) (Real v) LL NV ltac:(cbn; lra)) as [N _]. revert N. unfold calcPhotometricUncertainty_f, literal. cbn [quotient].
  destruct (Req_EM_T v 0); [lra|]. assert (ONE : 0 <= 1 <= bpow radix2 0) by (rewrite e0; lra).
  destruct (fb _ (0 - - (145)) ltac:(lia) (div_le 1 v 0 (- (145)) ONE V)) as [-> Q]. cbn [plus].
  assert (ONE' : 0 <= 1 <= bpow radix2 (0 - - (145))) by (split; [lra|]; rewrite <- e0; apply bpow_le; lia).
  destruct (fb _ (0 - - (145) + 1) ltac:(lia) (add_le _ _ _ ONE' Q)) as [-> R].
  assert (R1 : bpow radix2 0 <= fl (1 + fl (1 / v))) by (apply fbl; [lia|rewrite e0; lra]). rewrite e0 in R1.
  assert (LT : bpow radix2 (0 - - (145) + 1) < bpow radix2 1024) by (apply bpow_lt; lia).
  destruct LL as (L1 & _ & LM & LF). destruct (LF (fl (1 + fl (1 / v))) ltac:(lra)) as (y & LY & YB). rewrite LY. cbn [multiply].
  assert (Y0 : 0 <= y). { assert (M := LM (Real 1) (Real (fl (1 + fl (1 / v)))) ltac:(cbn; lra) R1). rewrite L1, LY in M. exact M. }
  assert (F := lit_range (25 / 10) 2 ltac:(change (bpow radix2 2) with 4; lra) ltac:(lia)).
  assert (YB' : 0 <= y <= bpow radix2 9) by (split; [lra|]; replace (bpow radix2 9) with 512 by (cbn; lra); lra).
  destruct (fb _ (2 + 9) ltac:(lia) (mul_le (fl (25 / 10)) _ 2 9 ltac:(lra) YB')) as [-> Z1]. intros _. eexists. split; [reflexivity|lra].
Qed.
Lemma C109_finite_proof : forall P L k on dra ddec s t m p d, library_power P -> library_log L -> practical dra ddec s t -> Rabs (p - d) <= 100 ->
  let r := addUncertainties_f P L k on (Real dra) (Real ddec) (Real s) (Real t) (Real m) (Real p) (Real d) in
  (exists v e, SNRPSFMag r = Real v /\ 0 < v /\ PSFMagSigma r = Real e /\ 0 <= e)
  /\ (binary64 m -> Rabs (m - d) <= 100 -> on = false \/ dra = 0 /\ ddec = 0 ->
      exists v e, SNRTrailedSourceMag r = Real v /\ 0 < v /\ trailedSourceMagSigma r = Real e /\ 0 <= e).
Proof.
  intros P L k on dra ddec s t m p d LP LL PR H r. assert (B := bpow_gt_0 radix2 (- (145))).
  assert (K : forall q, Rabs (q - d) <= 100 -> exists v e, snr_f P (Real q) (Real d) = Real v /\ 0 < v /\ calcPhotometricUncertainty_f L (snr_f P (Real q) (Real d)) = Real e /\ 0 <= e).
  { intros q Hq. destruct (snr_real P q d LP Hq) as (v & E & V). destruct (photo_real L v LL V) as (e & E' & N). exists v, e. rewrite E. repeat split; auto. lra. }
  split; [exact (K p H)|]. intros [FF FT] Hm C. unfold r, addUncertainties_f. cbn [SNRTrailedSourceMag trailedSourceMagSigma calcAstrometricUncertainty_f snd].
  fold (lost L on dra ddec s t m). destruct (lost_order L on dra ddec s t m m LL PR ltac:(lra)) as (_ & _ & Z).
  assert (E : lost L on dra ddec s t m = Real m).
  { transitivity (lost L false dra ddec s t m); [destruct C as [->|[A1 A2]]; [reflexivity|apply Z; assumption]|].
    unfold lost. cbn [plus]. rewrite Rplus_0_r, finish_real; rewrite fl_float by exact FF; [reflexivity|exact FT]. }
  rewrite E. exact (K m Hm).
Qed.

(** ** Libraries that meet the hypotheses *)
Definition rounded_power (c : cell) : cell :=
  match c with Real x => finish (Rpower 10 x) | Inf true => Real 0 | Inf false => Inf false | _ => Nan end.
Definition rounded_log (c : cell) : cell :=
  match c with Real x => finish (ln x / ln 10) | Inf false => Inf false | _ => Nan end.
Lemma Rpower_pos : forall x, 0 < Rpower 10 x. Proof. intro x. apply exp_pos. Qed.
Lemma rounded_power_library : library_power rounded_power.
Proof.
  split; [|split; [|split]].
  - cbn. rewrite Rpower_O by lra. apply small_finish; [apply (format_int 1); lia|rewrite Rabs_R1; lra].
  - assert (N : forall x, nn (finish (Rpower 10 x))) by (intro x; apply nn_finish; left; apply Rpower_pos).
    assert (U : forall x, at_most (finish (Rpower 10 x)) (Inf false)) by (intro x; apply fin_inf; left; apply Rpower_pos).
    intros [?|x|[|]|] [?|y|[|]|] H; cbn [at_most] in H; try contradiction; cbn [rounded_power]; auto; try (cbn; lra).
    apply fin_mono. apply Rle_Rpower; lra.
  - intros [?|x|[|]|] H; cbn [at_most] in H; try contradiction; cbn [rounded_power]; [apply nn_finish; left; apply Rpower_pos|cbn; lra|exact I].
  - intros x X. apply Rabs_le_inv in X. cbn [rounded_power].
    assert (A : Rpower 10 x <= 10 ^ 41). { rewrite <- Rpower_pow by lra. apply Rle_Rpower; [lra|]. cbn. lra. }
    assert (B : / 10 ^ 41 <= Rpower 10 x). { rewrite <- Rpower_pow by lra. rewrite <- Rpower_Ropp. apply Rle_Rpower; [lra|]. cbn. lra. }
    assert (B1 : 10 ^ 41 <= bpow radix2 137) by (change (bpow radix2 137) with (IZR (Z.pow_pos 2 137)); lra).
    assert (B2 : bpow radix2 137 <= 10 ^ 42) by (change (bpow radix2 137) with (IZR (Z.pow_pos 2 137)); lra).
    assert (B3 : bpow radix2 (- (137)) <= / 10 ^ 41) by (rewrite bpow_opp; apply Rinv_le_contravar; lra).
    assert (B4 : / 10 ^ 42 <= bpow radix2 (- (137))) by (rewrite bpow_opp; apply Rinv_le_contravar; [apply bpow_gt_0|lra]).
    assert (G := bpow_gt_0 radix2 (- (137))).
    destruct (fb (Rpower 10 x) 137 ltac:(lia) ltac:(lra)) as [-> F]. assert (L := fbl (Rpower 10 x) (- (137)) ltac:(lia) ltac:(lra)).
    eexists. split; [reflexivity|]. lra.
Qed.
Lemma ln10_pos : 0 < ln 10. Proof. rewrite <- ln_1. apply ln_increasing; lra. Qed.
Lemma log_mono : forall x y, 0 < x <= y -> ln x / ln 10 <= ln y / ln 10.
Proof. intros x y H. apply Rmult_le_compat_r; [left; apply Rinv_0_lt_compat; apply ln10_pos|]. destruct (Req_dec x y) as [->|N]; [lra|]. left. apply ln_increasing; lra. Qed.
Lemma rounded_log_library : library_log rounded_log.
Proof.
  split; [|split; [reflexivity|split]].
  - cbn. rewrite ln_1. unfold Rdiv. rewrite Rmult_0_l. apply small_finish; [apply format_0|rewrite Rabs_R0; lra].
  - assert (P : forall x, 1 <= x -> 0 <= ln x / ln 10).
    { intros x X. apply Rle_trans with (ln 1 / ln 10); [rewrite ln_1; unfold Rdiv; lra|apply log_mono; lra]. }
    intros [?|x|[|]|] [?|y|[|]|] A H; cbn [at_most] in H, A; try contradiction; cbn [rounded_log]; auto.
    + apply fin_mono. apply log_mono. lra.
    + apply fin_inf. apply P. exact A.
  - intros x [X1 X2]. cbn [rounded_log].
    assert (A : ln x / ln 10 <= 309).
    { apply Rle_trans with (ln (10 ^ 309) / ln 10).
      - apply log_mono. assert (T := top_small). lra.
      - rewrite ln_pow by lra. replace (INR 309) with 309 by (rewrite INR_IZR_INZ; reflexivity). assert (L := ln10_pos). right. field. lra. }
    assert (B : 0 <= ln x / ln 10). { apply Rle_trans with (ln 1 / ln 10); [rewrite ln_1; unfold Rdiv; lra|apply log_mono; lra]. }
    destruct (fl_within (ln x / ln 10) 309 ltac:(lia) ltac:(rewrite Rabs_right; lra)) as [W ->]. eexists. split; [reflexivity|].
    apply Rabs_le_inv in W. lra.
Qed.
