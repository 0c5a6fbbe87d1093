(** Proofs about the camera footprint in binary64 arithmetic (C117). *)
From Coq Require Import List Arith Reals ZArith Bool Lra Lia Psatz Permutation.
From Flocq Require Import Core.
From Verif Require Import Base.Prelude Model.LinkingFloat Model.Rounding Model.FadingFloat Model.UncertaintyFloat Model.SeparationFloat Model.Footprint Model.FootprintFloat
  Spec.Rounding Spec.Sphere Spec.Footprint Spec.SeparationFloat Spec.FootprintFloat
  Proofs.LinkingFloat Proofs.Rounding Proofs.FadingFloat Proofs.AngleFloat Proofs.UncertaintyFloat Proofs.UncertaintyClose Proofs.MagnitudeFloat Proofs.Footprint Proofs.SeparationFloat.
Import ListNotations.
Open Scope R_scope.
Local Notation eta := Proofs.Rounding.eta.
Local Notation u := Proofs.UncertaintyClose.u.

(** ** Absolute errors, in units of [u], of numbers with a common factor *)
Definition near (s : R) (c : cell) (v e : R) : Prop := exists y, c = Real (s * y) /\ Rabs (y - v) <= e * u.
Definition scale_ok (s : R) : Prop := / 10 ^ 9 <= s.
Lemma one_ok : scale_ok 1. Proof. unfold scale_ok. lra. Qed.

Lemma scaled_fl : forall s y B, scale_ok s -> 0 <= B -> Rabs y <= B -> s * B <= 2000 ->
  exists y', finish (s * y) = Real (s * y') /\ binary64 (s * y') /\ Rabs (y' - y) <= (B / 8 + / 100) * u.
Proof.
  intros s y B S B0 Y M. unfold scale_ok in S. assert (SP : 0 < s) by lra. assert (U := u_pos). assert (ET := eta_u).
  assert (A : Rabs (s * y) <= s * B) by (rewrite Rabs_mult, (Rabs_right s) by lra; apply Rmult_le_compat_l; lra).
  destruct (fl_real (s * y)) as (F & BB & _); [lra|]. exists (fl (s * y) / s). replace (s * (fl (s * y) / s)) with (fl (s * y)) by (field; lra).
  split; [exact F|]. split; [exact BB|]. assert (E := fl_u (s * y)). replace (fl (s * y) / s - y) with ((fl (s * y) - s * y) * / s) by (field; lra).
  rewrite Rabs_mult, (Rabs_right (/ s)) by (apply Rle_ge, Rlt_le, Rinv_0_lt_compat; lra).
  assert (I : / s <= 10 ^ 9) by (rewrite <- (Rinv_inv (10 ^ 9)); apply Rinv_le_contravar; lra).
  assert (I0 : 0 < / s) by (apply Rinv_0_lt_compat; lra).
  apply Rle_trans with ((u / 8 * (s * B) + eta) * / s).
  - apply Rmult_le_compat_r; [lra|]. apply Rle_trans with (1 := E). apply Rplus_le_compat_r. apply Rmult_le_compat_l; lra.
  - replace ((u / 8 * (s * B) + eta) * / s) with (u / 8 * B + eta * / s) by (field; lra).
    assert (H : eta * / s <= u * u / 1000000 * 10 ^ 9) by (apply Rmult_le_compat; lra).
    assert (UU : u * u <= u / 10 ^ 15) by (unfold u; lra). lra.
Qed.
Lemma near_round : forall s y v e B, scale_ok s -> Rabs (y - v) <= e * u -> 0 <= e <= 10 ^ 9 -> Rabs v <= B -> s * (B + / 100) <= 2000 ->
  near s (finish (s * y)) v (e + B / 8 + / 50).
Proof.
  intros s y v e B S Y EE V M. assert (U := u_pos). assert (B0 := Rabs_pos v). assert (EU : e * u <= / 10 ^ 5).
  { apply Rle_trans with (10 ^ 9 * u); [apply Rmult_le_compat_r; lra|unfold u; lra]. }
  assert (YB : Rabs y <= B + / 100). { replace y with (v + (y - v)) by ring. apply Rle_trans with (1 := Rabs_triang _ _). lra. }
  destruct (scaled_fl s y (B + / 100) S ltac:(lra) YB M) as (y' & F & _ & E). exists y'. split; [exact F|].
  replace (y' - v) with ((y' - y) + (y - v)) by ring. apply Rle_trans with (1 := Rabs_triang _ _). 
  replace ((e + B / 8 + / 50) * u) with ((B / 8 + / 50) * u + e * u) by ring. apply Rplus_le_compat; [|exact Y]. apply Rle_trans with (1 := E). apply Rmult_le_compat_r; lra.
Qed.
Lemma near_weak : forall s c v e f, near s c v e -> e <= f -> near s c v f.
Proof. intros s c v e f (y & E & H) L. exists y. split; [exact E|]. apply Rle_trans with (1 := H). apply Rmult_le_compat_r; [assert (U := u_pos); lra|exact L]. Qed.
Lemma near_value : forall s c v w e f, near s c v e -> Rabs (v - w) <= f * u -> near s c w (e + f).
Proof.
  intros s c v w e f (y & E & H) L. exists y. split; [exact E|]. replace (y - w) with ((y - v) + (v - w)) by ring.
  apply Rle_trans with (1 := Rabs_triang _ _). rewrite Rmult_plus_distr_r. apply Rplus_le_compat; assumption.
Qed.
Lemma near_plus : forall s a b v w e f B g, scale_ok s -> near s a v e -> near s b w f -> 0 <= e -> 0 <= f -> Rabs (v + w) <= B -> s * (B + / 100) <= 2000 ->
  e + f + B / 8 + / 50 <= g -> g <= 10 ^ 9 -> near s (plus a b) (v + w) g.
Proof.
  intros s a b v w e f B g S (y & -> & H) (z & -> & H') E F V M G G'. cbn [plus]. replace (s * y + s * z) with (s * (y + z)) by ring.
  assert (B0 := Rabs_pos (v + w)). apply near_weak with (2 := G). apply near_round; auto; [|lra]. replace (y + z - (v + w)) with ((y - v) + (z - w)) by ring.
  apply Rle_trans with (1 := Rabs_triang _ _). rewrite Rmult_plus_distr_r. apply Rplus_le_compat; assumption.
Qed.
Lemma near_neg : forall s a v e, near s a v e -> near s (negative a) (- v) e.
Proof. intros s a v e (y & -> & H). exists (- y). cbn. split; [f_equal; ring|]. replace (- y - - v) with (- (y - v)) by ring. rewrite Rabs_Ropp. exact H. Qed.
Lemma near_minus : forall s a b v w e f B g, scale_ok s -> near s a v e -> near s b w f -> 0 <= e -> 0 <= f -> Rabs (v - w) <= B -> s * (B + / 100) <= 2000 ->
  e + f + B / 8 + / 50 <= g -> g <= 10 ^ 9 -> near s (minus a b) (v - w) g.
Proof.
  intros s a b v w e f B g S A N E F V M G G'. assert (N' := near_neg _ _ _ _ N). destruct N as (z & -> & H'). cbn [negative] in N'. cbn [minus].
  apply (near_plus s a (Real (- (s * z))) v (- w) e f B g S A N' E F V M G G').
Qed.
Lemma near_mult : forall s t a b v w e f V W g, scale_ok (s * t) -> near s a v e -> near t b w f -> 0 <= e <= 10 ^ 6 -> 0 <= f <= 10 ^ 6 -> Rabs v <= V -> Rabs w <= W ->
  s * t * (V * W + / 100) <= 2000 -> e * W + f * V + V * W / 8 + / 20 <= g -> g <= 10 ^ 9 -> near (s * t) (multiply a b) (v * w) g.
Proof.
  intros s t a b v w e f V W g S (y & -> & H) (z & -> & H') E F HV HW M G G'. cbn [multiply]. replace (s * y * (t * z)) with (s * t * (y * z)) by ring.
  assert (U := u_pos). assert (V0 := Rabs_pos v). assert (W0 := Rabs_pos w). assert (VW : Rabs (v * w) <= V * W) by (rewrite Rabs_mult; apply Rmult_le_compat; lra).
  apply near_weak with (e * W + f * V + / 100 + V * W / 8 + / 50); [|lra]. assert (0 <= e * W) by (apply Rmult_le_pos; lra). assert (0 <= f * V) by (apply Rmult_le_pos; lra).
  assert (0 <= V * W) by (apply Rmult_le_pos; lra).
  apply near_round; auto; [|lra]. replace (y * z - v * w) with ((y - v) * w + v * (z - w) + (y - v) * (z - w)) by ring.
  apply Rle_trans with (1 := Rabs_triang _ _). replace ((e * W + f * V + / 100) * u) with ((e * W + f * V) * u + / 100 * u) by ring. apply Rplus_le_compat.
  - apply Rle_trans with (1 := Rabs_triang _ _). rewrite !Rabs_mult, Rmult_plus_distr_r. apply Rplus_le_compat.
    + replace (e * W * u) with (e * u * W) by ring. apply Rmult_le_compat; try lra; apply Rabs_pos.
    + replace (f * V * u) with (V * (f * u)) by ring. apply Rmult_le_compat; try lra; apply Rabs_pos.
  - rewrite Rabs_mult. apply Rle_trans with (e * u * (f * u)); [apply Rmult_le_compat; try lra; apply Rabs_pos|].
    apply Rle_trans with (10 ^ 6 * u * (10 ^ 6 * u)); [apply Rmult_le_compat; try (apply Rmult_le_pos; lra); apply Rmult_le_compat_r; lra|unfold u; lra].
Qed.
Lemma near_mult1 : forall s a b v w e f V W g, scale_ok s -> near 1 a v e -> near s b w f -> 0 <= e <= 10 ^ 6 -> 0 <= f <= 10 ^ 6 -> Rabs v <= V -> Rabs w <= W ->
  s * (V * W + / 100) <= 2000 -> e * W + f * V + V * W / 8 + / 20 <= g -> g <= 10 ^ 9 -> near s (multiply a b) (v * w) g.
Proof. intros s a b v w e f V W g. intros. rewrite <- (Rmult_1_l s). apply (near_mult 1 s a b v w e f V W g); rewrite ?Rmult_1_l; assumption. Qed.
Lemma near_quot : forall s t a b v w e f m Q g, scale_ok (s / t) -> 0 < t -> near s a v e -> near t b w f -> 0 <= e <= 10 ^ 6 -> 0 <= f <= 10 ^ 6 -> / 1000 <= m -> m <= w -> Rabs (v / w) <= Q ->
  s / t * (Q + / 100) <= 2000 -> (e + Q * f) * (101 / 100) / m + Q / 8 + / 50 <= g -> g <= 10 ^ 9 -> near (s / t) (quotient a b) (v / w) g.
Proof.
  intros s t a b v w e f m Q g S T (y & -> & H) (z & -> & H') E F M MW HQ L G G'. assert (U := u_pos). assert (Q0 := Rabs_pos (v / w)).
  assert (FU : f * u <= / 10 ^ 8). { apply Rle_trans with (10 ^ 6 * u); [apply Rmult_le_compat_r; lra|unfold u; lra]. }
  apply Rabs_le_inv in H'. assert (ZM : m * (100 / 101) <= z) by lra. assert (ZP : 0 < z) by lra.
  cbn [quotient]. destruct (Req_EM_T (t * z) 0) as [N|_]; [exfalso; assert (0 < t * z) by (apply Rmult_lt_0_compat; lra); lra|].
  replace (s * y / (t * z)) with (s / t * (y / z)) by (field; lra).
  assert (K0 : 0 <= (e + Q * f) * (101 / 100) / m). { apply Rmult_le_pos; [|apply Rlt_le, Rinv_0_lt_compat; lra]. apply Rmult_le_pos; [|lra]. assert (0 <= Q * f) by (apply Rmult_le_pos; lra). lra. }
  apply near_weak with (2 := G). apply near_round; auto; [|lra]. replace (y / z - v / w) with (((y - v) + (v / w) * (w - z)) * / z) by (field; lra).
  rewrite Rabs_mult, (Rabs_right (/ z)) by (apply Rle_ge, Rlt_le, Rinv_0_lt_compat; lra).
  replace ((e + Q * f) * (101 / 100) / m * u) with ((e * u + Q * (f * u)) * / (m * (100 / 101))) by (field; lra).
  apply Rmult_le_compat; [apply Rabs_pos|apply Rlt_le, Rinv_0_lt_compat; lra| |apply Rinv_le_contravar; lra].
  apply Rle_trans with (1 := Rabs_triang _ _). apply Rplus_le_compat; [exact H|]. rewrite Rabs_mult. apply Rmult_le_compat; try apply Rabs_pos; [exact HQ|apply Rabs_le; lra].
Qed.
Lemma near_root : forall s a e g, scale_ok s -> s <= 100 -> near (s * s) a 1 e -> 0 <= e <= 10 ^ 6 -> e + / 4 <= g -> g <= 10 ^ 9 -> near s (root a) 1 g.
Proof.
  intros s a e g S S1 (y & -> & H) E G G'. assert (U := u_pos). assert (EU : e * u <= / 10 ^ 8). { apply Rle_trans with (10 ^ 6 * u); [apply Rmult_le_compat_r; lra|unfold u; lra]. }
  assert (H2 := Rabs_le_inv _ _ H). unfold scale_ok in S. cbn [root]. assert (P : 0 <= s * s * y) by (apply Rmult_le_pos; [apply Rmult_le_pos|]; lra).
  unfold rltb. destruct (Rlt_dec (s * s * y) 0) as [N|_]; [lra|]. rewrite sqrt_mult, sqrt_square by (try apply Rmult_le_pos; lra).
  apply near_weak with (e + 1 / 8 + / 50); [|lra]. apply near_round; auto; try lra; [|rewrite Rabs_right; lra].
  apply Rle_trans with (2 := H). assert (SY : 0 <= sqrt y) by apply sqrt_pos. assert (SS : sqrt y * sqrt y = y) by (apply sqrt_sqrt; lra).
  assert (Q : y - 1 = (sqrt y - 1) * (sqrt y + 1)) by lra. rewrite Q, Rabs_mult, (Rabs_right (sqrt y + 1)) by lra.
  assert (A := Rabs_pos (sqrt y - 1)). nra.
Qed.
Lemma near_rescale : forall s t c v e, near (s * t) c v e -> 0 <= t -> near s c (t * v) (t * e).
Proof.
  intros s t c v e (y & -> & H) T. exists (t * y). split; [f_equal; ring|]. replace (t * y - t * v) with (t * (y - v)) by ring. rewrite Rabs_mult, (Rabs_right t) by lra.
  rewrite Rmult_assoc. apply Rmult_le_compat_l; assumption.
Qed.
Lemma near_zero : forall s, near s (Real 0) 0 0.
Proof. intro s. exists 0. split; [f_equal; ring|]. rewrite Rminus_0_r, Rabs_R0. lra. Qed.
Lemma near_self : forall x, near 1 (Real x) x 0.
Proof. intro x. exists x. split; [f_equal; ring|]. unfold Rminus. rewrite Rplus_opp_r, Rabs_R0. lra. Qed.
Lemma mult_zero : forall s a v e, near s a v e -> multiply a (Real 0) = Real 0.
Proof. intros s a v e (y & -> & _). cbn [multiply]. rewrite Rmult_0_r. unfold finish. rewrite fl_0, Rabs_R0. destruct (Rlt_dec _ _) as [_|N]; [reflexivity|]. exfalso. apply N, bpow_gt_0. Qed.

(** ** The projection *)
Lemma cos_close : forall x y, Rabs (cos x - cos y) <= Rabs (x - y).
Proof. intros x y. rewrite <- (sin_shift x), <- (sin_shift y). apply Rle_trans with (1 := sin_close _ _). replace (PI / 2 - x - (PI / 2 - y)) with (- (x - y)) by ring. rewrite Rabs_Ropp. lra. Qed.
Definition angle_near (x v e : R) : Prop := binary64 x /\ Rabs x <= 10 /\ Rabs (x - v) <= e * u.
Lemma degrees_near : forall x, binary64 x -> Rabs x <= 360 -> exists y, deg2rad_f (Real x) = Real y /\ angle_near y (x * PI / 180) (Rabs x / 60 + / 100).
Proof.
  intros x B X. destruct (radians x X) as (E & BY & R). exists (fl (x * k0)). split; [exact E|]. assert (U := u_pos). assert (ET := eta_u). assert (UU : u * u <= u / 10 ^ 15) by (unfold u; lra).
  assert (R' : Rabs (fl (x * k0) - x * PI / 180) <= (Rabs x / 60 + / 100) * u). { apply Rle_trans with (1 := R). lra. }
  split; [exact BY|]. split; [|exact R']. assert (P := pi_machin). unfold P0 in P. assert (U1 : u <= / 1000) by (unfold u; lra).
  replace (fl (x * k0)) with ((fl (x * k0) - x * PI / 180) + x * (PI / 180)) by field. apply Rle_trans with (1 := Rabs_triang _ _). rewrite Rabs_mult, (Rabs_right (PI / 180)) by lra.
  assert (Rabs x * (PI / 180) <= 360 * (PI / 180)) by (apply Rmult_le_compat_r; lra). assert ((Rabs x / 60 + / 100) * u <= 7 * / 1000) by (apply Rmult_le_compat; try lra; assert (Q := Rabs_pos x); lra). lra.
Qed.
Lemma sc_bounds : forall x, Rabs (sin x) <= 1 /\ Rabs (cos x) <= 1 /\ sin x * sin x + cos x * cos x = 1.
Proof. intro x. split; [apply Rabs_le; apply SIN_bound|]. split; [apply Rabs_le; apply COS_bound|]. assert (S := sin2_cos2 x). unfold Rsqr in S. lra. Qed.

Section Projection.
Variables SI CO : cell -> cell.
Hypothesis HS : accurate_sin SI.
Hypothesis HC : accurate_cos CO.
Lemma sine_near : forall x v e, angle_near x v e -> near 1 (SI (Real x)) (sin v) (e + 1).
Proof.
  intros x v e (B & X & H). destruct (HS x B X) as (y & E & R). exists y. rewrite E. split; [f_equal; ring|]. assert (U := u_pos). rewrite u_pow in R. destruct (sc_bounds x) as (S & _ & _).
  replace (y - sin v) with ((sin x - sin v) + (y - sin x)) by ring. apply Rle_trans with (1 := Rabs_triang _ _). rewrite Rmult_plus_distr_r. apply Rplus_le_compat.
  - apply Rle_trans with (2 := H). apply sin_close.
  - apply Rle_trans with (1 := R). rewrite (Rmult_comm 1). apply Rmult_le_compat_l; lra.
Qed.
Lemma cosine_near : forall x v e, angle_near x v e -> near 1 (CO (Real x)) (cos v) (e + 1).
Proof.
  intros x v e (B & X & H). destruct (HC x B X) as (y & E & R). exists y. rewrite E. split; [f_equal; ring|]. assert (U := u_pos). rewrite u_pow in R. destruct (sc_bounds x) as (_ & S & _).
  replace (y - cos v) with ((cos x - cos v) + (y - cos x)) by ring. apply Rle_trans with (1 := Rabs_triang _ _). rewrite Rmult_plus_distr_r. apply Rplus_le_compat.
  - apply Rle_trans with (2 := H). apply cos_close.
  - apply Rle_trans with (1 := R). rewrite (Rmult_comm 1). apply Rmult_le_compat_l; lra.
Qed.

Ltac side := first [assumption|lra|rewrite Rabs_R1; lra|rewrite Rabs_Ropp; assumption|idtac].
Lemma tangent_near : forall ra dec fra fdec a d a0 d0, angle_near ra a 6.1 -> angle_near dec d 1.6 -> angle_near fra a0 6.1 -> angle_near fdec d0 1.6 ->
  / 150 <= cos d0 -> 1 / 2 <= sin d0 * sin d + cos d0 * cos d * cos (a - a0) ->
  exists x y, radec_to_tangent_plane_f SI CO (Real ra) (Real dec) (Real fra) (Real fdec) = (x, y)
    /\ near 1 x (fst (gnomonic a0 d0 a d)) 700 /\ near 1 y (snd (gnomonic a0 d0 a d)) 2000.
Proof.
  intros ra dec fra fdec a d a0 d0 NA ND NA0 ND0 C0 D. cbv beta iota zeta delta [radec_to_tangent_plane_f direction_f cross_f normalized_f dot_f].
  assert (U := u_pos). assert (U1 : u <= / 10 ^ 10) by (unfold u; lra).
  assert (CA := cosine_near _ _ _ NA). assert (SA := sine_near _ _ _ NA). assert (CD := cosine_near _ _ _ ND). assert (SD := sine_near _ _ _ ND).
  assert (CA0 := cosine_near _ _ _ NA0). assert (SA0 := sine_near _ _ _ NA0). assert (CD0 := cosine_near _ _ _ ND0). assert (SD0 := sine_near _ _ _ ND0).
  destruct (sc_bounds a) as (BSA & BCA & QA). destruct (sc_bounds d) as (BSD & BCD & QD). destruct (sc_bounds a0) as (BSA0 & BCA0 & QA0). destruct (sc_bounds d0) as (BSD0 & BCD0 & QD0).
  set (ca := CO (Real ra)) in *. set (sa := SI (Real ra)) in *. set (cd := CO (Real dec)) in *. set (sd := SI (Real dec)) in *.
  set (ca0 := CO (Real fra)) in *. set (sa0 := SI (Real fra)) in *. set (cd0 := CO (Real fdec)) in *. set (sd0 := SI (Real fdec)) in *.
  (* the computed cosine of the field's declination, a common factor *)
  destruct CD0 as (c & Ec & Hc). rewrite Rmult_1_l in Ec. apply Rabs_le_inv in Hc. assert (Hc' : Rabs (c - cos d0) <= 2.6 * u) by (apply Rabs_le; lra).
  assert (CB : / 160 <= c <= 101 / 100). { apply Rabs_le_inv in BCD0. lra. }
  assert (Nc : near c cd0 1 0). { exists 1. split; [rewrite Ec; f_equal; ring|]. unfold Rminus. rewrite Rplus_opp_r, Rabs_R0. lra. }
  assert (OKc : scale_ok c) by (unfold scale_ok; lra). assert (OKcc : scale_ok (c * c)) by (unfold scale_ok; apply Rle_trans with (/ 160 * / 160); [lra|apply Rmult_le_compat; lra]).
  assert (OK1 := one_ok).
  assert (O0 : near 1 (multiply ca cd) (cos a * cos d) 9.9) by (apply (near_mult1 1 ca cd (cos a) (cos d) _ _ 1 1) with (2 := CA) (3 := CD); side).
  assert (O1 : near 1 (multiply sa cd) (sin a * cos d) 9.9) by (apply (near_mult1 1 sa cd (sin a) (cos d) _ _ 1 1) with (2 := SA) (3 := CD); side).
  assert (F0 : near c (multiply ca0 cd0) (cos a0 * 1) 7.3) by (apply (near_mult1 c ca0 cd0 (cos a0) 1 _ _ 1 1) with (2 := CA0) (3 := Nc); side).
  assert (F1 : near c (multiply sa0 cd0) (sin a0 * 1) 7.3) by (apply (near_mult1 c sa0 cd0 (sin a0) 1 _ _ 1 1) with (2 := SA0) (3 := Nc); side).
  rewrite Rmult_1_r in F0, F1.
  set (o0 := multiply ca cd) in *. set (o1 := multiply sa cd) in *. set (f0 := multiply ca0 cd0) in *. set (f1 := multiply sa0 cd0) in *.
  (* the same without the factor *)
  assert (W : forall f v, near c f v 7.3 -> Rabs v <= 1 -> near 1 f (cos d0 * v) 10.1).
  { intros f v N V. rewrite <- (Rmult_1_l c) in N. apply near_rescale in N; [|lra]. apply near_weak with (c * 7.3 + 2.7); [|lra].
    apply near_value with (1 := N). replace (c * v - cos d0 * v) with ((c - cos d0) * v) by ring. rewrite Rabs_mult. assert (Q := Rabs_pos (c - cos d0)). assert (Q' := Rabs_pos v). nra. }
  assert (G0 := W _ _ F0 BCA0). assert (G1 := W _ _ F1 BSA0). clear W.
  assert (NF1 := near_neg _ _ _ _ F1).
  (* the eastward unit vector *)
  assert (SQ : forall f v, near c f v 7.3 -> Rabs v <= 1 -> near (c * c) (multiply f f) (v * v) 14.9).
  { intros f v N V. apply (near_mult c c f f v v _ _ 1 1) with (2 := N) (3 := N); side. nra. }
  assert (X00 := SQ _ _ NF1 ltac:(rewrite Rabs_Ropp; exact BSA0)). assert (X11 := SQ _ _ F0 BCA0).
  assert (XX : near (c * c) (plus (multiply (negative f1) (negative f1)) (multiply f0 f0)) (- sin a0 * - sin a0 + cos a0 * cos a0) 30.1).
  { apply (near_plus (c * c) _ _ _ _ _ _ 1) with (2 := X00) (3 := X11); side. { apply Rabs_le. nra. } nra. }
  replace (- sin a0 * - sin a0 + cos a0 * cos a0) with 1 in XX by lra.
  rewrite (mult_zero _ _ _ _ (near_self 0)), (mult_zero _ _ _ _ F1), (mult_zero _ _ _ _ F0).
  assert (XN : near (c * c) (plus (plus (multiply (negative f1) (negative f1)) (multiply f0 f0)) (Real 0)) (1 + 0) 30.3).
  { apply (near_plus (c * c) _ _ _ _ _ _ 1) with (2 := XX) (3 := near_zero (c * c)); side; [rewrite Rplus_0_r; side|nra]. }
  rewrite Rplus_0_r in XN. apply (near_root c _ _ 30.6) in XN; side.
  set (xn := root _) in XN. assert (CC : c / c = 1) by (field; lra).
  assert (QU : forall f v e n g h, near c f v e -> near c n 1 g -> Rabs v <= 1 -> 0 <= e <= 200 -> 0 <= g <= 200 -> (e + g) * (101 / 100) + 1 / 8 + / 50 <= h -> h <= 1000 -> near 1 (quotient f n) v h).
  { intros f v e n g h N M V Eb Gb H H'. rewrite <- CC. replace v with (v / 1) by field.
    apply (near_quot c c f n v 1 e g 1 1 h); side; try (unfold scale_ok; rewrite CC; lra); replace (v / 1) with v by field; side. }
  assert (EX0 := QU _ _ _ _ _ 38.5 NF1 XN ltac:(rewrite Rabs_Ropp; exact BSA0) ltac:(lra) ltac:(lra) ltac:(lra) ltac:(lra)).
  assert (EX1 := QU _ _ _ _ _ 38.5 F0 XN BCA0 ltac:(lra) ltac:(lra) ltac:(lra) ltac:(lra)).
  assert (EX2 : near 1 (quotient (Real 0) xn) 0 2).
  { rewrite <- CC. replace 0 with (0 / 1) at 2 by field. apply (near_quot c c (Real 0) xn 0 1 0 30.6 1 0 2) with (4 := XN); side; try (unfold scale_ok; rewrite CC; lra); [apply near_zero|replace (0 / 1) with 0 by field; rewrite Rabs_R0; lra]. }
  (* the northward unit vector *)
  assert (SF0 : near c (multiply sd0 f0) (sin d0 * cos a0) 10.1) by (apply (near_mult1 c sd0 f0 (sin d0) (cos a0) _ _ 1 1) with (2 := SD0) (3 := F0); side).
  assert (SF1 : near c (multiply sd0 (negative f1)) (sin d0 * - sin a0) 10.1) by (apply (near_mult1 c sd0 (negative f1) (sin d0) (- sin a0) _ _ 1 1) with (2 := SD0) (3 := NF1); side).
  assert (B1 : Rabs (sin d0 * cos a0) <= 1) by (rewrite Rabs_mult; apply Rle_trans with (1 * 1); [apply Rmult_le_compat; side; apply Rabs_pos|lra]).
  assert (B2 : Rabs (sin d0 * - sin a0) <= 1) by (rewrite Rabs_mult, Rabs_Ropp; apply Rle_trans with (1 * 1); [apply Rmult_le_compat; side; apply Rabs_pos|lra]).
  assert (Y0 : near c (minus (Real 0) (multiply sd0 f0)) (0 - sin d0 * cos a0) 10.3).
  { apply (near_minus c _ _ _ _ _ _ 1) with (2 := near_zero c) (3 := SF0); side. rewrite Rminus_0_l, Rabs_Ropp. exact B1. }
  assert (Y1 : near c (minus (multiply sd0 (negative f1)) (Real 0)) (sin d0 * - sin a0 - 0) 10.3).
  { apply (near_minus c _ _ _ _ _ _ 1) with (2 := SF1) (3 := near_zero c); side. rewrite Rminus_0_r. exact B2. }
  assert (F1N : near (c * c) (multiply f1 (negative f1)) (sin a0 * - sin a0) 14.9).
  { apply (near_mult c c f1 (negative f1) (sin a0) (- sin a0) _ _ 1 1) with (2 := F1) (3 := NF1); side. nra. }
  assert (Y2 : near c (minus (multiply f0 f0) (multiply f1 (negative f1))) (cos d0) 33.2).
  { assert (Z : near (c * c) (minus (multiply f0 f0) (multiply f1 (negative f1))) (cos a0 * cos a0 - sin a0 * - sin a0) 30.2).
    { apply (near_minus (c * c) _ _ _ _ _ _ 1) with (2 := X11) (3 := F1N); side; [apply Rabs_le; nra|nra]. }
    replace (cos a0 * cos a0 - sin a0 * - sin a0) with 1 in Z by lra. apply near_rescale in Z; [|lra]. apply near_weak with (c * 30.2 + 2.6); [|lra].
    apply near_value with (1 := Z). rewrite Rmult_1_r. exact Hc'. }
  rewrite Rminus_0_l in Y0. rewrite Rminus_0_r in Y1.
  set (y0 := minus (Real 0) _) in *. set (y1 := minus (multiply sd0 _) _) in *. set (y2 := minus (multiply f0 f0) _) in *.
  assert (YS : forall f v e g, near c f v e -> Rabs v <= 1 -> 0 <= e <= 100 -> 2 * e + 1 / 8 + / 20 <= g -> g <= 1000 -> near (c * c) (multiply f f) (v * v) g).
  { intros f v e g N V Eb G G'. apply (near_mult c c f f v v e e 1 1); side. nra. }
  assert (Y00 := YS _ _ _ 20.8 Y0 ltac:(rewrite Rabs_Ropp; exact B1) ltac:(lra) ltac:(lra) ltac:(lra)).
  assert (Y11 := YS _ _ _ 20.8 Y1 B2 ltac:(lra) ltac:(lra) ltac:(lra)).
  assert (Y22 := YS _ _ _ 66.6 Y2 BCD0 ltac:(lra) ltac:(lra) ltac:(lra)).
  assert (YA : near (c * c) (plus (multiply y0 y0) (multiply y1 y1)) (- (sin d0 * cos a0) * - (sin d0 * cos a0) + sin d0 * - sin a0 * (sin d0 * - sin a0)) 41.8).
  { apply (near_plus (c * c) _ _ _ _ _ _ 1) with (2 := Y00) (3 := Y11); side; [|nra].
    replace (- (sin d0 * cos a0) * - (sin d0 * cos a0) + sin d0 * - sin a0 * (sin d0 * - sin a0)) with (sin d0 * sin d0 * (sin a0 * sin a0 + cos a0 * cos a0)) by ring.
    rewrite QA0. apply Rabs_le. nra. }
  replace (- (sin d0 * cos a0) * - (sin d0 * cos a0) + sin d0 * - sin a0 * (sin d0 * - sin a0)) with (sin d0 * sin d0) in YA
    by (transitivity (sin d0 * sin d0 * (sin a0 * sin a0 + cos a0 * cos a0)); [rewrite QA0|]; ring).
  assert (YN : near (c * c) (plus (plus (multiply y0 y0) (multiply y1 y1)) (multiply y2 y2)) 1 108.6).
  { rewrite <- QD0. apply (near_plus (c * c) _ _ _ _ _ _ 1) with (2 := YA) (3 := Y22); side; [rewrite QD0; side|nra]. }
  apply (near_root c _ _ 108.9) in YN; side. set (yn := root (plus _ (multiply y2 y2))) in YN.
  assert (EY0 := QU _ _ _ _ _ 120.6 Y0 YN ltac:(rewrite Rabs_Ropp; exact B1) ltac:(lra) ltac:(lra) ltac:(lra) ltac:(lra)).
  assert (EY1 := QU _ _ _ _ _ 120.6 Y1 YN B2 ltac:(lra) ltac:(lra) ltac:(lra) ltac:(lra)).
  assert (EY2 := QU _ _ _ _ _ 143.7 Y2 YN BCD0 ltac:(lra) ltac:(lra) ltac:(lra) ltac:(lra)).
  (* the scaled direction *)
  set (K := sin d0 * sin d + cos d0 * cos d * cos (a - a0)) in *.
  assert (B3 : Rabs (cos a * cos d) <= 1) by (rewrite Rabs_mult; apply Rle_trans with (1 * 1); [apply Rmult_le_compat; side; apply Rabs_pos|lra]).
  assert (B4 : Rabs (sin a * cos d) <= 1) by (rewrite Rabs_mult; apply Rle_trans with (1 * 1); [apply Rmult_le_compat; side; apply Rabs_pos|lra]).
  assert (B5 : Rabs (cos d0 * cos a0) <= 1) by (rewrite Rabs_mult; apply Rle_trans with (1 * 1); [apply Rmult_le_compat; side; apply Rabs_pos|lra]).
  assert (B6 : Rabs (cos d0 * sin a0) <= 1) by (rewrite Rabs_mult; apply Rle_trans with (1 * 1); [apply Rmult_le_compat; side; apply Rabs_pos|lra]).
  assert (M1 : forall f g v w e h, near 1 f v e -> near 1 g w h -> Rabs v <= 1 -> Rabs w <= 1 -> 0 <= e <= 1000 -> 0 <= h <= 1000 -> near 1 (multiply f g) (v * w) (e + h + 1 / 5)).
  { intros f g v w e h N M V W Eb Hb. apply (near_mult1 1 f g v w e h 1 1) with (2 := N) (3 := M); side. }
  assert (P0 := M1 _ _ _ _ _ _ G0 O0 B5 B3 ltac:(lra) ltac:(lra)). assert (P1 := M1 _ _ _ _ _ _ G1 O1 B6 B4 ltac:(lra) ltac:(lra)). assert (P2 := M1 _ _ _ _ _ _ SD0 SD BSD0 BSD ltac:(lra) ltac:(lra)).
  assert (T : forall x y, Rabs x <= 1 -> Rabs y <= 1 -> Rabs (x * y) <= 1) by (intros x y X Y; rewrite Rabs_mult; apply Rle_trans with (1 * 1); [apply Rmult_le_compat; side; apply Rabs_pos|lra]).
  assert (T2 : forall x y A B, Rabs x <= A -> Rabs y <= B -> Rabs (x + y) <= A + B) by (intros x y A B X Y; apply Rle_trans with (1 := Rabs_triang _ _); lra).
  assert (FO : near 1 (plus (plus (multiply f0 o0) (multiply f1 o1)) (multiply sd0 sd)) K 47).
  { assert (FO1 := near_plus 1 _ _ _ _ _ _ 2 40.8 OK1 P0 P1 ltac:(lra) ltac:(lra) ltac:(eapply Rle_trans; [apply (T2 _ _ 1 1); auto|lra]) ltac:(lra) ltac:(lra) ltac:(lra)).
    assert (FO2 := near_plus 1 _ _ _ _ _ _ 3 47 OK1 FO1 P2 ltac:(lra) ltac:(lra) ltac:(eapply Rle_trans; [apply (T2 _ _ 2 1); auto; eapply Rle_trans; [apply (T2 _ _ 1 1); auto|lra]|lra]) ltac:(lra) ltac:(lra) ltac:(lra)).
    replace K with (cos d0 * cos a0 * (cos a * cos d) + cos d0 * sin a0 * (sin a * cos d) + sin d0 * sin d); [exact FO2|]. unfold K. rewrite cos_minus. ring. }
  set (fo := plus (plus (multiply f0 o0) _) _) in *.
  assert (K2 : Rabs (1 / K) <= 2). { rewrite Rabs_right by (apply Rle_ge, Rlt_le, Rmult_lt_0_compat; [lra|apply Rinv_0_lt_compat; lra]). unfold Rdiv. rewrite Rmult_1_l. apply Rle_trans with (/ (1 / 2)); [apply Rinv_le_contravar; lra|lra]. }
  assert (NK : near 1 (quotient (Real 1) fo) (1 / K) 191).
  { assert (Z := near_quot 1 1 (Real 1) fo 1 K 0 47 (1 / 2) 2 191). replace (1 / 1) with 1 in Z by field. apply Z; side. apply near_self. }
  set (k := quotient (Real 1) fo) in *.
  assert (ST : forall o f v w e g, near 1 o v e -> near 1 f w g -> Rabs v <= 1 -> Rabs w <= 1 -> 0 <= e <= 9.9 -> 0 <= g <= 10.1 ->
    near 1 (minus (multiply o k) f) (v * (1 / K) - w) 222 /\ Rabs (v * (1 / K) - w) <= 3).
  { intros o f v w e g N M V W Eb Gb.
    assert (PR := near_mult1 1 o k v (1 / K) e 191 1 2 211.5 OK1 N NK ltac:(lra) ltac:(lra) V K2 ltac:(lra) ltac:(lra) ltac:(lra)).
    assert (BB : Rabs (v * (1 / K) - w) <= 3). { unfold Rminus. apply Rle_trans with (2 + 1); [apply T2; [rewrite Rabs_mult; apply Rle_trans with (1 * 2); [apply Rmult_le_compat; side; apply Rabs_pos|lra]|rewrite Rabs_Ropp; exact W]|lra]. }
    split; [|exact BB]. apply (near_minus 1 _ _ _ _ _ _ 3) with (2 := PR) (3 := M); side. }
  destruct (ST _ _ _ _ _ _ O0 G0 B3 B5 ltac:(lra) ltac:(lra)) as (W0 & V0). destruct (ST _ _ _ _ _ _ O1 G1 B4 B6 ltac:(lra) ltac:(lra)) as (W1 & V1).
  destruct (ST _ _ _ _ _ _ SD SD0 BSD BSD0 ltac:(lra) ltac:(lra)) as (W2 & V2). clear ST.
  set (w0 := minus (multiply o0 k) f0) in *. set (w1 := minus (multiply o1 k) f1) in *. set (w2 := minus (multiply sd k) sd0) in *.
  set (v0 := cos a * cos d * (1 / K) - cos d0 * cos a0) in *. set (v1 := sin a * cos d * (1 / K) - cos d0 * sin a0) in *. set (v2 := sin d * (1 / K) - sin d0) in *.
  assert (MW : forall w e v z g, near 1 w v 222 -> near 1 e z g -> Rabs v <= 3 -> Rabs z <= 1 -> 0 <= g <= 200 -> near 1 (multiply w e) (v * z) (222 + 3 * g + 1 / 2) /\ Rabs (v * z) <= 3).
  { intros w e v z g N M V W Gb. split; [apply (near_mult1 1 w e v z 222 g 3 1) with (2 := N) (3 := M); side|]. rewrite Rabs_mult. apply Rle_trans with (3 * 1); [apply Rmult_le_compat; side; apply Rabs_pos|lra]. }
  assert (SUM : forall x y z vx vy vz e f g h, near 1 x vx e /\ Rabs vx <= 3 -> near 1 y vy f /\ Rabs vy <= 3 -> near 1 z vz g /\ Rabs vz <= 3 -> 0 <= e -> 0 <= f -> 0 <= g -> e + f + g + 3 <= h -> h <= 5000 ->
    near 1 (plus (plus x y) z) (vx + vy + vz) h).
  { intros x y z vx vy vz e f g h (NX & VX) (NY & VY) (NZ & VZ) E0 E1 E2 H H'.
    assert (L1 := near_plus 1 _ _ _ _ _ _ 6 (e + f + 1) OK1 NX NY E0 E1 ltac:(eapply Rle_trans; [apply (T2 _ _ 3 3); auto|lra]) ltac:(lra) ltac:(lra) ltac:(lra)).
    apply (near_plus 1 _ _ _ _ _ _ 9) with (2 := L1) (3 := NZ); side. eapply Rle_trans; [apply (T2 _ _ 6 3); auto; eapply Rle_trans; [apply (T2 _ _ 3 3); auto|lra]|lra]. }
  do 2 eexists. split; [reflexivity|]. split.
  - assert (A0 := MW _ _ _ _ _ W0 EX0 V0 ltac:(rewrite Rabs_Ropp; exact BSA0) ltac:(lra)). assert (A1 := MW _ _ _ _ _ W1 EX1 V1 BCA0 ltac:(lra)).
    assert (A2 : near 1 (multiply w2 (quotient (Real 0) xn)) (v2 * 0) 7 /\ Rabs (v2 * 0) <= 3). { split; [apply (near_mult1 1 w2 (quotient (Real 0) xn) v2 0 222 2 3 0) with (2 := W2) (3 := EX2); side; rewrite Rabs_R0; lra|rewrite Rmult_0_r, Rabs_R0; lra]. }
    assert (FIN := SUM _ _ _ _ _ _ _ _ _ 700 A0 A1 A2 ltac:(lra) ltac:(lra) ltac:(lra) ltac:(lra) ltac:(lra)).
    replace (fst (gnomonic a0 d0 a d)) with (v0 * - sin a0 + v1 * cos a0 + v2 * 0); [exact FIN|].
    cbn [fst gnomonic]. unfold gnomonic. cbn [fst]. fold K. unfold v0, v1. rewrite sin_minus. field. lra.
  - assert (A0 := MW _ _ _ _ _ W0 EY0 V0 ltac:(rewrite Rabs_Ropp; exact B1) ltac:(lra)). assert (A1 := MW _ _ _ _ _ W1 EY1 V1 B2 ltac:(lra)). assert (A2 := MW _ _ _ _ _ W2 EY2 V2 BCD0 ltac:(lra)).
    assert (FIN := SUM _ _ _ _ _ _ _ _ _ 2000 A0 A1 A2 ltac:(lra) ltac:(lra) ltac:(lra) ltac:(lra) ltac:(lra)).
    replace (snd (gnomonic a0 d0 a d)) with (v0 * - (sin d0 * cos a0) + v1 * (sin d0 * - sin a0) + v2 * cos d0); [exact FIN|].
    unfold gnomonic. cbn [snd]. fold K.
    replace (v0 * - (sin d0 * cos a0) + v1 * (sin d0 * - sin a0) + v2 * cos d0)
      with ((cos d0 * sin d - sin d0 * cos d * (cos a * cos a0 + sin a * sin a0)) * (1 / K) + sin d0 * cos d0 * (sin a0 * sin a0 + cos a0 * cos a0 - 1)) by (unfold v0, v1, v2; ring).
    rewrite QA0, cos_minus. field. lra.
Qed.
Lemma turn_near : forall x y vx vy rot r, near 1 x vx 700 -> near 1 y vy 2000 -> angle_near rot r 6.1 -> Rabs vx <= 2 -> Rabs vy <= 4 ->
  near 1 (minus (multiply x (CO (Real rot))) (multiply y (SI (Real rot)))) (vx * cos r - vy * sin r) 2800
  /\ near 1 (plus (multiply x (SI (Real rot))) (multiply y (CO (Real rot)))) (vx * sin r + vy * cos r) 2800.
Proof.
  intros x y vx vy rot r NX NY NR VX VY. assert (CR := cosine_near _ _ _ NR). assert (SR := sine_near _ _ _ NR). destruct (sc_bounds r) as (BS & BC & _). assert (OK1 := one_ok).
  assert (T : forall a w e v B, near 1 a v e -> near 1 w B (6.1 + 1) -> Rabs v <= 4 -> Rabs B <= 1 -> 0 <= e <= 2000 -> near 1 (multiply a w) (v * B) (e + 30) /\ Rabs (v * B) <= 4).
  { intros a w e v B N M V W Eb. split; [apply (near_mult1 1 a w v B e (6.1 + 1) 4 1) with (2 := N) (3 := M); side|]. rewrite Rabs_mult. apply Rle_trans with (4 * 1); [apply Rmult_le_compat; side; apply Rabs_pos|lra]. }
  destruct (T _ _ _ _ _ NX CR ltac:(lra) BC ltac:(lra)) as (A1 & B1). destruct (T _ _ _ _ _ NX SR ltac:(lra) BS ltac:(lra)) as (A2 & B2).
  destruct (T _ _ _ _ _ NY CR ltac:(lra) BC ltac:(lra)) as (A3 & B3). destruct (T _ _ _ _ _ NY SR ltac:(lra) BS ltac:(lra)) as (A4 & B4).
  apply Rabs_le_inv in B1, B2, B3, B4. split.
  - apply (near_minus 1 _ _ _ _ _ _ 8) with (2 := A1) (3 := A4); side. apply Rabs_le. lra.
  - apply (near_plus 1 _ _ _ _ _ _ 8) with (2 := A2) (3 := A3); side. apply Rabs_le. lra.
Qed.
End Projection.

Lemma cos_pole : forall x, Rabs x <= 89 -> / 150 <= cos (x * PI / 180).
Proof.
  intros x X. assert (P := pi_machin). unfold P0 in P. rewrite <- cos_abs. unfold Rdiv. rewrite !Rabs_mult, (Rabs_right PI), (Rabs_right (/ 180)) by lra. set (y := Rabs x * PI * / 180).
  assert (Y : 0 <= y <= 89 * PI * / 180). { unfold y. assert (Q := Rabs_pos x). split; [apply Rmult_le_pos; [apply Rmult_le_pos|]; lra|]. apply Rmult_le_compat_r; [lra|]. apply Rmult_le_compat_r; lra. }
  rewrite <- sin_shift. assert (S := sin_above (PI / 2 - y)). lra.
Qed.
Lemma C117_focal_proof : forall S C field rot p d, accurate_sin S -> accurate_cos C -> position field -> position p -> Rabs (snd field) <= 89 ->
  binary64 rot -> Rabs rot <= 360 -> distance_between field p d -> d <= 60 ->
  exists x y, focal_plane_of_f S C (Real (fst p)) (Real (snd p)) (Real (fst field)) (Real (snd field)) (Real rot) = (Real x, Real y)
    /\ Rabs (x - fst (focal_position field rot p)) <= / 10 ^ 11 /\ Rabs (y - snd (focal_position field rot p)) <= / 10 ^ 11
    /\ Rabs x <= 7 /\ Rabs y <= 7.
Proof.
  intros S C [a0 d0] rot [a d] t HS HC (B1 & L1 & B2 & L2) (B3 & L3 & B4 & L4) POLE BR LR (T & D) T60. cbn [fst snd] in *. unfold focal_plane_of_f.
  destruct (degrees_near a B3 L3) as (ra & -> & NA). destruct (degrees_near d B4 ltac:(lra)) as (dec & -> & ND).
  destruct (degrees_near a0 B1 L1) as (fra & -> & NA0). destruct (degrees_near d0 B2 ltac:(lra)) as (fdec & -> & ND0). destruct (degrees_near rot BR LR) as (r & -> & NR).
  assert (WK : forall x v e f, angle_near x v e -> e <= f -> angle_near x v f). { intros x v e f (X1 & X2 & X3) L. split; [exact X1|]. split; [exact X2|]. apply Rle_trans with (1 := X3). apply Rmult_le_compat_r; [left; exact u_pos|exact L]. }
  apply (WK _ _ _ 6.1) in NA, NA0, NR; try lra. apply (WK _ _ _ 1.6) in ND, ND0; try lra. unfold focal_position. cbn [fst snd].
  set (A := a * PI / 180) in *. set (DD := d * PI / 180) in *. set (A0 := a0 * PI / 180) in *. set (D0 := d0 * PI / 180) in *. set (RR := rot * PI / 180) in *.
  assert (K : 1 / 2 <= sin D0 * sin DD + cos D0 * cos DD * cos (A - A0)).
  { rewrite cos_minus. unfold direction in D. cbn [Verif.Model.Sphere.vx Verif.Model.Sphere.vy Verif.Model.Sphere.vz fst snd] in D. fold A DD A0 D0 in D.
    assert (P := pi_machin). unfold P0 in P. assert (Q : cos (PI / 3) <= cos (t * PI / 180)). { assert (t * PI <= 60 * PI) by (apply Rmult_le_compat_r; lra). assert (0 <= t * PI) by (apply Rmult_le_pos; lra). apply cos_decr_1; lra. }
    rewrite cos_PI3 in Q. rewrite D in Q. lra. }
  destruct (tangent_near S C HS HC _ _ _ _ _ _ _ _ NA ND NA0 ND0 (cos_pole _ POLE) K) as (x & y & E & NX & NY).
  unfold radec_to_focal_plane_f. rewrite E.
  destruct (sc_bounds DD) as (BSD & BCD & _). destruct (sc_bounds D0) as (BSD0 & BCD0 & _). destruct (sc_bounds (A - A0)) as (BSA & BCA & _).
  assert (M1 : forall v w, Rabs v <= 1 -> Rabs w <= 1 -> Rabs (v * w) <= 1) by (intros v w V W; rewrite Rabs_mult; apply Rle_trans with (1 * 1); [apply Rmult_le_compat; try apply Rabs_pos; assumption|lra]).
  assert (KI : forall v c, 0 <= c -> Rabs v <= c -> Rabs (v / (sin D0 * sin DD + cos D0 * cos DD * cos (A - A0))) <= 2 * c).
  { intros v c C0 V. unfold Rdiv. rewrite Rabs_mult, (Rabs_right (/ _)) by (apply Rle_ge, Rlt_le, Rinv_0_lt_compat; lra). rewrite Rmult_comm. apply Rmult_le_compat; try assumption; [apply Rlt_le, Rinv_0_lt_compat; lra|apply Rabs_pos|].
    apply Rle_trans with (/ (1 / 2)); [apply Rinv_le_contravar; lra|lra]. }
  assert (VX : Rabs (fst (gnomonic A0 D0 A DD)) <= 2). { unfold gnomonic. cbn [fst]. replace 2 with (2 * 1) by ring. apply KI; [lra|auto]. }
  assert (VY : Rabs (snd (gnomonic A0 D0 A DD)) <= 4). { unfold gnomonic. cbn [snd]. replace 4 with (2 * 2) by ring. apply KI; [lra|]. unfold Rminus at 1. apply Rle_trans with (1 := Rabs_triang _ _). rewrite Rabs_Ropp. assert (Q1 := M1 _ _ BCD0 BSD). assert (Q2 := M1 _ _ (M1 _ _ BSD0 BCD) BCA). lra. }
  destruct (turn_near S C HS HC _ _ _ _ _ _ NX NY NR VX VY) as ((x' & EX & HX) & (y' & EY & HY)). exists (1 * x'), (1 * y'). rewrite EX, EY. split; [reflexivity|]. rewrite !Rmult_1_l.
  assert (UB : 2800 * u <= / 10 ^ 11) by (unfold u; lra). unfold turned. cbn [fst snd]. destruct (sc_bounds RR) as (BS & BC & _).
  assert (M4 : forall v w c, 0 <= c -> Rabs v <= c -> Rabs w <= 1 -> Rabs (v * w) <= c) by (intros v w c C0 V W; rewrite Rabs_mult; apply Rle_trans with (c * 1); [apply Rmult_le_compat; try apply Rabs_pos; assumption|lra]).
  assert (Q1 := M4 _ _ 2 ltac:(lra) VX BC). assert (Q2 := M4 _ _ 2 ltac:(lra) VX BS). assert (Q3 := M4 _ _ 4 ltac:(lra) VY BC). assert (Q4 := M4 _ _ 4 ltac:(lra) VY BS).
  apply Rabs_le_inv in Q1, Q2, Q3, Q4. split; [lra|]. split; [lra|]. apply Rabs_le_inv in HX, HY. split; apply Rabs_le; lra.
Qed.

