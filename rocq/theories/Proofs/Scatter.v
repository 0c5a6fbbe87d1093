(** Proofs about the scatter of measured positions (C111). *)
From Coq Require Import Reals Lra List.
From Verif Require Import Base.Prelude Model.Sphere Spec.Sphere Proofs.Sphere Proofs.Randomize.
Open Scope R_scope.

Lemma Rabs_le_inv : forall x a, Rabs x <= a -> - a <= x <= a.
Proof. intros x a H. unfold Rabs in H. destruct (Rcase_abs x); lra. Qed.

(** The noise vector and the draw. *)
Section Draw.
Variables (c g u : vec) (s k : R).
Hypothesis C : unit c.
Hypothesis U : unit u.
Hypothesis K : 0 < k.
Hypothesis E : vadd (scale s g) c = V3 (k * vx u) (k * vy u) (k * vz u).
Let G := vx g * vx g + vy g * vy g + vz g * vz g.
Let p := vx c * vx g + vy c * vy g + vz c * vz g.
Lemma coords : s * vx g + vx c = k * vx u /\ s * vy g + vy c = k * vy u /\ s * vz g + vz c = k * vz u.
Proof. unfold vadd, scale in E. cbn in E. injection E. auto. Qed.
Lemma length_sq : k * k = 1 + 2 * s * p + s * s * G.
Proof.
  destruct coords as (X & Y & Z). unfold unit in *. unfold p, G.
  replace (k * k) with ((k * vx u) * (k * vx u) + (k * vy u) * (k * vy u) + (k * vz u) * (k * vz u)).
  - rewrite <- X, <- Y, <- Z. transitivity (s * s * (vx g * vx g + vy g * vy g + vz g * vz g) + 2 * s * (vx c * vx g + vy c * vy g + vz c * vz g) + (vx c * vx c + vy c * vy c + vz c * vz c)); [ring|]. rewrite C. ring.
  - transitivity (k * k * (vx u * vx u + vy u * vy u + vz u * vz u)); [ring|]. rewrite U. ring.
Qed.
Lemma G_nonneg : 0 <= G.
Proof. unfold G. assert (A := Rle_0_sqr (vx g)). assert (B := Rle_0_sqr (vy g)). assert (D := Rle_0_sqr (vz g)). unfold Rsqr in *. lra. Qed.
Lemma lagrange : p * p <= G.
Proof.
  unfold p, G. set (a := vx g). set (b := vy g). set (d := vz g). set (x := vx c) in *. set (y := vy c) in *. set (z := vz c) in *.
  assert (H : x * x + y * y + z * z = 1) by exact C.
  assert (A := Rle_0_sqr (x * b - y * a)). assert (B := Rle_0_sqr (x * d - z * a)). assert (D := Rle_0_sqr (y * d - z * b)). unfold Rsqr in *.
  assert (L : (x * x + y * y + z * z) * (a * a + b * b + d * d) - (x * a + y * b + z * d) * (x * a + y * b + z * d)
    = (x * b - y * a) * (x * b - y * a) + (x * d - z * a) * (x * d - z * a) + (y * d - z * b) * (y * d - z * b)) by ring.
  rewrite H in L. lra.
Qed.
Let delta := Rabs s * sqrt G.
Lemma delta_nonneg : 0 <= delta.
Proof. apply Rmult_le_pos; [apply Rabs_pos|apply sqrt_pos]. Qed.
Lemma delta_sq : delta * delta = s * s * G.
Proof.
  unfold delta. transitivity (Rabs s * Rabs s * (sqrt G * sqrt G)); [ring|]. rewrite sqrt_sqrt by apply G_nonneg.
  rewrite <- Rabs_mult, Rabs_right; [reflexivity|]. apply Rle_ge, Rle_0_sqr.
Qed.
Lemma along_draw : Rabs (s * p) <= delta.
Proof.
  apply Rsqr_incr_0; [|apply Rabs_pos|apply delta_nonneg]. rewrite <- Rsqr_abs. unfold Rsqr. rewrite delta_sq.
  replace (s * p * (s * p)) with (s * s * (p * p)) by ring. apply Rmult_le_compat_l; [apply Rle_0_sqr|apply lagrange].
Qed.
Lemma length_bounds : delta < 1 -> 1 - delta <= k <= 1 + delta.
Proof.
  intro D. assert (N := delta_nonneg). assert (A := along_draw). apply Rabs_le_inv in A. assert (Q := length_sq). assert (S := delta_sq).
  split.
  - apply Rsqr_incr_0; [|lra|lra]. unfold Rsqr. rewrite Q, <- S. nra.
  - apply Rsqr_incr_0; [|lra|lra]. unfold Rsqr. rewrite Q, <- S. nra.
Qed.
Lemma offset : forall e, orthogonal e c ->
  vx e * vx u + vy e * vy u + vz e * vz u = s * (vx e * vx g + vy e * vy g + vz e * vz g) / k.
Proof.
  intros e O. destruct coords as (X & Y & Z). unfold orthogonal in O. apply Rmult_eq_reg_r with k; [|lra].
  transitivity (vx e * (k * vx u) + vy e * (k * vy u) + vz e * (k * vz u)); [ring|]. rewrite <- X, <- Y, <- Z.
  transitivity (s * (vx e * vx g + vy e * vy g + vz e * vz g) + (vx e * vx c + vy e * vy c + vz e * vz c)); [ring|]. rewrite O. field. lra.
Qed.
Lemma cosine : vx c * vx u + vy c * vy u + vz c * vz u = (1 + s * p) / k.
Proof.
  destruct coords as (X & Y & Z). apply Rmult_eq_reg_r with k; [|lra].
  transitivity (vx c * (k * vx u) + vy c * (k * vy u) + vz c * (k * vz u)); [ring|]. rewrite <- X, <- Y, <- Z.
  transitivity (s * p + (vx c * vx c + vy c * vy c + vz c * vz c)); [unfold p; ring|]. rewrite C. field. lra.
Qed.
Lemma separation : delta < 1 -> exists d, angle_between c u d /\ d < 90 /\ sin (d * PI / 180) <= delta.
Proof.
  intro D. assert (A := along_draw). assert (A' := Rabs_le_inv _ _ A). assert (Q := length_sq). assert (S := delta_sq). assert (N := delta_nonneg).
  assert (CO := cosine). set (q := vx c * vx u + vy c * vy u + vz c * vz u) in *.
  assert (QP : 0 < q) by (rewrite CO; apply Rdiv_lt_0_compat; lra).
  assert (QK : q * k = 1 + s * p) by (rewrite CO; field; lra).
  assert (SQ : (1 - q * q) * (k * k) = s * s * (G - p * p)).
  { transitivity (k * k - (q * k) * (q * k)); [ring|]. rewrite QK, Q. ring. }
  assert (Q1 : q * q <= 1).
  { assert (L := lagrange). assert (0 <= s * s * (G - p * p)) by (apply Rmult_le_pos; [apply Rle_0_sqr|lra]). assert (0 < k * k) by (apply Rmult_lt_0_compat; lra).
    destruct (Rle_dec (q * q) 1) as [H1|H1]; [exact H1|]. assert ((q * q - 1) * (k * k) > 0) by (apply Rmult_lt_0_compat; lra). lra. }
  assert (QL : -1 <= q <= 1) by nra.
  exists (acos q * 180 / PI). assert (P := PI_RGT_0). assert (B := acos_bound q).
  assert (R : acos q * 180 / PI * PI / 180 = acos q) by (field; lra).
  assert (H90 : acos q < PI / 2) by (apply Rnot_le_lt; intro X; assert (Y := cos_le_0 _ X ltac:(lra)); rewrite cos_acos in Y by lra; lra).
  split; [|split].
  - split; [|rewrite R; exact (cos_acos q QL)]. split.
    + apply Rmult_le_pos; [lra|]. left. apply Rinv_0_lt_compat. lra.
    + apply Rmult_le_reg_r with PI; [lra|]. unfold Rdiv. rewrite Rmult_assoc, Rinv_l by lra. nra.
  - apply Rmult_lt_reg_r with PI; [lra|]. unfold Rdiv. rewrite Rmult_assoc, Rinv_l by lra. lra.
  - rewrite R, sin_acos by lra. apply Rsqr_incr_0; [|apply sqrt_pos|exact N]. rewrite Rsqr_sqrt by (unfold Rsqr; lra). unfold Rsqr. rewrite S.
    assert (KK : 0 < k * k) by (apply Rmult_lt_0_compat; lra). apply Rmult_le_reg_r with (k * k); [exact KK|]. rewrite SQ, Q.
    assert (SS := Rle_0_sqr s). unfold Rsqr in SS. apply Rle_trans with (s * s * (G * (1 + 2 * s * p + s * s * G))); [|right; ring].
    apply Rmult_le_compat_l; [exact SS|]. assert (V := Rle_0_sqr (p + s * G)). unfold Rsqr in V. nra.
Qed.
End Draw.

Lemma noise_nonzero : forall ra dec sig gx gy gz, let r := Rabs (sig * PI / 180) * sqrt (gx * gx + gy * gy + gz * gz) in r < 1 ->
  vadd (scale (deg2rad sig) (V3 gx gy gz)) (radec2icrf ra dec) <> V3 0 0 0.
Proof.
  intros ra dec sig gx gy gz r R.
  intro X. change (deg2rad sig) with (sig * PI / 180) in X. change (radec2icrf ra dec) with (direction ra dec) in X.
    assert (CU := direction_unit ra dec). unfold unit in CU. unfold vadd, scale in X. cbn [vx vy vz] in X. injection X as X Y Z.
    assert (V : (sig * PI / 180) * (sig * PI / 180) * (gx * gx + gy * gy + gz * gz) = 1).
    { rewrite <- CU. cbn [vx vy vz direction] in *. set (s := sig * PI / 180) in *.
      transitivity ((- (s * gx)) * (- (s * gx)) + (- (s * gy)) * (- (s * gy)) + (- (s * gz)) * (- (s * gz))); [ring|].
      replace (- (s * gx)) with (vx (direction ra dec)) by (cbn [vx direction]; lra). replace (- (s * gy)) with (vy (direction ra dec)) by (cbn [vy direction]; lra).
      replace (- (s * gz)) with (vz (direction ra dec)) by (cbn [vz direction]; lra). reflexivity. }
    assert (DS := delta_sq (V3 gx gy gz) (sig * PI / 180)). cbn [vx vy vz] in DS. fold r in DS. rewrite V in DS.
    assert (DN := delta_nonneg (V3 gx gy gz) (sig * PI / 180)). cbn [vx vy vz] in DN. fold r in DN. nra.
Qed.
Lemma C111_offset_proof : forall ra dec sig gx gy gz ra' dec', randomizeAstrometry ra dec sig (V3 gx gy gz) = (ra', dec') ->
  let r := Rabs (sig * PI / 180) * sqrt (gx * gx + gy * gy + gz * gz) in r < 1 ->
  exists m, 1 - r <= m <= 1 + r
    /\ (forall ex ey ez, orthogonal (V3 ex ey ez) (direction ra dec) ->
          ex * vx (direction ra' dec') + ey * vy (direction ra' dec') + ez * vz (direction ra' dec') = sig * PI / 180 * (ex * gx + ey * gy + ez * gz) / m)
    /\ (cos (dec' * PI / 180) * sin ((ra' - ra) * PI / 180)
        = sig * PI / 180 * (- sin (ra * PI / 180) * gx + cos (ra * PI / 180) * gy) / m)
    /\ (cos (dec * PI / 180) * sin (dec' * PI / 180) - sin (dec * PI / 180) * cos (dec' * PI / 180) * cos ((ra' - ra) * PI / 180)
        = sig * PI / 180 * (cos (dec * PI / 180) * gz - sin (dec * PI / 180) * (cos (ra * PI / 180) * gx + sin (ra * PI / 180) * gy)) / m).
Proof.
  intros ra dec sig gx gy gz ra' dec' H r R.
  assert (NZ := noise_nonzero ra dec sig gx gy gz R).
  destruct (C55_position_proof _ _ _ _ _ _ H NZ) as (_ & _ & k & K & E).
  assert (CU := direction_unit ra dec). assert (UU := direction_unit ra' dec').
  exists k. split; [exact (length_bounds _ _ _ _ _ CU UU K E R)|].
  assert (OF := offset _ _ _ _ _ K E).
  split; [|split].
  - intros ex ey ez O. exact (OF (V3 ex ey ez) O).
  - assert (O : orthogonal (V3 (- sin (ra * PI / 180)) (cos (ra * PI / 180)) 0) (direction ra dec)) by (unfold orthogonal; cbn; ring).
    assert (W := OF _ O). cbn [vx vy vz direction] in W. rewrite Rmult_0_l, !Rplus_0_r in W.
    replace ((ra' - ra) * PI / 180) with (ra' * PI / 180 - ra * PI / 180) by field. rewrite sin_minus. rewrite Rmult_0_l, Rplus_0_r in W. rewrite <- W. ring.
  - assert (O : orthogonal (V3 (- sin (dec * PI / 180) * cos (ra * PI / 180)) (- sin (dec * PI / 180) * sin (ra * PI / 180)) (cos (dec * PI / 180))) (direction ra dec)).
    { unfold orthogonal. cbn. set (a := ra * PI / 180). set (d := dec * PI / 180). assert (Q := sin2_cos2 a). unfold Rsqr in Q.
      transitivity (cos d * sin d * (1 - (sin a * sin a + cos a * cos a))); [ring|]. rewrite Q. ring. }
    assert (W := OF _ O). cbn [vx vy vz direction] in W.
    replace ((ra' - ra) * PI / 180) with (ra' * PI / 180 - ra * PI / 180) by field. rewrite cos_minus.
    match goal with |- _ = ?s * ?q / k => match type of W with ?l = _ * ?q' / k => replace q with q' by ring; transitivity l; [ring|exact W] end end.
Qed.
Lemma C111_angle_proof : forall ra dec sig gx gy gz ra' dec', randomizeAstrometry ra dec sig (V3 gx gy gz) = (ra', dec') ->
  let r := Rabs (sig * PI / 180) * sqrt (gx * gx + gy * gy + gz * gz) in r < 1 ->
  exists d, angle_between (direction ra dec) (direction ra' dec') d /\ d < 90 /\ sin (d * PI / 180) <= r.
Proof.
  intros ra dec sig gx gy gz ra' dec' H r R. assert (NZ := noise_nonzero ra dec sig gx gy gz R).
  destruct (C55_position_proof _ _ _ _ _ _ H NZ) as (_ & _ & k & K & E).
  exact (separation _ _ _ _ _ (direction_unit ra dec) (direction_unit ra' dec') K E R).
Qed.
