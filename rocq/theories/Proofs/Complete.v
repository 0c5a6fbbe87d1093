(** Proofs that the ephemeris misses no object in the field (C112). *)
From Coq Require Import String List Arith ZArith Bool Reals Lra Lia Permutation.
From Verif Require Import Base.Prelude Model.Sphere Model.Ephemeris Spec.Sphere Spec.Ephemeris Spec.Complete
  Proofs.Sphere Proofs.Ephemeris Proofs.EphemerisRows Proofs.Randomize Proofs.Scatter.
Import ListNotations.
Open Scope R_scope.

(** ** The error of quadratic interpolation *)
Definition cubic (k0 k1 k2 k3 x : R) : R := k0 + k1 * x + k2 * (x * x) + k3 * (x * x * x).
Lemma rolle : forall f g a b, a < b -> (forall t, a <= t <= b -> derivable_pt_lim f t (g t)) -> f a = 0 -> f b = 0 ->
  exists c, a < c < b /\ g c = 0.
Proof.
  intros f g a b AB D A B. destruct (MVT_cor2 f g a b AB D) as (c & E & C). exists c. split; [exact C|].
  rewrite A, B, Rminus_0_r in E. symmetry in E. apply Rmult_integral in E. destruct E; lra.
Qed.
Lemma minus_poly : forall f g p q t, derivable_pt_lim f t (g t) -> derivable_pt_lim p t (q t) ->
  derivable_pt_lim (fun x => f x - p x) t (g t - q t).
Proof. intros. apply (derivable_pt_lim_minus f p t); assumption. Qed.
Lemma d_cubic : forall k0 k1 k2 k3 t, derivable_pt_lim (cubic k0 k1 k2 k3) t (k1 + 2 * k2 * t + 3 * k3 * (t * t)).
Proof.
  intros. unfold cubic.
  replace (k1 + 2 * k2 * t + 3 * k3 * (t * t)) with (0 + k1 * 1 + k2 * (1 * t + t * 1) + k3 * ((1 * t + t * 1) * t + t * t * 1)) by ring.
  assert (I := derivable_pt_lim_id t).
  assert (Q : derivable_pt_lim (mult_fct id id) t (1 * t + t * 1)) by (apply (derivable_pt_lim_mult id id t 1 1 I I)).
  apply (derivable_pt_lim_plus (fun x => k0 + k1 * x + k2 * (x * x)) (fun x => k3 * (x * x * x)) t).
  - apply (derivable_pt_lim_plus (fun x => k0 + k1 * x) (fun x => k2 * (x * x)) t).
    + apply (derivable_pt_lim_plus (fun _ => k0) (fun x => k1 * x) t); [apply derivable_pt_lim_const|exact (derivable_pt_lim_scal id k1 t 1 I)].
    + exact (derivable_pt_lim_scal (mult_fct id id) k2 t _ Q).
  - exact (derivable_pt_lim_scal (mult_fct (mult_fct id id) id) k3 t _ (derivable_pt_lim_mult (mult_fct id id) id t _ 1 Q I)).
Qed.
Lemma d_quad : forall k1 k2 k3 t, derivable_pt_lim (fun x => k1 + 2 * k2 * x + 3 * k3 * (x * x)) t (2 * k2 + 6 * k3 * t).
Proof.
  intros. assert (I := derivable_pt_lim_id t).
  replace (2 * k2 + 6 * k3 * t) with (0 + 2 * k2 * 1 + 3 * k3 * (1 * t + t * 1)) by ring.
  apply (derivable_pt_lim_plus (fun x => k1 + 2 * k2 * x) (fun x => 3 * k3 * (x * x)) t).
  - apply (derivable_pt_lim_plus (fun _ => k1) (fun x => 2 * k2 * x) t); [apply derivable_pt_lim_const|exact (derivable_pt_lim_scal id (2 * k2) t 1 I)].
  - exact (derivable_pt_lim_scal (mult_fct id id) (3 * k3) t _ (derivable_pt_lim_mult id id t 1 1 I I)).
Qed.
Lemma d_lin : forall k2 k3 t, derivable_pt_lim (fun x => 2 * k2 + 6 * k3 * x) t (6 * k3).
Proof.
  intros. assert (Z : 0 + 6 * k3 * 1 = 6 * k3) by ring. refine (eq_ind _ (derivable_pt_lim (fun x => 2 * k2 + 6 * k3 * x) t) _ _ Z).
  apply (derivable_pt_lim_plus (fun _ => 2 * k2) (fun x => 6 * k3 * x) t); [apply derivable_pt_lim_const|exact (derivable_pt_lim_scal id (6 * k3) t 1 (derivable_pt_lim_id t))].
Qed.
Lemma four_zeros : forall f f1 f2 f3 k0 k1 k2 k3 a b c d, a < b -> b < c -> c < d ->
  (forall t, a <= t <= d -> derivable_pt_lim f t (f1 t) /\ derivable_pt_lim f1 t (f2 t) /\ derivable_pt_lim f2 t (f3 t)) ->
  f a = cubic k0 k1 k2 k3 a -> f b = cubic k0 k1 k2 k3 b -> f c = cubic k0 k1 k2 k3 c -> f d = cubic k0 k1 k2 k3 d ->
  exists x, a <= x <= d /\ f3 x = 6 * k3.
Proof.
  intros f f1 f2 f3 k0 k1 k2 k3 a b c d AB BC CD D A B C E.
  set (F := fun x => f x - cubic k0 k1 k2 k3 x). set (F1 := fun x => f1 x - (k1 + 2 * k2 * x + 3 * k3 * (x * x))).
  set (F2 := fun x => f2 x - (2 * k2 + 6 * k3 * x)). set (F3 := fun x => f3 x - 6 * k3).
  assert (D1 : forall t, a <= t <= d -> derivable_pt_lim F t (F1 t)).
  { intros t T. apply (minus_poly f f1 (cubic k0 k1 k2 k3) (fun x => k1 + 2 * k2 * x + 3 * k3 * (x * x)) t); [apply D; exact T|apply d_cubic]. }
  assert (D2 : forall t, a <= t <= d -> derivable_pt_lim F1 t (F2 t)).
  { intros t T. apply (minus_poly f1 f2 (fun x => k1 + 2 * k2 * x + 3 * k3 * (x * x)) (fun x => 2 * k2 + 6 * k3 * x) t); [apply D; exact T|apply d_quad]. }
  assert (D3 : forall t, a <= t <= d -> derivable_pt_lim F2 t (F3 t)).
  { intros t T. apply (minus_poly f2 f3 (fun x => 2 * k2 + 6 * k3 * x) (fun _ => 6 * k3) t); [apply D; exact T|apply d_lin]. }
  assert (ZA : F a = 0) by (unfold F; lra). assert (ZB : F b = 0) by (unfold F; lra). assert (ZC : F c = 0) by (unfold F; lra). assert (ZD : F d = 0) by (unfold F; lra).
  destruct (rolle F F1 a b AB) as (x1 & X1 & E1); [intros; apply D1; lra|assumption|assumption|].
  destruct (rolle F F1 b c BC) as (x2 & X2 & E2); [intros; apply D1; lra|assumption|assumption|].
  destruct (rolle F F1 c d CD) as (x3 & X3 & E3); [intros; apply D1; lra|assumption|assumption|].
  destruct (rolle F1 F2 x1 x2 ltac:(lra)) as (y1 & Y1 & G1); [intros; apply D2; lra|assumption|assumption|].
  destruct (rolle F1 F2 x2 x3 ltac:(lra)) as (y2 & Y2 & G2); [intros; apply D2; lra|assumption|assumption|].
  destruct (rolle F2 F3 y1 y2 ltac:(lra)) as (z & Z & H); [intros; apply D3; lra|assumption|assumption|].
  exists z. split; [lra|]. unfold F3 in H. lra.
Qed.
Definition interpolated (f : R -> R) (t0 h t : R) : R :=
  f (t0 - h) * ((t - t0) * (t - t0 - h) / (2 * h * h)) - f t0 * ((t - t0 + h) * (t - t0 - h) / (h * h)) + f (t0 + h) * ((t - t0 + h) * (t - t0) / (2 * h * h)).
Lemma interpolated_cubic : forall f t0 h t, 0 < h -> (t - t0 + h) * (t - t0) * (t - t0 - h) <> 0 ->
  exists k0 k1 k2 k3, k3 * ((t - t0 + h) * (t - t0) * (t - t0 - h)) = f t - interpolated f t0 h t
    /\ f (t0 - h) = cubic k0 k1 k2 k3 (t0 - h) /\ f t0 = cubic k0 k1 k2 k3 t0 /\ f (t0 + h) = cubic k0 k1 k2 k3 (t0 + h) /\ f t = cubic k0 k1 k2 k3 t.
Proof.
  intros f t0 h t H W. set (w := (t - t0 + h) * (t - t0) * (t - t0 - h)) in *.
  set (K := (f t - interpolated f t0 h t) / w).
  set (A := f (t0 - h)). set (B := f t0). set (C := f (t0 + h)).
  (* in y = x - t0: B + (C-A)/(2h) y + (A-2B+C)/(2hh) yy + K y(yy-hh) *)
  set (c1 := (C - A) / (2 * h) - K * (h * h)). set (c2 := (A - 2 * B + C) / (2 * h * h)).
  exists (B - c1 * t0 + c2 * (t0 * t0) - K * (t0 * t0 * t0)), (c1 - 2 * c2 * t0 + 3 * K * (t0 * t0)), (c2 - 3 * K * t0), K.
  assert (P : forall x, cubic (B - c1 * t0 + c2 * (t0 * t0) - K * (t0 * t0 * t0)) (c1 - 2 * c2 * t0 + 3 * K * (t0 * t0)) (c2 - 3 * K * t0) K x
     = B + c1 * (x - t0) + c2 * ((x - t0) * (x - t0)) + K * ((x - t0) * (x - t0) * (x - t0))) by (intro x; unfold cubic; ring).
  assert (KW : K * w = f t - interpolated f t0 h t) by (unfold K; field; exact W).
  split; [exact KW|]. rewrite !P. split; [|split; [|split]].
  - unfold c1, c2. field. lra.
  - ring.
  - unfold c1, c2. field. lra.
  - transitivity (interpolated f t0 h t + K * w); [rewrite KW; ring|]. unfold interpolated, w, c1, c2. fold A B C. field. lra.
Qed.
Lemma node_cubic : forall y h, 0 < h -> - h <= y <= h -> ((y + h) * y * (y - h)) ^ 2 <= 4 * h ^ 6 / 27.
Proof.
  intros y h H Y. assert (E : 4 * h ^ 6 - 27 * ((y + h) * y * (y - h)) ^ 2 = (h * h - 3 * (y * y)) ^ 2 * (4 * (h * h) - 3 * (y * y))) by ring.
  assert (0 <= (h * h - 3 * (y * y)) ^ 2 * (4 * (h * h) - 3 * (y * y))).
  { apply Rmult_le_pos; [apply pow2_ge_0|]. nra. }
  lra.
Qed.
Lemma interpolation_error : forall f t0 h t M, 0 < h -> smooth f (t0 - h) (t0 + h) M -> t0 - h <= t <= t0 + h ->
  (interpolated f t0 h t - f t) ^ 2 <= M ^ 2 * h ^ 6 / 243.
Proof.
  intros f t0 h t M H (f1 & f2 & f3 & D) T. set (w := (t - t0 + h) * (t - t0) * (t - t0 - h)).
  assert (MP : 0 <= M). { assert (Q := D t T). destruct Q as (_ & _ & _ & Q). assert (R := Rabs_pos (f3 t)). lra. }
  destruct (Req_dec w 0) as [Z|NZ].
  - assert (E : interpolated f t0 h t = f t).
    { unfold w in Z. apply Rmult_integral in Z. destruct Z as [Z|Z]; [apply Rmult_integral in Z; destruct Z as [Z|Z]|]; unfold interpolated.
      - replace t with (t0 - h) by lra. field. lra.
      - replace t with t0 by lra. field. lra.
      - replace t with (t0 + h) by lra. field. lra. }
    rewrite E. replace (f t - f t) with 0 by ring. assert (0 <= M ^ 2 * h ^ 6) by (apply Rmult_le_pos; [apply pow2_ge_0|apply pow_le; lra]). lra.
  - destruct (interpolated_cubic f t0 h t H NZ) as (k0 & k1 & k2 & k3 & KW & EA & EB & EC & ET). fold w in KW.
    assert (DD : forall s, t0 - h <= s <= t0 + h -> derivable_pt_lim f s (f1 s) /\ derivable_pt_lim f1 s (f2 s) /\ derivable_pt_lim f2 s (f3 s)).
    { intros s S. destruct (D s S) as (Q1 & Q2 & Q3 & _). auto. }
    assert (K : Rabs (6 * k3) <= M).
    { assert (X : exists x, t0 - h <= x <= t0 + h /\ f3 x = 6 * k3).
      { destruct (Rlt_dec t t0) as [L|L].
        - assert (t0 - h < t). { destruct (Req_dec t (t0 - h)) as [Q|Q]; [exfalso; apply NZ; unfold w; rewrite Q; ring|lra]. }
          apply (four_zeros f f1 f2 f3 k0 k1 k2 k3 (t0 - h) t t0 (t0 + h)); auto; lra.
        - assert (t0 < t). { destruct (Req_dec t t0) as [Q|Q]; [exfalso; apply NZ; unfold w; rewrite Q; ring|lra]. }
          assert (t < t0 + h). { destruct (Req_dec t (t0 + h)) as [Q|Q]; [exfalso; apply NZ; unfold w; rewrite Q; ring|lra]. }
          apply (four_zeros f f1 f2 f3 k0 k1 k2 k3 (t0 - h) t0 t (t0 + h)); auto; lra. }
      destruct X as (x & X & E). rewrite <- E. apply (D x X). }
    replace ((interpolated f t0 h t - f t) ^ 2) with ((k3 * w) ^ 2) by (rewrite KW; ring).
    assert (NC := node_cubic (t - t0) h H ltac:(lra)). fold w in NC.
    assert (K2 : (6 * k3) ^ 2 <= M ^ 2).
    { rewrite <- (pow2_abs (6 * k3)). apply pow_incr. split; [apply Rabs_pos|exact K]. }
    replace ((k3 * w) ^ 2) with ((6 * k3) ^ 2 / 36 * w ^ 2) by field.
    apply Rle_trans with (M ^ 2 / 36 * (4 * h ^ 6 / 27)); [|right; field].
    apply Rmult_le_compat; [assert (Q := pow2_ge_0 (6 * k3)); lra|apply pow2_ge_0|lra|exact NC].
Qed.
Lemma C112_interpolation_proof : forall f t0 h t M, 0 < h -> smooth_motion f (t0 - h) (t0 + h) M -> t0 - h <= t <= t0 + h ->
  chord (combine3 (lagrange3 (t0 - h) t0 (t0 + h) t) (f (t0 - h)) (f t0) (f (t0 + h))) (f t) <= M * h ^ 3 / 9.
Proof.
  intros f t0 h t M H (SX & SY & SZ) T.
  assert (MP : 0 <= M). { destruct SX as (f1 & f2 & f3 & D). destruct (D t T) as (_ & _ & _ & Q). assert (R := Rabs_pos (f3 t)). lra. }
  assert (C : forall g : vec -> R, (g = vx \/ g = vy \/ g = vz) ->
    g (combine3 (lagrange3 (t0 - h) t0 (t0 + h) t) (f (t0 - h)) (f t0) (f (t0 + h))) = interpolated (fun s => g (f s)) t0 h t).
  { intros g G. unfold combine3, lagrange3, interpolated. destruct G as [->|[->| ->]]; cbn; field; lra. }
  unfold chord. rewrite (C vx) by auto. rewrite (C vy) by auto. rewrite (C vz) by auto.
  assert (BX := interpolation_error _ t0 h t M H SX T). assert (BY := interpolation_error _ t0 h t M H SY T). assert (BZ := interpolation_error _ t0 h t M H SZ T).
  cbn beta in BX, BY, BZ.
  assert (P : 0 <= M * h ^ 3 / 9) by (apply Rmult_le_pos; [apply Rmult_le_pos; [exact MP|apply pow_le; lra]|lra]).
  rewrite <- (sqrt_pow2 (M * h ^ 3 / 9)) by exact P. apply sqrt_le_1_alt. replace ((M * h ^ 3 / 9) ^ 2) with (3 * (M ^ 2 * h ^ 6 / 243)) by field. lra.
Qed.

(** ** Angles *)
Definition dt (u v : vec) : R := vx u * vx v + vy u * vy v + vz u * vz v.
Lemma cauchy : forall u v, dt u v * dt u v <= dt u u * dt v v.
Proof.
  intros [a b c] [x y z]. unfold dt. cbn.
  assert (A := Rle_0_sqr (a * y - b * x)). assert (B := Rle_0_sqr (a * z - c * x)). assert (C := Rle_0_sqr (b * z - c * y)). unfold Rsqr in *.
  assert (L : (a * a + b * b + c * c) * (x * x + y * y + z * z) - (a * x + b * y + c * z) * (a * x + b * y + c * z)
    = (a * y - b * x) * (a * y - b * x) + (a * z - c * x) * (a * z - c * x) + (b * z - c * y) * (b * z - c * y)) by ring.
  lra.
Qed.
Lemma dt_bound : forall u v, unit u -> unit v -> -1 <= dt u v <= 1.
Proof.
  intros u v U V. assert (C := cauchy u v). unfold unit in U, V. fold (dt u u) in U. fold (dt v v) in V. rewrite U, V in C. nra.
Qed.
Lemma acos_le : forall x a, 0 <= a <= PI -> cos a <= x -> x <= 1 -> acos x <= a.
Proof.
  intros x a A C X. assert (B := COS_bound a). assert (E := acos_bound x).
  apply Rnot_lt_le. intro L. assert (Q := cos_decreasing_1 a (acos x) ltac:(lra) ltac:(lra) ltac:(lra) ltac:(lra) L). rewrite cos_acos in Q by lra. lra.
Qed.
Lemma angle_triangle : forall u v w a b, unit u -> unit v -> unit w -> 0 <= a -> 0 <= b -> a + b <= PI ->
  cos a <= dt u v -> cos b <= dt v w -> cos (a + b) <= dt u w.
Proof.
  intros u v w a b U V W A B S HA HB. assert (P := dt_bound u v U V). assert (Q := dt_bound v w V W).
  set (p := dt u v) in *. set (q := dt v w) in *.
  assert (CU : (dt u w - p * q) * (dt u w - p * q) <= (1 - p * p) * (1 - q * q)).
  { assert (C := cauchy (vsub u (scale p v)) (vsub w (scale q v))).
    assert (E1 : dt (vsub u (scale p v)) (vsub u (scale p v)) = 1 - p * p).
    { transitivity (dt u u - 2 * p * dt u v + p * p * dt v v); [unfold dt, vsub, scale; cbn; ring|]. fold p. unfold unit in U, V. fold (dt u u) in U. fold (dt v v) in V. rewrite U, V. ring. }
    assert (E2 : dt (vsub w (scale q v)) (vsub w (scale q v)) = 1 - q * q).
    { transitivity (dt w w - 2 * q * dt v w + q * q * dt v v); [unfold dt, vsub, scale; cbn; ring|]. fold q. unfold unit in W, V. fold (dt w w) in W. fold (dt v v) in V. rewrite W, V. ring. }
    assert (E3 : dt (vsub u (scale p v)) (vsub w (scale q v)) = dt u w - p * q).
    { transitivity (dt u w - q * dt u v - p * dt v w + p * q * dt v v); [unfold dt, vsub, scale; cbn; ring|]. fold p q. unfold unit in V. fold (dt v v) in V. rewrite V. ring. }
    rewrite E1, E2, E3 in C. exact C. }
  assert (LB : p * q - sqrt (1 - p * p) * sqrt (1 - q * q) <= dt u w).
  { rewrite <- sqrt_mult by nra. assert (G : Rabs (dt u w - p * q) <= sqrt ((1 - p * p) * (1 - q * q))).
    { rewrite <- sqrt_Rsqr_abs. apply sqrt_le_1_alt. exact CU. }
    apply Rabs_le_inv in G. lra. }
  apply Rle_trans with (cos (acos p + acos q)).
  - assert (PA := acos_le p a ltac:(lra) HA ltac:(lra)). assert (PB := acos_le q b ltac:(lra) HB ltac:(lra)). assert (BP := acos_bound p). assert (BQ := acos_bound q).
    apply cos_decr_1; lra.
  - rewrite cos_plus, !cos_acos, !sin_acos by lra. unfold Rsqr. exact LB.
Qed.
Lemma within_triangle : forall u v w a b, unit u -> unit v -> unit w -> 0 <= a -> 0 <= b -> a + b <= 180 ->
  within u v a -> within v w b -> within u w (a + b).
Proof.
  intros u v w a b U V W A B S HA HB. unfold within in *. assert (P := PI_RGT_0).
  replace ((a + b) * PI / 180) with (a * PI / 180 + b * PI / 180) by field.
  apply (angle_triangle u v w); auto; try (apply Rmult_le_pos; [nra|lra]).
  replace (a * PI / 180 + b * PI / 180) with ((a + b) * (PI / 180)) by field. replace PI with (180 * (PI / 180)) at 2 by field. apply Rmult_le_compat_r; lra.
Qed.
Lemma within_sym : forall u v d, within u v d -> within v u d.
Proof. intros u v d. unfold within. lra. Qed.
Lemma within_more : forall u v a b, 0 <= a <= b -> b <= 180 -> within u v a -> within u v b.
Proof.
  intros u v a b A B H. unfold within in *. assert (P := PI_RGT_0). eapply Rle_trans; [|exact H]. apply cos_decr_1; nra.
Qed.
Lemma within_degrees : forall u v d e, unit u -> unit v -> 0 <= d -> d < e -> d <= 180 -> within u v d -> degrees_between u v < e.
Proof.
  intros u v d e U V D E S W. unfold degrees_between. fold (dt u v). change (dot u v) with (dt u v). assert (P := PI_RGT_0).
  assert (B := dt_bound u v U V). assert (A := acos_le (dt u v) (d * PI / 180) ltac:(nra) W ltac:(lra)).
  apply Rle_lt_trans with (d * PI / 180 * 180 / PI); [|replace (d * PI / 180 * 180 / PI) with d by (field; lra); exact E].
  unfold Rdiv. apply Rmult_le_compat_r; [left; apply Rinv_0_lt_compat; lra|lra].
Qed.

(** ** A disc meets a neighbour of each of its pixels *)
Lemma perpendicular : forall c, unit c -> exists e, unit e /\ dt c e = 0.
Proof.
  intros [x y z] C. unfold unit in C. cbn in C. destruct (Req_dec (x * x + y * y) 0) as [Z|Z].
  - exists (V3 1 0 0). unfold unit, dt. cbn. split; nra.
  - assert (P : 0 < x * x + y * y) by nra. set (r := sqrt (x * x + y * y)). assert (R : 0 < r) by (apply sqrt_lt_R0; exact P).
    assert (RR : r * r = x * x + y * y) by (apply sqrt_sqrt; lra). exists (V3 (- y / r) (x / r) 0). unfold unit, dt. cbn. split; [|field; lra].
    replace (- y / r * (- y / r) + x / r * (x / r) + 0 * 0) with ((x * x + y * y) / (r * r)) by (field; lra). rewrite RR. field. lra.
Qed.
Lemma squares_zero : forall a b c, a * a + b * b + c * c = 0 -> a = 0 /\ b = 0 /\ c = 0.
Proof.
  intros a b c H. assert (A := Rle_0_sqr a). assert (B := Rle_0_sqr b). assert (C := Rle_0_sqr c). unfold Rsqr in *.
  repeat split; apply Rsqr_0_uniq; unfold Rsqr; lra.
Qed.
Lemma great_circle : forall u c, unit u -> unit c -> exists e, unit e /\ dt c e = 0 /\ u = vadd (scale (cos (acos (dt u c))) c) (scale (sin (acos (dt u c))) e).
Proof.
  intros u c U C. assert (B := dt_bound u c U C). set (p := dt u c) in *. rewrite cos_acos, sin_acos by lra.
  assert (N : dt (vsub u (scale p c)) (vsub u (scale p c)) = 1 - p * p).
  { transitivity (dt u u - 2 * p * dt u c + p * p * dt c c); [unfold dt, vsub, scale; cbn; ring|]. fold p. unfold unit in U, C. fold (dt u u) in U. fold (dt c c) in C. rewrite U, C. ring. }
  assert (O : dt c (vsub u (scale p c)) = 0).
  { transitivity (dt u c - p * dt c c); [unfold dt, vsub, scale; cbn; ring|]. fold p. unfold unit in C. fold (dt c c) in C. rewrite C. ring. }
  set (s := sqrt (1 - Rsqr p)). assert (S0 : 0 <= s) by apply sqrt_pos. assert (SS : s * s = 1 - p * p) by (unfold s, Rsqr; apply sqrt_sqrt; nra).
  destruct (Req_dec s 0) as [Z|Z].
  - destruct (perpendicular c C) as (e & E & D). exists e. split; [exact E|]. split; [exact D|]. rewrite Z.
    assert (X : dt (vsub u (scale p c)) (vsub u (scale p c)) = 0) by nra. destruct u as [a b d], c as [x y z]. unfold dt, vsub, scale in X. cbn in X.
    apply squares_zero in X. unfold vadd, scale. cbn. f_equal; lra.
  - exists (scale (/ s) (vsub u (scale p c))). split; [|split].
    + unfold unit. transitivity (dt (vsub u (scale p c)) (vsub u (scale p c)) / (s * s)); [unfold dt, scale; cbn; field; exact Z|]. rewrite N, SS. field. nra.
    + transitivity (dt c (vsub u (scale p c)) / s); [unfold dt, scale; cbn; field; exact Z|]. rewrite O. field. exact Z.
    + destruct u as [a b d], c as [x y z]. unfold vadd, vsub, scale. cbn. f_equal; field; exact Z.
Qed.
Lemma on_circle : forall c e s t, unit c -> unit e -> dt c e = 0 ->
  dt (vadd (scale (cos s) c) (scale (sin s) e)) (vadd (scale (cos t) c) (scale (sin t) e)) = cos (s - t).
Proof.
  intros c e s t C E O. rewrite cos_minus. transitivity (cos s * cos t * dt c c + (cos s * sin t + sin s * cos t) * dt c e + sin s * sin t * dt e e); [unfold dt, vadd, scale; cbn; ring|].
  unfold unit in C, E. fold (dt c c) in C. fold (dt e e) in E. rewrite C, E, O. ring.
Qed.
Lemma beyond : forall x, exists n, x < INR n.
Proof.
  intro x. destruct (archimed x) as (A & _). exists (Z.to_nat (up x)). rewrite INR_IZR_INZ.
  destruct (Z_le_gt_dec 0 (up x)) as [L|L]; [rewrite Z2Nat.id by exact L; lra|].
  assert (IZR (up x) <= -1) by (apply IZR_le; lia). assert (0 <= IZR (Z.of_nat (Z.to_nat (up x)))) by (apply IZR_le; lia). lra.
Qed.
Lemma leaves : forall (P : nat -> Prop) n, (forall i, P i \/ ~ P i) -> P O -> ~ P n -> exists i, (i < n)%nat /\ P i /\ ~ P (S i).
Proof.
  intros P n D Z N. induction n as [|n IH]; [contradiction|]. destruct (D n) as [Y|Y]; [exists n; split; [lia|auto]|].
  destruct (IH Y) as (i & I & A). exists i. split; [lia|exact A].
Qed.
Lemma disc_meets : forall vec2pix nbrs disc D ra dec r u, covering vec2pix disc -> surrounding vec2pix nbrs -> no_wider vec2pix D ->
  0 <= D < r -> r <= 90 -> unit u -> within u (direction ra dec) r ->
  exists pix, In pix (disc ra dec r) /\ In pix (nbrs (vec2pix u)).
Proof.
  intros vec2pix nbrs disc D ra dec r u CO (m & M & SU) NW DR R9 U W. assert (P := PI_RGT_0).
  assert (C := direction_unit ra dec). set (c := direction ra dec) in *.
  destruct (great_circle u c U C) as (e & E & O & UE). assert (B := dt_bound u c U C). set (a := acos (dt u c)) in *.
  assert (AB : 0 <= a <= r * PI / 180). { split; [apply acos_bound|]. apply acos_le; [nra|exact W|lra]. }
  set (R := r * PI / 180) in *. set (dl := m * PI / 180) in *. assert (DL : 0 < dl) by (unfold dl; nra).
  assert (RP : 0 < R <= PI / 2) by (unfold R; nra).
  destruct (beyond ((a + R) / dl)) as (n & N).
  set (pt := fun i => a - (a + R) * (INR i / INR n)). set (w := fun i => vadd (scale (cos (pt i)) c) (scale (sin (pt i)) e)).
  assert (NP : 0 < INR n). { assert (0 < (a + R) / dl) by (apply Rdiv_lt_0_compat; lra). lra. }
  assert (WU : forall i, unit (w i)). { intro i. unfold unit. fold (dt (w i) (w i)). unfold w. rewrite on_circle by assumption. replace (pt i - pt i) with 0 by ring. apply cos_0. }
  assert (W0 : w 0%nat = u). { rewrite UE. unfold w, pt. cbn [INR]. replace (a - (a + R) * (0 / INR n)) with a by (field; lra). reflexivity. }
  assert (WN : vec2pix (w n) <> vec2pix u).
  { intro X. assert (Y := NW u (w n) U (WU n) (eq_sym X)). unfold within in Y. fold (dt u (w n)) in Y. rewrite <- W0 in Y. unfold w in Y. rewrite on_circle in Y by assumption.
    unfold pt in Y. cbn [INR] in Y. replace (a - (a + R) * (0 / INR n) - (a - (a + R) * (INR n / INR n))) with (a + R) in Y by (field; lra).
    assert (Q : cos (a + R) < cos (D * PI / 180)). { apply cos_decreasing_1; unfold R in *; try nra. } lra. }
  destruct (leaves (fun i => vec2pix (w i) = vec2pix u) n) as (i & I & PI1 & PI2).
  { intro i. destruct (Z.eq_dec (vec2pix (w i)) (vec2pix u)); auto. } { rewrite W0. reflexivity. } { exact WN. }
  exists (vec2pix (w (S i))). split.
  - apply CO; [lra|apply WU|]. unfold within. change (cos R <= dt (w (S i)) c).
    replace (dt (w (S i)) c) with (cos (pt (S i))).
    + assert (F : 0 <= INR (S i) / INR n <= 1).
      { split; [apply Rmult_le_pos; [apply pos_INR|left; apply Rinv_0_lt_compat; exact NP]|]. apply Rmult_le_reg_r with (INR n); [exact NP|]. unfold Rdiv. rewrite Rmult_assoc, Rinv_l by lra. rewrite Rmult_1_r, Rmult_1_l. apply le_INR. lia. }
      assert (G : - R <= pt (S i) <= R) by (unfold pt; nra).
      destruct (Rle_dec 0 (pt (S i))) as [L|L]; [apply cos_decr_1; lra|]. rewrite <- (cos_neg (pt (S i))). apply cos_decr_1; lra.
    + unfold w. transitivity (cos (pt (S i)) * dt c c + sin (pt (S i)) * dt c e); [|unfold dt, vadd, scale; cbn; ring]. unfold unit in C. fold (dt c c) in C. rewrite C, O. ring.
  - assert (K : within (w i) (w (S i)) m).
    { unfold within. fold (dt (w i) (w (S i))). unfold w. rewrite on_circle by assumption. fold dl.
      assert (G : pt i - pt (S i) = (a + R) / INR n) by (unfold pt; rewrite S_INR; field; lra). rewrite G.
      assert (0 < (a + R) / INR n) by (apply Rdiv_lt_0_compat; lra).
      assert ((a + R) / INR n <= dl). { apply Rmult_le_reg_r with (INR n); [exact NP|]. unfold Rdiv. rewrite Rmult_assoc, Rinv_l by lra. rewrite Rmult_1_r.
        apply Rlt_le in N. apply Rmult_le_compat_r with (r := dl) in N; [|lra]. unfold Rdiv in N. rewrite Rmult_assoc, Rinv_l in N by lra. lra. }
      apply cos_decr_1; unfold dl in *; nra. }
    destruct (SU (w i) (w (S i)) (WU i) (WU (S i)) K) as [X|X]; [exfalso; apply PI2; congruence|]. rewrite PI1 in X. exact X.
Qed.

(** ** Every object in the field is a row *)
Lemma near_direction : forall p u r eta, unit u -> chord p u <= r -> r < 1 -> 0 <= eta <= 90 -> r <= sin (eta * PI / 180) ->
  unit (scale (/ norm p) p) /\ within (scale (/ norm p) p) u eta /\ 0 < norm p.
Proof.
  intros p u r eta U H R E S. assert (P := PI_RGT_0).
  assert (NP : 0 < dot p p).
  { destruct (Rle_lt_dec (dot p p) 0) as [L|L]; [|exact L]. exfalso. unfold dot in L. assert (Z : vx p * vx p + vy p * vy p + vz p * vz p = 0).
    { assert (A := Rle_0_sqr (vx p)). assert (B := Rle_0_sqr (vy p)). assert (C := Rle_0_sqr (vz p)). unfold Rsqr in *. lra. }
    apply squares_zero in Z. destruct Z as (X & Y & Z). unfold chord in H. rewrite X, Y, Z in H.
    replace ((0 - vx u) ^ 2 + (0 - vy u) ^ 2 + (0 - vz u) ^ 2) with 1 in H by (rewrite <- U; ring). rewrite sqrt_1 in H. lra. }
  assert (N : 0 < norm p) by (apply sqrt_lt_R0; exact NP). assert (NN : norm p * norm p = dot p p) by (apply sqrt_sqrt; lra).
  assert (UP : unit (scale (/ norm p) p)).
  { unfold unit, scale. cbn. transitivity (dot p p / (norm p * norm p)); [unfold dot; field; lra|]. rewrite NN. field. lra. }
  split; [exact UP|]. split; [|exact N].
  set (g := vsub p u).
  assert (EQ : vadd (scale 1 g) u = V3 (norm p * vx (scale (/ norm p) p)) (norm p * vy (scale (/ norm p) p)) (norm p * vz (scale (/ norm p) p))).
  { unfold vadd, scale, g, vsub. cbn. f_equal; field; lra. }
  assert (DE : Rabs 1 * sqrt (vx g * vx g + vy g * vy g + vz g * vz g) = chord p u).
  { rewrite Rabs_R1, Rmult_1_l. unfold chord, g, vsub. cbn [vx vy vz]. f_equal. ring. }
  destruct (separation u g (scale (/ norm p) p) 1 (norm p) U UP N EQ) as (d & (D0 & D1) & D2 & D3); [rewrite DE; lra|]. rewrite DE in D3.
  assert (DL : d <= eta).
  { apply Rnot_lt_le. intro L. assert (Q : sin (eta * PI / 180) < sin (d * PI / 180)) by (apply sin_increasing_1; nra). lra. }
  apply within_sym. unfold within. rewrite <- D1. apply cos_decr_1; nra.
Qed.
Lemma chord_triangle : forall a b c, chord a c <= chord a b + chord b c.
Proof.
  intros [a b c] [x y z] [u v w]. unfold chord. cbn [vx vy vz].
  set (A := V3 (a - x) (b - y) (c - z)). set (B := V3 (x - u) (y - v) (z - w)).
  assert (E1 : (a - x) ^ 2 + (b - y) ^ 2 + (c - z) ^ 2 = dt A A) by (unfold dt, A; cbn; ring).
  assert (E2 : (x - u) ^ 2 + (y - v) ^ 2 + (z - w) ^ 2 = dt B B) by (unfold dt, B; cbn; ring).
  assert (E3 : (a - u) ^ 2 + (b - v) ^ 2 + (c - w) ^ 2 = dt A A + 2 * dt A B + dt B B) by (unfold dt, A, B; cbn; ring).
  rewrite E1, E2, E3. assert (PA : 0 <= dt A A) by (rewrite <- E1; assert (Q1 := pow2_ge_0 (a - x)); assert (Q2 := pow2_ge_0 (b - y)); assert (Q3 := pow2_ge_0 (c - z)); lra).
  assert (PB : 0 <= dt B B) by (rewrite <- E2; assert (Q1 := pow2_ge_0 (x - u)); assert (Q2 := pow2_ge_0 (y - v)); assert (Q3 := pow2_ge_0 (z - w)); lra).
  assert (SA := sqrt_pos (dt A A)). assert (SB := sqrt_pos (dt B B)).
  assert (C : dt A B <= sqrt (dt A A) * sqrt (dt B B)).
  { rewrite <- sqrt_mult by assumption. apply Rle_trans with (Rabs (dt A B)); [apply Rle_abs|]. rewrite <- sqrt_Rsqr_abs. apply sqrt_le_1_alt. apply cauchy. }
  rewrite <- (sqrt_pow2 (sqrt (dt A A) + sqrt (dt B B))) by lra. apply sqrt_le_1_alt.
  replace ((sqrt (dt A A) + sqrt (dt B B)) ^ 2) with (sqrt (dt A A) * sqrt (dt A A) + 2 * (sqrt (dt A A) * sqrt (dt B B)) + sqrt (dt B B) * sqrt (dt B B)) by ring.
  rewrite !sqrt_sqrt by assumption. lra.
Qed.
Lemma nearest_sample : forall n t0 h t, (2 <= n)%nat -> 0 < h -> Rabs (t - t0) <= h / 2 ->
  exists i, (i < n)%nat /\ let s := t0 - h + 2 * h * (INR i / (INR n - 1)) in Rabs (s - t) <= h / (INR n - 1) /\ t0 - h <= s <= t0 + h.
Proof.
  intros n t0 h t N H T. apply Rabs_le_inv in T. set (m := INR n - 1).
  assert (M : 1 <= m). { unfold m. apply le_INR in N. replace (INR 2) with 2 in N by (cbn; lra). lra. }
  set (x := (t - t0 + h) / (2 * h) * m).
  assert (X : m / 4 <= x <= 3 * m / 4).
  { assert (Q : 1 / 4 <= (t - t0 + h) / (2 * h) <= 3 / 4).
    { assert (Y : (t - t0 + h) / (2 * h) * (2 * h) = t - t0 + h) by (field; lra). split; apply Rmult_le_reg_r with (2 * h); try lra; rewrite Y; lra. }
    unfold x. split; [apply Rle_trans with (1 / 4 * m); [lra|apply Rmult_le_compat_r; lra]|apply Rle_trans with (3 / 4 * m); [apply Rmult_le_compat_r; lra|lra]]. }
  destruct (base_Int_part (x + 1 / 2)) as (B1 & B2). set (z := Int_part (x + 1 / 2)) in *.
  assert (Z0 : (0 <= z)%Z). { apply Z.lt_succ_r. apply lt_IZR. rewrite succ_IZR. lra. }
  assert (ZI : INR (Z.to_nat z) = IZR z) by (rewrite INR_IZR_INZ, Z2Nat.id by exact Z0; reflexivity).
  exists (Z.to_nat z). assert (ZN : (Z.to_nat z < n)%nat).
  { apply INR_lt. rewrite ZI. assert (IZR z < INR n) by (unfold m in *; lra). exact H0. }
  split; [exact ZN|]. rewrite ZI. fold m. cbn zeta.
  assert (E : t0 - h + 2 * h * (IZR z / m) - t = 2 * h / m * (IZR z - x)) by (unfold x; field; lra).
  assert (HM : 0 < h / m) by (apply Rdiv_lt_0_compat; lra).
  split.
  - rewrite E. rewrite Rabs_mult. rewrite (Rabs_right (2 * h / m)) by (apply Rle_ge; lra || (replace (2 * h / m) with (2 * (h / m)) by field; lra)).
    apply Rle_trans with (2 * h / m * (1 / 2)); [|right; field; lra]. apply Rmult_le_compat_l; [replace (2 * h / m) with (2 * (h / m)) by (field; lra); lra|]. apply Rabs_le. lra.
  - assert (F : 0 <= IZR z / m <= 1).
    { split; [apply Rmult_le_pos; [apply IZR_le; exact Z0|left; apply Rinv_0_lt_compat; lra]|].
      apply Rmult_le_reg_r with m; [lra|]. unfold Rdiv. rewrite Rmult_assoc, Rinv_l by lra.
      assert (L : INR (S (Z.to_nat z)) <= INR n) by (apply le_INR; lia). rewrite S_INR, ZI in L. unfold m. lra. }
    nra.
Qed.
Lemma Forall2_in : forall A B (P : A -> B -> Prop) l l' a, Forall2 P l l' -> In a l -> exists b, In b l' /\ P a b.
Proof. intros A B P l l' a F. induction F as [|x y l l' H F IH]; intro I; [destruct I|]. destruct I as [->|I]; [exists y; split; [left; reflexivity|exact H]|]. destruct (IH I) as (b & J & K). exists b. split; [right; exact J|exact K]. Qed.
Lemma seen_precise : forall trajectory jd_ref observatory k v, v_obs v = observatory (v_jd v) ->
  scale (/ norm (precise trajectory jd_ref k v)) (precise trajectory jd_ref k v) = seen trajectory jd_ref observatory k (v_jd v).
Proof. intros. unfold seen, rho_hat, precise. rewrite H. destruct (integrate_light_time _ _ _ _ _) as [[[rho ?] ?] ?]. reflexivity. Qed.
Lemma reached : forall trajectory jd_ref observatory vec2pix nbrs n_sub interval sims set_order disc fov buffer v0 vs rows reach k v M V eta,
  (forall u, unit u -> within u (direction (v_ra v) (v_dec v)) reach -> exists pix, In pix (disc (v_ra v) (v_dec v) fov) /\ In pix (nbrs (vec2pix u))) ->
  by_direction vec2pix -> set_listing set_order ->
  0 < interval -> (2 <= n_sub)%nat -> reach < fov + buffer -> reach <= 180 -> eta < 90 ->
  sorted_times (map v_jd (v0 :: vs)) ->
  ephemeris_rows trajectory jd_ref observatory vec2pix nbrs n_sub interval sims set_order disc fov buffer (v0 :: vs) = Ok rows ->
  In k sims -> In v (v0 :: vs) -> v_dir v = direction (v_ra v) (v_dec v) -> v_obs v = observatory (v_jd v) ->
  smooth_motion (seen trajectory jd_ref observatory k) (v_jd v - 3 / 2 * interval) (v_jd v + 3 / 2 * interval) M ->
  moving (seen trajectory jd_ref observatory k) (v_jd v - 3 / 2 * interval) (v_jd v + 3 / 2 * interval) V ->
  0 <= eta <= reach -> M * interval ^ 3 / 9 + V * interval / (INR n_sub - 1) <= sin (eta * PI / 180) ->
  within (seen trajectory jd_ref observatory k (v_jd v)) (v_dir v) (reach - eta) ->
  exists r, In r rows /\ e_obj r = k /\ e_visit r = v.
Proof.
  intros trajectory jd_ref observatory vec2pix nbrs n_sub interval sims set_order disc fov buffer v0 vs rows reach k v M V eta
    DM BD SO HI NS RB R18 E90 ST ROWS IK IV VD VO SM MO ET EB WI.
  destruct (C41_rows_proof trajectory jd_ref observatory vec2pix nbrs n_sub interval sims set_order disc fov buffer v0 vs HI SO) as (blocks & EQ & F2).
  rewrite ROWS in EQ. injection EQ as ->.
  destruct (Forall2_in _ _ _ _ _ v F2 IV) as (b & IB & tc & ti & _ & _ & TI & TC & _ & IFF). rewrite (TC ST) in *. clear TC F2 tc.
  assert (TIA := Rabs_le_inv _ _ TI). assert (P := PI_RGT_0).
  set (S := seen trajectory jd_ref observatory k) in *. set (t := v_jd v) in *.
  assert (M1 : 1 <= INR n_sub - 1). { apply le_INR in NS. replace (INR 2) with 2 in NS by (cbn; lra). lra. }
  assert (SMW : smooth_motion S (ti - interval) (ti + interval) M).
  { assert (X : forall f, smooth f (t - 3 / 2 * interval) (t + 3 / 2 * interval) M -> smooth f (ti - interval) (ti + interval) M).
    { intros f (f1 & f2 & f3 & G). exists f1, f2, f3. intros s Hs. apply G. lra. }
    destruct SM as (A1 & A2 & A3). split; [|split]; apply X; assumption. }
  assert (US : forall s, ti - interval <= s <= ti + interval -> unit (S s)) by (intros s Hs; apply MO; lra).
  assert (UT : unit (S t)) by (apply US; lra). assert (UC := direction_unit (v_ra v) (v_dec v)). rewrite <- VD in UC.
  set (par := parabola trajectory jd_ref observatory interval ti k).
  assert (PE : forall s, ti - interval <= s <= ti + interval -> chord (par s) (S s) <= M * interval ^ 3 / 9).
  { intros s Hs. exact (C112_interpolation_proof S ti interval s M HI SMW Hs). }
  assert (V0 : 0 <= V).
  { destruct (MO t ltac:(lra)) as (_ & Q). assert (Q1 := Q (t + interval) ltac:(lra)). assert (C0 : 0 <= chord (S t) (S (t + interval))) by apply sqrt_pos.
    replace (t - (t + interval)) with (- interval) in Q1 by ring. rewrite Rabs_Ropp, Rabs_right in Q1 by lra. apply Rnot_lt_le. intro L. nra. }
  assert (M0 : 0 <= M * interval ^ 3 / 9).
  { assert (C0 : 0 <= chord (par t) (S t)) by apply sqrt_pos. assert (Q := PE t ltac:(lra)). lra. }
  set (r := M * interval ^ 3 / 9 + V * interval / (INR n_sub - 1)) in *.
  assert (VN : 0 <= V * interval / (INR n_sub - 1)) by (apply Rmult_le_pos; [nra|left; apply Rinv_0_lt_compat; lra]).
  assert (E9 : 0 <= eta <= 90) by lra.
  assert (R1 : r < 1). { eapply Rle_lt_trans; [exact EB|]. rewrite <- sin_PI2. apply sin_increasing_1; nra. }
  assert (KEY : forall s, ti - interval <= s <= ti + interval -> Rabs (s - t) <= interval / (INR n_sub - 1) ->
     unit (scale (/ norm (par s)) (par s)) /\ within (scale (/ norm (par s)) (par s)) (v_dir v) reach /\ 0 < norm (par s)).
  { intros s Hs Hd. assert (CH : chord (par s) (S t) <= r).
    { eapply Rle_trans; [apply (chord_triangle _ (S s) _)|]. unfold r. apply Rplus_le_compat; [apply PE; exact Hs|].
      destruct (MO s ltac:(lra)) as (_ & Q). eapply Rle_trans; [apply (Q t); lra|]. unfold Rdiv. rewrite Rmult_assoc. apply Rmult_le_compat_l; [exact V0|exact Hd]. }
    destruct (near_direction (par s) (S t) r eta UT CH R1 E9 EB) as (A1 & A2 & A3). split; [exact A1|]. split; [|exact A3].
    replace reach with (eta + (reach - eta)) by ring. apply (within_triangle _ (S t) _); auto; lra. }
  exists {| e_obj := k; e_visit := v; e_rho := precise trajectory jd_ref k v |}. split; [|auto].
  apply in_concat. exists b. split; [exact IB|]. apply IFF. cbn [e_obj e_visit e_rho]. split; [reflexivity|]. split; [reflexivity|]. split; [exact IK|].
  split; [|split].
  - destruct (nearest_sample n_sub ti interval t NS HI TI) as (i & IN & NE & NW2).
    destruct (KEY _ NW2 NE) as (A1 & A2 & A3). set (s := ti - interval + 2 * interval * (INR i / (INR n_sub - 1))) in *.
    rewrite VD in A2. destruct (DM _ A1 A2) as (pix & I1 & I2).
    exists i, pix. split; [exact IN|]. split; [exact I1|]. fold par. fold s.
    assert (BP : vec2pix (scale (/ norm (par s)) (par s)) = vec2pix (par s)).
    { unfold scale. rewrite BD by (apply Rinv_0_lt_compat; exact A3). destruct (par s); reflexivity. }
    rewrite BP in I2. exact I2.
  - cbn zeta. fold t par. destruct (KEY t ltac:(lra)) as (A1 & A2 & _).
    + replace (t - t) with 0 by ring. rewrite Rabs_R0. apply Rmult_le_pos; [lra|left; apply Rinv_0_lt_compat; lra].
    + apply within_degrees with reach; auto; lra.
  - cbn zeta. rewrite (seen_precise trajectory jd_ref observatory k v VO). fold t S. apply within_degrees with (reach - eta); auto; lra.
Qed.

Lemma C112_complete_proof : forall trajectory jd_ref observatory vec2pix nbrs n_sub interval sims set_order disc fov buffer v0 vs rows D k v M V eta,
  covering vec2pix disc -> surrounding vec2pix nbrs -> no_wider vec2pix D -> by_direction vec2pix -> set_listing set_order ->
  0 < interval -> (2 <= n_sub)%nat -> 0 <= D < fov -> fov < 90 -> 0 < buffer ->
  sorted_times (map v_jd (v0 :: vs)) ->
  ephemeris_rows trajectory jd_ref observatory vec2pix nbrs n_sub interval sims set_order disc fov buffer (v0 :: vs) = Ok rows ->
  In k sims -> In v (v0 :: vs) -> v_dir v = direction (v_ra v) (v_dec v) -> v_obs v = observatory (v_jd v) ->
  smooth_motion (seen trajectory jd_ref observatory k) (v_jd v - 3 / 2 * interval) (v_jd v + 3 / 2 * interval) M ->
  moving (seen trajectory jd_ref observatory k) (v_jd v - 3 / 2 * interval) (v_jd v + 3 / 2 * interval) V ->
  0 <= eta <= fov -> M * interval ^ 3 / 9 + V * interval / (INR n_sub - 1) <= sin (eta * PI / 180) ->
  within (seen trajectory jd_ref observatory k (v_jd v)) (v_dir v) (fov - eta) ->
  exists r, In r rows /\ e_obj r = k /\ e_visit r = v.
Proof.
  intros trajectory jd_ref observatory vec2pix nbrs n_sub interval sims set_order disc fov buffer v0 vs rows D k v M V eta
    CO SU NW BD SO HI NS DF F9 BU ST ROWS IK IV VD VO SM MO ET EB WI.
  refine (reached trajectory jd_ref observatory vec2pix nbrs n_sub interval sims set_order disc fov buffer v0 vs rows fov k v M V eta
    _ BD SO HI NS _ _ _ ST ROWS IK IV VD VO SM MO ET EB WI); try lra.
  intros u U W. apply disc_meets with D; auto; lra.
Qed.
(** A little beyond the radius that is searched: the neighbours reach the disc. *)
Lemma disc_reached : forall vec2pix nbrs disc D ra dec r m u, covering vec2pix disc -> surrounding_by vec2pix nbrs m -> no_wider vec2pix D ->
  0 <= D < r -> r <= 90 -> 0 < m -> r + m <= 180 -> unit u -> within u (direction ra dec) (r + m) ->
  exists pix, In pix (disc ra dec r) /\ In pix (nbrs (vec2pix u)).
Proof.
  intros vec2pix nbrs disc D ra dec r m u CO SU NW DR R9 M0 RM U W. assert (P := PI_RGT_0).
  assert (SU' : surrounding vec2pix nbrs) by (exists m; split; [lra|exact SU]).
  destruct (Rle_dec (cos (r * PI / 180)) (dt u (direction ra dec))) as [IN|OUT]; [apply disc_meets with D; assumption|].
  assert (C := direction_unit ra dec). set (c := direction ra dec) in *.
  destruct (great_circle u c U C) as (e & E & O & UE). assert (B := dt_bound u c U C). set (a := acos (dt u c)) in *.
  set (R := r * PI / 180) in *. assert (RP : 0 < R <= PI / 2) by (unfold R; nra). set (dl := m * PI / 180).
  assert (AB : a <= R + dl). { apply acos_le; [unfold R, dl; nra| |lra]. unfold within in W. fold c in W. unfold R, dl. replace (r * PI / 180 + m * PI / 180) with ((r + m) * PI / 180) by field. exact W. }
  assert (AR : R < a). { apply Rnot_le_lt. intro L. apply OUT. replace (dt u c) with (cos a) by (apply cos_acos; lra). apply cos_decr_1; try lra; apply acos_bound. }
  set (w := vadd (scale (cos R) c) (scale (sin R) e)).
  assert (WU : unit w). { unfold unit. fold (dt w w). unfold w. rewrite on_circle by assumption. replace (R - R) with 0 by ring. apply cos_0. }
  assert (WC : within w c r).
  { unfold within. fold (dt w c). fold R. right. transitivity (cos R * dt c c + sin R * dt c e); [|unfold w, dt, vadd, scale; cbn; ring]. unfold unit in C. fold (dt c c) in C. rewrite C, O. ring. }
  assert (WW : within u w m).
  { unfold within. fold (dt u w). fold dl. rewrite UE. unfold w. rewrite on_circle by assumption. apply cos_decr_1; unfold dl in *; nra. }
  destruct (SU u w U WU WW) as [X|X].
  - destruct (disc_meets vec2pix nbrs disc D ra dec r w CO SU' NW DR R9 WU WC) as (pix & I1 & I2). exists pix. rewrite X in I2. auto.
  - exists (vec2pix w). split; [|exact X]. apply CO; auto. lra.
Qed.
Lemma C112_buffer_proof : forall trajectory jd_ref observatory vec2pix nbrs n_sub interval sims set_order disc fov buffer v0 vs rows D m k v M V eta,
  covering vec2pix disc -> surrounding_by vec2pix nbrs m -> no_wider vec2pix D -> by_direction vec2pix -> set_listing set_order ->
  0 < interval -> (2 <= n_sub)%nat -> 0 <= D < fov -> fov < 90 -> 0 < m < buffer -> fov + m <= 180 ->
  sorted_times (map v_jd (v0 :: vs)) ->
  ephemeris_rows trajectory jd_ref observatory vec2pix nbrs n_sub interval sims set_order disc fov buffer (v0 :: vs) = Ok rows ->
  In k sims -> In v (v0 :: vs) -> v_dir v = direction (v_ra v) (v_dec v) -> v_obs v = observatory (v_jd v) ->
  smooth_motion (seen trajectory jd_ref observatory k) (v_jd v - 3 / 2 * interval) (v_jd v + 3 / 2 * interval) M ->
  moving (seen trajectory jd_ref observatory k) (v_jd v - 3 / 2 * interval) (v_jd v + 3 / 2 * interval) V ->
  0 <= eta <= fov -> M * interval ^ 3 / 9 + V * interval / (INR n_sub - 1) <= sin (eta * PI / 180) ->
  within (seen trajectory jd_ref observatory k (v_jd v)) (v_dir v) (fov + m - eta) ->
  exists r, In r rows /\ e_obj r = k /\ e_visit r = v.
Proof.
  intros trajectory jd_ref observatory vec2pix nbrs n_sub interval sims set_order disc fov buffer v0 vs rows D m k v M V eta
    CO SU NW BD SO HI NS DF F9 BU FM ST ROWS IK IV VD VO SM MO ET EB WI.
  refine (reached trajectory jd_ref observatory vec2pix nbrs n_sub interval sims set_order disc fov buffer v0 vs rows (fov + m) k v M V eta
    _ BD SO HI NS _ _ _ ST ROWS IK IV VD VO SM MO _ EB WI); try lra.
  intros u U W. apply disc_reached with D m; auto; lra.
Qed.
