From Coq Require Import Reals ZArith List Lra Lia Psatz.
From Verif Require Import Model.Sphere Spec.Sphere.
Open Scope R_scope.

Lemma vec_eq : forall a b, vx a = vx b -> vy a = vy b -> vz a = vz b -> a = b.
Proof. intros [a1 a2 a3] [b1 b2 b3]; cbn; intros; subst; reflexivity. Qed.

(** ** Angles *)
Lemma sc1 : forall x, cos x * cos x + sin x * sin x = 1.
Proof. intro x. pose proof (sin2_cos2 x) as H. unfold Rsqr in H. lra. Qed.

Lemma PI_pos : 0 < PI. Proof. exact PI_RGT_0. Qed.

Lemma rmod_range : forall a m, 0 < m -> 0 <= rmod a m < m.
Proof.
  intros a m Hm. unfold rmod. destruct (base_Int_part (a / m)) as [H1 H2].
  set (k := IZR (Int_part (a / m))) in *.
  assert (E : a = m * (a / m)) by (field; lra). split.
  - assert (m * k <= m * (a / m)) by (apply Rmult_le_compat_l; lra). lra.
  - assert (m * (a / m - 1) < m * k) by (apply Rmult_lt_compat_l; lra). lra.
Qed.
Lemma rmod_turn : forall a m, exists k, rmod a m = a + m * IZR k.
Proof. intros. exists (- Int_part (a / m))%Z. unfold rmod. rewrite opp_IZR. lra. Qed.
Lemma rmod_unique : forall a m r k, 0 < m -> 0 <= r < m -> a = r + m * IZR k -> rmod a m = r.
Proof.
  intros a m r k Hm Hr ->. destruct (rmod_range (r + m * IZR k) m Hm) as [H1 H2].
  destruct (rmod_turn (r + m * IZR k) m) as [j E].
  rewrite E in *. assert (Hz : -1 < IZR (k + j) < 1).
  { rewrite plus_IZR. split; apply (Rmult_lt_reg_l m); lra. }
  assert ((k + j)%Z = 0%Z).
  { destruct Hz as [Z1 Z2]. apply lt_IZR in Z2. assert (IZR (-1) < IZR (k + j)) by lra.
    apply lt_IZR in H. lia. }
  assert (IZR (k + j) = 0) by (rewrite H; reflexivity). rewrite plus_IZR in H0.
  replace (IZR j) with (- IZR k) by lra. lra.
Qed.

Lemma cos_turn : forall x k, cos (x + 2 * PI * IZR k) = cos x /\ sin (x + 2 * PI * IZR k) = sin x.
Proof.
  intros x k. destruct (Z_le_gt_dec 0 k) as [Hk|Hk].
  - rewrite <- (Z2Nat.id k Hk). rewrite <- INR_IZR_INZ. set (n := Z.to_nat k).
    replace (x + 2 * PI * INR n) with (x + 2 * INR n * PI) by ring.
    split; [apply cos_period|apply sin_period].
  - assert (Hk' : (0 <= - k)%Z) by lia.
    set (n := Z.to_nat (- k)). assert (E : IZR k = - INR n).
    { unfold n. rewrite INR_IZR_INZ, Z2Nat.id by lia. rewrite opp_IZR. lra. }
    rewrite E. set (y := x + 2 * PI * - INR n). replace x with (y + 2 * INR n * PI) by (unfold y; ring).
    split; symmetry; [apply cos_period|apply sin_period].
Qed.

Lemma angle_unique : forall a b, cos a = cos b -> sin a = sin b -> - 2 * PI < a - b < 2 * PI -> a = b.
Proof.
  intros a b Hc Hs Hr. assert (H1 : cos (a - b) = 1).
  { rewrite cos_minus, Hc, Hs. apply sc1. }
  assert (H2 : sin (a - b) = 0) by (rewrite sin_minus, Hc, Hs; ring).
  set (d := a - b) in *. assert (Hd : d = 0); [|unfold d in Hd; lra].
  clearbody d. clear - H1 H2 Hr. pose proof PI_pos.
  destruct (Rtotal_order d 0) as [Hd|[Hd|Hd]]; auto; exfalso.
  - destruct (Rlt_le_dec (- PI) d).
    + assert (0 < sin (- d)) by (apply sin_gt_0; lra). rewrite sin_neg in H0. lra.
    + destruct (Req_dec d (- PI)) as [->|Hne].
      * rewrite cos_neg, cos_PI in H1. lra.
      * assert (Hx : 0 < sin (d + 2 * PI)) by (apply sin_gt_0; lra).
        rewrite sin_2PI_k in Hx || idtac.
        replace (d + 2 * PI) with (d + 2 * PI * IZR 1) in Hx by (simpl; ring).
        rewrite (proj2 (cos_turn d 1)) in Hx. lra.
  - destruct (Rlt_le_dec d PI).
    + assert (0 < sin d) by (apply sin_gt_0; lra). lra.
    + destruct (Req_dec d PI) as [->|Hne].
      * rewrite cos_PI in H1. lra.
      * assert (Hx : 0 < sin (- d + 2 * PI)) by (apply sin_gt_0; lra).
        replace (- d + 2 * PI) with (- d + 2 * PI * IZR 1) in Hx by (simpl; ring).
        rewrite (proj2 (cos_turn (- d) 1)) in Hx. rewrite sin_neg in Hx. lra.
Qed.

(** ** arctan2 *)
Lemma cos_atan : forall x, cos (atan x) = / sqrt (1 + x * x).
Proof.
  intro x. pose proof (atan_bound x) as [B1 B2].
  assert (Hc : 0 < cos (atan x)) by (apply cos_gt_0; lra).
  assert (Ht : tan (atan x) = x) by apply tan_atan || apply atan_right_inv.
  unfold tan in Ht. assert (Hs : sin (atan x) = x * cos (atan x)) by (rewrite <- Ht at 2; field; lra).
  pose proof (sc1 (atan x)) as H. rewrite Hs in H.
  assert (Hq : 0 < 1 + x * x) by nra.
  assert (H2 : cos (atan x) * cos (atan x) = / (1 + x * x)) by (field_simplify_eq; nra).
  assert (Hsq : 0 < sqrt (1 + x * x)) by (apply sqrt_lt_R0; auto).
  apply Rsqr_inj; [lra|left; apply Rinv_0_lt_compat; auto|].
  unfold Rsqr. rewrite H2, <- Rinv_mult. rewrite sqrt_sqrt by lra. reflexivity.
Qed.
Lemma sin_atan' : forall x, sin (atan x) = x * / sqrt (1 + x * x).
Proof.
  intro x. pose proof (atan_bound x) as [B1 B2].
  assert (Hc : 0 < cos (atan x)) by (apply cos_gt_0; lra).
  assert (Ht : tan (atan x) = x) by apply tan_atan || apply atan_right_inv.
  unfold tan in Ht. rewrite <- cos_atan. rewrite <- Ht at 2. field. lra.
Qed.

Lemma sqrt_ratio : forall x y, x <> 0 -> sqrt (1 + y / x * (y / x)) = sqrt (x * x + y * y) / Rabs x.
Proof.
  intros x y Hx. assert (Ha : 0 < Rabs x) by (apply Rabs_pos_lt; auto).
  replace (1 + y / x * (y / x)) with ((x * x + y * y) / (x * x)) by (field; auto).
  rewrite sqrt_div_alt by nra. f_equal.
  replace (x * x) with (Rsqr x) by reflexivity. apply sqrt_Rsqr_abs.
Qed.

Lemma arctan2_spec : forall x y, 0 < x * x + y * y ->
  cos (arctan2 y x) = x / sqrt (x * x + y * y) /\ sin (arctan2 y x) = y / sqrt (x * x + y * y) /\
  - PI < arctan2 y x <= PI.
Proof.
  intros x y H. pose proof PI_pos. assert (Hs : 0 < sqrt (x * x + y * y)) by (apply sqrt_lt_R0; auto).
  unfold arctan2. pose proof (atan_bound (y / x)) as [B1 B2].
  destruct (Rlt_dec 0 x) as [Hx|Hx].
  - rewrite cos_atan, sin_atan', sqrt_ratio by lra. rewrite Rabs_right by lra.
    split; [field; lra|]. split; [field; lra|lra].
  - destruct (Rlt_dec x 0) as [Hx'|Hx'].
    + destruct (Rle_dec 0 y) as [Hy|Hy].
      * rewrite neg_cos, neg_sin, cos_atan, sin_atan', sqrt_ratio by lra.
        rewrite Rabs_left by lra. split; [field; lra|]. split; [field; lra|].
        split; [lra|]. assert (y / x <= 0).
        { unfold Rdiv. assert (/ x < 0) by (apply Rinv_lt_0_compat; auto). nra. }
        assert (atan (y / x) <= 0); [|lra]. destruct (Req_dec (y / x) 0) as [->|Hne]; [rewrite atan_0; lra|].
        assert (y / x < 0) by lra. pose proof (atan_increasing (y / x) 0 H2). rewrite atan_0 in H3. lra.
      * replace (atan (y / x) - PI) with (- (PI - atan (y / x))) by ring.
        rewrite cos_neg, sin_neg, sin_PI_x. rewrite cos_minus, cos_PI, sin_PI.
        replace (-1 * cos (atan (y / x)) + 0 * sin (atan (y / x))) with (- cos (atan (y / x))) by ring.
        rewrite cos_atan, sin_atan', sqrt_ratio by lra. rewrite Rabs_left by lra.
        split; [field; lra|]. split; [field; lra|]. assert (0 < y / x).
        { unfold Rdiv. assert (/ x < 0) by (apply Rinv_lt_0_compat; auto). nra. }
        pose proof (atan_increasing 0 (y / x) H1). rewrite atan_0 in H2. lra.
    + assert (x = 0) by lra. subst x. replace (0 * 0 + y * y) with (Rsqr y) in * by (unfold Rsqr; ring).
      rewrite sqrt_Rsqr_abs in *. destruct (Rlt_dec 0 y) as [Hy|Hy].
      * rewrite cos_PI2, sin_PI2, Rabs_right by lra. split; [field; lra|]. split; [field; lra|lra].
      * destruct (Rlt_dec y 0) as [Hy'|Hy'].
        -- rewrite cos_neg, sin_neg, cos_PI2, sin_PI2, Rabs_left by lra. split; [field; lra|]. split; [field; lra|lra].
        -- assert (y = 0) by lra. subst. unfold Rsqr in H. lra.
Qed.

(** ** Vectors and angles *)
Lemma deg_rad : forall x, deg2rad (rad2deg x) = x.
Proof. intro. unfold deg2rad, rad2deg. field. apply PI_neq0. Qed.
Lemma rad_deg : forall x, rad2deg (deg2rad x) = x.
Proof. intro. unfold deg2rad, rad2deg. field. apply PI_neq0. Qed.

Lemma radec2icrf_direction : forall ra dec, radec2icrf ra dec = direction ra dec.
Proof. reflexivity. Qed.
Lemma ra_dec2vec_direction : forall ra dec, ra_dec2vec ra dec = direction ra dec.
Proof.
  intros. unfold ra_dec2vec, direction.
  replace (ra * (PI / 180)) with (ra * PI / 180) by (unfold Rdiv; ring).
  replace (dec * (PI / 180)) with (dec * PI / 180) by (unfold Rdiv; ring).
  f_equal; ring.
Qed.
Lemma direction_unit : forall ra dec, unit (direction ra dec).
Proof.
  intros. unfold unit, direction; cbn. pose proof (sc1 (ra * PI / 180)). pose proof (sc1 (dec * PI / 180)).
  set (a := cos (ra * PI / 180)) in *. set (b := sin (ra * PI / 180)) in *.
  set (c := cos (dec * PI / 180)) in *. set (d := sin (dec * PI / 180)) in *.
  replace (c * a * (c * a) + c * b * (c * b) + d * d) with (c * c * (a * a + b * b) + d * d) by ring. rewrite H. lra.
Qed.

Lemma norm_pos : forall v, norm v <> 0 -> 0 < norm v.
Proof. intros v H. pose proof (sqrt_pos (dot v v)). unfold norm in *. lra. Qed.
Lemma norm_sq : forall v, norm v * norm v = dot v v.
Proof. intro v. unfold norm. apply sqrt_sqrt. unfold dot. nra. Qed.
Lemma unit_norm : forall v, unit v -> norm v = 1.
Proof. intros v H. unfold norm, dot. unfold unit in H. rewrite H. apply sqrt_1. Qed.
Lemma norm_nonzero : forall v, v <> V3 0 0 0 -> 0 < norm v.
Proof.
  intros [x y z] H. unfold norm, dot; cbn. apply sqrt_lt_R0.
  destruct (Req_dec x 0), (Req_dec y 0), (Req_dec z 0); subst; try nra. congruence.
Qed.

(** Both conversions to angles, on a unit vector. *)
Lemma to_angles : forall v phi delta, unit v -> phi = arctan2 (vy v) (vx v) -> delta = asin (vz v) ->
  cos delta * cos phi = vx v /\ cos delta * sin phi = vy v /\ sin delta = vz v /\ - (PI / 2) <= delta <= PI / 2.
Proof.
  intros [x y z] phi delta H -> ->. unfold unit in H. cbn in *.
  assert (Hz : -1 <= z <= 1) by nra.
  assert (Es : sin (asin z) = z) by (apply sin_asin; auto).
  pose proof (asin_bound z) as B. assert (Hc : 0 <= cos (asin z)) by (apply cos_ge_0; lra).
  assert (Ec : cos (asin z) = sqrt (x * x + y * y)).
  { apply Rsqr_inj; [auto|apply sqrt_pos|]. unfold Rsqr. rewrite sqrt_sqrt by nra.
    pose proof (sc1 (asin z)). rewrite Es in H0. nra. }
  destruct (Req_dec (x * x + y * y) 0) as [E0|E0].
  - assert (x = 0) by nra. assert (y = 0) by nra. subst. rewrite E0, sqrt_0 in Ec.
    rewrite Ec. repeat split; try lra.
  - assert (Hp : 0 < x * x + y * y) by nra. destruct (arctan2_spec x y Hp) as [H1 [H2 H3]].
    assert (0 < sqrt (x * x + y * y)) by (apply sqrt_lt_R0; auto).
    rewrite H1, H2, Ec. split; [field; lra|]. split; [field; lra|]. split; [auto|lra].
Qed.

Lemma cos_deg_turn : forall a k, cos (deg2rad (a + 360 * IZR k)) = cos (deg2rad a) /\ sin (deg2rad (a + 360 * IZR k)) = sin (deg2rad a).
Proof.
  intros. replace (deg2rad (a + 360 * IZR k)) with (deg2rad a + 2 * PI * IZR k) by (unfold deg2rad; field).
  apply cos_turn.
Qed.

Lemma same_turn_direction : forall a b d, same_turn a b -> direction a d = direction b d.
Proof.
  intros a b d [k ->]. destruct (cos_deg_turn b k) as [H1 H2]. unfold deg2rad in *. unfold direction. rewrite H1, H2. reflexivity.
Qed.

Lemma rad2deg_half : forall x, - (PI / 2) <= x <= PI / 2 -> -90 <= rad2deg x <= 90.
Proof.
  intros x [H1 H2]. pose proof PI_pos. unfold rad2deg.
  assert (E : x = (x * 180 / PI) * (PI / 180)) by (field; lra). split.
  - apply (Rmult_le_reg_r (PI / 180)); [lra|]. rewrite <- E. lra.
  - apply (Rmult_le_reg_r (PI / 180)); [lra|]. rewrite <- E. lra.
Qed.

Lemma angles_direction : forall v ra dec phi delta, unit v ->
  phi = arctan2 (vy v) (vx v) -> delta = asin (vz v) ->
  same_turn ra (rad2deg phi) -> dec = rad2deg delta ->
  direction ra dec = v /\ -90 <= dec <= 90.
Proof.
  intros v ra dec phi delta Hu Hp Hd Ht ->. destruct (to_angles v phi delta Hu Hp Hd) as [H1 [H2 [H3 H4]]].
  split; [|apply rad2deg_half; auto]. rewrite (same_turn_direction _ _ _ Ht). apply vec_eq; unfold direction; cbn;
    change (rad2deg phi * PI / 180) with (deg2rad (rad2deg phi)); change (rad2deg delta * PI / 180) with (deg2rad (rad2deg delta));
    rewrite ?deg_rad; auto.
Qed.

Lemma scaled_unit : forall v, v <> V3 0 0 0 -> unit (scale (/ norm v) v).
Proof.
  intros v H. apply norm_nonzero in H. pose proof (norm_sq v) as E. unfold unit, scale, dot in *; cbn.
  set (n := norm v) in *. replace (_ + _ + _) with ((vx v * vx v + vy v * vy v + vz v * vz v) * / n * / n) by ring.
  rewrite <- E. field. lra.
Qed.

(** The vector back from its angles. *)
Lemma C33_vector_proof : forall x y z ra dec, V3 x y z <> V3 0 0 0 -> icrf2radec x y z = (ra, dec) ->
  0 <= ra < 360 /\ -90 <= dec <= 90 /\ along (V3 x y z) (radec2icrf ra dec).
Proof.
  intros x y z ra dec Hn H. unfold icrf2radec in H. set (r := norm (V3 x y z)) in *.
  assert (Hr : 0 < r) by (apply norm_nonzero; auto). injection H as Hra Hdec.
  assert (Hu := scaled_unit _ Hn). fold r in Hu.
  assert (Ht : same_turn ra (rad2deg (arctan2 (y / r) (x / r)))).
  { subst ra. destruct (rmod_turn (rad2deg (arctan2 (y / r) (x / r)) + 360) 360) as [k E]. rewrite E.
    exists (1 + k)%Z. rewrite plus_IZR. lra. }
  destruct (angles_direction (scale (/ r) (V3 x y z)) ra dec (arctan2 (y / r) (x / r)) (asin (z / r)) Hu) as [H1 H2]; auto.
  - cbn. f_equal; unfold Rdiv; ring.
  - cbn. f_equal. unfold Rdiv. ring.
  - split; [subst ra; apply rmod_range; lra|]. split; auto. rewrite radec2icrf_direction, H1.
    exists r. split; auto. apply vec_eq; cbn; field; lra.
Qed.
Lemma C33_vector2_proof : forall v ra dec, unit v -> vec2ra_dec v = (ra, dec) ->
  0 <= ra < 360 /\ -90 <= dec <= 90 /\ ra_dec2vec ra dec = v.
Proof.
  intros v ra dec Hu H. unfold vec2ra_dec in H. injection H as Hra Hdec. pose proof PI_pos.
  assert (Ht : same_turn ra (rad2deg (arctan2 (vy v) (vx v)))).
  { subst ra. destruct (rmod_turn (180 / PI * arctan2 (vy v) (vx v)) 360) as [k E]. rewrite E. exists k.
    unfold rad2deg. f_equal. field. lra. }
  destruct (angles_direction v ra dec _ _ Hu eq_refl eq_refl Ht) as [H1 H2].
  - subst dec. unfold rad2deg. field. lra.
  - split; [subst ra; apply rmod_range; lra|]. split; auto. rewrite ra_dec2vec_direction. auto.
Qed.

Lemma C33_unit_proof : forall ra dec, unit (radec2icrf ra dec) /\ ra_dec2vec ra dec = radec2icrf ra dec.
Proof. intros. split; [apply direction_unit|]. rewrite ra_dec2vec_direction. reflexivity. Qed.

(** Angles determine each other. *)
Lemma direction_inj : forall a b d e, -90 <= d <= 90 -> -90 <= e <= 90 -> direction a d = direction b e ->
  d = e /\ (-90 < d < 90 -> 0 <= a < 360 -> 0 <= b < 360 -> a = b).
Proof.
  intros a b d e Hd He H. pose proof PI_pos. unfold direction in H. injection H as H1 H2 H3.
  assert (Hde : d = e).
  { assert (Hx : d * PI / 180 = e * PI / 180).
    { rewrite <- (asin_sin (d * PI / 180)), <- (asin_sin (e * PI / 180)); [congruence| |]; split; nra. }
    nra. }
  split; auto. subst e. intros Hs Ha Hb.
  assert (Hc : 0 < cos (d * PI / 180)) by (apply cos_gt_0; nra).
  assert (cos (a * PI / 180) = cos (b * PI / 180)) by nra.
  assert (sin (a * PI / 180) = sin (b * PI / 180)) by nra.
  assert (E : a * PI / 180 = b * PI / 180); [|nra]. apply angle_unique; auto. nra.
Qed.

Lemma unit_nonzero : forall v, unit v -> V3 (vx v) (vy v) (vz v) <> V3 0 0 0.
Proof. intros [x y z] H E. injection E as -> -> ->. unfold unit in H. cbn in H. lra. Qed.

Lemma C33_angles_proof : forall ra dec, 0 <= ra < 360 -> -90 < dec < 90 ->
  let v := radec2icrf ra dec in
  icrf2radec (vx v) (vy v) (vz v) = (ra, dec) /\ vec2ra_dec v = (ra, dec).
Proof.
  intros ra dec Hra Hdec v. assert (Hu : unit v) by apply direction_unit.
  assert (Hn : V3 (vx v) (vy v) (vz v) <> V3 0 0 0).
  { apply unit_nonzero; auto. }
  split.
  - destruct (icrf2radec (vx v) (vy v) (vz v)) as [ra' dec'] eqn:E.
    destruct (C33_vector_proof _ _ _ _ _ Hn E) as [H1 [H2 [k [Hk H3]]]].
    change v with (direction ra dec) in *. clear E Hn v.
    change (radec2icrf ra' dec') with (direction ra' dec') in H3.
    assert (Hd : direction ra' dec' = direction ra dec).
    { pose proof (direction_unit ra' dec') as U. revert Hu U H3.
      generalize (direction ra dec). generalize (direction ra' dec'). intros [p q s] [a b c] Hu U H3.
      unfold unit in *. cbn in *. injection H3 as -> -> ->. assert (k = 1) by nra. subst k. f_equal; ring. }
    destruct (direction_inj ra' ra dec' dec H2 ltac:(lra) Hd) as [-> Hr]. rewrite Hr; auto.
  - destruct (vec2ra_dec v) as [ra' dec'] eqn:E. destruct (C33_vector2_proof _ _ _ Hu E) as [H1 [H2 H3]].
    rewrite ra_dec2vec_direction in H3.
    destruct (direction_inj ra' ra dec' dec H2 ltac:(lra) H3) as [-> Hr]. rewrite Hr; auto.
Qed.

(** ** Rotations *)
Lemma dot_spec : forall a b, dot a b = vx a * vx b + vy a * vy b + vz a * vz b.
Proof. reflexivity. Qed.

Lemma rot_form : forall e v, vec_dot_mat v (create_ecl_to_eq_rotation_matrix e)
  = V3 (vx v) (cos e * vy v - sin e * vz v) (sin e * vy v + cos e * vz v).
Proof. intros e [x y z]. unfold vec_dot_mat, create_ecl_to_eq_rotation_matrix. rewrite cos_neg. apply vec_eq; cbn; ring. Qed.

Lemma C34_inverse_proof : forall v,
  equatorial_to_ecliptic (ecliptic_to_equatorial v) = v /\ ecliptic_to_equatorial (equatorial_to_ecliptic v) = v.
Proof.
  intros [x y z]. unfold equatorial_to_ecliptic, ecliptic_to_equatorial, ECL_TO_EQ_ROTATION_MATRIX, EQ_TO_ECL_ROTATION_MATRIX.
  rewrite !rot_form, cos_neg, sin_neg. pose proof (sc1 OBLIQUITY_ECLIPTIC).
  set (c := cos OBLIQUITY_ECLIPTIC) in *. set (s := sin OBLIQUITY_ECLIPTIC) in *.
  split; apply vec_eq; cbn; try ring.
  - replace (c * (c * y - s * z) - - s * (s * y + c * z)) with ((c * c + s * s) * y) by ring. rewrite H; ring.
  - replace (- s * (c * y - s * z) + c * (s * y + c * z)) with ((c * c + s * s) * z) by ring. rewrite H; ring.
  - replace (c * (c * y - - s * z) - s * (- s * y + c * z)) with ((c * c + s * s) * y) by ring. rewrite H; ring.
  - replace (s * (c * y - - s * z) + c * (- s * y + c * z)) with ((c * c + s * s) * z) by ring. rewrite H; ring.
Qed.

Lemma C34_isometry_proof : forall a b,
  let f := ecliptic_to_equatorial in let g := equatorial_to_ecliptic in
  vx (f a) * vx (f b) + vy (f a) * vy (f b) + vz (f a) * vz (f b) = vx a * vx b + vy a * vy b + vz a * vz b /\
  vx (g a) * vx (g b) + vy (g a) * vy (g b) + vz (g a) * vz (g b) = vx a * vx b + vy a * vy b + vz a * vz b /\
  f (cross a b) = cross (f a) (f b) /\ g (cross a b) = cross (g a) (g b).
Proof.
  intros [a1 a2 a3] [b1 b2 b3] f g. unfold f, g, equatorial_to_ecliptic, ecliptic_to_equatorial, ECL_TO_EQ_ROTATION_MATRIX, EQ_TO_ECL_ROTATION_MATRIX.
  rewrite !rot_form, cos_neg, sin_neg. pose proof (sc1 OBLIQUITY_ECLIPTIC) as H.
  set (c := cos OBLIQUITY_ECLIPTIC) in *. set (s := sin OBLIQUITY_ECLIPTIC) in *. cbn.
  split; [|split; [|split]].
  - transitivity (a1 * b1 + (c * c + s * s) * (a2 * b2) + (c * c + s * s) * (a3 * b3)); [ring|rewrite H; ring].
  - transitivity (a1 * b1 + (c * c + s * s) * (a2 * b2) + (c * c + s * s) * (a3 * b3)); [ring|rewrite H; ring].
  - apply vec_eq; unfold cross; cbn.
    + transitivity ((c * c + s * s) * (a2 * b3 - a3 * b2)); [rewrite H; ring|ring].
    + ring.
    + ring.
  - apply vec_eq; unfold cross; cbn.
    + transitivity ((c * c + s * s) * (a2 * b3 - a3 * b2)); [rewrite H; ring|ring].
    + ring.
    + ring.
Qed.

(** The ecliptic frame has the equinox in common and the pole is inclined by
    the obliquity: ecliptic north goes to (0, -sin e, cos e). *)
Lemma C34_obliquity_proof : forall e, e = 84381448 / 1000 / 3600 * PI / 180 ->
  ecliptic_to_equatorial (V3 1 0 0) = V3 1 0 0 /\
  ecliptic_to_equatorial (V3 0 0 1) = V3 0 (- sin e) (cos e) /\
  ecliptic_to_equatorial (V3 0 1 0) = V3 0 (cos e) (sin e).
Proof.
  intros e ->. assert (E : OBLIQUITY_ECLIPTIC = 84381448 / 1000 / 3600 * PI / 180) by (unfold OBLIQUITY_ECLIPTIC; field).
  unfold ecliptic_to_equatorial, ECL_TO_EQ_ROTATION_MATRIX. rewrite !rot_form, <- E.
  repeat split; apply vec_eq; cbn; ring.
Qed.

(** ** Residual vectors *)
Lemma C35_triad_proof : forall v, unit v -> -1 < vz v < 1 ->
  let A := fst (get_residual_vectors v) in let D := snd (get_residual_vectors v) in
  unit A /\ unit D /\ orthogonal A D /\ orthogonal A v /\ orthogonal D v /\ cross A D = v.
Proof.
  intros [x y z] Hu Hz A D. unfold unit in Hu. cbn in Hu, Hz.
  assert (Hc : 0 < sqrt (1 - z * z)) by (apply sqrt_lt_R0; nra).
  assert (Hq : sqrt (1 - z * z) * sqrt (1 - z * z) = 1 - z * z) by (apply sqrt_sqrt; nra).
  unfold A, D, get_residual_vectors, unit, orthogonal, cross; cbn. set (c := sqrt (1 - z * z)) in *. clearbody c.
  assert (Hxy : x * x + y * y = c * c) by lra. assert (Hzz : z * z = 1 - c * c) by lra.
  split; [|split; [|split; [|split; [|split]]]].
  - transitivity ((x * x + y * y) / (c * c)); [field; lra|]. rewrite Hxy. field. lra.
  - transitivity (z * z * ((x * x + y * y) / (c * c)) + c * c); [field; lra|]. rewrite Hxy. field_simplify; lra.
  - field. lra.
  - field. lra.
  - transitivity (z * (c * c - (x * x + y * y)) / c); [field; lra|]. rewrite Hxy. field. lra.
  - apply vec_eq; cbn.
    + field. lra.
    + field. lra.
    + transitivity (z * ((x * x + y * y) / (c * c))); [field; lra|]. rewrite Hxy. field. lra.
Qed.

(** The triad is the one of the spherical coordinates. *)
Lemma residual_direction : forall ra dec, -90 < dec < 90 ->
  get_residual_vectors (direction ra dec) =
  (V3 (- sin (ra * PI / 180)) (cos (ra * PI / 180)) 0,
   V3 (- sin (dec * PI / 180) * cos (ra * PI / 180)) (- sin (dec * PI / 180) * sin (ra * PI / 180)) (cos (dec * PI / 180))).
Proof.
  intros ra dec Hd. pose proof PI_pos. assert (Hc : 0 < cos (dec * PI / 180)) by (apply cos_gt_0; nra).
  unfold get_residual_vectors, direction; cbn. pose proof (sc1 (dec * PI / 180)).
  assert (E : sqrt (1 - sin (dec * PI / 180) * sin (dec * PI / 180)) = cos (dec * PI / 180)).
  { replace (1 - _) with (Rsqr (cos (dec * PI / 180))) by (unfold Rsqr; lra). apply sqrt_Rsqr. lra. }
  rewrite E. f_equal; apply vec_eq; cbn; field; lra.
Qed.

(** ** Rates *)

(** Along any smooth motion on the sky, projecting the velocity of the
    direction on the two vectors gives the rates of the coordinates. *)
Lemma C64_projection_proof : forall (ra dec : R -> R) t ra' dec' (w : vec),
  derivable_pt_lim ra t ra' -> derivable_pt_lim dec t dec' -> -90 < dec t < 90 ->
  derivable_pt_lim (fun s => vx (direction (ra s) (dec s))) t (vx w) ->
  derivable_pt_lim (fun s => vy (direction (ra s) (dec s))) t (vy w) ->
  derivable_pt_lim (fun s => vz (direction (ra s) (dec s))) t (vz w) ->
  let AD := get_residual_vectors (direction (ra t) (dec t)) in
  dot (fst AD) w * 180 / PI = ra' * cos (dec t * PI / 180) /\ dot (snd AD) w * 180 / PI = dec'.
Proof.
  intros ra dec t ra' dec' w Hra Hdec Hd Hx Hy Hz AD. pose proof PI_pos.
  assert (Dr : derivable_pt_lim (fun s => ra s * PI / 180) t (ra' * (PI / 180))).
  { replace (ra' * (PI / 180)) with ((PI / 180) * ra') by ring.
    eapply derivable_pt_lim_ext with (f := mult_real_fct (PI / 180) ra); [intro; unfold mult_real_fct; field|].
    apply derivable_pt_lim_scal; auto. }
  assert (Dd : derivable_pt_lim (fun s => dec s * PI / 180) t (dec' * (PI / 180))).
  { replace (dec' * (PI / 180)) with ((PI / 180) * dec') by ring.
    eapply derivable_pt_lim_ext with (f := mult_real_fct (PI / 180) dec); [intro; unfold mult_real_fct; field|].
    apply derivable_pt_lim_scal; auto. }
  set (r := fun s => ra s * PI / 180) in *. set (d := fun s => dec s * PI / 180) in *.
  assert (Cr : derivable_pt_lim (fun s => cos (r s)) t (- sin (r t) * (ra' * (PI / 180)))).
  { apply (derivable_pt_lim_comp r cos); auto. apply derivable_pt_lim_cos. }
  assert (Sr : derivable_pt_lim (fun s => sin (r s)) t (cos (r t) * (ra' * (PI / 180)))).
  { apply (derivable_pt_lim_comp r sin); auto. apply derivable_pt_lim_sin. }
  assert (Cd : derivable_pt_lim (fun s => cos (d s)) t (- sin (d t) * (dec' * (PI / 180)))).
  { apply (derivable_pt_lim_comp d cos); auto. apply derivable_pt_lim_cos. }
  assert (Sd : derivable_pt_lim (fun s => sin (d s)) t (cos (d t) * (dec' * (PI / 180)))).
  { apply (derivable_pt_lim_comp d sin); auto. apply derivable_pt_lim_sin. }
  assert (Wx := uniqueness_limite _ _ _ _ Hx (derivable_pt_lim_mult _ _ _ _ _ Cd Cr)).
  assert (Wy := uniqueness_limite _ _ _ _ Hy (derivable_pt_lim_mult _ _ _ _ _ Cd Sr)).
  assert (Wz := uniqueness_limite _ _ _ _ Hz Sd).
  unfold AD. rewrite residual_direction by auto. unfold dot; cbn. rewrite Wx, Wy, Wz.
  change (ra t * PI / 180) with (r t). change (dec t * PI / 180) with (d t).
  pose proof (sc1 (r t)) as E1. pose proof (sc1 (d t)) as E2.
  set (a := cos (r t)) in *. set (b := sin (r t)) in *. set (c := cos (d t)) in *. set (e := sin (d t)) in *. split.
  - transitivity (ra' * c * (a * a + b * b)); [field; lra|]. rewrite E1. ring.
  - transitivity (dec' * (e * e * (a * a + b * b) + c * c)); [field; lra|]. rewrite E1. rewrite Rmult_1_r, Rplus_comm, E2. ring.
Qed.
