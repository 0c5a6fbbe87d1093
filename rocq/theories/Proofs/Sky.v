From Coq Require Import Reals ZArith List Lra Lia Psatz.
From Verif Require Import Model.Sphere Spec.Sphere Proofs.Sphere.
Open Scope R_scope.

(** ** Great circle distances *)
Lemma haversine_a : forall a1 d1 a2 d2,
  sin ((d2 - d1) / 2) ^ 2 + cos d1 * cos d2 * sin ((a2 - a1) / 2) ^ 2
  = (1 - (cos d1 * cos a1 * (cos d2 * cos a2) + cos d1 * sin a1 * (cos d2 * sin a2) + sin d1 * sin d2)) / 2.
Proof.
  intros. assert (S2 : forall x, sin (x / 2) ^ 2 = (1 - cos x) / 2).
  { intro x. replace (cos x) with (cos (2 * (x / 2))) by (f_equal; field). rewrite cos_2a. pose proof (sc1 (x / 2)). simpl. lra. }
  rewrite !S2, !cos_minus. field.
Qed.

Lemma sum_sq : forall a b c, 0 <= a * a + b * b + c * c.
Proof. intros. pose proof (Rle_0_sqr a). pose proof (Rle_0_sqr b). pose proof (Rle_0_sqr c). unfold Rsqr in *. lra. Qed.

Lemma sum_sq_zero : forall a b c, a * a + b * b + c * c = 0 -> a = 0 /\ b = 0 /\ c = 0.
Proof.
  intros a b c H. pose proof (Rle_0_sqr a). pose proof (Rle_0_sqr b). pose proof (Rle_0_sqr c). unfold Rsqr in *.
  repeat split; apply Rsqr_0_uniq; unfold Rsqr; lra.
Qed.

Lemma dot_unit_bound : forall a b, unit a -> unit b -> -1 <= dot a b <= 1.
Proof.
  intros [a1 a2 a3] [b1 b2 b3] Ha Hb. unfold unit, dot in *. cbn in *.
  pose proof (sum_sq (a1 - b1) (a2 - b2) (a3 - b3)). pose proof (sum_sq (a1 + b1) (a2 + b2) (a3 + b3)). split; lra.
Qed.

Lemma C66_haversine_proof : forall lon1 lat1 lon2 lat2,
  angle_between (direction lon1 lat1) (direction lon2 lat2) (haversine lon1 lat1 lon2 lat2).
Proof.
  intros. pose proof (direction_unit lon1 lat1) as U1. pose proof (direction_unit lon2 lat2) as U2.
  pose proof (dot_unit_bound _ _ U1 U2) as B. pose proof PI_pos.
  unfold haversine. rewrite haversine_a. unfold angle_between. unfold dot, direction in *. cbn in *.
  change (lat1 * PI / 180) with (deg2rad lat1) in *. change (lat2 * PI / 180) with (deg2rad lat2) in *.
  change (lon1 * PI / 180) with (deg2rad lon1) in *. change (lon2 * PI / 180) with (deg2rad lon2) in *.
  match goal with |- context [(1 - ?e) / 2] => set (w := e) in * end.
  assert (Ha : 0 <= (1 - w) / 2 <= 1) by lra. set (a := (1 - w) / 2) in *.
  assert (Hs : 0 <= sqrt a <= 1).
  { split; [apply sqrt_pos|]. rewrite <- sqrt_1. apply sqrt_le_1; lra. }
  assert (Eb := asin_bound (sqrt a)). assert (Es : sin (asin (sqrt a)) = sqrt a) by (apply sin_asin; lra).
  assert (Hn : 0 <= asin (sqrt a)).
  { destruct (Rle_lt_dec 0 (asin (sqrt a))) as [|Hl]; auto. exfalso.
    assert (sin (asin (sqrt a)) < 0) by (apply sin_lt_0_var; lra). lra. }
  split.
  - unfold rad2deg. assert (E : 2 * asin (sqrt a) * 180 / PI * (PI / 180) = 2 * asin (sqrt a)) by (field; lra). split.
    + apply (Rmult_le_reg_r (PI / 180)); [lra|]. rewrite E. lra.
    + apply (Rmult_le_reg_r (PI / 180)); [lra|]. rewrite E. lra.
  - change (rad2deg (2 * asin (sqrt a)) * PI / 180) with (deg2rad (rad2deg (2 * asin (sqrt a)))). rewrite deg_rad, cos_2a_sin, Es.
    replace (2 * sqrt a * sqrt a) with (2 * (sqrt a * sqrt a)) by ring. rewrite sqrt_sqrt by lra. unfold a. lra.
Qed.

Lemma angle_between_unique : forall u v d e, angle_between u v d -> angle_between u v e -> d = e.
Proof.
  intros u v d e [Hd Ed] [He Ee]. pose proof PI_pos. rewrite <- Ee in Ed.
  assert (d * PI / 180 = e * PI / 180); [|nra].
  rewrite <- (acos_cos (d * PI / 180)), <- (acos_cos (e * PI / 180)) by (split; nra). congruence.
Qed.
Lemma C66_symmetric_proof : forall lon1 lat1 lon2 lat2, haversine lon1 lat1 lon2 lat2 = haversine lon2 lat2 lon1 lat1.
Proof.
  intros. eapply angle_between_unique; [apply C66_haversine_proof|].
  destruct (C66_haversine_proof lon2 lat2 lon1 lat1) as [H1 H2]. split; auto. rewrite H2. ring.
Qed.
Lemma C66_zero_proof : forall lon1 lat1 lon2 lat2,
  haversine lon1 lat1 lon2 lat2 = 0 <-> direction lon1 lat1 = direction lon2 lat2.
Proof.
  intros. destruct (C66_haversine_proof lon1 lat1 lon2 lat2) as [H1 H2]. split; intro H.
  - rewrite H in H2. replace (0 * PI / 180) with 0 in H2 by field. rewrite cos_0 in H2.
    pose proof (direction_unit lon1 lat1) as U1. pose proof (direction_unit lon2 lat2) as U2. revert H2 U1 U2.
    generalize (direction lon1 lat1). generalize (direction lon2 lat2). intros [a b c] [d e f] H2 U1 U2. unfold unit in *. cbn in *.
    assert (Hs : (d - a) * (d - a) + (e - b) * (e - b) + (f - c) * (f - c) = 0) by lra.
    apply sum_sq_zero in Hs. destruct Hs as [S1 [S2 S3]]. f_equal; lra.
  - rewrite H in H2. pose proof (direction_unit lon2 lat2) as U. unfold unit in U. rewrite U in H2. pose proof PI_pos.
    set (h := haversine lon1 lat1 lon2 lat2) in *. assert (h * PI / 180 = 0); [|nra].
    rewrite <- (acos_cos (h * PI / 180)) by (split; nra). rewrite H2. apply acos_1.
Qed.

(** ** Phase angle *)
Lemma cauchy : forall a b, dot a b * dot a b <= dot a a * dot b b.
Proof.
  intros [a1 a2 a3] [b1 b2 b3]. unfold dot; cbn.
  pose proof (sum_sq (a1 * b2 - a2 * b1) (a2 * b3 - a3 * b2) (a1 * b3 - a3 * b1)). lra.
Qed.
Lemma cauchy_norm : forall a b, 0 < norm a -> 0 < norm b -> -1 <= dot a b / (norm a * norm b) <= 1.
Proof.
  intros a b Ha Hb. pose proof (cauchy a b) as C. rewrite <- !norm_sq in C.
  set (d := dot a b) in *. set (n := norm a) in *. set (m := norm b) in *. clearbody d n m.
  assert (Hnm : 0 < n * m) by nra. assert (Hd : - (n * m) <= d <= n * m) by (split; nra).
  split.
  - apply (Rmult_le_reg_r (n * m)); auto. replace (d / (n * m) * (n * m)) with d by (field; split; lra). lra.
  - apply (Rmult_le_reg_r (n * m)); auto. replace (d / (n * m) * (n * m)) with d by (field; split; lra). lra.
Qed.

(** The phase angle is the angle Sun-object-observer of the triangle. *)
Lemma C65_phase_proof : forall r_sun r_obs v_sun v_obs rho r_ast v_ast r d D,
  let gm := calculate_rates_and_geometry r_sun r_obs v_sun v_obs rho r_ast v_ast in
  r = norm (vsub r_ast r_sun) -> d = norm (vsub r_ast r_obs) -> D = norm (vsub r_obs r_sun) -> 0 < r -> 0 < d ->
  0 <= g_phase gm <= 180 /\ cos (g_phase gm * PI / 180) = (r * r + d * d - D * D) / (2 * r * d).
Proof.
  intros r_sun r_obs v_sun v_obs rho r_ast v_ast r d D gm Hr Hd HD Hr0 Hd0. pose proof PI_pos.
  cbn [gm g_phase calculate_rates_and_geometry]. subst gm. cbn.
  rewrite <- Hr, <- Hd. set (w := dot (vsub r_ast r_sun) (vsub r_ast r_obs) / (r * d)).
  assert (Hw : -1 <= w <= 1) by (unfold w; rewrite Hr, Hd; apply cauchy_norm; lra).
  pose proof (acos_bound w) as B. split.
  - assert (E : acos w * 180 / PI * (PI / 180) = acos w) by (field; lra). split; apply (Rmult_le_reg_r (PI / 180)); lra.
  - replace (acos w * 180 / PI * PI / 180) with (acos w) by (field; lra). rewrite cos_acos by auto. unfold w.
    assert (E : D * D = r * r + d * d - 2 * dot (vsub r_ast r_sun) (vsub r_ast r_obs)).
    { rewrite HD, Hr, Hd, !norm_sq. unfold dot, vsub; cbn. ring. }
    rewrite E. field. lra.
Qed.

(** ** Rates *)
Lemma scale_unit_dir : forall m ra dec, 0 < m -> norm (scale m (direction ra dec)) = m.
Proof.
  intros m ra dec H. unfold norm. replace (dot (scale m (direction ra dec)) (scale m (direction ra dec))) with (m * m).
  - apply sqrt_square. lra.
  - pose proof (direction_unit ra dec) as U. unfold unit in U. unfold dot, scale; cbn [vx vy vz].
    transitivity (m * m * (vx (direction ra dec) * vx (direction ra dec) + vy (direction ra dec) * vy (direction ra dec) + vz (direction ra dec) * vz (direction ra dec))); [rewrite U; ring|ring].
Qed.

Lemma C64_rates_proof : forall (m ra dec : R -> R) t m' ra' dec' r_sun r_obs v_sun v_obs r_ast v_ast delta,
  0 < m t -> -90 < dec t < 90 ->
  derivable_pt_lim m t m' -> derivable_pt_lim ra t ra' -> derivable_pt_lim dec t dec' ->
  let rho s := scale (m s) (direction (ra s) (dec s)) in
  delta = dot (direction (ra t) (dec t)) (vsub v_ast v_obs) / SPEED_OF_LIGHT ->
  (forall c, In c (vx :: vy :: vz :: nil) -> derivable_pt_lim (fun s => c (rho s)) t ((1 - delta) * c v_ast - c v_obs)) ->
  let gm := calculate_rates_and_geometry r_sun r_obs v_sun v_obs (rho t) r_ast v_ast in
  g_ra_rate gm = ra' * cos (dec t * PI / 180) /\ g_dec_rate gm = dec' /\
  g_range_rate gm = AU_KM / 86400 * dot (direction (ra t) (dec t)) (vsub v_ast v_obs) /\
  g_range_km gm = AU_KM * m t /\ direction (g_ra gm) (g_dec gm) = direction (ra t) (dec t).
Proof.
  intros m ra dec t m' ra' dec' r_sun r_obs v_sun v_obs r_ast v_ast delta Hm Hd Dm Dra Ddec rho Hdelta Drho gm.
  pose proof PI_pos. assert (Nm : norm (rho t) = m t) by (apply scale_unit_dir; auto).
  assert (Hhat : scale (/ norm (rho t)) (rho t) = direction (ra t) (dec t)).
  { rewrite Nm. apply vec_eq; unfold rho; cbn [scale vx vy vz]; field; lra. }
  assert (Hdot : 1 / norm (rho t) * dot (rho t) (vsub v_ast v_obs) = dot (direction (ra t) (dec t)) (vsub v_ast v_obs)).
  { rewrite Nm. unfold rho, dot, scale. cbn [vx vy vz]. field. lra. }
  (* derivative of the direction *)
  assert (Dr : derivable_pt_lim (fun s => ra s * PI / 180) t (ra' * (PI / 180))).
  { replace (ra' * (PI / 180)) with ((PI / 180) * ra') by ring.
    eapply derivable_pt_lim_ext with (f := mult_real_fct (PI / 180) ra); [intro; unfold mult_real_fct; field|].
    apply derivable_pt_lim_scal; auto. }
  assert (Dd : derivable_pt_lim (fun s => dec s * PI / 180) t (dec' * (PI / 180))).
  { replace (dec' * (PI / 180)) with ((PI / 180) * dec') by ring.
    eapply derivable_pt_lim_ext with (f := mult_real_fct (PI / 180) dec); [intro; unfold mult_real_fct; field|].
    apply derivable_pt_lim_scal; auto. }
  pose proof (derivable_pt_lim_comp (fun s => ra s * PI / 180) cos _ _ _ Dr (derivable_pt_lim_cos _)) as Cr.
  pose proof (derivable_pt_lim_comp (fun s => ra s * PI / 180) sin _ _ _ Dr (derivable_pt_lim_sin _)) as Sr.
  pose proof (derivable_pt_lim_comp (fun s => dec s * PI / 180) cos _ _ _ Dd (derivable_pt_lim_cos _)) as Cd.
  pose proof (derivable_pt_lim_comp (fun s => dec s * PI / 180) sin _ _ _ Dd (derivable_pt_lim_sin _)) as Sd.
  pose proof (derivable_pt_lim_mult _ _ _ _ _ Cd Cr) as DX. pose proof (derivable_pt_lim_mult _ _ _ _ _ Cd Sr) as DY.
  match type of DX with derivable_pt_lim _ _ ?e => set (wx := e) in * end.
  match type of DY with derivable_pt_lim _ _ ?e => set (wy := e) in * end.
  match type of Sd with derivable_pt_lim _ _ ?e => set (wz := e) in * end.
  destruct (C64_projection_proof ra dec t ra' dec' (V3 wx wy wz) Dra Ddec Hd DX DY Sd) as [P1 P2].
  assert (Ex := uniqueness_limite _ _ _ _ (Drho vx (or_introl eq_refl)) (derivable_pt_lim_mult _ _ _ _ _ Dm DX)).
  assert (Ey := uniqueness_limite _ _ _ _ (Drho vy (or_intror (or_introl eq_refl))) (derivable_pt_lim_mult _ _ _ _ _ Dm DY)).
  assert (Ez := uniqueness_limite _ _ _ _ (Drho vz (or_intror (or_intror (or_introl eq_refl)))) (derivable_pt_lim_mult _ _ _ _ _ Dm Sd)).
  unfold mult_fct, comp in Ex, Ey, Ez.
  set (u := direction (ra t) (dec t)) in *.
  change (cos (dec t * PI / 180) * cos (ra t * PI / 180)) with (vx u) in Ex.
  change (cos (dec t * PI / 180) * sin (ra t * PI / 180)) with (vy u) in Ey.
  change (sin (dec t * PI / 180)) with (vz u) in Ez.
  assert (Hz : -1 < vz u < 1).
  { unfold u, direction; cbn. assert (0 < cos (dec t * PI / 180)) by (apply cos_gt_0; nra).
    pose proof (sc1 (dec t * PI / 180)). split; nra. }
  destruct (C35_triad_proof u (direction_unit _ _) Hz) as [_ [_ [_ [OA [OD _]]]]].
  unfold gm, calculate_rates_and_geometry. cbn [g_ra_rate g_dec_rate g_range_rate g_range_km g_ra g_dec].
  rewrite Hhat, Hdot, Nm. fold u. rewrite <- Hdelta.
  set (AD := get_residual_vectors u) in *. unfold orthogonal in OA, OD.
  set (dm := dot u (vsub v_ast v_obs)) in *.
  assert (Hproj : forall a, vx a * vx u + vy a * vy u + vz a * vz u = 0 ->
    dot a (vsub (scale (/ m t) (vsub (scale (1 - delta) v_ast) v_obs)) (scale (/ m t) (scale dm u))) = dot a (V3 wx wy wz)).
  { intros a Ha. unfold dot, vsub, scale; cbn [vx vy vz]. rewrite Ex, Ey, Ez.
    transitivity ((vx a * wx + vy a * wy + vz a * wz) + (m' - dm) / m t * (vx a * vx u + vy a * vy u + vz a * vz u)); [field; lra|].
    rewrite Ha. ring. }
  rewrite !Hproj by assumption. split; [exact P1|]. split; [exact P2|].
  split; [unfold dm; field|]. split; [ring|].
  destruct (vec2ra_dec u) as [a b] eqn:E. cbn [fst snd].
  destruct (C33_vector2_proof u a b (direction_unit _ _) E) as [_ [_ H3]]. rewrite ra_dec2vec_direction in H3. exact H3.
Qed.

(** ** Light time *)
Lemma norm_diff : forall a b c, Rabs (norm (vsub a c) - norm (vsub b c)) <= norm (vsub a b).
Proof.
  intros a b c.
  assert (T : forall p q, norm (vadd p q) <= norm p + norm q).
  { intros p q. pose proof (cauchy p q) as C. rewrite <- !norm_sq in C.
    assert (N1 : 0 <= norm p) by apply sqrt_pos. assert (N2 : 0 <= norm q) by apply sqrt_pos.
    assert (Hd : dot p q <= norm p * norm q).
    { destruct (Rle_lt_dec (dot p q) 0); [nra|]. assert (0 <= norm p * norm q) by nra. nra. }
    apply Rsqr_incr_0; [|apply sqrt_pos|lra]. unfold Rsqr. rewrite norm_sq.
    replace (dot (vadd p q) (vadd p q)) with (dot p p + 2 * dot p q + dot q q) by (unfold dot, vadd; cbn; ring).
    rewrite <- !norm_sq. nra. }
  assert (T1 := T (vsub a b) (vsub b c)). assert (T2 := T (vsub b a) (vsub a c)).
  replace (vadd (vsub a b) (vsub b c)) with (vsub a c) in T1 by (apply vec_eq; cbn; ring).
  replace (vadd (vsub b a) (vsub a c)) with (vsub b c) in T2 by (apply vec_eq; cbn; ring).
  assert (E : norm (vsub b a) = norm (vsub a b)) by (unfold norm; f_equal; unfold dot, vsub; cbn; ring).
  apply Rabs_le. lra.
Qed.

Lemma c_pos : 0 < SPEED_OF_LIGHT.
Proof. unfold SPEED_OF_LIGHT, AU_KM. lra. Qed.

(** The light time used approaches the solution of the light time equation by
    a factor v/c per round. *)
Lemma light_time_contracts : forall at_time v t r_obs lt0 lt iter rho lt' pos vel,
  (forall a b, norm (vsub (fst (at_time a)) (fst (at_time b))) <= v * Rabs (a - b)) -> 0 <= v ->
  norm (vsub (fst (at_time (t - lt))) r_obs) = SPEED_OF_LIGHT * lt -> (1 <= iter)%nat ->
  integrate_light_time at_time t r_obs lt0 iter = (rho, lt', pos, vel) ->
  exists used, Rabs (used - lt) <= (v / SPEED_OF_LIGHT) ^ (iter - 1) * Rabs (lt0 - lt) /\
    (pos, vel) = at_time (t - used) /\ rho = vsub pos r_obs /\
    norm (vsub rho (vsub (fst (at_time (t - lt))) r_obs)) <= v * (v / SPEED_OF_LIGHT) ^ (iter - 1) * Rabs (lt0 - lt) /\
    Rabs (lt' - lt) <= (v / SPEED_OF_LIGHT) ^ iter * Rabs (lt0 - lt).
Proof.
  intros at_time v t r_obs lt0 lt iter rho lt' pos vel HL Hv Hlt Hi H. pose proof c_pos as Hc. set (c := SPEED_OF_LIGHT) in *.
  assert (Hb : 0 <= v / c) by (apply Rmult_le_pos; [auto|left; apply Rinv_0_lt_compat; auto]).
  assert (Step : forall x, Rabs (norm (vsub (fst (at_time (t - x))) r_obs) / c - lt) <= v / c * Rabs (x - lt)).
  { intro x. assert (E : lt = norm (vsub (fst (at_time (t - lt))) r_obs) / c) by (rewrite Hlt; field; lra).
    rewrite E at 1. rewrite <- Rdiv_minus_distr. unfold Rdiv at 1. rewrite Rabs_mult, (Rabs_right (/ c)) by (left; apply Rinv_0_lt_compat; auto).
    pose proof (norm_diff (fst (at_time (t - x))) (fst (at_time (t - lt))) r_obs) as N.
    pose proof (HL (t - x) (t - lt)) as L. replace (t - x - (t - lt)) with (- (x - lt)) in L by ring. rewrite Rabs_Ropp in L.
    assert (0 < / c) by (apply Rinv_0_lt_compat; auto). unfold Rdiv.
    replace (v * / c * Rabs (x - lt)) with (v * Rabs (x - lt) * / c) by ring. apply Rmult_le_compat_r; lra. }
  assert (Loop : forall n x, Rabs (light_time_loop at_time t r_obs n x - lt) <= (v / c) ^ n * Rabs (x - lt)).
  { induction n as [|n IH]; intro x; cbn [light_time_loop]; [simpl; lra|].
    eapply Rle_trans; [apply IH|]. change ((v / c) ^ S n) with (v / c * (v / c) ^ n).
    replace (v / c * (v / c) ^ n * Rabs (x - lt)) with ((v / c) ^ n * (v / c * Rabs (x - lt))) by ring.
    apply Rmult_le_compat_l; [apply pow_le; auto|]. apply Step. }
  unfold integrate_light_time in H. set (u := light_time_loop at_time t r_obs (iter - 1) lt0) in *.
  injection H as H1 H2 H3 H4. exists u. split; [apply Loop|]. split; [rewrite <- H3, <- H4; destruct (at_time (t - u)); reflexivity|].
  split; [congruence|]. pose proof (Loop (iter - 1)%nat lt0) as HU. fold u in HU. split.
  - rewrite <- H1. replace (vsub (vsub (fst (at_time (t - u))) r_obs) (vsub (fst (at_time (t - lt))) r_obs)) with (vsub (fst (at_time (t - u))) (fst (at_time (t - lt)))) by (apply vec_eq; cbn; ring).
    eapply Rle_trans; [apply HL|]. replace (t - u - (t - lt)) with (- (u - lt)) by ring. rewrite Rabs_Ropp.
    rewrite Rmult_assoc. apply Rmult_le_compat_l; auto.
  - rewrite <- H2. fold c. eapply Rle_trans; [apply Step|]. destruct iter as [|n]; [lia|].
    change ((v / c) ^ S n) with (v / c * (v / c) ^ n). replace (S n - 1)%nat with n in HU by lia.
    rewrite Rmult_assoc. apply Rmult_le_compat_l; auto.
Qed.
Lemma C63_light_time_proof : forall at_time v t r_obs lt0 lt iter rho lt' pos vel,
  let c := 299792458 * 86400 / 149597870700 in
  (forall a b, norm (vsub (fst (at_time a)) (fst (at_time b))) <= v * Rabs (a - b)) -> 0 <= v ->
  norm (vsub (fst (at_time (t - lt))) r_obs) = c * lt -> (1 <= iter)%nat ->
  integrate_light_time at_time t r_obs lt0 iter = (rho, lt', pos, vel) ->
  exists used, Rabs (used - lt) <= (v / c) ^ (iter - 1) * Rabs (lt0 - lt) /\
    (pos, vel) = at_time (t - used) /\ rho = vsub pos r_obs /\
    norm (vsub rho (vsub (fst (at_time (t - lt))) r_obs)) <= v * (v / c) ^ (iter - 1) * Rabs (lt0 - lt) /\
    Rabs (lt' - lt) <= (v / c) ^ iter * Rabs (lt0 - lt).
Proof.
  intros at_time v t r_obs lt0 lt iter rho lt' pos vel c. assert (Ec : c = SPEED_OF_LIGHT) by (unfold SPEED_OF_LIGHT, AU_KM, c; lra).
  rewrite Ec. apply light_time_contracts.
Qed.
