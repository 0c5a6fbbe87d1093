(** Proofs about the geometry columns of an ephemeris row (C106). *)
From Coq Require Import Reals List Lra.
From Verif Require Import Base.Prelude Model.Sphere Spec.Sphere Proofs.Sphere Proofs.Sky.
Open Scope R_scope.

Lemma au_pos : 0 < AU_KM.
Proof. unfold AU_KM. lra. Qed.
Lemma norm_scale : forall k v, 0 < k -> norm (scale k v) = k * norm v.
Proof.
  intros k v K. unfold norm, dot, scale. cbn [vx vy vz].
  replace (k * vx v * (k * vx v) + k * vy v * (k * vy v) + k * vz v * (k * vz v)) with (Rsqr k * (vx v * vx v + vy v * vy v + vz v * vz v)) by (unfold Rsqr; ring).
  rewrite sqrt_mult_alt by apply Rle_0_sqr. rewrite sqrt_Rsqr by lra. reflexivity.
Qed.
Lemma C106_triangle_proof : forall at_time t lt0 iter r_sun r_obs v_sun v_obs rho lt r v g,
  integrate_light_time at_time t r_obs lt0 iter = (rho, lt, r, v) -> r <> r_obs ->
  calculate_rates_and_geometry r_sun r_obs v_sun v_obs rho r v = g ->
  let los := direction (g_ra g) (g_dec g) in
  0 < g_range_km g /\ 0 <= g_ra g < 360 /\ -90 <= g_dec g <= 90
  /\ (forall c, In c (vx :: vy :: vz :: nil) -> c (g_obj_sun g) - c (g_obs_sun g) = g_range_km g * c los)
  /\ g_range_rate g = (vx (g_obj_sun_v g) - vx (g_obs_sun_v g)) * vx los + (vy (g_obj_sun_v g) - vy (g_obs_sun_v g)) * vy los
                      + (vz (g_obj_sun_v g) - vz (g_obs_sun_v g)) * vz los.
Proof.
  intros at_time t lt0 iter r_sun r_obs v_sun v_obs rho lt r v g HI HR HG.
  assert (HRho : rho = vsub r r_obs) by (unfold integrate_light_time in HI; injection HI; intros; subst; reflexivity). clear HI.
  assert (NZ : rho <> V3 0 0 0).
  { intro H. apply HR. rewrite HRho in H. destruct r as [a b c], r_obs as [a' b' c']. unfold vsub in H. cbn in H. injection H as H1 H2 H3. f_equal; lra. }
  assert (NP := norm_nonzero rho NZ). assert (AP := au_pos).
  set (u := scale (/ norm rho) rho) in *. assert (U : unit u) by (apply scaled_unit; exact NZ).
  subst g. cbn [g_ra g_dec g_range_km g_obj_sun g_obs_sun g_range_rate g_obj_sun_v g_obs_sun_v calculate_rates_and_geometry].
  fold u. destruct (vec2ra_dec u) as [ra dec] eqn:E. cbn [fst snd]. destruct (C33_vector2_proof u ra dec U E) as (B1 & B2 & D). rewrite ra_dec2vec_direction in D.
  rewrite D. split; [apply Rmult_lt_0_compat; lra|]. split; [exact B1|]. split; [exact B2|].
  assert (NN : norm rho <> 0) by lra. subst u. split.
  - intros c [<-|[<-|[<-|[]]]]; unfold scale, vsub; cbn [vx vy vz]; subst rho; unfold vsub in *; cbn [vx vy vz] in *; field; exact NN.
  - unfold dot, scale, vsub. cbn [vx vy vz]. field. exact NN.
Qed.
Lemma C106_phase_proof : forall at_time t lt0 iter r_sun r_obs v_sun v_obs rho lt r v g,
  integrate_light_time at_time t r_obs lt0 iter = (rho, lt, r, v) -> r <> r_obs -> r <> r_sun ->
  calculate_rates_and_geometry r_sun r_obs v_sun v_obs rho r v = g ->
  let len v := sqrt (vx v * vx v + vy v * vy v + vz v * vz v) in
  0 <= g_phase g <= 180 /\ 0 < len (g_obj_sun g)
  /\ len (g_obs_sun g) ^ 2 = g_range_km g ^ 2 + len (g_obj_sun g) ^ 2 - 2 * g_range_km g * len (g_obj_sun g) * cos (g_phase g * PI / 180).
Proof.
  intros at_time t lt0 iter r_sun r_obs v_sun v_obs rho lt r v g HI HR HS HG.
  assert (HRho : rho = vsub r r_obs) by (unfold integrate_light_time in HI; injection HI; intros; subst; reflexivity). clear HI.
  assert (Z : forall a b, a <> b -> 0 < norm (vsub a b)).
  { intros a b H. apply norm_nonzero. intro H'. apply H. destruct a as [x y z], b as [x' y' z']. unfold vsub in H'. cbn in H'. injection H' as H1 H2 H3. f_equal; lra. }
  destruct (C65_phase_proof r_sun r_obs v_sun v_obs rho r v _ _ _ eq_refl eq_refl eq_refl (Z _ _ HS) (Z _ _ HR)) as [B C]. rewrite HG in B, C.
  intro len. change len with norm. subst g. cbn [g_obj_sun g_obs_sun g_range_km calculate_rates_and_geometry] in *.
  assert (AP := au_pos). rewrite !norm_scale by exact AP. assert (P1 := Z _ _ HS). assert (P2 := Z _ _ HR).
  split; [exact B|]. split; [apply Rmult_lt_0_compat; assumption|]. rewrite C. subst rho. field. lra.
Qed.
Lemma C106_source_proof : forall at_time t lt0 iter r_sun r_obs v_sun v_obs rho lt r v g,
  integrate_light_time at_time t r_obs lt0 iter = (rho, lt, r, v) ->
  calculate_rates_and_geometry r_sun r_obs v_sun v_obs rho r v = g ->
  (exists s, at_time s = (r, v)) /\ lt = g_range_km g / 299792458 * 1000 / 86400 /\
  forall c, In c (vx :: vy :: vz :: nil) ->
    c (g_obj_sun g) = 149597870700 / 1000 * (c r - c r_sun) /\ c (g_obs_sun g) = 149597870700 / 1000 * (c r_obs - c r_sun)
    /\ c (g_obj_sun_v g) = 149597870700 / 1000 / 86400 * (c v - c v_sun) /\ c (g_obs_sun_v g) = 149597870700 / 1000 / 86400 * (c v_obs - c v_sun).
Proof.
  intros at_time t lt0 iter r_sun r_obs v_sun v_obs rho lt r v g HI HG. unfold integrate_light_time in HI.
  injection HI as H1 H2 H3 H4. split; [exists (t - light_time_loop at_time t r_obs (iter - 1) lt0); rewrite <- H3, <- H4; destruct (at_time _); reflexivity|].
  subst g. split.
  - cbn [g_range_km calculate_rates_and_geometry]. rewrite <- H2, H1. unfold SPEED_OF_LIGHT, AU_KM. field.
  - intros c [<-|[<-|[<-|[]]]]; unfold calculate_rates_and_geometry, scale, vsub, AU_KM; cbn [g_obj_sun g_obs_sun g_obj_sun_v g_obs_sun_v vx vy vz]; repeat split; field.
Qed.
Lemma C106_rates_proof : forall at_time t lt0 iter r_sun r_obs v_sun v_obs rho lt r v g,
  integrate_light_time at_time t r_obs lt0 iter = (rho, lt, r, v) -> r <> r_obs ->
  calculate_rates_and_geometry r_sun r_obs v_sun v_obs rho r v = g -> -90 < g_dec g < 90 ->
  let a := g_ra g * PI / 180 in let d := g_dec g * PI / 180 in
  let slow := 1 - g_range_rate g / (299792458 / 1000) in
  let w c := 149597870700 / 1000 * (slow * c v - c v_obs) in
  g_ra_rate g * (PI / 180) * g_range_km g = - sin a * w vx + cos a * w vy
  /\ g_dec_rate g * (PI / 180) * g_range_km g = - sin d * cos a * w vx - sin d * sin a * w vy + cos d * w vz.
Proof.
  intros at_time t lt0 iter r_sun r_obs v_sun v_obs rho lt r v g HI HR HG HD.
  assert (HRho : rho = vsub r r_obs) by (unfold integrate_light_time in HI; injection HI; intros; subst; reflexivity).
  destruct (C106_triangle_proof _ _ _ _ r_sun r_obs v_sun v_obs _ _ _ _ g HI HR HG) as (RP & _ & _ & _ & _). clear HI.
  assert (NZ : rho <> V3 0 0 0).
  { intro H. apply HR. rewrite HRho in H. destruct r as [x y z], r_obs as [x' y' z']. unfold vsub in H. cbn in H. injection H as H1 H2 H3. f_equal; lra. }
  assert (NP := norm_nonzero rho NZ). assert (AP := au_pos). assert (PP := PI_RGT_0).
  set (u := scale (/ norm rho) rho) in *. assert (U : unit u) by (apply scaled_unit; exact NZ).
  assert (D : direction (g_ra g) (g_dec g) = u).
  { subst g. cbn [g_ra g_dec calculate_rates_and_geometry]. fold u. destruct (vec2ra_dec u) as [ra dec] eqn:E. cbn [fst snd].
    destruct (C33_vector2_proof u ra dec U E) as (_ & _ & D). rewrite ra_dec2vec_direction in D. exact D. }
  assert (RU : rho = scale (norm rho) u).
  { unfold u, scale. cbn [vx vy vz]. destruct rho as [x y z]. cbn [vx vy vz]. f_equal; field; lra. }
  intros a d slow w.
  assert (CD : 0 < cos d). { apply cos_gt_0; unfold d; [|]. - apply Rmult_lt_reg_r with (180 / PI); [apply Rdiv_lt_0_compat; lra|]. replace (g_dec g * PI / 180 * (180 / PI)) with (g_dec g) by (field; lra). replace (- (PI / 2) * (180 / PI)) with (-90) by (field; lra). lra.
    - apply Rmult_lt_reg_r with (180 / PI); [apply Rdiv_lt_0_compat; lra|]. replace (g_dec g * PI / 180 * (180 / PI)) with (g_dec g) by (field; lra). replace (PI / 2 * (180 / PI)) with 90 by (field; lra). lra. }
  assert (UX : vx u = cos d * cos a) by (rewrite <- D; reflexivity).
  assert (UY : vy u = cos d * sin a) by (rewrite <- D; reflexivity).
  assert (UZ : vz u = sin d) by (rewrite <- D; reflexivity).
  assert (SQ : sqrt (1 - vz u * vz u) = cos d).
  { rewrite UZ. replace (1 - sin d * sin d) with (Rsqr (cos d)) by (assert (S2 := sin2_cos2 d); unfold Rsqr in *; lra). apply sqrt_Rsqr. lra. }
  assert (S2a := sin2_cos2 a). assert (S2d := sin2_cos2 d). unfold Rsqr in S2a, S2d.
  assert (RR : g_range_rate g = AU_KM / 86400 * (vx u * (vx v - vx v_obs) + vy u * (vy v - vy v_obs) + vz u * (vz v - vz v_obs))).
  { subst g. cbn [g_range_rate calculate_rates_and_geometry]. rewrite RU at 2. unfold dot, scale, vsub. cbn [vx vy vz]. field. lra. }
  assert (QR : g_range_km g = norm rho * AU_KM) by (subst g; reflexivity).
  set (q := vx u * (vx v - vx v_obs) + vy u * (vy v - vy v_obs) + vz u * (vz v - vz v_obs)) in *.
  assert (GA : g_ra_rate g * (PI / 180) * g_range_km g = AU_KM * (- vy u / cos d * ((1 - q / SPEED_OF_LIGHT) * vx v - vx v_obs - q * vx u) + vx u / cos d * ((1 - q / SPEED_OF_LIGHT) * vy v - vy v_obs - q * vy u))
    /\ g_dec_rate g * (PI / 180) * g_range_km g = AU_KM * (- vz u * vx u / cos d * ((1 - q / SPEED_OF_LIGHT) * vx v - vx v_obs - q * vx u) + - vz u * vy u / cos d * ((1 - q / SPEED_OF_LIGHT) * vy v - vy v_obs - q * vy u)
        + cos d * ((1 - q / SPEED_OF_LIGHT) * vz v - vz v_obs - q * vz u))).
  { rewrite QR. subst g. unfold calculate_rates_and_geometry, get_residual_vectors. cbv zeta. cbn [g_ra_rate g_dec_rate fst snd]. fold u.
    assert (QE : 1 / norm rho * dot rho (vsub v v_obs) = q). { rewrite RU at 2. unfold q, dot, scale, vsub. cbn [vx vy vz]. field. lra. }
    rewrite QE, SQ. clear - NP CD PP. unfold dot, scale, vsub. cbn [vx vy vz]. clearbody q d. clearbody u. set (m := norm rho) in *. clearbody m.
    assert (S0 : SPEED_OF_LIGHT <> 0) by (unfold SPEED_OF_LIGHT, AU_KM; lra). split; field; repeat split; lra. }
  destruct GA as [GA GB]. rewrite GA, GB. 
  assert (QQ : slow = 1 - q / SPEED_OF_LIGHT). { unfold slow. rewrite RR. unfold SPEED_OF_LIGHT, AU_KM. field. }
  unfold w. rewrite QQ, UX, UY, UZ. change (149597870700 / 1000) with AU_KM. set (h := 1 - q / SPEED_OF_LIGHT). clearbody h q. 
  split.
  - replace (- (cos d * sin a) / cos d) with (- sin a) by (field; lra). replace (cos d * cos a / cos d) with (cos a) by (field; lra). ring.
  - replace (- sin d * (cos d * cos a) / cos d) with (- sin d * cos a) by (field; lra). replace (- sin d * (cos d * sin a) / cos d) with (- sin d * sin a) by (field; lra).
    set (X := h * vx v - vx v_obs). set (Y := h * vy v - vy v_obs). set (W := h * vz v - vz v_obs).
    replace (- sin d * cos a * (X - q * (cos d * cos a)) + - sin d * sin a * (Y - q * (cos d * sin a)) + cos d * (W - q * sin d))
      with (- sin d * cos a * X - sin d * sin a * Y + cos d * W + sin d * cos d * q * (sin a * sin a + cos a * cos a - 1)) by ring.
    rewrite S2a. ring.
Qed.
