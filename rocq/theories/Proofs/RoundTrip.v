(** C123: states of parabolic orbits, to elements and back. *)
From Coq Require Import Reals ZArith Lia Lra Psatz.
From Verif Require Import Base.Prelude Model.Sphere Model.Kepler Spec.Sphere Spec.Kepler Spec.Anomaly
  Proofs.Sphere Proofs.Sky Proofs.Kepler Proofs.KeplerState Proofs.Stumpff Proofs.Anomaly Proofs.HyperbolaState Proofs.ParabolaState Proofs.Cometary.
Open Scope R_scope.

Lemma half_angles nu : - PI < nu < PI -> let t := tan (nu / 2) in cos nu = (1 - t * t) / (1 + t * t) /\ sin nu = 2 * t / (1 + t * t).
Proof.
  intros H t. pose proof (half_tangent nu H) as E. fold t in E. split; rewrite E at 1; [apply cos_double_atan|apply sin_double_atan].
Qed.
Lemma parabola_position q i N w nu : - PI < nu < PI -> let t := tan (nu / 2) in
  conic_position q 1 i N w nu = perifocal i N w (q * (1 - t * t)) (2 * q * t).
Proof.
  intros H t. destruct (half_angles nu H) as [C S]. fold t in C, S. unfold conic_position. cbv zeta. rewrite C, S.
  assert (0 < 1 + t * t) by nra. f_equal; field; split; nra.
Qed.
Lemma parabola_velocity mu q i N w nu : - PI < nu < PI -> let t := tan (nu / 2) in
  conic_velocity mu q 1 i N w nu = perifocal i N w (- (sqrt (mu / (2 * q)) * (2 * t / (1 + t * t)))) (sqrt (mu / (2 * q)) * (2 / (1 + t * t))).
Proof.
  intros H t. destruct (half_angles nu H) as [C S]. fold t in C, S. unfold conic_velocity. cbv zeta. rewrite C, S.
  assert (0 < 1 + t * t) by nra. replace (q * (1 + 1)) with (2 * q) by ring. f_equal. f_equal. field. lra.
Qed.
(** Barker's equation is expanding. *)
Lemma barker_near t' t : Rabs (t' + t' * t' * t' / 3 - (t + t * t * t / 3)) <= 5 / 100000000000000 * Rabs t' * (1 + t' * t') ->
  Rabs (t' - t) <= 3 / 10000000000000 * Rabs t.
Proof.
  intros H. replace (t' + t' * t' * t' / 3 - (t + t * t * t / 3)) with ((t' - t) * (1 + (t' * t' + t' * t + t * t) / 3)) in H by field.
  assert (L : 1 + t' * t' / 4 <= 1 + (t' * t' + t' * t + t * t) / 3) by (assert (0 <= (t' + 2 * t) * (t' + 2 * t)) by apply Rle_0_sqr; lra).
  assert (L0 : 0 <= t' * t') by apply Rle_0_sqr. rewrite Rabs_mult, (Rabs_right (1 + _)) in H by lra.
  set (d := Rabs (t' - t)) in *. assert (D : 0 <= d) by apply Rabs_pos.
  assert (A : d * (1 + t' * t' / 4) <= 5 / 100000000000000 * Rabs t' * (1 + t' * t')) by (eapply Rle_trans; [apply Rmult_le_compat_l; [exact D|exact L]|exact H]).
  set (a' := Rabs t') in *. assert (A0 : 0 <= a') by apply Rabs_pos.
  assert (B : d <= 2 / 10000000000000 * a').
  { apply Rmult_le_reg_r with ((1 + t' * t') / 4); [nra|]. eapply Rle_trans; [|eapply Rle_trans; [exact A|]]; [apply Rmult_le_compat_l; nra|]. right. field. }
  assert (T : a' <= Rabs t + d).
  { unfold a', d. replace t' with (t + (t' - t)) at 1 by ring. apply Rabs_triang. }
  lra.
Qed.

Lemma parabola_perihelion : forall mu pos vel epoch, 0 < mu -> let h := cross pos vel in
  vx h <> 0 -> vy h <> 0 -> vz h <> 0 -> vz pos <> 0 -> vy pos * vx h - vx pos * vy h <> 0 ->
  vx pos * vx vel + vy pos * vy vel + vz pos * vz vel <> 0 -> length3 h * length3 h <> mu * length3 pos ->
  0 < k_q (universal_cometary mu pos vel epoch).
Proof.
  intros mu pos vel epoch Hmu h H1 H2 H3 H4 H5 H6 H7. assert (PP := H7). rewrite length3_sq in PP.
  destruct (anomaly_found mu pos vel epoch Hmu H1 H2 H3 H4 H5 H6 PP) as (nu0 & _ & _ & _ & _ & _ & _ & Eq). rewrite Eq.
  pose proof (ecc_pos mu pos vel Hmu H1 H6) as EP. pose proof (H_pos pos vel H1) as HP.
  apply Rdiv_lt_0_compat; [apply Rdiv_lt_0_compat; [apply Rmult_lt_0_compat|]|]; lra.
Qed.
Lemma parabola_momentum : forall mu pos vel epoch, 0 < mu -> let h := cross pos vel in
  vx h <> 0 -> vy h <> 0 -> vz h <> 0 -> vz pos <> 0 -> vy pos * vx h - vx pos * vy h <> 0 ->
  vx pos * vx vel + vy pos * vy vel + vz pos * vz vel <> 0 -> length3 h * length3 h <> mu * length3 pos ->
  binding mu pos vel = 0 -> length3 (cross pos vel) * length3 (cross pos vel) = 2 * mu * k_q (universal_cometary mu pos vel epoch).
Proof.
  intros mu pos vel epoch Hmu h H1 H2 H3 H4 H5 H6 H7 HB. assert (PP := H7). rewrite length3_sq in PP.
  destruct (anomaly_found mu pos vel epoch Hmu H1 H2 H3 H4 H5 H6 PP) as (nu0 & _ & _ & _ & _ & _ & _ & Eq). rewrite Eq.
  pose proof (ecc_pos mu pos vel Hmu H1 H6) as EP.
  pose proof (ecc_sq mu pos vel Hmu (h_nonzero pos vel H1)) as SQ. rewrite HB in SQ. rewrite <- length3_sq in SQ.
  change (np_cross pos vel) with (cross pos vel) in SQ. pose proof (H_pos pos vel H1) as HP.
  assert (SH : sqrt (length3 (cross pos vel) * length3 (cross pos vel)) = length3 (cross pos vel)) by (apply sqrt_square; lra).
  rewrite SH in SQ. clear SH.
  match type of EP with 0 < ?x => set (ecc := x) in * end.
  assert (Ee : ecc = 1).
  { assert (E2 : (ecc - 1) * (ecc + 1) = 0) by (replace ((ecc - 1) * (ecc + 1)) with (ecc * ecc - 1) by ring; rewrite SQ; unfold Rdiv; ring).
    apply Rmult_integral in E2. lra. }
  rewrite Ee. field. lra.
Qed.

Lemma C123_parabola_proof : forall mu pos vel epoch fuel x v, 0 < mu ->
  let h := cross pos vel in
  vx h <> 0 -> vy h <> 0 -> vz h <> 0 -> vz pos <> 0 -> vy pos * vx h - vx pos * vy h <> 0 ->
  vx pos * vx vel + vy pos * vy vel + vz pos * vz vel <> 0 -> length3 h * length3 h <> mu * length3 pos ->
  binding mu pos vel = 0 ->
  let k := universal_cometary mu pos vel epoch in
  universal_cartesian fuel mu (k_q k) (k_e k) (k_incl k) (k_node k) (k_peri k) (k_tp k) epoch = Ok (Some (x, v)) ->
  0 < k_q k /\ apart x pos <= 2 / 1000000000000 * length3 pos * sqrt (length3 pos / k_q k)
  /\ apart v vel <= 2 / 1000000000000 * length3 vel.
Proof.
  intros mu pos vel epoch fuel x v Hmu h H1 H2 H3 H4 H5 H6 H7 Hb k Hx.
  destruct (C75_parabola_proof mu pos vel epoch Hmu H1 H2 H3 H4 H5 H6 H7 Hb) as (E1 & nu & Hnu & Ep & Ev & Eb). fold k in E1, Ep, Ev, Eb. cbv zeta in Eb.
  assert (Q : 0 < k_q k).
  { exact (parabola_perihelion mu pos vel epoch Hmu H1 H2 H3 H4 H5 H6 H7). }
  split; [exact Q|]. rewrite E1 in Hx.
  destruct (C96_parabola_proof fuel mu (k_q k) (k_incl k) (k_node k) (k_peri k) (k_tp k) epoch x v Hmu Q Hx) as (nu' & Hnu' & R1 & R2 & R3). cbv zeta in R1, R2.
  rewrite <- Eb in R1. set (q := k_q k) in *.
  rewrite (parabola_position q _ _ _ nu' Hnu') in R2. rewrite R3, (parabola_velocity mu q _ _ _ nu' Hnu'). clear R3.
  rewrite (parabola_position q _ _ _ nu Hnu) in Ep. rewrite (parabola_velocity mu q _ _ _ nu Hnu) in Ev.
  set (t' := tan (nu' / 2)) in *. set (t := tan (nu / 2)) in *.
  pose proof (barker_near t' t R1) as D. set (d := Rabs (t' - t)) in *. assert (D0 : 0 <= d) by apply Rabs_pos.
  set (a := Rabs t) in *. assert (A0 : 0 <= a) by apply Rabs_pos.
  assert (AA : t * t = a * a) by (pose proof (Rle_0_sqr t) as G; unfold Rsqr in G; unfold a; rewrite <- Rabs_mult, Rabs_right; lra).
  assert (T : Rabs t' <= a + d).
  { unfold a, d. replace t' with (t + (t' - t)) at 1 by ring. apply Rabs_triang. }
  assert (T1 : t' * t' <= (a + d) * (a + d)).
  { pose proof (Rle_0_sqr t') as G. unfold Rsqr in G. replace (t' * t') with (Rabs t' * Rabs t') by (rewrite <- Rabs_mult, Rabs_right; lra).
    apply Rmult_le_compat; auto using Rabs_pos. }
  assert (SUM : Rabs (t' + t) <= 2 * a + d).
  { replace (t' + t) with (2 * t + (t' - t)) by ring. eapply Rle_trans; [apply Rabs_triang|]. rewrite Rabs_mult, (Rabs_right 2) by lra. fold a d. lra. }
  split.
  - assert (LP : length3 pos = q * (1 + a * a)).
    { rewrite Ep, length3_perifocal. replace (_ + _) with ((q * (1 + a * a)) * (q * (1 + a * a))) by (rewrite <- AA; ring). apply sqrt_square. pose proof (Rle_0_sqr a) as G. unfold Rsqr in G. apply Rmult_le_pos; lra. }
    assert (LQ : a <= sqrt (length3 pos / q)).
    { rewrite LP. replace (q * (1 + a * a) / q) with (1 + a * a) by (field; lra). rewrite <- (sqrt_square a A0) at 1. apply sqrt_le_1_alt. lra. }
    eapply Rle_trans; [apply (apart_triangle x (perifocal (k_incl k) (k_node k) (k_peri k) (q * (1 - t' * t')) (2 * q * t')) pos)|]. eapply Rle_trans; [apply Rplus_le_compat_r; exact R2|].
    assert (P2 : apart (perifocal (k_incl k) (k_node k) (k_peri k) (q * (1 - t' * t')) (2 * q * t')) pos <= q * (d * (2 * a + d)) + 2 * q * d).
    { rewrite Ep. eapply Rle_trans; [apply apart_perifocal|]. apply Rplus_le_compat.
      - replace (q * (1 - t' * t') - q * (1 - t * t)) with (- (q * ((t' - t) * (t' + t)))) by ring. rewrite Rabs_Ropp, !Rabs_mult, (Rabs_right q) by lra. fold d.
        apply Rmult_le_compat_l; [lra|]. apply Rmult_le_compat_l; lra.
      - replace (2 * q * t' - 2 * q * t) with (2 * q * (t' - t)) by ring. rewrite Rabs_mult, (Rabs_right (2 * q)) by lra. fold d. lra. }
    eapply Rle_trans; [apply Rplus_le_compat_l; exact P2|].
    apply Rle_trans with (2 / 1000000000000 * (q * (1 + a * a)) * a); [|rewrite LP; apply Rmult_le_compat_l; [|rewrite <- LP; exact LQ]; apply Rmult_le_pos; [lra|]; apply Rmult_le_pos; [lra|]; pose proof (Rle_0_sqr a) as G; unfold Rsqr in G; lra].
    apply Rle_trans with (q * (1 / 10000000000000 * ((a + d) * (1 + (a + d) * (a + d))) + d * (2 * a + d) + 2 * d)).
    + pose proof (Rabs_pos t'). assert (Rabs t' * (1 + t' * t') <= (a + d) * (1 + (a + d) * (a + d))) by (pose proof (Rle_0_sqr t') as G; unfold Rsqr in G; apply Rmult_le_compat; lra).
      assert (q * (Rabs t' * (1 + t' * t')) <= q * ((a + d) * (1 + (a + d) * (a + d)))) by (apply Rmult_le_compat_l; lra). lra.
    + replace (2 / 1000000000000 * (q * (1 + a * a)) * a) with (q * (2 / 1000000000000 * ((1 + a * a) * a))) by ring. apply Rmult_le_compat_l; [lra|].
      clear - A0 D0 D. assert (K1 : a + d <= 101/100 * a) by lra.
      assert (K0 : 0 <= (a + d) * (a + d)) by apply Rle_0_sqr.
      assert (K2 : (a + d) * (a + d) <= (101/100 * a) * (101/100 * a)) by (apply Rmult_le_compat; lra).
      assert (K3 : (a + d) * (1 + (a + d) * (a + d)) <= 101/100 * a * (1 + (101/100 * a) * (101/100 * a))) by (apply Rmult_le_compat; lra).
      assert (K4 : d * (2 * a + d) <= 3 / 10000000000000 * a * (3 * a)) by (apply Rmult_le_compat; lra).
      assert (K5 : 0 <= a * ((a - 1) * (a - 1))) by (apply Rmult_le_pos; [lra|apply Rle_0_sqr]).
      assert (K6 : 0 <= a * (a * a)) by (apply Rmult_le_pos; [lra|apply Rle_0_sqr]).
      clear K1 K0 K2. ring_simplify in K5. ring_simplify in K6. ring_simplify in K3. ring_simplify in K4. ring_simplify. lra.
  - set (c := sqrt (mu / (2 * q))) in *. assert (C0 : 0 <= c) by apply sqrt_pos.
    set (m := 1 + t * t) in *. set (m' := 1 + t' * t') in *. assert (M1 : 1 <= m) by (unfold m; pose proof (Rle_0_sqr t) as G; unfold Rsqr in G; lra). assert (M2 : 1 <= m') by (unfold m'; pose proof (Rle_0_sqr t') as G; unfold Rsqr in G; lra).
    assert (MM : 0 < m * m') by (apply Rmult_lt_0_compat; lra).
    assert (LV : length3 vel = 2 * c / sqrt m).
    { rewrite Ev, length3_perifocal. assert (0 < sqrt m) by (apply sqrt_lt_R0; lra).
      replace (_ + _) with ((2 * c / sqrt m) * (2 * c / sqrt m)).
      - apply sqrt_square. apply Rmult_le_pos; [lra|]. left. apply Rinv_0_lt_compat. lra.
      - replace (2 * c / sqrt m * (2 * c / sqrt m)) with (4 * c * c / (sqrt m * sqrt m)) by (field; lra). rewrite sqrt_sqrt by lra.
        transitivity (4 * c * c * m / (m * m)); [field; lra|]. unfold m at 1. field. lra. }
    rewrite LV. rewrite Ev. eapply Rle_trans; [apply apart_perifocal|].
    replace (- (c * (2 * t' / m')) - - (c * (2 * t / m))) with (- (2 * c / (m * m') * ((t' - t) * (1 - t * t')))) by (unfold m, m'; field; unfold m, m' in *; lra).
    replace (c * (2 / m') - c * (2 / m)) with (- (2 * c / (m * m') * ((t' - t) * (t' + t)))) by (unfold m, m'; field; unfold m, m' in *; lra).
    assert (W : 0 <= 2 * c / (m * m')) by (apply Rmult_le_pos; [lra|left; apply Rinv_0_lt_compat; exact MM]).
    rewrite !Rabs_Ropp, !Rabs_mult, (Rabs_right (2 * c / (m * m'))) by lra. fold d.
    assert (S1 : Rabs (1 - t * t') <= sqrt (m * m')).
    { rewrite <- (sqrt_Rsqr_abs (1 - t * t')). apply sqrt_le_1_alt. replace (m * m') with (Rsqr (1 - t * t') + Rsqr (t' + t)) by (unfold Rsqr, m, m'; ring). pose proof (Rle_0_sqr (t' + t)). lra. }
    assert (S2 : Rabs (t' + t) <= sqrt (m * m')).
    { rewrite <- (sqrt_Rsqr_abs (t' + t)). apply sqrt_le_1_alt. replace (m * m') with (Rsqr (1 - t * t') + Rsqr (t' + t)) by (unfold Rsqr, m, m'; ring). pose proof (Rle_0_sqr (1 - t * t')). lra. }
    set (s := sqrt (m * m')) in *. assert (SS : s * s = m * m') by (apply sqrt_sqrt; lra). assert (S0 : 0 < s) by (apply sqrt_lt_R0; lra).
    apply Rle_trans with (2 * c / (m * m') * (2 * (d * s))).
    { pose proof (Rabs_pos (1 - t * t')). pose proof (Rabs_pos (t' + t)).
      assert (d * Rabs (1 - t * t') <= d * s) by (apply Rmult_le_compat_l; lra). assert (d * Rabs (t' + t) <= d * s) by (apply Rmult_le_compat_l; lra). rewrite <- Rmult_plus_distr_l. apply Rmult_le_compat_l; lra. }
    replace (2 * c / (m * m') * (2 * (d * s))) with (2 * c * (2 * d / s)) by (rewrite <- SS; field; lra).
    replace (2 / 1000000000000 * (2 * c / sqrt m)) with (2 * c * (2 / 1000000000000 / sqrt m)) by (field; apply Rgt_not_eq, sqrt_lt_R0; lra).
    apply Rmult_le_compat_l; [lra|]. unfold s. rewrite sqrt_mult by lra.
    assert (G1 : 0 < sqrt m) by (apply sqrt_lt_R0; lra). assert (G2 : 0 < sqrt m') by (apply sqrt_lt_R0; lra).
    apply Rmult_le_reg_r with (sqrt m * sqrt m'); [apply Rmult_lt_0_compat; lra|].
    replace (2 * d / (sqrt m * sqrt m') * (sqrt m * sqrt m')) with (2 * d) by (field; lra).
    replace (2 / 1000000000000 / sqrt m * (sqrt m * sqrt m')) with (2 / 1000000000000 * sqrt m') by (field; lra).
    assert (B : d <= 4 / 10000000000000 * Rabs t').
    { assert (a <= Rabs t' + d).
      { unfold a, d. replace t with (t' + - (t' - t)) at 1 by ring. eapply Rle_trans; [apply Rabs_triang|]. rewrite Rabs_Ropp. lra. } lra. }
    assert (Rabs t' <= sqrt m').
    { rewrite <- (sqrt_Rsqr_abs t'). apply sqrt_le_1_alt. unfold Rsqr, m'. lra. } lra.
Qed.
