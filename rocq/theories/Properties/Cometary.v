From Coq Require Import Reals ZArith Lia Lra Psatz.
From Verif Require Import Base.Prelude Model.Sphere Model.Kepler Spec.Sphere Spec.Kepler Spec.Anomaly
  Proofs.Sphere Proofs.Sky Proofs.Kepler Proofs.KeplerState Proofs.Stumpff Proofs.Anomaly Proofs.Halley Proofs.Cometary Proofs.EllipseState.
Open Scope R_scope.

(** * C75, continued: argument and time of perihelion *)

Theorem C75_conic_partial : forall mu pos vel epoch, 0 < mu ->
  let h := cross pos vel in
  vx h <> 0 -> vy h <> 0 -> vz h <> 0 -> vz pos <> 0 -> vy pos * vx h - vx pos * vy h <> 0 ->
  vx pos * vx vel + vy pos * vy vel + vz pos * vz vel <> 0 -> length3 h * length3 h <> mu * length3 pos ->
  let k := universal_cometary mu pos vel epoch in
  k_e k <> 1 ->
  exists nu, - PI < nu < PI /\ 0 < 1 + k_e k * cos nu
    /\ pos = conic_position (k_q k) (k_e k) (k_incl k) (k_node k) (k_peri k) nu
    /\ vel = conic_velocity mu (k_q k) (k_e k) (k_incl k) (k_node k) (k_peri k) nu.
Proof. exact C75_conic_proof. Qed.
Print Assumptions C75_conic_partial.
Theorem C75_ellipse_partial : forall mu pos vel epoch, 0 < mu ->
  let h := cross pos vel in
  vx h <> 0 -> vy h <> 0 -> vz h <> 0 -> vz pos <> 0 -> vy pos * vx h - vx pos * vy h <> 0 ->
  vx pos * vx vel + vy pos * vy vel + vz pos * vz vel <> 0 -> length3 h * length3 h <> mu * length3 pos ->
  let k := universal_cometary mu pos vel epoch in
  k_e k < 1 ->
  exists E (turns : Z),
    pos = ellipse_position (k_q k) (k_e k) (k_incl k) (k_node k) (k_peri k) E
    /\ vel = ellipse_velocity mu (k_q k) (k_e k) (k_incl k) (k_node k) (k_peri k) E
    /\ E - k_e k * sin E = mean_motion mu (k_q k) (k_e k) * (epoch - k_tp k) + 2 * PI * IZR turns.
Proof. exact C75_ellipse_proof. Qed.
Print Assumptions C75_ellipse_partial.
Theorem C75_hyperbola_partial : forall mu pos vel epoch, 0 < mu ->
  let h := cross pos vel in
  vx h <> 0 -> vy h <> 0 -> vz h <> 0 -> vz pos <> 0 -> vy pos * vx h - vx pos * vy h <> 0 ->
  vx pos * vx vel + vy pos * vy vel + vz pos * vz vel <> 0 -> length3 h * length3 h <> mu * length3 pos ->
  let k := universal_cometary mu pos vel epoch in
  1 < k_e k ->
  exists F,
    pos = hyperbola_position (k_q k) (k_e k) (k_incl k) (k_node k) (k_peri k) F
    /\ vel = hyperbola_velocity mu (k_q k) (k_e k) (k_incl k) (k_node k) (k_peri k) F
    /\ let a := k_q k / (k_e k - 1) in k_e k * sinh F - F = sqrt (mu / (a * a * a)) * (epoch - k_tp k).
Proof. exact C75_hyperbola_proof. Qed.
Print Assumptions C75_hyperbola_partial.
Theorem C75_parabola_partial : forall mu pos vel epoch, 0 < mu ->
  let h := cross pos vel in
  vx h <> 0 -> vy h <> 0 -> vz h <> 0 -> vz pos <> 0 -> vy pos * vx h - vx pos * vy h <> 0 ->
  vx pos * vx vel + vy pos * vy vel + vz pos * vz vel <> 0 -> length3 h * length3 h <> mu * length3 pos ->
  binding mu pos vel = 0 ->
  let k := universal_cometary mu pos vel epoch in
  k_e k = 1 /\ exists nu, - PI < nu < PI
    /\ pos = conic_position (k_q k) 1 (k_incl k) (k_node k) (k_peri k) nu
    /\ vel = conic_velocity mu (k_q k) 1 (k_incl k) (k_node k) (k_peri k) nu
    /\ let t := tan (nu / 2) in t + t * t * t / 3 = sqrt (mu / (2 * (k_q k * k_q k * k_q k))) * (epoch - k_tp k).
Proof. exact C75_parabola_proof. Qed.
Print Assumptions C75_parabola_partial.
Theorem C75_latus_refuted : forall mu pos vel epoch, 0 < mu -> cross pos vel <> V3 0 0 0 ->
  length3 (cross pos vel) * length3 (cross pos vel) = mu * length3 pos ->
  vx pos * vx vel + vy pos * vy vel + vz pos * vz vel <> 0 ->
  let k := universal_cometary mu pos vel epoch in k_tp k = epoch /\ k_q k < length3 pos.
Proof. exact C75_latus_refuted_proof. Qed.
Print Assumptions C75_latus_refuted.
Theorem C75_descending_refuted : forall mu pos vel epoch, 0 < mu ->
  let h := cross pos vel in
  vx h <> 0 -> vy h <> 0 -> vz h <> 0 -> vz pos = 0 -> vz vel < 0 ->
  vx pos * vx vel + vy pos * vy vel + vz pos * vz vel <> 0 -> length3 h * length3 h <> mu * length3 pos ->
  let k := universal_cometary mu pos vel epoch in
  k_e k <> 1 ->
  forall nu, 0 < 1 + k_e k * cos nu -> pos <> conic_position (k_q k) (k_e k) (k_incl k) (k_node k) (k_peri k) nu.
Proof. exact C75_descending_refuted_proof. Qed.
Print Assumptions C75_descending_refuted.

(** A state with eccentricity 13/10, one with parabolic speed, one a right angle from
    perihelion, and one on the way down through the reference plane. *)
Example C75_general_case :
  (let x := V3 1 2 2 in let v := V3 (14/15) (-2/15) (13/15) in let h := cross x v in
   vx h <> 0 /\ vy h <> 0 /\ vz h <> 0 /\ vy x * vx h - vx x * vy h <> 0 /\ vx x * vx v + vy x * vy v + vz x * vz v <> 0
   /\ length3 h * length3 h <> 2 * length3 x /\ k_e (universal_cometary 2 x v 0) = 13/10)
  /\ (let x := V3 1 2 2 in let v := V3 (4/3) (2/3) (5/3) in let h := cross x v in
      vx h <> 0 /\ vy h <> 0 /\ vz h <> 0 /\ vy x * vx h - vx x * vy h <> 0 /\ vx x * vx v + vy x * vy v + vz x * vz v <> 0
      /\ length3 h * length3 h <> 15/2 * length3 x /\ binding (15/2) x v = 0)
  /\ (let x := V3 1 2 2 in let v := V3 (5/6) (-1/3) (2/3) in
      cross x v <> V3 0 0 0 /\ length3 (cross x v) * length3 (cross x v) = 3 * length3 x /\ vx x * vx v + vy x * vy v + vz x * vz v <> 0)
  /\ (let x := V3 (-4) 3 0 in let v := V3 4 0 (-1) in let h := cross x v in
      vx h <> 0 /\ vy h <> 0 /\ vz h <> 0 /\ vx x * vx v + vy x * vy v + vz x * vz v <> 0
      /\ length3 h * length3 h <> 274/5 * length3 x /\ k_e (universal_cometary (274/5) x v 0) = 233/274).
Proof.
  assert (L1 : length3 (V3 1 2 2) = 3).
  { unfold length3; cbn [vx vy vz]. replace (1 * 1 + 2 * 2 + 2 * 2) with (3 * 3) by ring. apply sqrt_square; lra. }
  assert (L2 : length3 (V3 (-4) 3 0) = 5).
  { unfold length3; cbn [vx vy vz]. replace (-4 * -4 + 3 * 3 + 0 * 0) with (5 * 5) by ring. apply sqrt_square; lra. }
  assert (C : forall x v, length3 (cross x v) * length3 (cross x v) = vx (cross x v) * vx (cross x v) + vy (cross x v) * vy (cross x v) + vz (cross x v) * vz (cross x v)).
  { intros. apply sqrt_sqrt. nra. }
  cbv zeta. rewrite !C, L1, L2. unfold cross; cbn [vx vy vz].
  split; [|split; [|split]].
  - repeat (split; [lra|]).
    destruct (C75_recovers_proof 2 (45/23) (13/10) (V3 1 2 2) (V3 (14/15) (-2/15) (13/15)) 0) as [_ [E|[_ E]]]; try lra; auto.
    + unfold binding, binding_of_elements. rewrite L1. cbn [vx vy vz]. field.
    + unfold momentum_of_elements, length3, cross. cbn [vx vy vz]. f_equal. field.
    + rewrite Rabs_right in E by lra. lra.
  - repeat (split; [lra|]). unfold binding. rewrite L1. cbn [vx vy vz]. field.
  - split; [intros E; injection E; lra|]. lra.
  - repeat (split; [lra|]).
    destruct (C75_recovers_proof (274/5) (5/3) (233/274) (V3 (-4) 3 0) (V3 4 0 (-1)) 0) as [_ [E|[_ E]]]; try lra; auto.
    + unfold binding, binding_of_elements. rewrite L2. cbn [vx vy vz]. field.
    + unfold momentum_of_elements, length3, cross. cbn [vx vy vz]. f_equal. field.
    + rewrite Rabs_left in E by lra. lra.
Qed.

(** * C95: there and back *)

Theorem C95_round_trip_partial : forall mu pos vel epoch fuel x v, 0 < mu ->
  let h := cross pos vel in
  vx h <> 0 -> vy h <> 0 -> vz h <> 0 -> vz pos <> 0 -> vy pos * vx h - vx pos * vy h <> 0 ->
  vx pos * vx vel + vy pos * vy vel + vz pos * vz vel <> 0 -> length3 h * length3 h <> mu * length3 pos ->
  let k := universal_cometary mu pos vel epoch in
  let q := k_q k in let e := k_e k in
  e <= 1 - 1 / 1000000000 ->
  universal_cartesian fuel mu q e (k_incl k) (k_node k) (k_peri k) (k_tp k) epoch = Ok (Some (x, v)) ->
  exists t s, since_perihelion mu q e (k_tp k) epoch = Ok t
    /\ solve (fun s => root_function s mu (2 * mu / q - mu * (1 + e) / q) q 0 t) (1 / 100000000000000) fuel t = Ok (Some s)
    /\ (sqrt (mu * (1 - e) / q) * Rabs s <= 10000 -> (sqrt (mu * (1 - e) / q) * Rabs s) ^ 4 <= 10 ^ 17 * (1 - e) ->
        apart x pos <= 5 / 1000000000000 * (semi_major q e / (1 - e))
        /\ apart v vel <= 1 / 100000000000 * sqrt (mu / semi_major q e) / ((1 - e) * (1 - e) * (1 - e))).
Proof. exact C95_round_trip_proof. Qed.
Print Assumptions C95_round_trip_partial.
Theorem C95_elements_partial : forall mu q e i N w nu epoch, 0 < mu -> 0 < q -> 0 < e -> 1 / 1000000000000000 <= Rabs (e - 1) ->
  0 < i < PI -> 0 < 1 + e * cos nu ->
  cos i <> 0 -> sin N <> 0 -> cos N <> 0 -> sin nu <> 0 -> cos nu <> 0 -> sin (w + nu) <> 0 -> cos (w + nu) <> 0 ->
  let k := universal_cometary mu (conic_position q e i N w nu) (conic_velocity mu q e i N w nu) epoch in
  k_q k = q /\ k_e k = e /\ k_incl k = i
  /\ (exists turns : Z, k_node k = N + 2 * PI * IZR turns) /\ (exists turns : Z, k_peri k = w + 2 * PI * IZR turns).
Proof. exact C95_elements_proof. Qed.
Print Assumptions C95_elements_partial.
Theorem C95_time_partial : forall mu q e i N w E epoch, 0 < mu -> 0 < q -> 0 < e -> e <= 1 - 1 / 1000000000000000 ->
  0 < i < PI -> cos i <> 0 -> sin N <> 0 -> cos N <> 0 -> sin E <> 0 -> cos E <> e ->
  let pos := ellipse_position q e i N w E in
  vz pos <> 0 -> vx pos * cos N + vy pos * sin N <> 0 ->
  let k := universal_cometary mu pos (ellipse_velocity mu q e i N w E) epoch in
  k_q k = q /\ k_e k = e
  /\ exists turns : Z, E - e * sin E = sqrt (mu * (1 - e) * (1 - e) * (1 - e) / (q * q * q)) * (epoch - k_tp k) + 2 * PI * IZR turns.
Proof. exact C95_time_proof. Qed.
Print Assumptions C95_time_partial.

(** A state whose elements are converted back in a single step of the search. *)
Example C95_case : exists mu pos vel, 0 < mu
  /\ (let h := cross pos vel in vx h <> 0 /\ vy h <> 0 /\ vz h <> 0 /\ vz pos <> 0 /\ vy pos * vx h - vx pos * vy h <> 0
      /\ vx pos * vx vel + vy pos * vy vel + vz pos * vz vel <> 0 /\ length3 h * length3 h <> mu * length3 pos)
  /\ let k := universal_cometary mu pos vel 1 in
     k_e k = 1/2
     /\ (exists x v, universal_cartesian 1 mu (k_q k) (k_e k) (k_incl k) (k_node k) (k_peri k) (k_tp k) 1 = Ok (Some (x, v)))
     /\ exists t s, since_perihelion mu (k_q k) (k_e k) (k_tp k) 1 = Ok t
        /\ solve (fun s => root_function s mu (2 * mu / k_q k - mu * (1 + k_e k) / k_q k) (k_q k) 0 t) (1 / 100000000000000) 1 t = Ok (Some s)
        /\ sqrt (mu * (1 - k_e k) / k_q k) * Rabs s <= 100.
Proof.
  destruct quarter_root as (a & A & SO & U). destruct (quarter_anomaly a A) as (E & BE & KE).
  pose proof PI_RGT_0 as PI0. pose proof PI2_3_2 as PI1.
  set (w := PI / 4). assert (W1 : cos w = sin w) by (unfold w; rewrite cos_PI4, sin_PI4; reflexivity).
  assert (W2 : 0 < sin w) by (apply sin_gt_0; unfold w; lra). assert (W4 : 0 < w < PI) by (unfold w; lra). clearbody w.
  assert (W3 : sin w * sin w = 1/2) by (pose proof (sc1 w); rewrite W1 in H; lra).
  set (pos := ellipse_position (a / 2) (1/2) w w w E). set (vel := ellipse_velocity a (a / 2) (1/2) w w w E).
  assert (SE : 0 < sin E < 13/50) by (split; [apply sin_gt_0; lra|pose proof (sin_lt_x E); lra]).
  assert (CE : 9/10 < cos E).
  { assert (0 < cos E) by (apply cos_gt_0; lra). pose proof (cs1 E) as C. nra. }
  assert (AA : a / 2 / (1 - 1/2) = a) by field.
  assert (S3 : 0 < sqrt (1 - 1/2 * (1/2)) < 1).
  { split; [apply sqrt_lt_R0; lra|]. apply Rlt_le_trans with (sqrt 1); [apply sqrt_lt_1_alt; lra|rewrite sqrt_1; lra]. }
  set (g := sqrt (1 - 1/2 * (1/2))) in *.
  assert (X0 : a * (2/5) < a * (cos E - 1/2)) by (apply Rmult_lt_compat_l; lra).
  assert (Y0 : 0 < a * g * sin E) by (repeat apply Rmult_lt_0_compat; lra).
  assert (Y1 : a * g * sin E < a * (13/50)).
  { rewrite Rmult_assoc. apply Rmult_lt_compat_l; [lra|]. nra. }
  assert (PP : pos = perifocal w w w (a * (cos E - 1/2)) (a * g * sin E)) by (unfold pos, ellipse_position, semi_major; rewrite AA; reflexivity).
  set (X := a * (cos E - 1/2)) in *. set (Y := a * g * sin E) in *.
  assert (PZ : vz pos <> 0).
  { rewrite PP. unfold perifocal; cbn [vz]. rewrite W1, W3. lra. }
  assert (PX : vx pos * cos w + vy pos * sin w <> 0).
  { rewrite PP. unfold perifocal; cbn [vx vy]. rewrite W1.
    replace (_ + _) with ((X - Y) * (2 * (sin w * sin w)) * sin w) by ring. rewrite W3.
    apply Rgt_not_eq. apply Rmult_lt_0_compat; lra. }
  destruct (ellipse_state a (a / 2) (1/2) w w w E ltac:(lra) ltac:(lra) ltac:(lra)) as (L & D & C & _).
  fold pos in L, D, C. fold vel in D, C. rewrite AA in L, D.
  destruct (C95_time_proof a (a / 2) (1/2) w w w E 1) as (Eq & Ee & j & Ej); try lra; auto. fold pos in Eq, Ee, Ej. fold vel in Eq, Ee, Ej.
  assert (H0 : 0 < momentum_of_elements a (a / 2) (1/2)) by (apply sqrt_lt_R0; nra).
  assert (HH : momentum_of_elements a (a / 2) (1/2) * momentum_of_elements a (a / 2) (1/2) = a * (a * (3/4))).
  { unfold momentum_of_elements. rewrite sqrt_sqrt by nra. field. }
  set (H := momentum_of_elements a (a / 2) (1/2)) in *.
  exists a, pos, vel. split; [lra|]. split.
  - cbv zeta. rewrite C. cbn [scale orbit_normal vx vy vz]. rewrite W1, W3.
    split; [lra|]. split; [lra|]. split; [apply Rgt_not_eq, Rmult_lt_0_compat; lra|]. split; [auto|]. split; [|split].
    + intros F. apply PX. rewrite W1. apply Rmult_eq_reg_l with (H * (1/2)); [|lra].
      transitivity (sin w * (vy pos * (H * (1/2)) - vx pos * (H * - (1/2)))); [ring|rewrite F; ring].
    + fold (dot pos vel). rewrite D. apply Rgt_not_eq, Rmult_lt_0_compat; [apply sqrt_lt_R0; nra|lra].
    + rewrite length_scale, length_normal, Rmult_1_r, HH, L by lra. intros F. apply Rmult_eq_reg_l in F; [|lra]. apply Rmult_eq_reg_l in F; lra.
  - cbv zeta. set (k := universal_cometary a pos vel 1) in *. rewrite Eq, Ee. split; [auto|].
    assert (T : since_perihelion a (a / 2) (1/2) (k_tp k) 1 = Ok 1).
    { unfold since_perihelion. destruct (Rlt_dec (1/2) 1); [|lra]. rewrite rdiv_value by lra. cbn [rbind]. rewrite AA.
      rewrite rdiv_value by (apply Rgt_not_eq; repeat apply Rmult_lt_0_compat; lra). cbn [rbind].
      assert (SQ : sqrt (a / (a * a * a)) = / a).
      { replace (a / (a * a * a)) with (/ a * / a) by (field; lra). apply sqrt_square. apply Rlt_le, Rinv_0_lt_compat. lra. }
      rewrite SQ. assert (I0 : 0 < / a) by (apply Rinv_0_lt_compat; lra). rewrite rdiv_value by lra. cbn [rbind].
      replace (2 * PI / / a) with (2 * PI * a) by (field; lra).
      assert (1 < 2 * PI * a) by nra. destruct (Req_EM_T (2 * PI * a) 0); [lra|]. f_equal.
      apply (rmod_unique _ _ _ (- j)); [lra|lra|]. rewrite opp_IZR.
      replace (a * (1 - 1/2) * (1 - 1/2) * (1 - 1/2) / (a / 2 * (a / 2) * (a / 2))) with (/ a * / a) in Ej by (field; lra).
      rewrite sqrt_square in Ej by lra. rewrite KE in Ej.
      assert (F : 1 = (1 - k_tp k) + a * (2 * PI * IZR j)).
      { transitivity (a * / a); [rewrite Rinv_r; lra|]. rewrite Ej at 1. rewrite Rmult_plus_distr_l, <- Rmult_assoc, Rinv_r by lra. ring. }
      lra. }
    split; [apply U; auto|]. exists 1, (1/4). split; [auto|]. split; [auto|].
    replace (a * (1 - 1/2) / (a / 2)) with 1 by (field; lra). rewrite sqrt_1, Rabs_right by lra. lra.
Qed.

(** Hypotheses of [C95_elements_partial]. *)
Example C95_elements_case : 0 < PI / 4 < PI /\ 0 < 1 + 1/2 * cos (PI / 4) /\ sin (PI / 4) <> 0 /\ cos (PI / 4) <> 0
  /\ sin (PI + PI / 4) <> 0 /\ cos (PI + PI / 4) <> 0.
Proof.
  pose proof PI_RGT_0. assert (0 < sin (PI / 4)) by (apply sin_gt_0; lra). assert (0 < cos (PI / 4)) by (apply cos_gt_0; lra).
  rewrite (Rplus_comm PI), neg_sin, neg_cos. repeat split; lra.
Qed.
