(** From elements to a state and back to the elements. *)
From Coq Require Import Reals ZArith Lia Lra Psatz.
From Verif Require Import Base.Prelude Model.Sphere Model.Kepler Spec.Sphere Spec.Kepler Spec.Anomaly
  Proofs.Sphere Proofs.Sky Proofs.Kepler Proofs.KeplerState Proofs.Stumpff Proofs.Anomaly Proofs.Halley Proofs.Cometary.
Open Scope R_scope.

Lemma turn_of a b : cos a = cos b -> sin a = sin b -> exists j : Z, a = b + 2 * PI * IZR j.
Proof.
  intros C S. pose proof PI_RGT_0 as P. destruct (rmod_turn (a - b) (2 * PI)) as [j J]. destruct (rmod_range (a - b) (2 * PI) ltac:(lra)) as [L U].
  set (d := rmod (a - b) (2 * PI)) in *.
  assert (Z : d = 0).
  { apply angle_unique; [| |lra].
    - rewrite J. destruct (cos_turn (a - b) j) as [-> _]. rewrite cos_0, cos_minus, C, S. apply sc1.
    - rewrite J. destruct (cos_turn (a - b) j) as [_ ->]. rewrite sin_0, sin_minus, C, S. ring. }
  exists (- j)%Z. rewrite opp_IZR. lra.
Qed.

Lemma dot_perifocal i N w x y x' y' : dot (perifocal i N w x y) (perifocal i N w x' y') = x * x' + y * y'.
Proof. rewrite <- !orient_perifocal, orient_dot. unfold dot; cbn [vx vy vz]. ring. Qed.
Lemma cross_perifocal i N w x y x' y' : cross (perifocal i N w x y) (perifocal i N w x' y') = scale (x * y' - y * x') (orbit_normal i N).
Proof.
  rewrite <- !orient_perifocal, orient_cross, <- orient_pole with (w := w). f_equal. unfold cross; cbn [vx vy vz]. f_equal; ring.
Qed.
Lemma length_normal i N : length3 (orbit_normal i N) = 1.
Proof.
  unfold length3, orbit_normal; cbn [vx vy vz]. rewrite <- sqrt_1. f_equal. pose proof (cs1 i) as C. pose proof (cs1 N) as D.
  transitivity (sin i * sin i * (sin N * sin N + cos N * cos N) + cos i * cos i); [ring|]. rewrite D, C. ring.
Qed.
Lemma length_scale c v : 0 <= c -> length3 (scale c v) = c * length3 v.
Proof.
  intros C. unfold length3, scale; cbn [vx vy vz]. rewrite <- (sqrt_square c C) at 7. rewrite <- sqrt_mult by nra. f_equal. ring.
Qed.

Lemma conic_state : forall mu q e i N w nu, 0 < mu -> 0 < q -> 0 <= e -> 0 < 1 + e * cos nu ->
  let pos := conic_position q e i N w nu in let vel := conic_velocity mu q e i N w nu in
  let r := q * (1 + e) / (1 + e * cos nu) in
  length3 pos = r /\ dot pos vel = r * sqrt (mu / (q * (1 + e))) * (e * sin nu)
  /\ cross pos vel = scale (momentum_of_elements mu q e) (orbit_normal i N)
  /\ binding mu pos vel = binding_of_elements mu q e.
Proof.
  intros mu q e i N w nu Hmu Hq He HD pos vel r. unfold pos, vel, conic_position, conic_velocity. cbv zeta. fold r.
  assert (P : 0 < q * (1 + e)) by (apply mul_pos; lra). set (p := q * (1 + e)) in *.
  assert (R0 : 0 < r) by (unfold r; apply Rdiv_lt_0_compat; auto).
  set (c := sqrt (mu / p)). assert (CC : c * c = mu / p) by (apply sqrt_sqrt, Rlt_le, Rdiv_lt_0_compat; auto).
  assert (C0 : 0 < c) by (apply sqrt_lt_R0, Rdiv_lt_0_compat; auto).
  pose proof (cs1 nu) as CS.
  assert (L : length3 (perifocal i N w (r * cos nu) (r * sin nu)) = r).
  { transitivity (sqrt (r * r)); [|apply sqrt_square; lra]. unfold length3. f_equal. transitivity (dot (perifocal i N w (r * cos nu) (r * sin nu)) (perifocal i N w (r * cos nu) (r * sin nu))); [reflexivity|].
    rewrite dot_perifocal. transitivity (r * r * (cos nu * cos nu + sin nu * sin nu)); [ring|rewrite CS; ring]. }
  split; [exact L|]. split; [rewrite dot_perifocal; ring|]. split.
  - rewrite cross_perifocal. f_equal. unfold momentum_of_elements.
    transitivity (r * c * ((sin nu * sin nu + cos nu * cos nu) + e * cos nu)); [ring|]. rewrite CS.
    transitivity (p * c); [unfold r; field; lra|]. rewrite <- (sqrt_square p) by lra. unfold c. rewrite <- sqrt_mult by (try apply Rlt_le, Rdiv_lt_0_compat; nra).
    f_equal. unfold p. field. lra.
  - unfold binding. rewrite L. fold (dot (perifocal i N w (- (c * sin nu)) (c * (e + cos nu))) (perifocal i N w (- (c * sin nu)) (c * (e + cos nu)))).
    rewrite dot_perifocal. transitivity (2 * mu / r - c * c * ((sin nu * sin nu + cos nu * cos nu) + 2 * e * cos nu + e * e)); [ring|].
    rewrite CS, CC. unfold binding_of_elements, r, p. field. lra.
Qed.

Lemma no_change mu r x : mu <> 0 -> mu * (r * (1 + x)) = mu * r -> r * x = 0.
Proof. intros M E. apply Rmult_eq_reg_l in E; auto. lra. Qed.

Lemma same_cos r P e x y : r <> 0 -> e <> 0 -> 1 + e * y <> 0 -> r * (1 + e * x) = P -> r = P / (1 + e * y) -> y = x.
Proof.
  intros Hr He Hy E1 E2. assert (E : r * (1 + e * y) = r * (1 + e * x)) by (rewrite E1, E2; field; auto).
  apply Rmult_eq_reg_l in E; auto. apply Rmult_eq_reg_l with e; auto. lra.
Qed.

(** The elements of a state on a conic, in general position. *)
Lemma C95_elements_proof : forall mu q e i N w nu epoch, 0 < mu -> 0 < q -> 0 < e -> 1 / 1000000000000000 <= Rabs (e - 1) ->
  0 < i < PI -> 0 < 1 + e * cos nu ->
  cos i <> 0 -> sin N <> 0 -> cos N <> 0 -> sin nu <> 0 -> cos nu <> 0 -> sin (w + nu) <> 0 -> cos (w + nu) <> 0 ->
  let k := universal_cometary mu (conic_position q e i N w nu) (conic_velocity mu q e i N w nu) epoch in
  k_q k = q /\ k_e k = e /\ k_incl k = i
  /\ (exists turns : Z, k_node k = N + 2 * PI * IZR turns) /\ (exists turns : Z, k_peri k = w + 2 * PI * IZR turns).
Proof.
  intros mu q e i N w nu epoch Hmu Hq He Hs Hi HD CI SN CN Snu Cnu SW CW k.
  destruct (conic_state mu q e i N w nu Hmu Hq ltac:(lra) HD) as (L & D & C & B).
  set (pos := conic_position q e i N w nu) in *. set (vel := conic_velocity mu q e i N w nu) in *.
  assert (P : 0 < q * (1 + e)) by (apply mul_pos; lra).
  assert (M0 : 0 < momentum_of_elements mu q e).
  { unfold momentum_of_elements. apply sqrt_lt_R0. rewrite Rmult_assoc. apply mul_pos; auto. }
  assert (MM : momentum_of_elements mu q e * momentum_of_elements mu q e = mu * (q * (1 + e))).
  { unfold momentum_of_elements. rewrite sqrt_sqrt; [ring|]. rewrite Rmult_assoc. apply Rlt_le, mul_pos; auto. }
  set (H := momentum_of_elements mu q e) in *.
  assert (R0 : 0 < q * (1 + e) / (1 + e * cos nu)) by (apply Rdiv_lt_0_compat; auto). set (r := q * (1 + e) / (1 + e * cos nu)) in *.
  assert (SI : 0 < sin i) by (apply sin_gt_0; lra).
  assert (LC : length3 (cross pos vel) = H) by (rewrite C, length_scale, length_normal by lra; ring).
  destruct (C75_recovers_proof mu q e pos vel epoch Hmu Hq ltac:(lra) B LC) as [Eq Ee]. fold k in Eq, Ee.
  destruct Ee as [Ee|[_ Ee]]; [|lra].
  assert (X : vx (cross pos vel) = H * (sin i * sin N)) by (rewrite C; reflexivity).
  assert (Y : vy (cross pos vel) = H * - (sin i * cos N)) by (rewrite C; reflexivity).
  assert (Z : vz (cross pos vel) = H * cos i) by (rewrite C; reflexivity).
  assert (NZ : forall x y, x <> 0 -> y <> 0 -> x * y <> 0) by (intros; apply Rmult_integral_contrapositive_currified; auto).
  assert (HN : H <> 0) by lra. assert (SIN : sin i <> 0) by lra. assert (RN : r <> 0) by lra.
  assert (POS : pos = V3 (r * cos (w + nu) * cos N - r * sin (w + nu) * (cos i * sin N))
       (r * cos (w + nu) * sin N + r * sin (w + nu) * (cos i * cos N)) (r * sin (w + nu) * sin i)) by (apply perifocal_polar).
  pose proof (cs1 N) as DN.
  assert (HX : vx (cross pos vel) <> 0) by (rewrite X; auto).
  assert (HY : vy (cross pos vel) <> 0) by (rewrite Y; apply NZ; [auto|]; intros E; apply (NZ _ _ SIN CN); lra).
  assert (HZ : vz (cross pos vel) <> 0) by (rewrite Z; auto).
  assert (PZ : vz pos <> 0) by (rewrite POS; cbn [vz]; auto).
  assert (PN : vy pos * vx (cross pos vel) - vx pos * vy (cross pos vel) <> 0).
  { rewrite X, Y, POS. cbn [vx vy]. intros E. apply (NZ _ _ (NZ _ _ HN SIN) (NZ _ _ RN CW)).
    transitivity (H * sin i * (r * cos (w + nu)) * (sin N * sin N + cos N * cos N)); [rewrite DN; ring|]. rewrite <- E. ring. }
  assert (C0 : 0 < sqrt (mu / (q * (1 + e)))) by (apply sqrt_lt_R0, Rdiv_lt_0_compat; auto). set (c := sqrt (mu / (q * (1 + e)))) in *.
  assert (CN0 : c <> 0) by (apply Rgt_not_eq; auto). assert (EN0 : e <> 0) by (apply Rgt_not_eq; auto).
  assert (PV : dot pos vel <> 0) by (rewrite D; auto).
  assert (RE : r * (1 + e * cos nu) = q * (1 + e)) by (unfold r; field; apply Rgt_not_eq; auto).
  assert (PP : dot (cross pos vel) (cross pos vel) <> mu * length3 pos).
  { rewrite <- length3_sq, LC, MM, L, <- RE. intros E. apply (NZ _ _ RN (NZ _ _ (Rgt_not_eq _ _ He) Cnu)).
    exact (no_change mu r _ (Rgt_not_eq _ _ Hmu) E). }
  destruct (conic_part mu pos vel epoch Hmu HX HY HZ PZ PN PV PP) as (nu' & _ & _ & _ & PR & Ep & Ev & _).
  { fold k. rewrite Ee. intros E. rewrite E, Rminus_diag_eq, Rabs_R0 in Hs by reflexivity. lra. }
  fold k in PR, Ep, Ev. rewrite Eq, Ee in *.
  destruct (conic_state mu q e (k_incl k) (k_node k) (k_peri k) nu' Hmu Hq ltac:(lra) PR) as (L' & D' & C' & _).
  rewrite <- Ep in L', D', C'. rewrite <- Ev in D', C'. fold c in D'. fold H in C'. rewrite L in L'. rewrite D in D'. rewrite C in C'. rewrite <- L' in D'.
  assert (SE : sin nu' = sin nu).
  { apply Rmult_eq_reg_l with (r * c * e); [|auto]. rewrite !Rmult_assoc. rewrite !Rmult_assoc in D'. auto. }
  assert (CE : cos nu' = cos nu).
  { exact (same_cos _ _ _ _ _ RN EN0 (Rgt_not_eq _ _ PR) RE L'). }
  assert (I1 : cos (k_incl k) = cos i).
  { apply (f_equal vz) in C'. cbn [scale orbit_normal vz] in C'. apply Rmult_eq_reg_l in C'; auto. }
  assert (I2 : k_incl k = i).
  { rewrite <- (acos_cos i) by lra. rewrite <- I1. symmetry. apply acos_cos.
    pose proof (cometary_fields mu pos vel epoch) as CF. cbv zeta in CF. fold k in CF. destruct CF as (_ & _ & -> & _). apply acos_bound. }
  rewrite I2 in *.
  assert (N1 : sin (k_node k) = sin N).
  { apply (f_equal vx) in C'. cbn [scale orbit_normal vx] in C'. apply Rmult_eq_reg_l in C'; auto. apply Rmult_eq_reg_l in C'; auto. }
  assert (N2 : cos (k_node k) = cos N).
  { apply (f_equal vy) in C'. cbn [scale orbit_normal vy] in C'. apply Rmult_eq_reg_l in C'; auto. apply Rmult_eq_reg_l with (sin i); auto. clear - C'. lra. }
  split; [auto|]. split; [auto|]. split; [auto|]. split; [apply turn_of; auto|].
  unfold conic_position in Ep. cbv zeta in Ep. rewrite <- L', perifocal_polar, N1, N2 in Ep. rewrite POS in Ep.
  assert (S1 : sin (k_peri k + nu') = sin (w + nu)).
  { apply (f_equal vz) in Ep. cbn [vz] in Ep. apply Rmult_eq_reg_r in Ep; auto. apply Rmult_eq_reg_l in Ep; auto. }
  assert (S2 : cos (k_peri k + nu') = cos (w + nu)).
  { rewrite S1 in Ep. apply (f_equal vx) in Ep. cbn [vx] in Ep.
    apply Rmult_eq_reg_r with (r * cos N); [|auto]. clear - Ep. lra. }
  apply turn_of.
  - replace (k_peri k) with (k_peri k + nu' - nu') by ring. replace w with (w + nu - nu) by ring. rewrite !cos_minus. congruence.
  - replace (k_peri k) with (k_peri k + nu' - nu') by ring. replace w with (w + nu - nu) by ring. rewrite !sin_minus. congruence.
Qed.

(** ** Ellipses *)
Lemma ellipse_state : forall mu q e i N w E, 0 < mu -> 0 < q -> 0 <= e < 1 ->
  let pos := ellipse_position q e i N w E in let vel := ellipse_velocity mu q e i N w E in let a := q / (1 - e) in
  length3 pos = a * (1 - e * cos E) /\ dot pos vel = sqrt (mu * a) * (e * sin E)
  /\ cross pos vel = scale (momentum_of_elements mu q e) (orbit_normal i N)
  /\ binding mu pos vel = binding_of_elements mu q e.
Proof.
  intros mu q e i N w E Hmu Hq He pos vel a. unfold pos, vel, ellipse_position, ellipse_velocity, semi_major. cbv zeta. fold a.
  assert (A : 0 < a) by (unfold a; apply Rdiv_lt_0_compat; lra). pose proof (COS_bound E) as CB. pose proof (cs1 E) as CS.
  assert (D : 0 < 1 - e * cos E) by nra.
  set (g := sqrt (1 - e * e)). assert (GG : g * g = 1 - e * e) by (apply sqrt_sqrt; nra).
  set (c := sqrt (mu * a)). assert (CC : c * c = mu * a) by (apply sqrt_sqrt, Rlt_le, mul_pos; auto).
  assert (C0 : 0 < c) by (apply sqrt_lt_R0, mul_pos; auto). assert (G0 : 0 <= g) by apply sqrt_pos.
  set (r := a * (1 - e * cos E)). assert (R0 : 0 < r) by (apply mul_pos; auto).
  assert (L : length3 (perifocal i N w (a * (cos E - e)) (a * g * sin E)) = r).
  { transitivity (sqrt (r * r)); [|apply sqrt_square; lra]. unfold length3. f_equal.
    transitivity (dot (perifocal i N w (a * (cos E - e)) (a * g * sin E)) (perifocal i N w (a * (cos E - e)) (a * g * sin E))); [reflexivity|].
    rewrite dot_perifocal. transitivity (a * a * ((cos E - e) * (cos E - e) + g * g * (sin E * sin E))); [ring|]. rewrite GG.
    replace (sin E * sin E) with (1 - cos E * cos E) by lra. unfold r. ring. }
  split; [exact L|]. split; [|split].
  - rewrite dot_perifocal. transitivity (c * a * sin E * (e - cos E + g * g * cos E) / r); [field; lra|]. rewrite GG. unfold r. field. lra.
  - rewrite cross_perifocal. f_equal. unfold momentum_of_elements.
    transitivity (c * a * g * (cos E * cos E + sin E * sin E - e * cos E) / r); [field; lra|]. rewrite CS.
    transitivity (c * g); [unfold r; field; lra|]. unfold c, g. rewrite <- sqrt_mult by nra. f_equal. unfold a. field. lra.
  - unfold binding. rewrite L. set (v := perifocal i N w (- (c * sin E / r)) (c * g * cos E / r)). fold (dot v v). unfold v. rewrite dot_perifocal.
    transitivity (2 * mu / r - c * c * (sin E * sin E + g * g * (cos E * cos E)) / (r * r)); [field; lra|]. rewrite CC, GG.
    replace (sin E * sin E) with (1 - cos E * cos E) by lra. unfold binding_of_elements, r, a. field. lra.
Qed.

Lemma C95_time_proof : forall mu q e i N w E epoch, 0 < mu -> 0 < q -> 0 < e -> e <= 1 - 1 / 1000000000000000 ->
  0 < i < PI -> cos i <> 0 -> sin N <> 0 -> cos N <> 0 -> sin E <> 0 -> cos E <> e ->
  let pos := ellipse_position q e i N w E in
  vz pos <> 0 -> vx pos * cos N + vy pos * sin N <> 0 ->
  let k := universal_cometary mu pos (ellipse_velocity mu q e i N w E) epoch in
  k_q k = q /\ k_e k = e
  /\ exists turns : Z, E - e * sin E = sqrt (mu * (1 - e) * (1 - e) * (1 - e) / (q * q * q)) * (epoch - k_tp k) + 2 * PI * IZR turns.
Proof.
  intros mu q e i N w E epoch Hmu Hq He Hs Hi CI SN CN SE CE pos PZ PX k.
  destruct (ellipse_state mu q e i N w E Hmu Hq ltac:(lra)) as (L & D & C & B). fold pos in L, D, C, B.
  set (vel := ellipse_velocity mu q e i N w E) in *.
  assert (P : 0 < q * (1 + e)) by (apply mul_pos; lra).
  assert (A : 0 < q / (1 - e)) by (apply Rdiv_lt_0_compat; lra).
  assert (NE : 1 - e <> 0) by lra. assert (LE : 1 / 1000000000000000 <= Rabs (e - 1)) by (rewrite Rabs_left; lra).
  assert (M0 : 0 < momentum_of_elements mu q e).
  { unfold momentum_of_elements. apply sqrt_lt_R0. rewrite Rmult_assoc. apply mul_pos; auto. }
  assert (MM : momentum_of_elements mu q e * momentum_of_elements mu q e = mu * (q * (1 + e))).
  { unfold momentum_of_elements. rewrite sqrt_sqrt; [ring|]. rewrite Rmult_assoc. apply Rlt_le, mul_pos; auto. }
  set (H := momentum_of_elements mu q e) in *.
  assert (SI : 0 < sin i) by (apply sin_gt_0; lra).
  assert (LC : length3 (cross pos vel) = H) by (rewrite C, length_scale, length_normal by lra; ring).
  destruct (C75_recovers_proof mu q e pos vel epoch Hmu Hq ltac:(lra) B LC) as [Eq Ee]. fold k in Eq, Ee.
  destruct Ee as [Ee|[_ Ee]]; [|lra].
  assert (E1 : e < 1) by lra.
  assert (X : vx (cross pos vel) = H * (sin i * sin N)) by (rewrite C; reflexivity).
  assert (Y : vy (cross pos vel) = H * - (sin i * cos N)) by (rewrite C; reflexivity).
  assert (Z : vz (cross pos vel) = H * cos i) by (rewrite C; reflexivity).
  assert (NZ : forall x y, x <> 0 -> y <> 0 -> x * y <> 0) by (intros; apply Rmult_integral_contrapositive_currified; auto).
  assert (HN : H <> 0) by lra. assert (SIN : sin i <> 0) by lra. assert (EN : e <> 0) by lra.
  assert (C0 : sqrt (mu * (q / (1 - e))) <> 0) by (apply Rgt_not_eq, sqrt_lt_R0, mul_pos; auto). set (c := sqrt (mu * (q / (1 - e)))) in *.
  assert (HX : vx (cross pos vel) <> 0) by (rewrite X; auto).
  assert (HY : vy (cross pos vel) <> 0) by (rewrite Y; apply NZ; [auto|]; apply Ropp_neq_0_compat; auto).
  assert (HZ : vz (cross pos vel) <> 0) by (rewrite Z; auto).
  assert (PN : vy pos * vx (cross pos vel) - vx pos * vy (cross pos vel) <> 0).
  { rewrite X, Y. intros F. apply (NZ _ _ (NZ _ _ HN SIN) PX). rewrite <- F. ring. }
  assert (PV : dot pos vel <> 0) by (rewrite D; auto).
  assert (PP : length3 (cross pos vel) * length3 (cross pos vel) <> mu * length3 pos).
  { rewrite LC, MM, L. intros F. apply CE. apply Rmult_eq_reg_l in F; [|apply Rgt_not_eq; auto]. clear - F NE EN Hq He E1.
    assert (G : q * ((1 + e) * (1 - e)) = q * (1 - e * cos E)).
    { transitivity (q * (1 + e) * (1 - e)); [ring|]. rewrite F. field. auto. }
    apply Rmult_eq_reg_l in G; [|lra]. apply Rmult_eq_reg_l with e; [|auto]. lra. }
  destruct (C75_ellipse_proof mu pos vel epoch Hmu HX HY HZ PZ PN PV PP) as (E' & j & Ep & Ev & Ek); [fold k; rewrite Ee; exact E1|].
  fold k in Ep, Ev, Ek. rewrite Eq, Ee in *.
  destruct (ellipse_state mu q e (k_incl k) (k_node k) (k_peri k) E' Hmu Hq ltac:(lra)) as (L' & D' & _).
  rewrite <- Ep in L', D'. rewrite <- Ev in D'. fold c in D'. rewrite L in L'. rewrite D in D'.
  assert (SE' : sin E = sin E').
  { apply Rmult_eq_reg_l in D'; auto. apply Rmult_eq_reg_l in D'; auto. }
  assert (CE' : cos E = cos E').
  { apply Rmult_eq_reg_l in L'; [|apply Rgt_not_eq; auto]. apply Rmult_eq_reg_l with e; [|auto]. clear - L'. lra. }
  destruct (turn_of E E' CE' SE') as [j' ET].
  split; [auto|]. split; [auto|]. exists (j + j')%Z.
  rewrite SE', ET. unfold mean_motion, semi_major in Ek.
  replace (mu / (q / (1 - e) * (q / (1 - e)) * (q / (1 - e)))) with (mu * (1 - e) * (1 - e) * (1 - e) / (q * q * q)) in Ek by (field; split; [auto|apply Rgt_not_eq; auto]).
  rewrite plus_IZR. clear - Ek. lra.
Qed.

(** ** A case in which the finder's first step lands on the root *)
Lemma quarter_root : exists a, 79/10 < a < 8
  /\ solve (fun s => root_function s a (2 * a / (a / 2) - a * (1 + 1/2) / (a / 2)) (a / 2) 0 1) (1 / 100000000000000) 1 1 = Ok (Some (1/4))
  /\ forall i N w tp, since_perihelion a (a / 2) (1/2) tp 1 = Ok 1 -> exists x v, universal_cartesian 1 a (a / 2) (1/2) i N w tp 1 = Ok (Some (x, v)).
Proof.
  assert (S : exists c, 1/7 < c < 1/5 /\ stumpff (1/16) = F4 (c0 (stumpff_small (1/16))) (1 - 1/16 * c) (c2 (stumpff_small (1/16))) c).
  { exists (c3 (stumpff_small (1/16))). split; [unfold stumpff_small; cbn [c3]; lra|].
    unfold stumpff. destruct (Z.to_nat _) as [|m]; cbn [reduce]; [reflexivity|].
    destruct (Rlt_dec (1/10) (Rabs (1/16))) as [H|H]; [rewrite Rabs_right in H; lra|reflexivity]. }
  destruct S as (c & C & S). assert (C2 : 0 < c2 (stumpff_small (1/16))) by (unfold stumpff_small; cbn [c2]; lra).
  assert (C0 : 0 < c0 (stumpff_small (1/16))) by (unfold stumpff_small; cbn [c0]; lra).
  set (p := c0 _) in *. set (g := c2 _) in *. clearbody p g.
  set (a := 8 / (1 + 1/16 * c)).
  assert (EA : a * (1 + 1/16 * c) = 8) by (unfold a; field; lra).
  assert (A : 79/10 < a < 8) by (split; nra). clearbody a.
  assert (AL : 2 * a / (a / 2) - a * (1 + 1/2) / (a / 2) = 1) by (field; lra).
  assert (SO : solve (fun s => root_function s a 1 (a / 2) 0 1) (1 / 100000000000000) 1 1 = Ok (Some (1/4))).
  { unfold solve. set (it := 100%nat). clearbody it. replace (0 + (1 - 0) / 4) with (1/4) by field. cbn [bracket].
    assert (R0 : v_f (root_function 0 a 1 (a / 2) 0 1) = -1) by (unfold root_function; cbn [v_f]; ring).
    assert (R1 : v_f (root_function (1/4) a 1 (a / 2) 0 1) = 0).
    { unfold root_function. cbn [v_f]. replace (1 * (1/4) * (1/4)) with (1/16) by field. rewrite S. cbn [c1 c2 c3]. nra. }
    rewrite R0, R1. destruct (Rlt_dec 0 (0 * -1)) as [H|H]; [exfalso; lra|]. cbn [rbind fst snd].
    unfold halley_safe. rewrite R0, R1.
    repeat (match goal with |- context[Rlt_dec ?a ?b] => destruct (Rlt_dec a b) as [?H|?H]; try lra end). cbn [orb].
    repeat (match goal with |- context[Req_EM_T ?a ?b] => destruct (Req_EM_T a b) as [?H|?H]; try lra end). reflexivity. }
  exists a. split; [auto|]. rewrite AL. split; [auto|].
  intros i N w tp T. unfold universal_cartesian. rewrite T. cbn [rbind]. rewrite !rdiv_value by lra. cbn [rbind]. rewrite AL, SO. cbn [rbind].
  unfold in_plane. replace (1 * (1/4) * (1/4)) with (1/16) by field. rewrite S. cbn [c0 c1 c2 c3].
  assert (0 < a / 2 * p + a / 2 * 0 * (1/4) * (1 - 1/16 * c) + a * (1/4) * (1/4) * g) by nra.
  rewrite !rdiv_value; [cbn [rbind fst snd]; eauto|lra| |lra]. apply Rmult_integral_contrapositive_currified; lra.
Qed.

Lemma quarter_anomaly a : 79/10 < a < 8 -> exists E, 1/8 < E < 13/50 /\ E - 1/2 * sin E = / a.
Proof.
  intros A. assert (I : 1/8 < / a < 13/100).
  { split; [apply Rmult_lt_reg_r with a; [lra|]; rewrite Rinv_l; lra|]. apply Rmult_lt_reg_r with a; [lra|]. rewrite Rinv_l; lra. }
  destruct (IVT (fun x => x - 1/2 * sin x - / a) 0 1) as (E & B & Z).
  - assert (continuity (fun x => 1/2 * sin x)) by (apply continuity_mult; [apply continuity_const; intros ? ?; reflexivity|exact continuity_sin]).
    apply continuity_minus; [apply continuity_minus; [exact (derivable_continuous _ derivable_id)|auto]|apply continuity_const; intros ? ?; reflexivity].
  - lra.
  - rewrite sin_0. lra.
  - pose proof (SIN_bound 1). lra.
  - exists E. pose proof PI2_3_2. assert (0 <= sin E) by (apply sin_ge_0; lra).
    assert (EP : 0 < E) by (destruct (Req_dec E 0) as [->|]; [rewrite sin_0 in Z; lra|lra]).
    pose proof (sin_lt_x E EP). split; [lra|lra].
Qed.
