(** Elements computed from a state give back that state. *)
From Coq Require Import Reals ZArith Lia Lra Psatz.
From Verif Require Import Base.Prelude Model.Sphere Model.Kepler Spec.Sphere Spec.Kepler Spec.Anomaly
  Proofs.Sphere Proofs.Sky Proofs.Kepler Proofs.KeplerState Proofs.Stumpff Proofs.Anomaly.
Open Scope R_scope.

Lemma cs1 x : cos x * cos x = 1 - sin x * sin x.
Proof. pose proof (sc1 x). lra. Qed.

Lemma sq_pos x y : y <> 0 -> 0 < x * x + y * y.
Proof. intros. nra. Qed.
Lemma mul_pos x y : 0 < x -> 0 < y -> 0 < x * y.
Proof. apply Rmult_lt_0_compat. Qed.

(** ** Vectors of the orbit plane *)
Lemma perifocal_polar i N w r nu : perifocal i N w (r * cos nu) (r * sin nu)
  = V3 (r * cos (w + nu) * cos N - r * sin (w + nu) * (cos i * sin N))
       (r * cos (w + nu) * sin N + r * sin (w + nu) * (cos i * cos N))
       (r * sin (w + nu) * sin i).
Proof. unfold perifocal. rewrite cos_plus, sin_plus. f_equal; ring. Qed.
Lemma perifocal_add i N w x y x' y' : vadd (perifocal i N w x y) (perifocal i N w x' y') = perifocal i N w (x + x') (y + y').
Proof. unfold perifocal, vadd; simpl. f_equal; ring. Qed.
Lemma perifocal_scale i N w c x y : scale c (perifocal i N w x y) = perifocal i N w (c * x) (c * y).
Proof. unfold perifocal, scale; simpl. f_equal; ring. Qed.
Lemma perifocal_turn i N w x y : cross (orbit_normal i N) (perifocal i N w x y) = perifocal i N w (- y) x.
Proof.
  unfold cross, orbit_normal, perifocal; cbn [vx vy vz]. pose proof (cs1 i) as C. pose proof (cs1 N) as D.
  f_equal.
  - transitivity (- x * (cos N * sin w * (sin i * sin i + cos i * cos i) + cos i * sin N * cos w) - y * (cos N * cos w * (sin i * sin i + cos i * cos i) - cos i * sin N * sin w)); [ring|]. rewrite C. ring.
  - transitivity (x * (cos i * cos N * cos w - sin N * sin w * (sin i * sin i + cos i * cos i)) - y * (cos i * cos N * sin w + sin N * cos w * (sin i * sin i + cos i * cos i))); [ring|]. rewrite C. ring.
  - transitivity (x * (sin i * cos w * (sin N * sin N + cos N * cos N)) - y * (sin i * sin w * (sin N * sin N + cos N * cos N))); [ring|]. rewrite D. ring.
Qed.
Lemma velocity_split pos vel : 0 < length3 pos -> vel = vadd (scale (dot pos vel / (length3 pos * length3 pos)) pos) (scale (/ (length3 pos * length3 pos)) (cross (cross pos vel) pos)).
Proof.
  intros H. rewrite length3_sq. assert (D : 0 < dot pos pos) by (rewrite <- length3_sq; nra).
  destruct pos as [x y z], vel as [a b c]. unfold vadd, scale, cross, dot in *; cbn [vx vy vz] in *. f_equal; field; lra.
Qed.

Lemma radial_transverse mu r H e nu d : 0 < mu -> 0 < r -> 0 < H -> e * cos nu = H * H / mu / r - 1 -> e * sin nu = d / r * H / mu ->
  d / (r * r) * (r * cos nu) + / (r * r) * (H * - (r * sin nu)) = - (mu / H) * sin nu
  /\ d / (r * r) * (r * sin nu) + / (r * r) * (H * (r * cos nu)) = mu / H * (e + cos nu).
Proof.
  intros M Rp HP C S. pose proof (cs1 nu) as DV.
  assert (ED : d / r = e * sin nu * mu / H) by (rewrite S; field; lra).
  assert (EH : H / r = mu / H * (1 + e * cos nu)) by (rewrite C; field; lra).
  split.
  - transitivity (d / r * cos nu - H / r * sin nu); [field; lra|]. rewrite ED, EH. field. lra.
  - transitivity (d / r * sin nu + H / r * cos nu); [field; lra|]. rewrite ED, EH.
    transitivity (mu / H * (e * (sin nu * sin nu + cos nu * cos nu) + cos nu)); [field; lra|]. rewrite DV. field. lra.
Qed.

(** ** True anomaly and orientation *)
Section Angles.
Variables (mu : R) (pos vel : vec) (epoch : R).
Hypothesis Hmu : 0 < mu.
Let h := cross pos vel.
Hypotheses (HX : vx h <> 0) (HY : vy h <> 0) (HZ : vz h <> 0) (PZ : vz pos <> 0) (PN : vy pos * vx h - vx pos * vy h <> 0)
  (PV : dot pos vel <> 0) (PP : dot h h <> mu * length3 pos).
Let k := universal_cometary mu pos vel epoch.
Let H := length3 h.
Let r := length3 pos.
Let p := H * H / mu.
Let ecos := p / r - 1.
Let esin := dot pos vel / r * H / mu.
Let ecc := sqrt (ecos * ecos + esin * esin).

Lemma h_nonzero : h <> V3 0 0 0. Proof. intros E. rewrite E in HX. apply HX. reflexivity. Qed.
Lemma H_pos : 0 < H. Proof. unfold H, length3. apply sqrt_lt_R0. apply (dot_pos h h_nonzero). Qed.
Lemma rr_pos : 0 < r. Proof. apply (r_pos pos vel). exact h_nonzero. Qed.
Lemma p_pos : 0 < p. Proof. pose proof H_pos. unfold p. apply Rdiv_lt_0_compat; auto using mul_pos. Qed.

Lemma cometary_unfold : exists u nu, u = guarded_arctan2 ((vy pos * cos (k_node k) - vx pos * sin (k_node k)) / cos (k_incl k)) (vx pos * cos (k_node k) + vy pos * sin (k_node k))
  /\ nu = guarded_arctan2 esin ecos /\ k_peri k = u - nu /\ k_q k = p / (1 + ecc)
  /\ (k_e k, k_tp k) = perihelion_time mu p (binding mu pos vel) ecc nu epoch.
Proof.
  eexists _, _. split; [reflexivity|]. split; [reflexivity|].
  assert (S : dot (np_cross pos vel) (np_cross pos vel) = H * H) by (unfold H; rewrite length3_sq; reflexivity).
  assert (S2 : sqrt (dot (np_cross pos vel) (np_cross pos vel)) = H) by reflexivity.
  unfold k, universal_cometary. rewrite norm_length3. fold r. rewrite S2. rewrite S. fold p. fold ecos. fold esin. fold ecc.
  change (2 * mu / r - dot vel vel) with (binding mu pos vel).
  destruct (perihelion_time mu p (binding mu pos vel) ecc (guarded_arctan2 esin ecos) epoch) as [e' tp] eqn:E.
  cbn [k_q k_e k_incl k_node k_peri k_tp]. split; [reflexivity|]. split; reflexivity.
Qed.

Lemma esin_nonzero : esin <> 0.
Proof.
  pose proof H_pos. pose proof rr_pos. unfold esin.
  intros E. apply PV. apply Rmult_eq_reg_r with (H / (r * mu)); [|apply Rgt_not_eq, Rdiv_lt_0_compat; auto using mul_pos].
  rewrite Rmult_0_l. rewrite <- E. field. lra.
Qed.
Lemma ecos_nonzero : ecos <> 0.
Proof.
  pose proof rr_pos. unfold ecos, p. intros E. apply PP. unfold H in E. rewrite length3_sq in E. fold r.
  assert (D : dot h h / mu / r = 1) by lra. apply Rmult_eq_reg_r with (/ (mu * r)); [|apply Rgt_not_eq, Rinv_0_lt_compat; auto using mul_pos].
  transitivity (dot h h / mu / r); [field; lra|]. rewrite D. field. lra.
Qed.
Lemma ecc_pos : 0 < ecc.
Proof. pose proof esin_nonzero. unfold ecc. apply sqrt_lt_R0. apply sq_pos; auto. Qed.

Lemma anomaly_found : exists nu, -PI < nu < PI /\ ecc * cos nu = ecos /\ ecc * sin nu = esin
  /\ pos = perifocal (k_incl k) (k_node k) (k_peri k) (r * cos nu) (r * sin nu)
  /\ vel = perifocal (k_incl k) (k_node k) (k_peri k) (- (mu / H) * sin nu) (mu / H * (ecc + cos nu))
  /\ (k_e k, k_tp k) = perihelion_time mu p (binding mu pos vel) ecc nu epoch /\ k_q k = p / (1 + ecc).
Proof.
  destruct cometary_unfold as (u & nu & Eu & En & Ew & Eq & Et). exists nu.
  pose proof H_pos as HP. pose proof rr_pos as RP. pose proof esin_nonzero as N1. pose proof ecos_nonzero as N2. pose proof ecc_pos as EP.
  rewrite guarded_nonzero in En by auto.
  destruct (arctan2_spec ecos esin) as (C & S & B1 & B2); [apply sq_pos; auto|]. rewrite <- En in *. fold ecc in C, S.
  assert (C' : ecc * cos nu = ecos) by (rewrite C; field; lra). assert (S' : ecc * sin nu = esin) by (rewrite S; field; lra).
  assert (B : nu < PI). { destruct (Req_dec nu PI) as [->|]; [|lra]. rewrite sin_PI in S'. lra. }
  pose proof (C75_normal_proof mu pos vel epoch HX HY) as NM. fold k in NM. cbv zeta in NM. fold h in NM. fold H in NM.
  set (i := k_incl k) in *. set (N := k_node k) in *.
  assert (X : vx h = H * (sin i * sin N)) by (rewrite NM; reflexivity).
  assert (Y : vy h = H * - (sin i * cos N)) by (rewrite NM; reflexivity).
  assert (Z : vz h = H * cos i) by (rewrite NM; reflexivity).
  assert (CI : cos i <> 0) by (intros E; apply HZ; rewrite Z, E; ring).
  assert (SI : sin i <> 0) by (intros E; apply HX; rewrite X, E; ring).
  assert (OR : vx pos * (sin i * sin N) - vy pos * (sin i * cos N) + vz pos * cos i = 0).
  { assert (vx pos * vx h + vy pos * vy h + vz pos * vz h = 0) by (unfold h, cross; cbn [vx vy vz]; ring).
    rewrite X, Y, Z in H0. apply Rmult_eq_reg_l with H; [|lra]. rewrite Rmult_0_r, <- H0. ring. }
  set (cu := vx pos * cos N + vy pos * sin N) in *. set (su := (vy pos * cos N - vx pos * sin N) / cos i) in *.
  pose proof (cs1 N) as DN. pose proof (cs1 i) as DI.
  assert (SU : su * cos i = vy pos * cos N - vx pos * sin N) by (unfold su; field; auto).
  assert (PX : vx pos = cu * cos N - su * (cos i * sin N)).
  { transitivity (cu * cos N - su * cos i * sin N); [|ring]. rewrite SU. unfold cu.
    transitivity (vx pos * (cos N * cos N + sin N * sin N)); [rewrite DN; ring|ring]. }
  assert (PY : vy pos = cu * sin N + su * (cos i * cos N)).
  { transitivity (cu * sin N + su * cos i * cos N); [|ring]. rewrite SU. unfold cu.
    transitivity (vy pos * (cos N * cos N + sin N * sin N)); [rewrite DN; ring|ring]. }
  assert (PZ' : vz pos = su * sin i).
  { apply Rmult_eq_reg_r with (cos i); [|auto]. transitivity (sin i * (su * cos i)); [rewrite SU; lra|ring]. }
  assert (SUN : su <> 0) by (intros E; apply PZ; rewrite PZ', E; ring).
  assert (CUN : cu <> 0).
  { intros E. apply PN. rewrite X, Y. transitivity (H * sin i * cu); [unfold cu; ring|rewrite E; ring]. }
  assert (RR : cu * cu + su * su = r * r).
  { unfold r. rewrite length3_sq. unfold dot. rewrite PX, PY, PZ'.
    transitivity (cu * cu * (cos N * cos N + sin N * sin N) + su * su * (cos i * cos i * (cos N * cos N + sin N * sin N) + sin i * sin i)); [rewrite DN, DI; ring|ring]. }
  rewrite guarded_nonzero in Eu by auto. destruct (arctan2_spec cu su) as (CU & SU' & _); [apply sq_pos; auto|]. rewrite <- Eu in *.
  rewrite RR, sqrt_square in CU, SU' by lra.
  assert (RN : r <> 0) by (apply Rgt_not_eq; auto).
  assert (CU2 : r * cos u = cu) by (rewrite CU; field; auto). assert (SU2 : r * sin u = su) by (rewrite SU'; field; auto).
  assert (EW : k_peri k + nu = u) by (rewrite Ew; ring). set (w := k_peri k) in *.
  assert (POS : pos = perifocal i N w (r * cos nu) (r * sin nu)).
  { rewrite perifocal_polar, EW, CU2, SU2. apply vec_eq; cbn [vx vy vz]; auto. }
  split; [lra|]. split; [auto|]. split; [auto|]. split; [exact POS|]. split; [|split; auto].
  rewrite (velocity_split pos vel RP) at 1. fold h. fold r. rewrite NM.
  assert (EC : cross (scale H (orbit_normal i N)) pos = scale H (perifocal i N w (- (r * sin nu)) (r * cos nu))).
  { rewrite <- perifocal_turn, <- POS. unfold cross, scale; cbn [vx vy vz]. f_equal; ring. }
  rewrite EC. rewrite POS at 2. rewrite !perifocal_scale, perifocal_add.
  destruct (radial_transverse mu r H ecc nu (dot pos vel) Hmu RP HP C' S') as [V1 V2]. rewrite V1, V2. reflexivity.
Qed.
End Angles.

(** ** Half angles *)
Lemma cos_double_atan x : cos (2 * atan x) = (1 - x * x) / (1 + x * x).
Proof.
  replace (2 * atan x) with (atan x + atan x) by ring. rewrite cos_plus, cos_atan, sin_atan'.
  assert (P : 0 < 1 + x * x) by nra. pose proof (sqrt_lt_R0 _ P) as Q. pose proof (sqrt_sqrt _ (Rlt_le _ _ P)) as S.
  set (s := sqrt (1 + x * x)) in *. transitivity ((1 - x * x) / (s * s)); [field; lra|]. rewrite S. reflexivity.
Qed.
Lemma sin_double_atan x : sin (2 * atan x) = 2 * x / (1 + x * x).
Proof.
  replace (2 * atan x) with (atan x + atan x) by ring. rewrite sin_plus, cos_atan, sin_atan'.
  assert (P : 0 < 1 + x * x) by nra. pose proof (sqrt_lt_R0 _ P) as Q. pose proof (sqrt_sqrt _ (Rlt_le _ _ P)) as S.
  set (s := sqrt (1 + x * x)) in *. transitivity (2 * x / (s * s)); [field; lra|]. rewrite S. reflexivity.
Qed.
Lemma half_tangent nu : - PI < nu < PI -> nu = 2 * atan (tan (nu / 2)).
Proof. intros H. rewrite atan_tan by lra. field. Qed.
Lemma principal_turn x : exists j : Z, principal_value x = x + 2 * PI * IZR j.
Proof.
  unfold principal_value, rceil, rfloor. destruct (Rlt_dec x 0).
  - exists (Int_part (- (x / (2 * PI)))). ring.
  - exists (- Int_part (x / (2 * PI)))%Z. rewrite opp_IZR. ring.
Qed.

(** ** The conic *)
Lemma conic_part : forall mu pos vel epoch, 0 < mu ->
  vx (cross pos vel) <> 0 -> vy (cross pos vel) <> 0 -> vz (cross pos vel) <> 0 ->
  vz pos <> 0 -> vy pos * vx (cross pos vel) - vx pos * vy (cross pos vel) <> 0 ->
  dot pos vel <> 0 -> dot (cross pos vel) (cross pos vel) <> mu * length3 pos ->
  let k := universal_cometary mu pos vel epoch in
  k_e k <> 1 ->
  exists nu, - PI < nu < PI /\ 0 < k_q k /\ 0 < k_e k /\ 0 < 1 + k_e k * cos nu
    /\ pos = conic_position (k_q k) (k_e k) (k_incl k) (k_node k) (k_peri k) nu
    /\ vel = conic_velocity mu (k_q k) (k_e k) (k_incl k) (k_node k) (k_peri k) nu
    /\ (k_e k, k_tp k) = perihelion_time mu (k_q k * (1 + k_e k)) (mu * (1 - k_e k) / k_q k) (k_e k) nu epoch.
Proof.
  intros mu pos vel epoch Hmu HX HY HZ PZ PN PV PP k NE.
  destruct (anomaly_found mu pos vel epoch Hmu HX HY HZ PZ PN PV PP) as (nu & B & C & S & Ep & Ev & Et & Eq). fold k in Ep, Ev, Et, Eq.
  assert (NZ : cross pos vel <> V3 0 0 0) by exact (h_nonzero pos vel HX).
  destruct (C75_energy_momentum_proof mu pos vel epoch Hmu NZ NE) as (Q0 & _ & EB & _). fold k in Q0, EB.
  pose proof (H_pos pos vel HX) as HP. pose proof (rr_pos pos vel HX) as RP.
  pose proof (ecc_pos mu pos vel Hmu HX PV) as EP.
  set (H := length3 (cross pos vel)) in *. set (r := length3 pos) in *. set (p := H * H / mu) in *.
  match type of EP with 0 < ?x => set (ecc := x) in * end.
  assert (Ee : k_e k = ecc).
  { unfold perihelion_time in Et. destruct (Rlt_dec (Rabs (ecc - 1)) _) as [L|L]; injection Et as E1 _; [contradiction|auto]. }
  rewrite Ee in *. clear Ee. clearbody ecc.
  assert (PQ : p = k_q k * (1 + ecc)) by (rewrite Eq; field; lra).
  assert (Pp : 0 < p) by (unfold p; apply Rdiv_lt_0_compat; auto using mul_pos).
  assert (ER : r * (1 + ecc * cos nu) = p) by (rewrite C; field; lra).
  assert (PR : 0 < 1 + ecc * cos nu) by (apply Rmult_lt_reg_l with r; [auto|]; rewrite ER, Rmult_0_r; auto).
  exists nu. split; [auto|]. split; [auto|]. split; [auto|]. split; [auto|].
  assert (Er : r = k_q k * (1 + ecc) / (1 + ecc * cos nu)) by (rewrite <- PQ, <- ER; field; lra).
  split; [unfold conic_position; cbv zeta; rewrite <- Er; exact Ep|].
  split.
  - unfold conic_velocity. cbv zeta. replace (sqrt (mu / (k_q k * (1 + ecc)))) with (mu / H).
    + replace (- (mu / H * sin nu)) with (- (mu / H) * sin nu) by ring. exact Ev.
    + rewrite <- PQ. unfold p. rewrite <- (sqrt_square (mu / H)) by (apply Rlt_le, Rdiv_lt_0_compat; auto). f_equal. field. lra.
  - rewrite <- PQ. unfold binding_of_elements in EB. rewrite <- EB. exact Et.
Qed.

(** ** Ellipses *)
Lemma ellipse_match : forall mu q e i N w nu, 0 < mu -> 0 < q -> 0 < e < 1 -> - PI < nu < PI ->
  let E := 2 * atan (sqrt ((1 - e) / (1 + e)) * tan (nu / 2)) in
  conic_position q e i N w nu = ellipse_position q e i N w E /\ conic_velocity mu q e i N w nu = ellipse_velocity mu q e i N w E.
Proof.
  intros mu q e i N w nu Hmu Hq He Hnu E.
  set (T := tan (nu / 2)) in *. pose proof (half_tangent nu Hnu) as HN. fold T in HN.
  assert (CN : cos nu = (1 - T * T) / (1 + T * T)) by (rewrite HN; apply cos_double_atan).
  assert (SN : sin nu = 2 * T / (1 + T * T)) by (rewrite HN; apply sin_double_atan).
  set (b := sqrt ((1 - e) / (1 + e))) in *. set (g := sqrt (1 - e * e)).
  assert (Bp : 0 < (1 - e) / (1 + e)) by (apply Rdiv_lt_0_compat; lra).
  assert (BB : b * b = (1 - e) / (1 + e)) by (apply sqrt_sqrt; lra).
  assert (GG : g * g = 1 - e * e) by (apply sqrt_sqrt; nra).
  assert (GB : g = b * (1 + e)).
  { unfold g. rewrite <- (sqrt_square (b * (1 + e))) by (apply Rmult_le_pos; [apply sqrt_pos|lra]). f_equal.
    replace (b * (1 + e) * (b * (1 + e))) with (b * b * ((1 + e) * (1 + e))) by ring. rewrite BB. field. lra. }
  assert (CE : cos E = (1 - b * T * (b * T)) / (1 + b * T * (b * T))) by apply cos_double_atan.
  assert (SE : sin E = 2 * (b * T) / (1 + b * T * (b * T))) by apply sin_double_atan.
  set (X := T * T) in *. assert (X0 : 0 <= X) by (unfold X; nra).
  replace (b * T * (b * T)) with (b * b * X) in CE, SE by (unfold X; ring). rewrite BB in CE, SE.
  set (D := (1 + e) + (1 - e) * X). assert (D0 : 0 < D) by (unfold D; nra).
  assert (CE' : cos E = ((1 + e) - (1 - e) * X) / D).
  { rewrite CE. unfold D. field. repeat split; nra. }
  assert (SE' : sin E = 2 * (g * T) / D).
  { rewrite SE, GB. unfold D. field. repeat split; nra. }
  clear CE SE.
  assert (DC : 1 + e * cos nu = D / (1 + X)) by (rewrite CN; unfold D; field; lra).
  assert (DE : 1 - e * cos E = (1 - e * e) * (1 + X) / D) by (rewrite CE'; unfold D; field; fold D; lra).
  assert (E2 : 0 < 1 - e * e) by nra.
  split.
  - unfold conic_position, ellipse_position, semi_major. cbv zeta. fold g. rewrite DC, CE', SE', CN, SN. f_equal.
    + unfold D. field. fold D. repeat split; try lra.
    + replace (q / (1 - e) * g * (2 * (g * T) / D)) with (q / (1 - e) * (g * g) * (2 * T) / D) by (field; lra). rewrite GG. field. repeat split; lra.
  - unfold conic_velocity, ellipse_velocity, semi_major. cbv zeta. fold g. rewrite DE.
    set (c := sqrt (mu / (q * (1 + e)))). set (a := q / (1 - e)).
    assert (A0 : 0 < a) by (unfold a; apply Rdiv_lt_0_compat; lra).
    assert (SA : sqrt (mu * a) = a * (c * g)).
    { unfold c, g. rewrite <- sqrt_mult by (try apply Rlt_le, Rdiv_lt_0_compat; nra).
      rewrite <- (sqrt_square a) at 2 by lra. rewrite <- sqrt_mult by (try apply Rlt_le, mul_pos; auto; try (apply Rdiv_lt_0_compat; nra); nra).
      f_equal. unfold a. field. lra. }
    rewrite SA, CN, SN, CE', SE'. f_equal.
    + replace (a * (c * g) * (2 * (g * T) / D)) with (a * c * (g * g) * (2 * T) / D) by (field; lra). rewrite GG. field. repeat split; lra.
    + replace (a * (c * g) * g * ((1 + e - (1 - e) * X) / D)) with (a * c * (g * g) * (1 + e - (1 - e) * X) / D) by (field; lra). rewrite GG. unfold D. field. fold D. repeat split; lra.
Qed.

(** ** Hyperbolas *)
Lemma cosh_ln z : 0 < z -> cosh (ln z) = (z + / z) / 2.
Proof. intros H. unfold cosh. rewrite exp_Ropp, exp_ln by auto. reflexivity. Qed.
Lemma sinh_ln z : 0 < z -> sinh (ln z) = (z - / z) / 2.
Proof. intros H. unfold sinh. rewrite exp_Ropp, exp_ln by auto. reflexivity. Qed.
Lemma hyperbola_match : forall mu q e i N w nu, 0 < mu -> 0 < q -> 1 < e -> - PI < nu < PI -> 0 < 1 + e * cos nu ->
  let F := 2 * arctanh (sqrt ((e - 1) / (e + 1)) * tan (nu / 2)) in
  conic_position q e i N w nu = hyperbola_position q e i N w F /\ conic_velocity mu q e i N w nu = hyperbola_velocity mu q e i N w F.
Proof.
  intros mu q e i N w nu Hmu Hq He Hnu HC F.
  set (T := tan (nu / 2)) in *. pose proof (half_tangent nu Hnu) as HN. fold T in HN.
  assert (CN : cos nu = (1 - T * T) / (1 + T * T)) by (rewrite HN; apply cos_double_atan).
  assert (SN : sin nu = 2 * T / (1 + T * T)) by (rewrite HN; apply sin_double_atan).
  set (b := sqrt ((e - 1) / (e + 1))) in *. set (g := sqrt (e * e - 1)).
  assert (Bp : 0 < (e - 1) / (e + 1)) by (apply Rdiv_lt_0_compat; lra).
  assert (BB : b * b = (e - 1) / (e + 1)) by (apply sqrt_sqrt; lra).
  assert (GG : g * g = e * e - 1) by (apply sqrt_sqrt; nra).
  assert (GB : g = b * (1 + e)).
  { unfold g. rewrite <- (sqrt_square (b * (1 + e))) by (apply Rmult_le_pos; [apply sqrt_pos|lra]). f_equal.
    replace (b * (1 + e) * (b * (1 + e))) with (b * b * ((1 + e) * (1 + e))) by ring. rewrite BB. field. lra. }
  set (X := T * T) in *. assert (X0 : 0 <= X) by (unfold X; nra).
  set (D := (1 + e) - (e - 1) * X).
  assert (DC : 1 + e * cos nu = D / (1 + X)) by (rewrite CN; unfold D; field; lra).
  assert (D0 : 0 < D). { rewrite DC in HC. apply Rmult_lt_reg_r with (/ (1 + X)); [apply Rinv_0_lt_compat; lra|]. rewrite Rmult_0_l. exact HC. }
  set (y := b * T) in *. assert (YY : y * y = (e - 1) / (e + 1) * X) by (unfold y, X; rewrite <- BB; ring).
  assert (YD : 1 - y * y = D / (1 + e)) by (rewrite YY; unfold D; field; lra).
  assert (Y1 : 0 < 1 - y * y) by (rewrite YD; apply Rdiv_lt_0_compat; lra).
  assert (Y2 : -1 < y < 1) by nra.
  assert (EF : F = ln ((1 + y) / (1 - y))) by (unfold F, arctanh; field).
  assert (Z : 0 < (1 + y) / (1 - y)) by (apply Rdiv_lt_0_compat; lra).
  assert (CF : cosh F = ((1 + e) + (e - 1) * X) / D).
  { rewrite EF, cosh_ln by auto. transitivity ((1 + y * y) / (1 - y * y)); [field; repeat split; nra|].
    rewrite YD, YY. field. repeat split; lra. }
  assert (SF : sinh F = 2 * (g * T) / D).
  { rewrite EF, sinh_ln by auto. transitivity (2 * y / (1 - y * y)); [field; repeat split; nra|].
    rewrite YD, GB. unfold y. field. repeat split; lra. }
  assert (E2 : 0 < e * e - 1) by nra.
  assert (DE : e * cosh F - 1 = (e * e - 1) * (1 + X) / D) by (rewrite CF; unfold D; field; fold D; lra).
  split.
  - unfold conic_position, hyperbola_position. cbv zeta. fold g. rewrite DC, CF, SF, CN, SN. f_equal.
    + unfold D. field. fold D. repeat split; lra.
    + replace (q / (e - 1) * g * (2 * (g * T) / D)) with (q / (e - 1) * (g * g) * (2 * T) / D) by (field; lra). rewrite GG. field. repeat split; lra.
  - unfold conic_velocity, hyperbola_velocity. cbv zeta. fold g. rewrite DE.
    set (c := sqrt (mu / (q * (1 + e)))). set (a := q / (e - 1)).
    assert (A0 : 0 < a) by (unfold a; apply Rdiv_lt_0_compat; lra).
    assert (SA : sqrt (mu * a) = a * (c * g)).
    { unfold c, g. rewrite <- sqrt_mult by (try apply Rlt_le, Rdiv_lt_0_compat; nra).
      rewrite <- (sqrt_square a) at 2 by lra. rewrite <- sqrt_mult by (try apply Rlt_le, mul_pos; auto; try (apply Rdiv_lt_0_compat; nra); nra).
      f_equal. unfold a. field. lra. }
    rewrite SA, CN, SN, CF, SF. f_equal.
    + replace (a * (c * g) * (2 * (g * T) / D)) with (a * c * (g * g) * (2 * T) / D) by (field; lra). rewrite GG. field. repeat split; lra.
    + replace (a * (c * g) * g * ((1 + e + (e - 1) * X) / D)) with (a * c * (g * g) * (1 + e + (e - 1) * X) / D) by (field; lra). rewrite GG. unfold D. field. fold D. repeat split; lra.
Qed.

Lemma C75_conic_proof : forall mu pos vel epoch, 0 < mu ->
  let h := cross pos vel in
  vx h <> 0 -> vy h <> 0 -> vz h <> 0 -> vz pos <> 0 -> vy pos * vx h - vx pos * vy h <> 0 ->
  vx pos * vx vel + vy pos * vy vel + vz pos * vz vel <> 0 -> length3 h * length3 h <> mu * length3 pos ->
  let k := universal_cometary mu pos vel epoch in
  k_e k <> 1 ->
  exists nu, - PI < nu < PI /\ 0 < 1 + k_e k * cos nu
    /\ pos = conic_position (k_q k) (k_e k) (k_incl k) (k_node k) (k_peri k) nu
    /\ vel = conic_velocity mu (k_q k) (k_e k) (k_incl k) (k_node k) (k_peri k) nu.
Proof.
  intros mu pos vel epoch Hmu h HX HY HZ PZ PN PV PP k NE. rewrite length3_sq in PP.
  destruct (conic_part mu pos vel epoch Hmu HX HY HZ PZ PN PV PP NE) as (nu & B & Q0 & EP & PR & Ep & Ev & _).
  exists nu. auto.
Qed.
Lemma C75_ellipse_proof : forall mu pos vel epoch, 0 < mu ->
  let h := cross pos vel in
  vx h <> 0 -> vy h <> 0 -> vz h <> 0 -> vz pos <> 0 -> vy pos * vx h - vx pos * vy h <> 0 ->
  vx pos * vx vel + vy pos * vy vel + vz pos * vz vel <> 0 -> length3 h * length3 h <> mu * length3 pos ->
  let k := universal_cometary mu pos vel epoch in
  k_e k < 1 ->
  exists E (turns : Z),
    pos = ellipse_position (k_q k) (k_e k) (k_incl k) (k_node k) (k_peri k) E
    /\ vel = ellipse_velocity mu (k_q k) (k_e k) (k_incl k) (k_node k) (k_peri k) E
    /\ E - k_e k * sin E = mean_motion mu (k_q k) (k_e k) * (epoch - k_tp k) + 2 * PI * IZR turns.
Proof.
  intros mu pos vel epoch Hmu h HX HY HZ PZ PN PV PP k NE. rewrite length3_sq in PP.
  destruct (conic_part mu pos vel epoch Hmu HX HY HZ PZ PN PV PP ltac:(fold k; lra)) as (nu & B & Q0 & EP & PR & Ep & Ev & Et).
  fold k in Q0, EP, PR, Ep, Ev, Et. set (q := k_q k) in *. set (e := k_e k) in *.
  destruct (ellipse_match mu q e (k_incl k) (k_node k) (k_peri k) nu Hmu Q0 ltac:(lra) B) as [M1 M2].
  set (E := 2 * atan (sqrt ((1 - e) / (1 + e)) * tan (nu / 2))) in *.
  destruct (principal_turn (E - e * sin E)) as [j Ej].
  exists E, (- j)%Z. split; [congruence|]. split; [congruence|].
  unfold perihelion_time in Et. destruct (Rlt_dec (Rabs (e - 1)) _) as [L|L]; [apply (f_equal fst) in Et; cbn [fst] in Et; lra|].
  destruct (Rlt_dec e 1); [|lra]. fold E in Et. apply (f_equal snd) in Et. cbn [snd] in Et.
  rewrite Et, Ej. assert (A : mu / (mu * (1 - e) / q) = semi_major q e) by (unfold semi_major; field; lra). rewrite A.
  fold (mean_motion mu q e).
  assert (MP : 0 < mean_motion mu q e).
  { unfold mean_motion. apply sqrt_lt_R0. assert (0 < semi_major q e) by (unfold semi_major; apply Rdiv_lt_0_compat; lra).
    apply Rdiv_lt_0_compat; auto using mul_pos. }
  rewrite opp_IZR. field. lra.
Qed.
Lemma C75_hyperbola_proof : forall mu pos vel epoch, 0 < mu ->
  let h := cross pos vel in
  vx h <> 0 -> vy h <> 0 -> vz h <> 0 -> vz pos <> 0 -> vy pos * vx h - vx pos * vy h <> 0 ->
  vx pos * vx vel + vy pos * vy vel + vz pos * vz vel <> 0 -> length3 h * length3 h <> mu * length3 pos ->
  let k := universal_cometary mu pos vel epoch in
  1 < k_e k ->
  exists F,
    pos = hyperbola_position (k_q k) (k_e k) (k_incl k) (k_node k) (k_peri k) F
    /\ vel = hyperbola_velocity mu (k_q k) (k_e k) (k_incl k) (k_node k) (k_peri k) F
    /\ let a := k_q k / (k_e k - 1) in k_e k * sinh F - F = sqrt (mu / (a * a * a)) * (epoch - k_tp k).
Proof.
  intros mu pos vel epoch Hmu h HX HY HZ PZ PN PV PP k NE. rewrite length3_sq in PP.
  destruct (conic_part mu pos vel epoch Hmu HX HY HZ PZ PN PV PP ltac:(fold k; lra)) as (nu & B & Q0 & EP & PR & Ep & Ev & Et).
  fold k in Q0, EP, PR, Ep, Ev, Et. set (q := k_q k) in *. set (e := k_e k) in *.
  destruct (hyperbola_match mu q e (k_incl k) (k_node k) (k_peri k) nu Hmu Q0 NE B PR) as [M1 M2].
  set (F := 2 * arctanh (sqrt ((e - 1) / (e + 1)) * tan (nu / 2))) in *.
  exists F. split; [congruence|]. split; [congruence|]. intros a.
  unfold perihelion_time in Et. destruct (Rlt_dec (Rabs (e - 1)) _) as [L|L]; [apply (f_equal fst) in Et; cbn [fst] in Et; lra|].
  destruct (Rlt_dec e 1); [lra|]. destruct (Req_EM_T e 1); [lra|]. fold F in Et. apply (f_equal snd) in Et. cbn [snd] in Et. rewrite Et.
  assert (A0 : 0 < a) by (unfold a; apply Rdiv_lt_0_compat; lra).
  assert (A : - mu / (mu / (mu * (1 - e) / q) * (mu / (mu * (1 - e) / q)) * (mu / (mu * (1 - e) / q))) = mu / (a * a * a)).
  { assert (AA : mu / (mu * (1 - e) / q) = - a) by (unfold a; field; lra). rewrite AA. field. lra. }
  rewrite A. assert (MP : 0 < sqrt (mu / (a * a * a))) by (apply sqrt_lt_R0, Rdiv_lt_0_compat; auto using mul_pos).
  field. lra.
Qed.

(** ** There and back *)
Lemma kepler_monotone : forall e x y, 0 <= e < 1 -> (1 - e) * Rabs (x - y) <= Rabs (x - e * sin x - (y - e * sin y)).
Proof.
  intros e x y He. replace (x - e * sin x - (y - e * sin y)) with ((x - y) - e * (sin x - sin y)) by ring.
  pose proof (sin_diff 0 (Rle_refl 0) Rlt_0_1 x y) as S. pose proof (Rabs_triang_inv (x - y) (e * (sin x - sin y))) as T.
  rewrite Rabs_mult, (Rabs_right e) in T by lra. pose proof (Rabs_pos (x - y)). nra.
Qed.
Lemma cos_diff x y : Rabs (cos x - cos y) <= Rabs (x - y).
Proof.
  rewrite <- !sin_shift. eapply Rle_trans; [apply (sin_diff 0 (Rle_refl 0) Rlt_0_1)|]. replace (PI / 2 - x - (PI / 2 - y)) with (- (x - y)) by ring.
  rewrite Rabs_Ropp. lra.
Qed.
Lemma apart_triangle x y z : apart x z <= apart x y + apart y z.
Proof.
  assert (A : forall p q, apart p q = norm (vsub p q)) by reflexivity. rewrite !A.
  pose proof (norm_diff x y z) as D. apply Rabs_inv_le in D. lra.
Qed.

(** Within [b] of the anomaly, the positions and velocities are close. *)
Lemma position_near : forall q e i N w x y, 0 < q -> 0 <= e < 1 ->
  apart (ellipse_position q e i N w x) (ellipse_position q e i N w y) <= 2 * semi_major q e * Rabs (x - y).
Proof.
  intros q e i N w x y Hq He. unfold ellipse_position. cbv zeta. set (a := semi_major q e).
  assert (A : 0 < a) by (unfold a, semi_major; apply Rdiv_lt_0_compat; lra).
  eapply Rle_trans; [apply apart_perifocal|]. set (g := sqrt (1 - e * e)).
  assert (G : 0 <= g <= 1).
  { split; [apply sqrt_pos|]. eapply Rle_trans; [apply (sqrt_le_1_alt _ 1); nra|rewrite sqrt_1; lra]. }
  pose proof (cos_diff x y) as C. pose proof (sin_diff 0 (Rle_refl 0) Rlt_0_1 x y) as S.
  replace (a * (cos x - e) - a * (cos y - e)) with (a * (cos x - cos y)) by ring.
  replace (a * g * sin x - a * g * sin y) with (a * (g * (sin x - sin y))) by ring.
  rewrite !Rabs_mult, (Rabs_right a), (Rabs_right g) by lra.
  pose proof (Rabs_pos (x - y)). pose proof (Rabs_pos (sin x - sin y)).
  assert (g * Rabs (sin x - sin y) <= 1 * Rabs (x - y)) by (apply Rmult_le_compat; lra).
  assert (a * Rabs (cos x - cos y) <= a * Rabs (x - y)) by (apply Rmult_le_compat_l; lra).
  assert (a * (g * Rabs (sin x - sin y)) <= a * (1 * Rabs (x - y))) by (apply Rmult_le_compat_l; lra). lra.
Qed.
Lemma velocity_near : forall mu q e i N w x y, 0 < mu -> 0 < q -> 0 <= e < 1 ->
  apart (ellipse_velocity mu q e i N w x) (ellipse_velocity mu q e i N w y) <= 8 * sqrt (mu / semi_major q e) * Rabs (x - y) / ((1 - e) * (1 - e)).
Proof.
  intros mu q e i N w x y Hmu Hq He. unfold ellipse_velocity. cbv zeta. set (a := semi_major q e).
  assert (A : 0 < a) by (unfold a, semi_major; apply Rdiv_lt_0_compat; lra).
  eapply Rle_trans; [apply apart_perifocal|]. set (g := sqrt (1 - e * e)).
  assert (G : 0 <= g <= 1).
  { split; [apply sqrt_pos|]. eapply Rle_trans; [apply (sqrt_le_1_alt _ 1); nra|rewrite sqrt_1; lra]. }
  set (c := sqrt (mu / a)). assert (C0 : 0 <= c) by apply sqrt_pos.
  assert (SA : sqrt (mu * a) = a * c).
  { unfold c. rewrite <- (sqrt_square a) at 2 by lra. rewrite <- sqrt_mult by (try apply Rlt_le, Rdiv_lt_0_compat; nra). f_equal. field. lra. }
  rewrite SA. pose proof (cos_diff x y) as C. pose proof (sin_diff 0 (Rle_refl 0) Rlt_0_1 x y) as S.
  assert (DP : forall z, 1 - e <= 1 - e * cos z) by (intros z; pose proof (COS_bound z); nra).
  pose proof (DP x) as DX. pose proof (DP y) as DY. set (d := Rabs (x - y)) in *. assert (D0 : 0 <= d) by apply Rabs_pos.
  assert (DD : Rabs (1 - e * cos x - (1 - e * cos y)) <= d).
  { replace (1 - e * cos x - (1 - e * cos y)) with (- (e * (cos x - cos y))) by ring. rewrite Rabs_Ropp, Rabs_mult, (Rabs_right e) by lra.
    pose proof (Rabs_pos (cos x - cos y)). nra. }
  assert (B1 : Rabs (sin y) <= 1) by (apply Rabs_le; pose proof (SIN_bound y); lra).
  assert (B2 : Rabs (cos y) <= 1) by (apply Rabs_le; pose proof (COS_bound y); lra).
  pose proof (quotient_close (sin x) (sin y) (1 - e * cos x) (1 - e * cos y) d d (1 - e) ltac:(lra) ltac:(lra) DY ltac:(lra) B1 S DD) as Q1.
  pose proof (quotient_close (cos x) (cos y) (1 - e * cos x) (1 - e * cos y) d d (1 - e) ltac:(lra) ltac:(lra) DY ltac:(lra) B2 C DD) as Q2.
  replace (- (a * c * sin x / (a * (1 - e * cos x))) - - (a * c * sin y / (a * (1 - e * cos y)))) with (- (c * (sin x / (1 - e * cos x) - sin y / (1 - e * cos y)))) by (field; lra).
  replace (a * c * g * cos x / (a * (1 - e * cos x)) - a * c * g * cos y / (a * (1 - e * cos y))) with (c * (g * (cos x / (1 - e * cos x) - cos y / (1 - e * cos y)))) by (field; lra).
  rewrite Rabs_Ropp, !Rabs_mult, (Rabs_right c), (Rabs_right g) by lra.
  set (p1 := Rabs (sin x / _ - _)) in *. set (p2 := Rabs (cos x / _ - _)) in *.
  assert (P2 : 0 <= p2) by apply Rabs_pos.
  assert (g * p2 <= p2) by nra.
  set (b := 2 * (d + d) / ((1 - e) * (1 - e))) in *.
  replace (8 * c * d / ((1 - e) * (1 - e))) with (c * b + c * b) by (unfold b; field; lra).
  apply Rplus_le_compat; apply Rmult_le_compat_l; lra.
Qed.

Lemma inflate u e : 1 <= u -> e <= 1 -> (1 + e) * u <= 3 / 2 * u * (3 / 2 * u).
Proof. intros U E. assert (0 <= u * (u - 1)) by (apply Rmult_le_pos; lra). assert (0 <= (1 - e) * u) by (apply Rmult_le_pos; lra). lra. Qed.
Lemma C95_round_trip_proof : forall mu pos vel epoch fuel x v, 0 < mu ->
  let h := cross pos vel in
  vx h <> 0 -> vy h <> 0 -> vz h <> 0 -> vz pos <> 0 -> vy pos * vx h - vx pos * vy h <> 0 ->
  vx pos * vx vel + vy pos * vy vel + vz pos * vz vel <> 0 -> length3 h * length3 h <> mu * length3 pos ->
  let k := universal_cometary mu pos vel epoch in
  let q := k_q k in let e := k_e k in
  e <= 1 - 1 / 1000000000 ->
  universal_cartesian fuel mu q e (k_incl k) (k_node k) (k_peri k) (k_tp k) epoch = Ok (Some (x, v)) ->
  exists t s, since_perihelion mu q e (k_tp k) epoch = Ok t
    /\ solve (fun s => root_function s mu (2 * mu / q - mu * (1 + e) / q) q 0 t) (1 / 100000000000000) fuel t = Ok (Some s)
    /\ (sqrt (mu * (1 - e) / q) * Rabs s <= 10000 -> (sqrt (mu * (1 - e) / q) * Rabs s) ^ 4 <= 10 ^ 17 * (1 - e) ->
        apart x pos <= 5 / 1000000000000 * (semi_major q e / (1 - e))
        /\ apart v vel <= 1 / 100000000000 * sqrt (mu / semi_major q e) / ((1 - e) * (1 - e) * (1 - e))).
Proof.
  intros mu pos vel epoch fuel x v Hmu h HX HY HZ PZ PN PV PP k q e HE HU.
  destruct (C75_ellipse_proof mu pos vel epoch Hmu HX HY HZ PZ PN PV PP ltac:(fold k; fold e; lra)) as (E & j & Ep & Ev & Ek).
  fold k in Ep, Ev, Ek. fold q in Ep, Ev, Ek. fold e in Ep, Ev, Ek.
  destruct (C75_energy_momentum_proof mu pos vel epoch Hmu (h_nonzero pos vel HX) ltac:(fold k; fold e; lra)) as (Q0 & E0 & _).
  fold k in Q0, E0. fold q in Q0. fold e in E0.
  destruct (C94_kepler_proof fuel mu q e _ _ _ _ _ x v Hmu Q0 E0 HE HU) as (t & s & Ht & Hs & HR).
  exists t, s. split; [auto|]. split; [auto|]. intros L L4. destruct (HR L L4) as (E' & j' & K1 & A1 & A2). clear HR L L4 Hs Ht HU.
  fold (mean_motion mu q e) in K1.
  assert (W : 0 < 1 - e) by lra.
  set (E1 := E + 2 * PI * IZR (- j - j')) in *.
  assert (P1 : ellipse_position q e (k_incl k) (k_node k) (k_peri k) E1 = pos).
  { rewrite Ep. unfold ellipse_position, E1. destruct (cos_turn E (- j - j')) as [-> ->]. reflexivity. }
  assert (P2 : ellipse_velocity mu q e (k_incl k) (k_node k) (k_peri k) E1 = vel).
  { rewrite Ev. unfold ellipse_velocity, E1. destruct (cos_turn E (- j - j')) as [-> ->]. reflexivity. }
  assert (K2 : E1 - e * sin E1 = mean_motion mu q e * (epoch - k_tp k) - 2 * PI * IZR j').
  { unfold E1. destruct (cos_turn E (- j - j')) as [_ ->]. rewrite minus_IZR, opp_IZR. lra. }
  rewrite <- K2 in K1. pose proof (kepler_monotone e E' E1 ltac:(lra)) as KM.
  assert (DE : Rabs (E' - E1) <= 1 / 1000000000000 / (1 - e)).
  { apply Rmult_le_reg_l with (1 - e); [auto|]. replace ((1 - e) * (1 / 1000000000000 / (1 - e))) with (1 / 1000000000000) by (field; lra). lra. }
  pose proof (position_near q e (k_incl k) (k_node k) (k_peri k) E' E1 Q0 ltac:(lra)) as N1.
  pose proof (velocity_near mu q e (k_incl k) (k_node k) (k_peri k) E' E1 Hmu Q0 ltac:(lra)) as N2.
  rewrite P1 in N1. rewrite P2 in N2. clear P1 P2 K1 K2 KM Ep Ev Ek.
  assert (A : 0 < semi_major q e) by (unfold semi_major; apply Rdiv_lt_0_compat; lra). set (a := semi_major q e) in *. clearbody a.
  set (u := / (1 - e)) in *. assert (U : 1 <= u) by (unfold u; rewrite <- Rinv_1; apply Rinv_le_contravar; lra).
  split.
  - eapply Rle_trans; [apply apart_triangle|]. eapply Rle_trans; [apply Rplus_le_compat; [exact A1|exact N1]|].
    assert (G : sqrt ((1 + e) / (1 - e)) <= 3 / 2 * u).
    { rewrite <- (sqrt_square (3 / 2 * u)) by lra. apply sqrt_le_1_alt. unfold Rdiv at 1. fold u. apply inflate; lra. }
    assert (a * sqrt ((1 + e) / (1 - e)) <= a * (3 / 2 * u)) by (apply Rmult_le_compat_l; lra).
    assert (D2 : 2 * a * Rabs (E' - E1) <= 2 * a * (1 / 1000000000000 / (1 - e))) by (apply Rmult_le_compat_l; lra).
    replace (1 / 1000000000000 / (1 - e)) with (1 / 1000000000000 * u) in D2 by reflexivity.
    replace (a / (1 - e)) with (a * u) by reflexivity. assert (0 <= a * u) by (apply Rmult_le_pos; lra). lra.
  - eapply Rle_trans; [apply apart_triangle|]. eapply Rle_trans; [apply Rplus_le_compat; [exact A2|exact N2]|].
    set (c := sqrt (mu / a)). assert (C : 0 <= c) by apply sqrt_pos.
    assert (UU : 0 <= u * u) by (apply Rmult_le_pos; lra).
    assert (T1 : 1 / 10000000000000 * c / ((1 - e) * (1 - e)) = 1 / 10000000000000 * (c * (u * u))) by (unfold u; field; lra).
    assert (T2 : 8 * c * Rabs (E' - E1) / ((1 - e) * (1 - e)) = 8 * (c * (u * u)) * Rabs (E' - E1)) by (unfold u; field; lra).
    assert (T3 : 1 / 100000000000 * c / ((1 - e) * (1 - e) * (1 - e)) = 1 / 100000000000 * (c * (u * u) * u)) by (unfold u; field; lra).
    rewrite T1, T2, T3. set (z := c * (u * u)) in *. assert (Z : 0 <= z) by (apply Rmult_le_pos; auto).
    replace (1 / 1000000000000 / (1 - e)) with (1 / 1000000000000 * u) in DE by reflexivity.
    assert (8 * z * Rabs (E' - E1) <= 8 * z * (1 / 1000000000000 * u)) by (apply Rmult_le_compat_l; lra).
    assert (z * 1 <= z * u) by (apply Rmult_le_compat_l; lra). lra.
Qed.

(** ** Parabolas *)
Lemma C75_parabola_proof : forall mu pos vel epoch, 0 < mu ->
  let h := cross pos vel in
  vx h <> 0 -> vy h <> 0 -> vz h <> 0 -> vz pos <> 0 -> vy pos * vx h - vx pos * vy h <> 0 ->
  vx pos * vx vel + vy pos * vy vel + vz pos * vz vel <> 0 -> length3 h * length3 h <> mu * length3 pos ->
  binding mu pos vel = 0 ->
  let k := universal_cometary mu pos vel epoch in
  k_e k = 1 /\ exists nu, - PI < nu < PI
    /\ pos = conic_position (k_q k) 1 (k_incl k) (k_node k) (k_peri k) nu
    /\ vel = conic_velocity mu (k_q k) 1 (k_incl k) (k_node k) (k_peri k) nu
    /\ let t := tan (nu / 2) in t + t * t * t / 3 = sqrt (mu / (2 * (k_q k * k_q k * k_q k))) * (epoch - k_tp k).
Proof.
  intros mu pos vel epoch Hmu h HX HY HZ PZ PN PV PP HB k. rewrite length3_sq in PP.
  destruct (anomaly_found mu pos vel epoch Hmu HX HY HZ PZ PN PV PP) as (nu & B & C & S & Ep & Ev & Et & Eq). fold k in Ep, Ev, Et, Eq.
  assert (NZ : cross pos vel <> V3 0 0 0) by exact (h_nonzero pos vel HX).
  pose proof (ecc_sq mu pos vel Hmu NZ) as SQ. rewrite HB in SQ.
  pose proof (H_pos pos vel HX) as HP. pose proof (rr_pos pos vel HX) as RP.
  pose proof (ecc_pos mu pos vel Hmu HX PV) as EP. rewrite <- length3_sq in SQ.
  change (np_cross pos vel) with (cross pos vel) in SQ.
  assert (SH : sqrt (length3 (cross pos vel) * length3 (cross pos vel)) = length3 (cross pos vel)) by (apply sqrt_square; lra).
  rewrite SH in SQ. clear SH.
  set (H := length3 (cross pos vel)) in *. set (r := length3 pos) in *. set (p := H * H / mu) in *.
  match type of EP with 0 < ?x => set (ecc := x) in * end.
  assert (Ee : ecc = 1).
  { assert (E2 : (ecc - 1) * (ecc + 1) = 0) by (replace ((ecc - 1) * (ecc + 1)) with (ecc * ecc - 1) by ring; rewrite SQ; unfold Rdiv; ring).
    apply Rmult_integral in E2. lra. }
  rewrite Ee in *. clear Ee SQ EP ecc.
  assert (PQ : p = k_q k * 2) by (rewrite Eq; field).
  assert (Pp : 0 < p) by (unfold p; apply Rdiv_lt_0_compat; auto using mul_pos).
  assert (ER : r * (1 + 1 * cos nu) = p) by (rewrite C; field; lra).
  assert (PR : 0 < 1 + 1 * cos nu) by (apply Rmult_lt_reg_l with r; [auto|]; rewrite ER, Rmult_0_r; auto).
  assert (Er : r = k_q k * (1 + 1) / (1 + 1 * cos nu)) by (replace (k_q k * (1 + 1)) with p by lra; rewrite <- ER; field; lra).
  assert (Q0 : 0 < k_q k) by lra.
  unfold perihelion_time in Et. destruct (Rlt_dec (Rabs (1 - 1)) _) as [L|L]; [|exfalso; apply L; rewrite Rminus_diag_eq, Rabs_R0 by reflexivity; lra].
  destruct (Rlt_dec 1 1); [lra|]. destruct (Req_EM_T 1 1); [|lra]. pose proof (f_equal fst Et) as E1. pose proof (f_equal snd Et) as E2. cbn [fst snd] in E1, E2.
  split; [auto|]. exists nu. split; [auto|].
  split; [unfold conic_position; cbv zeta; rewrite <- Er; exact Ep|].
  split.
  - unfold conic_velocity. cbv zeta. replace (sqrt (mu / (k_q k * (1 + 1)))) with (mu / H).
    + replace (- (mu / H * sin nu)) with (- (mu / H) * sin nu) by ring. exact Ev.
    + replace (k_q k * (1 + 1)) with p by lra. unfold p. rewrite <- (sqrt_square (mu / H)) by (apply Rlt_le, Rdiv_lt_0_compat; auto). f_equal. field. lra.
  - cbv zeta. rewrite E2. replace (1 / 2 * nu) with (nu / 2) by lra. set (t := tan (nu / 2)).
    assert (QQ : 0 < k_q k * k_q k * k_q k) by auto using mul_pos.
    assert (R : sqrt (mu / (2 * (k_q k * k_q k * k_q k))) = 2 * sqrt (mu / (p * p * p))).
    { rewrite PQ. rewrite <- (sqrt_square 2) at 2 by lra. rewrite <- sqrt_mult by (try apply Rlt_le, Rdiv_lt_0_compat; try lra; auto using mul_pos; repeat apply mul_pos; lra).
      f_equal. field. lra. }
    rewrite R. assert (W : 0 < sqrt (mu / (p * p * p))) by (apply sqrt_lt_R0, Rdiv_lt_0_compat; auto using mul_pos). field. lra.
Qed.

(** ** Where the guards give a wrong angle *)
(** A right angle from perihelion, the elements say that the object is at perihelion. *)
Lemma C75_latus_refuted_proof : forall mu pos vel epoch, 0 < mu -> cross pos vel <> V3 0 0 0 ->
  length3 (cross pos vel) * length3 (cross pos vel) = mu * length3 pos ->
  vx pos * vx vel + vy pos * vy vel + vz pos * vz vel <> 0 ->
  let k := universal_cometary mu pos vel epoch in k_tp k = epoch /\ k_q k < length3 pos.
Proof.
  intros mu pos vel epoch Hmu Hh PP PV k.
  pose proof (cometary_fields mu pos vel epoch) as CF. cbv zeta in CF. fold k in CF. destruct CF as (Eq & _).
  pose proof (r_pos pos vel Hh) as RP. pose proof (hs_pos pos vel Hh) as HP.
  change (np_cross pos vel) with (cross pos vel) in *. rewrite length3_sq in PP. rewrite PP in *.
  set (r := length3 pos) in *.
  replace (mu * r / mu) with r in Eq by (field; lra). replace (r / r - 1) with 0 in Eq by (field; lra).
  set (es := dot pos vel / r * sqrt (mu * r) / mu) in *.
  assert (SP : 0 < sqrt (mu * r)) by (apply sqrt_lt_R0; auto).
  assert (ES : es <> 0).
  { unfold es. intros E. apply PV. fold (dot pos vel). apply Rmult_eq_reg_r with (sqrt (mu * r) / (r * mu)); [|apply Rgt_not_eq, Rdiv_lt_0_compat; auto using mul_pos].
    rewrite Rmult_0_l, <- E. field. lra. }
  assert (EC : 0 < sqrt (0 * 0 + es * es)) by (apply sqrt_lt_R0; pose proof (Rsqr_pos_lt es ES) as Q; unfold Rsqr in Q; lra).
  split.
  - unfold k, universal_cometary. rewrite norm_length3. fold r. change (np_cross pos vel) with (cross pos vel). rewrite PP.
    replace (mu * r / mu) with r by (field; lra). replace (r / r - 1) with 0 by (field; lra). fold es.
    assert (Z : guarded_arctan2 es 0 = 0).
    { unfold guarded_arctan2. destruct (Req_EM_T es 0); [reflexivity|]. destruct (Req_EM_T 0 0); [reflexivity|lra]. }
    rewrite Z. unfold perihelion_time. cbn [k_tp].
    replace (0 / 2) with 0 by lra. replace (1 / 2 * 0) with 0 by lra. rewrite tan_0.
    set (e := if Rlt_dec _ _ then 1 else _). destruct (Rlt_dec e 1).
    + rewrite Rmult_0_r, atan_0, Rmult_0_r, sin_0, Rmult_0_r.
      unfold principal_value, rfloor. replace (0 - 0) with 0 by lra. destruct (Rlt_dec 0 0); [lra|].
      replace (0 / (2 * PI)) with 0 by (unfold Rdiv; ring).
      replace (Int_part 0) with 0%Z. { unfold Rdiv. ring. }
      unfold Int_part. rewrite <- (tech_up 0 1); [reflexivity|lra|lra].
    + destruct (Req_EM_T e 1).
      * unfold Rdiv. ring.
      * rewrite Rmult_0_r. unfold arctanh. replace ((1 + 0) / (1 - 0)) with 1 by field. rewrite ln_1, !Rmult_0_r, sinh_0. unfold Rdiv. ring.
  - rewrite Eq. set (ec := sqrt (0 * 0 + es * es)) in *. apply Rmult_lt_reg_r with (1 + ec); [lra|].
    replace (r / (1 + ec) * (1 + ec)) with r by (field; lra). pose proof (mul_pos r ec RP EC). lra.
Qed.

(** On the way down through the reference plane, the argument of perihelion is
    half a turn off, and the orbit misses the object. *)
Lemma C75_descending_refuted_proof : forall mu pos vel epoch, 0 < mu ->
  let h := cross pos vel in
  vx h <> 0 -> vy h <> 0 -> vz h <> 0 -> vz pos = 0 -> vz vel < 0 ->
  vx pos * vx vel + vy pos * vy vel + vz pos * vz vel <> 0 -> length3 h * length3 h <> mu * length3 pos ->
  let k := universal_cometary mu pos vel epoch in
  k_e k <> 1 ->
  forall nu, 0 < 1 + k_e k * cos nu -> pos <> conic_position (k_q k) (k_e k) (k_incl k) (k_node k) (k_peri k) nu.
Proof.
  intros mu pos vel epoch Hmu h HX HY HZ PZ VZ PV PP k NE nu PR EP0. rewrite length3_sq in PP.
  destruct (cometary_unfold mu pos vel epoch) as (u & nu0 & Eu & En & Ew & Eq & Et). fold k in Eu, Ew, Eq, Et.
  pose proof (H_pos pos vel HX) as HP. pose proof (rr_pos pos vel HX) as RP.
  pose proof (ecc_pos mu pos vel Hmu HX PV) as EP. pose proof (esin_nonzero mu pos vel Hmu HX PV) as N1.
  pose proof (ecos_nonzero mu pos vel Hmu HX PP) as N2.
  rewrite guarded_nonzero in En by auto.
  pose proof (C75_normal_proof mu pos vel epoch HX HY) as NM. fold k in NM. cbv zeta in NM. fold h in NM.
  fold h in HP, EP, N1, N2, En, Eq, Et. set (H := length3 h) in *. set (r := length3 pos) in *. set (p := H * H / mu) in *.
  set (ecos := p / r - 1) in *. set (esin := dot pos vel / r * H / mu) in *. set (ecc := sqrt (ecos * ecos + esin * esin)) in *.
  destruct (arctan2_spec ecos esin) as (C & _); [apply sq_pos; auto|]. rewrite <- En in *. fold ecc in C.
  assert (C' : ecc * cos nu0 = ecos) by (rewrite C; field; lra).
  assert (Ee : k_e k = ecc).
  { unfold perihelion_time in Et. destruct (Rlt_dec (Rabs (ecc - 1)) _) as [L|L]; apply (f_equal fst) in Et; cbn [fst] in Et; [contradiction|exact Et]. }
  assert (I : k_incl k = acos (vz (np_cross pos vel) / sqrt (dot (np_cross pos vel) (np_cross pos vel)))).
  { pose proof (cometary_fields mu pos vel epoch) as CF. cbv zeta in CF. fold k in CF. apply CF. }
  set (i := k_incl k) in *. set (N := k_node k) in *. set (w := k_peri k) in *.
  assert (X : vx h = H * (sin i * sin N)) by (rewrite NM; reflexivity).
  assert (Y : vy h = H * - (sin i * cos N)) by (rewrite NM; reflexivity).
  assert (Z : vz h = H * cos i) by (rewrite NM; reflexivity).
  assert (CI : cos i <> 0) by (intros E; apply HZ; rewrite Z, E; ring).
  assert (SI : sin i <> 0) by (intros E; apply HX; rewrite X, E; ring).
  assert (SIP : 0 < sin i).
  { assert (0 <= sin i); [|lra]. apply sin_ge_0; rewrite I; apply acos_bound. }
  assert (SN : sin N <> 0) by (intros E; apply HX; rewrite X, E; ring).
  assert (OR : vy pos * cos N - vx pos * sin N = 0).
  { assert (O : vx pos * vx h + vy pos * vy h + vz pos * vz h = 0) by (unfold h, cross; cbn [vx vy vz]; ring).
    rewrite X, Y, PZ in O. apply Rmult_eq_reg_l with (H * sin i); [|apply Rgt_not_eq, mul_pos; auto]. rewrite Rmult_0_r. lra. }
  rewrite OR in Eu. unfold Rdiv in Eu at 1. rewrite Rmult_0_l in Eu.
  assert (U : u = 0) by (rewrite Eu; unfold guarded_arctan2; destruct (Req_EM_T 0 0); [reflexivity|lra]).
  assert (W : w = - nu0) by (rewrite Ew, U; ring).
  pose proof (cs1 N) as DN. set (cu := vx pos * cos N + vy pos * sin N) in *.
  assert (PX : vx pos = cu * cos N).
  { unfold cu. transitivity (vx pos * (cos N * cos N + sin N * sin N) + sin N * (vy pos * cos N - vx pos * sin N)); [rewrite DN, OR; ring|ring]. }
  assert (PY : vy pos = cu * sin N).
  { unfold cu. transitivity (vy pos * (cos N * cos N + sin N * sin N) - cos N * (vy pos * cos N - vx pos * sin N)); [rewrite DN, OR; ring|ring]. }
  assert (CUV : cu * vz vel = H * sin i).
  { apply Rmult_eq_reg_r with (sin N); [|auto]. transitivity (vx h); [|rewrite X; ring].
    unfold h, cross; cbn [vx vy vz]. rewrite PZ, PY. ring. }
  assert (CU : cu < 0).
  { destruct (Rlt_dec cu 0); [auto|]. exfalso. pose proof (mul_pos H (sin i) HP SIP).
    assert (0 <= cu * - vz vel) by (apply Rmult_le_pos; lra). lra. }
  assert (RC : r = - cu).
  { assert (E : r * r = - cu * - cu).
    { unfold r. rewrite length3_sq. unfold dot. rewrite PX, PY, PZ. transitivity (cu * cu * (cos N * cos N + sin N * sin N)); [ring|rewrite DN; ring]. }
    rewrite <- (sqrt_square r), E by lra. apply sqrt_square. lra. }
  unfold conic_position in EP0. cbv zeta in EP0. set (r' := k_q k * (1 + k_e k) / (1 + k_e k * cos nu)) in EP0.
  assert (Pp : 0 < p) by (unfold p; apply Rdiv_lt_0_compat; auto using mul_pos).
  assert (PQ : k_q k * (1 + k_e k) = p) by (rewrite Eq, Ee; field; lra).
  assert (RP' : 0 < r') by (unfold r'; rewrite PQ; apply Rdiv_lt_0_compat; auto).
  rewrite perifocal_polar in EP0. rewrite EP0 in PX, PY, PZ. cbn [vx vy vz] in PX, PY, PZ. clear EP0.
  rewrite W in PX, PY, PZ. set (th := - nu0 + nu) in *.
  assert (ST : sin th = 0).
  { apply Rmult_eq_reg_r with (r' * sin i); [|apply Rgt_not_eq, mul_pos; auto]. rewrite Rmult_0_l, <- PZ. ring. }
  rewrite ST in PX, PY.
  assert (CT : cu = r' * cos th).
  { apply Rmult_eq_reg_r with (sin N); [|auto]. rewrite <- PY. ring. }
  pose proof (cs1 th) as DT. rewrite ST in DT.
  assert (CM : cos th = -1).
  { assert (E : (cos th + 1) * (cos th - 1) = 0) by lra. apply Rmult_integral in E. destruct E as [E|E]; [lra|].
    exfalso. assert (cos th = 1) by lra. rewrite H0 in CT. lra. }
  assert (RR : r = r') by (rewrite RC, CT, CM; ring).
  assert (CN : cos nu = - cos nu0).
  { replace nu with (th + nu0) by (unfold th; ring). rewrite cos_plus, CM, ST. ring. }
  assert (E1 : r' * (1 - ecos) = p).
  { replace (1 - ecos) with (1 + k_e k * cos nu) by (rewrite CN, Ee, <- C'; ring). unfold r'. rewrite PQ. field. lra. }
  assert (E2 : r * (1 + ecos) = p) by (unfold ecos; field; lra).
  apply N2. apply Rmult_eq_reg_l with (2 * r); [|lra]. rewrite <- RR in E1. lra.
Qed.
