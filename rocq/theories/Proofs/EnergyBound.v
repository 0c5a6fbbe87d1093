(** The states found have nearly the energy of the elements. *)
From Coq Require Import Reals Lra Psatz.
From Verif Require Import Base.Prelude Model.Sphere Model.Kepler Spec.Sphere Spec.Kepler Spec.Anomaly
  Proofs.Kepler Proofs.KeplerState Proofs.Anomaly Proofs.EllipseState Proofs.Cometary Proofs.HyperbolicStumpff Proofs.HyperbolaState Proofs.ParabolaState.
Open Scope R_scope.

Lemma length3_apart : forall x y, Rabs (length3 x - length3 y) <= apart x y.
Proof.
  assert (L : forall x, length3 x = apart x (V3 0 0 0)) by (intros [a b c]; unfold length3, apart; cbn [vx vy vz]; f_equal; ring).
  assert (S : forall x y, apart x y = apart y x) by (intros; unfold apart; f_equal; ring).
  intros x y. rewrite !L. assert (H1 := apart_triangle x y (V3 0 0 0)). assert (H2 := apart_triangle y x (V3 0 0 0)). rewrite (S y x) in H2.
  apply Rabs_le. lra.
Qed.

Lemma abs_le_inv : forall x y, Rabs x <= y -> - y <= x <= y.
Proof. intros x y H. unfold Rabs in H. destruct (Rcase_abs x); lra. Qed.

(** ** States close to each other have energies close to each other *)
Lemma binding_near : forall mu x v x0 v0 d h, 0 < mu -> apart x x0 <= d -> 2 * d <= length3 x0 -> 0 < length3 x0 -> apart v v0 <= h ->
  Rabs (binding mu x v - binding mu x0 v0) <= 4 * mu * d / (length3 x0 * length3 x0) + h * (2 * length3 v0 + h).
Proof.
  intros mu x v x0 v0 d h Hmu Hd H2 H0 Hh.
  assert (A := length3_apart x x0). assert (B := length3_apart v v0).
  assert (VV : forall u, vx u * vx u + vy u * vy u + vz u * vz u = length3 u * length3 u).
  { intros u. rewrite length3_sq. unfold dot. ring. }
  unfold binding. rewrite !VV.
  assert (P : 0 <= length3 v) by apply sqrt_pos. assert (P0 : 0 <= length3 v0) by apply sqrt_pos.
  set (r := length3 x) in *. set (r0 := length3 x0) in *. set (u := length3 v) in *. set (u0 := length3 v0) in *. clearbody r r0 u u0.
  assert (A' : Rabs (r - r0) <= d) by lra. assert (B' : Rabs (u - u0) <= h) by lra. clear A B Hd Hh.
  assert (D0 : 0 <= d) by (eapply Rle_trans; [apply Rabs_pos|exact A']).
  assert (h0 : 0 <= h) by (eapply Rle_trans; [apply Rabs_pos|exact B']).
  assert (A2 := abs_le_inv _ _ A'). assert (B2 := abs_le_inv _ _ B').
  assert (R1 : r0 <= 2 * r) by lra. assert (R0 : 0 < r) by lra.
  replace (2 * mu / r - u * u - (2 * mu / r0 - u0 * u0)) with (2 * mu * ((r0 - r) / (r * r0)) + - ((u - u0) * (u + u0))) by (field; lra).
  eapply Rle_trans; [apply Rabs_triang|]. apply Rplus_le_compat.
  - rewrite Rabs_mult, (Rabs_right (2 * mu)) by lra. unfold Rdiv at 1. rewrite Rabs_mult.
    assert (I : 0 < / (r * r0)) by (apply Rinv_0_lt_compat, Rmult_lt_0_compat; lra).
    rewrite (Rabs_right (/ (r * r0))) by lra. rewrite Rabs_minus_sym.
    assert (I2 : / (r * r0) <= 2 / (r0 * r0)).
    { apply Rmult_le_reg_l with (r * r0 * r0); [apply Rmult_lt_0_compat; [apply Rmult_lt_0_compat|]; lra|].
      replace (r * r0 * r0 * / (r * r0)) with r0 by (field; lra). replace (r * r0 * r0 * (2 / (r0 * r0))) with (2 * r) by (field; lra). lra. }
    replace (4 * mu * d / (r0 * r0)) with (2 * mu * (d * (2 / (r0 * r0)))) by (field; lra).
    apply Rmult_le_compat_l; [lra|]. apply Rmult_le_compat; [apply Rabs_pos|lra|auto|auto].
  - rewrite Rabs_Ropp, Rabs_mult. apply Rmult_le_compat; [apply Rabs_pos|apply Rabs_pos|auto|].
    rewrite Rabs_right by lra. lra.
Qed.

Lemma sqrt_below : forall x, 1 <= x -> sqrt x <= x.
Proof.
  intros x H. assert (S : sqrt x * sqrt x = x) by (apply sqrt_sqrt; lra).
  assert (sqrt 1 <= sqrt x) by (apply sqrt_le_1_alt; lra). rewrite sqrt_1 in H0.
  rewrite <- S at 2. rewrite <- (Rmult_1_r (sqrt x)) at 1. apply Rmult_le_compat_l; lra.
Qed.

(** ** Ellipses *)
Lemma C43_ellipse_bound_proof : forall fuel mu q e i N w tp ep x v, 0 < mu -> 0 < q -> 0 <= e -> e <= 1 - 1 / 100000 ->
  universal_cartesian fuel mu q e i N w tp ep = Ok (Some (x, v)) ->
  exists t s, since_perihelion mu q e tp ep = Ok t
    /\ solve (fun s => root_function s mu (2 * mu / q - mu * (1 + e) / q) q 0 t) (1 / 100000000000000) fuel t = Ok (Some s)
    /\ (sqrt (mu * (1 - e) / q) * Rabs s <= 10000 -> (sqrt (mu * (1 - e) / q) * Rabs s) ^ 4 <= 10 ^ 17 * (1 - e) ->
        Rabs (binding mu x v - binding_of_elements mu q e)
        <= 2 / 100000000000 * binding_of_elements mu q e / ((1 - e) * (1 - e) * (1 - e))).
Proof.
  intros fuel mu q e i N w tp ep x v Hmu Hq He0 He1 H.
  destruct (C94_kepler_proof fuel mu q e i N w tp ep x v Hmu Hq He0 ltac:(lra) H) as (t & s & H1 & H2 & H3).
  exists t, s. split; [exact H1|split; [exact H2|]]. intros HS HS4. destruct (H3 HS HS4) as (E & n & _ & HX & HV). clear H3 H1 H2 HS HS4 H.
  destruct (ellipse_state mu q e i N w E Hmu Hq ltac:(lra)) as (L & _ & _ & B).
  set (u := 1 - e) in *. assert (U1 : 1 / 100000 <= u) by (unfold u; lra). assert (U2 : u <= 1) by (unfold u; lra).
  assert (Ha : 0 < semi_major q e) by (apply Rdiv_lt_0_compat; lra). unfold semi_major in *. fold u in HX, HV, L, Ha. set (a := q / u) in *.
  assert (BE : binding_of_elements mu q e = mu / a) by (unfold binding_of_elements, a; fold u; field; lra).
  set (x0 := ellipse_position q e i N w E) in *. set (v0 := ellipse_velocity mu q e i N w E) in *.
  assert (S2 : sqrt ((1 + e) / u) <= 2 / u).
  { assert (O : 1 <= (1 + e) / u). { apply Rmult_le_reg_r with u; [lra|]. replace ((1 + e) / u * u) with (1 + e) by (field; lra). unfold u. lra. }
    eapply Rle_trans; [apply sqrt_below; exact O|]. unfold Rdiv. apply Rmult_le_compat_r; [apply Rlt_le, Rinv_0_lt_compat; lra|unfold u in U1; lra]. }
  assert (CB := COS_bound E). assert (Lc : e * cos E <= e * 1) by (apply Rmult_le_compat_l; lra).
  assert (R : a * u <= length3 x0). { rewrite L. apply Rmult_le_compat_l; unfold u; lra. }
  set (d := 4 / 1000000000000 * a / u).
  assert (HX' : apart x x0 <= d).
  { eapply Rle_trans; [exact HX|]. replace d with (2 / 1000000000000 * (a * (2 / u))) by (unfold d; field; lra).
    apply Rmult_le_compat_l; [lra|]. apply Rmult_le_compat_l; [lra|exact S2]. }
  assert (AU : 0 < a * u) by (apply Rmult_lt_0_compat; lra).
  assert (UU : 1 / 100000 * (1 / 100000) <= u * u) by (apply Rmult_le_compat; lra).
  assert (HD : 2 * d <= length3 x0).
  { eapply Rle_trans; [|exact R]. replace (2 * d) with (8 / 1000000000000 * (a / u)) by (unfold d; field; lra).
    replace (a * u) with (u * u * (a / u)) by (field; lra). apply Rmult_le_compat_r; [apply Rlt_le, Rdiv_lt_0_compat; lra|lra]. }
  set (h := 1 / 10000000000000 * sqrt (mu / a) / (u * u)) in *.
  assert (M0 : 0 < mu / a) by (apply Rdiv_lt_0_compat; auto).
  set (k := sqrt (mu / a)) in *. assert (K0 : 0 < k) by (apply sqrt_lt_R0; auto). assert (KK : k * k = mu / a) by (apply sqrt_sqrt; lra).
  assert (V : length3 v0 <= 2 * k / u).
  { assert (E2 : length3 v0 * length3 v0 = 2 * mu / length3 x0 - mu / a).
    { rewrite <- BE, <- B. unfold binding. rewrite length3_sq. unfold dot. ring. }
    assert (G : 2 * mu / length3 x0 <= 2 * mu / (a * u)).
    { unfold Rdiv. apply Rmult_le_compat_l; [lra|]. apply Rinv_le_contravar; auto. }
    assert (EU : 2 * mu / (a * u) = 2 * (mu / a) / u) by (field; lra).
    assert (I1 : 1 <= / u) by (rewrite <- Rinv_1 at 1; apply Rinv_le_contravar; lra).
    assert (Q : length3 v0 * length3 v0 <= (2 * k / u) * (2 * k / u)).
    { rewrite E2. replace (2 * k / u * (2 * k / u)) with (4 * (mu / a) * (/ u * / u)) by (rewrite <- KK; field; lra).
      assert (1 * / u <= / u * / u) by (apply Rmult_le_compat_r; lra).
      assert (4 * (mu / a) * (1 * / u) <= 4 * (mu / a) * (/ u * / u)) by (apply Rmult_le_compat_l; lra).
      assert (0 < mu / a * / u) by (apply Rmult_lt_0_compat; lra). unfold Rdiv at 1 in EU. lra. }
    assert (N0 : 0 <= 2 * k / u) by (apply Rmult_le_pos; [lra|lra]).
    apply Rsqr_incr_0_var; auto. }
  assert (BN := binding_near mu x v x0 v0 d h Hmu HX' HD ltac:(lra) HV). rewrite B in BN. eapply Rle_trans; [exact BN|]. rewrite BE.
  assert (IU : 1 <= / u) by (rewrite <- Rinv_1 at 1; apply Rinv_le_contravar; lra).
  assert (IU5 : / u <= 100000) by (replace 100000 with (/ (1 / 100000)) by field; apply Rinv_le_contravar; lra).
  set (z := / u) in *. set (b := mu / a) in *.
  assert (T1 : 4 * mu * d / (length3 x0 * length3 x0) <= 16 / 1000000000000 * b * (z * z * z)).
  { apply Rle_trans with (4 * mu * d / ((a * u) * (a * u))).
    - unfold Rdiv. apply Rmult_le_compat_l.
      + apply Rmult_le_pos; [lra|]. assert (0 <= d) by (eapply Rle_trans; [apply sqrt_pos|exact HX']). auto.
      + apply Rinv_le_contravar; [apply Rmult_lt_0_compat; auto|]. apply Rmult_le_compat; lra.
    - apply Req_le. unfold d, b, z. field. lra. }
  assert (T2 : h * (2 * length3 v0 + h) <= 5 / 10000000000000 * b * (z * z * z)).
  { assert (Eh : h = 1 / 10000000000000 * k * (z * z)) by (unfold h, z; field; lra).
    assert (Z2 : 1 * 1 <= z * z) by (apply Rmult_le_compat; lra).
    assert (kz : 0 < k * z) by (apply Rmult_lt_0_compat; lra).
    assert (H0 : 0 <= h) by (rewrite Eh; apply Rmult_le_pos; lra).
    assert (Hh : h <= k * z).
    { rewrite Eh. replace (1 / 10000000000000 * k * (z * z)) with (1 / 10000000000000 * z * (k * z)) by ring.
      rewrite <- (Rmult_1_l (k * z)) at 2. apply Rmult_le_compat_r; lra. }
    apply Rle_trans with (h * (5 * (k * z))).
    - apply Rmult_le_compat_l; [auto|]. unfold Rdiv in V. fold z in V. lra.
    - rewrite Eh. apply Req_le. rewrite <- KK. field. }
  assert (Z3 : 0 <= b * (z * z * z)) by (apply Rmult_le_pos; [lra|apply Rmult_le_pos; [apply Rmult_le_pos|]; lra]).
  replace (2 / 100000000000 * b / (u * u * u)) with (2 / 100000000000 * (b * (z * z * z))) by (unfold z; field; lra).
  eapply Rle_trans; [apply Rplus_le_compat; [exact T1|exact T2]|]. lra.
Qed.

(** ** Hyperbolas *)
Lemma hyperbola_state : forall mu q e i N w F, 0 < mu -> 0 < q -> 1 < e ->
  let pos := hyperbola_position q e i N w F in let vel := hyperbola_velocity mu q e i N w F in let a := q / (e - 1) in
  length3 pos = a * (e * cosh F - 1) /\ binding mu pos vel = binding_of_elements mu q e
  /\ length3 vel * length3 vel = mu / a * ((e * cosh F + 1) / (e * cosh F - 1)).
Proof.
  intros mu q e i N w F Hmu Hq He pos vel a. unfold pos, vel, hyperbola_position, hyperbola_velocity. cbv zeta. fold a.
  assert (A : 0 < a) by (unfold a; apply Rdiv_lt_0_compat; lra). pose proof (cosh_low F) as CL. pose proof (cosh_square F) as CS.
  assert (D : 0 < e * cosh F - 1). { assert (e * 1 <= e * cosh F) by (apply Rmult_le_compat_l; lra). lra. }
  assert (E2 : 0 < e * e - 1). { assert (e * 1 <= e * e) by (apply Rmult_le_compat_l; lra). lra. }
  set (g := sqrt (e * e - 1)). assert (GG : g * g = e * e - 1) by (apply sqrt_sqrt; lra).
  set (c := sqrt (mu * a)). assert (CC : c * c = mu * a) by (apply sqrt_sqrt, Rlt_le, Rmult_lt_0_compat; auto).
  set (r := a * (e * cosh F - 1)). assert (R0 : 0 < r) by (apply Rmult_lt_0_compat; auto).
  assert (SS : sinh F * sinh F = cosh F * cosh F - 1) by lra.
  assert (L : length3 (perifocal i N w (a * (e - cosh F)) (a * g * sinh F)) = r).
  { rewrite length3_perifocal. transitivity (sqrt (r * r)); [|apply sqrt_square; lra]. f_equal.
    transitivity (a * a * ((e - cosh F) * (e - cosh F) + g * g * (sinh F * sinh F))); [ring|]. rewrite GG, SS. unfold r. ring. }
  set (v := perifocal i N w (- (c * sinh F / r)) (c * g * cosh F / r)).
  assert (VV : dot v v = mu / a * ((e * cosh F + 1) / (e * cosh F - 1))).
  { unfold v. rewrite dot_perifocal.
    transitivity (c * c * (sinh F * sinh F + g * g * (cosh F * cosh F)) / (r * r)); [field; lra|]. rewrite CC, GG, SS. unfold r. field. lra. }
  split; [exact L|]. split.
  - unfold binding. rewrite L. fold (dot v v). rewrite VV. unfold binding_of_elements, r, a. field. repeat split; lra.
  - rewrite length3_sq. exact VV.
Qed.
Lemma C43_hyperbola_bound_proof : forall fuel mu q e i N w tp ep x v, 0 < mu -> 0 < q -> 1 + 1 / 100000 <= e ->
  universal_cartesian fuel mu q e i N w tp ep = Ok (Some (x, v)) ->
  exists s, solve (fun s => root_function s mu (2 * mu / q - mu * (1 + e) / q) q 0 (ep - tp)) (1 / 100000000000000) fuel (ep - tp) = Ok (Some s)
    /\ (sqrt (mu * (e - 1) / q) * Rabs s <= 100 ->
        Rabs (binding mu x v - binding_of_elements mu q e)
        <= 5 / 100000000000 * Rabs (binding_of_elements mu q e) * (e / (e - 1)) * (e / (e - 1)) * (e / (e - 1))).
Proof.
  intros fuel mu q e i N w tp ep x v Hmu Hq He H.
  destruct (C96_kepler_proof fuel mu q e i N w tp ep x v Hmu Hq ltac:(lra) H) as (s & H2 & H3).
  exists s. split; [exact H2|]. intro HS. destruct (H3 HS) as (F & HF & _ & HX & HV). clear H3 H2 HS H.
  destruct (hyperbola_state mu q e i N w F Hmu Hq ltac:(lra)) as (L & B & VV).
  set (u := e - 1) in *. assert (U1 : 1 / 100000 <= u) by (unfold u; lra).
  assert (Ha : 0 < q / u) by (apply Rdiv_lt_0_compat; lra). set (a := q / u) in *.
  assert (BE : binding_of_elements mu q e = - (mu / a)) by (unfold binding_of_elements, a, u; field; unfold u in U1; lra).
  assert (M0 : 0 < mu / a) by (apply Rdiv_lt_0_compat; auto).
  set (x0 := hyperbola_position q e i N w F) in *. set (v0 := hyperbola_velocity mu q e i N w F) in *.
  set (z := e / u). assert (Z1 : 1 <= z). { unfold z. apply Rmult_le_reg_r with u; [lra|]. replace (e / u * u) with e by (field; lra). unfold u. lra. }
  assert (Z2 : z <= 200000).
  { unfold z. apply Rmult_le_reg_r with u; [lra|]. replace (e / u * u) with e by (field; lra). replace e with (1 + u) by (unfold u; ring). lra. }
  assert (S2 : sqrt ((e + 1) / u) <= 2 * z).
  { assert (O : 1 <= (e + 1) / u). { apply Rmult_le_reg_r with u; [lra|]. replace ((e + 1) / u * u) with (e + 1) by (field; lra). unfold u. lra. }
    eapply Rle_trans; [apply sqrt_below; exact O|]. unfold z, Rdiv. rewrite <- Rmult_assoc. apply Rmult_le_compat_r; [apply Rlt_le, Rinv_0_lt_compat; lra|unfold u in U1; lra]. }
  assert (CL := cosh_low F). set (c := e * cosh F) in *. assert (C1 : e * 1 <= c) by (apply Rmult_le_compat_l; lra).
  assert (CU : u <= c - 1) by (unfold u; lra).
  assert (CZ : c <= z * (c - 1)).
  { unfold z. apply Rmult_le_reg_r with u; [lra|]. replace (e / u * (c - 1) * u) with (e * (c - 1)) by (field; lra). unfold u. lra. }
  assert (F0 := Rabs_pos F).
  assert (R0 : 0 < a * (c - 1)) by (apply Rmult_lt_0_compat; lra). rewrite <- L in R0.
  set (d := 6 / 100000000000000 * 101 * (2 * z) * z * (a * (c - 1))).
  assert (HX' : apart x x0 <= d).
  { eapply Rle_trans; [exact HX|]. replace d with (6 / 100000000000000 * 101 * (a * (2 * z) * (z * (c - 1)))) by (unfold d; ring).
    apply Rmult_le_compat.
    - apply Rmult_le_pos; lra.
    - apply Rmult_le_pos; [apply Rmult_le_pos; [lra|apply sqrt_pos]|lra].
    - apply Rmult_le_compat_l; lra.
    - apply Rmult_le_compat; [apply Rmult_le_pos; [lra|apply sqrt_pos]|lra| |exact CZ]. apply Rmult_le_compat_l; lra. }
  assert (ZZ : z * z <= 100001 * 100001).
  { apply Rmult_le_compat; try lra; unfold z; apply Rmult_le_reg_r with u; try lra; replace (e / u * u) with e by (field; lra); replace e with (1 + u) by (unfold u; ring); lra. }
  assert (HD : 2 * d <= length3 x0).
  { rewrite L. replace (2 * d) with ((24 * 101 / 100000000000000 * (z * z)) * (a * (c - 1))) by (unfold d; field).
    rewrite <- (Rmult_1_l (a * (c - 1))) at 2. apply Rmult_le_compat_r; lra. }
  set (n := 6 / 1000000000000000000 * (1 + F * F)) in *.
  assert (FF : F * F <= 100 * 100).
  { replace (F * F) with (Rabs F * Rabs F) by (rewrite <- Rabs_mult; apply Rabs_right; nra). apply Rmult_le_compat; lra. }
  assert (N0 : 0 <= n) by (unfold n; nra). assert (N1 : n <= 1 / 10000000000000) by (unfold n; lra).
  assert (BN := binding_near mu x v x0 v0 d _ Hmu HX' HD R0 HV). rewrite B in BN. eapply Rle_trans; [exact BN|]. rewrite BE, Rabs_Ropp, (Rabs_right (mu / a)) by lra.
  set (b := mu / a) in *.
  assert (I : / (c - 1) <= z).
  { apply Rle_trans with (/ u); [apply Rinv_le_contravar; lra|]. unfold z, Rdiv. rewrite <- (Rmult_1_l (/ u)) at 1. apply Rmult_le_compat_r; [apply Rlt_le, Rinv_0_lt_compat; lra|unfold u in U1; lra]. }
  assert (BZ : 0 <= b * z * z) by (apply Rmult_le_pos; [apply Rmult_le_pos|]; lra).
  assert (T1 : 4 * mu * d / (length3 x0 * length3 x0) <= 4848 / 100000000000000 * (b * z * z * z)).
  { rewrite L. replace (4 * mu * d / (a * (c - 1) * (a * (c - 1)))) with (4848 / 100000000000000 * (b * z * z * / (c - 1))) by (unfold d, b; field; lra).
    apply Rmult_le_compat_l; [lra|]. apply Rmult_le_compat_l; auto. }
  assert (T2 : n * length3 v0 * (2 * length3 v0 + n * length3 v0) <= 1 / 1000000000000 * (b * z * z * z)).
  { replace (n * length3 v0 * (2 * length3 v0 + n * length3 v0)) with (n * (2 + n) * (length3 v0 * length3 v0)) by ring. rewrite VV.
    assert (Q : (c + 1) / (c - 1) <= 2 * z).
    { apply Rmult_le_reg_r with (c - 1); [lra|]. replace ((c + 1) / (c - 1) * (c - 1)) with (c + 1) by (field; lra). lra. }
    assert (Q0 : 0 <= (c + 1) / (c - 1)) by (apply Rlt_le, Rdiv_lt_0_compat; lra).
    assert (NN : n * (2 + n) <= 1 / 10000000000000 * 3) by (apply Rmult_le_compat; lra).
    assert (ZZ1 : 1 * 1 <= z * z) by (apply Rmult_le_compat; lra).
    apply Rle_trans with (3 / 10000000000000 * (b * (2 * z))).
    - apply Rmult_le_compat; [apply Rmult_le_pos; lra|apply Rmult_le_pos; lra|lra|]. apply Rmult_le_compat_l; lra.
    - replace (b * z * z * z) with (z * z * (b * z)) by ring. assert (BZ1 : 0 <= b * z) by (apply Rmult_le_pos; lra).
      assert (1 * 1 * (b * z) <= z * z * (b * z)) by (apply Rmult_le_compat_r; lra). lra. }
  assert (Z3 : 0 <= b * z * z * z) by (apply Rmult_le_pos; lra).
  eapply Rle_trans; [apply Rplus_le_compat; [exact T1|exact T2]|]. lra.
Qed.

(** ** Parabolas *)
Lemma C43_parabola_bound_proof : forall fuel mu q i N w tp ep x v, 0 < mu -> 0 < q ->
  sqrt (mu / (2 * (q * q * q))) * Rabs (ep - tp) <= 1000000000000000000000000000000 ->
  universal_cartesian fuel mu q 1 i N w tp ep = Ok (Some (x, v)) ->
  Rabs (binding mu x v) <= 2 / 10000000000000 * (mu / q).
Proof.
  intros fuel mu q i N w tp ep x v Hmu Hq HT H.
  destruct (C96_parabola_proof fuel mu q i N w tp ep x v Hmu Hq H) as (nu & Hnu & H1 & HX & HV). clear H.
  assert (C0 : 0 < cos (nu / 2)) by (apply cos_gt_0; lra).
  assert (CN : 1 + 1 * cos nu = 2 * (cos (nu / 2) * cos (nu / 2))).
  { replace nu with (2 * (nu / 2)) at 1 by field. rewrite cos_2a_cos. ring. }
  assert (CC : 0 < cos (nu / 2) * cos (nu / 2)) by (apply Rmult_lt_0_compat; auto).
  destruct (conic_state mu q 1 i N w nu Hmu Hq ltac:(lra) ltac:(lra)) as (L & _ & _ & B).
  assert (EL : q * (1 + 1) / (1 + 1 * cos nu) = q * (1 + tan (nu / 2) * tan (nu / 2))).
  { rewrite CN. assert (S := sin2_cos2 (nu / 2)). unfold Rsqr in S. unfold tan.
    transitivity (q * ((sin (nu / 2) * sin (nu / 2) + cos (nu / 2) * cos (nu / 2)) / (cos (nu / 2) * cos (nu / 2)))); [rewrite S|]; field; lra. }
  rewrite EL in L. clear EL CN CC C0. set (t := tan (nu / 2)) in *. clearbody t.
  set (x0 := conic_position q 1 i N w nu) in *. subst v. set (v0 := conic_velocity mu q 1 i N w nu) in *.
  set (M := sqrt (mu / (2 * (q * q * q))) * (ep - tp)) in *.
  assert (HM : Rabs M <= 1000000000000000000000000000000).
  { unfold M. rewrite Rabs_mult, (Rabs_right (sqrt _)); [exact HT|apply Rle_ge, sqrt_pos]. }
  assert (T0 := Rabs_pos t). assert (TT : t * t = Rabs t * Rabs t) by (symmetry; rewrite <- Rabs_mult; apply Rabs_right; nra).
  assert (HTb : Rabs t <= 20000000000).
  { destruct (Rle_lt_dec (Rabs t) 20000000000) as [|G]; [auto|exfalso].
    assert (X : Rabs (t + t * t * t / 3) <= 5 / 100000000000000 * Rabs t * (1 + t * t) + 1000000000000000000000000000000).
    { replace (t + t * t * t / 3) with (t + t * t * t / 3 - M + M) by ring. eapply Rle_trans; [apply Rabs_triang|]. lra. }
    replace (t + t * t * t / 3) with (t * (1 + t * t / 3)) in X by field. rewrite Rabs_mult, (Rabs_right (1 + t * t / 3)) in X by nra.
    rewrite TT in X. set (a := Rabs t) in *. clearbody a. clear - X G.
    assert (A2 : 20000000000 * 20000000000 <= a * a) by (apply Rmult_le_compat; lra).
    assert (A3 : 20000000000 * (20000000000 * 20000000000) <= a * (a * a)) by (apply Rmult_le_compat; lra).
    lra. }
  assert (P1 : 0 < 1 + t * t) by (rewrite TT; nra).
  assert (R0 : 0 < length3 x0) by (rewrite L; apply Rmult_lt_0_compat; lra).
  set (d := 1 / 10000000000000 * q * Rabs t * (1 + t * t)) in *.
  assert (HD : 2 * d <= length3 x0).
  { rewrite L. replace (2 * d) with (2 / 10000000000000 * Rabs t * (q * (1 + t * t))) by (unfold d; field).
    rewrite <- (Rmult_1_l (q * (1 + t * t))) at 2. apply Rmult_le_compat_r; [apply Rmult_le_pos; lra|lra]. }
  assert (V0 : apart v0 v0 <= 0).
  { unfold apart. apply Req_le. rewrite <- sqrt_0. f_equal. ring. }
  assert (BN := binding_near mu x v0 x0 v0 d 0 Hmu HX HD R0 V0). rewrite B in BN.
  replace (binding_of_elements mu q 1) with 0 in BN by (unfold binding_of_elements; field; lra). rewrite Rminus_0_r in BN.
  eapply Rle_trans; [exact BN|]. rewrite L.
  replace (4 * mu * d / (q * (1 + t * t) * (q * (1 + t * t))) + 0 * (2 * length3 v0 + 0)) with (2 / 10000000000000 * (mu / q) * (2 * Rabs t / (1 + t * t))) by (unfold d; field; lra).
  assert (0 < mu / q) by (apply Rdiv_lt_0_compat; auto).
  rewrite <- (Rmult_1_r (2 / 10000000000000 * (mu / q))) at 2. apply Rmult_le_compat_l; [lra|].
  apply Rmult_le_reg_r with (1 + t * t); [auto|]. replace (2 * Rabs t / (1 + t * t) * (1 + t * t)) with (2 * Rabs t) by (field; lra).
  rewrite TT. assert (S := Rle_0_sqr (Rabs t - 1)). unfold Rsqr in S. lra.
Qed.
