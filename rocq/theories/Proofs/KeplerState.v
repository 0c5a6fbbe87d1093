From Coq Require Import Reals ZArith List Bool Lia Lra Psatz.
From Verif Require Import Base.Prelude Model.Sphere Model.Kepler Spec.Sphere Spec.Kepler Proofs.Kepler Proofs.Halley Proofs.Sphere.
Import ListNotations.
Open Scope R_scope.

(** ** Rotations *)

Lemma sin2_cos2' a : cos a * cos a = 1 - sin a * sin a.
Proof. pose proof (sin2_cos2 a). unfold Rsqr in H. lra. Qed.

Ltac trig := repeat match goal with |- context[cos ?a] => 
  let c := fresh "c" in let s := fresh "s" in let H := fresh "H" in
  pose proof (sin2_cos2' a) as H; set (c := cos a) in *; set (s := sin a) in *; clearbody c s end.

Lemma about_z_dot w a b : dot (mat_vec (about_z w) a) (mat_vec (about_z w) b) = dot a b.
Proof.
  unfold dot, mat_vec, about_z; simpl. pose proof (sin2_cos2' w) as H.
  set (c := cos w) in *; set (s := sin w) in *; clearbody c s.
  transitivity ((c * c + s * s) * (vx a * vx b + vy a * vy b) + vz a * vz b); [unfold dot; simpl; ring|rewrite H; ring].
Qed.
Lemma about_x_dot w a b : dot (mat_vec (about_x w) a) (mat_vec (about_x w) b) = dot a b.
Proof.
  unfold dot, mat_vec, about_x; simpl. pose proof (sin2_cos2' w) as H.
  set (c := cos w) in *; set (s := sin w) in *; clearbody c s.
  transitivity ((c * c + s * s) * (vy a * vy b + vz a * vz b) + vx a * vx b); [unfold dot; simpl; ring|rewrite H; ring].
Qed.
Lemma orient_dot i N w a b : dot (orient i N w a) (orient i N w b) = dot a b.
Proof. unfold orient. rewrite about_z_dot, about_x_dot, about_z_dot. reflexivity. Qed.

Lemma about_z_cross w a b : cross (mat_vec (about_z w) a) (mat_vec (about_z w) b) = mat_vec (about_z w) (cross a b).
Proof.
  unfold cross, mat_vec, about_z, dot; simpl. pose proof (sin2_cos2' w) as H.
  set (c := cos w) in *; set (s := sin w) in *; clearbody c s. f_equal; try ring.
  transitivity ((c * c + s * s) * (vx a * vy b - vy a * vx b)); [ring|rewrite H; ring].
Qed.
Lemma about_x_cross w a b : cross (mat_vec (about_x w) a) (mat_vec (about_x w) b) = mat_vec (about_x w) (cross a b).
Proof.
  unfold cross, mat_vec, about_x, dot; simpl. pose proof (sin2_cos2' w) as H.
  set (c := cos w) in *; set (s := sin w) in *; clearbody c s. f_equal; try ring.
  transitivity ((c * c + s * s) * (vy a * vz b - vz a * vy b)); [ring|rewrite H; ring].
Qed.
Lemma orient_cross i N w a b : cross (orient i N w a) (orient i N w b) = orient i N w (cross a b).
Proof. unfold orient. rewrite about_z_cross, about_x_cross, about_z_cross. reflexivity. Qed.
Lemma orient_pole i N w k : orient i N w (V3 0 0 k) = scale k (orbit_normal i N).
Proof. unfold orient, orbit_normal, mat_vec, about_z, about_x, dot, scale; simpl. f_equal; ring. Qed.

Lemma length3_orient i N w v : length3 (orient i N w v) = length3 v.
Proof. unfold length3. f_equal. apply (orient_dot i N w v v). Qed.
Lemma binding_orient mu i N w x v : binding mu (orient i N w x) (orient i N w v) = binding mu x v.
Proof. unfold binding. rewrite length3_orient. f_equal. apply (orient_dot i N w v v). Qed.

(** ** universal_cartesian *)

Definition binding_alpha (mu q e : R) : R := 2 * mu / q - mu * (1 + e) / q.

Lemma cartesian_ok fuel mu q e i N w tp ep x v :
  universal_cartesian fuel mu q e i N w tp ep = Ok (Some (x, v)) ->
  exists t s x0 v0, since_perihelion mu q e tp ep = Ok t
   /\ solve (fun s => root_function s mu (binding_alpha mu q e) q 0 t) (1 / 100000000000000) fuel t = Ok (Some s)
   /\ in_plane mu q (mu * (1 + e) / q) (binding_alpha mu q e) t s = Ok (x0, v0)
   /\ x = orient i N w x0 /\ v = orient i N w v0.
Proof.
  unfold universal_cartesian, rbind. intros H.
  destruct (since_perihelion mu q e tp ep) as [t|]; [|discriminate].
  destruct (rdiv (mu * (1 + e)) q) as [v2|] eqn:E1; [|discriminate].
  destruct (rdiv (2 * mu) q) as [k|] eqn:E2; [|discriminate].
  apply rdiv_ok in E1 as [_ ->]. apply rdiv_ok in E2 as [_ ->].
  change (2 * mu / q - mu * (1 + e) / q) with (binding_alpha mu q e) in H.
  destruct (solve _ _ fuel t) as [[s|]|] eqn:E3; try discriminate.
  destruct (in_plane _ _ _ _ t s) as [[x0 v0]|] eqn:E4; [|discriminate].
  assert (P : orient i N w x0 = x /\ orient i N w v0 = v) by (simpl in H; split; congruence).
  destruct P as [<- <-]. exists t, s, x0, v0. auto.
Qed.

Lemma C43_plane_proof : forall fuel mu q e i N w tp ep x v,
  universal_cartesian fuel mu q e i N w tp ep = Ok (Some (x, v)) ->
  orthogonal x (orbit_normal i N) /\ orthogonal v (orbit_normal i N).
Proof.
  intros fuel mu q e i N w tp ep x v H. apply cartesian_ok in H as (t & s & x0 & v0 & _ & _ & E & -> & ->).
  apply in_plane_ok in E as (_ & _ & E1 & E2).
  assert (P : orbit_normal i N = orient i N w (V3 0 0 1)).
  { rewrite orient_pole. unfold scale, orbit_normal; simpl. f_equal; ring. }
  rewrite P. split.
  - change (dot (orient i N w x0) (orient i N w (V3 0 0 1)) = 0). rewrite orient_dot, E1. unfold dot; simpl. ring.
  - change (dot (orient i N w v0) (orient i N w (V3 0 0 1)) = 0). rewrite orient_dot, E2. unfold dot; simpl. ring.
Qed.

Lemma C43_momentum_proof : forall fuel mu q e i N w tp ep x v, 0 < mu -> 0 < q -> 0 <= e ->
  universal_cartesian fuel mu q e i N w tp ep = Ok (Some (x, v)) ->
  exists t s d k,
    since_perihelion mu q e tp ep = Ok t
    /\ solve (fun s => root_function s mu (2 * mu / q - mu * (1 + e) / q) q 0 t) (1 / 100000000000000) fuel t = Ok (Some s)
    /\ d = stumpff ((2 * mu / q - mu * (1 + e) / q) * s * s)
    /\ Rabs k <= 1 / 100000000000000000000
    /\ let res := v_f (root_function s mu (2 * mu / q - mu * (1 + e) / q) q 0 t) in
       let r := q * c0 d + mu * (s * s) * c2 d in
       cross x v = scale (sqrt (mu * q * (1 + e)) * (1 + (mu * (s * s) * k - mu * s * c1 d * res / q) / r))
                         (orbit_normal i N).
Proof.
  intros fuel mu q e i N w tp ep x v Hmu Hq He H.
  apply cartesian_ok in H as (t & s & x0 & v0 & E1 & E2 & E & -> & ->).
  unfold binding_alpha in *. set (al := 2 * mu / q - mu * (1 + e) / q) in *.
  exists t, s, (stumpff (al * s * s)), (kappa (stumpff (al * s * s))).
  split; [exact E1|]. split; [exact E2|]. split; [reflexivity|]. split; [apply kappa_stumpff|].
  cbv zeta. rewrite orient_cross.
  pose proof (C43_momentum_in_plane_proof mu q e t s x0 v0 Hmu Hq He E) as M. cbv zeta in M. fold al in M.
  rewrite M, orient_pole. f_equal. unfold momentum_of_elements. f_equal. f_equal. f_equal.
  unfold residual, root_function; simpl. field. lra.
Qed.

Lemma C43_energy_proof : forall fuel mu q e i N w tp ep x v t s, 0 < mu -> 0 < q -> 0 <= e ->
  universal_cartesian fuel mu q e i N w tp ep = Ok (Some (x, v)) ->
  since_perihelion mu q e tp ep = Ok t ->
  let al := 2 * mu / q - mu * (1 + e) / q in
  solve (fun s => root_function s mu al q 0 t) (1 / 100000000000000) fuel t = Ok (Some s) ->
  let d := stumpff (al * s * s) in
  v_f (root_function s mu al q 0 t) = 0 ->
  c1 d * c1 d = c2 d * (1 + c0 d) -> c0 d = 1 - al * s * s * c2 d -> 0 < q * c0 d + mu * (s * s) * c2 d ->
  length3 x = q * c0 d + mu * (s * s) * c2 d
  /\ binding mu x v = binding_of_elements mu q e
  /\ cross x v = scale (momentum_of_elements mu q e) (orbit_normal i N).
Proof.
  intros fuel mu q e i N w tp ep x v t s Hmu Hq He H Et al Es d Hf Hk Hd Hr.
  apply cartesian_ok in H as (t' & s' & x0 & v0 & E1 & E2 & E & -> & ->).
  rewrite E1 in Et. injection Et as ->. unfold binding_alpha in *. fold al in E2, E.
  rewrite E2 in Es. injection Es as ->.
  assert (HR : residual mu q t s d = 0).
  { revert Hf. unfold root_function; simpl. fold d. unfold residual. lra. }
  assert (HK : kappa d = 0) by (unfold kappa; lra).
  destruct (C43_energy_in_plane_proof mu q e t s x0 v0 Hmu Hq He E) as [L B]; auto.
  { unfold delta. fold al. fold d. lra. }
  split; [rewrite length3_orient; exact L|]. split; [rewrite binding_orient; exact B|].
  rewrite orient_cross. pose proof (C43_momentum_in_plane_proof mu q e t s x0 v0 Hmu Hq He E) as M.
  cbv zeta in M. fold al in M. fold d in M. rewrite HR, HK in M. rewrite M.
  replace (momentum_of_elements mu q e * _) with (momentum_of_elements mu q e).
  - apply orient_pole.
  - field. lra.
Qed.

(** On a parabola the identities hold exactly. *)
Lemma C43_parabola_proof : forall fuel mu q i N w tp ep x v, 0 < mu -> 0 < q ->
  universal_cartesian fuel mu q 1 i N w tp ep = Ok (Some (x, v)) ->
  exists s, solve (fun s => root_function s mu (2 * mu / q - mu * (1 + 1) / q) q 0 (ep - tp)) (1 / 100000000000000) fuel (ep - tp) = Ok (Some s)
  /\ (q * s + mu * s * s * s / 6 = ep - tp ->
      binding mu x v = 0 /\ cross x v = scale (sqrt (2 * mu * q)) (orbit_normal i N)
      /\ length3 x = q + mu * s * s / 2).
Proof.
  intros fuel mu q i N w tp ep x v Hmu Hq H.
  pose proof (cartesian_ok _ _ _ _ _ _ _ _ _ _ _ H) as (t & s & x0 & v0 & E1 & E2 & _ & _ & _).
  assert (Et : t = ep - tp).
  { unfold since_perihelion in E1. destruct (Rlt_dec 1 1); [lra|]. congruence. }
  subst t. exists s. unfold binding_alpha in E2. split; [exact E2|]. intros K.
  assert (A : 2 * mu / q - mu * (1 + 1) / q = 0) by (field; lra).
  assert (D : stumpff ((2 * mu / q - mu * (1 + 1) / q) * s * s) = F4 1 1 (1/2) (1/6)).
  { rewrite A. replace (0 * s * s) with 0 by ring. apply stumpff_0. }
  destruct (C43_energy_proof fuel mu q 1 i N w tp ep x v (ep - tp) s Hmu Hq ltac:(lra) H E1 E2) as (L & B & M).
  - rewrite A, root_parabolic. simpl. lra.
  - rewrite D. simpl. lra.
  - rewrite D, A. simpl. lra.
  - rewrite D. simpl. nra.
  - split; [|split].
    + rewrite B. unfold binding_of_elements. field. lra.
    + rewrite M. unfold momentum_of_elements. do 2 f_equal. ring.
    + rewrite L, D. simpl. field.
Qed.

(** ** universal_cometary *)

Lemma norm_length3 v : norm v = length3 v. Proof. reflexivity. Qed.

Lemma lagrange a b : dot (np_cross a b) (np_cross a b) = dot a a * dot b b - dot a b * dot a b.
Proof. unfold dot, np_cross; simpl. ring. Qed.

Lemma length3_sq v : length3 v * length3 v = dot v v.
Proof. unfold length3. apply sqrt_sqrt. unfold dot. nra. Qed.

Section Cometary.
Variables (mu : R) (pos vel : vec) (epoch : R).
Hypothesis Hmu : 0 < mu.
Hypothesis Hh : np_cross pos vel <> V3 0 0 0.

Let hs := dot (np_cross pos vel) (np_cross pos vel).

Lemma dot_pos v : v <> V3 0 0 0 -> 0 < dot v v.
Proof.
  intros H. destruct v as [a b c]. unfold dot; simpl.
  destruct (Req_dec a 0) as [->|]; [|nra]. destruct (Req_dec b 0) as [->|]; [|nra].
  destruct (Req_dec c 0) as [->|]; [contradiction|nra].
Qed.
Lemma hs_pos : 0 < hs. Proof. apply dot_pos; auto. Qed.
Lemma r_pos : 0 < length3 pos.
Proof.
  unfold length3. apply sqrt_lt_R0. fold (dot pos pos). apply dot_pos. intros E.
  apply Hh. rewrite E. unfold np_cross; simpl. f_equal; ring.
Qed.

Let r := length3 pos.
Let p := hs / mu.
Let ecc := sqrt ((p / r - 1) * (p / r - 1) + (dot pos vel / r * sqrt hs / mu) * (dot pos vel / r * sqrt hs / mu)).

Lemma ecc_sq : ecc * ecc = 1 - p * binding mu pos vel / mu.
Proof.
  unfold ecc. rewrite sqrt_sqrt by (apply Rplus_le_le_0_compat; apply Rle_0_sqr). pose proof hs_pos. pose proof r_pos as Hr. fold r in Hr.
  assert (S : sqrt hs * sqrt hs = hs) by (apply sqrt_sqrt; lra).
  assert (E : dot pos vel / r * sqrt hs / mu * (dot pos vel / r * sqrt hs / mu)
     = (dot pos vel * dot pos vel) * (sqrt hs * sqrt hs) / (r * r * mu * mu)) by (field; lra).
  rewrite E, S. clear E S. unfold binding. fold (dot vel vel). fold r.
  assert (L : dot pos vel * dot pos vel = r * r * dot vel vel - hs).
  { unfold hs, r. rewrite lagrange, length3_sq. ring. }
  rewrite L. unfold p. field. lra.
Qed.

Lemma cometary_fields : let k := universal_cometary mu pos vel epoch in
  k_q k = p / (1 + ecc)
  /\ (k_e k = ecc \/ k_e k = 1 /\ Rabs (ecc - 1) < 1 / 1000000000000000)
  /\ k_incl k = acos (vz (np_cross pos vel) / sqrt hs)
  /\ k_node k = guarded_arctan2 (vx (np_cross pos vel)) (- vy (np_cross pos vel)).
Proof.
  unfold universal_cometary. rewrite norm_length3. fold r. fold hs. fold p. fold ecc.
  unfold perihelion_time. destruct (Rlt_dec (Rabs (ecc - 1)) _) as [C|C]; cbn [k_q k_e k_incl k_node]; auto.
Qed.

Lemma ecc_nonneg : 0 <= ecc. Proof. apply sqrt_pos. Qed.
End Cometary.

Lemma C75_energy_momentum_proof : forall mu pos vel epoch, 0 < mu -> cross pos vel <> V3 0 0 0 ->
  let k := universal_cometary mu pos vel epoch in
  k_e k <> 1 ->
  0 < k_q k /\ 0 <= k_e k
  /\ binding mu pos vel = binding_of_elements mu (k_q k) (k_e k)
  /\ length3 (cross pos vel) = momentum_of_elements mu (k_q k) (k_e k).
Proof.
  intros mu pos vel epoch Hmu Hh k Hk. change (cross pos vel) with (np_cross pos vel) in *.
  pose proof (cometary_fields mu pos vel epoch) as CF. cbv zeta in CF. fold k in CF.
  destruct CF as (Eq & [Ee|[Ee _]] & _); [|contradiction].
  pose proof (ecc_nonneg mu pos vel) as P. pose proof (ecc_sq mu pos vel Hmu Hh) as S.
  pose proof (hs_pos pos vel Hh) as H0. rewrite <- Ee in *. rewrite Eq.
  unfold momentum_of_elements, length3. fold (dot (np_cross pos vel) (np_cross pos vel)).
  set (e := k_e k) in *. set (hs := dot (np_cross pos vel) (np_cross pos vel)) in *. set (b := binding mu pos vel) in *.
  clearbody e hs b.
  assert (0 < hs / mu) by (apply Rmult_lt_0_compat; auto; apply Rinv_0_lt_compat; auto).
  split; [apply Rmult_lt_0_compat; auto; apply Rinv_0_lt_compat; lra|]. split; [auto|]. split.
  - unfold binding_of_elements. replace (mu * (1 - e) / (hs / mu / (1 + e))) with (mu * mu * (1 - e * e) / hs) by (field; lra).
    rewrite S. field. lra.
  - f_equal. field. lra.
Qed.

(** Perihelion and eccentricity are determined by energy and momentum. *)
Lemma C75_recovers_proof : forall mu q e pos vel epoch, 0 < mu -> 0 < q -> 0 <= e ->
  binding mu pos vel = binding_of_elements mu q e ->
  length3 (cross pos vel) = momentum_of_elements mu q e ->
  let k := universal_cometary mu pos vel epoch in
  k_q k = q /\ (k_e k = e \/ k_e k = 1 /\ Rabs (e - 1) < 1 / 1000000000000000).
Proof.
  intros mu q e pos vel epoch Hmu Hq He HB HM k. change (cross pos vel) with (np_cross pos vel) in *.
  assert (Hs : dot (np_cross pos vel) (np_cross pos vel) = mu * q * (1 + e)).
  { rewrite <- length3_sq, HM. unfold momentum_of_elements. apply sqrt_sqrt. apply Rmult_le_pos; nra. }
  assert (Hh : np_cross pos vel <> V3 0 0 0).
  { intros E. rewrite E in Hs. unfold dot in Hs; simpl in Hs. assert (0 < mu * q * (1 + e)) by (apply Rmult_lt_0_compat; nra). lra. }
  pose proof (cometary_fields mu pos vel epoch) as CF. cbv zeta in CF. fold k in CF.
  destruct CF as (Eq & Ee & _).
  pose proof (ecc_nonneg mu pos vel) as P. pose proof (ecc_sq mu pos vel Hmu Hh) as S.
  match type of P with 0 <= ?x => set (ec := x) in * end.
  rewrite HB in S. unfold binding_of_elements in S. rewrite Hs in *.
  replace (1 - mu * q * (1 + e) / mu * (mu * (1 - e) / q) / mu) with (e * e) in S by (field; lra).
  assert (E : ec = e) by (clearbody ec; nra).
  rewrite Eq, E. split; [field; lra|]. rewrite E in Ee. exact Ee.
Qed.

(** The direction of the angular momentum, where the node is well defined. *)
Lemma guarded_nonzero y x : y <> 0 -> x <> 0 -> guarded_arctan2 y x = arctan2 y x.
Proof. intros. unfold guarded_arctan2. destruct (Req_EM_T y 0); [contradiction|]. destruct (Req_EM_T x 0); [contradiction|]. reflexivity. Qed.

Lemma C75_normal_proof : forall mu pos vel epoch,
  vx (cross pos vel) <> 0 -> vy (cross pos vel) <> 0 ->
  let k := universal_cometary mu pos vel epoch in
  cross pos vel = scale (length3 (cross pos vel)) (orbit_normal (k_incl k) (k_node k)).
Proof.
  intros mu pos vel epoch Hx Hy k. change (cross pos vel) with (np_cross pos vel) in *.
  pose proof (cometary_fields mu pos vel epoch) as CF. cbv zeta in CF. fold k in CF.
  destruct CF as (_ & _ & Ei & En). rewrite guarded_nonzero in En by lra.
  rewrite Ei, En. unfold length3. fold (dot (np_cross pos vel) (np_cross pos vel)).
  destruct (np_cross pos vel) as [a b c]. clear Ei En k. unfold dot; simpl vx in *; simpl vy in *; simpl vz in *.
  assert (P1 : 0 < a * a + b * b) by nra. assert (P2 : 0 < a * a + b * b + c * c) by nra.
  set (h := sqrt (a * a + b * b + c * c)).
  assert (Hh : 0 < h) by (apply sqrt_lt_R0; auto).
  assert (Sh : h * h = a * a + b * b + c * c) by (apply sqrt_sqrt; lra).
  assert (Hc : -1 <= c / h <= 1).
  { split; apply Rmult_le_reg_r with h; auto; replace (c / h * h) with c by (field; lra); nra. }
  destruct (arctan2_spec (- b) a) as (C1 & C2 & _); [nra|].
  unfold scale, orbit_normal; simpl. rewrite C1, C2, cos_acos, sin_acos by auto.
  replace (- b * - b + a * a) with (a * a + b * b) by ring.
  assert (Es : sqrt (1 - (c / h)²) = sqrt (a * a + b * b) / h).
  { replace (1 - (c / h)²) with ((a * a + b * b) / (h * h)).
    - rewrite sqrt_div by nra. rewrite sqrt_square by lra. reflexivity.
    - unfold Rsqr. rewrite Sh. replace (c / h * (c / h)) with (c * c / (h * h)) by (field; lra). rewrite Sh. field. lra. }
  rewrite Es. set (w := sqrt (a * a + b * b)).
  assert (Hw : 0 < w) by (apply sqrt_lt_R0; auto).
  f_equal; field; lra.
Qed.

(** A state whose ascending node is at 90 degrees. *)
Lemma C75_node_refuted_proof : exists mu pos vel epoch, 0 < mu /\ cross pos vel <> V3 0 0 0 /\
  let k := universal_cometary mu pos vel epoch in
  cross pos vel <> scale (length3 (cross pos vel)) (orbit_normal (k_incl k) (k_node k)).
Proof.
  exists 1, (V3 0 1 0), (V3 (-1) 0 1), 0. split; [lra|].
  assert (C : cross (V3 0 1 0) (V3 (-1) 0 1) = V3 1 0 1) by (unfold cross; simpl; f_equal; ring).
  split; [rewrite C; intros E; injection E; lra|].
  intros k E. pose proof (cometary_fields 1 (V3 0 1 0) (V3 (-1) 0 1) 0) as CF. cbv zeta in CF. fold k in CF.
  destruct CF as (_ & _ & _ & En). change np_cross with cross in En. rewrite C in En.
  assert (Z : k_node k = 0).
  { rewrite En. unfold guarded_arctan2; simpl. destruct (Req_EM_T 1 0); [lra|].
    destruct (Req_EM_T (-0) 0) as [|N]; [reflexivity|exfalso; apply N; lra]. }
  rewrite C, Z in E. unfold scale, orbit_normal in E; simpl in E. rewrite sin_0 in E. injection E. intros _ _ E1. lra.
Qed.

(** At aphelion the elements say that the object is at perihelion. *)
Lemma C75_aphelion_refuted_proof : exists mu pos vel epoch, 0 < mu /\ cross pos vel <> V3 0 0 0 /\
  let k := universal_cometary mu pos vel epoch in
  k_tp k = epoch /\ length3 pos <> k_q k.
Proof.
  exists 1, (V3 1 0 0), (V3 0 (1/2) 0), 0. split; [lra|].
  assert (C : cross (V3 1 0 0) (V3 0 (1/2) 0) = V3 0 0 (1/2)) by (unfold cross; simpl; f_equal; ring).
  split; [rewrite C; intros E; injection E; lra|].
  intros k. assert (L : length3 (V3 1 0 0) = 1).
  { unfold length3; simpl. replace (1 * 1 + 0 * 0 + 0 * 0) with (1 * 1) by ring. apply sqrt_square; lra. }
  split.
  - unfold k, universal_cometary. change np_cross with cross. rewrite C. rewrite norm_length3, L.
    assert (D : dot (V3 1 0 0) (V3 0 (1/2) 0) = 0) by (unfold dot; simpl; ring). rewrite D.
    assert (Z : guarded_arctan2 (0 / 1 * sqrt (dot (V3 0 0 (1 / 2)) (V3 0 0 (1 / 2))) / 1)
                  (dot (V3 0 0 (1 / 2)) (V3 0 0 (1 / 2)) / 1 / 1 - 1) = 0).
    { unfold guarded_arctan2. destruct (Req_EM_T _ 0) as [|N]; [reflexivity|]. exfalso; apply N. field. }
    rewrite Z. unfold perihelion_time. cbn [k_tp].
    replace (0 / 2) with 0 by lra. replace (1/2 * 0) with 0 by lra. rewrite tan_0.
    destruct (Rlt_dec _ 1).
    + rewrite Rmult_0_r, atan_0, Rmult_0_r, sin_0, Rmult_0_r.
      unfold principal_value, rfloor. replace (0 - 0) with 0 by lra. destruct (Rlt_dec 0 0); [lra|].
      replace (0 / (2 * PI)) with 0 by (unfold Rdiv; ring).
      replace (Int_part 0) with 0%Z. { unfold Rdiv. ring. }
      unfold Int_part. rewrite <- (tech_up 0 1); [reflexivity|lra|lra].
    + exfalso. apply n. clear n.
      assert (E : sqrt ((dot (V3 0 0 (1 / 2)) (V3 0 0 (1 / 2)) / 1 / 1 - 1) * (dot (V3 0 0 (1 / 2)) (V3 0 0 (1 / 2)) / 1 / 1 - 1)
        + 0 / 1 * sqrt (dot (V3 0 0 (1 / 2)) (V3 0 0 (1 / 2))) / 1 * (0 / 1 * sqrt (dot (V3 0 0 (1 / 2)) (V3 0 0 (1 / 2))) / 1)) = 3/4).
      { rewrite <- (sqrt_square (3/4)) by lra. f_equal. unfold dot; simpl. field. }
      rewrite E. destruct (Rlt_dec _ _) as [A|A]; [|lra].
      rewrite Rabs_left in A by lra. lra.
  - rewrite L. assert (Hh : np_cross (V3 1 0 0) (V3 0 (1/2) 0) <> V3 0 0 0).
    { change np_cross with cross. rewrite C. intros E; injection E; lra. }
    pose proof (cometary_fields 1 (V3 1 0 0) (V3 0 (1/2) 0) 0) as CF. cbv zeta in CF. fold k in CF.
    destruct CF as (Eq & _). rewrite Eq. change np_cross with cross. rewrite C.
    match goal with |- _ <> _ / (1 + sqrt ?x) => pose proof (sqrt_pos x) as P; set (s := sqrt x) in *; clearbody s end.
    unfold dot; simpl. intros E.
    assert ((0 * 0 + 0 * 0 + 1 / 2 * (1 / 2)) / 1 = 1 + s); [|lra].
    apply Rmult_eq_reg_r with (/ (1 + s)); [|apply Rinv_neq_0_compat; lra]. rewrite Rinv_r by lra. symmetry. exact E.
Qed.
