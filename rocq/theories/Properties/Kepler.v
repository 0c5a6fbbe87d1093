From Coq Require Import Reals ZArith String List Bool Lia Lra.
From Verif Require Import Base.Prelude Model.Sphere Model.Kepler Model.OrbitParse Spec.Sphere Spec.Kepler Spec.OrbitParse
  Proofs.Sphere Proofs.Kepler Proofs.Halley Proofs.HalleyFindings Proofs.KeplerState Proofs.OrbitParse Proofs.Perihelion.
Import ListNotations.
Open Scope R_scope.

(** * C42: the root finder *)

Theorem C42_bounded_partial : forall F xacc x1 x2 maxit,
  (length (fst (halley_safe F xacc x1 x2 maxit)) <= 3 + maxit)%nat.
Proof. exact C42_bounded_proof. Qed.
Print Assumptions C42_bounded_partial.
Theorem C42_accuracy_partial : forall F m M B rho xacc x1 x2 maxit r d,
  0 < m -> m <= M -> 0 <= B -> 0 <= xacc ->
  (forall x y, x <= y -> m * (y - x) <= v_f (F y) - v_f (F x)) ->
  v_f (F rho) = 0 ->
  (forall x, In x (fst (halley_safe F xacc x1 x2 maxit)) ->
     0 < v_fp (F x) <= M /\ Rabs (v_fpp (F x)) <= B * v_fp (F x)) ->
  snd (halley_safe F xacc x1 x2 maxit) = Ok (true, Some r, d) ->
  B * (xacc * Rabs r) <= 1 ->
  Rabs (r - rho) <= (1 + 2 * M / m) * (xacc * Rabs r).
Proof. exact C42_accuracy_proof. Qed.
Print Assumptions C42_accuracy_partial.
Theorem C42_step_inside_partial : forall st dx r,
  h_xl st <= h_rts st <= h_xh st \/ h_xh st <= h_rts st <= h_xl st ->
  v_f (h_v st) * v_fpp (h_v st) <= 0 ->
  next_guess st = Ok (dx, r) ->
  between (h_xl st) (h_xh st) r.
Proof. exact C42_step_inside_proof. Qed.
Print Assumptions C42_step_inside_partial.
Theorem C42_outside_refuted :
  exists q t ds x1 x2, 0 < q /\ 0 < t /\ ds = t / 4 /\
    let F := fun s => root_function s gm_sun 0 q 0 t in
    bracket F 2 ds 0 (v_f (F 0)) (0 + ds) (v_f (F (0 + ds))) = Ok (x1, x2)
    /\ v_f (F x1) < 0 < v_f (F x2)
    /\ exists x, In x (fst (halley_safe F (1 / 100000000000000) x1 x2 100)) /\ ~ between x1 x2 x.
Proof. exact C42_outside_refuted_proof. Qed.
Print Assumptions C42_outside_refuted.
Theorem C42_root_refuted :
  exists (F : R -> value) x1 x2 root d,
    (forall x, derivable_pt_lim (fun y => v_f (F y)) x (v_fp (F x)) /\ derivable_pt_lim (fun y => v_fp (F y)) x (v_fpp (F x)))
    /\ v_f (F x1) < 0 < v_f (F x2)
    /\ snd (halley_safe F (1 / 100000000000000) x1 x2 100) = Ok (true, Some root, d) /\ ~ between x1 x2 root.
Proof. exact C42_root_refuted_proof. Qed.
Print Assumptions C42_root_refuted.

(** A straight line, on which the derivative bounds hold with m = M = 1 and
    B = 0: four evaluations and the exact root. *)
Example C42_case : forall n,
  halley_safe (fun x => FV (x - 1) 1 0) (1/100) 0 4 (S (S n)) = ([0; 4; 2; 1], Ok (true, Some 1, 1)).
Proof.
  intros n. unfold halley_safe. cbn [v_f v_fp v_fpp].
  repeat (destruct (Rlt_dec _ _) as [?H|?H]; try lra). cbn [orb].
  repeat (destruct (Req_EM_T _ _) as [?H|?H]; try lra).
  cbn [hloop]. unfold next_guess at 1, must_bisect. cbn [h_rts h_v h_xl h_xh h_dx h_dxold v_f v_fp v_fpp].
  destruct (Rlt_dec 0 (((1 / 2 * (0 + 4) - 4) * 1 - (1 / 2 * (0 + 4) - 1)) * _)); [lra|].
  assert (A4 : Rabs (4 - 0) = 4) by (rewrite Rabs_right; lra). rewrite A4.
  destruct (Rlt_dec (Rabs (4 * 1)) _) as [H4|H4].
  { rewrite !Rabs_right in H4; lra. }
  cbn [orb]. rewrite rdiv_value by lra. cbn [rbind]. rewrite rdiv_value by lra. cbn [rbind].
  replace (2 * (1 / 2 * (0 + 4) - 1) * 1 / (2 * 1 * 1 - (1 / 2 * (0 + 4) - 1) * 0)) with 1 by field.
  replace (1 / 2 * (0 + 4) - 1) with 1 by field.
  unfold small_step at 1. rewrite rdiv_value by lra. cbn [rbind]. replace (1 / 1) with 1 by field.
  destruct (Rlt_dec (Rabs 1) (1/100)) as [H5|H5]; [rewrite Rabs_R1 in H5; lra|].
  destruct (Rlt_dec (1 - 1) 0); [lra|]. cbn [h_rts h_v h_xl h_xh h_dx h_dxold v_f v_fp v_fpp].
  unfold next_guess at 1, must_bisect. cbn [h_rts h_v h_xl h_xh h_dx h_dxold v_f v_fp v_fpp].
  destruct (Rlt_dec 0 (((1 - 1) * 1 - (1 - 1)) * _)) as [H6|H6]; [lra|].
  destruct (Rlt_dec (Rabs (4 * 1)) (Rabs (2 * (1 - 1)))) as [H7|H7].
  { rewrite !Rabs_right in H7; lra. }
  cbn [orb]. rewrite rdiv_value by lra. cbn [rbind]. rewrite rdiv_value by lra. cbn [rbind].
  replace (2 * (1 - 1) * 1 / (2 * 1 * 1 - (1 - 1) * 0)) with 0 by field.
  replace (1 - 0) with 1 by ring.
  unfold small_step at 1. rewrite rdiv_value by lra. cbn [rbind]. replace (0 / 1) with 0 by field.
  destruct (Rlt_dec (Rabs 0) (1/100)) as [H8|H8]; [|rewrite Rabs_R0 in H8; lra].
  do 4 f_equal. f_equal. lra.
Qed.

(** * C43: energy, angular momentum and orbit plane of the states *)

Theorem C43_plane_partial : forall fuel mu q e i N w tp ep x v,
  universal_cartesian fuel mu q e i N w tp ep = Ok (Some (x, v)) ->
  orthogonal x (orbit_normal i N) /\ orthogonal v (orbit_normal i N).
Proof. exact C43_plane_proof. Qed.
Print Assumptions C43_plane_partial.
Theorem C43_momentum_partial : forall fuel mu q e i N w tp ep x v, 0 < mu -> 0 < q -> 0 <= e ->
  universal_cartesian fuel mu q e i N w tp ep = Ok (Some (x, v)) ->
  exists t s d k,
    since_perihelion mu q e tp ep = Ok t
    /\ solve (fun s => root_function s mu (2 * mu / q - mu * (1 + e) / q) q 0 t) (1 / 100000000000000) fuel t = Ok (Some s)
    /\ d = stumpff ((2 * mu / q - mu * (1 + e) / q) * s * s)
    /\ Rabs k <= 1 / 100000000000000000000
    /\ let res := v_f (root_function s mu (2 * mu / q - mu * (1 + e) / q) q 0 t) in
       let r := q * c0 d + mu * (s * s) * c2 d in
       cross x v = scale (sqrt (mu * q * (1 + e)) * (1 + (mu * (s * s) * k - mu * s * c1 d * res / q) / r))
                         (orbit_normal i N).
Proof. exact C43_momentum_proof. Qed.
Print Assumptions C43_momentum_partial.
Theorem C43_energy_partial : forall fuel mu q e i N w tp ep x v t s, 0 < mu -> 0 < q -> 0 <= e ->
  universal_cartesian fuel mu q e i N w tp ep = Ok (Some (x, v)) ->
  since_perihelion mu q e tp ep = Ok t ->
  let al := 2 * mu / q - mu * (1 + e) / q in
  solve (fun s => root_function s mu al q 0 t) (1 / 100000000000000) fuel t = Ok (Some s) ->
  let d := stumpff (al * s * s) in
  v_f (root_function s mu al q 0 t) = 0 ->
  c1 d * c1 d = c2 d * (1 + c0 d) -> c0 d = 1 - al * s * s * c2 d -> 0 < q * c0 d + mu * (s * s) * c2 d ->
  length3 x = q * c0 d + mu * (s * s) * c2 d
  /\ binding mu x v = binding_of_elements mu q e
  /\ cross x v = scale (momentum_of_elements mu q e) (orbit_normal i N).
Proof. exact C43_energy_proof. Qed.
Print Assumptions C43_energy_partial.
Theorem C43_parabola_partial : forall fuel mu q i N w tp ep x v, 0 < mu -> 0 < q ->
  universal_cartesian fuel mu q 1 i N w tp ep = Ok (Some (x, v)) ->
  exists s, solve (fun s => root_function s mu (2 * mu / q - mu * (1 + 1) / q) q 0 (ep - tp)) (1 / 100000000000000) fuel (ep - tp) = Ok (Some s)
  /\ (q * s + mu * s * s * s / 6 = ep - tp ->
      binding mu x v = 0 /\ cross x v = scale (sqrt (2 * mu * q)) (orbit_normal i N)
      /\ length3 x = q + mu * s * s / 2).
Proof. exact C43_parabola_proof. Qed.
Print Assumptions C43_parabola_partial.

(** Twelve time units after perihelion on a parabola with q = 1 and mu = 2. *)
Example C43_case :
  universal_cartesian 1 2 1 1 0 0 0 0 12 = Ok (Some (V3 (-8) 6 0, V3 (-3/5) (1/5) 0))
  /\ 1 * 3 + 2 * 3 * 3 * 3 / 6 = 12 - 0.
Proof.
  split; [|lra].
  unfold universal_cartesian, since_perihelion. destruct (Rlt_dec 1 1); [lra|]. cbn [rbind].
  rewrite !rdiv_value by lra. cbn [rbind].
  replace (2 * 2 / 1 - 2 * (1 + 1) / 1) with 0 by field. replace (12 - 0) with 12 by ring.
  unfold solve. set (it := 100%nat). clearbody it. replace (0 + (12 - 0) / 4) with 3 by field. cbn [bracket]. rewrite !root_parabolic. cbn [v_f v_fp v_fpp].
  match goal with |- context[Rlt_dec 0 ?x] => destruct (Rlt_dec 0 x) as [H1|H1]; [exfalso; lra|] end.
  cbn [rbind fst snd]. unfold halley_safe. rewrite !root_parabolic. cbn [v_f v_fp v_fpp].
  repeat (match goal with |- context[Rlt_dec ?a ?b] => destruct (Rlt_dec a b) as [?H|?H]; try lra end). cbn [orb].
  repeat (match goal with |- context[Req_EM_T ?a ?b] => destruct (Req_EM_T a b) as [?H|?H]; try lra end).
  cbn [rbind snd retry]. unfold in_plane. replace (0 * 3 * 3) with 0 by ring. rewrite stumpff_0. cbn [c0 c1 c2 c3].
  rewrite !rdiv_value by lra. cbn [rbind fst snd].
  assert (S : sqrt (2 * (1 + 1) / 1) = 2).
  { replace (2 * (1 + 1) / 1) with (2 * 2) by field. apply sqrt_square; lra. }
  rewrite S. unfold orient, mat_vec, about_z, about_x, vadd, scale, dot. cbn [row1 row2 row3 vx vy vz].
  rewrite cos_0, sin_0. do 3 f_equal; f_equal; field.
Qed.

(** * C75: elements computed from a state *)

Theorem C75_energy_momentum_partial : forall mu pos vel epoch, 0 < mu -> cross pos vel <> V3 0 0 0 ->
  let k := universal_cometary mu pos vel epoch in
  k_e k <> 1 ->
  0 < k_q k /\ 0 <= k_e k
  /\ binding mu pos vel = binding_of_elements mu (k_q k) (k_e k)
  /\ length3 (cross pos vel) = momentum_of_elements mu (k_q k) (k_e k).
Proof. exact C75_energy_momentum_proof. Qed.
Print Assumptions C75_energy_momentum_partial.
Theorem C75_recovers_partial : forall mu q e pos vel epoch, 0 < mu -> 0 < q -> 0 <= e ->
  binding mu pos vel = binding_of_elements mu q e ->
  length3 (cross pos vel) = momentum_of_elements mu q e ->
  let k := universal_cometary mu pos vel epoch in
  k_q k = q /\ (k_e k = e \/ k_e k = 1 /\ Rabs (e - 1) < 1 / 1000000000000000).
Proof. exact C75_recovers_proof. Qed.
Print Assumptions C75_recovers_partial.
Theorem C75_normal_partial : forall mu pos vel epoch,
  vx (cross pos vel) <> 0 -> vy (cross pos vel) <> 0 ->
  let k := universal_cometary mu pos vel epoch in
  cross pos vel = scale (length3 (cross pos vel)) (orbit_normal (k_incl k) (k_node k)).
Proof. exact C75_normal_proof. Qed.
Print Assumptions C75_normal_partial.
Theorem C75_node_refuted : exists mu pos vel epoch, 0 < mu /\ cross pos vel <> V3 0 0 0 /\
  let k := universal_cometary mu pos vel epoch in
  cross pos vel <> scale (length3 (cross pos vel)) (orbit_normal (k_incl k) (k_node k)).
Proof. exact C75_node_refuted_proof. Qed.
Print Assumptions C75_node_refuted.
Theorem C75_aphelion_refuted : exists mu pos vel epoch, 0 < mu /\ cross pos vel <> V3 0 0 0 /\
  let k := universal_cometary mu pos vel epoch in
  k_tp k = epoch /\ length3 pos <> k_q k.
Proof. exact C75_aphelion_refuted_proof. Qed.
Print Assumptions C75_aphelion_refuted.

(** The state of [C43_case], with an orbit plane in general position. *)
Example C75_case :
  (let x := V3 (-8) 6 0 in let v := V3 (-3/5) (1/5) 0 in
   binding 2 x v = binding_of_elements 2 1 1 /\ length3 (cross x v) = momentum_of_elements 2 1 1)
  /\ vx (cross (V3 1 1 0) (V3 0 1 1)) <> 0 /\ vy (cross (V3 1 1 0) (V3 0 1 1)) <> 0.
Proof.
  cbv zeta. unfold binding, binding_of_elements, momentum_of_elements, cross. cbn [vx vy vz]. split; [split|split; lra].
  - unfold length3; cbn [vx vy vz]. replace (-8 * -8 + 6 * 6 + 0 * 0) with (10 * 10) by ring. rewrite sqrt_square by lra. lra.
  - unfold length3; cbn [vx vy vz]. f_equal. field.
Qed.

(** * C44: orbit formats *)

Theorem C44_unknown : forall fuel sun r epoch d gm_sun gm_total,
  ~ In (or_format r) ["KEP"; "BKEP"; "COM"; "BCOM"; "CART"; "BCART"]%string ->
  parse_orbit_row fuel sun r epoch d gm_sun gm_total = Err ValueError.
Proof. exact C44_unknown_proof. Qed.
Print Assumptions C44_unknown.
Theorem C44_columns : forall fuel sun r r' epoch d gm_sun gm_total,
  or_format r = or_format r' ->
  (forall c, In c (documented_columns (or_format r)) -> or_col r c = or_col r' c) ->
  parse_orbit_row fuel sun r epoch d gm_sun gm_total = parse_orbit_row fuel sun r' epoch d gm_sun gm_total.
Proof. exact C44_columns_proof. Qed.
Print Assumptions C44_columns.
Theorem C44_own_mass : forall fuel sun r epoch d g1 g2 g hf bf, paired hf bf ->
  parse_orbit_row fuel sun (with_format hf r) epoch d g1 g2 = parse_orbit_row fuel sun (with_format hf r) epoch d g1 g
  /\ parse_orbit_row fuel sun (with_format bf r) epoch d g1 g2 = parse_orbit_row fuel sun (with_format bf r) epoch d g g2.
Proof. exact C44_own_mass_proof. Qed.
Print Assumptions C44_own_mass.
Theorem C44_shift : forall fuel sun r epoch d gm hf bf,
  paired hf bf -> true_cache sun d ->
  rmap snd (parse_orbit_row fuel sun (with_format hf r) epoch d gm gm) =
  rmap (fun p => option_map (fun s => (vadd (fst s) (fst (sun epoch)), vadd (snd s) (snd (sun epoch)))) (snd p))
       (parse_orbit_row fuel sun (with_format bf r) epoch d gm gm).
Proof. exact C44_shift_proof. Qed.
Print Assumptions C44_shift.
Theorem C44_barycentric : forall fuel sun sun' r epoch d d' gm_sun gm_total hf bf, paired hf bf ->
  rmap snd (parse_orbit_row fuel sun (with_format bf r) epoch d gm_sun gm_total)
  = rmap snd (parse_orbit_row fuel sun' (with_format bf r) epoch d' gm_sun gm_total).
Proof. exact C44_barycentric_proof. Qed.
Print Assumptions C44_barycentric.
Theorem C44_kep_com : forall fuel sun kep com epoch d gm_sun gm_total,
  same_orbit gm_sun epoch kep com ->
  parse_orbit_row fuel sun (with_format "KEP" kep) epoch d gm_sun gm_total
  = parse_orbit_row fuel sun (with_format "COM" com) epoch d gm_sun gm_total.
Proof. exact C44_kep_com_proof. Qed.
Print Assumptions C44_kep_com.
Theorem C44_cartesian : forall fuel sun r epoch d gm_sun gm_total x y z x' y' z',
  or_format r = "BCART"%string ->
  or_col r "x" = Some x -> or_col r "y" = Some y -> or_col r "z" = Some z ->
  or_col r "xdot" = Some x' -> or_col r "ydot" = Some y' -> or_col r "zdot" = Some z' ->
  exists d' X V, parse_orbit_row fuel sun r epoch d gm_sun gm_total = Ok (d', Some (X, V))
   /\ equatorial_to_ecliptic X = V3 x y z /\ equatorial_to_ecliptic V = V3 x' y' z'
   /\ vx X = x /\ length3 X = length3 (V3 x y z) /\ length3 V = length3 (V3 x' y' z').
Proof. exact C44_cartesian_proof. Qed.
Print Assumptions C44_cartesian.
Theorem C44_cache : forall fuel sun r epoch d gm_sun gm_total d' st,
  true_cache sun d -> parse_orbit_row fuel sun r epoch d gm_sun gm_total = Ok (d', st) ->
  true_cache sun d' /\ rmap snd (parse_orbit_row fuel sun r epoch [] gm_sun gm_total) = Ok st.
Proof. exact C44_cache_proof. Qed.
Print Assumptions C44_cache.

(** One row with all columns, and a Sun that moves. *)
Example C44_case :
  let r f := {| or_format := f; or_col := fun c => if String.eqb c "x" then Some 5 else Some 0 |} in
  let sun t := (V3 t 1 0, V3 0 0 t) in
  parse_orbit_row 9 sun (r "CART"%string) 7 [] 1 1 = Ok ([(7, sun 7)], Some (V3 12 1 0, V3 0 0 7))
  /\ parse_orbit_row 9 sun (r "BCART"%string) 7 [(7, sun 7)] 1 1 = Ok ([(7, sun 7)], Some (V3 5 0 0, V3 0 0 0))
  /\ true_cache sun [(7, sun 7)].
Proof.
  cbv zeta.
  assert (R0 : forall x, ecliptic_to_equatorial (V3 x 0 0) = V3 x 0 0).
  { intros x. unfold ecliptic_to_equatorial, ECL_TO_EQ_ROTATION_MATRIX. rewrite rot_form. cbn. f_equal; ring. }
  split; [|split].
  - unfold parse_orbit_row. cbn -[ecliptic_to_equatorial]. rewrite !R0. unfold vadd; cbn. do 2 f_equal.
    f_equal. f_equal; f_equal; ring.
  - unfold parse_orbit_row, sun_at. cbn -[ecliptic_to_equatorial].
    destruct (Req_EM_T 7 7); [|lra]. rewrite !R0. reflexivity.
  - intros t s [E|[]]. injection E as <- <-. reflexivity.
Qed.
Example C44_same_orbit_case :
  let col (x : R) := fun c => if String.eqb c "a" then Some 2 else if String.eqb c "e" then Some (1/2)
      else if String.eqb c "q" then Some 1 else if String.eqb c "t_p_MJD_TDB" then Some x else Some 0 in
  same_orbit 1 60000 {| or_format := "KEP"; or_col := col 0 |} {| or_format := "COM"; or_col := col (60000 - 24000005/10) |}.
Proof.
  cbv zeta. exists 2, (1/2), 0, 0, 0, 0. cbn. repeat split; f_equal; lra.
Qed.

(** * C76: the perihelion distance used for culling *)

Theorem C76_state_partial : forall fuel sun r epoch d gm_sun gm_total d' X V q e,
  true_cache sun d -> In (or_format r) ["CART"; "BCART"; "BKEP"; "BCOM"]%string ->
  parse_orbit_row fuel sun r epoch d gm_sun gm_total = Ok (d', Some (X, V)) ->
  0 < gm_sun -> 0 < q -> 0 <= e ->
  (let x := vadd X (scale (-1) (fst (sun epoch))) in let v := vadd V (scale (-1) (snd (sun epoch))) in
   binding gm_sun x v = binding_of_elements gm_sun q e /\ length3 (cross x v) = momentum_of_elements gm_sun q e) ->
  exists p, get_perihelion_row fuel (sun epoch) r epoch gm_sun gm_total = Ok (Some p) /\ p_q p = q
   /\ (p_e p = e \/ p_e p = 1 /\ Rabs (e - 1) < 1 / 1000000000000000).
Proof. exact C76_state_proof. Qed.
Print Assumptions C76_state_partial.
Theorem C76_elements_partial : forall fuel sun r epoch gm_sun gm_total p,
  get_perihelion_row fuel sun r epoch gm_sun gm_total = Ok (Some p) ->
  (or_format r = "COM"%string -> or_col r "q" = Some (p_q p) /\ or_col r "e" = Some (p_e p))
  /\ (or_format r = "KEP"%string -> exists a, or_col r "a" = Some a /\ or_col r "e" = Some (p_e p) /\ p_q p = a * (1 - p_e p)).
Proof. exact C76_elements_proof. Qed.
Print Assumptions C76_elements_partial.
Theorem C76_barycentric_refuted : exists sx r gm X V,
  or_format r = "BCART"%string /\ gm = 29591220828559115 / 100000000000000000000
  /\ (forall fuel sun epoch gt, sun epoch = (sx, V3 0 0 0) ->
        rmap snd (parse_orbit_row fuel sun r epoch [] gm gt) = Ok (Some (X, V)))
  /\ binding gm (vadd X (scale (-1) sx)) V = binding_of_elements gm 1 0
  /\ length3 (cross (vadd X (scale (-1) sx)) V) = momentum_of_elements gm 1 0
  /\ forall fuel epoch, PPEstimatePerihelion fuel [(epoch, r)] = Ok [Some (101/100)].
Proof. exact C76_barycentric_refuted_proof. Qed.
Print Assumptions C76_barycentric_refuted.

(** A heliocentric Cartesian row holding the state of [C43_case]. *)
Example C76_case : forall fuel sun epoch gt,
  let col c := if String.eqb c "x" then Some (-8) else if String.eqb c "y" then Some 6
    else if String.eqb c "xdot" then Some (-3/5) else if String.eqb c "ydot" then Some (1/5) else Some 0 in
  let r := {| or_format := "CART"; or_col := col |} in
  exists d' X V, parse_orbit_row fuel sun r epoch [] 2 gt = Ok (d', Some (X, V)) /\ true_cache sun []
  /\ let x := vadd X (scale (-1) (fst (sun epoch))) in let v := vadd V (scale (-1) (snd (sun epoch))) in
     binding 2 x v = binding_of_elements 2 1 1 /\ length3 (cross x v) = momentum_of_elements 2 1 1.
Proof.
  intros fuel sun epoch gt col r. unfold parse_orbit_row, sun_at. destruct (sun epoch) as [sx sv] eqn:ES.
  cbn -[ecliptic_to_equatorial]. do 3 eexists. split; [reflexivity|]. split; [intros t s []|].
  cbn [fst snd]. rewrite !add_sub. rewrite <- binding_rot, <- cross_rot. repeat rewrite (proj1 (C34_inverse_proof _)).
  exact (proj1 C75_case).
Qed.

(** * C45: observatories *)

Theorem C45_known_partial : forall o l c s, longitude o = Some l -> cosphi o = Some c -> sinphi o = Some s ->
  l <> 0 -> c <> 0 -> s <> 0 ->
  exists p, convert_to_geocentric o = Some p
   /\ vz p = s /\ vx p * vx p + vy p * vy p = c * c
   /\ vx p = c * cos (l * PI / 180) /\ vy p = c * sin (l * PI / 180).
Proof. exact C45_known_proof. Qed.
Print Assumptions C45_known_partial.
Theorem C45_barycentric_partial : forall earth m rearth codes code o l c s, codes code = Some o ->
  longitude o = Some l -> cosphi o = Some c -> sinphi o = Some s -> l <> 0 -> c <> 0 -> s <> 0 ->
  exists p, barycentricObservatory earth m rearth codes code = Ok p
   /\ forall row, (forall v, row v = vx v) \/ (forall v, row v = vy v) \/ (forall v, row v = vz v) ->
      row p = row earth + rearth * (c * cos (l * PI / 180) * row (V3 (vx (row1 m)) (vx (row2 m)) (vx (row3 m)))
        + c * sin (l * PI / 180) * row (V3 (vy (row1 m)) (vy (row2 m)) (vy (row3 m)))
        + s * row (V3 (vz (row1 m)) (vz (row2 m)) (vz (row3 m)))).
Proof. exact C45_barycentric_proof. Qed.
Print Assumptions C45_barycentric_partial.
Theorem C45_missing_partial : forall o, longitude o = None \/ cosphi o = None \/ sinphi o = None ->
  convert_to_geocentric o = None.
Proof. exact C45_missing_proof. Qed.
Print Assumptions C45_missing_partial.
Theorem C45_zero_refuted :
  exists o, longitude o = Some 0 /\ cosphi o = Some (62411/100000) /\ sinphi o = Some (77873/100000)
   /\ convert_to_geocentric o = None
   /\ forall earth m rearth codes code, codes code = Some o ->
        barycentricObservatory earth m rearth codes code = Err TypeError.
Proof. exact C45_zero_refuted_proof. Qed.
Print Assumptions C45_zero_refuted.

Example C45_case : convert_to_geocentric {| longitude := Some 180; cosphi := Some (3/5); sinphi := Some (-4/5) |}
  = Some (V3 (-3/5) 0 (-4/5)).
Proof.
  unfold convert_to_geocentric, truthy; cbn. repeat (destruct (Req_EM_T _ _); [lra|]). cbn.
  replace (180 * PI / 180) with PI by field. rewrite cos_PI, sin_PI. do 2 f_equal; field.
Qed.
