(** * C112: the ephemeris misses no object in the field *)
From Coq Require Import String List Arith ZArith Reals Lra Lia Permutation.
From Verif Require Import Base.Prelude Model.Sphere Model.Ephemeris Spec.Sphere Spec.Ephemeris Spec.Complete
  Proofs.Sphere Proofs.Ephemeris Proofs.EphemerisRows Proofs.Scatter Proofs.Complete.
Import ListNotations.
Open Scope R_scope.

Theorem C112_complete : forall trajectory jd_ref observatory vec2pix nbrs n_sub interval sims set_order disc fov buffer v0 vs rows D k v M V eta,
  covering vec2pix disc -> surrounding vec2pix nbrs -> no_wider vec2pix D -> by_direction vec2pix -> set_listing set_order ->
  0 < interval -> (2 <= n_sub)%nat -> 0 <= D < fov -> fov < 90 -> 0 < buffer ->
  sorted_times (map v_jd (v0 :: vs)) ->
  ephemeris_rows trajectory jd_ref observatory vec2pix nbrs n_sub interval sims set_order disc fov buffer (v0 :: vs) = Ok rows ->
  In k sims -> In v (v0 :: vs) -> v_dir v = direction (v_ra v) (v_dec v) -> v_obs v = observatory (v_jd v) ->
  smooth_motion (seen trajectory jd_ref observatory k) (v_jd v - 3 / 2 * interval) (v_jd v + 3 / 2 * interval) M ->
  moving (seen trajectory jd_ref observatory k) (v_jd v - 3 / 2 * interval) (v_jd v + 3 / 2 * interval) V ->
  0 <= eta <= fov -> M * interval ^ 3 / 9 + V * interval / (INR n_sub - 1) <= sin (eta * PI / 180) ->
  within (seen trajectory jd_ref observatory k (v_jd v)) (v_dir v) (fov - eta) ->
  exists r, In r rows /\ e_obj r = k /\ e_visit r = v.
Proof. exact C112_complete_proof. Qed.
Print Assumptions C112_complete.
Theorem C112_buffer : forall trajectory jd_ref observatory vec2pix nbrs n_sub interval sims set_order disc fov buffer v0 vs rows D m k v M V eta,
  covering vec2pix disc -> surrounding_by vec2pix nbrs m -> no_wider vec2pix D -> by_direction vec2pix -> set_listing set_order ->
  0 < interval -> (2 <= n_sub)%nat -> 0 <= D < fov -> fov < 90 -> 0 < m < buffer -> fov + m <= 180 ->
  sorted_times (map v_jd (v0 :: vs)) ->
  ephemeris_rows trajectory jd_ref observatory vec2pix nbrs n_sub interval sims set_order disc fov buffer (v0 :: vs) = Ok rows ->
  In k sims -> In v (v0 :: vs) -> v_dir v = direction (v_ra v) (v_dec v) -> v_obs v = observatory (v_jd v) ->
  smooth_motion (seen trajectory jd_ref observatory k) (v_jd v - 3 / 2 * interval) (v_jd v + 3 / 2 * interval) M ->
  moving (seen trajectory jd_ref observatory k) (v_jd v - 3 / 2 * interval) (v_jd v + 3 / 2 * interval) V ->
  0 <= eta <= fov -> M * interval ^ 3 / 9 + V * interval / (INR n_sub - 1) <= sin (eta * PI / 180) ->
  within (seen trajectory jd_ref observatory k (v_jd v)) (v_dir v) (fov + m - eta) ->
  exists r, In r rows /\ e_obj r = k /\ e_visit r = v.
Proof. exact C112_buffer_proof. Qed.
Print Assumptions C112_buffer.
Theorem C112_interpolation : forall f t0 h t M, 0 < h -> smooth_motion f (t0 - h) (t0 + h) M -> t0 - h <= t <= t0 + h ->
  chord (combine3 (lagrange3 (t0 - h) t0 (t0 + h) t) (f (t0 - h)) (f t0) (f (t0 + h))) (f t) <= M * h ^ 3 / 9.
Proof. exact C112_interpolation_proof. Qed.
Print Assumptions C112_interpolation.

(** Directions sorted by their coordinates in quarters: a grid of pixels that meets the
    conditions.  An object at rest 1 au away is found by a visit pointed 30 degrees beside it. *)
Definition quarters (v : vec) : Z :=
  (100 * Int_part (4 * (vx v / norm v)) + 10 * Int_part (4 * (vy v / norm v)) + Int_part (4 * (vz v / norm v)))%Z.
Definition everything : list Z := map (fun n => (Z.of_nat n - 444)%Z) (seq 0 889).
Definition at_rest (k : string) (t : R) : vec * vec := (V3 1 0 0, V3 0 0 0).
Definition beside : visit := {| v_field := "f"; v_jd := 0; v_ra := 30; v_dec := 0; v_dir := direction 30 0; v_obs := V3 0 0 0 |}.
Lemma coordinate : forall v, unit v -> norm v = 1 /\ -1 <= vx v <= 1 /\ -1 <= vy v <= 1 /\ -1 <= vz v <= 1.
Proof. intros [x y z] U. unfold unit in U. cbn in *. split; [unfold norm, dot; cbn; rewrite U; apply sqrt_1|]. repeat split; nra. Qed.
Lemma floor4 : forall x, -1 <= x <= 1 -> (-4 <= Int_part (4 * x) <= 4)%Z /\ IZR (Int_part (4 * x)) <= 4 * x < IZR (Int_part (4 * x)) + 1.
Proof.
  intros x X. destruct (base_Int_part (4 * x)) as (A & B). split; [|lra].
  split; [|apply le_IZR; lra]. apply Z.lt_succ_r, lt_IZR. rewrite succ_IZR. lra.
Qed.
Lemma quarters_all : forall v, unit v -> In (quarters v) everything.
Proof.
  intros v U. destruct (coordinate v U) as (N & X & Y & Z). unfold quarters. rewrite N. unfold Rdiv. rewrite Rinv_1, !Rmult_1_r.
  destruct (floor4 _ X) as (A & _). destruct (floor4 _ Y) as (B & _). destruct (floor4 _ Z) as (C & _). unfold everything. apply in_map_iff.
  set (q := (100 * Int_part (4 * vx v) + 10 * Int_part (4 * vy v) + Int_part (4 * vz v))%Z). exists (Z.to_nat (q + 444)). split; [|apply in_seq]; unfold q; lia.
Qed.
Lemma quarters_narrow : no_wider quarters 30.
Proof.
  intros v w U W E. destruct (coordinate v U) as (N & X & Y & Z). destruct (coordinate w W) as (N' & X' & Y' & Z').
  unfold quarters in E. rewrite N, N' in E. unfold Rdiv in E. rewrite Rinv_1, !Rmult_1_r in E.
  destruct (floor4 _ X) as (A & AX). destruct (floor4 _ Y) as (B & BX). destruct (floor4 _ Z) as (C & CX).
  destruct (floor4 _ X') as (A' & AX'). destruct (floor4 _ Y') as (B' & BX'). destruct (floor4 _ Z') as (C' & CX').
  assert (EA : Int_part (4 * vx v) = Int_part (4 * vx w)) by lia. assert (EB : Int_part (4 * vy v) = Int_part (4 * vy w)) by lia. assert (EC : Int_part (4 * vz v) = Int_part (4 * vz w)) by lia.
  rewrite EA in AX. rewrite EB in BX. rewrite EC in CX. unfold within. replace (30 * PI / 180) with (PI / 6) by field. rewrite cos_PI6.
  assert (S : sqrt 3 <= 18 / 10). { rewrite <- (sqrt_square (18 / 10)) by lra. apply sqrt_le_1_alt. lra. }
  unfold unit in U, W.
  assert (Q : forall a b c, c <= 4 * a < c + 1 -> c <= 4 * b < c + 1 -> (a - b) * (a - b) <= 1 / 16) by (intros; nra).
  assert (QX := Q _ _ _ AX AX'). assert (QY := Q _ _ _ BX BX'). assert (QZ := Q _ _ _ CX CX'). nra.
Qed.
Lemma quarters_scale : by_direction quarters.
Proof.
  intros k x y z K. unfold quarters. cbn [vx vy vz].
  assert (NK : norm (V3 (k * x) (k * y) (k * z)) = k * norm (V3 x y z)).
  { unfold norm, dot. cbn [vx vy vz]. replace (k * x * (k * x) + k * y * (k * y) + k * z * (k * z)) with (k * k * (x * x + y * y + z * z)) by ring.
    rewrite sqrt_mult_alt, sqrt_square by nra. reflexivity. }
  destruct (Req_dec (norm (V3 x y z)) 0) as [Z|N0].
  - unfold norm, dot in Z. cbn [vx vy vz] in Z. apply sqrt_eq_0 in Z; [|nra]. apply squares_zero in Z. destruct Z as (-> & -> & ->). rewrite !Rmult_0_r. reflexivity.
  - rewrite NK. set (n := norm (V3 x y z)) in *. assert (Q : forall a, k * a / (k * n) = a / n) by (intro a; field; lra). rewrite !Q. reflexivity.
Qed.
Lemma quarters_cover : covering quarters (fun _ _ _ => everything).
Proof. intros ra dec r w _ U _. apply quarters_all. exact U. Qed.
Lemma quarters_surround : surrounding_by quarters (fun _ => everything) 1.
Proof. intros w w' _ U _. right. apply quarters_all. exact U. Qed.
Lemma seen_at_rest : forall t, seen at_rest 0 (fun _ => V3 0 0 0) "a"%string t = V3 1 0 0.
Proof.
  intro t. unfold seen, rho_hat, at_rest, integrate_light_time. cbn [fst snd]. unfold norm, dot, vsub, scale. cbn [vx vy vz].
  replace ((1 - 0) * (1 - 0) + (0 - 0) * (0 - 0) + (0 - 0) * (0 - 0)) with 1 by ring. rewrite sqrt_1. f_equal; field.
Qed.
Lemma at_rest_smooth : forall a b, smooth_motion (seen at_rest 0 (fun _ => V3 0 0 0) "a"%string) a b 0.
Proof.
  intros a b. assert (K : forall c, smooth (fun _ : R => c) a b 0).
  { intro c. exists (fun _ => 0), (fun _ => 0), (fun _ => 0). intros t _. rewrite Rabs_R0. repeat split; try (apply derivable_pt_lim_const); lra. }
  assert (F : forall g : vec -> R, smooth (fun t => g (seen at_rest 0 (fun _ => V3 0 0 0) "a"%string t)) a b 0).
  { intro g. destruct (K (g (V3 1 0 0))) as (f1 & f2 & f3 & D). exists f1, f2, f3. intros t T. destruct (D t T) as (D1 & D2). split; [|exact D2].
    intros e Pe. destruct (D1 e Pe) as (d & X). exists d. intros h H1 H2. rewrite !seen_at_rest. exact (X h H1 H2). }
  split; [|split]; apply F.
Qed.
Lemma at_rest_moving : forall a b, moving (seen at_rest 0 (fun _ => V3 0 0 0) "a"%string) a b 0.
Proof.
  intros a b s _. rewrite seen_at_rest. split; [unfold unit; cbn; ring|]. intros t _. rewrite seen_at_rest. unfold chord. cbn [vx vy vz].
  replace ((1 - 1) ^ 2 + (0 - 0) ^ 2 + (0 - 0) ^ 2) with 0 by ring. rewrite sqrt_0, Rmult_0_l. lra.
Qed.
Lemma still : 0 * 1 ^ 3 / 9 + 0 * 1 / (INR 101 - 1) <= sin (0 * PI / 180).
Proof. replace (0 * PI / 180) with 0 by field. rewrite sin_0. unfold Rdiv. rewrite !Rmult_0_l. lra. Qed.
Example C112_case : forall rows,
  covering quarters (fun _ _ _ => everything) /\ surrounding quarters (fun _ => everything) /\ no_wider quarters 30 /\ by_direction quarters
  /\ (ephemeris_rows at_rest 0 (fun _ => V3 0 0 0) quarters (fun _ => everything) 101 1 ["a"%string] (fun l => l) (fun _ _ _ => everything) 40 1 [beside] = Ok rows ->
      exists r, In r rows /\ e_obj r = "a"%string /\ e_visit r = beside).
Proof.
  intro rows. assert (P := PI_RGT_0).
  assert (C2 : surrounding quarters (fun _ => everything)) by (exists 1; split; [lra|exact quarters_surround]).
  split; [exact quarters_cover|]. split; [exact C2|]. split; [exact quarters_narrow|]. split; [exact quarters_scale|]. intro E.
  refine (C112_complete_proof at_rest 0 (fun _ => V3 0 0 0) quarters (fun _ => everything) 101 1 ["a"%string] (fun l => l) (fun _ _ _ => everything) 40 1 beside [] rows 30 "a"%string beside 0 0 0
    quarters_cover C2 quarters_narrow quarters_scale _ _ _ _ _ _ _ E _ _ eq_refl eq_refl (at_rest_smooth _ _) (at_rest_moving _ _) _ still _).
  all: try lra; try lia.
  - intro l. apply Permutation_refl.
  - cbn. exact I.
  - left. reflexivity.
  - left. reflexivity.
  - rewrite seen_at_rest. unfold within, beside, direction. cbn [v_dir vx vy vz]. replace (0 * PI / 180) with 0 by field. rewrite cos_0, sin_0.
    replace (30 * PI / 180) with (PI / 6) by field.
    assert (Q : cos ((40 - 0) * PI / 180) <= cos (PI / 6)) by (apply cos_decr_1; lra). lra.
Qed.

(** With a buffer of two degrees a visit pointed 40.5 degrees beside the object finds it too. *)
Definition farther : visit := {| v_field := "f"; v_jd := 0; v_ra := 40.5; v_dec := 0; v_dir := direction 40.5 0; v_obs := V3 0 0 0 |}.
Example C112_buffer_case : forall rows,
  surrounding_by quarters (fun _ => everything) 1 /\ ~ within (V3 1 0 0) (v_dir farther) 40
  /\ (ephemeris_rows at_rest 0 (fun _ => V3 0 0 0) quarters (fun _ => everything) 101 1 ["a"%string] (fun l => l) (fun _ _ _ => everything) 40 2 [farther] = Ok rows ->
      exists r, In r rows /\ e_obj r = "a"%string /\ e_visit r = farther).
Proof.
  intro rows. assert (P := PI_RGT_0).
  split; [exact quarters_surround|]. split.
  - unfold within, farther, direction. cbn [v_dir vx vy vz]. replace (0 * PI / 180) with 0 by field. rewrite cos_0, sin_0.
    assert (Q : cos (40.5 * PI / 180) < cos (40 * PI / 180)) by (apply cos_decreasing_1; lra). lra.
  - intro E.
    refine (C112_buffer_proof at_rest 0 (fun _ => V3 0 0 0) quarters (fun _ => everything) 101 1 ["a"%string] (fun l => l) (fun _ _ _ => everything) 40 2 farther [] rows 30 1 "a"%string farther 0 0 0
      quarters_cover quarters_surround quarters_narrow quarters_scale _ _ _ _ _ _ _ _ E _ _ eq_refl eq_refl (at_rest_smooth _ _) (at_rest_moving _ _) _ still _).
    all: try lra; try lia.
    + intro l. apply Permutation_refl.
    + cbn. exact I.
    + left. reflexivity.
    + left. reflexivity.
    + rewrite seen_at_rest. unfold within, farther, direction. cbn [v_dir vx vy vz]. replace (0 * PI / 180) with 0 by field. rewrite cos_0, sin_0.
      assert (Q : cos ((40 + 1 - 0) * PI / 180) <= cos (40.5 * PI / 180)) by (apply cos_decr_1; lra). lra.
Qed.
