From Coq Require Import Reals ZArith List Bool Lia Lra Psatz.
From Verif Require Import Base.Prelude Model.Sphere Model.Kepler Spec.Sphere Spec.Kepler Spec.Anomaly Spec.Motion
  Proofs.Sphere Proofs.Kepler Proofs.Halley Proofs.KeplerState Proofs.Stumpff Proofs.Anomaly Proofs.Motion.
Import ListNotations.
Open Scope R_scope.

(** * C94: states of elliptic orbits *)

Theorem C94_kepler_partial : forall fuel mu q e i N w tp ep x v, 0 < mu -> 0 < q -> 0 <= e -> e <= 1 - 1 / 1000000000 ->
  universal_cartesian fuel mu q e i N w tp ep = Ok (Some (x, v)) ->
  exists t s, since_perihelion mu q e tp ep = Ok t
    /\ solve (fun s => root_function s mu (2 * mu / q - mu * (1 + e) / q) q 0 t) (1 / 100000000000000) fuel t = Ok (Some s)
    /\ (sqrt (mu * (1 - e) / q) * Rabs s <= 10000 -> (sqrt (mu * (1 - e) / q) * Rabs s) ^ 4 <= 10 ^ 17 * (1 - e) ->
        exists E (turns : Z),
          Rabs (E - e * sin E - (sqrt (mu / (semi_major q e * semi_major q e * semi_major q e)) * (ep - tp) - 2 * PI * IZR turns)) <= 1 / 1000000000000
          /\ apart x (ellipse_position q e i N w E) <= 2 / 1000000000000 * (semi_major q e * sqrt ((1 + e) / (1 - e)))
          /\ apart v (ellipse_velocity mu q e i N w E) <= 1 / 10000000000000 * sqrt (mu / semi_major q e) / ((1 - e) * (1 - e))).
Proof. exact C94_kepler_proof. Qed.
Print Assumptions C94_kepler_partial.
Theorem C94_functions_partial : forall E, Rabs E <= 1000000 ->
  let b := (1 + E * E) / 1000000000000000000 in
  Rabs (c0 (stumpff (E * E)) - cos E) <= b
  /\ Rabs (E * c1 (stumpff (E * E)) - sin E) <= Rabs E * b
  /\ Rabs (E * E * c2 (stumpff (E * E)) - (1 - cos E)) <= E * E * b
  /\ Rabs (E * E * E * c3 (stumpff (E * E)) - (E - sin E)) <= Rabs E * (E * E) * b.
Proof. exact C94_functions_proof. Qed.
Print Assumptions C94_functions_partial.
Theorem C94_ends_partial : forall mu q e i N w tp ep, 0 < mu -> 0 < q -> 0 <= e -> e < 1 -> q / (1 - e) <= 5000 ->
  exists enough, forall fuel, (enough <= fuel)%nat -> universal_cartesian fuel mu q e i N w tp ep <> Err OutOfFuel.
Proof. exact C94_ends_proof. Qed.
Print Assumptions C94_ends_partial.
Theorem C94_motion_partial : forall mu q e i N w tp, 0 < mu -> 0 < q -> 0 <= e -> e < 1 ->
  exists E : R -> R, (forall t, E t - e * sin (E t) = sqrt (mu / (semi_major q e * semi_major q e * semi_major q e)) * (t - tp))
    /\ two_body mu (fun t => ellipse_position q e i N w (E t)) (fun t => ellipse_velocity mu q e i N w (E t)).
Proof. exact C94_motion_proof. Qed.
Print Assumptions C94_motion_partial.

(** The first step of the search, a quarter of the elapsed time, lands on the root:
    eccentric anomaly 1/4 on an orbit with eccentricity 1/2. *)
Example C94_case : exists a x v, 79/10 < a < 8
  /\ universal_cartesian 1 a (a / 2) (1/2) 1 2 3 0 1 = Ok (Some (x, v))
  /\ solve (fun s => root_function s a (2 * a / (a / 2) - a * (1 + 1/2) / (a / 2)) (a / 2) 0 1) (1 / 100000000000000) 1 1 = Ok (Some (1/4))
  /\ sqrt (a * (1 - 1/2) / (a / 2)) * Rabs (1/4) <= 100.
Proof.
  assert (S : exists c, 1/7 < c < 1/5 /\ stumpff (1/16) = F4 (c0 (stumpff_small (1/16))) (1 - 1/16 * c) (c2 (stumpff_small (1/16))) c).
  { exists (c3 (stumpff_small (1/16))). split; [unfold stumpff_small; cbn [c3]; lra|].
    unfold stumpff. destruct (Z.to_nat _) as [|m]; cbn [reduce]; [reflexivity|].
    destruct (Rlt_dec (1/10) (Rabs (1/16))) as [H|H]; [rewrite Rabs_right in H; lra|reflexivity]. }
  destruct S as (c & C & S). assert (C2 : 0 < c2 (stumpff_small (1/16))) by (unfold stumpff_small; cbn [c2]; lra).
  assert (C0 : 0 < c0 (stumpff_small (1/16))) by (unfold stumpff_small; cbn [c0]; lra).
  set (p := c0 _) in *. set (g := c2 _) in *. clearbody p g.
  set (a := 8 / (1 + 1/16 * c)).
  assert (EA : a * (1 + 1/16 * c) = 8) by (unfold a; field; lra).
  assert (A : 79/10 < a < 8) by (split; nra). clearbody a.
  assert (AL : 2 * a / (a / 2) - a * (1 + 1/2) / (a / 2) = 1) by (field; lra).
  assert (T : since_perihelion a (a / 2) (1/2) 0 1 = Ok 1).
  { unfold since_perihelion. destruct (Rlt_dec (1/2) 1); [|lra]. rewrite rdiv_value by lra. cbn [rbind].
    replace (a / 2 / (1 - 1/2)) with a by field. rewrite rdiv_value by (apply Rgt_not_eq; repeat apply Rmult_lt_0_compat; lra). cbn [rbind].
    assert (SQ : sqrt (a / (a * a * a)) = / a).
    { replace (a / (a * a * a)) with (/ a * / a) by (field; lra). apply sqrt_square. apply Rlt_le, Rinv_0_lt_compat. lra. }
    rewrite SQ. assert (0 < / a) by (apply Rinv_0_lt_compat; lra). rewrite rdiv_value by lra. cbn [rbind].
    replace (2 * PI / / a) with (2 * PI * a) by (field; lra). pose proof PI_RGT_0. pose proof PI2_3_2.
    assert (1 < 2 * PI * a) by nra. destruct (Req_EM_T (2 * PI * a) 0); [lra|]. f_equal.
    apply (rmod_unique _ _ _ 0); lra. }
  assert (SO : solve (fun s => root_function s a 1 (a / 2) 0 1) (1 / 100000000000000) 1 1 = Ok (Some (1/4))).
  { unfold solve. set (it := 100%nat). clearbody it. replace (0 + (1 - 0) / 4) with (1/4) by field. cbn [bracket].
    assert (R0 : v_f (root_function 0 a 1 (a / 2) 0 1) = -1) by (unfold root_function; cbn [v_f]; ring).
    assert (R1 : v_f (root_function (1/4) a 1 (a / 2) 0 1) = 0).
    { unfold root_function. cbn [v_f]. replace (1 * (1/4) * (1/4)) with (1/16) by field. rewrite S. cbn [c1 c2 c3]. nra. }
    rewrite R0, R1. destruct (Rlt_dec 0 (0 * -1)) as [H|H]; [exfalso; lra|]. cbn [rbind fst snd].
    unfold halley_safe. rewrite R0, R1.
    repeat (match goal with |- context[Rlt_dec ?a ?b] => destruct (Rlt_dec a b) as [?H|?H]; try lra end). cbn [orb].
    repeat (match goal with |- context[Req_EM_T ?a ?b] => destruct (Req_EM_T a b) as [?H|?H]; try lra end). reflexivity. }
  assert (U : exists x v, universal_cartesian 1 a (a / 2) (1/2) 1 2 3 0 1 = Ok (Some (x, v))).
  { unfold universal_cartesian. rewrite T. cbn [rbind]. rewrite !rdiv_value by lra. cbn [rbind]. rewrite AL, SO. cbn [rbind].
    unfold in_plane. replace (1 * (1/4) * (1/4)) with (1/16) by field. rewrite S. cbn [c0 c1 c2 c3].
    assert (0 < a / 2 * p + a / 2 * 0 * (1/4) * (1 - 1/16 * c) + a * (1/4) * (1/4) * g) by nra.
    rewrite !rdiv_value; [cbn [rbind fst snd]; eauto|lra| |lra]. apply Rmult_integral_contrapositive_currified; lra. }
  destruct U as (x & v & U). exists a, x, v. split; [auto|]. split; [auto|]. rewrite AL. split; [auto|].
  replace (a * (1 - 1/2) / (a / 2)) with 1 by (field; lra). rewrite sqrt_1, Rabs_right by lra. lra.
Qed.
