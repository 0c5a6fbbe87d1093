(** Properties of the states of hyperbolic and parabolic orbits. *)
From Coq Require Import Reals ZArith List Bool Lia Lra Psatz.
From Verif Require Import Base.Prelude Model.Sphere Model.Kepler Spec.Sphere Spec.Kepler Spec.Anomaly Spec.Motion
  Proofs.Kepler Proofs.Halley Proofs.Anomaly Proofs.HyperbolaState Proofs.ParabolaState Proofs.Motion.
Open Scope R_scope.

(** * C96: states of hyperbolic and parabolic orbits *)

Theorem C96_kepler : forall fuel mu q e i N w tp ep x v, 0 < mu -> 0 < q -> 1 < e ->
  universal_cartesian fuel mu q e i N w tp ep = Ok (Some (x, v)) ->
  exists s, solve (fun s => root_function s mu (2 * mu / q - mu * (1 + e) / q) q 0 (ep - tp)) (1 / 100000000000000) fuel (ep - tp) = Ok (Some s)
    /\ (sqrt (mu * (e - 1) / q) * Rabs s <= 100 ->
        exists F, let a := q / (e - 1) in
          Rabs F <= 100
          /\ Rabs (e * sinh F - F - sqrt (mu / (a * a * a)) * (ep - tp)) <= 5 / 100000000000000 * (1 + Rabs F) * (e * cosh F)
          /\ apart x (hyperbola_position q e i N w F) <= 6 / 100000000000000 * (1 + Rabs F) * (a * sqrt ((e + 1) / (e - 1)) * (e * cosh F))
          /\ apart v (hyperbola_velocity mu q e i N w F) <= 6 / 1000000000000000000 * (1 + F * F) * length3 (hyperbola_velocity mu q e i N w F)).
Proof. exact C96_kepler_proof. Qed.
Print Assumptions C96_kepler.
Theorem C96_parabola : forall fuel mu q i N w tp ep x v, 0 < mu -> 0 < q ->
  universal_cartesian fuel mu q 1 i N w tp ep = Ok (Some (x, v)) ->
  exists nu, - PI < nu < PI /\ let t := tan (nu / 2) in
    Rabs (t + t * t * t / 3 - sqrt (mu / (2 * (q * q * q))) * (ep - tp)) <= 5 / 100000000000000 * Rabs t * (1 + t * t)
    /\ apart x (conic_position q 1 i N w nu) <= 1 / 10000000000000 * q * Rabs t * (1 + t * t)
    /\ v = conic_velocity mu q 1 i N w nu.
Proof. exact C96_parabola_proof. Qed.
Print Assumptions C96_parabola.
Theorem C96_functions : forall F, Rabs F <= 1000000 ->
  let b := (1 + F * F) / 1000000000000000000 in
  Rabs (c0 (stumpff (- (F * F))) - cosh F) <= b * cosh F
  /\ Rabs (F * c1 (stumpff (- (F * F))) - sinh F) <= b * Rabs (sinh F)
  /\ Rabs (F * F * c2 (stumpff (- (F * F))) - (cosh F - 1)) <= b * (cosh F - 1)
  /\ Rabs (F * F * F * c3 (stumpff (- (F * F))) - (sinh F - F)) <= b * (Rabs (sinh F) - Rabs F).
Proof. exact C96_functions_proof. Qed.
Print Assumptions C96_functions.
Theorem C96_ends : forall mu q e i N w tp ep, 0 < mu -> 0 < q -> 1 <= e ->
  forall fuel, 4 / q + 2 <= INR fuel -> universal_cartesian fuel mu q e i N w tp ep <> Err OutOfFuel.
Proof. exact C96_ends_proof. Qed.
Print Assumptions C96_ends.
Theorem C96_motion : forall mu q e i N w tp, 0 < mu -> 0 < q -> 1 < e -> let a := q / (e - 1) in
  exists F : R -> R, (forall t, e * sinh (F t) - F t = sqrt (mu / (a * a * a)) * (t - tp))
    /\ two_body mu (fun t => hyperbola_position q e i N w (F t)) (fun t => hyperbola_velocity mu q e i N w (F t)).
Proof. exact C96_motion_proof. Qed.
Print Assumptions C96_motion.
Theorem C96_parabola_motion : forall mu q i N w tp, 0 < mu -> 0 < q ->
  exists nu : R -> R, (forall t, - PI < nu t < PI
      /\ tan (nu t / 2) + tan (nu t / 2) * tan (nu t / 2) * tan (nu t / 2) / 3 = sqrt (mu / (2 * (q * q * q))) * (t - tp))
    /\ two_body mu (fun t => conic_position q 1 i N w (nu t)) (fun t => conic_velocity mu q 1 i N w (nu t)).
Proof. exact C96_parabola_motion_proof. Qed.
Print Assumptions C96_parabola_motion.

(** The first step of the search, a quarter of the elapsed time, lands on the root:
    hyperbolic anomaly 1/4 on an orbit with eccentricity 3/2. *)
Example C96_case : exists a x v, 77/10 < a < 78/10
  /\ universal_cartesian 1 a (a / 2) (3/2) 1 2 3 0 1 = Ok (Some (x, v))
  /\ solve (fun s => root_function s a (2 * a / (a / 2) - a * (1 + 3/2) / (a / 2)) (a / 2) 0 (1 - 0)) (1 / 100000000000000) 1 (1 - 0) = Ok (Some (1/4))
  /\ sqrt (a * (3/2 - 1) / (a / 2)) * Rabs (1/4) <= 100.
Proof.
  assert (S : exists c, 1/7 < c < 1/5 /\ stumpff (- (1/16)) = F4 (c0 (stumpff_small (- (1/16)))) (1 + 1/16 * c) (c2 (stumpff_small (- (1/16)))) c).
  { exists (c3 (stumpff_small (- (1/16)))). split; [unfold stumpff_small; cbn [c3]; lra|].
    assert (E : 1 + 1/16 * c3 (stumpff_small (- (1/16))) = c1 (stumpff_small (- (1/16)))) by (unfold stumpff_small; cbn [c1 c3]; field). rewrite E.
    unfold stumpff. destruct (Z.to_nat _) as [|m]; cbn [reduce]; [reflexivity|].
    destruct (Rlt_dec (1/10) (Rabs (- (1/16)))) as [H|H]; [rewrite Rabs_Ropp, Rabs_right in H; lra|reflexivity]. }
  destruct S as (c & C & S). assert (C2 : 0 < c2 (stumpff_small (- (1/16)))) by (unfold stumpff_small; cbn [c2]; lra).
  assert (C0 : 0 < c0 (stumpff_small (- (1/16)))) by (unfold stumpff_small; cbn [c0]; lra).
  set (p := c0 _) in *. set (g := c2 _) in *. clearbody p g.
  set (a := 8 / (1 + 3/16 * c)).
  assert (EA : a * (1 + 3/16 * c) = 8) by (unfold a; field; lra).
  assert (A : 77/10 < a < 78/10) by (split; nra). clearbody a.
  assert (AL : 2 * a / (a / 2) - a * (1 + 3/2) / (a / 2) = -1) by (field; lra).
  assert (T : since_perihelion a (a / 2) (3/2) 0 1 = Ok (1 - 0)).
  { unfold since_perihelion. destruct (Rlt_dec (3/2) 1); [lra|reflexivity]. }
  replace (1 - 0) with 1 in * by ring.
  assert (SO : solve (fun s => root_function s a (-1) (a / 2) 0 1) (1 / 100000000000000) 1 1 = Ok (Some (1/4))).
  { unfold solve. set (it := 100%nat). clearbody it. replace (0 + (1 - 0) / 4) with (1/4) by field. cbn [bracket].
    assert (R0 : v_f (root_function 0 a (-1) (a / 2) 0 1) = -1) by (unfold root_function; cbn [v_f]; ring).
    assert (R1 : v_f (root_function (1/4) a (-1) (a / 2) 0 1) = 0).
    { unfold root_function. cbn [v_f]. replace (-1 * (1/4) * (1/4)) with (- (1/16)) by field. rewrite S. cbn [c1 c2 c3]. nra. }
    rewrite R0, R1. destruct (Rlt_dec 0 (0 * -1)) as [H|H]; [exfalso; lra|]. cbn [rbind fst snd].
    unfold halley_safe. rewrite R0, R1.
    repeat (match goal with |- context[Rlt_dec ?a ?b] => destruct (Rlt_dec a b) as [?H|?H]; try lra end). cbn [orb].
    repeat (match goal with |- context[Req_EM_T ?a ?b] => destruct (Req_EM_T a b) as [?H|?H]; try lra end). reflexivity. }
  assert (U : exists x v, universal_cartesian 1 a (a / 2) (3/2) 1 2 3 0 1 = Ok (Some (x, v))).
  { unfold universal_cartesian. rewrite T. cbn [rbind]. rewrite !rdiv_value by lra. cbn [rbind]. rewrite AL, SO. cbn [rbind].
    unfold in_plane. replace (-1 * (1/4) * (1/4)) with (- (1/16)) by field. rewrite S. cbn [c0 c1 c2 c3].
    assert (0 < a / 2 * p + a / 2 * 0 * (1/4) * (1 + 1/16 * c) + a * (1/4) * (1/4) * g) by nra.
    rewrite !rdiv_value; [cbn [rbind fst snd]; eauto|lra| |lra]. apply Rmult_integral_contrapositive_currified; lra. }
  destruct U as (x & v & U). exists a, x, v. split; [auto|]. split; [auto|]. rewrite AL. split; [auto|].
  replace (a * (3/2 - 1) / (a / 2)) with 1 by (field; lra). rewrite sqrt_1, Rabs_right by lra. lra.
Qed.

(** A parabola whose root is met by the fourth step. *)
Example C96_parabola_case : exists x v, universal_cartesian 4 3 (1/2) 1 1 2 3 0 1 = Ok (Some (x, v)).
Proof.
  unfold universal_cartesian, since_perihelion. destruct (Rlt_dec 1 1); [lra|]. cbn [rbind]. rewrite !rdiv_value by lra. cbn [rbind].
  replace (2 * 3 / (1 / 2) - 3 * (1 + 1) / (1 / 2)) with 0 by field. replace (1 - 0) with 1 by ring.
  assert (R : forall s, v_f (root_function s 3 0 (1/2) 0 1) = s / 2 + s * s * s / 2 - 1).
  { intros s. unfold root_function. cbn [v_f]. replace (0 * s * s) with 0 by ring. rewrite stumpff_zero. cbn [c1 c2 c3]. field. }
  assert (SO : solve (fun s => root_function s 3 0 (1/2) 0 1) (1 / 100000000000000) 4 1 = Ok (Some 1)).
  { unfold solve. set (it := 100%nat). clearbody it. cbn [bracket]. rewrite !R.
    replace (0 + (1 - 0) / 4) with (1/4) by field. replace (1/4 + (1 - 0) / 4) with (1/2) by field. replace (1/2 + (1 - 0) / 4) with (3/4) by field. replace (3/4 + (1 - 0) / 4) with 1 by field.
    repeat (match goal with |- context[Rlt_dec ?a ?b] => destruct (Rlt_dec a b) as [?H|?H]; try (exfalso; lra) end).
    cbn [rbind fst snd]. unfold halley_safe. rewrite !R.
    repeat (match goal with |- context[Rlt_dec ?a ?b] => destruct (Rlt_dec a b) as [?H|?H]; try (exfalso; lra) end). cbn [orb andb].
    repeat (match goal with |- context[Req_EM_T ?a ?b] => destruct (Req_EM_T a b) as [?H|?H]; try (exfalso; lra) end). reflexivity. }
  rewrite SO. cbn [rbind]. unfold in_plane. replace (0 * 1 * 1) with 0 by ring. rewrite stumpff_zero. cbn [c0 c1 c2 c3].
  rewrite !rdiv_value by lra. cbn [rbind fst snd]. eauto.
Qed.
