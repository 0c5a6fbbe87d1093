(** Property of states of parabolic orbits converted to elements and back. *)
From Coq Require Import Reals ZArith Lia Lra Psatz.
From Verif Require Import Base.Prelude Model.Sphere Model.Kepler Spec.Sphere Spec.Kepler Spec.Anomaly
  Proofs.Sphere Proofs.Sky Proofs.Kepler Proofs.KeplerState Proofs.Stumpff Proofs.Anomaly Proofs.Halley Proofs.Cometary Proofs.EllipseState Proofs.HyperbolaState Proofs.RoundTrip.
Open Scope R_scope.

(** * C123: parabolic states there and back *)

Theorem C123_parabola : forall mu pos vel epoch fuel x v, 0 < mu ->
  let h := cross pos vel in
  vx h <> 0 -> vy h <> 0 -> vz h <> 0 -> vz pos <> 0 -> vy pos * vx h - vx pos * vy h <> 0 ->
  vx pos * vx vel + vy pos * vy vel + vz pos * vz vel <> 0 -> length3 h * length3 h <> mu * length3 pos ->
  binding mu pos vel = 0 ->
  let k := universal_cometary mu pos vel epoch in
  universal_cartesian fuel mu (k_q k) (k_e k) (k_incl k) (k_node k) (k_peri k) (k_tp k) epoch = Ok (Some (x, v)) ->
  0 < k_q k /\ apart x pos <= 2 / 1000000000000 * length3 pos * sqrt (length3 pos / k_q k)
  /\ apart v vel <= 2 / 1000000000000 * length3 vel.
Proof. exact C123_parabola_proof. Qed.
Print Assumptions C123_parabola.

(** A state of parabolic speed whose elements are converted back in a single step of the
    search: perihelion distance 12/7, true anomaly twice the angle of tangent 2 or -2. *)
Example C123_case : let mu := 150/7 in let pos := V3 (20/7) (40/7) (40/7) in let vel := V3 (4/3) (2/3) (5/3) in
  (let h := cross pos vel in vx h <> 0 /\ vy h <> 0 /\ vz h <> 0 /\ vz pos <> 0 /\ vy pos * vx h - vx pos * vy h <> 0
      /\ vx pos * vx vel + vy pos * vy vel + vz pos * vz vel <> 0 /\ length3 h * length3 h <> mu * length3 pos)
  /\ binding mu pos vel = 0
  /\ let k := universal_cometary mu pos vel 0 in
     k_q k = 12/7
     /\ exists x v, universal_cartesian 1 mu (k_q k) (k_e k) (k_incl k) (k_node k) (k_peri k) (k_tp k) 0 = Ok (Some (x, v)).
Proof.
  intros mu pos vel.
  assert (L1 : length3 pos = 60/7).
  { unfold length3, pos; cbn [vx vy vz]. replace (_ + _) with (60/7 * (60/7)) by field. apply sqrt_square; lra. }
  assert (L2 : length3 (cross pos vel) = 60/7).
  { unfold length3, cross, pos, vel; cbn [vx vy vz]. replace (_ + _) with (60/7 * (60/7)) by field. apply sqrt_square; lra. }
  assert (HB : binding mu pos vel = 0) by (unfold binding; rewrite L1; unfold mu, vel; cbn [vx vy vz]; field).
  assert (G : let h := cross pos vel in vx h <> 0 /\ vy h <> 0 /\ vz h <> 0 /\ vz pos <> 0 /\ vy pos * vx h - vx pos * vy h <> 0
      /\ vx pos * vx vel + vy pos * vy vel + vz pos * vz vel <> 0 /\ length3 h * length3 h <> mu * length3 pos).
  { cbv zeta. rewrite L1, L2. unfold cross, pos, vel, mu; cbn [vx vy vz]. repeat (split; [lra|]). lra. }
  split; [exact G|]. split; [exact HB|]. destruct G as (G1 & G2 & G3 & G4 & G5 & G6 & G7).
  assert (MU : 0 < mu) by (unfold mu; lra).
  destruct (C75_parabola_proof mu pos vel 0 MU G1 G2 G3 G4 G5 G6 G7 HB) as (E1 & nu & Hnu & Ep & Ev & Eb). intros k. fold k in E1, Ep, Ev, Eb. cbv zeta in Eb.
  pose proof (parabola_perihelion mu pos vel 0 MU G1 G2 G3 G4 G5 G6 G7) as Q. fold k in Q.
  rewrite (parabola_position _ _ _ _ nu Hnu) in Ep. set (t := tan (nu / 2)) in *.
  assert (LP : length3 pos = k_q k * (1 + t * t)).
  { rewrite Ep at 1. rewrite length3_perifocal. replace (_ + _) with ((k_q k * (1 + t * t)) * (k_q k * (1 + t * t))) by ring. apply sqrt_square. pose proof (Rle_0_sqr t) as Z0. unfold Rsqr in Z0. apply Rmult_le_pos; lra. }
  assert (QQ : k_q k = 12/7).
  { pose proof (parabola_momentum mu pos vel 0 MU G1 G2 G3 G4 G5 G6 G7 HB) as M. fold k in M. rewrite L2 in M. unfold mu in M. lra. }
  split; [exact QQ|]. rewrite QQ in *. rewrite L1 in LP. rewrite E1.
  replace (sqrt (mu / (2 * (12/7 * (12/7) * (12/7))))) with (35/24) in Eb.
  2: { replace (mu / (2 * (12/7 * (12/7) * (12/7)))) with (35/24 * (35/24)) by (unfold mu; field). symmetry. apply sqrt_square. lra. }
  assert (ET : exists z, (z = 1 \/ z = -1) /\ 0 - k_tp k = z * (16/5)).
  { assert (T2 : (t - 2) * (t + 2) = 0) by lra. apply Rmult_integral in T2. destruct T2 as [T2|T2].
    - assert (t = 2) by lra. exists 1. split; [auto|]. rewrite H in Eb. lra.
    - assert (t = -2) by lra. exists (-1). split; [auto|]. rewrite H in Eb. lra. }
  destruct ET as (z & Hz & ET).
  unfold universal_cartesian, since_perihelion. destruct (Rlt_dec 1 1); [lra|]. cbn [rbind].
  rewrite !rdiv_value by lra. cbn [rbind]. rewrite ET.
  replace (2 * mu / (12/7) - mu * (1 + 1) / (12/7)) with 0 by field.
  assert (SO : solve (fun s => root_function s mu 0 (12/7) 0 (z * (16/5))) (1 / 100000000000000) 1 (z * (16/5)) = Ok (Some (z * (4/5)))).
  { unfold solve. set (it := 100%nat). clearbody it. replace (0 + (z * (16/5) - 0) / 4) with (z * (4/5)) by field. cbn [bracket]. rewrite !root_parabolic. cbn [v_f v_fp v_fpp]. unfold mu.
    destruct Hz as [-> | ->];
    (match goal with |- context[Rlt_dec 0 ?x] => destruct (Rlt_dec 0 x) as [?H|?H]; [exfalso; lra|] end;
     cbn [rbind fst snd]; unfold halley_safe; rewrite !root_parabolic; cbn [v_f v_fp v_fpp];
     repeat (match goal with |- context[Rlt_dec ?a ?b] => destruct (Rlt_dec a b) as [?H|?H]; try lra end); cbn [orb];
     repeat (match goal with |- context[Req_EM_T ?a ?b] => destruct (Req_EM_T a b) as [?H|?H]; try lra end);
     cbn [rbind snd retry]; reflexivity). }
  rewrite SO. cbn [rbind]. unfold in_plane. replace (0 * (z * (4/5)) * (z * (4/5))) with 0 by ring. rewrite stumpff_0. cbn [c0 c1 c2 c3].
  assert (D : 12/7 + mu * (z * (4/5)) * (z * (4/5)) / 2 = 60/7) by (unfold mu; destruct Hz as [-> | ->]; field).
  rewrite !rdiv_value; [cbn [rbind fst snd]; eauto|..]; destruct Hz as [-> | ->]; unfold mu; lra.
Qed.
