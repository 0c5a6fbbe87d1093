(** Starting states of the objects; times and positions of the visits. *)
From Coq Require Import Reals ZArith String Bool Lra Psatz List.
From Verif Require Import Base.Prelude Model.Sphere Model.Kepler Model.OrbitParse Model.Ephemeris Model.Setup
  Spec.Sphere Spec.OrbitParse Spec.Setup Proofs.Sphere Proofs.OrbitParse Proofs.Setup.
Import ListNotations.
Open Scope list_scope.
Open Scope R_scope.

(** * C89: every object starts from its own orbit *)

Theorem C89_each_partial : forall fuel sun gm_sun gm_total jd_ref rows out,
  NoDup (map ob_id rows) ->
  (generate_simulations fuel sun gm_sun gm_total jd_ref rows = Ok out
   <-> Forall2 (fun r s => fst s = ob_id r /\ sim_t (snd s) = julian (ob_epoch r) - jd_ref
                 /\ alone fuel sun gm_sun gm_total r = Ok (Some (sim_state (snd s)))) rows out).
Proof. exact C89_each_proof. Qed.
Print Assumptions C89_each_partial.
Theorem C89_outcome_partial : forall fuel sun gm_sun gm_total jd_ref rows,
  ((exists out, generate_simulations fuel sun gm_sun gm_total jd_ref rows = Ok out)
     <-> forall r, In r rows -> startable fuel sun gm_sun gm_total r)
  /\ forall good bad rest, rows = (good ++ bad :: rest)%list ->
       (forall r, In r good -> startable fuel sun gm_sun gm_total r) -> ~ startable fuel sun gm_sun gm_total bad ->
       generate_simulations fuel sun gm_sun gm_total jd_ref rows
       = Err (refusal (alone fuel sun gm_sun gm_total bad)).
Proof. exact C89_outcome_proof. Qed.
Print Assumptions C89_outcome_partial.
Theorem C89_own_partial : forall fuel sun gm_sun gm_total jd_ref rows1 rows2 out1 out2 r s1 s2,
  NoDup (map ob_id rows1) -> NoDup (map ob_id rows2) ->
  generate_simulations fuel sun gm_sun gm_total jd_ref rows1 = Ok out1 ->
  generate_simulations fuel sun gm_sun gm_total jd_ref rows2 = Ok out2 ->
  In r rows1 -> In r rows2 -> In (ob_id r, s1) out1 -> In (ob_id r, s2) out2 -> s1 = s2.
Proof. exact C89_own_proof. Qed.
Print Assumptions C89_own_partial.
Theorem C89_epoch_partial : forall fuel sun gm_sun gm_total jd_ref id e row,
  0 <= e < 24000005 / 10 ->
  generate_simulations fuel sun gm_sun gm_total jd_ref [{| ob_id := id; ob_epoch := e; ob_row := row |}]
  = generate_simulations fuel sun gm_sun gm_total jd_ref [{| ob_id := id; ob_epoch := e + 24000005 / 10; ob_row := row |}].
Proof. exact C89_epoch_proof. Qed.
Print Assumptions C89_epoch_partial.

(** Two rows with the same ObjID: the first is dropped without a message. *)
Theorem C89_repeated_refuted : forall fuel sun gm_sun gm_total jd_ref, exists r1 r2 s,
  ob_id r1 = ob_id r2 /\ startable fuel sun gm_sun gm_total r1 /\ startable fuel sun gm_sun gm_total r2
  /\ alone fuel sun gm_sun gm_total r1 <> alone fuel sun gm_sun gm_total r2
  /\ generate_simulations fuel sun gm_sun gm_total jd_ref [r1; r2] = Ok [(ob_id r2, s)]
  /\ alone fuel sun gm_sun gm_total r2 = Ok (Some (sim_state s)).
Proof. exact C89_repeated_refuted_proof. Qed.
Print Assumptions C89_repeated_refuted.

(** Two objects with different epochs, and a table with a row of unknown format. *)
Example C89_case : forall fuel sun g1 g2, exists s t,
  generate_simulations fuel sun g1 g2 2451545
    [{| ob_id := "a"; ob_epoch := 60000; ob_row := bcart 3 |}; {| ob_id := "b"; ob_epoch := 60001; ob_row := bcart 5 |}]
  = Ok [("a"%string, s); ("b"%string, t)]
  /\ sim_t s = 84555 / 10 /\ sim_t t = 84565 / 10 /\ vx (fst (sim_state s)) = 3 /\ vx (fst (sim_state t)) = 5
  /\ generate_simulations fuel sun g1 g2 2451545
       [{| ob_id := "a"; ob_epoch := 60000; ob_row := bcart 3 |};
        {| ob_id := "b"; ob_epoch := 60000; ob_row := with_format "TEST" (bcart 3) |}] = Err SysExit.
Proof.
  intros. assert (J : forall e, 0 <= e < 100000 -> julian e = e + 24000005 / 10)
    by (intros e He; unfold julian; destruct (Rlt_dec e (24000005 / 10)); lra).
  destruct (bcart_state fuel sun g1 g2 (julian 60000) 3) as (s & Es & Xs).
  destruct (bcart_state fuel sun g1 g2 (julian 60001) 5) as (t & Et & Xt).
  exists {| sim_t := julian 60000 - 2451545; sim_state := s |}, {| sim_t := julian 60001 - 2451545; sim_state := t |}.
  split.
  { apply C89_each_proof; [repeat constructor; simpl; intuition discriminate|].
    repeat constructor; unfold alone; simpl; [rewrite Es|rewrite Et]; reflexivity. }
  simpl. rewrite !J by lra. split; [lra|]. split; [lra|]. split; [exact Xs|]. split; [exact Xt|].
  destruct (C89_outcome_proof fuel sun g1 g2 2451545
    [{| ob_id := "a"; ob_epoch := 60000; ob_row := bcart 3 |};
     {| ob_id := "b"; ob_epoch := 60000; ob_row := with_format "TEST" (bcart 3) |}]) as [_ B].
  rewrite (B [{| ob_id := "a"; ob_epoch := 60000; ob_row := bcart 3 |}] _ [] eq_refl); [reflexivity| |].
  - intros r [<-|[]]. exists s. unfold alone. simpl. rewrite Es. reflexivity.
  - intros [st E]. discriminate E.
Qed.

(** * C90: times and positions of the visits *)

Theorem C90_each : forall earth pxform et_1962 codes str2et sun code visits out,
  precompute_pointing_information earth pxform et_1962 codes str2et sun code visits = Ok out ->
  Forall2 (fun p x => exists o lon c s f, let et := (x_jd x - 2451545) * 86400 in
    codes code = Some o /\ parallax o lon c s /\ frame_at et_1962 et f
    /\ x_dir x = direction (pt_ra p) (pt_dec p)
    /\ scale (149597870700 / 1000) (x_r_obs x) =
         vadd (fst (earth et)) (scale (6378137 / 1000) (mat_vec (pxform f et) (place lon c s)))
    /\ x_r_sun x = fst (sun (x_jd x)) /\ x_v_sun x = snd (sun (x_jd x))) visits out.
Proof. exact C90_each_proof. Qed.
Print Assumptions C90_each.
Theorem C90_time : forall earth pxform et_1962 codes str2et sun code visits out bound,
  (forall t, Rabs (str2et t - (t - 2451545) * 86400) <= bound) ->
  precompute_pointing_information earth pxform et_1962 codes str2et sun code visits = Ok out ->
  Forall2 (fun p x => Rabs (x_jd x - (pt_mid p + 24000005 / 10 + 32184 / 1000 / 86400)) <= (432 / 10000 + bound) / 86400)
    visits out.
Proof. exact C90_time_proof. Qed.
Print Assumptions C90_time.
Theorem C90_order : forall earth pxform et_1962 codes str2et sun code visits out i j p q x y,
  (forall s t, s <= t -> str2et s <= str2et t) ->
  precompute_pointing_information earth pxform et_1962 codes str2et sun code visits = Ok out ->
  nth_error visits i = Some p -> nth_error visits j = Some q ->
  nth_error out i = Some x -> nth_error out j = Some y ->
  pt_mid p <= pt_mid q -> x_jd x <= x_jd y.
Proof. exact C90_order_proof. Qed.
Print Assumptions C90_order.
Theorem C90_own : forall earth pxform et_1962 codes str2et sun code visits1 visits2 out1 out2 i j p x y,
  precompute_pointing_information earth pxform et_1962 codes str2et sun code visits1 = Ok out1 ->
  precompute_pointing_information earth pxform et_1962 codes str2et sun code visits2 = Ok out2 ->
  nth_error visits1 i = Some p -> nth_error visits2 j = Some p ->
  nth_error out1 i = Some x -> nth_error out2 j = Some y -> x = y.
Proof. exact C90_own_proof. Qed.
Print Assumptions C90_own.
Theorem C90_velocity : forall earth pxform et_1962 codes str2et sun code visits out i x lon c s o b,
  precompute_pointing_information earth pxform et_1962 codes str2et sun code visits = Ok out ->
  nth_error out i = Some x -> codes code = Some o -> parallax o lon c s ->
  let et := (x_jd x - 2451545) * 86400 in
  forall f axis axis1 axis2 axis3, frame_at et_1962 et f -> In axis [vx; vy; vz] ->
  thrice (fun t => axis (mat_vec (pxform f t) (place lon c s))) axis1 axis2 axis3 b ->
  Rabs (axis (x_v_obs x) * (149597870700 / 1000) / 86400 - (axis (snd (earth et)) + 6378137 / 1000 * axis1 et))
    <= 6378137 / 1000 * (b * 10 ^ 2 / 6).
Proof. exact C90_velocity_proof. Qed.
Print Assumptions C90_velocity.
Theorem C90_outcome : forall earth pxform et_1962 codes str2et sun code visits,
  (exists out, precompute_pointing_information earth pxform et_1962 codes str2et sun code visits = Ok out)
  <-> visits = [] \/ exists o lon c s, codes code = Some o /\ parallax o lon c s /\ lon <> 0 /\ c <> 0 /\ s <> 0.
Proof. exact C90_outcome_proof. Qed.
Print Assumptions C90_outcome.

(** An Earth turning at the rate [w], a telescope away from the axis, an exact
    clock: two visits, and what [C90_velocity] says of the second. *)
Definition turning (w : R) (f : frame) (t : R) : mat :=
  M3 (V3 (cos (w * t)) (- sin (w * t)) 0) (V3 (sin (w * t)) (cos (w * t)) 0) (V3 0 0 1).
Lemma turning_thrice : forall w a b, 0 < w ->
  thrice (fun t => a * cos (w * t) + b * sin (w * t))
    (fun t => b * w * cos (w * t) + - (a * w) * sin (w * t))
    (fun t => - (a * w) * w * cos (w * t) + - (b * w * w) * sin (w * t))
    (fun t => - (b * w * w) * w * cos (w * t) + - (- (a * w) * w * w) * sin (w * t)) (w ^ 3 * (Rabs a + Rabs b)).
Proof.
  intros w a b W.
  assert (D : forall p q t, derivable_pt_lim (fun t => p * cos (w * t) + q * sin (w * t)) t (q * w * cos (w * t) + - (p * w) * sin (w * t))).
  { intros p q t. replace (q * w * cos (w * t) + - (p * w) * sin (w * t))
      with (p * (- sin (w * t) * (w * 1)) + q * (cos (w * t) * (w * 1))) by ring.
    apply (derivable_pt_lim_plus (fun t => p * cos (w * t)) (fun t => q * sin (w * t))).
    - apply (derivable_pt_lim_scal (fun t => cos (w * t))).
      apply (derivable_pt_lim_comp (fun t => w * t) cos); [|apply derivable_pt_lim_cos].
      apply (derivable_pt_lim_scal (fun t => t)). apply derivable_pt_lim_id.
    - apply (derivable_pt_lim_scal (fun t => sin (w * t))).
      apply (derivable_pt_lim_comp (fun t => w * t) sin); [|apply derivable_pt_lim_sin].
      apply (derivable_pt_lim_scal (fun t => t)). apply derivable_pt_lim_id. }
  split; [intro t; apply D|]. split; [intro t; apply D|]. split; [intro t; apply D|].
  intro t. replace (- (b * w * w) * w * cos (w * t) + - (- (a * w) * w * w) * sin (w * t))
    with (w ^ 3 * (a * sin (w * t) + - b * cos (w * t))) by ring.
  assert (0 < w ^ 3) by (apply pow_lt; exact W).
  rewrite Rabs_mult, (Rabs_right (w ^ 3)) by lra. apply Rmult_le_compat_l; [lra|].
  eapply Rle_trans; [apply Rabs_triang|]. rewrite !Rabs_mult, Rabs_Ropp.
  assert (Rabs (sin (w * t)) <= 1) by (apply Rabs_le; apply SIN_bound).
  assert (Rabs (cos (w * t)) <= 1) by (apply Rabs_le; apply COS_bound).
  pose proof (Rabs_pos a). pose proof (Rabs_pos b). nra.
Qed.
Example C90_case : forall w visits, 0 < w -> exists out,
  precompute_pointing_information (fun t => (V3 t 0 0, V3 1 0 0)) (turning w) 0
    (fun c => if String.eqb c "X05" then Some {| longitude := Some 90; cosphi := Some (4/5); sinphi := Some (- (3/5)) |} else None)
    (fun jd => (jd - 2451545) * 86400) (fun _ => (V3 0 0 0, V3 0 0 0)) "X05" visits = Ok out
  /\ Forall2 (fun p x => Rabs (x_jd x - (pt_mid p + 24000005 / 10 + 32184 / 1000 / 86400)) <= 5 / 10000000) visits out
  /\ forall i x, nth_error out i = Some x -> let et := (x_jd x - 2451545) * 86400 in
       Rabs (vx (x_v_obs x) * (149597870700 / 1000) / 86400 - (1 - 6378137 / 1000 * (4/5 * w * cos (w * et))))
         <= 6378137 / 1000 * (w ^ 3 * (4/5) * 10 ^ 2 / 6).
Proof.
  intros w visits W.
  destruct (proj2 (C90_outcome_proof (fun t => (V3 t 0 0, V3 1 0 0)) (turning w) 0
    (fun c => if String.eqb c "X05" then Some {| longitude := Some 90; cosphi := Some (4/5); sinphi := Some (- (3/5)) |} else None)
    (fun jd => (jd - 2451545) * 86400) (fun _ => (V3 0 0 0, V3 0 0 0)) "X05" visits)) as [out E].
  { right. eexists _, 90, (4/5), (- (3/5)). split; [reflexivity|]. split; [repeat split|]. lra. }
  exists out. split; [exact E|]. split.
  - eapply C90_time_proof with (bound := 0) in E.
    + replace ((432 / 10000 + 0) / 86400) with (5 / 10000000) in E by lra. exact E.
    + intro t. rewrite Rminus_diag_eq, Rabs_R0 by reflexivity. lra.
  - intros i x I et. pose proof (C90_velocity_proof _ _ _ _ _ _ _ _ _ i x 90 (4/5) (- (3/5)) _ (w ^ 3 * (Rabs 0 + Rabs (- (4/5)))) E I eq_refl
      (conj eq_refl (conj eq_refl eq_refl)) (if Rle_dec 0 et then ITRF93 else IAU_EARTH) vx
      (fun t => - (4/5) * w * cos (w * t) + - (0 * w) * sin (w * t))
      (fun t => - (0 * w) * w * cos (w * t) + - (- (4/5) * w * w) * sin (w * t))
      (fun t => - (- (4/5) * w * w) * w * cos (w * t) + - (- (0 * w) * w * w) * sin (w * t))) as V.
    fold et in V. cbn [snd] in V. rewrite Rabs_R0, Rabs_Ropp, (Rabs_right (4/5)), Rplus_0_l in V by lra.
    replace (1 - 6378137 / 1000 * (4 / 5 * w * cos (w * et)))
      with (1 + 6378137 / 1000 * (- (4 / 5) * w * cos (w * et) + - (0 * w) * sin (w * et))) by ring.
    apply V; [split; intros; destruct (Rle_dec 0 et); auto; lra|left; reflexivity|].
    replace (w ^ 3 * (4/5)) with (w ^ 3 * (Rabs 0 + Rabs (- (4/5)))) by (rewrite Rabs_R0, Rabs_Ropp, (Rabs_right (4/5)) by lra; ring).
    destruct (turning_thrice w 0 (- (4/5)) W) as (T1 & T2 & T3 & T4).
    split; [|split; [exact T2|split; [exact T3|exact T4]]].
    intro t. eapply derivable_pt_lim_ext; [|apply (T1 t)]. intro z. unfold place, turning, mat_vec, dot. simpl.
    replace (90 * PI / 180) with (PI / 2) by field. rewrite cos_PI2, sin_PI2. ring.
Qed.
