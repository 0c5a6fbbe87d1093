(** * C113: magnitudes and depths in binary64 arithmetic; C114: times of visits *)
From Coq Require Import List Reals ZArith Bool Lra Lia.
From Flocq Require Import Core.
From Verif Require Import Base.Prelude Model.Photometry Model.LinkingFloat Model.Rounding Model.FadingFloat Model.UncertaintyFloat Model.MagnitudeFloat
  Spec.Rounding Spec.UncertaintyFloat Spec.UncertaintyClose Spec.MagnitudeFloat Proofs.LinkingFloat Proofs.Rounding Proofs.FadingFloat Proofs.AngleFloat Proofs.UncertaintyFloat Proofs.UncertaintyClose Proofs.MagnitudeFloat.
Import ListNotations.
Open Scope R_scope.

Theorem C113_close : forall L k range x y z m, accurate_log10 L -> converts k -> in_reach range -> in_reach (sqrt (x ^ 2 + y ^ 2 + z ^ 2)) -> Rabs m <= 100 ->
  exists v, apparent_f L k (Real range) (Real x) (Real y) (Real z) (Real m) = Real v
    /\ Rabs (v - magnitude_at range (sqrt (x ^ 2 + y ^ 2 + z ^ 2)) m) <= / 10 ^ 12.
Proof. exact C113_close_proof. Qed.
Print Assumptions C113_close.
Theorem C113_order : forall L k range x y z m range' x' y' z' m', accurate_log10 L -> increasing_log10 L -> converts k ->
  in_reach range -> in_reach (sqrt (x ^ 2 + y ^ 2 + z ^ 2)) -> in_reach range' -> in_reach (sqrt (x' ^ 2 + y' ^ 2 + z' ^ 2)) ->
  range <= range' -> Rabs x <= Rabs x' -> Rabs y <= Rabs y' -> Rabs z <= Rabs z' -> m <= m' ->
  at_most (apparent_f L k (Real range) (Real x) (Real y) (Real z) (Real m)) (apparent_f L k (Real range') (Real x') (Real y') (Real z') (Real m')).
Proof. exact C113_order_proof. Qed.
Print Assumptions C113_order.
Theorem C113_psf : forall L on dra ddec seeing texp m, library_log L -> practical dra ddec seeing texp -> binary64 m ->
  let p := psf_mag_f L on (Real dra) (Real ddec) (Real seeing) (Real texp) (Real m) in
  at_most (Real m) p /\ (on = false \/ dra = 0 /\ ddec = 0 -> p = Real m).
Proof. exact C113_psf_proof. Qed.
Print Assumptions C113_psf.
Theorem C113_trailing : forall L dra ddec s t m, accurate_log10 L -> ordinary dra ddec s t -> Rabs m <= 100 ->
  absolutely (psf_mag_f L true (Real dra) (Real ddec) (Real s) (Real t) (Real m)) (m + trailing_loss (420 / 1000) (3 / 1000) (trail_length dra ddec s t)).
Proof. exact C113_trailing_proof. Qed.
Print Assumptions C113_trailing.
Theorem C113_depth : forall L theta f d, accurate_log10 L -> binary64 theta -> fraction_at theta f -> binary64 d -> Rabs d <= 100 ->
  depth_f L false (Real d) (Real theta) = Real d
  /\ exists v, depth_f L true (Real d) (Real theta) = Real v /\ v <= d /\ Rabs (v - (d + 5 / 2 * (ln f / ln 10))) <= / 10 ^ 12
     /\ (theta <= 64 / 100 -> v = d).
Proof. exact C113_depth_proof. Qed.
Print Assumptions C113_depth.
Theorem C114_midpoint : forall t s, a_time t -> a_duration s ->
  exists m, midpoint_f (Real t) (Real s) = Real m /\ t <= m /\ Rabs (m - (t + s / 172800)) <= / 10 ^ 10
    /\ forall t' s', a_time t' -> a_duration s' -> t <= t' -> s <= s' -> exists m', midpoint_f (Real t') (Real s') = Real m' /\ m <= m'.
Proof. exact C114_midpoint_proof. Qed.
Print Assumptions C114_midpoint.
Theorem C114_start : forall m e, a_time m -> a_duration e ->
  exists t, des_start_f (Real m) (Real e) = Real t /\ t <= m /\ Rabs (t - (m - e / 172800)) <= / 10 ^ 10
    /\ forall m' e', a_time m' -> a_duration e' -> m <= m' -> e' <= e -> exists t', des_start_f (Real m') (Real e') = Real t' /\ t <= t'.
Proof. exact C114_start_proof. Qed.
Print Assumptions C114_start.

(** The correctly rounded logarithm meets the hypotheses.  An object of reduced magnitude
    20, one au from the Sun and from the observer, is computed to have magnitude 20 to
    twelve decimals, and is not fainter than one that is two au from the Sun.  It has the
    same PSF magnitude if it does not move. *)
Example C113_case :
  accurate_log10 rounded_log /\ increasing_log10 rounded_log /\ library_log rounded_log /\ converts (/ au_km)
  /\ (exists v, apparent_f rounded_log (/ au_km) (Real au_km) (Real au_km) (Real 0) (Real 0) (Real 20) = Real v /\ Rabs (v - 20) <= / 10 ^ 12
      /\ at_most (Real v) (apparent_f rounded_log (/ au_km) (Real au_km) (Real (- 2 * au_km)) (Real 0) (Real 0) (Real 20)))
  /\ psf_mag_f rounded_log true (Real 0) (Real 0) (Real 1) (Real 30) (Real 20) = Real 20 /\ ordinary (1 / 2) 0 1 30.
Proof.
  assert (LA := rounded_log10_accurate). assert (LI := rounded_log10_increasing). assert (LL := rounded_log_library). assert (AU := au_pos).
  assert (K : converts (/ au_km)). { unfold converts. rewrite Rminus_diag_eq, Rabs_R0 by reflexivity. apply Rmult_le_pos; [lra|left; apply Rinv_0_lt_compat; lra]. }
  assert (S1 : sqrt (au_km ^ 2 + 0 ^ 2 + 0 ^ 2) = au_km). { replace (au_km ^ 2 + 0 ^ 2 + 0 ^ 2) with (au_km * au_km) by ring. apply sqrt_square. lra. }
  assert (S2 : sqrt ((- 2 * au_km) ^ 2 + 0 ^ 2 + 0 ^ 2) = 2 * au_km). { replace ((- 2 * au_km) ^ 2 + 0 ^ 2 + 0 ^ 2) with ((2 * au_km) * (2 * au_km)) by ring. apply sqrt_square. lra. }
  assert (R1 : in_reach au_km) by (unfold in_reach; lra). assert (R2 : in_reach (2 * au_km)) by (unfold in_reach; lra).
  split; [exact LA|]. split; [exact LI|]. split; [exact LL|]. split; [exact K|]. split.
  - destruct (C113_close_proof rounded_log (/ au_km) au_km au_km 0 0 20 LA K R1 ltac:(rewrite S1; exact R1) ltac:(rewrite Rabs_right; lra)) as (v & E & V).
    exists v. split; [exact E|]. split.
    + rewrite S1 in V. unfold magnitude_at in V. unfold Rdiv in V. rewrite Rinv_r, ln_1 in V by lra. replace (5 * (0 * / ln 10) + 5 * (0 * / ln 10) + 20) with 20 in V by ring. exact V.
    + rewrite <- E. apply C113_order_proof; auto; try (rewrite ?S1, ?S2; assumption); try lra. rewrite Rabs_right, Rabs_left by lra. lra.
  - split.
    2: { unfold ordinary. rewrite Rabs_right by lra. repeat split; lra. }
    assert (B : binary64 20) by (split; [apply (format_int 20); lia|rewrite Rabs_right by lra; assert (T := top_big); lra]).
    apply (C113_psf_proof rounded_log true 0 0 1 30 20 LL); [|exact B|right; auto].
    unfold practical. rewrite Rabs_R0. repeat split; lra.
Qed.
(** Two degrees from the centre 201974 / 623885 of the light is left; a depth of 24
    becomes 24 + 2.5 log10 of that, to twelve decimals. *)
Example C113_depth_case :
  fraction_at 2 (201974 / 623885)
  /\ exists v, depth_f rounded_log true (Real 24) (Real 2) = Real v /\ v <= 24 /\ Rabs (v - (24 + 5 / 2 * (ln (201974 / 623885) / ln 10))) <= / 10 ^ 12.
Proof.
  assert (F : fraction_at 2 (201974 / 623885)) by (right; split; [lra|reflexivity]). split; [exact F|].
  assert (B : forall n, (0 <= n <= 100)%Z -> binary64 (IZR n)).
  { intros n N. assert (0 <= IZR n <= 100) by (split; apply IZR_le; lia). split; [apply format_int; lia|rewrite Rabs_right by lra; assert (T := top_big); lra]. }
  destruct (C113_depth_proof rounded_log 2 _ 24 rounded_log10_accurate (B 2%Z ltac:(lia)) F (B 24%Z ltac:(lia)) ltac:(rewrite Rabs_right; lra)) as (_ & v & E & L & V & _).
  exists v. auto.
Qed.
(** A visit of 34 seconds that starts at MJD 60000. *)
Example C114_case :
  a_time 60000 /\ a_duration 34
  /\ exists m, midpoint_f (Real 60000) (Real 34) = Real m /\ 60000 <= m /\ Rabs (m - (60000 + 17 / 86400)) <= / 10 ^ 10
     /\ exists t, des_start_f (Real 60000) (Real 34) = Real t /\ t <= 60000 /\ Rabs (t - (60000 - 17 / 86400)) <= / 10 ^ 10.
Proof.
  assert (LT : bpow radix2 20 < bpow radix2 1024) by (apply bpow_lt; lia). change (bpow radix2 20) with 1048576 in LT.
  assert (T : a_time 60000) by (split; [split; [apply (format_int 60000); lia|rewrite Rabs_right; lra]|lra]).
  assert (D : a_duration 34) by (split; [split; [apply (format_int 34); lia|rewrite Rabs_right; lra]|lra]).
  split; [exact T|]. split; [exact D|].
  destruct (C114_midpoint_proof 60000 34 T D) as (m & E & M & C & _). exists m. split; [exact E|]. split; [exact M|]. split; [replace (17 / 86400) with (34 / 172800) by lra; exact C|].
  destruct (C114_start_proof 60000 34 T D) as (t & E' & M' & C' & _). exists t. split; [exact E'|]. split; [exact M'|]. replace (17 / 86400) with (34 / 172800) by lra. exact C'.
Qed.
