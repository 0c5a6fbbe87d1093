(** * C108: right ascensions and declinations in binary64 arithmetic *)
From Coq Require Import Reals ZArith Bool Lra Lia.
From Flocq Require Import Core.
From Verif Require Import Base.Prelude Model.LinkingFloat Model.Rounding Model.FadingFloat Model.AngleFloat Spec.Rounding Spec.AngleFloat
  Proofs.LinkingFloat Proofs.Rounding Proofs.FadingFloat Proofs.AngleFloat.
Open Scope R_scope.

Theorem C108_ephemeris_partial : forall atan2 asin x y z p d, angle (atan2 y x) p pi64 -> angle (asin z) d (pi64 / 2) ->
  exists ra dec, vec2ra_dec_f atan2 asin x y z = (Real ra, Real dec) /\ binary64 ra /\ binary64 dec /\ 0 <= ra <= 360 /\ -90 <= dec <= 90
  /\ Rabs (dec - 180 / pi64 * d) <= / 2 ^ 43 /\ exists k, Rabs (ra - (180 / pi64 * p + 360 * IZR k)) <= / 2 ^ 43.
Proof. exact C108_ephemeris_proof. Qed.
Print Assumptions C108_ephemeris_partial.
Theorem C108_randomised_partial : forall atan2 asin norm x y z p d,
  angle (atan2 (divide y (norm x y z)) (divide x (norm x y z))) p pi64 -> angle (asin (divide z (norm x y z))) d (pi64 / 2) ->
  exists ra dec, icrf2radec_f atan2 asin norm x y z = (Real ra, Real dec) /\ binary64 ra /\ binary64 dec /\ 0 <= ra < 360 /\ -90 <= dec <= 90
  /\ Rabs (dec - 180 / pi64 * d) <= / 2 ^ 43 /\ exists k, Rabs (ra - (180 / pi64 * p + 360 * IZR k)) <= / 2 ^ 43.
Proof. exact C108_randomised_proof. Qed.
Print Assumptions C108_randomised_partial.
Theorem C108_full_circle_refuted : forall atan2 asin norm x y z p, binary64 p -> - / 2 ^ 51 <= p < 0 -> (forall a b, atan2 a b = Real p) ->
  fst (vec2ra_dec_f atan2 asin x y z) = Real 360 /\ fst (icrf2radec_f atan2 asin norm x y z) = Real 0.
Proof. exact C108_full_circle_refuted_proof. Qed.
Print Assumptions C108_full_circle_refuted.

(** A direction one radian before the origin of right ascension and one radian above
    the equator: both functions give 360 degrees less a radian, and a radian. *)
Example C108_case :
  let r := 1007958012753983 / 17592186044416 in
  angle (Real (-1)) (-1) pi64 /\ angle (Real 1) 1 (pi64 / 2)
  /\ (forall x y z, vec2ra_dec_f (fun _ _ => Real (-1)) (fun _ => Real 1) x y z = (Real (360 - r), Real r))
  /\ (forall x y z, icrf2radec_f (fun _ _ => Real (-1)) (fun _ => Real 1) (fun _ _ _ => Real 1) x y z = (Real (360 - r), Real r)).
Proof.
  intro r. assert (B1 : binary64 1) by (split; [apply (format_int 1); lia|rewrite Rabs_R1; assert (T := top_big); lra]).
  assert (Bm : binary64 (-1)) by (split; [apply (format_int (-1)); lia|rewrite Rabs_left by lra; assert (T := top_big); lra]).
  assert (FR : format r).
  { replace r with (F2R (Float radix2 1007958012753983 (-44))).
    - apply generic_format_FLT. exists (Float radix2 1007958012753983 (-44)); cbn; [reflexivity|lia|lia].
    - unfold F2R, r. cbn [Fnum Fexp]. replace (bpow radix2 (-44)) with (/ 17592186044416) by (cbn; lra). lra. }
  assert (M1 : multiply radeg (Real 1) = Real r).
  { rewrite radeg_val. cbn [multiply]. rewrite Rmult_1_r. change R0 with r. rewrite finish_real; rewrite fl_float by exact FR; [reflexivity|].
    unfold r. rewrite Rabs_right by lra. assert (T := top_big). lra. }
  assert (Mm : multiply radeg (Real (-1)) = Real (- r)).
  { rewrite radeg_val. cbn [multiply]. change R0 with r. replace (r * -1) with (- r) by ring.
    rewrite finish_real; rewrite fl_float by (apply generic_format_opp; exact FR); [reflexivity|].
    unfold r. rewrite Rabs_left by lra. assert (T := top_big). lra. }
  assert (S : finish (- r + 360) = Real (360 - r)).
  { assert (F : format (360 - r)).
    { replace (360 - r) with (F2R (Float radix2 5325228963235777 (-44))).
      - apply generic_format_FLT. exists (Float radix2 5325228963235777 (-44)); cbn; [reflexivity|lia|lia].
      - unfold F2R, r. cbn [Fnum Fexp]. replace (bpow radix2 (-44)) with (/ 17592186044416) by (cbn; lra). lra. }
    replace (- r + 360) with (360 - r) by ring. rewrite finish_real; rewrite fl_float by exact F; [reflexivity|].
    unfold r. rewrite Rabs_right by lra. assert (T := top_big). lra. }
  split; [split; [reflexivity|]; split; [exact Bm|]; rewrite Rabs_left by lra; unfold pi64; lra|].
  split; [split; [reflexivity|]; split; [exact B1|]; rewrite Rabs_right by lra; unfold pi64; lra|].
  split; intros x y z.
  - unfold vec2ra_dec_f. rewrite M1, Mm. cbn [np_mod]. rewrite trunc_0 by (unfold r; lra). rewrite Rmult_0_r, Rminus_0_r.
    rewrite (proj2 (rltb_true (- r) 0)) by (unfold r; lra). rewrite S. reflexivity.
  - unfold icrf2radec_f, rad2deg_f. rewrite !degrees', M1, Mm. cbn [plus]. rewrite S. cbn [np_mod]. rewrite trunc_0 by (unfold r; lra).
    rewrite Rmult_0_r, Rminus_0_r. destruct (rltb (360 - r) 0) eqn:L; [apply rltb_true in L; unfold r in L; lra|]. reflexivity.
Qed.
