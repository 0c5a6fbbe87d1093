(** * C111: measured positions scatter around the true ones by the stated uncertainty *)
From Coq Require Import Reals Lra List.
From Verif Require Import Base.Prelude Model.Sphere Spec.Sphere Proofs.Sphere Proofs.Randomize Proofs.Scatter.
Open Scope R_scope.

Theorem C111_offset : forall ra dec sig gx gy gz ra' dec', randomizeAstrometry ra dec sig (V3 gx gy gz) = (ra', dec') ->
  let r := Rabs (sig * PI / 180) * sqrt (gx * gx + gy * gy + gz * gz) in r < 1 ->
  exists m, 1 - r <= m <= 1 + r
    /\ (forall ex ey ez, orthogonal (V3 ex ey ez) (direction ra dec) ->
          ex * vx (direction ra' dec') + ey * vy (direction ra' dec') + ez * vz (direction ra' dec') = sig * PI / 180 * (ex * gx + ey * gy + ez * gz) / m)
    /\ (cos (dec' * PI / 180) * sin ((ra' - ra) * PI / 180)
        = sig * PI / 180 * (- sin (ra * PI / 180) * gx + cos (ra * PI / 180) * gy) / m)
    /\ (cos (dec * PI / 180) * sin (dec' * PI / 180) - sin (dec * PI / 180) * cos (dec' * PI / 180) * cos ((ra' - ra) * PI / 180)
        = sig * PI / 180 * (cos (dec * PI / 180) * gz - sin (dec * PI / 180) * (cos (ra * PI / 180) * gx + sin (ra * PI / 180) * gy)) / m).
Proof. exact C111_offset_proof. Qed.
Print Assumptions C111_offset.
Theorem C111_angle : forall ra dec sig gx gy gz ra' dec', randomizeAstrometry ra dec sig (V3 gx gy gz) = (ra', dec') ->
  let r := Rabs (sig * PI / 180) * sqrt (gx * gx + gy * gy + gz * gz) in r < 1 ->
  exists d, angle_between (direction ra dec) (direction ra' dec') d /\ d < 90 /\ sin (d * PI / 180) <= r.
Proof. exact C111_angle_proof. Qed.
Print Assumptions C111_angle.

(** An uncertainty of a thousandth of a radian and a draw of one to the east: on the
    equator the measured position is east by a thousandth, within a thousandth of that. *)
Example C111_case : forall ra' dec', randomizeAstrometry 0 0 (180 / PI / 1000) (V3 0 1 0) = (ra', dec') ->
  Rabs (180 / PI / 1000 * PI / 180) * sqrt (0 * 0 + 1 * 1 + 0 * 0) = / 1000
  /\ / 1001 <= cos (dec' * PI / 180) * sin ((ra' - 0) * PI / 180) <= / 999.
Proof.
  intros ra' dec' H. assert (P := PI_RGT_0).
  assert (E : 180 / PI / 1000 * PI / 180 = / 1000) by (field; lra).
  assert (R : Rabs (180 / PI / 1000 * PI / 180) * sqrt (0 * 0 + 1 * 1 + 0 * 0) = / 1000).
  { rewrite E, Rabs_right by lra. replace (0 * 0 + 1 * 1 + 0 * 0) with 1 by ring. rewrite sqrt_1. ring. }
  split; [exact R|].
  destruct (C111_offset_proof _ _ _ _ _ _ _ _ H) as (m & M & _ & X & _); [rewrite R; lra|]. rewrite R in M.
  rewrite X, E. replace (0 * PI / 180) with 0 by field. rewrite sin_0, cos_0. replace (/ 1000 * (- 0 * 0 + 1 * 1)) with (/ 1000) by ring.
  assert (I1 : 1000 * / 1001 <= / m).
  { apply Rmult_le_reg_r with m; [lra|]. rewrite Rinv_l by lra. lra. }
  assert (I2 : / m <= 1000 * / 999).
  { apply Rmult_le_reg_r with m; [lra|]. rewrite Rinv_l by lra. lra. }
  unfold Rdiv. lra.
Qed.
