(** Angles in binary64 arithmetic. *)
From Coq Require Import Reals ZArith Bool Lia Lra.
From Flocq Require Import Core Sterbenz.
From Verif Require Import Base.Prelude Model.LinkingFloat Model.Rounding Model.FadingFloat Model.AngleFloat
  Spec.LinkingFloat Spec.Rounding Spec.AngleFloat Proofs.LinkingFloat Proofs.Rounding Proofs.FadingFloat.
Open Scope R_scope.

Local Instance prec53a : Prec_gt_0 53 := eq_refl.

(** The float64 nearest to [x], from the nearest multiple of the unit in the last place. *)
Lemma fl_at : forall x e n, (-1021 <= e)%Z -> bpow radix2 (e - 1) <= Rabs x < bpow radix2 e -> Rabs (x * bpow radix2 (53 - e) - IZR n) < / 2 ->
  fl x = IZR n * bpow radix2 (e - 53).
Proof.
  intros x e n He B H. unfold fl, round, F2R. cbn [Fnum Fexp]. unfold scaled_mantissa, cexp.
  rewrite (mag_unique radix2 x e B). unfold FLT_exp. rewrite Z.max_l by lia. f_equal. f_equal. apply Znearest_imp.
  replace (- (e - 53))%Z with (53 - e)%Z by lia. exact H.
Qed.
Definition R0 : R := 1007958012753983 / 17592186044416.
Lemma radeg_val : radeg = Real R0.
Proof.
  unfold radeg, np_pi. cbn [divide].
  assert (E : fl (180 / (884279719003555 / 281474976710656)) = R0).
  { rewrite (fl_at _ 6 8063664102031864).
    - unfold R0. replace (bpow radix2 (6 - 53)) with (/ 140737488355328) by (cbn; lra). lra.
    - lia.
    - replace (bpow radix2 (6 - 1)) with 32 by (cbn; lra). replace (bpow radix2 6) with 64 by (cbn; lra).
      replace (180 / (884279719003555 / 281474976710656)) with (180 * 281474976710656 / 884279719003555) by field. rewrite Rabs_right; lra.
    - replace (bpow radix2 (53 - 6)) with 140737488355328 by (cbn; lra).
      replace (180 / (884279719003555 / 281474976710656)) with (180 * 281474976710656 / 884279719003555) by field. apply Rabs_lt. lra. }
  rewrite finish_real; rewrite E; [reflexivity|]. unfold R0. rewrite Rabs_right by lra. assert (T := top_half). lra.
Qed.
Lemma format_int : forall m, (Z.abs m <= 9007199254740992)%Z -> format (IZR m).
Proof. intros m H. rewrite <- (int_float m H). apply generic_format_round; auto with typeclass_instances. Qed.
Lemma top_big : 2048 <= top. Proof. assert (T := top_half). lra. Qed.
Lemma fl_within : forall x m, (0 <= m <= 2000)%Z -> Rabs x <= IZR m -> Rabs (fl x) <= IZR m /\ finish x = Real (fl x).
Proof.
  intros x m M H. assert (F : format (IZR m)) by (apply format_int; lia). apply Rabs_le_inv in H.
  assert (B : Rabs (fl x) <= IZR m).
  { apply Rabs_le. split; [apply fl_ge_float; [apply generic_format_opp; exact F|lra]|apply fl_le_float; [exact F|lra]]. }
  split; [exact B|]. apply finish_real. assert (T := top_big). assert (IZR m <= 2000) by (apply IZR_le; lia). lra.
Qed.
Lemma degrees : forall p b m, (0 <= m <= 2000)%Z -> R0 * b <= IZR m -> Rabs p <= b -> multiply radeg (Real p) = Real (fl (R0 * p)) /\ Rabs (fl (R0 * p)) <= IZR m.
Proof.
  intros p b m M H P. rewrite radeg_val. cbn [multiply].
  assert (B : Rabs (R0 * p) <= IZR m). { rewrite Rabs_mult. rewrite (Rabs_right R0) by (unfold R0; lra). apply Rle_trans with (R0 * b); [apply Rmult_le_compat_l; [unfold R0; lra|exact P]|exact H]. }
  destruct (fl_within _ m M B) as [B' ->]. auto.
Qed.
Lemma degrees' : forall p, multiply (Real p) radeg = multiply radeg (Real p).
Proof. intro p. rewrite radeg_val. cbn [multiply]. rewrite Rmult_comm. reflexivity. Qed.
Lemma trunc_0 : forall x, -360 < x < 360 -> Ztrunc (x / 360) = 0%Z.
Proof.
  intros x H. destruct (Rle_or_lt 0 x) as [X|X].
  - rewrite Ztrunc_floor by (apply Rmult_le_pos; lra). apply Zfloor_imp. cbn. lra.
  - rewrite Ztrunc_ceil by lra. apply Zceil_imp. cbn. lra.
Qed.
Lemma trunc_1 : forall x, 360 <= x < 720 -> Ztrunc (x / 360) = 1%Z.
Proof. intros x H. rewrite Ztrunc_floor by lra. apply Zfloor_imp. cbn. lra. Qed.
Lemma half_ulp : forall x, Rabs x <= 512 -> Rabs (fl x - x) <= / 2 ^ 45.
Proof.
  intros x H. destruct (Req_dec (Rabs x) 512) as [E|E].
  - assert (F : format x). { assert (x = 512 \/ x = - 512) as [-> | ->] by (unfold Rabs in E; destruct (Rcase_abs x); lra); [|apply generic_format_opp]; apply (format_int 512); lia. }
    rewrite fl_float by exact F. rewrite Rminus_diag_eq, Rabs_R0 by reflexivity. left. apply Rinv_0_lt_compat. lra.
  - apply Rle_trans with (/ 2 * ulp radix2 (FLT_exp (-1074) 53) x); [apply error_le_half_ulp; auto with typeclass_instances|].
    destruct (Req_dec x 0) as [->|N].
    + rewrite ulp_FLT_small; [|auto with typeclass_instances|rewrite Rabs_R0; apply bpow_gt_0].
      apply Rle_trans with (/ 2 * bpow radix2 (-44)); [apply Rmult_le_compat_l; [lra|apply bpow_le; lia]|cbn; lra].
    + rewrite ulp_neq_0 by exact N. unfold cexp, FLT_exp. apply Rle_trans with (/ 2 * bpow radix2 (-44)); [|cbn; lra].
      apply Rmult_le_compat_l; [lra|]. apply bpow_le. assert (M : (mag radix2 x <= 9)%Z).
      { apply mag_le_bpow; [exact N|]. replace (bpow radix2 9) with 512 by (cbn; lra). lra. }
      lia.
Qed.
Lemma R0_pi : R0 * pi64 <= 180. Proof. unfold R0, pi64. lra. Qed.
Lemma R0_half_pi : R0 * (pi64 / 2) <= 90. Proof. unfold R0, pi64. lra. Qed.

Lemma R0_close : forall p, Rabs p <= 4 -> Rabs (R0 * p - 180 / pi64 * p) <= / 2 ^ 46.
Proof.
  intros p P. replace (R0 * p - 180 / pi64 * p) with ((R0 - 180 / pi64) * p) by ring. rewrite Rabs_mult.
  apply Rle_trans with (/ 2 ^ 48 * 4); [|lra]. apply Rmult_le_compat; [apply Rabs_pos|apply Rabs_pos| |exact P].
  unfold R0, pi64. replace (180 / (884279719003555 / 2 ^ 48)) with (180 * 2 ^ 48 / 884279719003555) by (field; lra). apply Rabs_le. lra.
Qed.
Lemma deg_close : forall p, Rabs p <= 4 -> Rabs (R0 * p) <= 512 -> Rabs (fl (R0 * p) - 180 / pi64 * p) <= 3 * / 2 ^ 46.
Proof.
  intros p P Q. assert (A := half_ulp _ Q). assert (B := R0_close p P).
  apply Rabs_le_inv in A. apply Rabs_le_inv in B. apply Rabs_le. lra.
Qed.
Lemma R0_abs : forall p b, Rabs p <= b -> R0 * b <= 512 -> Rabs (R0 * p) <= 512.
Proof. intros p b P H. rewrite Rabs_mult, (Rabs_right R0) by (unfold R0; lra). apply Rle_trans with (R0 * b); [apply Rmult_le_compat_l; [unfold R0; lra|exact P]|exact H]. Qed.

Lemma C108_ephemeris_proof : forall atan2 asin x y z p d, angle (atan2 y x) p pi64 -> angle (asin z) d (pi64 / 2) ->
  exists ra dec, vec2ra_dec_f atan2 asin x y z = (Real ra, Real dec) /\ binary64 ra /\ binary64 dec /\ 0 <= ra <= 360 /\ -90 <= dec <= 90
  /\ Rabs (dec - 180 / pi64 * d) <= / 2 ^ 43 /\ exists k, Rabs (ra - (180 / pi64 * p + 360 * IZR k)) <= / 2 ^ 43.
Proof.
  intros atan2 asin x y z p d (Ep & Bp & Lp) (Ed & Bd & Ld). unfold vec2ra_dec_f. rewrite Ep, Ed.
  destruct (degrees p pi64 180 ltac:(lia) R0_pi Lp) as [-> P]. destruct (degrees d (pi64 / 2) 90 ltac:(lia) R0_half_pi Ld) as [-> D].
  assert (P4 : Rabs p <= 4) by (unfold pi64 in Lp; lra). assert (D4 : Rabs d <= 4) by (unfold pi64 in Ld; lra).
  assert (CP := deg_close p P4 (R0_abs _ _ Lp ltac:(assert (Q := R0_pi); lra))).
  assert (CD := deg_close d D4 (R0_abs _ _ Ld ltac:(assert (Q := R0_half_pi); lra))).
  apply Rabs_le_inv in P. apply Rabs_le_inv in D. apply Rabs_le_inv in CP. apply Rabs_le_inv in CD.
  assert (BR : forall t, -360 <= fl t <= 360 -> binary64 (fl t)) by (intros t Ht; apply fl_binary64; assert (T := top_big); apply Rle_lt_trans with 360; [apply Rabs_le; lra|lra]).
  cbn [np_mod]. rewrite trunc_0 by lra. rewrite Rmult_0_r, Rminus_0_r. destruct (rltb (fl (R0 * p)) 0) eqn:L.
  - apply rltb_true in L. assert (A360 : Rabs (fl (R0 * p) + 360) <= 360) by (apply Rabs_le; lra).
    destruct (fl_within _ 360 ltac:(lia) A360) as [W ->]. apply Rabs_le_inv in W.
    assert (H := half_ulp (fl (R0 * p) + 360) ltac:(lra)). apply Rabs_le_inv in H.
    exists (fl (fl (R0 * p) + 360)), (fl (R0 * d)). split; [reflexivity|]. split; [apply BR; lra|]. split; [apply BR; lra|].
    split; [split; [apply fl_ge_float; [apply (format_int 0); lia|lra]|lra]|]. split; [lra|]. split; [apply Rabs_le; lra|].
    exists 1%Z. apply Rabs_le. lra.
  - assert (L' : 0 <= fl (R0 * p)) by (apply Rnot_lt_le; intro N; rewrite (proj2 (rltb_true _ _) N) in L; discriminate).
    exists (fl (R0 * p)), (fl (R0 * d)). split; [reflexivity|]. split; [apply BR; lra|]. split; [apply BR; lra|].
    split; [lra|]. split; [lra|]. split; [apply Rabs_le; lra|]. exists 0%Z. apply Rabs_le. lra.
Qed.

Lemma half_ulp' : forall x, 0 <= x <= 540 -> Rabs (fl x - x) <= / 2 ^ 44.
Proof.
  intros x H. destruct (Rle_or_lt x 512) as [L|L].
  - assert (A := half_ulp x ltac:(rewrite Rabs_right; lra)). lra.
  - apply Rle_trans with (/ 2 * ulp radix2 (FLT_exp (-1074) 53) x); [apply error_le_half_ulp; auto with typeclass_instances|].
    rewrite ulp_neq_0 by lra. unfold cexp, FLT_exp. apply Rle_trans with (/ 2 * bpow radix2 (-43)); [|cbn; lra].
    apply Rmult_le_compat_l; [lra|]. apply bpow_le. assert (M : (mag radix2 x <= 10)%Z).
    { apply mag_le_bpow; [lra|]. replace (bpow radix2 10) with 1024 by (cbn; lra). rewrite Rabs_right; lra. }
    lia.
Qed.

Lemma C108_randomised_proof : forall atan2 asin norm x y z p d,
  angle (atan2 (divide y (norm x y z)) (divide x (norm x y z))) p pi64 -> angle (asin (divide z (norm x y z))) d (pi64 / 2) ->
  exists ra dec, icrf2radec_f atan2 asin norm x y z = (Real ra, Real dec) /\ binary64 ra /\ binary64 dec /\ 0 <= ra < 360 /\ -90 <= dec <= 90
  /\ Rabs (dec - 180 / pi64 * d) <= / 2 ^ 43 /\ exists k, Rabs (ra - (180 / pi64 * p + 360 * IZR k)) <= / 2 ^ 43.
Proof.
  intros atan2 asin norm x y z p d (Ep & Bp & Lp) (Ed & Bd & Ld). unfold icrf2radec_f, rad2deg_f. rewrite Ep, Ed, !degrees'.
  destruct (degrees p pi64 180 ltac:(lia) R0_pi Lp) as [-> P]. destruct (degrees d (pi64 / 2) 90 ltac:(lia) R0_half_pi Ld) as [-> D].
  assert (P4 : Rabs p <= 4) by (unfold pi64 in Lp; lra). assert (D4 : Rabs d <= 4) by (unfold pi64 in Ld; lra).
  assert (CP := deg_close p P4 (R0_abs _ _ Lp ltac:(assert (Q := R0_pi); lra))).
  assert (CD := deg_close d D4 (R0_abs _ _ Ld ltac:(assert (Q := R0_half_pi); lra))).
  apply Rabs_le_inv in P. apply Rabs_le_inv in D. apply Rabs_le_inv in CP. apply Rabs_le_inv in CD.
  assert (BR : forall t, -540 <= fl t <= 540 -> binary64 (fl t)) by (intros t Ht; apply fl_binary64; assert (T := top_big); apply Rle_lt_trans with 540; [apply Rabs_le; lra|lra]).
  cbn [plus]. set (t := fl (R0 * p)) in *.
  destruct (fl_within (t + 360) 540 ltac:(lia) ltac:(apply Rabs_le; lra)) as [W ->]. apply Rabs_le_inv in W.
  assert (G : 180 <= fl (t + 360)) by (apply fl_ge_float; [apply (format_int 180); lia|lra]).
  assert (H := half_ulp' (t + 360) ltac:(lra)). apply Rabs_le_inv in H.
  assert (FS : format (fl (t + 360))) by (apply generic_format_round; auto with typeclass_instances).
  assert (BS := BR (t + 360) ltac:(lra)). set (s := fl (t + 360)) in *. cbn [np_mod].
  destruct (Rlt_or_le s 360) as [K|K].
  - rewrite trunc_0 by lra. rewrite Rmult_0_r, Rminus_0_r. destruct (rltb s 0) eqn:L; [apply rltb_true in L; lra|].
    exists s, (fl (R0 * d)). split; [reflexivity|]. split; [exact BS|]. split; [apply BR; lra|].
    split; [lra|]. split; [lra|]. split; [apply Rabs_le; lra|]. exists 1%Z. apply Rabs_le. lra.
  - rewrite trunc_1 by lra. rewrite Rmult_1_r. destruct (rltb (s - 360) 0) eqn:L; [apply rltb_true in L; lra|].
    exists (s - 360), (fl (R0 * d)). split; [reflexivity|]. split.
    { split; [|assert (T := top_big); apply Rle_lt_trans with 180; [apply Rabs_le; lra|fold top; lra]].
      apply sterbenz; [auto with typeclass_instances|auto with typeclass_instances|exact FS|apply (format_int 360); lia|lra]. }
    split; [apply BR; lra|]. split; [lra|]. split; [lra|]. split; [apply Rabs_le; lra|]. exists 0%Z. apply Rabs_le. lra.
Qed.

Lemma just_below : forall p, binary64 p -> - / 2 ^ 51 <= p < 0 -> - / 2 ^ 45 < fl (R0 * p) < 0.
Proof.
  intros p [F _] H. split.
  - apply Rlt_le_trans with (- (R0 * / 2 ^ 51)); [unfold R0; lra|]. apply fl_ge_float.
    + apply generic_format_opp. replace (R0 * / 2 ^ 51) with (F2R (Float radix2 1007958012753983 (-95))).
      * apply generic_format_FLT. exists (Float radix2 1007958012753983 (-95)); cbn; [reflexivity|lia|lia].
      * unfold F2R, R0. cbn [Fnum Fexp]. change (-95)%Z with (-44 + -51)%Z. rewrite bpow_plus. replace (bpow radix2 (-44)) with (/ 17592186044416) by (cbn; lra). replace (bpow radix2 (-51)) with (/ 2 ^ 51) by (cbn; lra). lra.
    + unfold R0. lra.
  - apply Rle_lt_trans with p; [|lra]. apply fl_le_float; [exact F|]. unfold R0. lra.
Qed.
Lemma C108_full_circle_refuted_proof : forall atan2 asin norm x y z p, binary64 p -> - / 2 ^ 51 <= p < 0 -> (forall a b, atan2 a b = Real p) ->
  fst (vec2ra_dec_f atan2 asin x y z) = Real 360 /\ fst (icrf2radec_f atan2 asin norm x y z) = Real 0.
Proof.
  intros atan2 asin norm x y z p B H E. assert (T := just_below p B H).
  assert (Lp : Rabs p <= pi64) by (apply Rabs_le; unfold pi64; lra).
  destruct (degrees p pi64 180 ltac:(lia) R0_pi Lp) as [M _].
  assert (S360 : fl (fl (R0 * p) + 360) = 360).
  { rewrite (fl_at _ 9 (360 * 17592186044416)).
    - rewrite mult_IZR. replace (bpow radix2 (9 - 53)) with (/ 17592186044416) by (cbn; lra). lra.
    - lia.
    - replace (bpow radix2 (9 - 1)) with 256 by (cbn; lra). replace (bpow radix2 9) with 512 by (cbn; lra). rewrite Rabs_right; lra.
    - rewrite mult_IZR. replace (bpow radix2 (53 - 9)) with 17592186044416 by (cbn; lra). apply Rabs_lt. lra. }
  assert (F360 : finish (fl (R0 * p) + 360) = Real 360).
  { destruct (fl_within (fl (R0 * p) + 360) 360 ltac:(lia) ltac:(apply Rabs_le; lra)) as [_ ->]. rewrite S360. reflexivity. }
  split.
  - unfold vec2ra_dec_f. cbn [fst]. rewrite E, M. cbn [np_mod]. rewrite trunc_0 by lra. rewrite Rmult_0_r, Rminus_0_r.
    rewrite (proj2 (rltb_true _ _)) by lra. exact F360.
  - unfold icrf2radec_f, rad2deg_f. cbn [fst]. rewrite E, degrees', M. cbn [plus]. rewrite F360. cbn [np_mod]. rewrite trunc_1 by lra.
    rewrite Rmult_1_r. destruct (rltb (360 - 360) 0) eqn:L; [apply rltb_true in L; lra|]. f_equal. ring.
Qed.
