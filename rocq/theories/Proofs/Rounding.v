(** Rounding of written columns. *)
From Coq Require Import String List Arith ZArith Reals Bool Lia Lra.
From Flocq Require Import Core Relative.
From Verif Require Import Base.Prelude Model.Output Model.LinkingFloat Model.Rounding Spec.Output Spec.LinkingFloat Spec.Rounding
  Proofs.Output Proofs.LinkingFloat.
Import ListNotations.
Open Scope R_scope.

Local Instance prec53' : Prec_gt_0 53 := eq_refl.

(** ** Large and small numbers *)
Notation top := (bpow radix2 1024).
Notation eta := (bpow radix2 (-1075)).
Lemma pow_IZR : forall n, 10 ^ n = IZR (10 ^ Z.of_nat n).
Proof. intro n. rewrite pow_IZR. reflexivity. Qed.
Lemma pow10_ge_1 : forall n, 1 <= 10 ^ n.
Proof. intro n. apply pow_R1_Rle. lra. Qed.
Lemma pow10_le : forall n m, (n <= m)%nat -> 10 ^ n <= 10 ^ m.
Proof. intros. apply Rle_pow; [lra|auto]. Qed.
Lemma bpow_Z : forall e, (0 <= e)%Z -> bpow radix2 e = IZR (2 ^ e).
Proof. intros e H. symmetry. exact (IZR_Zpower radix2 e H). Qed.
Lemma top_large : 17 / 10 * 10 ^ 308 < top.
Proof.
  rewrite pow_IZR. rewrite bpow_Z by lia.
  assert (H : IZR (17 * 10 ^ Z.of_nat 308) < IZR (10 * 2 ^ 1024)) by (apply IZR_lt; vm_compute; reflexivity).
  rewrite !mult_IZR in H. lra.
Qed.
Lemma top_small : top <= 10 ^ 309.
Proof.
  rewrite pow_IZR. rewrite bpow_Z by lia.
  apply IZR_le. vm_compute. discriminate.
Qed.
Lemma eta_pos : 0 < eta.
Proof. apply bpow_gt_0. Qed.
Lemma eta_small : 1000000000000000 * 10 ^ 308 * eta <= 1.
Proof.
  assert (E : eta * IZR (2 ^ 1075) = 1).
  { rewrite <- bpow_Z by lia. rewrite <- bpow_plus. reflexivity. }
  assert (H : 1000000000000000 * 10 ^ 308 <= IZR (2 ^ 1075)).
  { rewrite pow_IZR. rewrite <- mult_IZR. apply IZR_le. vm_compute. discriminate. }
  assert (P := eta_pos). apply Rmult_le_compat_r with (r := eta) in H; lra.
Qed.

(** ** One operation *)
Lemma fl_two : forall x, Rabs (fl x - x) <= small * Rabs x + eta.
Proof.
  intro x. destruct (relative_error_N_FLT'_ex radix2 (-1074) 53 eq_refl (fun x => negb (Z.even x)) x) as (eps & et & E1 & E2 & _ & E).
  change (round radix2 (FLT_exp (-1074) 53) (Znearest (fun x => negb (Z.even x))) x) with (fl x) in E. rewrite E.
  replace (x * (1 + eps) + et - x) with (x * eps + et) by ring.
  assert (U : Rabs eps <= small).
  { apply Rle_trans with (1 := E1). unfold u_ro, small. replace (/ 2 * bpow radix2 (- (53) + 1)) with (/ 9007199254740992) by (cbn; lra).
    assert (A : 0 < / 9007199254740992) by lra. set (a := / 9007199254740992) in *. unfold Rdiv.
    assert (B : / (1 + a) <= 1). { rewrite <- Rinv_1. apply Rinv_le_contravar; lra. }
    assert (a * / (1 + a) <= a * 1) by (apply Rmult_le_compat_l; lra). lra. }
  assert (T : Rabs et <= eta).
  { apply Rle_trans with (1 := E2). replace (/ 2) with (bpow radix2 (-1)) by (cbn; lra). rewrite <- bpow_plus. apply Rle_refl. }
  apply Rle_trans with (1 := Rabs_triang _ _). rewrite Rabs_mult.
  assert (Rabs x * Rabs eps <= Rabs x * small) by (apply Rmult_le_compat_l; [apply Rabs_pos|auto]). lra.
Qed.
Lemma finish_real : forall x, Rabs (fl x) < top -> finish x = Real (fl x).
Proof. intros x H. unfold finish. destruct (Rlt_dec _ _); [auto|lra]. Qed.
Lemma fl_binary64 : forall x, Rabs (fl x) < top -> binary64 (fl x).
Proof. intros x H. split; auto. apply generic_format_round; auto with typeclass_instances. Qed.

(** ** Powers of ten *)
Definition F (n : nat) : R := fl (10 ^ n).
Lemma F_near : forall n, Rabs (F n - 10 ^ n) <= small * 10 ^ n.
Proof.
  intro n. assert (P := pow10_ge_1 n). unfold F. assert (E := fl_rel (10 ^ n)). rewrite (Rabs_right (10 ^ n)) in E by lra.
  unfold small. apply E. lra.
Qed.
Lemma F_bounds : forall n, (1 - small) * 10 ^ n <= F n <= (1 + small) * 10 ^ n.
Proof. intro n. assert (H := F_near n). apply Rabs_le_inv in H. lra. Qed.
Lemma F_pos : forall n, 0 < F n.
Proof. intro n. assert (H := F_bounds n). assert (P := pow10_ge_1 n). unfold small in H. lra. Qed.
Lemma ten_real : forall n, (n <= 308)%nat -> ten_to n = Real (F n).
Proof.
  intros n H. unfold ten_to. apply finish_real. fold (F n). assert (P := F_pos n). rewrite Rabs_right by lra.
  assert (B := F_bounds n). assert (L := pow10_le n 308 H). assert (T := top_large). assert (G := pow10_ge_1 n). unfold small in B. lra.
Qed.
Lemma ten_inf : forall n, (309 <= n)%nat -> ten_to n = Inf false.
Proof.
  intros n H. unfold ten_to, finish. assert (L := pow10_le 309 n H). assert (T := top_small). assert (G := pow10_ge_1 n).
  assert (M : top <= fl (10 ^ n)).
  { rewrite <- (fl_float top); [apply fl_mono; lra|]. apply generic_format_bpow. vm_compute. discriminate. }
  assert (P := bpow_gt_0 radix2 1024). rewrite Rabs_right by lra. destruct (Rlt_dec (fl (10 ^ n)) top); [lra|].
  unfold rltb. destruct (Rlt_dec (10 ^ n) 0); [lra|auto].
Qed.

(** ** Rounding a number *)
Definition rnd (n : nat) (x : R) : R := fl (IZR (ZnearestE (fl (x * F n))) / F n).
Section Scale.
Variables (n : nat) (x : R).
Hypothesis Hn : (n <= 308)%nat.
Hypothesis Hx : Rabs x * 10 ^ n <= 10 ^ 308.
Lemma product_small : Rabs (x * F n) <= (1 + small) * 10 ^ 308.
Proof.
  rewrite Rabs_mult, (Rabs_right (F n)) by (left; apply F_pos). assert (B := F_bounds n).
  assert (P := Rabs_pos x). assert (Rabs x * F n <= Rabs x * ((1 + small) * 10 ^ n)) by (apply Rmult_le_compat_l; lra).
  unfold small in *. lra.
Qed.
Lemma product_fl : Rabs (fl (x * F n)) <= (1 + 3 * small) * 10 ^ 308.
Proof.
  assert (A := product_small). assert (B := fl_two (x * F n)). assert (C := Rabs_triang (fl (x * F n) - x * F n) (x * F n)).
  replace (fl (x * F n) - x * F n + x * F n) with (fl (x * F n)) in C by ring.
  assert (P := pow10_ge_1 308). assert (E := eta_small). assert (E0 := eta_pos).
  assert (E1 : eta <= / 1000000000000000 * / 1000000000000000).
  { apply Rmult_le_reg_l with 1000000000000000; [lra|]. apply Rle_trans with (/ 1000000000000000); [|lra].
    apply Rmult_le_reg_l with (10 ^ 308); [lra|].
    assert (Q : 1000000000000000 <= 10 ^ 308). { replace 1000000000000000 with (10 ^ 15) by lra. apply pow10_le. lia. } lra. }
  set (T := 10 ^ 308) in *. clearbody T. unfold small in *. lra.
Qed.
Lemma close : Rabs (rnd n x - x) <= (/ 2 + / 100000000000000) / 10 ^ n + Rabs x / 1000000000000000.
Proof.
  assert (HF := F_bounds n). assert (FP := F_pos n). assert (GP := pow10_ge_1 n).
  assert (A := fl_two (x * F n)). set (p := fl (x * F n)) in *.
  assert (K : Rabs (IZR (ZnearestE p) - p) <= / 2). { rewrite Rabs_minus_sym. apply Znearest_half. }
  unfold rnd. fold p. set (k := IZR (ZnearestE p)) in *. clearbody k.
  rewrite Rabs_mult, (Rabs_right (F n)) in A by lra.
  assert (XP := Rabs_pos x).
  assert (D : Rabs (k - x * F n) <= / 2 + small * (Rabs x * F n) + eta).
  { replace (k - x * F n) with ((k - p) + (p - x * F n)) by ring. eapply Rle_trans; [apply Rabs_triang|]. lra. }
  set (i := / F n). assert (IP : 0 < i) by (apply Rinv_0_lt_compat; auto). assert (IF_ : F n * i = 1) by (apply Rinv_r; lra).
  assert (Eq : Rabs (k / F n - x) <= (/ 2 + eta) * i + small * Rabs x).
  { replace (k / F n - x) with ((k - x * F n) * i) by (unfold i; field; lra). rewrite Rabs_mult, (Rabs_right i) by lra.
    apply Rle_trans with ((/ 2 + small * (Rabs x * F n) + eta) * i); [apply Rmult_le_compat_r; lra|].
    replace ((/ 2 + small * (Rabs x * F n) + eta) * i) with ((/ 2 + eta) * i + small * Rabs x * (F n * i)) by ring. rewrite IF_. lra. }
  set (q := k / F n) in *. clearbody q.
  assert (Y := fl_two q).
  assert (Q : Rabs q <= Rabs x + ((/ 2 + eta) * i + small * Rabs x)).
  { replace q with (x + (q - x)) by ring. eapply Rle_trans; [apply Rabs_triang|]. lra. }
  assert (Z : Rabs (fl q - x) <= Rabs (fl q - q) + Rabs (q - x)).
  { replace (fl q - x) with ((fl q - q) + (q - x)) by ring. apply Rabs_triang. }
  set (g := / 10 ^ n). assert (GI : 0 < g) by (apply Rinv_0_lt_compat; lra).
  assert (I2 : i <= (1 + 2 * small) * g).
  { unfold i, g. apply Rmult_le_reg_l with (F n * 10 ^ n); [apply Rmult_lt_0_compat; lra|].
    replace (F n * 10 ^ n * / F n) with (10 ^ n) by (field; lra). replace (F n * 10 ^ n * ((1 + 2 * small) * / 10 ^ n)) with (F n * (1 + 2 * small)) by (field; lra).
    assert ((1 - small) * 10 ^ n * (1 + 2 * small) <= F n * (1 + 2 * small)) by (apply Rmult_le_compat_r; [unfold small; lra|lra]).
    assert (1 * 10 ^ n <= (1 - small) * (1 + 2 * small) * 10 ^ n) by (apply Rmult_le_compat_r; [lra|unfold small; lra]). lra. }
  assert (E1 : 1000000000000000 * eta <= g).
  { unfold g. apply Rmult_le_reg_l with (10 ^ n); [lra|]. rewrite Rinv_r by lra. assert (E := eta_small). assert (E0 := eta_pos).
    assert (L := pow10_le n 308 Hn). assert (10 ^ n * (1000000000000000 * eta) <= 10 ^ 308 * (1000000000000000 * eta)) by (apply Rmult_le_compat_r; lra). lra. }
  assert (E0 := eta_pos).
  assert (G1 : g <= 1). { unfold g. rewrite <- Rinv_1. apply Rinv_le_contravar; lra. }
  assert (M : (/ 2 + eta) * i <= (/ 2 + eta) * ((1 + 2 * small) * g)) by (apply Rmult_le_compat_l; lra).
  assert (M2 : eta * g <= eta * 1) by (apply Rmult_le_compat_l; lra).
  unfold Rdiv. fold g.
  assert (SQ : 0 <= small * Rabs q) by (apply Rmult_le_pos; [unfold small; lra|apply Rabs_pos]).
  assert (S2 : small * Rabs q <= small * (Rabs x + ((/ 2 + eta) * i + small * Rabs x))) by (apply Rmult_le_compat_l; [unfold small; lra|lra]).
  unfold small in *. lra.
Qed.
Lemma rnd_finite : Rabs (rnd n x) < top.
Proof.
  assert (C := close). assert (T := top_large). assert (P := pow10_ge_1 n). assert (XP := Rabs_pos x).
  assert (X : Rabs x <= 10 ^ 308). { assert (Rabs x * 1 <= Rabs x * 10 ^ n) by (apply Rmult_le_compat_l; lra). lra. }
  assert (I : / 10 ^ n <= 1). { rewrite <- Rinv_1 at 1. apply Rinv_le_contravar; lra. }
  assert (I0 : 0 < / 10 ^ n) by (apply Rinv_0_lt_compat; lra).
  assert (D := Rabs_triang (rnd n x - x) x). replace (rnd n x - x + x) with (rnd n x) in D by ring.
  assert (Q : 100 <= 10 ^ 308). { replace 100 with (10 ^ 2) by lra. apply pow10_le. lia. }
  unfold Rdiv in C. set (G := 10 ^ 308) in *. clearbody G. lra.
Qed.
Lemma np_real : np_round n (Real x) = Real (rnd n x) /\ binary64 (rnd n x).
Proof.
  assert (T := top_large). assert (A := product_fl). assert (Q := pow10_ge_1 308).
  split; [|apply fl_binary64, rnd_finite].
  unfold np_round. rewrite ten_real by auto. cbn [multiply]. rewrite finish_real.
  - cbn [rint divide]. rewrite finish_real; [reflexivity|]. apply rnd_finite.
  - set (G := 10 ^ 308) in *. clearbody G. unfold small in A. lra.
Qed.
End Scale.

(** ** Few decimals *)
Lemma ten_exact : forall n, (n <= 22)%nat -> F n = 10 ^ n.
Proof.
  intros n H. unfold F. apply fl_float. rewrite pow_IZR. apply generic_format_FLT.
  exists (Float radix2 (5 ^ Z.of_nat n) (Z.of_nat n)).
  - unfold F2R. cbn [Fnum Fexp]. rewrite bpow_Z by lia. rewrite <- mult_IZR. f_equal. rewrite <- Z.pow_mul_l. reflexivity.
  - cbn [Fnum]. rewrite Z.abs_eq by (apply Z.pow_nonneg; lia). apply Z.le_lt_trans with (5 ^ 22)%Z; [apply Z.pow_le_mono_r; lia|]. vm_compute. reflexivity.
  - cbn [Fexp]. lia.
Qed.
Lemma int_float : forall m, (Z.abs m <= 9007199254740992)%Z -> fl (IZR m) = IZR m.
Proof.
  intros m H. destruct (Z.eq_dec (Z.abs m) 9007199254740992) as [E|E].
  - assert (M : m = 9007199254740992%Z \/ m = (- 9007199254740992)%Z) by lia.
    apply fl_float. destruct M as [-> | ->].
    + replace (IZR 9007199254740992) with (bpow radix2 53) by (cbn; lra). apply generic_format_bpow. vm_compute. discriminate.
    + replace (IZR (-9007199254740992)) with (- bpow radix2 53) by (cbn; lra). apply generic_format_opp, generic_format_bpow. vm_compute. discriminate.
  - apply fl_float. apply generic_format_FLT. exists (Float radix2 m 0); [unfold F2R; cbn; lra|cbn; lia|cbn; lia].
Qed.
Lemma rint_int : forall m, ZnearestE (IZR m) = m.
Proof. intro m. apply Znearest_imp. rewrite Rminus_diag_eq, Rabs_R0 by auto. lra. Qed.
Lemma whole_fixed : forall n m, (n <= 22)%nat -> (Z.abs m * 10 ^ Z.of_nat n <= 9007199254740992)%Z -> rnd n (IZR m) = IZR m.
Proof.
  intros n m H L. unfold rnd. rewrite ten_exact by auto. assert (P := pow10_ge_1 n). rewrite pow_IZR in *. set (T := (10 ^ Z.of_nat n)%Z) in *.
  assert (T1 : (1 <= T)%Z) by (apply le_IZR; exact P).
  rewrite <- mult_IZR. rewrite int_float by (rewrite Z.abs_mul, (Z.abs_eq T); lia). rewrite rint_int, mult_IZR.
  replace (IZR m * IZR T / IZR T) with (IZR m) by (field; lra). apply int_float.
  assert (Z.abs m * 1 <= Z.abs m * T)%Z by (apply Z.mul_le_mono_nonneg_l; lia). lia.
Qed.
Lemma rnd_mono : forall n x y, x <= y -> rnd n x <= rnd n y.
Proof.
  intros n x y H. unfold rnd. assert (P := F_pos n). assert (I : 0 < / F n) by (apply Rinv_0_lt_compat; auto).
  apply fl_mono. unfold Rdiv. apply Rmult_le_compat_r; [lra|]. apply IZR_le.
  apply Zrnd_le; [apply valid_rnd_N|]. apply fl_mono. apply Rmult_le_compat_r; lra.
Qed.
Lemma nearest_fl : forall x, nearest x = fl x. Proof. reflexivity. Qed.
Lemma decimal : forall n x, (n <= 22)%nat ->
  exists z, rnd n x = nearest (IZR z / 10 ^ n) /\ Rabs (IZR z - x * 10 ^ n) <= / 2 + (1 + Rabs x * 10 ^ n) / 9007199254740992.
Proof.
  intros n x H. unfold rnd. rewrite ten_exact by auto. exists (ZnearestE (fl (x * 10 ^ n))). split; [reflexivity|].
  assert (E := fl_err (x * 10 ^ n)). assert (P := pow10_ge_1 n). rewrite Rabs_mult, (Rabs_right (10 ^ n)) in E by lra.
  set (p := fl (x * 10 ^ n)) in *. assert (K : Rabs (IZR (ZnearestE p) - p) <= / 2) by (rewrite Rabs_minus_sym; apply Znearest_half).
  replace (IZR (ZnearestE p) - x * 10 ^ n) with ((IZR (ZnearestE p) - p) + (p - x * 10 ^ n)) by ring.
  eapply Rle_trans; [apply Rabs_triang|]. lra.
Qed.
Lemma fl_rel2 : forall x, / 10000000000000000000000 <= Rabs x -> Rabs (fl x - x) <= / 9007199254740992 * Rabs x.
Proof.
  intros x H. assert (E := relative_error_N_FLT radix2 (-1074) 53 eq_refl (fun x => negb (Z.even x)) x).
  replace (/ 2 * bpow radix2 (- (53) + 1)) with (/ 9007199254740992) in E by (cbn; lra). apply E.
  apply Rle_trans with (2 := H). apply Rle_trans with (bpow radix2 (-80)); [apply bpow_le; lia|].
  cbn. apply Rinv_le_contravar; lra.
Qed.
Lemma again : forall n z, (n <= 22)%nat -> (Z.abs z <= 1125899906842624)%Z ->
  rnd n (nearest (IZR z / 10 ^ n)) = nearest (IZR z / 10 ^ n).
Proof.
  intros n z H L. rewrite !nearest_fl. unfold rnd. rewrite ten_exact by auto. assert (P := pow10_ge_1 n).
  assert (L22 := pow10_le n 22 H).
  destruct (Z.eq_dec z 0) as [->|Z0].
  { replace (0 / 10 ^ n) with 0 by (field; lra). assert (Z : fl 0 = 0) by (apply (int_float 0); lia).
    rewrite Z, Rmult_0_l, Z, rint_int. replace (0 / 10 ^ n) with 0 by (field; lra). exact Z. }
  assert (Z1 : 1 <= Rabs (IZR z)) by (rewrite <- abs_IZR; apply IZR_le; lia).
  assert (Z2 : Rabs (IZR z) <= 1125899906842624) by (rewrite <- abs_IZR; apply IZR_le; lia).
  set (T := 10 ^ n) in *. set (i := / T). assert (I0 : 0 < i) by (apply Rinv_0_lt_compat; lra). assert (IT : T * i = 1) by (apply Rinv_r; lra).
  assert (E1 : Rabs (fl (IZR z / T) - IZR z / T) <= / 9007199254740992 * Rabs (IZR z / T)).
  { apply fl_rel2. unfold Rdiv. fold i. rewrite Rabs_mult, (Rabs_right i) by lra.
    assert (J : / 10 ^ 22 <= i) by (apply Rinv_le_contravar; lra).
    assert (J2 : / 10 ^ 22 = / 10000000000000000000000) by (f_equal; lra). rewrite J2 in J.
    assert (1 * i <= Rabs (IZR z) * i) by (apply Rmult_le_compat_r; lra). lra. }
  set (x := fl (IZR z / T)) in *.
  assert (E2 : Rabs (x * T - IZR z) <= / 9007199254740992 * Rabs (IZR z)).
  { replace (x * T - IZR z) with ((x - IZR z / T) * T) by (field; lra). rewrite Rabs_mult, (Rabs_right T) by lra.
    unfold Rdiv in E1 at 2. fold i in E1. rewrite Rabs_mult, (Rabs_right i) in E1 by lra.
    apply Rle_trans with (/ 9007199254740992 * (Rabs (IZR z) * i) * T); [apply Rmult_le_compat_r; lra|].
    replace (/ 9007199254740992 * (Rabs (IZR z) * i) * T) with (/ 9007199254740992 * Rabs (IZR z) * (T * i)) by ring. rewrite IT. lra. }
  assert (E3 := fl_err (x * T)).
  assert (A : Rabs (x * T) <= 2 * Rabs (IZR z)).
  { replace (x * T) with ((x * T - IZR z) + IZR z) by ring. eapply Rle_trans; [apply Rabs_triang|]. lra. }
  rewrite (Znearest_imp _ _ z); [reflexivity|].
  replace (fl (x * T) - IZR z) with ((fl (x * T) - x * T) + (x * T - IZR z)) by ring.
  eapply Rle_lt_trans; [apply Rabs_triang|]. lra.
Qed.
Lemma circle : forall n x, (n <= 12)%nat -> 360 - / (4 * 10 ^ n) <= x < 360 -> rnd n x = 360.
Proof.
  intros n x H [X1 X2]. unfold rnd. rewrite ten_exact by lia. assert (P := pow10_ge_1 n). assert (L := pow10_le n 12 H).
  assert (E := fl_err (x * 10 ^ n)).
  assert (P12 : 10 ^ 12 = 1000000000000) by lra. rewrite P12 in L.
  assert (I0 : 0 < / (4 * 10 ^ n)) by (apply Rinv_0_lt_compat; lra).
  assert (I1 : / (4 * 10 ^ n) * 10 ^ n = / 4) by (field; lra).
  assert (I2 : / (4 * 10 ^ n) <= 1). { rewrite <- Rinv_1 at 1. apply Rinv_le_contravar; lra. }
  assert (M1 : (360 - / (4 * 10 ^ n)) * 10 ^ n <= x * 10 ^ n) by (apply Rmult_le_compat_r; lra).
  assert (M2 : x * 10 ^ n <= 360 * 10 ^ n) by (apply Rmult_le_compat_r; lra).
  assert (M0 : 0 <= x * 10 ^ n) by (apply Rmult_le_pos; lra).
  rewrite (Rabs_right (x * 10 ^ n)) in E by lra.
  rewrite pow_IZR in *. set (T := (10 ^ Z.of_nat n)%Z) in *.
  rewrite (Znearest_imp _ _ (360 * T)).
  - rewrite mult_IZR. replace (360 * IZR T / IZR T) with 360 by (field; lra). apply int_float. lia.
  - rewrite mult_IZR. apply Rabs_le_inv in E. apply Rabs_def1; lra.
Qed.

(** ** Files *)
Lemma not_distance : forall cfg c n, rounded_to cfg c n -> c <> "Obj_Sun_LTC_km"%string.
Proof.
  intros cfg c n (_ & [[I _]|[I _]]) ->; cbn in I;
    repeat match type of I with _ \/ _ => destruct I as [I|I]; [discriminate I|] end; exact I.
Qed.
Lemma written_round : forall norm3 cfg t f i r c n,
  PPWriteOutput_csv norm3 np_round cfg t None = Ok (Some f) -> nth_error (t_recs t) i = Some r -> In c (requested cfg (t_names t)) ->
  rounded_to cfg c n -> written_value (requested cfg (t_names t)) f i c (np_round n (r c)).
Proof.
  intros norm3 cfg t f i r c n H Hr Hc R. assert (D := not_distance _ _ _ R). apply csv_one in H. injection H as ->.
  apply In_nth_error in Hc as [k Hk].
  exists (printed norm3 np_round cfg (t_names t) r), k. split; [cbn [nth_error app]; rewrite nth_error_map, Hr; reflexivity|]. split; [exact Hk|].
  unfold printed. rewrite nth_error_map, Hk. cbn [option_map]. f_equal.
  unfold shown, decimals, raw. destruct (string_dec c "Obj_Sun_LTC_km") as [|_]; [contradiction|].
  assert (Hpm := pos_not_mag c).
  destruct R as (N & [[I E]|[I E]]).
  - destruct (in_dec string_dec c position_names); [|contradiction]. rewrite E. destruct n; [contradiction|reflexivity].
  - destruct (in_dec string_dec c position_names); [exfalso; eapply Hpm; eauto|]. destruct (in_dec string_dec c magnitude_names); [|contradiction].
    rewrite E. destruct n; [contradiction|reflexivity].
Qed.

Lemma C102_close_proof : forall norm3 cfg t f i r c n x,
  PPWriteOutput_csv norm3 np_round cfg t None = Ok (Some f) -> nth_error (t_recs t) i = Some r -> In c (requested cfg (t_names t)) ->
  rounded_to cfg c n -> (n <= 308)%nat -> r c = Real x -> Rabs x * 10 ^ n <= 10 ^ 308 ->
  exists y, written_value (requested cfg (t_names t)) f i c (Real y) /\ binary64 y
    /\ Rabs (y - x) <= (/ 2 + / 100000000000000) / 10 ^ n + Rabs x / 1000000000000000.
Proof.
  intros norm3 cfg t f i r c n x H Hr Hc R N X L. assert (W := written_round _ _ _ _ _ _ _ _ H Hr Hc R). rewrite X in W.
  destruct (np_real n x N L) as [E B]. rewrite E in W. exists (rnd n x). split; [exact W|]. split; [exact B|]. apply close; auto.
Qed.
Lemma C102_order_proof : forall norm3 cfg t f i j r s c n x y,
  PPWriteOutput_csv norm3 np_round cfg t None = Ok (Some f) -> nth_error (t_recs t) i = Some r -> nth_error (t_recs t) j = Some s ->
  In c (requested cfg (t_names t)) -> rounded_to cfg c n -> (n <= 308)%nat -> r c = Real x -> s c = Real y ->
  Rabs x * 10 ^ n <= 10 ^ 308 -> Rabs y * 10 ^ n <= 10 ^ 308 -> x <= y ->
  exists x' y', written_value (requested cfg (t_names t)) f i c (Real x') /\ written_value (requested cfg (t_names t)) f j c (Real y') /\ x' <= y'.
Proof.
  intros norm3 cfg t f i j r s c n x y H Hr Hs Hc R N X Y L M O.
  assert (W := written_round _ _ _ _ _ _ _ _ H Hr Hc R). rewrite X in W. assert (V := written_round _ _ _ _ _ _ _ _ H Hs Hc R). rewrite Y in V.
  destruct (np_real n x N L) as [E _]. rewrite E in W. destruct (np_real n y N M) as [G _]. rewrite G in V.
  exists (rnd n x), (rnd n y). split; [exact W|]. split; [exact V|]. apply rnd_mono; auto.
Qed.
Lemma small_enough : forall n x, (n <= 22)%nat -> Rabs x * 10 ^ n <= 9007199254740992 -> Rabs x * 10 ^ n <= 10 ^ 308.
Proof.
  intros n x N H. assert (Q : 10 ^ 16 <= 10 ^ 308) by (apply pow10_le; lia). replace (10 ^ 16) with 10000000000000000 in Q by lra.
  set (G := 10 ^ 308) in *. clearbody G. lra.
Qed.
Lemma C102_between_proof : forall norm3 cfg t f i r c n x lo hi,
  PPWriteOutput_csv norm3 np_round cfg t None = Ok (Some f) -> nth_error (t_recs t) i = Some r -> In c (requested cfg (t_names t)) ->
  rounded_to cfg c n -> (n <= 22)%nat -> r c = Real x -> IZR lo <= x <= IZR hi ->
  (Z.abs lo * 10 ^ Z.of_nat n <= 9007199254740992)%Z -> (Z.abs hi * 10 ^ Z.of_nat n <= 9007199254740992)%Z ->
  exists y, written_value (requested cfg (t_names t)) f i c (Real y) /\ IZR lo <= y <= IZR hi.
Proof.
  intros norm3 cfg t f i r c n x lo hi H Hr Hc R N X [X1 X2] L1 L2. assert (W := written_round _ _ _ _ _ _ _ _ H Hr Hc R). rewrite X in W.
  assert (P := pow10_ge_1 n).
  assert (A : forall m, (Z.abs m * 10 ^ Z.of_nat n <= 9007199254740992)%Z -> Rabs (IZR m) * 10 ^ n <= 9007199254740992).
  { intros m A. rewrite <- abs_IZR, pow_IZR, <- mult_IZR. apply IZR_le. exact A. }
  assert (L : Rabs x * 10 ^ n <= 9007199254740992).
  { assert (B1 := A _ L1). assert (B2 := A _ L2).
    assert (D : Rabs x <= Rabs (IZR lo) \/ Rabs x <= Rabs (IZR hi)).
    { unfold Rabs. destruct (Rcase_abs x), (Rcase_abs (IZR lo)), (Rcase_abs (IZR hi)); lra. }
    destruct D as [D|D]; eapply Rle_trans; [apply Rmult_le_compat_r; [lra|exact D]|exact B1|apply Rmult_le_compat_r; [lra|exact D]|exact B2]. }
  destruct (np_real n x ltac:(lia) (small_enough n x N L)) as [E _]. rewrite E in W. exists (rnd n x). split; [exact W|].
  rewrite <- (whole_fixed n lo N L1), <- (whole_fixed n hi N L2). split; apply rnd_mono; auto.
Qed.
Lemma C102_decimal_proof : forall norm3 cfg t f i r c n x,
  PPWriteOutput_csv norm3 np_round cfg t None = Ok (Some f) -> nth_error (t_recs t) i = Some r -> In c (requested cfg (t_names t)) ->
  rounded_to cfg c n -> (n <= 22)%nat -> r c = Real x -> Rabs x * 10 ^ n <= 1125899906842624 ->
  exists z, written_value (requested cfg (t_names t)) f i c (Real (nearest (IZR z / 10 ^ n)))
    /\ Rabs (IZR z - x * 10 ^ n) <= / 2 + (1 + Rabs x * 10 ^ n) / 9007199254740992.
Proof.
  intros norm3 cfg t f i r c n x H Hr Hc R N X L. assert (W := written_round _ _ _ _ _ _ _ _ H Hr Hc R). rewrite X in W.
  destruct (np_real n x ltac:(lia) (small_enough n x N ltac:(lra))) as [E _]. rewrite E in W.
  destruct (decimal n x N) as (z & D & B). exists z. rewrite <- D. auto.
Qed.
Lemma C102_again_proof : forall norm3 cfg t f i r c n z,
  PPWriteOutput_csv norm3 np_round cfg t None = Ok (Some f) -> nth_error (t_recs t) i = Some r -> In c (requested cfg (t_names t)) ->
  rounded_to cfg c n -> (n <= 22)%nat -> (Z.abs z <= 1125899906842624)%Z -> r c = Real (nearest (IZR z / 10 ^ n)) ->
  written_value (requested cfg (t_names t)) f i c (r c).
Proof.
  intros norm3 cfg t f i r c n z H Hr Hc R N L X. assert (W := written_round _ _ _ _ _ _ _ _ H Hr Hc R). rewrite X in *.
  assert (B : Rabs (nearest (IZR z / 10 ^ n)) * 10 ^ n <= 9007199254740992).
  { rewrite nearest_fl. assert (P := pow10_ge_1 n). assert (E := fl_two (IZR z / 10 ^ n)).
    set (q := IZR z / 10 ^ n) in *. assert (D := Rabs_triang (fl q - q) q). replace (fl q - q + q) with (fl q) in D by ring.
    assert (Q : Rabs q * 10 ^ n <= 1125899906842624).
    { replace (Rabs q * 10 ^ n) with (Rabs (IZR z)); [rewrite <- abs_IZR; apply IZR_le; exact L|].
      rewrite <- (Rabs_right (10 ^ n)) by lra. rewrite <- Rabs_mult. f_equal. unfold q. field. lra. }
    assert (T := pow10_le n 308 ltac:(lia)). assert (ES := eta_small). assert (E0 := eta_pos).
    assert (ET : eta * 10 ^ n <= eta * 10 ^ 308) by (apply Rmult_le_compat_l; lra).
    assert (M : Rabs (fl q) * 10 ^ n <= ((1 + small) * Rabs q + eta) * 10 ^ n) by (apply Rmult_le_compat_r; lra).
    set (G := 10 ^ 308) in *. clearbody G. unfold small in *. lra. }
  destruct (np_real n _ ltac:(lia) (small_enough n _ N B)) as [E _]. rewrite E in W. rewrite again in W by auto. exact W.
Qed.
Lemma C102_circle_refuted_proof : forall norm3 cfg t f i r n x,
  PPWriteOutput_csv norm3 np_round cfg t None = Ok (Some f) -> nth_error (t_recs t) i = Some r -> In "RA_deg"%string (requested cfg (t_names t)) ->
  oc_pos cfg = Some n -> (1 <= n <= 12)%nat -> r "RA_deg"%string = Real x -> 360 - / (4 * 10 ^ n) <= x < 360 ->
  written_value (requested cfg (t_names t)) f i "RA_deg" (Real 360).
Proof.
  intros norm3 cfg t f i r n x H Hr Hc Hn N X [X1 X2].
  assert (R : rounded_to cfg "RA_deg" n). { split; [lia|]. left. split; [cbn; tauto|auto]. }
  assert (W := written_round _ _ _ _ _ _ _ _ H Hr Hc R). rewrite X in W.
  assert (P := pow10_ge_1 n). assert (I : / (4 * 10 ^ n) <= 1). { rewrite <- Rinv_1 at 1. apply Rinv_le_contravar; lra. }
  assert (L : Rabs x * 10 ^ n <= 9007199254740992).
  { rewrite Rabs_right by lra. assert (Q := pow10_le n 12 ltac:(lia)). replace (10 ^ 12) with 1000000000000 in Q by lra.
    assert (x * 10 ^ n <= 360 * 1000000000000) by (apply Rmult_le_compat; lra). lra. }
  destruct (np_real n x ltac:(lia) (small_enough n x ltac:(lia) L)) as [E _]. rewrite E, circle in W by (auto; lia). exact W.
Qed.
Lemma C102_many_refuted_proof : forall norm3 cfg t f i r c n x,
  PPWriteOutput_csv norm3 np_round cfg t None = Ok (Some f) -> nth_error (t_recs t) i = Some r -> In c (requested cfg (t_names t)) ->
  rounded_to cfg c n -> (309 <= n)%nat -> r c = Real x -> written_value (requested cfg (t_names t)) f i c Nan.
Proof.
  intros norm3 cfg t f i r c n x H Hr Hc R N X. assert (W := written_round _ _ _ _ _ _ _ _ H Hr Hc R). rewrite X in W.
  replace (np_round n (Real x)) with Nan in W; [exact W|]. unfold np_round. rewrite ten_inf by auto. cbn [multiply].
  destruct (Req_EM_T x 0); reflexivity.
Qed.
Lemma C102_special_proof : forall norm3 cfg t f i r c n,
  PPWriteOutput_csv norm3 np_round cfg t None = Ok (Some f) -> nth_error (t_recs t) i = Some r -> In c (requested cfg (t_names t)) ->
  rounded_to cfg c n -> (n <= 308)%nat -> (r c = Nan \/ exists s, r c = Inf s) -> written_value (requested cfg (t_names t)) f i c (r c).
Proof.
  intros norm3 cfg t f i r c n H Hr Hc R N X. assert (W := written_round _ _ _ _ _ _ _ _ H Hr Hc R).
  replace (np_round n (r c)) with (r c) in W; [exact W|]. unfold np_round. rewrite ten_real by auto.
  destruct X as [->|[s ->]]; [reflexivity|]. cbn [multiply].
  assert (P := F_pos n).
  destruct (Req_EM_T (F n) 0); [lra|]. cbn [rint divide].
  assert (B : rltb (F n) 0 = false). { unfold rltb. destruct (Rlt_dec (F n) 0); [lra|reflexivity]. }
  rewrite B. destruct s; reflexivity.
Qed.
