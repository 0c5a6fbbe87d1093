(** The states of parabolic orbits solve Barker's equation. *)
From Coq Require Import Reals ZArith List Bool Lia Lra Psatz.
From Verif Require Import Base.Prelude Model.Sphere Model.Kepler Spec.Sphere Spec.Kepler Spec.Anomaly
  Proofs.Sphere Proofs.Kepler Proofs.Halley Proofs.KeplerState Proofs.Stumpff Proofs.Anomaly Proofs.Cometary.
Import ListNotations.
Open Scope R_scope.

Section Barker.
Variable M : R.
Definition Bk (T : R) : R := T + T * T * T / 3 - M.
Definition barker_accepted (r : R) : Prop :=
  Bk r = 0
  \/ (exists l h, Bk l < 0 <= Bk h /\ r = (l + h) / 2 /\ Rabs (h - l) <= 2 * (1 / 100000000000000 * Rabs r))
  \/ (exists p dl, r = p - dl /\ Rabs dl <= 1 / 100000000000000 * Rabs r
      /\ dl * (2 * (1 + p * p) * (1 + p * p) - Bk p * (2 * p)) = 2 * Bk p * (1 + p * p)).
Lemma abs_sq x : Rabs x * Rabs x = x * x.
Proof. rewrite <- Rabs_mult. apply Rabs_right. nra. Qed.
Lemma barker_residual : forall r, barker_accepted r -> Rabs (Bk r) <= 5 / 100000000000000 * Rabs r * (1 + r * r).
Proof.
  intros r A. pose proof (Rabs_pos r) as PR. rewrite <- (abs_sq r). set (y := Rabs r) in *.
  assert (Near : forall x, Rabs (x - r) <= 1 / 100000000000000 * y ->
    x * x <= 101/100 * (y * y) /\ Rabs (Bk x - Bk r) <= 102/100 * (1 + y * y) * Rabs (x - r)).
  { intros x H. assert (XL : Rabs x <= 1001/1000 * y).
    { replace x with (r + (x - r)) by ring. eapply Rle_trans; [apply Rabs_triang|]. fold y. lra. }
    assert (X2 : Rabs x * Rabs x <= 1001/1000 * y * (1001/1000 * y)) by (apply Rmult_le_compat; auto using Rabs_pos).
    assert (XY : Rabs x * y <= 1001/1000 * y * y) by (apply Rmult_le_compat_r; auto).
    assert (YY : 0 <= y * y) by nra.
    split; [rewrite <- (abs_sq x); lra|].
    unfold Bk. replace (x + x * x * x / 3 - M - (r + r * r * r / 3 - M)) with ((1 + (x * x + x * r + r * r) / 3) * (x - r)) by field.
    rewrite Rabs_mult. apply Rmult_le_compat_r; [apply Rabs_pos|].
    assert (XR : Rabs (x * r) <= Rabs x * y) by (rewrite Rabs_mult; fold y; lra). apply Rabs_inv_le in XR.
    rewrite <- (abs_sq x), <- (abs_sq r). fold y. pose proof (Rabs_pos x). assert (0 <= Rabs x * Rabs x) by nra.
    apply Rabs_le. lra. }
  assert (YY : 0 <= y * y) by nra. assert (YZ : 0 <= y * (1 + y * y)) by (apply Rmult_le_pos; lra).
  destruct A as [A|[A|A]].
  - rewrite A, Rabs_R0. lra.
  - destruct A as (l & h & [A1 A2] & Er & D). fold y in D.
    assert (Dl : Rabs (l - r) <= 1 / 100000000000000 * y).
    { replace (l - r) with (- ((h - l) / 2)) by (rewrite Er; field). rewrite Rabs_Ropp. unfold Rdiv at 1. rewrite Rabs_mult, (Rabs_right (/ 2)) by lra. lra. }
    assert (Dh : Rabs (h - r) <= 1 / 100000000000000 * y).
    { replace (h - r) with ((h - l) / 2) by (rewrite Er; field). unfold Rdiv at 1. rewrite Rabs_mult, (Rabs_right (/ 2)) by lra. lra. }
    destruct (Near l Dl) as [_ C1]. destruct (Near h Dh) as [_ C2].
    assert (102 / 100 * (1 + y * y) * Rabs (l - r) <= 102 / 100 * (1 + y * y) * (1 / 100000000000000 * y)) by (apply Rmult_le_compat_l; lra).
    assert (102 / 100 * (1 + y * y) * Rabs (h - r) <= 102 / 100 * (1 + y * y) * (1 / 100000000000000 * y)) by (apply Rmult_le_compat_l; lra).
    apply Rabs_inv_le in C1. apply Rabs_inv_le in C2. apply Rabs_le. lra.
  - destruct A as (p & dl & Er & D & Eq). fold y in D.
    assert (Ed : p - r = dl) by (rewrite Er; ring).
    destruct (Near p ltac:(rewrite Ed; auto)) as [C1 C2]. rewrite Ed in C2.
    assert (PL : Rabs p <= 1001/1000 * y).
    { replace p with (r + dl) by lra. eapply Rle_trans; [apply Rabs_triang|]. fold y. lra. }
    assert (LP : y <= 1001/1000 * Rabs p).
    { assert (y <= Rabs p + Rabs dl); [|lra]. unfold y. replace r with (p + - dl) by lra. eapply Rle_trans; [apply Rabs_triang|]. rewrite Rabs_Ropp. lra. }
    set (D' := 1 + p * p) in *. set (k := Bk p) in *.
    assert (Sm : Rabs (2 * p * dl) <= D').
    { rewrite !Rabs_mult, (Rabs_right 2) by lra. pose proof (Rabs_pos p).
      assert (2 * Rabs p * Rabs dl <= 2 * Rabs p * (1 / 100000000000000 * (1001 / 1000 * Rabs p))) by (apply Rmult_le_compat_l; lra).
      unfold D'. rewrite <- (abs_sq p). assert (0 <= Rabs p * Rabs p) by nra. lra. }
    assert (DP : 1 <= D') by (unfold D'; nra).
    assert (Du : D' <= 101/100 * (1 + y * y)) by (unfold D'; lra).
    assert (Q : k * (2 * D' + 2 * p * dl) = 2 * D' * D' * dl) by lra.
    assert (Hk : Rabs k * D' <= 2 * D' * D' * Rabs dl).
    { assert (Eqa : Rabs k * Rabs (2 * D' + 2 * p * dl) = 2 * D' * D' * Rabs dl).
      { rewrite <- Rabs_mult, Q, !Rabs_mult, (Rabs_right 2), (Rabs_right D') by lra. reflexivity. }
      rewrite <- Eqa. apply Rmult_le_compat_l; [apply Rabs_pos|]. apply Rabs_inv_le in Sm. rewrite Rabs_right by lra. lra. }
    assert (Hk' : Rabs k <= 2 * D' * Rabs dl) by (apply Rmult_le_reg_r with D'; lra).
    pose proof (Rabs_pos dl).
    assert (Hk2 : 2 * D' * Rabs dl <= 2 * (101/100 * (1 + y * y)) * (1 / 100000000000000 * y)) by (apply Rmult_le_compat; lra).
    assert (102 / 100 * (1 + y * y) * Rabs dl <= 102 / 100 * (1 + y * y) * (1 / 100000000000000 * y)) by (apply Rmult_le_compat_l; lra).
    apply Rabs_inv_le in C2. apply Rabs_inv_le in Hk'. apply Rabs_le. lra.
Qed.
End Barker.

Lemma C96_parabola_proof : forall fuel mu q i N w tp ep x v, 0 < mu -> 0 < q ->
  universal_cartesian fuel mu q 1 i N w tp ep = Ok (Some (x, v)) ->
  exists nu, - PI < nu < PI /\ let t := tan (nu / 2) in
    Rabs (t + t * t * t / 3 - sqrt (mu / (2 * (q * q * q))) * (ep - tp)) <= 5 / 100000000000000 * Rabs t * (1 + t * t)
    /\ apart x (conic_position q 1 i N w nu) <= 1 / 10000000000000 * q * Rabs t * (1 + t * t)
    /\ v = conic_velocity mu q 1 i N w nu.
Proof.
  intros fuel mu q i O w tp ep x v MU Q H.
  destruct (cartesian_ok _ _ _ _ _ _ _ _ _ _ _ H) as (t & s & x0 & v0 & Ht & Hs & Hp & -> & ->). clear H.
  assert (Et : t = ep - tp) by (unfold since_perihelion in Ht; destruct (Rlt_dec 1 1); [lra|congruence]). rewrite <- Et. clear Et Ht.
  assert (AL : binding_alpha mu q 1 = 0) by (unfold binding_alpha; field; lra). rewrite AL in *.
  set (k := sqrt (mu / (2 * q))).
  assert (MQ : 0 < mu / (2 * q)) by (apply Rdiv_lt_0_compat; lra).
  assert (KP : 0 < k) by (apply sqrt_lt_R0; auto).
  assert (KK : k * k = mu / (2 * q)) by (apply sqrt_sqrt; lra).
  assert (ME : mu = 2 * q * (k * k)) by (rewrite KK; field; lra).
  assert (MM : sqrt (mu / (2 * (q * q * q))) = k / q).
  { replace (mu / (2 * (q * q * q))) with ((k / q) * (k / q)) by (rewrite ME; field; lra). apply sqrt_square. apply Rlt_le, Rdiv_lt_0_compat; auto. }
  rewrite MM. set (M := k / q * t). set (F := fun s => root_function s mu 0 q 0 t) in *.
  assert (Z : forall s, 0 * s * s = 0) by (intros; ring).
  assert (FE : forall s, v_f (F s) = q / k * Bk M (k * s)).
  { intros s'. unfold F, root_function. cbn [v_f]. rewrite Z, stumpff_zero. cbn [c1 c2 c3]. unfold Bk, M. rewrite ME at 1. field. lra. }
  assert (FP : forall s, v_fp (F s) = q * (1 + k * s * (k * s))).
  { intros s'. unfold F, root_function. cbn [v_fp]. rewrite Z, stumpff_zero. cbn [c0 c1 c2 c3]. rewrite ME at 1. field. }
  assert (FPP : forall s, v_fpp (F s) = q * k * (2 * (k * s))).
  { intros s'. unfold F, root_function. cbn [v_fpp]. rewrite Z, stumpff_zero. cbn [c0 c1 c2 c3]. rewrite ME at 1. ring. }
  assert (A : barker_accepted M (k * s)).
  { assert (QK : 0 < q / k) by (apply Rdiv_lt_0_compat; auto). apply solve_found in Hs. fold F in Hs. destruct Hs as [H|[H|H]].
    - left. rewrite FE in H. apply Rmult_integral in H. destruct H; [lra|auto].
    - destruct H as (l & h & [H1 H2] & Er & D). right. left. exists (k * l), (k * h). rewrite FE in H1, H2.
      split; [|split].
      + split; [|apply Rmult_le_reg_l with (q / k); lra]. apply Rmult_lt_reg_l with (q / k); lra.
      + rewrite Er. field.
      + replace (k * h - k * l) with (k * (h - l)) by ring. rewrite !Rabs_mult, (Rabs_right k) by lra.
        replace (2 * (1 / 100000000000000 * (k * Rabs s))) with (k * (2 * (1 / 100000000000000 * Rabs s))) by ring. apply Rmult_le_compat_l; lra.
    - destruct H as (p & dx & Er & D & Eq). right. right. exists (k * p), (k * dx). split; [rewrite Er; ring|]. split.
      + rewrite !Rabs_mult, (Rabs_right k) by lra. replace (1 / 100000000000000 * (k * Rabs s)) with (k * (1 / 100000000000000 * Rabs s)) by ring. apply Rmult_le_compat_l; lra.
      + rewrite FP, FE, FPP in Eq. set (b := Bk M (k * p)) in *. set (z := k * p) in *. clearbody b z.
        apply Rmult_eq_reg_l with (q * q / k); [|apply Rgt_not_eq, Rdiv_lt_0_compat; [apply Rmult_lt_0_compat|]; lra].
        transitivity (dx * (2 * (q * (1 + z * z)) * (q * (1 + z * z)) - q / k * b * (q * k * (2 * z)))); [field; lra|]. rewrite Eq. field. lra. }
  pose proof (barker_residual M _ A) as R1. set (T := k * s) in *.
  exists (2 * atan T). pose proof (atan_bound T) as AB. split; [lra|]. cbv zeta.
  replace (2 * atan T / 2) with (atan T) by field. rewrite tan_atan. split; [exact R1|].
  apply in_plane_ok in Hp. cbv zeta in Hp. rewrite Z, stumpff_zero in Hp. cbn [c0 c1 c2 c3] in Hp. destruct Hp as (_ & Hr & -> & ->).
  assert (TT : 0 <= T * T) by nra.
  assert (SV : sqrt (mu * (1 + 1) / q) = 2 * k).
  { rewrite <- (sqrt_square (2 * k)) by lra. f_equal. rewrite ME at 1. field. lra. }
  assert (S2 : sqrt (mu / (q * (1 + 1))) = k) by (unfold k; f_equal; field; lra).
  rewrite !orient_perifocal. unfold conic_position, conic_velocity. cbv zeta. rewrite SV, S2, cos_double_atan, sin_double_atan.
  assert (CP : 1 + 1 * ((1 - T * T) / (1 + T * T)) = 2 / (1 + T * T)) by (field; lra). rewrite CP. split.
  - eapply Rle_trans; [apply apart_perifocal|].
    replace (q - mu * (s * s) * (1 / 2) - q * (1 + 1) / (2 / (1 + T * T)) * ((1 - T * T) / (1 + T * T))) with 0.
    2:{ unfold T. rewrite ME. field. fold T. lra. }
    rewrite Rabs_R0.
    replace ((t - mu * (s * s * s) * (1 / 6)) * (2 * k) - q * (1 + 1) / (2 / (1 + T * T)) * (2 * T / (1 + T * T))) with (- (2 * q * Bk M T)).
    2:{ unfold Bk, M, T. rewrite ME. field. fold T. repeat split; lra. }
    rewrite Rabs_Ropp, Rabs_mult, (Rabs_right (2 * q)) by lra.
    assert (2 * q * Rabs (Bk M T) <= 2 * q * (5 / 100000000000000 * Rabs T * (1 + T * T))) by (apply Rmult_le_compat_l; lra). lra.
  - assert (RE : q * 1 + mu * (s * s) * (1 / 2) = q * (1 + T * T)) by (unfold T; rewrite ME at 1; field).
    rewrite RE. f_equal.
    + rewrite ME. unfold T. field. fold T. split; lra.
    + rewrite Rmult_1_r. field. split; lra.
Qed.
