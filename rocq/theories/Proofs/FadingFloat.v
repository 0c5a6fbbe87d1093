(** Fading functions in binary64 arithmetic. *)
From Coq Require Import String List Arith ZArith Reals Bool Lia Lra.
From Flocq Require Import Core Relative Plus_error Mult_error.
From Verif Require Import Base.Prelude Model.LinkingFloat Model.Rounding Model.FadingFloat Spec.LinkingFloat Spec.Rounding Spec.FadingFloat
  Proofs.LinkingFloat Proofs.Rounding.
Import ListNotations.
Open Scope R_scope.

Local Instance prec53f : Prec_gt_0 53 := eq_refl.

(** ** The logistic function *)
Definition g (z : R) : R := / (1 + exp z).
Lemma g_pos : forall z, 0 < g z <= 1.
Proof.
  intro z. assert (P := exp_pos z). unfold g. split; [apply Rinv_0_lt_compat; lra|]. rewrite <- Rinv_1. apply Rinv_le_contravar; lra.
Qed.
Lemma exp_ge : forall x, 1 + x <= exp x.
Proof. intro x. destruct (Req_dec x 0) as [->|N]; [rewrite exp_0; lra|]. left. apply exp_ineq1. exact N. Qed.
Lemma g_diff : forall a b, a <= b -> 0 <= g a - g b /\ g a - g b <= (b - a) * exp (- a) /\ g a - g b <= (b - a) * exp b /\ g a - g b <= b - a.
Proof.
  intros a b H. assert (PA := exp_pos a). assert (PB := exp_pos b).
  assert (E : g a - g b = (1 - exp (a - b)) * (exp b * (g a * g b))).
  { unfold g. replace (a - b) with (a + - b) by ring. rewrite exp_plus, exp_Ropp. field. lra. }
  assert (X := exp_ge (a - b)). assert (Y : exp (a - b) <= 1). { rewrite <- exp_0. destruct (Req_dec (a - b) 0) as [->|]; [lra|]. left. apply exp_increasing. lra. }
  assert (GA := g_pos a). assert (GB := g_pos b).
  assert (B1 : exp b * g b <= 1). { unfold g. apply Rmult_le_reg_r with (1 + exp b); [lra|]. rewrite Rmult_assoc, Rinv_l by lra. lra. }
  assert (A1 : g a <= exp (- a)). { rewrite exp_Ropp. unfold g. apply Rinv_le_contravar; lra. }
  assert (B2 : 0 < exp b * g b) by (apply Rmult_lt_0_compat; lra).
  replace (exp b * (g a * g b)) with ((exp b * g b) * g a) in E by ring.
  set (t := 1 - exp (a - b)) in *. assert (T : 0 <= t <= b - a) by (unfold t; lra). clearbody t.
  set (u := exp b * g b) in *. assert (U2 : u <= exp b). { unfold u. assert (exp b * g b <= exp b * 1) by (apply Rmult_le_compat_l; lra). lra. }
  clearbody u. rewrite E.
  assert (M : forall k, u * g a <= k -> 0 <= k -> t * (u * g a) <= (b - a) * k).
  { intros k K K0. apply Rmult_le_compat; try lra. apply Rmult_le_pos; lra. }
  split; [apply Rmult_le_pos; [lra|apply Rmult_le_pos; lra]|].
  assert (V1 : u * g a <= 1 * g a) by (apply Rmult_le_compat_r; lra).
  assert (V2 : u * g a <= u * 1) by (apply Rmult_le_compat_l; lra).
  split; [apply M; [lra|left; apply exp_pos]|]. split; [apply M; lra|].
  replace (b - a) with ((b - a) * 1) by ring. apply M; lra.
Qed.
Lemma peak : forall t, 2 * t * exp (- t) <= 1.
Proof.
  intro t. assert (P := exp_pos t). rewrite exp_Ropp. apply Rmult_le_reg_r with (exp t); [lra|]. rewrite Rmult_assoc, Rinv_l by lra.
  assert (Q : exp t = exp (t / 2) * exp (t / 2)) by (rewrite <- exp_plus; f_equal; field).
  destruct (Rle_or_lt t 0) as [N|N]; [lra|].
  assert (X := exp_ge (t / 2)). assert ((1 + t / 2) * (1 + t / 2) <= exp (t / 2) * exp (t / 2)) by (apply Rmult_le_compat; lra).
  assert (0 <= (t / 2 - 1) * (t / 2 - 1)) by (apply Rle_0_sqr). lra.
Qed.
(** Arguments that differ by [eps] of their size, or by [h]. *)
Lemma g_shift : forall a b eps h, 0 <= eps <= / 100 -> 0 <= h <= / 100 -> Rabs (a - b) <= eps * Rabs b + h ->
  Rabs (g a - g b) <= 6 / 10 * eps + 2 * h.
Proof.
  (* the smaller size of the two, if they have the same sign *)
  assert (K : forall a b s, 0 <= a -> 0 <= b -> Rabs (a - b) <= s -> Rabs (g a - g b) <= s * exp (- (b - s)) /\ Rabs (g (- a) - g (- b)) <= s * exp (- (b - s))).
  { intros a b s A B S. assert (S0 : 0 <= s) by (apply Rle_trans with (2 := S), Rabs_pos).
    assert (EX : forall m, b - s <= m -> exp (- m) <= exp (- (b - s))).
    { intros m M. destruct (Req_dec m (b - s)) as [->|]; [lra|]. left. apply exp_increasing. lra. }
    apply Rabs_le_inv in S.
    assert (MM : forall d m, 0 <= d <= s -> b - s <= m -> d * exp (- m) <= s * exp (- (b - s))).
    { intros d m D M. apply Rmult_le_compat; [lra|left; apply exp_pos|lra|apply EX; exact M]. }
    destruct (Rle_or_lt a b) as [L|L].
    - destruct (g_diff a b L) as (D0 & D1 & _). destruct (g_diff (- b) (- a)) as (F0 & _ & F2 & _); [lra|].
      split.
      + rewrite Rabs_right by lra. apply Rle_trans with (1 := D1). apply MM; lra.
      + rewrite Rabs_left1 by lra. apply Rle_trans with ((- a - - b) * exp (- a)); [lra|]. apply MM; lra.
    - destruct (g_diff b a) as (D0 & D1 & _); [lra|]. destruct (g_diff (- a) (- b)) as (F0 & _ & F2 & _); [lra|].
      split.
      + rewrite Rabs_left1 by lra. apply Rle_trans with ((a - b) * exp (- b)); [lra|]. apply MM; lra.
      + rewrite Rabs_right by lra. apply Rle_trans with (1 := F2). apply MM; lra. }
  intros a b eps h He Hh H.
  assert (LIP : forall x y, Rabs (g x - g y) <= Rabs (x - y)).
  { intros x y. destruct (Rle_or_lt x y) as [L|L].
    - destruct (g_diff x y L) as (D0 & _ & _ & D). rewrite Rabs_right, Rabs_left1; lra.
    - destruct (g_diff y x) as (D0 & _ & _ & D); [lra|]. rewrite Rabs_left1, Rabs_right; lra. }
  assert (BP := Rabs_pos b). set (s := eps * Rabs b + h) in *.
  assert (SMALL : Rabs b <= 2 * h -> Rabs (g a - g b) <= 6 / 10 * eps + 2 * h).
  { intro Q. apply Rle_trans with (1 := LIP a b). apply Rle_trans with (1 := H). unfold s.
    assert (eps * Rabs b <= / 100 * Rabs b) by (apply Rmult_le_compat_r; lra). lra. }
  destruct (Rle_or_lt (Rabs b) (2 * h)) as [Q|Q]; [exact (SMALL Q)|].
  assert (EB : eps * Rabs b <= / 100 * Rabs b) by (apply Rmult_le_compat_r; lra).
  assert (FIN : s * exp (- (Rabs b - s)) <= 6 / 10 * eps + 2 * h).
  { set (t := Rabs b) in *. clearbody t.
    assert (U : Rabs b = Rabs b) by reflexivity. clear U.
    set (m := t - s). assert (M : m = (1 - eps) * t - h) by (unfold m, s; ring).
    assert (PK := peak m).
    assert (E0 := exp_pos (- m)).
    assert (M0 : 0 <= m). { rewrite M. replace ((1 - eps) * t - h) with (t - eps * t - h) by ring. lra. }
    assert (E1 : exp (- m) <= 1). { rewrite <- exp_0. destruct (Req_dec m 0) as [->|]; [rewrite Ropp_0; lra|]. left. apply exp_increasing. lra. }
    (* eps t <= (1.02) eps (m + h) *)
    assert (T : t <= 102 / 100 * (m + h)). { rewrite M. replace ((1 - eps) * t - h + h) with (t - eps * t) by ring. lra. }
    assert (S1 : s <= 102 / 100 * eps * (m + h) + h). { unfold s. assert (eps * t <= eps * (102 / 100 * (m + h))) by (apply Rmult_le_compat_l; lra). lra. }
    apply Rle_trans with ((102 / 100 * eps * (m + h) + h) * exp (- m)); [apply Rmult_le_compat_r; lra|].
    replace ((102 / 100 * eps * (m + h) + h) * exp (- m)) with (51 / 100 * eps * (2 * m * exp (- m)) + (102 / 100 * eps + 1) * h * exp (- m)) by field.
    assert (A1 : 51 / 100 * eps * (2 * m * exp (- m)) <= 51 / 100 * eps * 1) by (apply Rmult_le_compat_l; lra).
    assert (A2 : (102 / 100 * eps + 1) * h * exp (- m) <= (102 / 100 * eps + 1) * h * 1).
    { apply Rmult_le_compat_l; [|lra]. apply Rmult_le_pos; lra. }
    assert (A3 : eps * h <= / 100 * h) by (apply Rmult_le_compat_r; lra). lra. }
  assert (SG : Rabs (a - b) < Rabs b). { unfold s in H. lra. }
  destruct (Rle_or_lt 0 b) as [B|B].
  - rewrite (Rabs_right b) in * by lra. assert (A : 0 <= a) by (apply Rabs_lt_inv in SG; lra).
    destruct (K a b s A B H) as [X _]. lra.
  - rewrite (Rabs_left b) in * by lra. assert (A : 0 <= - a) by (apply Rabs_lt_inv in SG; lra).
    destruct (K (- a) (- b) s A) as [_ X]; [lra|rewrite <- Rabs_Ropp; replace (- (- a - - b)) with (a - b) by ring; exact H|].
    rewrite !Ropp_involutive in X. lra.
Qed.

(** ** Operations *)
Notation format := (generic_format radix2 (FLT_exp (-1074) 53)).
Lemma small_val : small = / 9007199254740992. Proof. reflexivity. Qed.
Lemma eta_tiny : eta <= / 10 ^ 310.
Proof.
  assert (E : eta * IZR (2 ^ 1075) = 1). { rewrite <- bpow_Z by lia. rewrite <- bpow_plus. reflexivity. }
  assert (H : 10 ^ 310 <= IZR (2 ^ 1075)). { rewrite pow_IZR. apply IZR_le. vm_compute. discriminate. }
  assert (P := pow10_ge_1 310). apply Rmult_le_reg_r with (10 ^ 310); [lra|]. rewrite Rinv_l by lra. rewrite <- E.
  apply Rmult_le_compat_l; [left; apply eta_pos|exact H].
Qed.
Lemma eta_small' : 0 < eta <= small / 1000000.
Proof.
  split; [apply eta_pos|]. apply Rle_trans with (1 := eta_tiny). unfold small, Rdiv. rewrite <- Rinv_mult. apply Rinv_le_contravar; [lra|].
  apply Rle_trans with (10 ^ 30); [lra|apply pow10_le; lia].
Qed.
Lemma top_pow : top = 2 ^ 1024.
Proof. change 1024%Z with (Z.of_nat 1024). rewrite bpow_powerRZ. rewrite <- pow_powerRZ. reflexivity. Qed.
Lemma finish_cases : forall x, (finish x = Real (fl x) /\ Rabs (fl x) < top) \/ (finish x = Inf (rltb x 0) /\ top <= Rabs (fl x)).
Proof. intro x. unfold finish. destruct (Rlt_dec (Rabs (fl x)) top) as [H|H]; [left|right]; split; auto. lra. Qed.
Lemma fl_big : forall x, top <= Rabs (fl x) -> top / 2 <= Rabs x.
Proof.
  intros x H. assert (E := fl_two x). assert (T := Rabs_triang (fl x - x) x). replace (fl x - x + x) with (fl x) in T by ring.
  assert (S := eta_small'). assert (P := Rabs_pos x). assert (TP : 1 <= top). { change 1 with (bpow radix2 0). apply bpow_le. lia. }
  unfold small in *. lra.
Qed.
Lemma fl_1 : fl 1 = 1.
Proof. apply fl_float. change 1 with (bpow radix2 0). apply generic_format_bpow. vm_compute. discriminate. Qed.
Lemma fl_0 : fl 0 = 0.
Proof. apply fl_float, generic_format_0. Qed.
Lemma fl_le_float : forall x y, format y -> x <= y -> fl x <= y.
Proof. intros x y F H. rewrite <- (fl_float y F). apply fl_mono. exact H. Qed.
Lemma fl_ge_float : forall x y, format y -> y <= x -> y <= fl x.
Proof. intros x y F H. rewrite <- (fl_float y F). apply fl_mono. exact H. Qed.
Lemma sub_rel : forall m l, format m -> format l -> Rabs (fl (m - l) - (m - l)) <= small * Rabs (m - l).
Proof.
  intros m l M L. destruct (FLT_plus_error_N_ex radix2 (-1074) 53 (fun x => negb (Z.even x)) m (- l) M (generic_format_opp _ _ _ L)) as (eps & B & E).
  change (round radix2 (FLT_exp (-1074) 53) (Znearest (fun x => negb (Z.even x))) (m + - l)) with (fl (m - l)) in E. rewrite E.
  change (m + - l) with (m - l).
  replace ((m - l) * (1 + eps) - (m - l)) with (eps * (m - l)) by ring. rewrite Rabs_mult. apply Rmult_le_compat_r; [apply Rabs_pos|].
  apply Rle_trans with (1 := B). unfold u_ro, small. replace (/ 2 * bpow radix2 (- (53) + 1)) with (/ 9007199254740992) by (cbn; lra).
  assert (A : 0 < / 9007199254740992) by lra. set (a := / 9007199254740992) in *. unfold Rdiv.
  assert (C : / (1 + a) <= 1). { rewrite <- Rinv_1. apply Rinv_le_contravar; lra. }
  assert (a * / (1 + a) <= a * 1) by (apply Rmult_le_compat_l; lra). lra.
Qed.

(** ** The argument of the exponential *)
Definition near (c : cell) (z : R) : Prop :=
  match c with
  | Real x => Rabs (x - z) <= 3 * small * Rabs z + eta
  | Inf s => 1000 <= Rabs z /\ (s = true <-> z < 0)
  | _ => False
  end.
Lemma top_half : 1024 <= top / 2.
Proof.
  rewrite top_pow. change (2 ^ 1024) with (2 * 2 ^ 1023). replace (2 * 2 ^ 1023 / 2) with (2 ^ 1023) by field.
  apply Rle_trans with (2 ^ 10); [lra|apply Rle_pow; [lra|lia]].
Qed.
Lemma rltb_true : forall a b, rltb a b = true <-> a < b.
Proof. intros a b. unfold rltb. destruct (Rlt_dec a b); split; auto; try lra; discriminate. Qed.
Lemma scaled_near : forall d z d1, Rabs (d1 - d) <= small * Rabs d -> forall k, 0 < k -> z = d * k -> near (finish (d1 * k)) z.
Proof.
  intros d z d1 D k K ->. assert (DP := Rabs_pos d). assert (S := eta_small').
  assert (X : Rabs (d1 * k - d * k) <= small * Rabs (d * k)).
  { replace (d1 * k - d * k) with ((d1 - d) * k) by ring. rewrite !Rabs_mult, (Rabs_right k) by lra.
    rewrite <- Rmult_assoc. apply Rmult_le_compat_r; lra. }
  assert (SG : d1 * k < 0 <-> d * k < 0).
  { assert (P := Rabs_pos (d * k)). apply Rabs_le_inv in X. split; intro N.
    - destruct (Rle_or_lt 0 (d * k)) as [Q|Q]; auto. rewrite Rabs_right in X by lra. unfold small in X. lra.
    - rewrite Rabs_left in X by lra. unfold small in X. lra. }
  destruct (finish_cases (d1 * k)) as [[-> L]|[-> L]]; cbn [near].
  - assert (E := fl_two (d1 * k)). set (y := d1 * k) in *. set (z := d * k) in *. clearbody y z. clear SG L D DP.
    assert (T := Rabs_triang (fl y - y) (y - z)). replace (fl y - y + (y - z)) with (fl y - z) in T by ring.
    assert (T2 := Rabs_triang (y - z) z). replace (y - z + z) with y in T2 by ring.
    assert (P := Rabs_pos z). assert (small * Rabs y <= small * ((1 + small) * Rabs z)) by (apply Rmult_le_compat_l; [unfold small; lra|lra]).
    assert (small * ((1 + small) * Rabs z) <= 2 * small * Rabs z).
    { replace (small * ((1 + small) * Rabs z)) with ((1 + small) * (small * Rabs z)) by ring. assert (0 <= small * Rabs z) by (apply Rmult_le_pos; [unfold small; lra|lra]).
      replace (2 * small * Rabs z) with (2 * (small * Rabs z)) by ring. apply Rmult_le_compat_r; [lra|unfold small; lra]. }
    lra.
  - split; [|rewrite rltb_true; exact SG]. apply fl_big in L. assert (TH := top_half).
    set (y := d1 * k) in *. set (z := d * k) in *. clearbody y z. clear SG D DP.
    assert (T2 := Rabs_triang (y - z) z). replace (y - z + z) with y in T2 by ring.
    assert (P := Rabs_pos z). assert (B : 2000 <= top). { lra. }
    assert (TT : top / 2 <= (1 + small) * Rabs z) by lra.
    unfold small in TT. lra.
Qed.
Lemma big_far : forall d k, top <= Rabs (fl d) -> 1 <= k -> 1000 <= Rabs (d * k).
Proof.
  intros d k H K. apply fl_big in H. assert (T := top_half). rewrite Rabs_mult, (Rabs_right k) by lra.
  assert (Rabs d * 1 <= Rabs d * k) by (apply Rmult_le_compat_l; [apply Rabs_pos|lra]). lra.
Qed.
Lemma argument_near : forall m l w, format m -> format l -> 0 < w <= 1 -> near (divide (minus (Real m) (Real l)) (Real w)) ((m - l) / w).
Proof.
  intros m l w M L W. cbn [minus plus]. change (m + - l) with (m - l). assert (IW := Rinv_0_lt_compat w ltac:(lra)).
  destruct (finish_cases (m - l)) as [[-> Q]|[-> Q]]; cbn [divide].
  - apply (scaled_near (m - l) _ (fl (m - l)) (sub_rel m l M L) (/ w) IW). reflexivity.
  - replace (rltb w 0) with false by (symmetry; unfold rltb; destruct (Rlt_dec w 0); [lra|reflexivity]). rewrite xorb_false_r.
    cbn [near]. split.
    + apply (big_far _ _ Q). rewrite <- Rinv_1. apply Rinv_le_contravar; lra.
    + rewrite rltb_true. unfold Rdiv. split; intro H.
      * replace 0 with (0 * / w) by ring. apply Rmult_lt_compat_r; auto.
      * apply Rmult_lt_reg_r with (/ w); [auto|]. rewrite Rmult_0_l. exact H.
Qed.

(** ** The denominator *)
Lemma exp_pow : forall n x, exp (INR n * x) = exp x ^ n.
Proof.
  induction n as [|n IH]; intro x; [rewrite Rmult_0_l, exp_0; reflexivity|].
  rewrite S_INR. replace ((INR n + 1) * x) with (x + INR n * x) by ring. rewrite exp_plus, IH. reflexivity.
Qed.
Lemma exp_mono : forall x y, x <= y -> exp x <= exp y.
Proof. intros x y [H| ->]; [left; apply exp_increasing; exact H|lra]. Qed.
Lemma pow_1000 : 10 ^ 301 <= 2 ^ 1000.
Proof.
  rewrite pow_IZR. replace (2 ^ 1000) with (IZR (2 ^ 1000)) by (symmetry; exact (RIneq.pow_IZR 2 1000)).
  apply IZR_le. vm_compute. discriminate.
Qed.
Lemma exp_1000 : 10 ^ 301 <= exp 1000.
Proof.
  apply Rle_trans with (1 := pow_1000). replace 1000 with (INR 1000 * 1) by (rewrite INR_IZR_INZ; cbn; lra). rewrite exp_pow.
  apply pow_incr. assert (H := exp_ge 1). lra.
Qed.
Lemma inv_le_1 : forall q, 1 <= q -> / q <= 1.
Proof. intros q Q. rewrite <- Rinv_1. apply Rinv_le_contravar; lra. Qed.
Section Library.
Variable E : cell -> cell.
Hypothesis LE : library_exp E.
Lemma divide_inf : forall f s, divide (Real f) (Inf s) = Real (fl (f * 0)).
Proof. intros f s. rewrite Rmult_0_r, fl_0. reflexivity. Qed.
Lemma divide_real : forall f q, 0 <= f <= 1 -> format f -> 1 <= q -> divide (Real f) (Real q) = Real (fl (f * / q)) /\ 0 <= fl (f * / q) <= f.
Proof.
  intros f q F FF Q. assert (I := Rinv_0_lt_compat q ltac:(lra)). assert (I1 : / q <= 1) by (rewrite <- Rinv_1; apply Rinv_le_contravar; lra).
  assert (P : 0 <= f * / q) by (apply Rmult_le_pos; lra). assert (P1 : f * / q <= f * 1) by (apply Rmult_le_compat_l; lra).
  assert (A : 0 <= fl (f * / q)) by (apply fl_ge_float; [apply generic_format_0|exact P]).
  assert (B : fl (f * / q) <= f) by (apply fl_le_float; [exact FF|lra]).
  split; [|lra]. cbn [divide]. apply finish_real. rewrite Rabs_right by (unfold Rdiv; lra). unfold Rdiv.
  assert (T := top_half). lra.
Qed.
(** [r] is the reciprocal of the denominator, zero if it is infinite. *)
Lemma denominator : forall c z, near c z -> exists r, 0 <= r <= 1 /\ Rabs (r - g z) <= 52 / 10 * small
  /\ forall f, 0 <= f <= 1 -> format f -> divide (Real f) (plus (Real 1) (E c)) = Real (fl (f * r)).
Proof.
  intros c z N. assert (ET := eta_small'). assert (EM := proj1 (proj2 LE)). assert (EP := proj1 (proj2 (proj2 LE))).
  assert (G := g_pos z). assert (ZP := Rabs_pos z).
  destruct c as [s|x|s|]; cbn [near] in N; try contradiction.
  - assert (SH : Rabs (g x - g z) <= 6 / 10 * (3 * small) + 2 * eta) by (apply g_shift; [unfold small; lra|unfold small in ET; lra|exact N]).
    assert (SP := proj2 (proj2 (proj2 (proj2 LE))) x). destruct (E (Real x)) as [?|y|[|]|] eqn:EX; try contradiction.
    + destruct SP as (Y0 & (YF & YT) & Y). assert (XP := exp_pos x). assert (GX := g_pos x).
      cbn [plus].
      destruct (finish_cases (1 + y)) as [[-> Q]|[-> Q]].
      * assert (Q1 : 1 <= fl (1 + y)) by (apply fl_ge_float; [rewrite <- fl_1; apply generic_format_round; auto with typeclass_instances|lra]).
        exists (/ fl (1 + y)). assert (I := Rinv_0_lt_compat (fl (1 + y)) ltac:(lra)).
        assert (I1 : / fl (1 + y) <= 1) by (apply inv_le_1; exact Q1).
        split; [split; [left; exact I|exact I1]|]. split; [|intros f F FF; apply (proj1 (divide_real f _ F FF Q1))].
        assert (R : Rabs (fl (1 + y) - (1 + y)) <= small * (1 + y)).
        { assert (H := fl_rel (1 + y)). rewrite (Rabs_right (1 + y)) in H by lra. apply H. lra. }
        assert (PW : / 2 ^ 1074 <= small / 1000).
        { apply Rle_trans with (/ 2 ^ 70). { apply Rinv_le_contravar; [apply pow_lt; lra|apply Rle_pow; [lra|lia]]. } unfold small. lra. }
        assert (PW0 : 0 < / 2 ^ 1074) by (apply Rinv_0_lt_compat, pow_lt; lra).
        replace (exp x / 2 ^ 52) with (2 * small * exp x) in Y by (unfold small; field).
        set (q := fl (1 + y)) in *. set (e := exp x) in *. set (h := / 2 ^ 1074) in *. clear LE EM EP EX. clearbody q h.
        assert (D : Rabs (q - (1 + e)) <= 31 / 10 * small * (1 + e)).
        { assert (T := Rabs_triang (q - (1 + y)) (y - e)). replace (q - (1 + y) + (y - e)) with (q - (1 + e)) in T by ring.
          assert (YB : y <= e + 2 * small * e + h) by (apply Rabs_le_inv in Y; lra).
          assert (small * (1 + y) <= small * (1 + (e + 2 * small * e + h))) by (apply Rmult_le_compat_l; [unfold small; lra|lra]).
          unfold small in *. clear - T Y R H PW PW0 XP. lra. }
        assert (XG : g x = / (1 + e)) by reflexivity.
        assert (Z : Rabs (/ q - g x) <= 31 / 10 * small).
        { rewrite XG. replace (/ q - / (1 + e)) with ((1 + e - q) * (/ q * / (1 + e))) by (field; lra).
          rewrite Rabs_mult, Rabs_minus_sym. rewrite (Rabs_right (/ q * / (1 + e))) by (apply Rle_ge, Rmult_le_pos; lra).
          apply Rle_trans with (31 / 10 * small * (1 + e) * (/ q * / (1 + e))).
          { apply Rmult_le_compat_r; [apply Rmult_le_pos; lra|exact D]. }
          replace (31 / 10 * small * (1 + e) * (/ q * / (1 + e))) with (31 / 10 * small * / q) by (field; lra).
          assert (31 / 10 * small * / q <= 31 / 10 * small * 1) by (apply Rmult_le_compat_l; [unfold small; lra|lra]). lra. }
        assert (T := Rabs_triang (/ q - g x) (g x - g z)). replace (/ q - g x + (g x - g z)) with (/ q - g z) in T by ring. lra.
      * exists 0. split; [lra|]. split; [|intros f F FF; apply divide_inf].
        apply fl_big in Q. rewrite Rabs_right in Q by lra. assert (TH := top_half).
        assert (GS : g x <= / 1000000000000000000000).
        { assert (K : 2 * 1000000000000000000000 <= 1 + exp x).
          { assert (TB : 100 * 1000000000000000000000 <= top / 2).
            { rewrite top_pow. change (2 ^ 1024) with (2 * 2 ^ 1023). replace (2 * 2 ^ 1023 / 2) with (2 ^ 1023) by field.
              apply Rle_trans with (2 ^ 80); [lra|apply Rle_pow; [lra|lia]]. }
            assert (PW : / 2 ^ 1074 <= 1). { rewrite <- Rinv_1. apply Rinv_le_contravar; [lra|apply pow_R1_Rle; lra]. }
            apply Rabs_le_inv in Y. assert (e52 : exp x / 2 ^ 52 <= exp x) by (apply Rmult_le_reg_r with (2 ^ 52); [lra|]; unfold Rdiv; rewrite Rmult_assoc, Rinv_l by lra; assert (exp x * 1 <= exp x * 2 ^ 52) by (apply Rmult_le_compat_l; lra); lra).
            lra. }
          unfold g. apply Rinv_le_contravar; lra. }
        replace (0 - g z) with ((g x - g z) + - g x) by ring. eapply Rle_trans; [apply Rabs_triang|]. rewrite Rabs_Ropp, (Rabs_right (g x)) by lra.
        unfold small in *. lra.
    + exists 0. split; [lra|]. split; [|intros f F FF; apply divide_inf].
      assert (GX := g_pos x).
      assert (GS : g x <= / 1000000000000000000000).
      { assert (2 ^ 80 <= 2 ^ 1023) by (apply Rle_pow; [lra|lia]). unfold g. apply Rinv_le_contravar; lra. }
      replace (0 - g z) with ((g x - g z) + - g x) by ring. eapply Rle_trans; [apply Rabs_triang|]. rewrite Rabs_Ropp, (Rabs_right (g x)) by lra.
      unfold small in *. lra.
  - destruct N as [Z S]. assert (X := exp_1000). assert (B : 10 ^ 30 <= 10 ^ 301) by (apply pow10_le; lia).
    destruct s.
    + rewrite EM. exists 1. assert (z < 0) by tauto. rewrite Rabs_left in Z by lra.
      cbn [plus]. rewrite Rplus_0_r. rewrite finish_real by (rewrite fl_1, Rabs_R1; assert (T := top_half); lra). rewrite fl_1.
      split; [lra|]. split.
      * assert (M := exp_mono 1000 (- z) ltac:(lra)). rewrite exp_Ropp in M. assert (EZ := exp_pos z).
        assert (EB : exp z <= / 10 ^ 30). { rewrite <- (Rinv_inv (exp z)). apply Rinv_le_contravar; lra. }
        assert (1 - exp z <= g z). { unfold g. apply Rmult_le_reg_r with (1 + exp z); [lra|]. rewrite Rinv_l by lra. assert (0 <= exp z * exp z) by (apply Rmult_le_pos; lra). lra. }
        rewrite Rabs_right by lra. unfold small. lra.
      * intros f F FF. rewrite <- Rinv_1 at 2. apply (proj1 (divide_real f 1 F FF ltac:(lra))).
    + rewrite EP. exists 0. assert (0 <= z) by (apply Rnot_lt_le; intro; assert (false = true) by tauto; discriminate).
      rewrite Rabs_right in Z by lra. split; [lra|]. split; [|intros f F FF; apply divide_inf].
      assert (M := exp_mono 1000 z ltac:(lra)).
      assert (g z <= / 10 ^ 30). { unfold g. apply Rinv_le_contravar; lra. }
      rewrite Rabs_left1 by lra. unfold small. lra.
Qed.
End Library.

(** ** Order *)
Definition cle (a b : cell) : Prop :=
  match a, b with
  | Real x, Real y => x <= y
  | Inf true, Real _ | Inf true, Inf _ | Real _, Inf false | Inf false, Inf false => True
  | _, _ => False
  end.
Lemma finish_mono : forall x y, x <= y -> cle (finish x) (finish y).
Proof.
  intros x y H. assert (M := fl_mono x y H). assert (T := bpow_gt_0 radix2 1024). unfold finish.
  assert (SG : forall v, top <= Rabs (fl v) -> (v < 0 -> fl v <= - top) /\ (0 <= v -> top <= fl v)).
  { intros v V. split; intro S.
    - assert (F := fl_le_float v 0 (generic_format_0 _ _) ltac:(lra)). rewrite Rabs_left1 in V by lra. lra.
    - assert (F := fl_ge_float v 0 (generic_format_0 _ _) S). rewrite Rabs_right in V by lra. lra. }
  destruct (Rlt_dec (Rabs (fl x)) top) as [X|X]; destruct (Rlt_dec (Rabs (fl y)) top) as [Y|Y]; cbn [cle].
  - exact M.
  - unfold rltb. destruct (Rlt_dec y 0) as [N|N]; auto. apply Rabs_lt_inv in X. destruct (SG y) as [A _]; [lra|]. specialize (A N). lra.
  - unfold rltb. destruct (Rlt_dec x 0) as [N|N]; auto. apply Rabs_lt_inv in Y. destruct (SG x) as [_ A]; [lra|]. specialize (A ltac:(lra)). lra.
  - unfold rltb. destruct (Rlt_dec x 0); destruct (Rlt_dec y 0); auto. lra.
Qed.
Lemma rltb_pos : forall w, 0 < w -> rltb w 0 = false.
Proof. intros w W. unfold rltb. destruct (Rlt_dec w 0); [lra|auto]. Qed.
Lemma divide_mono : forall a b w, 0 < w -> cle a b -> cle (divide a (Real w)) (divide b (Real w)).
Proof.
  intros a b w W C. assert (I := Rinv_0_lt_compat w W).
  destruct a as [?|x|[|]|]; destruct b as [?|y|[|]|]; cbn [cle divide] in *; try contradiction; rewrite ?(rltb_pos w W); cbn [xorb]; auto.
  - apply finish_mono. unfold Rdiv. apply Rmult_le_compat_r; lra.
  - destruct (finish_cases (x / w)) as [[-> _]|[-> _]]; cbn; auto. destruct (rltb (x / w) 0); auto.
  - destruct (finish_cases (y / w)) as [[-> _]|[-> _]]; cbn; auto.
Qed.
Lemma multiply_mono : forall a b k, 0 < k -> cle a b -> cle (multiply (Real k) a) (multiply (Real k) b).
Proof.
  intros a b k W C. assert (NZ : (if Req_EM_T k 0 then true else false) = false) by (destruct (Req_EM_T k 0); [lra|auto]).
  destruct a as [?|x|[|]|]; destruct b as [?|y|[|]|]; cbn [cle multiply] in *; try contradiction;
    rewrite ?(rltb_pos k W); destruct (Req_EM_T k 0); try lra; cbn [xorb]; auto.
  - apply finish_mono. apply Rmult_le_compat_l; lra.
  - destruct (finish_cases (k * x)) as [[-> _]|[-> _]]; cbn; auto. destruct (rltb (k * x) 0); auto.
  - destruct (finish_cases (k * y)) as [[-> _]|[-> _]]; cbn; auto.
Qed.
Lemma exp_order : forall E, library_exp E -> increasing E -> forall a b, cle a b -> cle (E a) (E b).
Proof.
  intros E LE I a b C. assert (EM := proj1 (proj2 LE)). assert (EP := proj1 (proj2 (proj2 LE))). assert (SP := proj2 (proj2 (proj2 (proj2 LE)))).
  destruct a as [?|x|[|]|]; destruct b as [?|y|[|]|]; cbn [cle] in C; try contradiction; rewrite ?EM, ?EP; cbn; auto.
  - specialize (I x y C). destruct (E (Real x)) as [?|?|[|]|]; destruct (E (Real y)) as [?|?|[|]|]; cbn; auto.
  - specialize (SP x). destruct (E (Real x)) as [?|?|[|]|]; cbn; auto.
  - specialize (SP y). destruct (E (Real y)) as [?|?|[|]|]; cbn; auto. tauto.
  - lra.
Qed.
Lemma plus_one_mono : forall a b, cle a b -> cle (plus (Real 1) a) (plus (Real 1) b).
Proof.
  intros a b C. destruct a as [?|x|[|]|]; destruct b as [?|y|[|]|]; cbn [cle plus] in *; try contradiction; auto.
  - apply finish_mono. lra.
  - destruct (finish_cases (1 + x)) as [[-> _]|[-> _]]; cbn; auto. destruct (rltb (1 + x) 0); auto.
  - destruct (finish_cases (1 + y)) as [[-> _]|[-> _]]; cbn; auto.
Qed.
(** Denominators are at least one. *)
Definition big (c : cell) : Prop := match c with Real q => 1 <= q | Inf false => True | _ => False end.
Lemma denominator_big : forall E, library_exp E -> forall c, (match c with Real _ | Inf _ => True | _ => False end) -> big (plus (Real 1) (E c)).
Proof.
  intros E LE c C. assert (EM := proj1 (proj2 LE)). assert (EP := proj1 (proj2 (proj2 LE))). assert (SP := proj2 (proj2 (proj2 (proj2 LE)))).
  assert (K : forall y, 0 <= y -> big (finish (1 + y))).
  { intros y Y. destruct (finish_cases (1 + y)) as [[-> _]|[-> _]]; cbn.
    - apply fl_ge_float; [rewrite <- fl_1; apply generic_format_round; auto with typeclass_instances|lra].
    - unfold rltb. destruct (Rlt_dec (1 + y) 0); [lra|auto]. }
  destruct c as [?|x|[|]|]; try contradiction; rewrite ?EM, ?EP; cbn [plus]; [|apply K; lra|exact I].
  specialize (SP x). destruct (E (Real x)) as [?|y|[|]|]; try contradiction; cbn [plus]; [apply K; tauto|exact I].
Qed.
Lemma divide_anti : forall f a b, 0 <= f <= 1 -> format f -> big a -> big b -> cle a b ->
  exists p q, divide (Real f) a = Real p /\ divide (Real f) b = Real q /\ 0 <= q <= p /\ p <= f.
Proof.
  intros f a b F FF A B C. destruct a as [?|x|[|]|]; destruct b as [?|y|[|]|]; cbn [big cle] in *; try contradiction.
  - destruct (divide_real f x F FF A) as [DA PA]. destruct (divide_real f y F FF B) as [DB PB]. eexists. eexists.
    split; [exact DA|]. split; [exact DB|]. split; [|lra]. split; [lra|]. apply fl_mono. apply Rmult_le_compat_l; [lra|]. apply Rinv_le_contravar; lra.
  - destruct (divide_real f x F FF A) as [DA PA]. eexists. exists 0. split; [exact DA|]. split; [reflexivity|]. lra.
  - exists 0, 0. repeat split; lra.
Qed.
Lemma minus_mono : forall m l m' l', m - l <= m' - l' -> cle (minus (Real m) (Real l)) (minus (Real m') (Real l')).
Proof. intros m l m' l' H. cbn [minus plus]. apply finish_mono. lra. Qed.
Lemma finish_number : forall x, match finish x with Real _ | Inf _ => True | _ => False end.
Proof. intro x. destruct (finish_cases x) as [[-> _]|[-> _]]; exact I. Qed.
Lemma divide_number : forall c w, 0 < w -> (match c with Real _ | Inf _ => True | _ => False end) -> match divide c (Real w) with Real _ | Inf _ => True | _ => False end.
Proof. intros c w W C. destruct c as [?|x|s|]; try contradiction; cbn [divide]; [apply finish_number|exact I]. Qed.
Lemma multiply_number : forall c k, 0 < k -> (match c with Real _ | Inf _ => True | _ => False end) -> match multiply (Real k) c with Real _ | Inf _ => True | _ => False end.
Proof. intros c k K C. destruct c as [?|x|s|]; try contradiction; cbn [multiply]; [apply finish_number|]. destruct (Req_EM_T k 0); [lra|exact I]. Qed.
Lemma minus_number : forall m l, match minus (Real m) (Real l) with Real _ | Inf _ => True | _ => False end.
Proof. intros m l. cbn [minus plus]. apply finish_number. Qed.

(** ** C105 *)
Lemma C105_close_proof : forall E m l f w, library_exp E -> binary64 m -> binary64 l -> binary64 f -> 0 <= f <= 1 -> 0 < w <= 1 ->
  exists p, calcDetectionProbability_f E (Real m) (Real l) (Real f) (Real w) = Real p /\ 0 <= p <= f
    /\ Rabs (p - f / (1 + exp ((m - l) / w))) <= f / 10 ^ 15 + / 10 ^ 300.
Proof.
  intros E m l f w LE [M _] [L _] [FF _] F W. unfold calcDetectionProbability_f.
  destruct (denominator E LE _ _ (argument_near m l w M L W)) as (r & R & D & DV). rewrite (DV f F FF).
  fold (g ((m - l) / w)). change (f / (1 + exp ((m - l) / w))) with (f * g ((m - l) / w)). set (z := (m - l) / w) in *. clearbody z. clear DV.
  assert (G := g_pos z). exists (fl (f * r)). split; [reflexivity|].
  assert (P0 : 0 <= f * r) by (apply Rmult_le_pos; lra). assert (P1 : f * r <= f * 1) by (apply Rmult_le_compat_l; lra).
  split; [split; [apply fl_ge_float; [apply generic_format_0|exact P0]|apply fl_le_float; [exact FF|lra]]|].
  assert (T := fl_two (f * r)). rewrite (Rabs_right (f * r)) in T by lra.
  assert (U : Rabs (f * r - f * g z) <= f * (52 / 10 * small)).
  { replace (f * r - f * g z) with (f * (r - g z)) by ring. rewrite Rabs_mult, (Rabs_right f) by lra. apply Rmult_le_compat_l; lra. }
  assert (V := Rabs_triang (fl (f * r) - f * r) (f * r - f * g z)). replace (fl (f * r) - f * r + (f * r - f * g z)) with (fl (f * r) - f * g z) in V by ring.
  assert (ET := eta_tiny). assert (EE : / 10 ^ 310 <= / 10 ^ 300). { apply Rinv_le_contravar; [assert (X := pow10_ge_1 300); lra|apply pow10_le; lia]. }
  assert (SM : small * (f * r) <= small * f) by (apply Rmult_le_compat_l; [unfold small; lra|lra]).
  assert (Q : f * (62 / 10 * small) <= f / 10 ^ 15) by (apply Rmult_le_compat_l; [lra|unfold small; lra]). lra.
Qed.
Lemma C105_order_proof : forall E m l m' l' f w, library_exp E -> increasing E -> binary64 f -> 0 <= f <= 1 -> 0 < w -> m - l <= m' - l' ->
  exists p p', calcDetectionProbability_f E (Real m) (Real l) (Real f) (Real w) = Real p
    /\ calcDetectionProbability_f E (Real m') (Real l') (Real f) (Real w) = Real p' /\ 0 <= p' <= p /\ p <= f.
Proof.
  intros E m l m' l' f w LE I [FF _] F W H. unfold calcDetectionProbability_f. apply divide_anti; auto.
  - apply denominator_big; auto. apply divide_number; auto. apply minus_number.
  - apply denominator_big; auto. apply divide_number; auto. apply minus_number.
  - apply plus_one_mono, exp_order; auto. apply divide_mono; auto. apply minus_mono. exact H.
Qed.
Lemma format_half : forall f, format f -> / 2 ^ 1000 <= f -> format (f / 2).
Proof.
  intros f F H. replace (f / 2) with (f * bpow radix2 (-1)) by (cbn; lra). apply mult_bpow_exact_FLT; auto.
  assert (P : 0 < / 2 ^ 1000) by (apply Rinv_0_lt_compat, pow_lt; lra).
  assert (M : (-999 <= mag radix2 f)%Z).
  { apply mag_ge_bpow. rewrite Rabs_right by lra. change (-999 - 1)%Z with (- Z.of_nat 1000)%Z. rewrite bpow_opp, bpow_powerRZ, <- pow_powerRZ. exact H. }
  lia.
Qed.
Lemma C105_half_proof : forall E m f w, library_exp E -> binary64 f -> / 2 ^ 1000 <= f <= 1 -> 0 < w ->
  calcDetectionProbability_f E (Real m) (Real m) (Real f) (Real w) = Real (f / 2).
Proof.
  intros E m f w LE [FF _] F W. assert (E0 := proj1 (proj2 (proj2 (proj2 LE)))). unfold calcDetectionProbability_f. cbn [minus plus].
  assert (T := top_half). assert (P : 0 < / 2 ^ 1000) by (apply Rinv_0_lt_compat, pow_lt; lra).
  replace (m + - m) with 0 by ring. rewrite (finish_real 0) by (rewrite fl_0, Rabs_R0; lra). rewrite fl_0. cbn [divide].
  unfold Rdiv at 1. rewrite Rmult_0_l. rewrite (finish_real 0) by (rewrite fl_0, Rabs_R0; lra). rewrite fl_0, E0. cbn [plus].
  assert (F2 : fl (1 + 1) = 2). { replace (1 + 1) with (bpow radix2 1) by (cbn; lra). rewrite fl_float; [cbn; lra|]. apply generic_format_bpow. vm_compute. discriminate. }
  rewrite (finish_real (1 + 1)) by (rewrite F2, Rabs_right; lra). rewrite F2. cbn [divide].
  rewrite finish_real; rewrite (fl_float (f / 2) (format_half f FF (proj1 F))); [reflexivity|]. rewrite Rabs_right; lra.
Qed.
Lemma C105_missing_proof : forall E c f w, library_exp E ->
  calcDetectionProbability_f E Nan c f w = Nan /\ calcDetectionProbability_f E c Nan f w = Nan
  /\ forall A (mag lim : A -> cell) draw rows r, In r (PPFadingFunctionFilter_f E mag lim f w draw rows) -> mag r <> Nan /\ lim r <> Nan.
Proof.
  intros E c f w LE. assert (EN := proj1 LE).
  assert (N : forall a b, a = Nan \/ b = Nan -> calcDetectionProbability_f E a b f w = Nan).
  { intros a b H. unfold calcDetectionProbability_f. replace (minus a b) with Nan by (destruct H as [->| ->]; [destruct b|destruct a]; reflexivity).
    cbn [divide]. rewrite EN. destruct f; reflexivity. }
  split; [apply N; auto|]. split; [apply N; auto|].
  intros A mag lim draw rows r. unfold PPFadingFunctionFilter_f. generalize O. induction rows as [|x rows IH]; intros i I; [destruct I|].
  cbn [PPDropObservations_f] in I. destruct (at_least _ (draw i)) eqn:K; [|exact (IH _ I)]. destruct I as [->|I]; [|exact (IH _ I)].
  split; intro X; rewrite N in K by (rewrite X; auto); discriminate.
Qed.
Lemma C105_infinite_proof : forall E f w l, library_exp E -> 0 < w -> binary64 f ->
  calcDetectionProbability_f E (Inf false) (Real l) (Real f) (Real w) = Real 0
  /\ calcDetectionProbability_f E (Inf true) (Real l) (Real f) (Real w) = Real f
  /\ (forall s, calcDetectionProbability_f E (Inf s) (Inf s) (Real f) (Real w) = Nan)
  /\ forall A (mag lim : A -> cell) draw rows r, In r (PPFadingFunctionFilter_f E mag lim (Real f) (Real w) draw rows) ->
       forall s, mag r = Inf s -> lim r <> Inf s.
Proof.
  intros E f w l LE W F. destruct LE as (EN & ET & EF & _).
  assert (WS : rltb w 0 = false) by (unfold rltb; destruct (Rlt_dec w 0); [lra|reflexivity]).
  assert (N : forall s, calcDetectionProbability_f E (Inf s) (Inf s) (Real f) (Real w) = Nan).
  { intro s. unfold calcDetectionProbability_f. replace (minus (Inf s) (Inf s)) with Nan by (destruct s; reflexivity). cbn [divide]. rewrite EN. reflexivity. }
  split; [|split; [|split; [exact N|]]].
  - unfold calcDetectionProbability_f. cbn [minus plus divide]. rewrite WS. cbn [xorb]. rewrite EF. reflexivity.
  - unfold calcDetectionProbability_f. cbn [minus plus divide]. rewrite WS. cbn [xorb]. rewrite ET. cbn [plus]. rewrite Rplus_0_r.
    assert (T := top_half). rewrite finish_real by (rewrite fl_1, Rabs_R1; lra). rewrite fl_1. cbn [divide]. unfold Rdiv. rewrite Rinv_1, Rmult_1_r.
    destruct F as [F1 F2]. rewrite finish_real; rewrite (fl_float f F1); [reflexivity|exact F2].
  - intros A mag lim draw rows r. unfold PPFadingFunctionFilter_f. generalize O. induction rows as [|x rows IH]; intros i I; [destruct I|].
    cbn [PPDropObservations_f] in I. destruct (at_least _ (draw i)) eqn:K; [|exact (IH _ I)]. destruct I as [->|I]; [|exact (IH _ I)].
    intros s M L. rewrite M, L, N in K. discriminate.
Qed.
Lemma fl_one_plus : forall y, 0 <= y <= / 2 ^ 54 -> fl (1 + y) = 1.
Proof.
  intros y Y. assert (B : 1 <= fl (1 + y)) by (apply fl_ge_float; [rewrite <- fl_1; apply generic_format_round; auto with typeclass_instances|lra]).
  assert (M : mag radix2 (1 + y) = 1%Z :> Z). { apply mag_unique_pos. cbn. lra. }
  unfold fl, round, scaled_mantissa, cexp. rewrite M. replace (FLT_exp (-1074) 53 1) with (-52)%Z by reflexivity.
  replace (ZnearestE ((1 + y) * bpow radix2 (- (-52)))) with 4503599627370496%Z.
  - unfold F2R. cbn. lra.
  - symmetry. apply Znearest_imp. replace (bpow radix2 (- (-52))) with 4503599627370496 by (cbn; lra).
    replace ((1 + y) * 4503599627370496 - 4503599627370496) with (y * 4503599627370496) by ring. rewrite Rabs_right by lra. lra.
Qed.
Lemma scale_format : forall w e, format w -> (0 <= e)%Z -> format (w * bpow radix2 e).
Proof.
  intros w e F H. destruct (Req_dec w 0) as [->|N]; [rewrite Rmult_0_l; apply generic_format_0|].
  apply mult_bpow_pos_exact_FLT; auto.
Qed.
Lemma exp_64 : exp (-64) <= / 2 ^ 60.
Proof.
  replace (-64) with (- (64)) by lra. rewrite exp_Ropp. apply Rinv_le_contravar; [apply pow_lt; lra|]. apply Rle_trans with (2 ^ 64); [apply Rle_pow; [lra|lia]|].
  replace 64 with (INR 64 * 1) by (cbn; lra). rewrite exp_pow. apply pow_incr. assert (H := exp_ge 1). lra.
Qed.
(** The quotient lies beyond [2^e] widths. *)
Lemma beyond : forall m l w e, binary64 w -> 0 < w -> (0 <= e)%Z ->
  (m + w * bpow radix2 e <= l -> match divide (minus (Real m) (Real l)) (Real w) with Real x => x <= - bpow radix2 e | Inf true => True | _ => False end)
  /\ (l + w * bpow radix2 e <= m -> match divide (minus (Real m) (Real l)) (Real w) with Real x => bpow radix2 e <= x | Inf false => True | _ => False end).
Proof.
  intros m l w e [F _] W E. assert (I := Rinv_0_lt_compat w W). cbn [minus plus]. change (m + - l) with (m - l).
  assert (SF := scale_format w e F E). assert (EP := bpow_gt_0 radix2 e).
  assert (EF : format (bpow radix2 e)) by (apply generic_format_bpow; unfold FLT_exp; lia).
  assert (WE : 0 < w * bpow radix2 e) by (apply Rmult_lt_0_compat; lra).
  split; intro H.
  - assert (D : fl (m - l) <= - (w * bpow radix2 e)) by (apply fl_le_float; [apply generic_format_opp; exact SF|lra]).
    destruct (finish_cases (m - l)) as [[-> _]|[-> _]]; cbn [divide].
    + assert (Q : fl (m - l) / w <= - bpow radix2 e).
      { apply Rmult_le_reg_r with w; auto. unfold Rdiv. rewrite Rmult_assoc, Rinv_l by lra. lra. }
      destruct (finish_cases (fl (m - l) / w)) as [[-> _]|[-> _]].
      * apply fl_le_float; [apply generic_format_opp; exact EF|exact Q].
      * unfold rltb. destruct (Rlt_dec (fl (m - l) / w) 0); [exact Logic.I|lra].
    + rewrite (rltb_pos w W). unfold rltb. destruct (Rlt_dec (m - l) 0); [exact Logic.I|lra].
  - assert (D : w * bpow radix2 e <= fl (m - l)) by (apply fl_ge_float; [exact SF|lra]).
    destruct (finish_cases (m - l)) as [[-> _]|[-> _]]; cbn [divide].
    + assert (Q : bpow radix2 e <= fl (m - l) / w).
      { apply Rmult_le_reg_r with w; auto. unfold Rdiv. rewrite Rmult_assoc, Rinv_l by lra. lra. }
      destruct (finish_cases (fl (m - l) / w)) as [[-> _]|[-> _]].
      * apply fl_ge_float; [exact EF|exact Q].
      * unfold rltb. destruct (Rlt_dec (fl (m - l) / w) 0); [lra|exact Logic.I].
    + rewrite (rltb_pos w W). unfold rltb. destruct (Rlt_dec (m - l) 0); [lra|exact Logic.I].
Qed.
Lemma bright_one : forall E c, library_exp E -> match c with Real x => x <= - bpow radix2 6 | Inf true => True | _ => False end -> plus (Real 1) (E c) = Real 1.
Proof.
  intros E c LE H. assert (EM := proj1 (proj2 LE)). assert (SP := proj2 (proj2 (proj2 (proj2 LE)))). assert (T := top_half).
  destruct c as [?|x|[|]|]; try contradiction.
  - specialize (SP x). replace (bpow radix2 6) with 64 in H by (cbn; lra). assert (X := exp_mono x (-64) H). assert (X6 := exp_64). assert (XP := exp_pos x).
    destruct (E (Real x)) as [?|y|[|]|]; try contradiction.
    + destruct SP as (Y0 & _ & Y). cbn [plus].
      assert (PW : / 2 ^ 1074 <= / 2 ^ 60) by (apply Rinv_le_contravar; [apply pow_lt; lra|apply Rle_pow; [lra|lia]]).
      assert (e52 : exp x / 2 ^ 52 <= exp x) by (apply Rmult_le_reg_r with (2 ^ 52); [lra|]; unfold Rdiv; rewrite Rmult_assoc, Rinv_l by lra; assert (exp x * 1 <= exp x * 2 ^ 52) by (apply Rmult_le_compat_l; lra); lra).
      assert (YS : y <= / 2 ^ 54) by (apply Rabs_le_inv in Y; lra).
      assert (F1 := fl_one_plus y (conj Y0 YS)). rewrite finish_real; rewrite F1; [reflexivity|rewrite Rabs_R1; lra].
    + exfalso. assert (1 <= 2 ^ 1023) by (apply pow_R1_Rle; lra). lra.
  - rewrite EM. cbn [plus]. rewrite Rplus_0_r. rewrite finish_real; rewrite fl_1; [reflexivity|rewrite Rabs_R1; lra].
Qed.
Lemma C105_bright_proof : forall E m l f w, library_exp E -> binary64 f -> binary64 w -> 0 <= f <= 1 -> 0 < w -> m + 64 * w <= l ->
  calcDetectionProbability_f E (Real m) (Real l) (Real f) (Real w) = Real f.
Proof.
  intros E m l f w LE [FF _] BW F W H. unfold calcDetectionProbability_f.
  destruct (beyond m l w 6 BW W ltac:(lia)) as [B _]. rewrite (bright_one E _ LE).
  - destruct (divide_real f 1 F FF ltac:(lra)) as [-> _]. rewrite Rinv_1, Rmult_1_r, fl_float; auto.
  - apply B. replace (bpow radix2 6) with 64 by (cbn; lra). lra.
Qed.
Lemma exp_1024 : 4 * 2 ^ 1024 <= exp 1024.
Proof.
  replace (exp 1024) with (exp (INR 1024 * 1)) by (f_equal; rewrite INR_IZR_INZ; change (Z.of_nat 1024) with 1024%Z; lra). rewrite exp_pow.
  assert (E1 : 24 / 10 <= exp 1).
  { replace (exp 1) with (exp (INR 4 * (/ 4))) by (f_equal; cbn; lra). rewrite exp_pow. assert (Q := exp_ge (/ 4)).
    apply Rle_trans with ((1 + / 4) ^ 4); [lra|]. apply pow_incr. lra. }
  apply Rle_trans with ((24 / 10) ^ 1024); [|apply pow_incr; lra].
  replace (24 / 10) with ((1 + 2 / 10) * 2) by field. rewrite Rpow_mult_distr. apply Rmult_le_compat_r; [apply pow_le; lra|].
  assert (P := poly 1024 (2 / 10) ltac:(lra)). rewrite INR_IZR_INZ in P. change (Z.of_nat 1024) with 1024%Z in P. eapply Rle_trans; [|exact P].
  lra.
Qed.
Lemma C105_faint_proof : forall E m l f w, library_exp E -> binary64 w -> 0 < w -> l + 1024 * w <= m ->
  calcDetectionProbability_f E (Real m) (Real l) (Real f) (Real w) = Real 0.
Proof.
  intros E m l f w LE BW W H. unfold calcDetectionProbability_f.
  assert (EP := proj1 (proj2 (proj2 LE))). assert (SP := proj2 (proj2 (proj2 (proj2 LE)))).
  destruct (beyond m l w 10 BW W ltac:(lia)) as [_ B].
  replace (bpow radix2 10) with 1024 in B by (cbn; lra). specialize (B ltac:(lra)).
  destruct (divide _ (Real w)) as [?|x|[|]|]; try contradiction.
  - specialize (SP x). destruct (E (Real x)) as [?|y|[|]|]; try contradiction; [|reflexivity].
    exfalso. destruct SP as (Y0 & (_ & YT) & Y). rewrite Rabs_right in YT by lra. rewrite top_pow in YT.
    assert (X := exp_mono 1024 x B). assert (X6 := exp_1024). assert (XP := exp_pos x). assert (P1 : 1 <= 2 ^ 1024) by (apply pow_R1_Rle; lra).
    assert (PW : / 2 ^ 1074 <= 1) by (apply inv_le_1, pow_R1_Rle; lra).
    assert (e52 : exp x / 2 ^ 52 <= exp x / 2) by (apply Rmult_le_compat_l; lra).
    apply Rabs_le_inv in Y. lra.
  - rewrite EP. reflexivity.
Qed.
Lemma argument_near_des : forall m l k, format m -> format l -> / 10 ^ 300 <= k -> near (multiply (Real k) (minus (Real m) (Real l))) (k * (m - l)).
Proof.
  intros m l k M L K. cbn [minus plus]. change (m + - l) with (m - l).
  assert (P300 := pow10_ge_1 300). assert (KP : 0 < k) by (apply Rlt_le_trans with (2 := K), Rinv_0_lt_compat; lra).
  destruct (finish_cases (m - l)) as [[-> Q]|[-> Q]]; cbn [multiply].
  - rewrite Rmult_comm. apply (scaled_near (m - l) _ (fl (m - l)) (sub_rel m l M L) k KP). ring.
  - rewrite (rltb_pos k KP), xorb_false_r. destruct (Req_EM_T k 0); [lra|]. cbn [near]. split.
    + apply fl_big in Q. rewrite Rabs_mult, (Rabs_right k) by lra. assert (T := top_large).
      assert (P308 : 10 ^ 308 = 100000000 * 10 ^ 300). { replace 308%nat with (8 + 300)%nat by reflexivity. rewrite pow_add. lra. }
      apply Rle_trans with (/ 10 ^ 300 * (1000 * 10 ^ 300)); [right; field; lra|].
      apply Rmult_le_compat; [left; apply Rinv_0_lt_compat; lra|lra|lra|lra].
    + rewrite rltb_true. split; intro H.
      * replace 0 with (k * 0) by ring. apply Rmult_lt_compat_l; auto.
      * apply Rmult_lt_reg_l with k; auto. rewrite Rmult_0_r. exact H.
Qed.
Lemma multiply_real : forall s p, 0 <= s <= 1 -> format s -> 0 <= p <= 1 -> format p ->
  multiply (Real s) (Real p) = Real (fl (s * p)) /\ 0 <= fl (s * p) <= s /\ fl (s * p) <= p.
Proof.
  intros s p S FS P FP. assert (A0 : 0 <= s * p) by (apply Rmult_le_pos; lra). assert (A1 : s * p <= s * 1) by (apply Rmult_le_compat_l; lra).
  assert (A2 : s * p <= 1 * p) by (apply Rmult_le_compat_r; lra).
  assert (B0 : 0 <= fl (s * p)) by (apply fl_ge_float; [apply generic_format_0|exact A0]).
  assert (B1 : fl (s * p) <= s) by (apply fl_le_float; [exact FS|lra]).
  assert (B2 : fl (s * p) <= p) by (apply fl_le_float; [exact FP|lra]).
  split; [|lra]. cbn [multiply]. apply finish_real. rewrite Rabs_right by lra. assert (T := top_half). lra.
Qed.
Lemma fl_format : forall x, format (fl x).
Proof. intro x. apply generic_format_round; auto with typeclass_instances. Qed.
Lemma C105_des_proof : forall E m l c k s, library_exp E -> binary64 m -> binary64 l -> binary64 c -> binary64 s ->
  0 <= c <= 1 -> 0 <= s <= 1 -> / 10 ^ 300 <= k ->
  exists p, DEScalcDetectionProbability_f E (Real m) (Real l) (Real c) (Real k) (Real s) = Real p /\ 0 <= p <= s /\ p <= c
    /\ Rabs (p - s * (c / (1 + exp (k * (m - l))))) <= s * c / 10 ^ 15 + / 10 ^ 300.
Proof.
  intros E m l c k s LE [M _] [L _] [FC _] [FS _] C S K. unfold DEScalcDetectionProbability_f.
  destruct (denominator E LE _ _ (argument_near_des m l k M L K)) as (r & R & D & DV). rewrite (DV c C FC).
  change (c / (1 + exp (k * (m - l)))) with (c * g (k * (m - l))). set (z := k * (m - l)) in *. clearbody z. clear DV.
  assert (G := g_pos z).
  assert (P0 : 0 <= c * r) by (apply Rmult_le_pos; lra). assert (P1 : c * r <= c * 1) by (apply Rmult_le_compat_l; lra).
  set (p1 := fl (c * r)). assert (Q0 : 0 <= p1) by (apply fl_ge_float; [apply generic_format_0|exact P0]).
  assert (Q1 : p1 <= c) by (apply fl_le_float; [exact FC|lra]).
  destruct (multiply_real s p1 S FS ltac:(lra) (fl_format _)) as (-> & B & B2). exists (fl (s * p1)). split; [reflexivity|]. split; [lra|]. split; [lra|].
  assert (T1 := fl_two (c * r)). fold p1 in T1. rewrite (Rabs_right (c * r)) in T1 by lra.
  assert (T2 := fl_two (s * p1)). assert (SP0 : 0 <= s * p1) by (apply Rmult_le_pos; lra). rewrite (Rabs_right (s * p1)) in T2 by lra.
  assert (U : Rabs (c * r - c * g z) <= c * (52 / 10 * small)).
  { replace (c * r - c * g z) with (c * (r - g z)) by ring. rewrite Rabs_mult, (Rabs_right c) by lra. apply Rmult_le_compat_l; lra. }
  assert (V := Rabs_triang (p1 - c * r) (c * r - c * g z)). replace (p1 - c * r + (c * r - c * g z)) with (p1 - c * g z) in V by ring.
  assert (SM : small * (c * r) <= small * c) by (apply Rmult_le_compat_l; [unfold small; lra|lra]).
  assert (V1 : Rabs (p1 - c * g z) <= 62 / 10 * small * c + eta) by lra.
  assert (W : Rabs (s * p1 - s * (c * g z)) <= s * (62 / 10 * small * c + eta)).
  { replace (s * p1 - s * (c * g z)) with (s * (p1 - c * g z)) by ring. rewrite Rabs_mult, (Rabs_right s) by lra. apply Rmult_le_compat_l; lra. }
  assert (X := Rabs_triang (fl (s * p1) - s * p1) (s * p1 - s * (c * g z))).
  replace (fl (s * p1) - s * p1 + (s * p1 - s * (c * g z))) with (fl (s * p1) - s * (c * g z)) in X by ring.
  assert (ET := eta_tiny). assert (E0 := eta_pos). assert (P300 := pow10_ge_1 300).
  assert (EE : 3 * / 10 ^ 310 <= / 10 ^ 300).
  { replace 310%nat with (10 + 300)%nat by reflexivity. rewrite pow_add, Rinv_mult. assert (0 < / 10 ^ 300) by (apply Rinv_0_lt_compat; lra). lra. }
  assert (SC : 0 <= s * c) by (apply Rmult_le_pos; lra).
  assert (Y1 : small * (s * p1) <= small * (s * c)) by (apply Rmult_le_compat_l; [unfold small; lra|apply Rmult_le_compat_l; lra]).
  assert (Y2 : s * eta <= 1 * eta) by (apply Rmult_le_compat_r; lra).
  replace (s * (62 / 10 * small * c + eta)) with (62 / 10 * small * (s * c) + s * eta) in W by ring.
  replace (s * c / 10 ^ 15) with ((s * c) * / 10 ^ 15) by reflexivity.
  assert (Z : 8 * small * (s * c) <= (s * c) * / 10 ^ 15) by (rewrite Rmult_comm; apply Rmult_le_compat_l; [lra|unfold small; lra]).
  lra.
Qed.
Lemma C105_des_order_proof : forall E m l m' l' c k s, library_exp E -> increasing E -> binary64 c -> binary64 s ->
  0 <= c <= 1 -> 0 <= s <= 1 -> 0 < k -> m - l <= m' - l' ->
  exists p p', DEScalcDetectionProbability_f E (Real m) (Real l) (Real c) (Real k) (Real s) = Real p
    /\ DEScalcDetectionProbability_f E (Real m') (Real l') (Real c) (Real k) (Real s) = Real p' /\ 0 <= p' <= p.
Proof.
  intros E m l m' l' c k s LE I [FC _] [FS _] C S K H. unfold DEScalcDetectionProbability_f.
  assert (DA : exists p q, divide (Real c) (plus (Real 1) (E (multiply (Real k) (minus (Real m) (Real l))))) = Real p
    /\ divide (Real c) (plus (Real 1) (E (multiply (Real k) (minus (Real m') (Real l'))))) = Real q /\ 0 <= q <= p /\ p <= c).
  { apply divide_anti; auto.
    - apply denominator_big; auto. apply multiply_number; auto. apply minus_number.
    - apply denominator_big; auto. apply multiply_number; auto. apply minus_number.
    - apply plus_one_mono, exp_order; auto. apply multiply_mono; auto. apply minus_mono. exact H. }
  destruct DA as (p & q & -> & -> & Q & P). cbn [multiply].
  assert (M : s * q <= s * p) by (apply Rmult_le_compat_l; lra). assert (M0 : 0 <= s * q) by (apply Rmult_le_pos; lra).
  assert (M1 : s * p <= 1 * p) by (apply Rmult_le_compat_r; lra). assert (T := top_half).
  assert (F1 : forall x, 0 <= x <= 1 -> 0 <= fl x <= 1).
  { intros x X. split; [apply fl_ge_float; [apply generic_format_0|lra]|]. apply fl_le_float; [rewrite <- fl_1; apply fl_format|lra]. }
  assert (A := F1 (s * p) ltac:(lra)). assert (B := F1 (s * q) ltac:(lra)).
  exists (fl (s * p)), (fl (s * q)). rewrite !finish_real by (rewrite Rabs_right; lra). repeat split; [lra|apply fl_mono; exact M].
Qed.
Lemma drop_selected : forall A (prob : A -> cell) (u : nat -> R) rows, (forall r, In r rows -> (exists p, prob r = Real p) \/ prob r = Nan) ->
  forall i, selected (fun i r => exists p, prob r = Real p /\ u i <= p) i rows (PPDropObservations_f prob (fun i => Real (u i)) i rows).
Proof.
  intros A prob u rows. induction rows as [|r rows IH]; intros H i; cbn [PPDropObservations_f]; [constructor|].
  assert (H' := IH (fun x X => H x (or_intror X)) (S i)). destruct (H r (or_introl eq_refl)) as [[p P]|P]; rewrite P; cbn [at_least].
  - destruct (Rle_dec (u i) p) as [L|L].
    + apply sel_keep; auto. exists p. auto.
    + apply sel_drop; auto. intros (q & Q & Q'). rewrite P in Q. injection Q as <-. contradiction.
  - apply sel_drop; auto. intros (q & Q & _). rewrite P in Q. discriminate.
Qed.
Lemma divide_kinds : forall f c, 0 <= f <= 1 -> format f -> (big c \/ c = Nan) -> (exists p, divide (Real f) c = Real p) \/ divide (Real f) c = Nan.
Proof.
  intros f c F FF [B| ->]; [|right; reflexivity]. left. destruct c as [?|q|[|]|]; try contradiction.
  - destruct (divide_real f q F FF B) as [-> _]. eauto.
  - exists 0. reflexivity.
Qed.
Lemma cells : forall c, (match c with Real _ | Inf _ => True | _ => False end) \/ c = Nan \/ exists s, c = Text s.
Proof. intros [s|x|s|]; eauto. Qed.
Lemma minus_cells : forall a b, (match minus a b with Real _ | Inf _ => True | _ => False end) \/ minus a b = Nan.
Proof.
  intros [?|x|s|] [?|y|t|]; cbn [minus plus]; auto; try (left; apply finish_number); auto.
  destruct (Bool.eqb s (negb t)); auto.
Qed.
Lemma C105_rows_proof : forall E f w u A (mag lim : A -> cell) rows, library_exp E -> binary64 f -> 0 <= f <= 1 -> 0 < w ->
  selected (fun i r => exists p, calcDetectionProbability_f E (mag r) (lim r) (Real f) (Real w) = Real p /\ u i <= p) 0 rows
    (PPFadingFunctionFilter_f E mag lim (Real f) (Real w) (fun i => Real (u i)) rows).
Proof.
  intros E f w u A mag lim rows LE [FF _] F W. apply drop_selected. intros r _. unfold calcDetectionProbability_f. apply divide_kinds; auto.
  destruct (minus_cells (mag r) (lim r)) as [N|N].
  - left. apply denominator_big; auto. apply divide_number; auto.
  - right. rewrite N. cbn [divide]. rewrite (proj1 LE). reflexivity.
Qed.
Lemma C105_des_rows_proof : forall E s u A (mag lim c k : A -> cell) rows, library_exp E -> binary64 s -> 0 <= s <= 1 ->
  (forall r, In r rows -> exists c' k', c r = Real c' /\ k r = Real k' /\ binary64 c' /\ 0 <= c' <= 1 /\ 0 < k') ->
  selected (fun i r => exists p, DEScalcDetectionProbability_f E (mag r) (lim r) (c r) (k r) (Real s) = Real p /\ u i <= p) 0 rows
    (DESFadingFunctionFilter_f E mag lim c k (Real s) (fun i => Real (u i)) rows).
Proof.
  intros E s u A mag lim c k rows LE [FS _] S H. apply drop_selected. intros r R. destruct (H r R) as (c' & k' & -> & -> & [FC _] & C & K).
  unfold DEScalcDetectionProbability_f.
  destruct (minus_cells (mag r) (lim r)) as [N|N].
  - assert (B := denominator_big E LE _ (multiply_number _ k' K N)).
    assert (D : exists p, divide (Real c') (plus (Real 1) (E (multiply (Real k') (minus (mag r) (lim r))))) = Real p /\ 0 <= p <= 1 /\ format p).
    { destruct (plus _ _) as [?|q|[|]|]; try contradiction.
      - destruct (divide_real c' q C FC B) as [-> P]. eexists. split; [reflexivity|]. split; [lra|apply fl_format].
      - exists 0. split; [reflexivity|]. split; [lra|apply generic_format_0]. }
    destruct D as (p & -> & P & FP). left. destruct (multiply_real s p S FS P FP) as (-> & _). eauto.
  - right. rewrite N. cbn [multiply]. rewrite (proj1 LE). reflexivity.
Qed.
Lemma C105_kept_proof : forall E w u A (mag lim : A -> cell) rows, library_exp E -> binary64 w -> 0 < w -> (forall i, u i < 1) ->
  (forall r, In r rows -> exists m l, mag r = Real m /\ lim r = Real l /\ m + 64 * w <= l) ->
  PPFadingFunctionFilter_f E mag lim (Real 1) (Real w) (fun i => Real (u i)) rows = rows.
Proof.
  intros E w u A mag lim rows LE BW W U H. unfold PPFadingFunctionFilter_f. generalize O.
  assert (B1 : binary64 1). { split; [rewrite <- fl_1; apply fl_format|]. rewrite Rabs_R1. assert (T := top_half). lra. }
  induction rows as [|r rows IH]; intro i; [reflexivity|]. cbn [PPDropObservations_f].
  destruct (H r (or_introl eq_refl)) as (m & l & -> & -> & K). rewrite (C105_bright_proof E m l 1 w LE B1 BW ltac:(lra) W K).
  cbn [at_least]. assert (X := U i). destruct (Rle_dec (u i) 1); [|lra]. f_equal. apply IH. intros x X'. apply H. right. exact X'.
Qed.
Lemma C105_zero_refuted_proof : forall E f w u A (mag lim : A -> cell) r m l, library_exp E -> binary64 w -> 0 < w -> u O = 0 ->
  mag r = Real m -> lim r = Real l -> l + 1024 * w <= m ->
  PPFadingFunctionFilter_f E mag lim (Real f) (Real w) (fun i => Real (u i)) [r] = [r].
Proof.
  intros E f w u A mag lim r m l LE BW W U M L H. unfold PPFadingFunctionFilter_f. cbn [PPDropObservations_f].
  rewrite M, L, (C105_faint_proof E m l f w LE BW W H), U. cbn [at_least]. destruct (Rle_dec 0 0); [reflexivity|lra].
Qed.
(** The correctly rounded exponential is such a function. *)
Definition rounded_exp (c : cell) : cell :=
  match c with Real x => finish (exp x) | Inf true => Real 0 | Inf false => Inf false | _ => Nan end.
Lemma rounded_exp_library : library_exp rounded_exp /\ increasing rounded_exp.
Proof.
  assert (T := top_half).
  split.
  - split; [reflexivity|]. split; [reflexivity|]. split; [reflexivity|]. split.
    + cbn. rewrite exp_0, finish_real; rewrite fl_1; [reflexivity|rewrite Rabs_R1; lra].
    + intro x. cbn [rounded_exp]. assert (P := exp_pos x). destruct (finish_cases (exp x)) as [[-> Q]|[-> Q]].
      * split; [apply fl_ge_float; [apply generic_format_0|lra]|]. split; [split; [apply fl_format|exact Q]|].
        assert (H := fl_two (exp x)). rewrite (Rabs_right (exp x)) in H by lra.
        assert (EQ : / 2 ^ 1074 = 2 * eta). { change (-1075)%Z with (- Z.of_nat 1075)%Z. rewrite bpow_opp, bpow_powerRZ, <- pow_powerRZ. change (IZR (radix_val radix2)) with 2. change (2 ^ 1075) with (2 * 2 ^ 1074). rewrite Rinv_mult. lra. }
        rewrite EQ. assert (E0 := eta_pos). unfold small in H. lra.
      * unfold rltb. destruct (Rlt_dec (exp x) 0); [lra|]. apply fl_big in Q. rewrite Rabs_right in Q by lra.
        rewrite top_pow in Q. change (2 ^ 1024) with (2 * 2 ^ 1023) in Q. lra.
  - intros x y H. cbn [rounded_exp]. assert (M := finish_mono _ _ (exp_mono x y H)).
    assert (PX := exp_pos x). assert (PY := exp_pos y).
    assert (NX : rltb (exp x) 0 = false) by (unfold rltb; destruct (Rlt_dec (exp x) 0); [lra|reflexivity]).
    assert (NY : rltb (exp y) 0 = false) by (unfold rltb; destruct (Rlt_dec (exp y) 0); [lra|reflexivity]).
    destruct (finish_cases (exp x)) as [[EX _]|[EX _]]; destruct (finish_cases (exp y)) as [[EY _]|[EY _]]; rewrite ?NX in EX; rewrite ?NY in EY; rewrite EX, EY in *; cbn [cle] in M; auto.
Qed.
Lemma C105_des_missing_proof : forall E A (mag lim c k : A -> cell) s draw rows r, library_exp E ->
  In r (DESFadingFunctionFilter_f E mag lim c k s draw rows) -> mag r <> Nan /\ lim r <> Nan /\ c r <> Nan /\ k r <> Nan.
Proof.
  intros E A mag lim c k s draw rows r LE. unfold DESFadingFunctionFilter_f. assert (EN := proj1 LE).
  assert (N : mag r = Nan \/ lim r = Nan \/ c r = Nan \/ k r = Nan -> DEScalcDetectionProbability_f E (mag r) (lim r) (c r) (k r) s = Nan).
  { intro H. unfold DEScalcDetectionProbability_f.
    assert (M : forall x, multiply x Nan = Nan) by (intros [?|?|?|]; reflexivity). assert (M' : forall x, multiply Nan x = Nan) by (intros [?|?|?|]; reflexivity).
    assert (D : forall x, divide x Nan = Nan) by (intros [?|?|?|]; reflexivity). assert (D' : forall x, divide Nan x = Nan) by (intros [?|?|?|]; reflexivity).
    assert (S1 : forall x, minus x Nan = Nan) by (intros [?|?|?|]; reflexivity). assert (S2 : forall x, minus Nan x = Nan) by (intros [?|?|[|]|]; reflexivity).
    destruct H as [-> |[-> |[-> | ->]]]; rewrite ?S1, ?S2, ?M, ?M', ?D', ?EN; cbn [plus]; rewrite ?D, ?M; try reflexivity. }
  generalize O. induction rows as [|x rows IH]; intros i H; cbn [PPDropObservations_f] in H; [contradiction|].
  destruct (at_least _ _) eqn:B in H; [|exact (IH _ H)]. destruct H as [->|H]; [|exact (IH _ H)].
  assert (Q : ~ (mag r = Nan \/ lim r = Nan \/ c r = Nan \/ k r = Nan)) by (intro H; rewrite (N H) in B; discriminate). tauto.
Qed.
