(** The states of hyperbolic orbits solve Kepler's equation. *)
From Coq Require Import Reals ZArith List Bool Lia Lra Psatz.
From Verif Require Import Base.Prelude Model.Sphere Model.Kepler Spec.Sphere Spec.Kepler Spec.Anomaly
  Proofs.Sphere Proofs.Kepler Proofs.Halley Proofs.KeplerState Proofs.Stumpff Proofs.Anomaly Proofs.HyperbolicStumpff.
Import ListNotations.
Open Scope R_scope.

(** ** Stumpff functions times powers of the anomaly *)
Lemma stumpff_hyper : forall F, Rabs F <= 1000000 -> let d := stumpff (- (F * F)) in
  Rabs (c0 d - cosh F) <= eta F * cosh F /\ Rabs (F * c1 d - sinh F) <= eta F * Rabs (sinh F)
  /\ Rabs (F * F * c2 d - (cosh F - 1)) <= eta F * (cosh F - 1)
  /\ Rabs (F * F * F * c3 d - (sinh F - F)) <= eta F * (Rabs (sinh F) - Rabs F).
Proof.
  assert (Pos : forall F, 0 < F -> F <= 1000000 -> let d := stumpff (- (F * F)) in
    Rabs (c0 d - cosh F) <= eta F * cosh F /\ Rabs (F * c1 d - sinh F) <= eta F * sinh F
    /\ Rabs (F * F * c2 d - (cosh F - 1)) <= eta F * (cosh F - 1) /\ Rabs (F * F * F * c3 d - (sinh F - F)) <= eta F * (sinh F - F)).
  { intros F P L d. destruct (stumpff_hclose F P L) as (C0 & C1 & C2 & C3). fold d in C0, C1, C2, C3. fold (eta F) in *.
    assert (G : forall m n c, 0 < m -> rclose (eta F) (n / m) c -> Rabs (m * c - n) <= eta F * n).
    { intros m n c M H. unfold rclose in H. replace (m * c - n) with (m * (c - n / m)) by (field; lra).
      rewrite Rabs_mult, (Rabs_right m) by lra. replace (eta F * n) with (m * (eta F * (n / m))) by (field; lra). apply Rmult_le_compat_l; lra. }
    split; [exact C0|]. split; [|split]; apply G; auto; repeat apply Rmult_lt_0_compat; auto. }
  intros F L d. destruct (Rtotal_order F 0) as [N|[Z|P]].
  - rewrite (Rabs_left F) in * by lra. specialize (Pos (- F) ltac:(lra) L). cbv zeta in Pos.
    replace (- F * - F) with (F * F) in Pos by ring. fold d in Pos. rewrite cosh_even, sinh_odd in Pos.
    replace (eta (- F)) with (eta F) in Pos by (unfold eta; f_equal; ring). destruct Pos as (C0 & C1 & C2 & C3).
    assert (SN : Rabs (sinh F) = - sinh F).
    { pose proof (sinh_above (- F) ltac:(lra)) as S. rewrite sinh_odd in S. apply Rabs_left. lra. }
    rewrite SN. split; [exact C0|]. split; [|split].
    + rewrite <- Rabs_Ropp. replace (- (F * c1 d - sinh F)) with (- F * c1 d - - sinh F) by ring. exact C1.
    + exact C2.
    + rewrite <- Rabs_Ropp. replace (- (F * F * F * c3 d - (sinh F - F))) with (F * F * - F * c3 d - (- sinh F - - F)) by ring. exact C3.
  - subst F. unfold d. rewrite Rmult_0_l, Ropp_0, stumpff_zero, sinh_0, cosh_0, Rabs_R0. unfold eta. cbn [c0 c1 c2 c3].
    repeat split; apply Rabs_le; lra.
  - pose proof (sinh_above F P). rewrite (Rabs_right F), (Rabs_right (sinh F)) in * by lra. apply (Pos F); lra.
Qed.
Lemma sinh_abs x : Rabs x <= Rabs (sinh x) /\ Rabs (sinh x) <= cosh x.
Proof.
  split.
  - destruct (Rtotal_order x 0) as [N|[Z|P]].
    + pose proof (sinh_above (- x) ltac:(lra)) as S. rewrite sinh_odd in S. rewrite !Rabs_left by lra. lra.
    + subst x. rewrite sinh_0. lra.
    + pose proof (sinh_above x P) as S. rewrite !Rabs_right by lra. lra.
  - unfold sinh, cosh. pose proof (exp_pos x). pose proof (exp_pos (- x)). apply Rabs_le. lra.
Qed.

(** ** Kepler's equation with the anomaly as the unknown *)
Section Scaled.
Variables e M : R.
Hypothesis E1 : 1 < e.
Definition Nt (F : R) : R := (e - 1) * (F * c1 (stumpff (- (F * F)))) + F * F * F * c3 (stumpff (- (F * F))) - M.
Definition Pt (F : R) : R := (e - 1) * c0 (stumpff (- (F * F))) + F * F * c2 (stumpff (- (F * F))).
Definition Ht (F : R) : R := F * c1 (stumpff (- (F * F))).
Definition N (F : R) : R := e * sinh F - F - M.

Lemma Nt_close : forall F, Rabs F <= 1000000 -> Rabs (Nt F - N F) <= eta F * (e * cosh F).
Proof.
  intros F L. destruct (stumpff_hyper F L) as (_ & C1 & _ & C3). unfold Nt, N. set (d := stumpff (- (F * F))) in *.
  replace ((e - 1) * (F * c1 d) + F * F * F * c3 d - M - (e * sinh F - F - M)) with ((e - 1) * (F * c1 d - sinh F) + (F * F * F * c3 d - (sinh F - F))) by ring.
  eapply Rle_trans; [apply Rabs_triang|]. rewrite Rabs_mult, (Rabs_right (e - 1)) by lra.
  assert (A : (e - 1) * Rabs (F * c1 d - sinh F) <= (e - 1) * (eta F * Rabs (sinh F))) by (apply Rmult_le_compat_l; lra).
  destruct (sinh_abs F) as [S1 S2]. pose proof (Rabs_pos F) as RP. destruct (eta_bound F _ (Rle_refl _)) as [_ NP].
  assert (eta F * (e * Rabs (sinh F)) <= eta F * (e * cosh F)) by (apply Rmult_le_compat_l; [lra|]; apply Rmult_le_compat_l; lra).
  assert (0 <= eta F * Rabs F) by (apply Rmult_le_pos; lra). lra.
Qed.
Lemma Pt_close : forall F, Rabs F <= 1000000 -> Rabs (Pt F - (e * cosh F - 1)) <= eta F * (e * cosh F - 1).
Proof.
  intros F L. destruct (stumpff_hyper F L) as (C0 & _ & C2 & _). unfold Pt. set (d := stumpff (- (F * F))) in *.
  replace ((e - 1) * c0 d + F * F * c2 d - (e * cosh F - 1)) with ((e - 1) * (c0 d - cosh F) + (F * F * c2 d - (cosh F - 1))) by ring.
  eapply Rle_trans; [apply Rabs_triang|]. rewrite Rabs_mult, (Rabs_right (e - 1)) by lra.
  assert (A : (e - 1) * Rabs (c0 d - cosh F) <= (e - 1) * (eta F * cosh F)) by (apply Rmult_le_compat_l; lra). lra.
Qed.
Lemma exp_near : forall x, Rabs x <= 1/1000 -> exp x <= 101/100.
Proof.
  intros x H. apply Rabs_inv_le in H. pose proof (exp_ineq1_le (- x)) as P. rewrite exp_Ropp in P. pose proof (exp_pos x) as Q.
  apply Rmult_le_reg_r with (/ exp x); [apply Rinv_0_lt_compat; auto|]. rewrite Rinv_r by lra. nra.
Qed.
Lemma cosh_near : forall x r, Rabs (x - r) <= 1/1000 -> cosh x <= 101/100 * cosh r.
Proof.
  intros x r H. unfold cosh. replace x with (r + (x - r)) at 1 2 by ring. rewrite Ropp_plus_distr, !exp_plus.
  pose proof (exp_near _ H). assert (exp (- (x - r)) <= 101/100) by (apply exp_near; rewrite Rabs_Ropp; auto).
  pose proof (exp_pos r). pose proof (exp_pos (- r)).
  assert (exp r * exp (x - r) <= exp r * (101/100)) by (apply Rmult_le_compat_l; lra).
  assert (exp (- r) * exp (- (x - r)) <= exp (- r) * (101/100)) by (apply Rmult_le_compat_l; lra). lra.
Qed.
Lemma N_diff : forall x r, Rabs (x - r) <= 1/1000 -> Rabs (N x - N r) <= 101/100 * (e * cosh r) * Rabs (x - r).
Proof.
  assert (D : forall c, derivable_pt_lim N c (e * cosh c - 1 - 0)).
  { intros c. apply (derivable_pt_lim_minus (fun F => e * sinh F - F)); [|apply derivable_pt_lim_const].
    apply (derivable_pt_lim_minus (fun F => e * sinh F) (fun F => F)); [|apply derivable_pt_lim_id].
    apply derivable_pt_lim_scal, derivable_pt_lim_sinh. }
  assert (B : forall c r, Rabs (c - r) <= 1/1000 -> 0 <= e * cosh c - 1 - 0 <= 101/100 * (e * cosh r)).
  { intros c r H. pose proof (cosh_near c r H). pose proof (cosh_low c). split; nra. }
  intros x r H. destruct (Rtotal_order x r) as [L|[->|G]].
  - destruct (MVT_cor2 N (fun c => e * cosh c - 1 - 0) x r L (fun c _ => D c)) as (c & E & HC).
    rewrite Rabs_minus_sym. rewrite E, Rabs_mult. rewrite (Rabs_minus_sym x r). apply Rmult_le_compat_r; [apply Rabs_pos|].
    specialize (B c r). apply Rabs_inv_le in H. rewrite Rabs_right; apply Rle_ge || idtac; apply B; apply Rabs_le; lra.
  - replace (N r - N r) with 0 by ring. replace (r - r) with 0 by ring. rewrite Rabs_R0. lra.
  - destruct (MVT_cor2 N (fun c => e * cosh c - 1 - 0) r x G (fun c _ => D c)) as (c & E & HC).
    rewrite E, Rabs_mult. apply Rmult_le_compat_r; [apply Rabs_pos|].
    specialize (B c r). apply Rabs_inv_le in H. rewrite Rabs_right; apply Rle_ge || idtac; apply B; apply Rabs_le; lra.
Qed.
(** Half the hyperbolic sine over its argument. *)
Lemma sinh_cosh_half : forall p, Rabs p <= 101 -> Rabs p * Rabs (sinh p) <= 103 * (cosh p - 1).
Proof.
  assert (P : forall p, 0 < p -> p <= 101 -> p * sinh p <= 103 * (cosh p - 1)).
  { intros p P L. set (h := p / 2). replace p with (2 * h) by (unfold h; field). rewrite sinh_2, cosh_2.
    pose proof (sinh_above h ltac:(unfold h; lra)) as S. pose proof (cosh_square h) as Q. pose proof (cosh_low h) as C.
    replace (2 * cosh h * cosh h - 1 - 1) with (2 * (sinh h * sinh h)) by lra.
    assert (HP : 0 < h) by (unfold h; lra). assert (HL : h <= 101 / 2) by (unfold h; lra).
    assert (CS : cosh h <= 1 + sinh h) by (apply Rsqr_incr_0_var; [unfold Rsqr; nra|lra]).
    clearbody h. set (s := sinh h) in *. set (c := cosh h) in *. clearbody s c.
    assert (h * c <= 103 / 2 * s); [|nra].
    apply Rle_trans with (h * (1 + s)); [apply Rmult_le_compat_l; lra|]. nra. }
  intros p L. destruct (Rtotal_order p 0) as [Ng|[->|Ps]].
  - rewrite (Rabs_left p) in * by lra. specialize (P (- p) ltac:(lra) L). rewrite sinh_odd, cosh_even in P.
    pose proof (sinh_above (- p) ltac:(lra)) as S. rewrite sinh_odd in S. rewrite (Rabs_left (sinh p)) by lra. exact P.
  - rewrite Rabs_R0, cosh_0. lra.
  - pose proof (sinh_above p Ps) as S. rewrite (Rabs_right p) in * by lra. rewrite (Rabs_right (sinh p)) by lra. apply P; lra.
Qed.

Definition hyper_accepted (r : R) : Prop :=
  Nt r = 0
  \/ (exists l h, Nt l < 0 <= Nt h /\ r = (l + h) / 2 /\ Rabs (h - l) <= 2 * (1 / 100000000000000 * Rabs r))
  \/ (exists p dl, r = p - dl /\ Rabs dl <= 1 / 100000000000000 * Rabs r /\ dl * (2 * Pt p * Pt p - e * (Nt p * Ht p)) = 2 * Nt p * Pt p).

Lemma eta_small : forall x, Rabs x <= 101 -> eta x <= 102 / 1000000000000000000 * (1 + Rabs x) /\ eta x <= 11 / 1000000000000000 /\ 0 < eta x.
Proof.
  intros x L. unfold eta. pose proof (Rabs_pos x). replace (x * x) with (Rabs x * Rabs x) by (rewrite <- Rabs_mult; apply Rabs_right; nra).
  set (y := Rabs x) in *. clearbody y. repeat split; nra.
Qed.
Lemma hyper_residual : forall r, hyper_accepted r -> Rabs r <= 100 -> Rabs (N r) <= 5 / 100000000000000 * (1 + Rabs r) * (e * cosh r).
Proof.
  intros r A L. pose proof (Rabs_pos r) as PR. pose proof (cosh_low r) as CR.
  assert (EC : 0 < e * cosh r) by (apply Rmult_lt_0_compat; lra).
  assert (Near : forall x, Rabs (x - r) <= 1 / 100000000000000 * Rabs r ->
    Rabs x <= 101 /\ Rabs x <= Rabs r + 1 / 100000000000 /\ Rabs (x - r) <= 1/1000 /\ e * cosh x <= 101/100 * (e * cosh r)
    /\ Rabs (Nt x - N x) <= 2 / 10000000000000000 * (1 + Rabs r) * (e * cosh r)
    /\ Rabs (N x - N r) <= 102 / 10000000000000000 * Rabs r * (e * cosh r)).
  { intros x H. assert (LX : Rabs x <= Rabs r + 1 / 100000000000).
    { replace x with (r + (x - r)) by ring. eapply Rle_trans; [apply Rabs_triang|]. lra. }
    assert (LR : Rabs (x - r) <= 1/1000) by lra.
    assert (EX : e * cosh x <= 101/100 * (e * cosh r)) by (pose proof (cosh_near x r LR); nra).
    split; [lra|]. split; [lra|]. split; [lra|]. split; [auto|]. split.
    - eapply Rle_trans; [apply Nt_close; lra|]. destruct (eta_small x ltac:(lra)) as (N1 & _ & N3). pose proof (cosh_low x).
      apply Rle_trans with (102 / 1000000000000000000 * (1 + Rabs x) * (101/100 * (e * cosh r))).
      + apply Rmult_le_compat; [lra| |auto|auto]. apply Rmult_le_pos; lra.
      + replace (102 / 1000000000000000000 * (1 + Rabs x) * (101 / 100 * (e * cosh r))) with (102 / 1000000000000000000 * (1 + Rabs x) * (101/100) * (e * cosh r)) by ring.
        apply Rmult_le_compat_r; lra.
    - eapply Rle_trans; [apply N_diff; auto|].
      apply Rle_trans with (101 / 100 * (e * cosh r) * (1 / 100000000000000 * Rabs r)); [apply Rmult_le_compat_l; lra|].
      assert (0 <= Rabs r * (e * cosh r)) by (apply Rmult_le_pos; lra). lra. }
  set (B := e * cosh r) in *.
  assert (RB : 0 <= Rabs r * B) by (apply Rmult_le_pos; lra).
  destruct A as [A|[A|A]].
  - destruct (Near r) as (_ & _ & _ & _ & C & _); [replace (r - r) with 0 by ring; rewrite Rabs_R0; lra|].
    rewrite A in C. replace (0 - N r) with (- N r) in C by ring. rewrite Rabs_Ropp in C. lra.
  - destruct A as (l & h & [A1 A2] & Er & D).
    assert (Dl : Rabs (l - r) <= 1 / 100000000000000 * Rabs r).
    { replace (l - r) with (- ((h - l) / 2)) by (rewrite Er; field). rewrite Rabs_Ropp. unfold Rdiv at 1. rewrite Rabs_mult, (Rabs_right (/ 2)) by lra. lra. }
    assert (Dh : Rabs (h - r) <= 1 / 100000000000000 * Rabs r).
    { replace (h - r) with ((h - l) / 2) by (rewrite Er; field). unfold Rdiv at 1. rewrite Rabs_mult, (Rabs_right (/ 2)) by lra. lra. }
    destruct (Near l Dl) as (_ & _ & _ & _ & C1 & C2). destruct (Near h Dh) as (_ & _ & _ & _ & C3 & C4).
    apply Rabs_inv_le in C1. apply Rabs_inv_le in C2. apply Rabs_inv_le in C3. apply Rabs_inv_le in C4. apply Rabs_le. lra.
  - destruct A as (p & dl & Er & D & Eq).
    assert (Dp : Rabs (p - r) <= 1 / 100000000000000 * Rabs r) by (replace (p - r) with dl by (rewrite Er; ring); lra).
    destruct (Near p Dp) as (Lp & Lp' & _ & Cp & C1 & C2).
    assert (Lr : Rabs r <= 101/100 * Rabs p).
    { assert (Rabs r <= Rabs p + Rabs (p - r)); [|lra]. replace r with (p + - (p - r)) at 1 by ring. eapply Rle_trans; [apply Rabs_triang|]. rewrite Rabs_Ropp. lra. }
    pose proof (Pt_close p ltac:(lra)) as Dc. destruct (eta_small p Lp) as (_ & N2 & N3).
    destruct (stumpff_hyper p ltac:(lra)) as (_ & S1 & _). fold (Ht p) in S1.
    pose proof (sinh_cosh_half p Lp) as SC. pose proof (cosh_low p) as CL.
    set (D0 := e * cosh p - 1) in *.
    assert (D0P : 0 < D0) by (unfold D0; nra).
    assert (D0e : e * (cosh p - 1) <= D0) by (unfold D0; lra).
    assert (D0u : D0 <= 101/100 * B) by (unfold D0; lra).
    assert (HH : Rabs (Ht p) <= 101/100 * Rabs (sinh p)).
    { replace (Ht p) with (sinh p + (Ht p - sinh p)) by ring. eapply Rle_trans; [apply Rabs_triang|].
      pose proof (Rabs_pos (sinh p)). assert (eta p * Rabs (sinh p) <= 1/100 * Rabs (sinh p)) by (apply Rmult_le_compat_r; lra). lra. }
    assert (DD : 99/100 * D0 <= Pt p <= 101/100 * D0).
    { apply Rabs_inv_le in Dc. assert (eta p * D0 <= 1/100 * D0) by (apply Rmult_le_compat_r; lra). lra. }
    assert (Sm : Rabs (e * Ht p * dl) <= Pt p).
    { rewrite !Rabs_mult, (Rabs_right e) by lra.
      assert (X : Rabs (Ht p) * Rabs dl <= 11 / 1000000000000 * (cosh p - 1)).
      { apply Rle_trans with (101/100 * Rabs (sinh p) * (1 / 100000000000000 * (101 / 100 * Rabs p))).
        - apply Rmult_le_compat; auto using Rabs_pos. lra.
        - lra. }
      rewrite Rmult_assoc. apply Rle_trans with (e * (11 / 1000000000000 * (cosh p - 1))); [apply Rmult_le_compat_l; lra|]. lra. }
    set (D' := Pt p) in *. set (S' := Ht p) in *. set (k := Nt p) in *. clearbody D' S'.
    assert (Q : k * (2 * D' + e * S' * dl) = 2 * D' * D' * dl) by lra.
    assert (Hk : Rabs k * D' <= 2 * D' * D' * Rabs dl).
    { assert (Eqa : Rabs k * Rabs (2 * D' + e * S' * dl) = 2 * D' * D' * Rabs dl).
      { rewrite <- Rabs_mult, Q, !Rabs_mult, (Rabs_right 2), (Rabs_right D') by lra. reflexivity. }
      rewrite <- Eqa. apply Rmult_le_compat_l; [apply Rabs_pos|]. apply Rabs_inv_le in Sm. rewrite Rabs_right by lra. lra. }
    assert (Hk' : Rabs k <= 2 * D' * Rabs dl) by (apply Rmult_le_reg_r with D'; lra).
    pose proof (Rabs_pos dl).
    assert (Hk2 : 2 * D' * Rabs dl <= 2 * (103/100 * B) * (1 / 100000000000000 * Rabs r)) by (apply Rmult_le_compat; lra).
    unfold k in *. apply Rabs_inv_le in C1. apply Rabs_inv_le in C2. apply Rabs_inv_le in Hk'. apply Rabs_le. lra.
Qed.
End Scaled.

(** ** Scaling *)
Section Scaling.
Variables mu q e t : R.
Hypotheses (MU : 0 < mu) (Q : 0 < q) (E1 : 1 < e).
Let al := binding_alpha mu q e.
Let k := sqrt (mu * (e - 1) / q).
Let a := q / (e - 1).
Lemma hk_pos : 0 < k. Proof. apply sqrt_lt_R0. apply Rdiv_lt_0_compat; auto. apply Rmult_lt_0_compat; lra. Qed.
Lemma hk_sq : k * k = mu * (e - 1) / q. Proof. apply sqrt_sqrt. apply Rlt_le, Rdiv_lt_0_compat; auto. apply Rmult_lt_0_compat; lra. Qed.
Lemma ha_pos : 0 < a. Proof. apply Rdiv_lt_0_compat; lra. Qed.
Lemma hmu_eq : mu = a * (k * k). Proof. rewrite hk_sq. unfold a. field. split; lra. Qed.
Lemma hq_eq : q = a * (e - 1). Proof. unfold a. field. lra. Qed.
Lemma hal_eq : al = - (k * k). Proof. rewrite hk_sq. unfold al, binding_alpha. field. lra. Qed.
Lemma hmotion_eq : sqrt (mu / (a * a * a)) = k / a.
Proof.
  pose proof ha_pos. pose proof hk_pos. replace (mu / (a * a * a)) with ((k / a) * (k / a)) by (rewrite hmu_eq; field; lra).
  apply sqrt_square. apply Rlt_le, Rdiv_lt_0_compat; auto.
Qed.
Let F := fun s => root_function s mu al q 0 t.
Let M := sqrt (mu / (a * a * a)) * t.
Lemma harg_eq s : al * s * s = - ((k * s) * (k * s)). Proof. rewrite hal_eq. ring. Qed.
Lemma hf_eq s : v_f (F s) = a / k * Nt e M (k * s).
Proof.
  unfold F, root_function. cbn [v_f]. rewrite harg_eq. unfold Nt. set (d := stumpff (- (k * s * (k * s)))). unfold M. rewrite hmotion_eq.
  pose proof hk_pos. pose proof ha_pos. rewrite hmu_eq at 1. rewrite hq_eq. field. split; lra.
Qed.
Lemma hfp_eq s : v_fp (F s) = a * Pt e (k * s).
Proof.
  unfold F, root_function. cbn [v_fp]. rewrite harg_eq. unfold Pt. set (d := stumpff (- (k * s * (k * s)))).
  rewrite hmu_eq at 1. rewrite hq_eq. ring.
Qed.
Lemma hfpp_eq s : v_fpp (F s) = a * k * e * Ht (k * s).
Proof.
  unfold F, root_function. cbn [v_fpp]. rewrite harg_eq, hal_eq. unfold Ht. set (d := stumpff (- (k * s * (k * s)))).
  rewrite hmu_eq at 1. rewrite hq_eq. ring.
Qed.
Lemma found_hyper s : found F (1 / 100000000000000) s -> hyper_accepted e M (k * s).
Proof.
  pose proof hk_pos as KP. pose proof ha_pos as AP. assert (AK : 0 < a / k) by (apply Rdiv_lt_0_compat; auto).
  intros [H|[H|H]].
  - left. rewrite hf_eq in H. apply Rmult_integral in H. destruct H; [lra|auto].
  - destruct H as (l & h & [H1 H2] & Er & D). right. left. exists (k * l), (k * h). rewrite hf_eq in H1, H2.
    split; [|split].
    + split; [|apply Rmult_le_reg_l with (a / k); lra]. apply Rmult_lt_reg_l with (a / k); lra.
    + rewrite Er. field.
    + replace (k * h - k * l) with (k * (h - l)) by ring. rewrite !Rabs_mult, (Rabs_right k) by lra.
      replace (2 * (1 / 100000000000000 * (k * Rabs s))) with (k * (2 * (1 / 100000000000000 * Rabs s))) by ring. apply Rmult_le_compat_l; lra.
  - destruct H as (p & dx & Er & D & Eq). right. right. exists (k * p), (k * dx). split; [rewrite Er; ring|]. split.
    + rewrite !Rabs_mult, (Rabs_right k) by lra. replace (1 / 100000000000000 * (k * Rabs s)) with (k * (1 / 100000000000000 * Rabs s)) by ring. apply Rmult_le_compat_l; lra.
    + rewrite hfp_eq, hf_eq, hfpp_eq in Eq. set (x := Nt e M (k * p)) in *. set (y := Pt e (k * p)) in *. set (z := Ht (k * p)) in *. clearbody x y z.
      apply Rmult_eq_reg_l with (a * a / k); [|apply Rgt_not_eq; apply Rdiv_lt_0_compat; nra].
      transitivity (dx * (2 * (a * y) * (a * y) - a / k * x * (a * k * e * z))); [field; lra|]. rewrite Eq. field. lra.
Qed.
Let g := sqrt ((e + 1) / (e - 1)).
Lemma hg_facts : 1 <= g /\ sqrt (mu * (1 + e) / q) = k * g /\ sqrt (e * e - 1) = g * (e - 1) /\ g * (e - 1) <= e + 1.
Proof.
  pose proof hk_pos as KP.
  assert (P : 1 <= (e + 1) / (e - 1)) by (apply Rmult_le_reg_r with (e - 1); [lra|]; replace ((e + 1) / (e - 1) * (e - 1)) with (e + 1) by (field; lra); lra).
  assert (G1 : 1 <= g) by (rewrite <- sqrt_1; apply sqrt_le_1_alt; exact P).
  assert (G2 : g * g = (e + 1) / (e - 1)) by (apply sqrt_sqrt; lra).
  assert (G3 : sqrt (e * e - 1) = g * (e - 1)).
  { rewrite <- (sqrt_square (g * (e - 1))) by (apply Rmult_le_pos; lra). f_equal.
    replace (g * (e - 1) * (g * (e - 1))) with (g * g * ((e - 1) * (e - 1))) by ring. rewrite G2. field. lra. }
  split; [auto|]. split; [|split; [auto|]].
  - rewrite <- (sqrt_square (k * g)) by (apply Rmult_le_pos; lra). f_equal.
    replace (k * g * (k * g)) with (k * k * (g * g)) by ring. rewrite G2, hk_sq. field. lra.
  - assert (g * (g * (e - 1)) = e + 1) by (rewrite <- Rmult_assoc, G2; field; lra).
    assert (0 <= g * (e - 1)) by (apply Rmult_le_pos; lra). nra.
Qed.
Lemma ratio_close : forall b x x' y y', 0 <= b -> b <= 1/100 -> 0 < y -> Rabs (x' - x) <= b * Rabs x -> Rabs (y' - y) <= b * y ->
  Rabs (x' / y' - x / y) <= 3 * b * Rabs (x / y).
Proof.
  intros b x x' y y' B B1 Y HX HY.
  assert (Y' : 99/100 * y <= y') by (apply Rabs_inv_le in HY; assert (b * y <= 1/100 * y) by (apply Rmult_le_compat_r; lra); lra).
  replace (x' / y' - x / y) with (((x' - x) * y - x * (y' - y)) / (y' * y)) by (field; lra).
  unfold Rdiv. rewrite !Rabs_mult, !Rabs_inv, !Rabs_mult. rewrite (Rabs_right y), (Rabs_right y') by lra.
  assert (YY : 0 < y' * y) by (apply Rmult_lt_0_compat; lra).
  apply Rmult_le_reg_r with (y' * y); auto. rewrite Rmult_assoc, Rinv_l, Rmult_1_r by lra.
  replace (3 * b * (Rabs x * / y) * (y' * y)) with (3 * b * Rabs x * y') by (field; lra).
  eapply Rle_trans; [unfold Rminus at 1; apply Rabs_triang|]. rewrite Rabs_Ropp, !Rabs_mult, (Rabs_right y) by lra.
  pose proof (Rabs_pos x) as RX.
  assert (Rabs (x' - x) * y <= b * Rabs x * y) by (apply Rmult_le_compat_r; lra).
  assert (Rabs x * Rabs (y' - y) <= Rabs x * (b * y)) by (apply Rmult_le_compat_l; lra).
  assert (BX : 0 <= b * Rabs x) by (apply Rmult_le_pos; lra).
  assert (b * Rabs x * (99/100 * y) <= b * Rabs x * y') by (apply Rmult_le_compat_l; lra).
  assert (0 <= b * Rabs x * y) by (apply Rmult_le_pos; lra). lra.
Qed.
Lemma length3_perifocal i O w x y : length3 (perifocal i O w x y) = sqrt (x * x + y * y).
Proof. rewrite <- orient_perifocal, length3_orient. unfold length3. simpl. f_equal. ring. Qed.
Lemma abs_sum_le : forall x y, Rabs x + Rabs y <= 2 * sqrt (x * x + y * y).
Proof.
  intros x y. assert (S : forall z, z * z = Rabs z * Rabs z) by (intros z; rewrite <- Rabs_mult, Rabs_right; [auto|nra]).
  rewrite (S x), (S y). pose proof (Rabs_pos x). pose proof (Rabs_pos y). set (u := Rabs x) in *. set (v := Rabs y) in *.
  assert (U : u <= sqrt (u * u + v * v)) by (apply Rle_trans with (sqrt (u * u)); [rewrite sqrt_square; lra|apply sqrt_le_1_alt; nra]).
  assert (V : v <= sqrt (u * u + v * v)) by (apply Rle_trans with (sqrt (v * v)); [rewrite sqrt_square; lra|apply sqrt_le_1_alt; nra]). lra.
Qed.
Lemma hyper_state : forall s x v i O w, in_plane mu q (mu * (1 + e) / q) al t s = Ok (x, v) ->
  let H := k * s in Rabs (N e M H) <= 5 / 100000000000000 * (1 + Rabs H) * (e * cosh H) -> Rabs H <= 100 ->
  apart (orient i O w x) (hyperbola_position q e i O w H) <= 6 / 100000000000000 * (1 + Rabs H) * (a * g * (e * cosh H))
  /\ apart (orient i O w v) (hyperbola_velocity mu q e i O w H) <= 6 / 1000000000000000000 * (1 + H * H) * length3 (hyperbola_velocity mu q e i O w H).
Proof.
  intros s x v i O w HI H HN HL.
  pose proof hk_pos as KP. pose proof ha_pos as AP. pose proof hmu_eq as ME. pose proof hq_eq as QE. pose proof hmotion_eq as MM.
  destruct hg_facts as (G1 & G2 & G3 & G4).
  apply in_plane_ok in HI. cbv zeta in HI. destruct HI as (_ & Hr & -> & ->).
  rewrite harg_eq in *. fold H in Hr |- *.
  destruct (stumpff_hyper H ltac:(lra)) as (C0 & C1 & C2 & C3). pose proof (Pt_close e E1 H ltac:(lra)) as DC. unfold Pt in DC.
  set (d := stumpff (- (H * H))) in *.
  destruct (eta_small H ltac:(lra)) as (N1 & N2 & N3).
  destruct (sinh_abs H) as [SA1 SA2]. pose proof (cosh_low H) as CL. pose proof (Rabs_pos H) as HP.
  assert (T : t = a / k * M) by (unfold M; rewrite MM; field; lra).
  rewrite G2.
  split.
  - rewrite orient_perifocal. unfold hyperbola_position. cbv zeta. fold a. eapply Rle_trans; [apply apart_perifocal|].
    set (B := e * cosh H) in *. assert (BE : e * 1 <= B) by (apply Rmult_le_compat_l; lra). assert (BC : 1 * cosh H <= B) by (apply Rmult_le_compat_r; lra). assert (BP : 1 < B) by lra.
    assert (X1 : Rabs (q - mu * (s * s) * c2 d - a * (e - cosh H)) <= a * (eta H * B)).
    { replace (q - mu * (s * s) * c2 d - a * (e - cosh H)) with (- (a * (H * H * c2 d - (cosh H - 1)))) by (rewrite ME at 1; rewrite QE; unfold H; ring).
      rewrite Rabs_Ropp, Rabs_mult, (Rabs_right a) by lra. apply Rmult_le_compat_l; [lra|]. eapply Rle_trans; [exact C2|]. apply Rmult_le_compat_l; lra. }
    assert (X2 : Rabs ((t - mu * (s * s * s) * c3 d) * (k * g) - a * sqrt (e * e - 1) * sinh H) <= a * g * (5 / 100000000000000 * (1 + Rabs H) * B + eta H * B)).
    { rewrite G3. replace ((t - mu * (s * s * s) * c3 d) * (k * g) - a * (g * (e - 1)) * sinh H)
        with (a * g * (- N e M H - (H * H * H * c3 d - (sinh H - H)))).
      2:{ unfold N. rewrite T. rewrite ME at 1. unfold H. field. lra. }
      assert (AG : 0 <= a * g) by (apply Rmult_le_pos; lra).
      rewrite Rabs_mult, (Rabs_right (a * g)) by lra. apply Rmult_le_compat_l; [auto|].
      unfold Rminus at 1. eapply Rle_trans; [apply Rabs_triang|]. rewrite !Rabs_Ropp. apply Rplus_le_compat; [exact HN|].
      eapply Rle_trans; [exact C3|]. apply Rmult_le_compat_l; lra. }
    assert (AG : a * 1 <= a * g) by (apply Rmult_le_compat_l; lra).
    assert (NB : eta H * B <= 102 / 1000000000000000000 * (1 + Rabs H) * B) by (apply Rmult_le_compat_r; lra).
    set (Z := (1 + Rabs H) * B) in *. assert (ZP : 0 < Z) by (apply Rmult_lt_0_compat; lra).
    assert (X1' : a * (eta H * B) <= a * g * (102 / 1000000000000000000 * Z)).
    { apply Rmult_le_compat; [lra|apply Rmult_le_pos; lra|lra|unfold Z; lra]. }
    assert (X2' : a * g * (5 / 100000000000000 * (1 + Rabs H) * B + eta H * B) <= a * g * (502 / 10000000000000000 * Z)).
    { apply Rmult_le_compat_l; [lra|]. unfold Z in *. lra. }
    replace (6 / 100000000000000 * (1 + Rabs H) * (a * g * B)) with (a * g * (6 / 100000000000000 * Z)) by (unfold Z; ring).
    assert (0 <= a * g * Z) by (apply Rmult_le_pos; lra). lra.
  - rewrite orient_perifocal. unfold hyperbola_velocity. cbv zeta. fold a. rewrite length3_perifocal. eapply Rle_trans; [apply apart_perifocal|].
    set (D' := (e - 1) * c0 d + H * H * c2 d) in *. set (D := e * cosh H - 1) in *.
    assert (Er : q * c0 d + mu * (s * s) * c2 d = a * D') by (unfold D'; rewrite ME at 1; rewrite QE; unfold H; ring).
    assert (SQ : sqrt (mu * a) = a * k).
    { rewrite <- (sqrt_square (a * k)) by (apply Rmult_le_pos; lra). f_equal. rewrite ME at 1. ring. }
    assert (HD : 0 < D) by (unfold D; assert (e * 1 <= e * cosh H) by (apply Rmult_le_compat_l; lra); lra).
    assert (HD' : D' <> 0) by (intros Z; rewrite Er, Z, Rmult_0_r in Hr; lra).
    assert (NL : eta H <= 1/100) by lra.
    assert (C0' : Rabs (c0 d - cosh H) <= eta H * Rabs (cosh H)) by (rewrite (Rabs_right (cosh H)) by lra; exact C0).
    pose proof (ratio_close (eta H) _ _ _ _ (Rlt_le _ _ N3) NL HD C1 DC) as Q1.
    pose proof (ratio_close (eta H) _ _ _ _ (Rlt_le _ _ N3) NL HD C0' DC) as Q2.
    rewrite Er, SQ, G3.
    set (vx0 := - (a * k * sinh H / (a * D))). set (vy0 := a * k * (g * (e - 1)) * cosh H / (a * D)).
    assert (V1 : Rabs (- (mu * s * c1 d / (a * D')) - vx0) <= 3 * eta H * Rabs vx0).
    { unfold vx0. replace (- (mu * s * c1 d / (a * D')) - - (a * k * sinh H / (a * D))) with (- (k * (H * c1 d / D' - sinh H / D))) by (rewrite ME at 1; unfold H; field; lra).
      rewrite !Rabs_Ropp. replace (a * k * sinh H / (a * D)) with (k * (sinh H / D)) by (field; lra). rewrite !Rabs_mult, (Rabs_right k) by lra.
      apply Rle_trans with (k * (3 * eta H * Rabs (sinh H / D))); [apply Rmult_le_compat_l; lra|]. right; ring. }
    assert (V2 : Rabs (q * c0 d / (a * D') * (k * g) - vy0) <= 3 * eta H * Rabs vy0).
    { unfold vy0. replace (q * c0 d / (a * D') * (k * g) - a * k * (g * (e - 1)) * cosh H / (a * D)) with (k * (g * (e - 1)) * (c0 d / D' - cosh H / D)) by (rewrite QE; field; lra).
      replace (a * k * (g * (e - 1)) * cosh H / (a * D)) with (k * (g * (e - 1)) * (cosh H / D)) by (field; lra).
      assert (GP : 0 <= k * (g * (e - 1))) by (repeat apply Rmult_le_pos; lra).
      rewrite !(Rabs_mult (k * (g * (e - 1)))), (Rabs_right (k * (g * (e - 1)))) by lra.
      apply Rle_trans with (k * (g * (e - 1)) * (3 * eta H * Rabs (cosh H / D))); [apply Rmult_le_compat_l; lra|]. right; ring. }
    pose proof (abs_sum_le vx0 vy0) as AS.
    replace (6 / 1000000000000000000 * (1 + H * H)) with (6 * eta H) by (unfold eta; field).
    assert (3 * eta H * (Rabs vx0 + Rabs vy0) <= 3 * eta H * (2 * sqrt (vx0 * vx0 + vy0 * vy0))) by (apply Rmult_le_compat_l; lra). lra.
Qed.
End Scaling.

Lemma C96_kepler_proof : forall fuel mu q e i N w tp ep x v, 0 < mu -> 0 < q -> 1 < e ->
  universal_cartesian fuel mu q e i N w tp ep = Ok (Some (x, v)) ->
  exists s, solve (fun s => root_function s mu (2 * mu / q - mu * (1 + e) / q) q 0 (ep - tp)) (1 / 100000000000000) fuel (ep - tp) = Ok (Some s)
    /\ (sqrt (mu * (e - 1) / q) * Rabs s <= 100 ->
        exists F, let a := q / (e - 1) in
          Rabs F <= 100
          /\ Rabs (e * sinh F - F - sqrt (mu / (a * a * a)) * (ep - tp)) <= 5 / 100000000000000 * (1 + Rabs F) * (e * cosh F)
          /\ apart x (hyperbola_position q e i N w F) <= 6 / 100000000000000 * (1 + Rabs F) * (a * sqrt ((e + 1) / (e - 1)) * (e * cosh F))
          /\ apart v (hyperbola_velocity mu q e i N w F) <= 6 / 1000000000000000000 * (1 + F * F) * length3 (hyperbola_velocity mu q e i N w F)).
Proof.
  intros fuel mu q e i O w tp ep x v MU Q E1 H.
  destruct (cartesian_ok _ _ _ _ _ _ _ _ _ _ _ H) as (t & s & x0 & v0 & Ht & Hs & Hp & -> & ->).
  assert (Et : t = ep - tp) by (unfold since_perihelion in Ht; destruct (Rlt_dec e 1); [lra|congruence]). rewrite <- Et.
  exists s. split; [exact Hs|]. intros L.
  apply solve_found in Hs. apply (found_hyper mu q e t MU Q E1) in Hs.
  pose proof (hk_pos mu q e MU Q E1) as KP.
  set (k := sqrt (mu * (e - 1) / q)) in *. exists (k * s). cbv zeta.
  assert (L' : Rabs (k * s) <= 100) by (rewrite Rabs_mult, (Rabs_right k) by lra; exact L).
  pose proof (hyper_residual e _ E1 _ Hs L') as R1.
  destruct (hyper_state mu q e t MU Q E1 s x0 v0 i O w Hp R1 L') as [S1 S2].
  split; [auto|]. split; [exact R1|]. split; [exact S1|exact S2].
Qed.

Lemma C96_functions_proof : forall F, Rabs F <= 1000000 ->
  let b := (1 + F * F) / 1000000000000000000 in
  Rabs (c0 (stumpff (- (F * F))) - cosh F) <= b * cosh F
  /\ Rabs (F * c1 (stumpff (- (F * F))) - sinh F) <= b * Rabs (sinh F)
  /\ Rabs (F * F * c2 (stumpff (- (F * F))) - (cosh F - 1)) <= b * (cosh F - 1)
  /\ Rabs (F * F * F * c3 (stumpff (- (F * F))) - (sinh F - F)) <= b * (Rabs (sinh F) - Rabs F).
Proof. intros F H. exact (stumpff_hyper F H). Qed.

(** ** The search for a bracket ends *)
Definition above (d : four) : Prop := 1 <= c0 d /\ 1 <= c1 d /\ 1/2 <= c2 d /\ 1/6 <= c3 d.
Lemma above_small x : x <= 0 -> above (stumpff_small x).
Proof.
  intros X. assert (S : forall a b, 0 < b -> 0 <= a -> 0 <= a / b) by (intros; apply Rmult_le_pos; [auto|apply Rlt_le, Rinv_0_lt_compat; auto]).
  assert (T : forall u b, 0 < b -> 1 <= u -> 1 <= 1 - x * u / b).
  { intros u b B U. assert (0 <= - x * u / b) by (apply S; auto; apply Rmult_le_pos; lra). unfold Rdiv in *. lra. }
  assert (T1 : forall b, 0 < b -> 1 <= 1 - x / b) by (intros b B; assert (0 <= - x / b) by (apply S; lra); unfold Rdiv in *; lra).
  unfold above, stumpff_small. cbn [c0 c1 c2 c3].
  set (d2 := (1 - x * (1 - x * (1 - x * (1 - x * (1 - x * (1 - x / 182) / 132) / 90) / 56) / 30) / 12) / 2).
  set (d3 := (1 - x * (1 - x * (1 - x * (1 - x * (1 - x * (1 - x / 210) / 156) / 110) / 72) / 42) / 20) / 6).
  assert (D2 : 1/2 <= d2).
  { unfold d2. set (u := 1 - x * _ / 12). assert (1 <= u); [|lra]. unfold u. repeat (apply T; [lra|]). apply T1. lra. }
  assert (D3 : 1/6 <= d3).
  { unfold d3. set (u := 1 - x * _ / 20). assert (1 <= u); [|lra]. unfold u. repeat (apply T; [lra|]). apply T1. lra. }
  clearbody d2 d3. repeat split; nra.
Qed.
Lemma above_doubles : forall n d, above d -> above (doubles n d).
Proof.
  induction n as [|n IH]; intros d (A0 & A1 & A2 & A3); cbn [doubles]; [repeat split; auto|].
  apply IH. unfold above, double. cbn [c0 c1 c2 c3].
  assert (1 * 1 <= c0 d * c0 d) by (apply Rmult_le_compat; lra). assert (1 * 1 <= c0 d * c1 d) by (apply Rmult_le_compat; lra).
  assert (1 * 1 <= c1 d * c1 d) by (apply Rmult_le_compat; lra). assert (1 * (1/6) <= c0 d * c3 d) by (apply Rmult_le_compat; lra). repeat split; lra.
Qed.
Lemma above_stumpff x : x <= 0 -> above (stumpff x).
Proof.
  intros X. unfold stumpff. destruct (reduce (Z.to_nat (up (10 * Rabs x))) 0 x) as [n y] eqn:R.
  destruct (reduce_done _ _ _ R) as [E _]. apply above_doubles, above_small.
  pose proof (pow4_pos n). apply Rmult_le_reg_l with (4 ^ n); lra.
Qed.
Lemma bracket_ends_below F ds : forall n fuel sp fp s, 0 < fp -> v_f (F (s + INR n * ds)) <= 0 -> (n < fuel)%nat ->
  exists b, bracket F fuel ds sp fp s (v_f (F s)) = Ok b.
Proof.
  induction n as [|n IH]; intros fuel sp fp s Hp H L; (destruct fuel as [|fuel]; [lia|]); cbn [bracket]; destruct (Rlt_dec 0 (v_f (F s) * fp)) as [G|G]; try (eexists; reflexivity).
  - simpl in H. replace (s + 0 * ds) with s in H by ring. exfalso. nra.
  - apply IH; [nra| |lia]. replace (s + ds + INR n * ds) with (s + INR (S n) * ds) by (rewrite S_INR; ring). exact H.
Qed.
Lemma C96_ends_proof : forall mu q e i N w tp ep, 0 < mu -> 0 < q -> 1 <= e ->
  forall fuel, 4 / q + 2 <= INR fuel -> universal_cartesian fuel mu q e i N w tp ep <> Err OutOfFuel.
Proof.
  intros mu q e i O w tp ep MU Q E1 fuel HF H.
  assert (Ht : since_perihelion mu q e tp ep = Ok (ep - tp)) by (unfold since_perihelion; destruct (Rlt_dec e 1); [lra|reflexivity]).
  set (t := ep - tp) in *. set (al := binding_alpha mu q e). set (F := fun s => root_function s mu al q 0 t).
  assert (AL : al <= 0).
  { unfold al, binding_alpha. replace (2 * mu / q - mu * (1 + e) / q) with (- (mu * (e - 1) / q)) by (field; lra).
    assert (0 <= mu * (e - 1) / q) by (apply Rmult_le_pos; [apply Rmult_le_pos; lra|apply Rlt_le, Rinv_0_lt_compat; auto]). lra. }
  assert (FE : forall s, exists y z, 1 <= y /\ 0 <= z /\ v_f (F s) = q * s * y + s * z - t).
  { intros s. assert (AS : al * s * s <= 0) by (rewrite Rmult_assoc; assert (0 <= s * s) by nra; nra).
    destruct (above_stumpff _ AS) as (_ & A1 & _ & A3). unfold F, root_function. cbn [v_f]. set (d := stumpff (al * s * s)) in *.
    exists (c1 d), (mu * (s * s) * c3 d). split; [auto|]. split; [|ring]. apply Rmult_le_pos; [apply Rmult_le_pos; nra|lra]. }
  assert (F0 : v_f (F 0) = - t) by (unfold F, root_function; cbn [v_f]; ring).
  assert (B : exists b, bracket F fuel ((t - 0) / 4) 0 (v_f (F 0)) (0 + (t - 0) / 4) (v_f (F (0 + (t - 0) / 4))) = Ok b).
  { assert (P4 : 0 < 4 / q) by (apply Rdiv_lt_0_compat; lra).
    destruct (multiple_beyond 1 (4 / q) Rlt_0_1 (Rlt_le _ _ P4)) as (n & N1 & N2).
    assert (L : (n < fuel)%nat). { apply INR_lt. rewrite S_INR in N2. lra. }
    set (ds := (t - 0) / 4). set (m := INR (S n) * 1) in *.
    assert (QM : 4 <= q * m) by (apply Rmult_le_reg_l with (/ q); [apply Rinv_0_lt_compat; auto|]; rewrite <- Rmult_assoc, Rinv_l by lra; unfold Rdiv in N1; lra).
    destruct (FE (m * ds)) as (y & z & Y & Z & E).
    assert (ES : 0 + ds + INR n * ds = m * ds) by (unfold m; rewrite S_INR; ring).
    assert (MP : 0 <= m) by lra.
    destruct (Rtotal_order t 0) as [Tn|[T0|Tp]].
    - apply (bracket_ends_below F ds n); [rewrite F0; lra| |lia]. rewrite ES, E. unfold ds in *.
      assert (4 <= q * m * y) by nra. assert (0 <= m * z) by (apply Rmult_le_pos; lra). nra.
    - destruct fuel as [|f]; [lia|]. cbn [bracket]. rewrite F0, T0. destruct (Rlt_dec 0 _) as [G|G]; [exfalso; lra|]. eexists; reflexivity.
    - apply (bracket_ends F ds n); [rewrite F0; lra| |lia]. rewrite ES, E. unfold ds in *.
      assert (4 <= q * m * y) by nra. assert (0 <= m * z) by (apply Rmult_le_pos; lra). nra. }
  destruct B as [b Eb].
  unfold universal_cartesian in H. rewrite Ht in H. cbn [rbind] in H. rewrite !rdiv_value in H by lra. cbn [rbind] in H.
  fold (binding_alpha mu q e) in H. fold al in H. fold F in H.
  assert (SOLVE : solve F (1 / 100000000000000) fuel t <> Err OutOfFuel).
  { unfold solve. rewrite Eb. cbn [rbind].
    destruct (snd (halley_safe F _ _ _ 100)) as [r|er] eqn:R; cbn [rbind]; [apply retry_no_fuel|].
    intros G. injection G as ->. apply halley_no_fuel in R. auto. }
  destruct (solve F (1 / 100000000000000) fuel t) as [[ss|]|er]; cbn [rbind] in H; [|discriminate|congruence].
  unfold in_plane in H. unfold rdiv in H. repeat match type of H with context[Req_EM_T ?x 0] => destruct (Req_EM_T x 0) end; cbn [rbind] in H; discriminate.
Qed.
