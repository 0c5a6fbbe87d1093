(** Accuracy of the Stumpff functions of hyperbolic orbits. *)
From Coq Require Import Reals ZArith List Bool Lia Lra Psatz.
From Verif Require Import Base.Prelude Model.Sphere Model.Kepler Proofs.Kepler Proofs.Stumpff.
Import ListNotations.
Open Scope R_scope.

(** ** Polynomials *)
Fixpoint mono (k : nat) (l : list R) (x : R) : R :=
  match l with [] => 0 | a :: l' => a * x ^ k + mono (S k) l' x end.
Fixpoint integ (k : nat) (l : list R) : list R :=
  match l with [] => [] | a :: l' => a / IZR (Z.of_nat (S k)) :: integ (S k) l' end.
Lemma mono_deriv : forall l k x, derivable_pt_lim (mono (S k) (integ k l)) x (mono k l x).
Proof.
  induction l as [|a l IH]; intros k x; [apply derivable_pt_lim_const|].
  change (mono (S k) (integ k (a :: l))) with (fun y => a / IZR (Z.of_nat (S k)) * y ^ S k + mono (S (S k)) (integ (S k) l) y).
  change (mono k (a :: l) x) with (a * x ^ k + mono (S k) l x).
  apply (derivable_pt_lim_plus (fun y => a / IZR (Z.of_nat (S k)) * y ^ S k) (mono (S (S k)) (integ (S k) l))); [|apply IH].
  replace (a * x ^ k) with (a / IZR (Z.of_nat (S k)) * (INR (S k) * x ^ pred (S k))).
  - apply (derivable_pt_lim_scal (fun y => y ^ S k)). apply derivable_pt_lim_pow.
  - rewrite INR_IZR_INZ. cbn [pred]. field. rewrite <- INR_IZR_INZ. apply not_0_INR. lia.
Qed.
Lemma mono_zero : forall l k, mono (S k) l 0 = 0.
Proof. induction l as [|a l IH]; intros k; [reflexivity|]. cbn [mono]. rewrite IH. simpl. ring. Qed.
Lemma grow : forall f f' : R -> R, (forall c, derivable_pt_lim f c (f' c)) -> f 0 = 0 ->
  (forall c, 0 <= c <= 1 -> 0 <= f' c) -> forall x, 0 <= x <= 1 -> 0 <= f x.
Proof.
  intros f f' D Z P x H. destruct (Req_dec x 0) as [->|N]; [lra|].
  destruct (MVT_cor2 f f' 0 x) as (c & E & B); [lra|auto|].
  assert (0 <= f' c * (x - 0)) by (apply Rmult_le_pos; [apply P|]; lra). lra.
Qed.
Definition between (f : R -> R) (l h : list R) : Prop := forall x, 0 <= x <= 1 -> mono 0 l x <= f x <= mono 0 h x.
Lemma step : forall f f' l h c, (forall x, derivable_pt_lim f x (f' x)) -> f 0 = c -> between f' l h ->
  between f (c :: integ 0 l) (c :: integ 0 h).
Proof.
  intros f f' l h c D Z B x H. cbn [mono]. rewrite pow_O.
  assert (L : 0 <= f x - c - mono 1 (integ 0 l) x).
  { apply (grow (fun y => f y - c - mono 1 (integ 0 l) y) (fun y => f' y - 0 - mono 0 l y)); auto.
    - intros y. apply (derivable_pt_lim_minus (fun y => f y - c)); [|apply mono_deriv].
      apply (derivable_pt_lim_minus f); [auto|apply derivable_pt_lim_const].
    - rewrite mono_zero. lra.
    - intros y Y. pose proof (B y Y). lra. }
  assert (U : 0 <= mono 1 (integ 0 h) x - (f x - c)).
  { apply (grow (fun y => mono 1 (integ 0 h) y - (f y - c)) (fun y => mono 0 h y - (f' y - 0))); auto.
    - intros y. apply (derivable_pt_lim_minus (mono 1 (integ 0 h))); [apply mono_deriv|].
      apply (derivable_pt_lim_minus f); [auto|apply derivable_pt_lim_const].
    - rewrite mono_zero. lra.
    - intros y Y. pose proof (B y Y). lra. }
  lra.
Qed.
Lemma cosh_even x : cosh (- x) = cosh x.
Proof. unfold cosh. rewrite Ropp_involutive. lra. Qed.
Lemma sinh_odd x : sinh (- x) = - sinh x.
Proof. unfold sinh. rewrite Ropp_involutive. lra. Qed.
Lemma cosh_square x : cosh x * cosh x = 1 + sinh x * sinh x.
Proof.
  unfold cosh, sinh. assert (E : exp x * exp (- x) = 1) by (rewrite <- exp_plus, Rplus_opp_r; apply exp_0).
  replace ((exp x + exp (- x)) / 2 * ((exp x + exp (- x)) / 2)) with (exp x * exp (- x) + (exp x - exp (- x)) / 2 * ((exp x - exp (- x)) / 2)) by field. lra.
Qed.
Lemma cosh_low x : 1 <= cosh x.
Proof.
  unfold cosh. assert (E : exp x * exp (- x) = 1) by (rewrite <- exp_plus, Rplus_opp_r; apply exp_0).
  pose proof (exp_pos x). pose proof (exp_pos (- x)). pose proof (Rle_0_sqr (exp x - exp (- x))) as Q. unfold Rsqr in Q.
  set (a := exp x) in *. set (b := exp (- x)) in *. clearbody a b. assert (2 <= a + b); [|lra].
  apply Rsqr_incr_0_var; [|lra]. unfold Rsqr. lra.
Qed.
Lemma cosh_start : between cosh [1] [2].
Proof.
  intros x H. cbn [mono]. rewrite pow_O. split; [pose proof (cosh_low x); lra|].
  unfold cosh. assert (exp x <= 3).
  { apply Rle_trans with (exp 1); [|apply exp_le_3]. destruct (Req_dec x 1) as [->|N]; [lra|]. apply Rlt_le, exp_increasing. lra. }
  assert (exp (- x) <= 1).
  { rewrite <- exp_0. destruct (Req_dec x 0) as [->|N]; [rewrite Ropp_0; lra|]. apply Rlt_le, exp_increasing. lra. }
  lra.
Qed.
Lemma step_sinh l h : between cosh l h -> between sinh (0 :: integ 0 l) (0 :: integ 0 h).
Proof. apply step; [apply derivable_pt_lim_sinh|apply sinh_0]. Qed.
Lemma step_cosh l h : between sinh l h -> between cosh (1 :: integ 0 l) (1 :: integ 0 h).
Proof. apply step; [apply derivable_pt_lim_cosh|apply cosh_0]. Qed.

(** ** Small arguments *)
Definition rclose (b k c : R) : Prop := Rabs (c - k) <= b * k.
Definition hclose (F b : R) (d : four) : Prop :=
  rclose b (cosh F) (c0 d) /\ rclose b (sinh F / F) (c1 d)
  /\ rclose b ((cosh F - 1) / (F * F)) (c2 d) /\ rclose b ((sinh F - F) / (F * F * F)) (c3 d).

Lemma hclose_small : forall z, 0 < z -> z * z <= 1/10 -> hclose z (1 / 50000000000000000000) (stumpff_small (- (z * z))).
Proof.
  intros z P S. assert (L : 0 <= z <= 1) by nra.
  pose proof cosh_start as B.
  do 8 (apply step_sinh in B; apply step_cosh in B). pose proof (step_sinh _ _ B) as B'.
  specialize (B z L). specialize (B' z L).
  cbn [integ mono Z.of_nat Pos.of_succ_nat Pos.succ] in B, B'.
  set (y := z * z) in *. set (d := stumpff_small (- y)).
  assert (Y : 0 < y) by (unfold y; nra).
  assert (Y7 : 0 <= y ^ 7 <= 1/10000000).
  { split; [apply pow_le; lra|]. replace (1/10000000) with ((1/10) ^ 7) by lra. apply pow_incr. lra. }
  assert (Y8 : 0 <= y * y ^ 7 <= 1/100000000) by (split; [apply Rmult_le_pos; lra|]; replace (1/100000000) with (1/10 * (1/10000000)) by lra; apply Rmult_le_compat; lra).
  assert (C : Rabs (c0 d - cosh z) <= y * y ^ 7 * 2 / 20922789888000).
  { destruct B as [C1 C2].
    match type of C1 with ?A <= _ => assert (E1 : A = c0 d + y * y ^ 7 / 20922789888000) by (unfold d, stumpff_small, y; cbn [c0]; field) end.
    match type of C2 with _ <= ?A => assert (E2 : A = c0 d + y * y ^ 7 * 2 / 20922789888000) by (unfold d, stumpff_small, y; cbn [c0]; field) end.
    rewrite E1 in C1. rewrite E2 in C2. apply Rabs_le. lra. }
  assert (D : Rabs (z * c1 d - sinh z) <= z * (y * y ^ 7) * 2 / 355687428096000).
  { destruct B' as [C1 C2].
    match type of C1 with ?A <= _ => assert (E1 : A = z * c1 d + z * (y * y ^ 7) / 355687428096000) by (unfold d, stumpff_small, y; cbn [c1]; field) end.
    match type of C2 with _ <= ?A => assert (E2 : A = z * c1 d + z * (y * y ^ 7) * 2 / 355687428096000) by (unfold d, stumpff_small, y; cbn [c1]; field) end.
    rewrite E1 in C1. rewrite E2 in C2. assert (0 <= z * (y * y ^ 7)) by (apply Rmult_le_pos; lra). apply Rabs_le. lra. }
  clear B B'.
  pose proof cosh_start as B. pose proof (step_sinh _ _ B) as B1. pose proof (step_cosh _ _ B1) as B2. pose proof (step_sinh _ _ B2) as B3.
  specialize (B2 z L). specialize (B3 z L). specialize (B1 z L). cbn [integ mono Z.of_nat Pos.of_succ_nat Pos.succ] in B1, B2, B3. clear B.
  assert (K0 : 1 <= cosh z) by apply cosh_low.
  assert (K1 : z <= sinh z) by lra.
  assert (K2 : y / 2 <= cosh z - 1) by (unfold y; lra).
  assert (K3 : z * y / 6 <= sinh z - z) by (unfold y; lra).
  clear B1 B2 B3.
  assert (I0 : c0 d = 1 + y * c2 d) by (unfold d, stumpff_small; cbn [c0 c2]; ring). assert (I1 : c1 d = 1 + y * c3 d) by (unfold d, stumpff_small; cbn [c1 c3]; ring).
  clearbody d.
  assert (G : forall c k m n b, 0 < m -> n / m = k -> Rabs (m * c - n) <= b * n -> rclose b k c).
  { intros c k m n b M E H. unfold rclose. subst k. apply Rmult_le_reg_l with m; auto.
    replace (m * (b * (n / m))) with (b * n) by (field; lra). rewrite <- (Rabs_right m) at 1 by lra. rewrite <- Rabs_mult.
    replace (m * (c - n / m)) with (m * c - n) by (field; lra). exact H. }
  assert (ZY : 0 < z * y) by nra.
  split; [|split; [|split]].
  - unfold rclose. lra.
  - apply (G _ _ z (sinh z)); auto. eapply Rle_trans; [exact D|].
    assert (z * (y * y ^ 7) <= z * (1 / 100000000)) by (apply Rmult_le_compat_l; lra). lra.
  - apply (G _ _ y (cosh z - 1)); auto. replace (y * c2 d - (cosh z - 1)) with (c0 d - cosh z) by (rewrite I0; ring).
    eapply Rle_trans; [exact C|]. assert (y * y ^ 7 <= y * (1 / 10000000)) by (apply Rmult_le_compat_l; lra). lra.
  - apply (G _ _ (z * y) (sinh z - z)); auto; [unfold y; field; lra|].
    replace (z * y * c3 d - (sinh z - z)) with (z * c1 d - sinh z) by (rewrite I1; ring).
    eapply Rle_trans; [exact D|]. assert (z * (y * y ^ 7) <= z * y * (1 / 10000000)).
    { rewrite <- Rmult_assoc. apply Rmult_le_compat_l; lra. }
    lra.
Qed.

(** ** Doubling *)
Lemma rclose_mul b k c k' c' : 0 <= b -> 0 <= k -> 0 <= k' -> rclose b k c -> rclose b k' c' -> rclose (2 * b + b * b) (k * k') (c * c').
Proof.
  unfold rclose. intros B K K' H H'.
  replace (c * c' - k * k') with ((c - k) * k' + (c' - k') * k + (c - k) * (c' - k')) by ring.
  eapply Rle_trans; [apply Rabs_triang|]. eapply Rle_trans; [apply Rplus_le_compat_r, Rabs_triang|]. rewrite !Rabs_mult, (Rabs_right k), (Rabs_right k') by lra.
  assert (Rabs (c - k) * k' <= b * k * k') by (apply Rmult_le_compat_r; auto).
  assert (Rabs (c' - k') * k <= b * k' * k) by (apply Rmult_le_compat_r; auto).
  assert (Rabs (c - k) * Rabs (c' - k') <= b * k * (b * k')) by (apply Rmult_le_compat; auto using Rabs_pos). lra.
Qed.
Lemma rclose_weaken b b' k c : 0 <= k -> b <= b' -> rclose b k c -> rclose b' k c.
Proof. unfold rclose. intros K B H. assert (b * k <= b' * k) by (apply Rmult_le_compat_r; auto). lra. Qed.
Lemma rclose_scale b k c m : 0 < m -> rclose b k c -> rclose b (k / m) (c / m).
Proof.
  unfold rclose. intros M H. replace (c / m - k / m) with ((c - k) * / m) by (field; lra). replace (b * (k / m)) with (b * k * / m) by (field; lra).
  assert (0 < / m) by (apply Rinv_0_lt_compat; auto). rewrite Rabs_mult, (Rabs_right (/ m)) by lra. apply Rmult_le_compat_r; lra.
Qed.
Lemma rclose_add b k c k' c' : rclose b k c -> rclose b k' c' -> rclose b (k + k') (c + c').
Proof.
  unfold rclose. intros H H'. replace (c + c' - (k + k')) with (c - k + (c' - k')) by ring. eapply Rle_trans; [apply Rabs_triang|]. lra.
Qed.
Lemma cosh_2 x : cosh (2 * x) = 2 * cosh x * cosh x - 1.
Proof.
  assert (E : exp x * exp (- x) = 1) by (rewrite <- exp_plus, Rplus_opp_r; apply exp_0).
  unfold cosh. replace (2 * x) with (x + x) by ring. replace (- (x + x)) with (- x + - x) by ring. rewrite !exp_plus.
  replace (2 * ((exp x + exp (- x)) / 2) * ((exp x + exp (- x)) / 2) - 1) with ((exp x * exp x + exp (- x) * exp (- x)) / 2 + (exp x * exp (- x) - 1)) by field. lra.
Qed.
Lemma sinh_2 x : sinh (2 * x) = 2 * sinh x * cosh x.
Proof.
  unfold cosh, sinh. replace (2 * x) with (x + x) by ring. replace (- (x + x)) with (- x + - x) by ring. rewrite !exp_plus. field.
Qed.
Lemma sinh_above : forall x, 0 < x -> x < sinh x.
Proof.
  intros x P. destruct (MVT_cor2 sinh cosh 0 x P) as (c & E & B); [intros; apply derivable_pt_lim_sinh|].
  rewrite sinh_0 in E. assert (C : 1 < cosh c); [|nra].
  destruct (MVT_cor2 cosh sinh 0 c) as (c' & E' & B'); [lra|intros; apply derivable_pt_lim_cosh|]. rewrite cosh_0 in E'.
  assert (0 < sinh c'); [|nra]. unfold sinh. assert (exp (- c') < exp c') by (apply exp_increasing; lra). lra.
Qed.
Lemma hclose_double : forall F b d, 0 < F -> 0 <= b -> hclose F b d -> hclose (2 * F) (4 * b + 2 * (b * b)) (double d).
Proof.
  intros F b d P B (A0 & A1 & A2 & A3). unfold hclose, double. cbn [c0 c1 c2 c3].
  pose proof (cosh_low F) as L. pose proof (sinh_above F P) as SA. pose proof (cosh_square F) as CS. rewrite cosh_2, sinh_2.
  assert (F2 : 0 < F * F) by nra. assert (F3 : 0 < F * F * F) by nra.
  set (k1 := sinh F / F) in *. set (k2 := (cosh F - 1) / (F * F)) in *. set (k3 := (sinh F - F) / (F * F * F)) in *.
  assert (K1 : 0 <= k1) by (apply Rmult_le_pos; [lra|apply Rlt_le, Rinv_0_lt_compat; auto]).
  assert (K2 : 0 <= k2) by (apply Rmult_le_pos; [lra|apply Rlt_le, Rinv_0_lt_compat; auto]).
  assert (K3 : 0 <= k3) by (apply Rmult_le_pos; [lra|apply Rlt_le, Rinv_0_lt_compat; auto]).
  assert (E1 : 2 * sinh F * cosh F / (2 * F) = cosh F * k1) by (unfold k1; field; lra).
  assert (E2 : (2 * cosh F * cosh F - 1 - 1) / (2 * F * (2 * F)) = k1 * k1 / 2).
  { unfold k1. replace (2 * cosh F * cosh F - 1 - 1) with (2 * (sinh F * sinh F)) by lra. field. lra. }
  assert (E3 : (2 * sinh F * cosh F - 2 * F) / (2 * F * (2 * F) * (2 * F)) = (k2 + cosh F * k3) / 4) by (unfold k2, k3; field; lra).
  rewrite E1, E2, E3. set (k0 := cosh F) in *. clearbody k0 k1 k2 k3.
  assert (BB : 0 <= b * b) by nra.
  pose proof (rclose_mul b k0 (c0 d) k0 (c0 d) B ltac:(lra) ltac:(lra) A0 A0) as M00.
  pose proof (rclose_mul b k0 (c0 d) k1 (c1 d) B ltac:(lra) ltac:(lra) A0 A1) as M01.
  pose proof (rclose_mul b k1 (c1 d) k1 (c1 d) B ltac:(lra) ltac:(lra) A1 A1) as M11.
  pose proof (rclose_mul b k0 (c0 d) k3 (c3 d) B ltac:(lra) ltac:(lra) A0 A3) as M03.
  assert (0 <= k0 * k1) by (apply Rmult_le_pos; lra). assert (0 <= k1 * k1) by (apply Rmult_le_pos; lra). assert (0 <= k0 * k3) by (apply Rmult_le_pos; lra).
  split; [|split; [|split]].
  - unfold rclose in *. replace (2 * c0 d * c0 d - 1 - (2 * k0 * k0 - 1)) with (2 * (c0 d * c0 d - k0 * k0)) by ring.
    rewrite Rabs_mult, (Rabs_right 2) by lra.
    assert (1 <= k0 * k0) by nra. assert (0 <= (2 * b + b * b) * (k0 * k0 - 1)) by (apply Rmult_le_pos; lra). lra.
  - apply rclose_weaken with (2 * b + b * b); auto; lra.
  - apply rclose_weaken with (2 * b + b * b); [lra|lra|]. apply rclose_scale; [lra|auto].
  - apply rclose_weaken with (2 * b + b * b); [lra|lra|]. apply rclose_scale; [lra|]. apply rclose_add; auto. apply rclose_weaken with b; auto; lra.
Qed.
Lemma hclose_weaken F b b' d : 0 < F -> b <= b' -> hclose F b d -> hclose F b' d.
Proof.
  intros P B (A0 & A1 & A2 & A3). pose proof (cosh_low F) as L. pose proof (sinh_above F P) as SA.
  assert (F2 : 0 < F * F) by nra. assert (F3 : 0 < F * F * F) by nra.
  repeat split; (eapply rclose_weaken; [|exact B|eassumption]).
  - lra.
  - apply Rmult_le_pos; [lra|apply Rlt_le, Rinv_0_lt_compat; auto].
  - apply Rmult_le_pos; [lra|apply Rlt_le, Rinv_0_lt_compat; auto].
  - apply Rmult_le_pos; [lra|apply Rlt_le, Rinv_0_lt_compat; auto].
Qed.
Lemma hclose_doubles : forall n F b d, 0 < F -> 0 <= b -> 4 ^ n * b <= 1 -> hclose F b d ->
  hclose (2 ^ n * F) (4 ^ n * b * (1 + 4 ^ n * b)) (doubles n d).
Proof.
  assert (G : forall n k th b d, 0 < th -> 0 <= b -> 4 ^ (n + k) * b <= 1 -> hclose (2 ^ k * th) (4 ^ k * b * (1 + 4 ^ k * b)) d ->
    hclose (2 ^ (n + k) * th) (4 ^ (n + k) * b * (1 + 4 ^ (n + k) * b)) (doubles n d)).
  { induction n as [|n IH]; intros k th b d P B L C; cbn [doubles]; [exact C|].
    replace (S n + k)%nat with (n + S k)%nat in * by lia. apply IH; auto.
    assert (P2 : 0 < 2 ^ k) by (apply pow_lt; lra). pose proof (pow4_pos k) as P4.
    set (u := 4 ^ k * b) in *.
    assert (U0 : 0 <= u) by (unfold u; apply Rmult_le_pos; lra).
    assert (U1 : u <= 1).
    { unfold u. apply Rle_trans with (4 ^ (n + S k) * b); auto. apply Rmult_le_compat_r; auto. apply Rle_pow; [lra|lia]. }
    assert (TP : 0 < 2 ^ k * th) by (apply Rmult_lt_0_compat; auto).
    assert (D : hclose (2 * (2 ^ k * th)) (4 * (u * (1 + u)) + 2 * (u * (1 + u) * (u * (1 + u)))) (double d)).
    { apply hclose_double; auto. apply Rmult_le_pos; lra. }
    assert (E1 : 2 ^ S k * th = 2 * (2 ^ k * th)) by (simpl; ring). assert (E2 : 4 ^ S k * b = 4 * u) by (unfold u; simpl; ring).
    rewrite E1, E2. eapply hclose_weaken; [lra| |exact D].
    assert ((1 + u) * (1 + u) <= 6) by nra. assert (0 <= u * u) by nra. nra. }
  intros n th b d P B L C. specialize (G n 0%nat th b d P B). rewrite Nat.add_0_r in G. apply G; auto.
  replace (2 ^ 0 * th) with th by (simpl; ring). replace (4 ^ 0 * b) with b by (simpl; ring).
  eapply hclose_weaken; [auto| |exact C]. nra.
Qed.

(** ** All arguments *)
Lemma stumpff_hclose : forall F, 0 < F -> F <= 1000000 -> hclose F ((1 + F * F) / 1000000000000000000) (stumpff (- (F * F))).
Proof.
  intros th P L. unfold stumpff. rewrite Rabs_Ropp. destruct (reduce (Z.to_nat (up (10 * Rabs (th * th)))) 0 (- (th * th))) as [n y] eqn:R.
  assert (R' := R). rewrite <- Rabs_Ropp in R'.
  pose proof (reduce_done _ _ _ R') as [E B]. pose proof (reduce_small _ _ _ _ _ R) as S. cbv zeta in *. clear R R'.
  pose proof (pow4_pos n) as P4. assert (P2 : 0 < 2 ^ n) by (apply pow_lt; lra).
  assert (E24 : 2 ^ n * 2 ^ n = 4 ^ n) by (rewrite <- Rpow_mult_distr; f_equal; lra).
  set (z := th / 2 ^ n).
  assert (Z : 0 < z) by (apply Rdiv_lt_0_compat; auto).
  assert (Ey : y = - (z * z)).
  { apply Rmult_eq_reg_l with (4 ^ n); [|lra]. rewrite <- E. unfold z. rewrite <- E24. field. lra. }
  rewrite Ey in *. rewrite Rabs_Ropp, (Rabs_right (z * z)) in B by nra.
  assert (U : 4 ^ n <= 1 + 40 * (th * th)).
  { destruct S as [->|S]; [simpl; nra|]. replace (4 * - (z * z)) with (- (4 * (z * z))) in S by ring. rewrite Rabs_Ropp, Rabs_right in S by nra.
    assert (th * th = 4 ^ n * (z * z)) by lra. nra. }
  pose proof (hclose_small z Z B) as C0.
  assert (Q : 4 ^ n * (1 / 50000000000000000000) <= (1 + 40 * (th * th)) / 50000000000000000000) by lra.
  assert (T2 : th * th <= 1000000000000) by nra.
  assert (C : hclose (2 ^ n * z) (4 ^ n * (1 / 50000000000000000000) * (1 + 4 ^ n * (1 / 50000000000000000000))) (doubles n (stumpff_small (- (z * z))))).
  { apply hclose_doubles; auto; lra. }
  replace (2 ^ n * z) with th in C by (unfold z; field; lra).
  set (u := 4 ^ n * (1 / 50000000000000000000)) in *.
  assert (0 <= u) by (unfold u; lra).
  eapply hclose_weaken; [auto| |exact C]. assert (u <= 1/100) by lra. nra.
Qed.
