(** Rounding does not change what is linked. *)
From Coq Require Import String List Arith ZArith QArith Qreals Reals Bool Lia Lra Sorting.Sorted Sorting.Permutation.
From Flocq Require Import Core Plus_error Relative Sterbenz.
From Verif Require Import Base.Prelude Base.Num Model.Linking Model.LinkingFloat Spec.LinkingFloat Spec.Linking
  Proofs.Linking Proofs.Discovery Proofs.LinkObject Proofs.LinkFilter Proofs.LinkProps.
Import ListNotations.
Open Scope R_scope.

(** ** One rounding *)

Notation fexp64 := (FLT_exp (-1074) 53).
Local Instance prec53 : Prec_gt_0 53 := eq_refl.

Lemma fl_mono x y : x <= y -> fl x <= fl y.
Proof. apply round_le; auto with typeclass_instances. Qed.
Lemma fl_float x : generic_format radix2 fexp64 x -> fl x = x.
Proof. apply round_generic; auto with typeclass_instances. Qed.
Lemma tiny : bpow radix2 (-1022) <= / 1152921504606846976.
Proof. replace (/ 1152921504606846976) with (bpow radix2 (-60)) by (cbn; lra). apply bpow_le. lia. Qed.
Lemma fl_rel x : / 1152921504606846976 <= Rabs x -> Rabs (fl x - x) <= / 9007199254740992 * Rabs x.
Proof.
  intro H. assert (E := relative_error_N_FLT radix2 (-1074) 53 eq_refl (fun x => negb (Z.even x)) x).
  replace (/ 2 * bpow radix2 (- (53) + 1)) with (/ 9007199254740992) in E by (cbn; lra). apply E.
  apply Rle_trans with (2 := H). apply tiny.
Qed.
Lemma fl_err x : Rabs (fl x - x) <= / 9007199254740992 * (1 + Rabs x).
Proof.
  destruct (relative_error_N_FLT'_ex radix2 (-1074) 53 eq_refl (fun x => negb (Z.even x)) x) as (eps & eta & E1 & E2 & _ & E).
  change (round radix2 fexp64 (Znearest (fun x => negb (Z.even x))) x) with (fl x) in E. rewrite E.
  replace (x * (1 + eps) + eta - x) with (x * eps + eta) by ring.
  assert (U : Rabs eps <= / 9007199254740992).
  { apply Rle_trans with (1 := E1). unfold u_ro. replace (/ 2 * bpow radix2 (- (53) + 1)) with (/ 9007199254740992) by (cbn; lra). lra. }
  assert (T : Rabs eta <= / 9007199254740992).
  { apply Rle_trans with (1 := E2). replace (/ 9007199254740992) with (/ 2 * bpow radix2 (-52)) by (cbn; lra).
    apply Rmult_le_compat_l; [lra|]. apply bpow_le. lia. }
  apply Rle_trans with (1 := Rabs_triang _ _). rewrite Rabs_mult.
  assert (Rabs x * Rabs eps <= Rabs x * / 9007199254740992) by (apply Rmult_le_compat_l; [apply Rabs_pos|auto]). lra.
Qed.
(** The sign of a difference of floats is that of the exact difference. *)
Lemma fl_pos x y : generic_format radix2 fexp64 x -> generic_format radix2 fexp64 y -> 0 < fl (x - y) <-> 0 < x - y.
Proof.
  intros Fx Fy. assert (Z : fl 0 = 0) by apply round_0, valid_rnd_N. split; intro H.
  - destruct (Rlt_or_le 0 (x - y)) as [L|L]; auto. apply fl_mono in L. rewrite Z in L. lra.
  - assert (L := fl_mono 0 (x - y) ltac:(lra)). rewrite Z in L. destruct L as [L|L]; auto. exfalso.
    apply (round_plus_neq_0 radix2 fexp64 ZnearestE x (- y) Fx); [apply generic_format_opp; auto|lra|].
    symmetry. exact L.
Qed.

(** ** Limits *)

Definition small : R := / 9007199254740992.
Lemma near_fl x y : / 100000000000000000 <= x -> Rabs (y - x) <= 10 * small * x -> Rabs (fl y - x) <= Rabs (y - x) + (1 + 11 * small) * small * x.
Proof.
  intros Hx H. unfold small in *. assert (A : Rabs y <= (1 + 11 * / 9007199254740992) * x).
  { assert (B := Rabs_triang (y - x) x). replace (y - x + x) with y in B by ring. rewrite (Rabs_right x) in B by lra. lra. }
  assert (B : / 1152921504606846976 <= Rabs y).
  { assert (B := Rabs_triang_inv x (x - y)). replace (x - (x - y)) with y in B by ring. rewrite (Rabs_right x), (Rabs_minus_sym x y) in B by lra. lra. }
  assert (E := fl_rel y B). assert (T := Rabs_triang (fl y - y) (y - x)). replace (fl y - y + (y - x)) with (fl y - x) in T by ring.
  assert (/ 9007199254740992 * Rabs y <= / 9007199254740992 * ((1 + 11 * / 9007199254740992) * x)) by (apply Rmult_le_compat_l; lra). lra.
Qed.
Lemma scaled : forall k x y c, 0 < k -> Rabs (y - x) <= c * x -> Rabs (y * k - x * k) <= c * (x * k).
Proof.
  intros k x y c Hk H. replace (y * k - x * k) with ((y - x) * k) by ring. rewrite Rabs_mult, (Rabs_right k) by lra.
  rewrite <- Rmult_assoc. apply Rmult_le_compat_r; lra.
Qed.
Lemma limit_near t : / 10000000000 <= t -> Rabs (fl (fl (fl (t * 24) * 60) / 1440) - t) <= 4 * small * t.
Proof.
  intro Ht. assert (S : 0 < small < / 1000000) by (unfold small; lra).
  assert (E1 : Rabs (fl (t * 24) - t * 24) <= small * (t * 24)).
  { assert (H := fl_rel (t * 24)). rewrite Rabs_right in H by lra. apply H. lra. }
  assert (E2 := scaled 60 _ _ _ ltac:(lra) E1).
  assert (E3 := near_fl (t * 24 * 60) (fl (t * 24) * 60) ltac:(lra)).
  assert (P1 : 0 < small * (t * 24 * 60)) by (apply Rmult_lt_0_compat; lra).
  assert (E4 : Rabs (fl (fl (t * 24) * 60) - t * 24 * 60) <= (2 + 11 * small) * small * (t * 24 * 60)).
  { eapply Rle_trans; [apply E3; lra|]. lra. }
  assert (E5 := scaled (/ 1440) _ _ _ ltac:(lra) E4). replace (t * 24 * 60 * / 1440) with t in E5 by field.
  assert (P2 : 0 < small * t) by (apply Rmult_lt_0_compat; lra).
  assert (P3 : (2 + 11 * small) * small * t <= 3 * (small * t)).
  { rewrite Rmult_assoc. apply Rmult_le_compat_r; lra. }
  assert (E6 := near_fl t (fl (fl (t * 24) * 60) * / 1440) ltac:(lra)).
  unfold Rdiv. eapply Rle_trans; [apply E6; lra|].
  assert (P4 : (1 + 11 * small) * small * t <= (1 + / 10000) * (small * t)).
  { rewrite Rmult_assoc. apply Rmult_le_compat_r; lra. }
  assert (P5 : (2 + 11 * small) * small * t <= (2 + / 10000) * (small * t)).
  { rewrite Rmult_assoc. apply Rmult_le_compat_r; lra. }
  lra.
Qed.
Lemma minlen_near t : / 10000000000 <= t -> Rabs (fl (t / 3600) - t / 3600) <= small * (t / 3600).
Proof. intro Ht. assert (H := fl_rel (t / 3600)). rewrite Rabs_right in H by lra. apply H. lra. Qed.
(** A gap that does not agree with the limit is compared rightly. *)
Lemma gap_compare d t m : / 10000000000 <= t -> Rabs (m - t) <= 4 * small * t ->
  d < t * (1 - / 1125899906842624) \/ t * (1 + / 1125899906842624) < d -> fl d < m <-> d < t.
Proof.
  intros Ht Hm C. apply Rabs_le_inv in Hm. unfold small in Hm. destruct C as [C|C].
  - split; [intros _; lra|]. intros _. assert (H := fl_mono d (t * (1 - / 1125899906842624)) ltac:(lra)).
    assert (E := fl_rel (t * (1 - / 1125899906842624))). rewrite Rabs_right in E by lra.
    specialize (E ltac:(lra)). apply Rabs_le_inv in E. lra.
  - split; [|lra]. intro L. exfalso. assert (H := fl_mono (t * (1 + / 1125899906842624)) d ltac:(lra)).
    assert (E := fl_rel (t * (1 + / 1125899906842624))). rewrite Rabs_right in E by lra.
    specialize (E ltac:(lra)). apply Rabs_le_inv in E. lra.
Qed.
Lemma sep_compare d t m : / 10000000000 <= t -> Rabs (m - t / 3600) <= small * (t / 3600) ->
  d < t / 3600 * (1 - / 1125899906842624) \/ t / 3600 * (1 + / 1125899906842624) < d -> m < d <-> t / 3600 < d.
Proof. intros Ht Hm C. apply Rabs_le_inv in Hm. unfold small in Hm. lra. Qed.

(** ** Nights *)

Lemma qtrunc_Ztrunc q : qtrunc q = Ztrunc (Q2R q).
Proof.
  destruct q as [n d]. unfold qtrunc, Q2R, Ztrunc. cbn [Qnum Qden].
  assert (Dp : 0 < IZR (Zpos d)) by (apply (IZR_lt 0); lia). change (IZR n * / IZR (Zpos d)) with (IZR n / IZR (Zpos d)).
  destruct (Rlt_bool_spec (IZR n / IZR (Zpos d)) 0) as [L|L].
  - assert (N : (n < 0)%Z).
    { apply lt_IZR. apply Rmult_lt_compat_r with (r := IZR (Zpos d)) in L; auto. unfold Rdiv in L. rewrite Rmult_assoc, Rinv_l, Rmult_0_l in L; lra. }
    unfold Zceil. replace (- (IZR n / IZR (Zpos d))) with (IZR (- n) / IZR (Zpos d)) by (rewrite opp_IZR; field; lra).
    rewrite Zfloor_div by lia. replace n with (- - n)%Z at 1 by lia. rewrite Z.quot_opp_l by lia. rewrite Z.quot_div_nonneg by lia. auto.
  - assert (N : (0 <= n)%Z).
    { apply le_IZR. apply Rmult_le_compat_r with (r := IZR (Zpos d)) in L; [|lra]. unfold Rdiv in L. rewrite Rmult_assoc, Rinv_l, Rmult_0_l in L; lra. }
    rewrite Zfloor_div by lia. apply Z.quot_div_nonneg; lia.
Qed.
Lemma ztrunc_frac x : / 20 < x - IZR (Ztrunc x) -> 0 <= x /\ IZR (Ztrunc x) <= x < IZR (Ztrunc x) + 1 /\ (0 <= Ztrunc x)%Z.
Proof.
  intro H. unfold Ztrunc in *. destruct (Rlt_bool_spec x 0) as [L|L].
  - exfalso. assert (C := Zceil_ub x). lra.
  - split; auto. assert (F := Zfloor_lb x). assert (G := Zfloor_ub x). split; [lra|]. 
    apply Zfloor_lub. exact L.
Qed.
Lemma ztrunc_in x n : (0 <= n)%Z -> IZR n <= x < IZR n + 1 -> Ztrunc x = n.
Proof.
  intros Hn H. assert (0 <= IZR n) by (apply IZR_le; auto). rewrite Ztrunc_floor by lra. apply Zfloor_imp. rewrite plus_IZR. lra.
Qed.
Lemma near_tenth : Rabs (fl (1 / 10) - 1 / 10) <= 2 * small.
Proof. assert (H := fl_err (1 / 10)). rewrite (Rabs_right (1 / 10)) in H by lra. unfold small. lra. Qed.
Lemma near_ninth : Rabs (fl (9 / 10) - 9 / 10) <= 2 * small.
Proof. assert (H := fl_err (9 / 10)). rewrite (Rabs_right (9 / 10)) in H by lra. unfold small. lra. Qed.

Lemma rltb_lt a b : rltb a b = true <-> a < b.
Proof. unfold rltb. destruct (Rlt_dec a b); split; auto; discriminate. Qed.

Section Phase.
Variables x y : R.
Hypothesis near : Rabs (y - x) <= / 10000.
Definition accepted (y : R) : bool := rltb (fl (1 / 10)) (fl (y - IZR (Ztrunc y))) && rltb (fl (y - IZR (Ztrunc y))) (fl (9 / 10)).

Lemma accepted_within : accepted y = true -> 1 / 10 < y - IZR (Ztrunc y) < 9 / 10.
Proof.
  unfold accepted. rewrite andb_true_iff, !rltb_lt. intros [A B]. split.
  - destruct (Rlt_or_le (1 / 10) (y - IZR (Ztrunc y))) as [L|L]; auto. apply fl_mono in L. lra.
  - destruct (Rlt_or_le (y - IZR (Ztrunc y)) (9 / 10)) as [L|L]; auto. apply fl_mono in L. lra.
Qed.
Lemma accepted_night : accepted y = true -> let n := Ztrunc y in (0 <= n)%Z /\ IZR n + 999 / 10000 <= x <= IZR n + 9001 / 10000.
Proof.
  intro A. apply accepted_within in A. destruct (ztrunc_frac y) as (P & Q & N); [lra|]. apply Rabs_le_inv in near.
  cbv zeta. split; auto. lra.
Qed.
Hypothesis clear : forall n, (x < IZR n + 99 / 1000 \/ IZR n + 101 / 1000 < x) /\ (x < IZR n + 899 / 1000 \/ IZR n + 901 / 1000 < x).
Lemma accepted_exact : accepted y = true <-> 1 / 10 < x - IZR (Ztrunc x) < 9 / 10.
Proof.
  split; intro A.
  - destruct (accepted_night A) as [N B]. destruct (clear (Ztrunc y)) as [C1 C2].
    rewrite (ztrunc_in x (Ztrunc y)) by (auto; lra). lra.
  - destruct (ztrunc_frac x) as (P & Q & N); [lra|]. destruct (clear (Ztrunc x)) as [C1 C2]. apply Rabs_le_inv in near.
    unfold accepted. rewrite (ztrunc_in y (Ztrunc x)) by (auto; lra). set (n := IZR (Ztrunc x)) in *. rewrite andb_true_iff, !rltb_lt.
    assert (E := fl_err (y - n)). rewrite (Rabs_right (y - n)) in E by lra. apply Rabs_le_inv in E.
    assert (T := near_tenth). assert (U := near_ninth). apply Rabs_le_inv in T. apply Rabs_le_inv in U. unfold small in *.
    split; lra.
Qed.
Lemma accepted_same : accepted y = true -> Ztrunc y = Ztrunc x.
Proof.
  intro A. destruct (accepted_night A) as [N B]. symmetry. apply ztrunc_in; auto. lra.
Qed.
End Phase.

Lemma shift_near a h : Rabs a <= 1000000000 -> Rabs h <= 1000000000 -> Rabs (fl (a - fl (h / 24)) - (a - h / 24)) <= / 10000.
Proof.
  intros Ha Hh. assert (H24 : Rabs (h / 24) <= 1000000000).
  { unfold Rdiv. rewrite Rabs_mult, (Rabs_right (/ 24)) by lra. lra. }
  assert (E := fl_err (h / 24)). set (k := fl (h / 24)) in *.
  assert (B : Rabs (a - k) <= 2000000001).
  { assert (J := H24). apply Rabs_le_inv in E. apply Rabs_le_inv in Ha. apply Rabs_le_inv in J. apply Rabs_le. lra. }
  assert (F := fl_err (a - k)). apply Rabs_le_inv in E. apply Rabs_le_inv in F. apply Rabs_le. lra.
Qed.

(** ** Weights *)

Lemma fl_is_float x : generic_format radix2 fexp64 (fl x).
Proof. apply generic_format_round; auto with typeclass_instances. Qed.
Lemma float_0 : generic_format radix2 fexp64 0.
Proof. apply generic_format_0. Qed.
Lemma fl_zero x y : generic_format radix2 fexp64 x -> generic_format radix2 fexp64 y -> fl (x - y) = 0 <-> x = y.
Proof.
  intros Fx Fy. split; intro H.
  - destruct (Req_dec (x - y) 0) as [E|E]; [lra|]. exfalso.
    apply (round_plus_neq_0 radix2 fexp64 ZnearestE x (- y) Fx); [apply generic_format_opp; auto|lra|]. exact H.
  - replace (x - y) with 0 by lra. apply fl_float, float_0.
Qed.
(** Floats are whole numbers of a smallest unit. *)
Definition code (x : R) : Z := Ztrunc (x * bpow radix2 1074).
Lemma code_float x : generic_format radix2 fexp64 x -> IZR (code x) = x * bpow radix2 1074.
Proof.
  intro F. apply FLT_format_generic in F; [|exact prec53]. destruct F as [[m e] E _ L]. cbn in L. unfold code.
  assert (X : x * bpow radix2 1074 = IZR (m * 2 ^ (e + 1074))).
  { rewrite E. unfold F2R. cbn [Fnum Fexp]. rewrite Rmult_assoc, <- bpow_plus, mult_IZR. f_equal. symmetry. apply (IZR_Zpower radix2). lia. }
  rewrite X, Ztrunc_IZR. auto.
Qed.
Lemma code_inj x y : generic_format radix2 fexp64 x -> generic_format radix2 fexp64 y -> code x = code y <-> x = y.
Proof.
  intros Fx Fy. split; [|intros ->; auto]. intro H. apply (f_equal IZR) in H. rewrite !code_float in H by auto.
  apply Rmult_eq_reg_r in H; auto. assert (P := bpow_gt_0 radix2 1074). lra.
Qed.
Lemma code_0 : code 0 = 0%Z.
Proof. unfold code. rewrite Rmult_0_l. apply (Ztrunc_IZR 0). Qed.
Lemma nonzero_code x y : generic_format radix2 fexp64 x -> generic_format radix2 fexp64 y ->
  nonzero (fl (x - y)) = negb (code x - code y =? 0)%Z.
Proof.
  intros Fx Fy. unfold nonzero. destruct (Req_EM_T (fl (x - y)) 0) as [E|E].
  - apply (proj1 (fl_zero x y Fx Fy)) in E. subst y. replace (code x - code x)%Z with 0%Z by lia. auto.
  - destruct (Z.eqb_spec (code x - code y) 0) as [C|C]; auto. exfalso. apply E, fl_zero; auto. apply code_inj; auto. lia.
Qed.
Lemma nonzero_code0 x : generic_format radix2 fexp64 x -> nonzero x = negb (code x - 0 =? 0)%Z.
Proof.
  intro F. rewrite <- code_0 at 1. rewrite <- (nonzero_code x 0 F float_0). rewrite Rminus_0_r, fl_float; auto.
Qed.

Section Sums.
Variable wt : nat -> R.
Hypothesis Fw : forall k, generic_format radix2 fexp64 (wt k).
Lemma sum_float n : generic_format radix2 fexp64 (float_sum wt n).
Proof. destruct n; cbn; [apply float_0|apply fl_is_float]. Qed.
Lemma fill_f_length l : forall k, length (fill_f wt k l) = length l.
Proof. induction l as [|x l IH]; intro k; cbn; auto. destruct (x =? 0)%Z; cbn; auto. Qed.
Lemma cumsum_f_length l : forall acc, length (cumsum_f acc l) = length l.
Proof. induction l as [|x l IH]; intro acc; cbn; auto. Qed.
Lemma cumsum_fill l : forall k i, (i < length l)%nat ->
  nth i (cumsum_f (float_sum wt k) (fill_f wt k l)) 0 = float_sum wt (k + ones (firstn (S i) l)).
Proof.
  induction l as [|x l IH]; intros k i L; cbn [length] in L; [lia|]. cbn [fill_f]. unfold ones. cbn [firstn filter].
  destruct (x =? 0)%Z eqn:E; cbn [cumsum_f negb].
  - rewrite Rplus_0_r. rewrite fl_float by apply sum_float. fold (ones (firstn i l)). destruct i as [|i]; cbn [nth].
    + cbn. rewrite Nat.add_0_r. auto.
    + rewrite IH by lia. auto.
  - cbn [length]. fold (ones (firstn i l)). change (fl (float_sum wt k + wt k)) with (float_sum wt (S k)). destruct i as [|i]; cbn [nth].
    + cbn [ones firstn filter length]. replace (k + 1)%nat with (S k) by lia. auto.
    + rewrite IH by lia. f_equal. lia.
Qed.
Lemma trailing_f_nth w l i : (i < length l)%nat ->
  nth i (trailing_f w l) 0 = if (i <? w)%nat then nth i l 0 else fl (nth i l 0 - nth (i - w) l 0).
Proof.
  intro H. unfold trailing_f. set (g := fun i => if (i <? w)%nat then nth i l 0 else fl (nth i l 0 - nth (i - w) l 0)).
  rewrite (nth_indep _ 0 (g 0%nat)) by (rewrite map_length, seq_length; auto). rewrite map_nth, seq_nth; auto.
Qed.
Lemma filter_steps (s : nat -> R) n0 : (forall i, generic_format radix2 fexp64 (s i)) -> forall idx prev, generic_format radix2 fexp64 prev ->
  map (fun x => Z.of_nat (fst x) + n0)%Z (filter (fun x => nonzero (snd x)) (combine idx (steps_f prev (map s idx))))
  = keep (fun d => code (s (Z.to_nat (d - n0)))) (code prev) (map (fun i => Z.of_nat i + n0)%Z idx).
Proof.
  intros Fs idx. induction idx as [|i idx IH]; intros prev Fp; cbn [map steps_f combine filter keep]; auto.
  cbn [snd]. rewrite Z.add_simpl_r, Nat2Z.id, nonzero_code by auto.
  destruct (code (s i) - code prev =? 0)%Z; cbn [negb map fst]; rewrite IH; auto.
Qed.
Lemma filter_diffs (s : nat -> R) n0 idx : (forall i, generic_format radix2 fexp64 (s i)) ->
  map (fun x => Z.of_nat (fst x) + n0)%Z (filter (fun x => nonzero (snd x)) (combine idx (diffs_f (map s idx))))
  = keep (fun d => code (s (Z.to_nat (d - n0)))) 0 (map (fun i => Z.of_nat i + n0)%Z idx).
Proof.
  intro Fs. destruct idx as [|i idx]; auto. cbn [map diffs_f combine filter keep snd].
  rewrite Z.add_simpl_r, Nat2Z.id, nonzero_code0 by auto.
  destruct (code (s i) - 0 =? 0)%Z; cbn [negb map fst]; rewrite filter_steps; auto.
Qed.
Lemma trailing_float w l i : (forall j, generic_format radix2 fexp64 (nth j l 0)) -> generic_format radix2 fexp64 (nth i (trailing_f w l) 0).
Proof.
  intro F. destruct (Nat.lt_ge_cases i (length l)) as [L|L].
  - rewrite trailing_f_nth by auto. destruct (i <? w)%nat; auto. apply fl_is_float.
  - rewrite nth_overflow; [apply float_0|]. unfold trailing_f. rewrite map_length, seq_length. auto.
Qed.
Lemma cumsum_float l : forall acc j, generic_format radix2 fexp64 (nth j (cumsum_f acc l) 0).
Proof.
  induction l as [|x l IH]; intros acc j; cbn; destruct j; try apply float_0; [apply fl_is_float|apply IH].
Qed.

Variables (nights : list Z) (flags : list bool) (window nlink : Z).
Hypothesis Hsort : StronglySorted Z.lt nights.
Hypothesis Hlen : length flags = length nights.
Hypothesis Hw : (1 <= window)%Z.
Hypothesis Hn : (1 < nlink)%Z.
Hypothesis Hne : nights <> [].
Let nf := combine nights flags.
Let T := map fst (filter snd nf).
Let n0 := list_min nights.
Let nlen := Z.to_nat (list_max nights + window - n0 + 1).
Let c := cnt T.
Let q := qualifies (fun t => In (t, true) nf) window nlink.
Definition wsum_f (d : Z) : R := fl (float_sum wt (c d) - float_sum wt (c (d - window)%Z)).

Lemma before_f x : (x < n0)%Z -> c x = 0%nat.
Proof. apply (c_before nights flags window Hlen Hw). Qed.
Lemma prefix_f i : (i <= nlen)%nat -> ones (firstn i (scatter n0 nlen nf)) = c (n0 + Z.of_nat i - 1)%Z.
Proof. apply (ones_prefix nights flags window Hsort Hlen Hw). Qed.
Lemma quals_in_f d : In d (quals nights flags window nlink) <-> q d.
Proof. apply (quals_in nights flags window nlink (fun _ => 0%Z) Hsort Hlen Hw Hn). Qed.
Lemma range_f d : q d -> (n0 <= d < n0 + Z.of_nat nlen)%Z.
Proof. apply (qual_range nights flags window nlink Hsort Hlen Hw d Hn). Qed.
Lemma nonempty_f d : q d -> (c (d - window)%Z < c d)%nat.
Proof. apply (qual_nonempty nights flags window nlink Hsort Hlen Hw d). lia. Qed.
Lemma bound_f d : (c d <= length nights)%nat.
Proof. apply Nat.le_trans with (length T); [apply (c_bound nights flags window Hlen)|apply (T_length nights flags window Hlen)]. Qed.
Lemma same_f d d' : (d' < d)%Z -> (c (d - window)%Z < c d)%nat ->
  same_window (fun t => In (t, true) nf) window d d' <-> c d = c d' /\ c (d - window)%Z = c (d' - window)%Z.
Proof. apply (same_window_nf nights flags window Hlen Hw). Qed.

Lemma arr2_f i : (i < nlen)%nat ->
  nth i (trailing_f (Z.to_nat window) (cumsum_f 0 (fill_f wt 0 (scatter n0 nlen nf)))) 0 = wsum_f (n0 + Z.of_nat i).
Proof.
  intro H. assert (Lz : length (scatter n0 nlen nf) = nlen) by (apply (z_length nights flags window)).
  rewrite trailing_f_nth by (rewrite cumsum_f_length, fill_f_length, Lz; auto).
  change 0 with (float_sum wt 0) at 1 3 5. rewrite !cumsum_fill by (rewrite Lz; lia). unfold wsum_f. rewrite !Nat.add_0_l.
  rewrite !prefix_f by lia. replace (n0 + Z.of_nat (S i) - 1)%Z with (n0 + Z.of_nat i)%Z by lia.
  destruct (Nat.ltb_spec i (Z.to_nat window)) as [L|L].
  - assert (B : c (n0 + Z.of_nat i - window)%Z = 0%nat) by (apply before_f; lia). rewrite B. cbn [float_sum].
    rewrite Rminus_0_r, fl_float; auto. apply sum_float.
  - replace (n0 + Z.of_nat (S (i - Z.to_nat window)) - 1)%Z with (n0 + Z.of_nat i - window)%Z by lia. auto.
Qed.
Let ql := quals nights flags window nlink.
Lemma disc_keep : disc_nights_f nights flags window nlink wt = Ok (keep (fun d => code (wsum_f d)) 0 ql).
Proof.
  unfold disc_nights_f. destruct (Z.ltb_spec 1 nlink); [|lia]. rewrite match_nonempty by auto.
  destruct (Z.leb_spec window 0); [lia|]. fold nf. fold n0. fold nlen. f_equal. rewrite filter_diffs.
  2:{ intro i. apply trailing_float. apply cumsum_float. }
  assert (EQ : map (fun i => Z.of_nat i + n0)%Z
     (filter (fun i => nlink <=? nth i (trailing (Z.to_nat window) (cumsum 0 (scatter n0 nlen nf))) 0)%Z (seq 0 nlen)) = ql).
  { unfold ql, quals. rewrite <- map_filter_comm. f_equal. apply filter_ext_in'.
    intros i Hi. apply in_seq in Hi. unfold n0, nlen, nf. rewrite (arr_nth nights flags window) by (auto; unfold nlen in Hi; lia). fold nf T n0 c.
    rewrite (Z.add_comm n0). auto. }
  rewrite EQ. apply keep_ext. intros d Hd. apply quals_in_f, range_f in Hd.
  rewrite arr2_f by lia. replace (n0 + Z.of_nat (Z.to_nat (d - n0)))%Z with d by lia. auto.
Qed.
Lemma Fsum d : generic_format radix2 fexp64 (wsum_f d).
Proof. apply fl_is_float. Qed.
Lemma disc_f_exact : telling wt (length nights) -> exists disc, disc_nights_f nights flags window nlink wt = Ok disc /\ StronglySorted Z.lt disc /\
  forall d, In d disc <-> first_with q d \/ (q d /\ exists d', previous q d d' /\ ~ same_window (fun t => In (t, true) nf) window d d').
Proof.
  intro Hg. rewrite disc_keep. eexists. split; [reflexivity|]. split.
  { eapply subseq_ssorted; [apply keep_subseq|apply quals_sorted]. }
  intro d. unfold ql. rewrite (keep_spec q _ _ (quals_sorted _ _ _ _) quals_in_f d).
  assert (CB := bound_f). assert (Ne := nonempty_f).
  split.
  - intros [[H1 H2]|[H1 (d' & Hp & Hs)]]; [left; auto|right]. split; auto. exists d'; split; auto.
    intro C. apply same_f in C as [C1 C2]; [|apply Hp|apply Ne; auto].
    apply Hs. unfold wsum_f. rewrite C1, C2. auto.
  - intros [H|[H1 (d' & Hp & Hs)]].
    + left; split; auto. assert (B := Ne d (proj1 H)). assert (B2 := CB d).
      destruct (Hg (c (d - window)%Z) (c d) (c (d - window)%Z) (c d)) as [G _]; try lia.
      intro C. apply G. rewrite <- code_0 in C. apply code_inj in C; auto; [apply Fsum|apply float_0].
    + right; split; auto. exists d'; split; auto. intro C. apply Hs.
      assert (B := Ne d H1). assert (B2 := CB d). assert (B' := Ne d' (proj1 Hp)). assert (B2' := CB d').
      apply same_f; auto; [apply Hp|].
      destruct (Hg (c (d - window)%Z) (c d) (c (d' - window)%Z) (c d')) as [_ G]; try lia.
      apply code_inj in C; try apply Fsum. destruct (G C) as [G1 G2]. auto.
Qed.
Lemma disc_f_sound : exists disc, disc_nights_f nights flags window nlink wt = Ok disc /\ StronglySorted Z.lt disc /\
  forall d, In d disc -> q d /\ forall d', previous q d d' -> ~ same_window (fun t => In (t, true) nf) window d d'.
Proof.
  rewrite disc_keep. eexists. split; [reflexivity|]. split.
  { eapply subseq_ssorted; [apply keep_subseq|apply quals_sorted]. }
  intros d Hd. unfold ql in Hd. rewrite (keep_spec q _ _ (quals_sorted _ _ _ _) quals_in_f d) in Hd.
  destruct Hd as [[H1 H2]|[H1 (d' & Hp & Hs)]].
  - split; [apply H1|]. intros d' (Q' & L' & _). exfalso. exact (proj2 H1 d' L' Q').
  - split; auto. intros e He C. assert (e = d') by (eapply previous_functional; eauto). subst e.
    apply same_f in C as [C1 C2]; [|apply Hp|].
    + apply Hs. unfold wsum_f. rewrite C1, C2. auto.
    + apply nonempty_f; auto.
Qed.
Hypothesis Hrange : forall k, / 1000000000 <= wt k <= 1.
Hypothesis Hmany : (Z.of_nat (length nights) <= 1000000)%Z.
Lemma sum_grows n : (Z.of_nat n <= 1000000)%Z -> 0 <= float_sum wt n <= IZR (Z.of_nat n) * (1 + / 1000).
Proof.
  induction n as [|n IH]; intro L; [cbn; lra|]. destruct IH as [I1 I2]; [lia|]. cbn [float_sum].
  change (nearest (float_sum wt n + wt n)) with (fl (float_sum wt n + wt n)).
  assert (R := Hrange n). assert (E := fl_err (float_sum wt n + wt n)). rewrite (Rabs_right (float_sum wt n + wt n)) in E by lra. apply Rabs_le_inv in E.
  assert (B : IZR (Z.of_nat n) <= 1000000) by (apply IZR_le; lia).
  rewrite Nat2Z.inj_succ, succ_IZR. split; lra.
Qed.
Lemma sum_step n : (Z.of_nat n <= 1000000)%Z -> float_sum wt n < float_sum wt (S n).
Proof.
  intro L. destruct (sum_grows n L) as [I1 I2]. cbn [float_sum].
  change (nearest (float_sum wt n + wt n)) with (fl (float_sum wt n + wt n)).
  assert (R := Hrange n). assert (E := fl_err (float_sum wt n + wt n)). rewrite (Rabs_right (float_sum wt n + wt n)) in E by lra. apply Rabs_le_inv in E.
  assert (B : IZR (Z.of_nat n) <= 1000000) by (apply IZR_le; lia). lra.
Qed.
Lemma sum_lt b a : (a < b)%nat -> (Z.of_nat b <= 1000000)%Z -> float_sum wt a < float_sum wt b.
Proof.
  intros L. induction L as [|b L IH]; intro B; [apply sum_step; lia|].
  apply Rlt_trans with (float_sum wt b); [apply IH; lia|apply sum_step; lia].
Qed.
Lemma disc_f_first : exists disc, disc_nights_f nights flags window nlink wt = Ok disc /\
  (forall d, hd_error disc = Some d <-> first_with q d) /\ (forall d, q d -> disc <> []).
Proof.
  rewrite disc_keep. eexists. split; [reflexivity|].
  set (s := fun d => code (wsum_f d)).
  assert (QI : forall d, In d ql <-> q d) by apply quals_in_f.
  assert (QS : StronglySorted Z.lt ql) by apply quals_sorted.
  assert (K := keep_spec q s ql QS QI).
  assert (S : StronglySorted Z.lt (keep s 0 ql)) by (eapply subseq_ssorted; [apply keep_subseq|auto]).
  assert (F : forall d, first_with q d -> In d (keep s 0 ql)).
  { intros d Hd. apply K. left; split; auto.
    assert (B := nonempty_f d (proj1 Hd)). assert (CB := bound_f d).
    assert (P := sum_lt _ _ B ltac:(lia)). intro C. unfold s in C. rewrite <- code_0 in C. apply code_inj in C; [|apply Fsum|apply float_0].
    unfold wsum_f in C. apply (proj1 (fl_zero _ _ (sum_float _) (sum_float _))) in C. lra. }
  assert (HQ : forall d, In d (keep s 0 ql) -> q d).
  { intros d Hd. apply QI. eapply subseq_in; [apply keep_subseq|eauto]. }
  assert (X : forall e, q e -> exists f, first_with q f).
  { intros e Qe. assert (Iq := proj2 (QI e) Qe). destruct ql as [|y ys] eqn:Eq; [destruct Iq|].
    exists y. eapply sorted_split_first with (D := y :: ys); eauto. }
  split.
  2:{ intros e Qe C. destruct (X e Qe) as (f & Hf). apply F in Hf. rewrite C in Hf. destruct Hf. }
  intro d. split.
  - intro H. destruct (keep s 0 ql) as [|x l] eqn:E; [discriminate|]. inversion H; subst x.
    split; [apply HQ; left; auto|]. intros e He Qe.
    destruct (X e Qe) as (f & Hf). assert (If := F f Hf).
    assert (f <= e)%Z. { destruct (Z.le_gt_cases f e); auto. exfalso. exact (proj2 Hf e ltac:(lia) Qe). }
    inversion S as [|? ? S1 S2]; subst. rewrite Forall_forall in S2.
    destruct If as [->|If]; [lia|]. specialize (S2 _ If). lia.
  - intro Hd. assert (I := F d Hd). destruct (keep s 0 ql) as [|x l]; [destruct I|].
    destruct I as [->|I]; auto. exfalso.
    inversion S as [|? ? S1 S2]; subst. rewrite Forall_forall in S2. specialize (S2 _ I).
    apply (proj2 Hd x); auto. apply HQ. left; auto.
Qed.
End Sums.

(** ** The filter *)

Lemma Q2R_int n : Q2R (inject_Z n) = IZR n.
Proof. unfold Q2R, inject_Z. cbn. field. Qed.
Lemma qltb_R a b : qltb a b = true <-> Q2R a < Q2R b.
Proof. rewrite qltb_lt. split; [apply Qlt_Rlt|apply Rlt_Qlt]. Qed.
Lemma bool_iff (a b : bool) : (a = true <-> b = true) -> a = b.
Proof. destruct a, b; intros [H1 H2]; auto; symmetry; auto. Qed.
Lemma clear_R limit x : clear_of limit x -> Q2R x < Q2R limit * (1 - / 1125899906842624) \/ Q2R limit * (1 + / 1125899906842624) < Q2R x.
Proof.
  assert (D : Q2R (1 # 1125899906842624) = / 1125899906842624) by (unfold Q2R; cbn; field).
  assert (O : Q2R 1 = 1) by (unfold Q2R; cbn; field).
  intros [H|H]; apply Qlt_Rlt in H; rewrite Q2R_mult in H; [rewrite Q2R_minus in H|rewrite Q2R_plus in H]; rewrite D, O in H; auto.
Qed.
Lemma clear_phase_R x : clear_phase x -> forall n, (Q2R x < IZR n + 99 / 1000 \/ IZR n + 101 / 1000 < Q2R x)
  /\ (Q2R x < IZR n + 899 / 1000 \/ IZR n + 901 / 1000 < Q2R x).
Proof.
  intros C n. destruct (C n) as [C1 C2].
  assert (D1 : Q2R (99 # 1000) = 99 / 1000) by reflexivity. assert (D2 : Q2R (101 # 1000) = 101 / 1000) by reflexivity.
  assert (D3 : Q2R (899 # 1000) = 899 / 1000) by reflexivity. assert (D4 : Q2R (901 # 1000) = 901 / 1000) by reflexivity.
  split; [destruct C1 as [H|H]|destruct C2 as [H|H]]; apply Qlt_Rlt in H;
    rewrite Q2R_plus, Q2R_int in H; rewrite ?D1, ?D2, ?D3, ?D4 in H; auto.
Qed.

Section Same.
Context {A : Type}.
Variables (oid : A -> string) (src : A -> Z) (tm : A -> Q) (ra : A -> num) (sep : A -> A -> num)
  (tsort : list A -> list A) (draws : list num -> nat -> num) (osort : list (@lrow A) -> list (@lrow A)) (s : settings) (all : list A).
Definition exact (s : settings) : linkcfg :=
  {| c_maxdt_minutes := s_time s * 24 * 60; c_minlen_arcsec := s_separation s; c_min_obs := s_min_obs s;
     c_window := s_window s; c_nlink := s_nlink s; c_p := s_p s; c_night_start := s_night_start s / 24 |}%Q.
Hypothesis Ht : (1 # 10000000000 <= s_time s)%Q.
Hypothesis Hs : (1 # 10000000000 <= s_separation s)%Q.
Hypothesis Hn : (- (1000000000) <= s_night_start s <= 1000000000)%Q.
Hypothesis Htm : forall r, In r all -> float (tm r) /\ (- (1000000000) <= tm r <= 1000000000)%Q.
Hypothesis Hph : forall r, In r all -> clear_phase (tm r - s_night_start s / 24).
Hypothesis Hgap : forall r r', In r all -> In r' all -> oid r = oid r' -> clear_of (s_time s) (tm r - tm r').
Hypothesis Hsep : forall r r' q, In r all -> In r' all -> oid r = oid r' -> (0 < tm r - tm r' < s_time s)%Q -> sep r r' = Fin q -> clear_of (s_separation s / 3600) q.
Hypothesis Hts : forall l, Permutation (tsort l) l.

Lemma low_R q : (1 # 10000000000 <= q)%Q -> / 10000000000 <= Q2R q.
Proof. intro H. apply Qle_Rle in H. replace (/ 10000000000) with (Q2R (1 # 10000000000)) by (unfold Q2R; cbn; field). auto. Qed.
Lemma wide_R q : (- (1000000000) <= q <= 1000000000)%Q -> Rabs (Q2R q) <= 1000000000.
Proof.
  intros [H1 H2]. apply Qle_Rle in H1. apply Qle_Rle in H2.
  replace (Q2R 1000000000) with 1000000000 in H2 by (unfold Q2R; cbn; field).
  replace (Q2R (- (1000000000))) with (- 1000000000) in H1 by (unfold Q2R; cbn; field). apply Rabs_le. lra.
Qed.
Lemma Q2R_24 : Q2R (s_night_start s / 24) = Q2R (s_night_start s) / 24.
Proof. rewrite Q2R_div by discriminate. replace (Q2R 24) with 24 by (unfold Q2R; cbn; field). reflexivity. Qed.

Lemma shift_R r : Q2R (tm r - s_night_start s / 24) = Q2R (tm r) - Q2R (s_night_start s) / 24.
Proof. rewrite Q2R_minus, Q2R_24. reflexivity. Qed.
Lemma near_shift r : In r all -> Rabs (tshift tm s r - Q2R (tm r - s_night_start s / 24)) <= / 10000.
Proof. intro I. rewrite shift_R. apply shift_near; apply wide_R; auto. apply Htm; auto. Qed.
Lemma phase_accepted r : phase_ok_f tm s r = accepted (tshift tm s r).
Proof. reflexivity. Qed.
Lemma phase_same r : In r all -> phase_ok_f tm s r = phase_ok tm (s_night_start s / 24) r.
Proof.
  intro I. apply bool_iff. rewrite phase_accepted.
  rewrite (accepted_exact _ _ (near_shift r I)) by (apply clear_phase_R; auto).
  unfold phase_ok, night_of. rewrite qtrunc_Ztrunc, andb_true_iff, !qltb_R. rewrite (Q2R_minus _ (inject_Z _)), Q2R_int.
  replace (Q2R (1 # 10)) with (1 / 10) by reflexivity. replace (Q2R (9 # 10)) with (9 / 10) by reflexivity. reflexivity.
Qed.
Lemma night_same r : In r all -> phase_ok_f tm s r = true -> night_of_f tm s r = night_of tm (s_night_start s / 24) r.
Proof.
  intros I H. unfold night_of_f, night_of. rewrite qtrunc_Ztrunc. apply accepted_same; auto. apply near_shift; auto.
Qed.

Definition family (l : list A) : Prop := incl l all /\ forall a b, In a l -> In b l -> oid a = oid b.
Lemma family_incl l l' : incl l' l -> family l -> family l'.
Proof. intros I [F G]. split; [intros x H; apply F, I, H|intros a b H H'; apply G; apply I; auto]. Qed.
Lemma pair_same l i j : family l ->
  pair_ok_f tm sep s l i j = pair_ok tm sep (s_time s * 24 * 60 / (60 * 24)) (s_separation s / 3600) (s_min_obs s) l i j.
Proof.
  intros [I F]. unfold pair_ok_f, pair_ok. destruct (nth_error l i) as [a|] eqn:E1; auto. destruct (nth_error l j) as [b|] eqn:E2; auto.
  assert (SO : oid a = oid b) by (apply F; eapply nth_error_In; eauto).
  apply nth_error_In, I in E1. apply nth_error_In, I in E2.
  assert (X1 : rltb 0 (fl (Q2R (tm a) - Q2R (tm b))) = qltb 0 (tm a - tm b)).
  { apply bool_iff. rewrite rltb_lt, qltb_R, fl_pos by (apply Htm; auto). rewrite Q2R_minus. replace (Q2R 0) with 0 by (unfold Q2R; cbn; field). tauto. }
  assert (E : Q2R (s_time s * 24 * 60 / (60 * 24)) = Q2R (s_time s)) by (apply Qeq_eqR; field).
  assert (X2 : rltb (fl (Q2R (tm a) - Q2R (tm b))) (maxdt s) = qltb (tm a - tm b) (s_time s * 24 * 60 / (60 * 24))).
  { apply bool_iff. rewrite rltb_lt, qltb_R. rewrite <- Q2R_minus. unfold maxdt, maxdt_minutes. rewrite E.
    apply gap_compare; [apply low_R; auto|apply limit_near, low_R; auto|apply clear_R; auto]. }
  rewrite X1, X2. destruct (qltb 0 (tm a - tm b)) eqn:G1; auto. destruct (qltb (tm a - tm b) _) eqn:G2; auto. cbn [andb]. f_equal.
  destruct (sep a b) as [| |q|] eqn:S; auto. cbn. apply bool_iff. rewrite rltb_lt, qltb_R.
  assert (W : (0 < tm a - tm b < s_time s)%Q). { rewrite qltb_R in G1, G2. rewrite E in G2. split; apply Rlt_Qlt; auto. }
  assert (C := clear_R _ _ (Hsep a b q E1 E2 SO W S)).
  assert (EQ : Q2R (s_separation s / 3600) = Q2R (s_separation s) / 3600).
  { rewrite Q2R_div by discriminate. replace (Q2R 3600) with 3600 by (unfold Q2R; cbn; field). reflexivity. }
  rewrite EQ in *. apply sep_compare; [apply low_R; auto|apply minlen_near, low_R; auto|auto].
Qed.
Lemma existsb_same {B} (f g : B -> bool) l : (forall x, f x = g x) -> existsb f l = existsb g l.
Proof. intro E. induction l as [|x l IH]; cbn; auto. rewrite E, IH. auto. Qed.
Lemma tracklet_same l : family l ->
  hasTracklet_f tm sep s l = hasTracklet tm sep (s_time s * 24 * 60) (s_separation s) (s_min_obs s) l.
Proof.
  intro I. unfold hasTracklet_f, hasTracklet. destruct (Z.of_nat (length l) <? s_min_obs s)%Z; auto. destruct (negb _); auto.
  destruct (s_min_obs s =? 1)%Z; auto. f_equal. apply existsb_same. intro i. apply existsb_same. intro j. apply pair_same; auto.
Qed.
Lemma slice_incl {B} b e (l : list B) : incl (slice b e l) l.
Proof.
  intros x H. unfold slice in H. rewrite <- (firstn_skipn e l). apply in_or_app. left.
  rewrite <- (firstn_skipn b (firstn e l)). apply in_or_app. auto.
Qed.
Lemma loop_same l : family l -> forall ends b,
  night_loop (hasTracklet_f tm sep s) l b ends
  = night_loop (hasTracklet tm sep (s_time s * 24 * 60) (s_separation s) (s_min_obs s)) l b ends.
Proof.
  intros I ends. induction ends as [|e ends IH]; intro b; cbn; auto. rewrite tracklet_same, IH; auto.
  apply (family_incl l); [apply slice_incl|exact I].
Qed.
Lemma night_loop_length (test : list A -> result bool) l : forall ends b h, night_loop test l b ends = Ok h -> length h = length ends.
Proof.
  induction ends as [|e ends IH]; intros b h H; cbn in H; [inversion H; auto|].
  destruct (test _) as [x|]; [|discriminate]. cbn in H. destruct (night_loop test l e ends) as [y|] eqn:E; [|discriminate].
  cbn in H. inversion H. cbn. f_equal. eapply IH; eauto.
Qed.
Definition pick (d : list Z) (g : list num) : option Z :=
  match first_success (s_p s) (draws g) 0 (length d) with None => None | Some ix => nth_error d ix end.
(** The two computations of discovery nights lead to the same first success. *)
Definition agree (n : nat) (wt : nat -> R) (wi : nat -> Z) : Prop := forall nights flags,
  StronglySorted Z.lt nights -> length flags = length nights -> nights <> [] -> (length nights <= n)%nat ->
  exists df de, disc_nights_f nights flags (s_window s) (s_nlink s) wt = Ok df
    /\ disc_nights nights flags (s_window s) (s_nlink s) wi = Ok de /\ forall g, pick df g = pick de g.
Lemma object_same wt wi l : family l -> (length l <= length all)%nat -> agree (length all) wt wi ->
  rmap fst (linkObject_f src tm ra sep tsort draws s wt l) = rmap fst (linkObject src tm ra sep tsort draws (exact s) wi l).
Proof.
  intros I Ll Ag. unfold linkObject_f, linkObject. destruct l as [|x l]; auto. set (l0 := x :: l) in *.
  assert (JF : family (tsort l0)) by (apply (family_incl l0); [intros y H; eapply Permutation_in; [apply Hts|auto]|exact I]).
  assert (J : incl (tsort l0) all) by apply JF.
  assert (Ep : forallb (phase_ok_f tm s) (tsort l0) = forallb (phase_ok tm (c_night_start (exact s))) (tsort l0)).
  { clear - J Hn Htm Hph. induction (tsort l0) as [|a l1 IH]; cbn; auto. rewrite IH, phase_same; auto; [apply J; left; auto|]. intros y H. apply J. right; auto. }
  rewrite <- Ep. destruct (forallb (phase_ok_f tm s) (tsort l0)) eqn:F; auto. cbn [negb].
  assert (En : map (night_of_f tm s) (tsort l0) = map (night_of tm (c_night_start (exact s))) (tsort l0)).
  { apply map_ext_in. intros a H. apply night_same; auto. rewrite forallb_forall in F. auto. }
  rewrite En. unfold trackletsInNights_f, trackletsInNights. rewrite loop_same by auto. cbn [exact c_maxdt_minutes c_minlen_arcsec c_min_obs c_window c_nlink c_p c_night_start].
  set (night := map (night_of tm (s_night_start s / 24)) (tsort l0)).
  destruct (night_loop _ (tsort l0) 0 _) as [h|e] eqn:El; auto. cbn [rbind fst snd].
  apply night_loop_length in El. rewrite map_length in El.
  assert (Ln : length night = length l0) by (unfold night; rewrite map_length; apply Permutation_length, Hts).
  destruct (Ag (unique night) h) as (df & de & E1 & E2 & E3); auto.
  { apply unique_sorted. }
  { intro C. assert (P : In (hd 0%Z night) (unique night)).
    { apply unique_in. destruct night; [cbn in Ln; discriminate|left; auto]. }
    rewrite C in P. destruct P. }
  { apply Nat.le_trans with (length night); [|lia]. apply NoDup_incl_length; [apply ssorted_NoDup, unique_sorted|]. intros y Y. apply unique_in; auto. }
  unfold discoveryOpportunities_f, discoveryOpportunities. rewrite E1, E2. cbn [rbind fst snd].
  specialize (E3 (map ra (tsort l0))). unfold pick in E3.
  assert (P1 := first_success_spec (s_p s) (draws (map ra (tsort l0))) (length df) 0).
  assert (P2 := first_success_spec (s_p s) (draws (map ra (tsort l0))) (length de) 0).
  destruct (first_success _ _ 0 (length df)) as [i1|]; destruct (first_success _ _ 0 (length de)) as [i2|]; auto.
  - rewrite <- E3. destruct (nth_error df i1) as [date|]; auto. destruct (argmin _) as [k|]; auto. cbn [rbind].
    destruct (nth_error (tsort l0) _) as [o|]; auto. destruct (nth_error night _) as [n|]; auto. destruct (date <? n + s_window s)%Z; auto.
  - exfalso. assert (C := proj2 (nth_error_Some df i1)). rewrite E3 in C. apply C; [lia|auto].
  - exfalso. assert (C := proj2 (nth_error_Some de i2)). rewrite <- E3 in C. apply C; [lia|auto].
Qed.
Definition brief (x : string * (Z * option Z * nat)) : string * (Z * option Z) := (fst x, fst (snd x)).
Lemma link_loop_same wts wis gs : (forall g, In g gs -> family (snd g) /\ (length (snd g) <= length all)%nat) ->
  (forall k, agree (length all) (wts k) (wis k)) -> forall k,
  rmap (map brief) (link_loop_f src tm ra sep tsort draws s wts k gs) = rmap (map brief) (link_loop src tm ra sep tsort draws (exact s) wis k gs).
Proof.
  intros I Ag. induction gs as [|[i g] gs IH]; intro k; cbn [link_loop_f link_loop]; auto.
  destruct (I (i, g) (or_introl eq_refl)) as [I1 I2]. assert (E := object_same (wts k) (wis k) g I1 I2 (Ag k)).
  specialize (IH (fun h H => I h (or_intror H)) (S k)).
  destruct (linkObject_f _ _ _ _ _ _ _ _ _) as [v|], (linkObject _ _ _ _ _ _ _ _ _) as [v'|]; cbn in E; try discriminate; [|inversion E; auto].
  cbn [rbind]. destruct (link_loop_f _ _ _ _ _ _ _ _ _ _) as [r|], (link_loop _ _ _ _ _ _ _ _ _ _) as [r'|]; cbn in IH; try discriminate; [|inversion IH; auto].
  cbn. inversion E. inversion IH. unfold brief at 1 3. cbn. f_equal. f_equal; auto. f_equal. auto.
Qed.
Lemma runs_incl l : forall g, In g (runs oid l) -> incl (snd g) l.
Proof.
  induction l as [|r l IH]; cbn; [tauto|]. intros g. destruct (runs oid l) as [|[i h] gs].
  - intros [<-|[]]. intros y [->|[]]. left; auto.
  - destruct (String.eqb (oid r) i).
    + intros [<-|H]; intros y Y; [destruct Y as [->|Y]; [left; auto|right; apply (IH (i, h)); auto; left; auto]|].
      right. apply (IH g); auto. right; auto.
    + intros [<-|H]; intros y Y; [destruct Y as [->|[]]; left; auto|]. right. apply (IH g); auto.
Qed.
Lemma runs_oid l : forall g r, In g (runs oid l) -> In r (snd g) -> oid r = fst g.
Proof.
  induction l as [|x l IH]; cbn; [tauto|]. intros g r. destruct (runs oid l) as [|[i h] gs].
  - intros [<-|[]] [->|[]]. reflexivity.
  - destruct (String.eqb (oid x) i) eqn:E.
    + apply String.eqb_eq in E. intros [<-|H] K; [|apply (IH g); [right; exact H|exact K]]. destruct K as [->|K]; [exact E|]. apply (IH (i, h)); [left; reflexivity|exact K].
    + intros [<-|H] K; [destruct K as [->|[]]; reflexivity|]. apply (IH g); [exact H|exact K].
Qed.
Lemma insert_id_in r l : forall y, In y (insert_id oid r l) -> y = r \/ In y l.
Proof.
  induction l as [|x l IH]; cbn; intros y H; [intuition|]. destruct (String.leb (oid r) (oid x)); cbn in H; [intuition|].
  destruct H as [->|H]; auto. apply IH in H. intuition.
Qed.
Lemma sort_ids_incl l : incl (sort_ids oid l) l.
Proof.
  induction l as [|r l IH]; cbn; intros y H; auto. apply insert_id_in in H as [->|H]; [left|right]; auto.
Qed.
Lemma insert_length r l : length (insert_id oid r l) = S (length l).
Proof. induction l as [|x l IH]; cbn; auto. destruct (String.leb (oid r) (oid x)); cbn; auto. Qed.
Lemma sort_ids_length l : length (sort_ids oid l) = length l.
Proof. unfold sort_ids. induction l as [|r l IH]; cbn; auto. rewrite insert_length, IH. auto. Qed.
Lemma runs_length l : forall g, In g (runs oid l) -> (length (snd g) <= length l)%nat.
Proof.
  induction l as [|r l IH]; cbn [runs]; [cbn; tauto|]. intros g. destruct (runs oid l) as [|[i h] gs].
  - intros [<-|[]]. cbn. lia.
  - destruct (String.eqb (oid r) i).
    + intros [<-|H]; cbn; [specialize (IH (i, h) (or_introl eq_refl)); cbn in IH; lia|]. specialize (IH g (or_intror H)). lia.
    + intros [<-|H]; cbn; [lia|]. specialize (IH g H). lia.
Qed.
Lemma filter_same wts wis drop : (forall k, agree (length all) (wts k) (wis k)) ->
  PPLinkingFilter_f oid src tm ra sep tsort draws s osort wts drop all
  = PPLinkingFilter oid src tm ra sep tsort draws osort (exact s) wis drop all.
Proof.
  intro Ag. unfold PPLinkingFilter_f, PPLinkingFilter. destruct all as [|x l] eqn:E; auto. rewrite <- E in *.
  unfold linkObservations_f, linkObservations.
  assert (B := link_loop_same wts wis (runs oid (sort_ids oid all))). 
  assert (P : forall g, In g (runs oid (sort_ids oid all)) -> family (snd g) /\ (length (snd g) <= length all)%nat).
  { intros g H. split; [split; [intros y Y; apply sort_ids_incl; eapply runs_incl; eauto|intros a b Ha Hb; rewrite (runs_oid _ _ _ H Ha), (runs_oid _ _ _ H Hb); reflexivity]|]. apply runs_length in H. rewrite sort_ids_length in H. auto. }
  specialize (B P Ag 0%nat).
  destruct (link_loop_f _ _ _ _ _ _ _ _ _ _) as [r|], (link_loop _ _ _ _ _ _ _ _ _ _) as [r'|]; cbn in B; try discriminate; [|inversion B; auto].
  assert (M : map brief r = map brief r') by (inversion B; auto). cbn [rbind]. f_equal. f_equal.
  assert (F : forall o : list (string * (Z * option Z * nat)), map fst (filter (fun o => is_some (snd (fst (snd o)))) o)
     = map fst (filter (fun b => is_some (snd (snd b))) (map brief o))).
  { clear. induction o as [|[i [[a b] n]] o IH]; cbn; auto. destruct b; cbn; rewrite IH; auto. }
  rewrite (F r), (F r'), M. set (found := map fst (filter _ (map brief r'))).
  apply flat_map_ext. intro r0.
  assert (G : forall (o : list (string * (Z * option Z * nat))) (b : bool), map (fun o : string * (Z * option Z * nat) => (r0, b, snd (fst (snd o)))) (filter (fun o => String.eqb (oid r0) (fst o)) o)
     = map (fun x : string * (Z * option Z) => (r0, b, snd (snd x))) (filter (fun x => String.eqb (oid r0) (fst x)) (map brief o))).
  { intros o b. induction o as [|[i [[a c] n]] o IH]; cbn; auto. destruct (String.eqb (oid r0) i); cbn; rewrite IH; auto. }
  rewrite (G r), (G r'), M. auto.
Qed.
End Same.

Lemma agree_one draws s n wt wi : (1 <= s_window s)%Z -> (1 <= s_nlink s)%Z -> s_p s = Fin 1 -> (forall g i, num_lt (draws g i) (Fin 1)) ->
  (forall k, / 1000000000 <= wt k <= 1) -> (Z.of_nat n <= 1000000)%Z -> (forall k, 0 < wi k)%Z -> agree draws s n wt wi.
Proof.
  intros Hw Hn Hp Hd Hr Hm Hi nights flags Hs Hl Hne Ln.
  assert (P : forall d d', hd_error d = hd_error d' -> forall g, pick draws s d g = pick draws s d' g).
  { intros d d' E g. assert (X : forall d, pick draws s d g = hd_error d); [|rewrite !X; auto].
    intros [|x d0]; [reflexivity|]. unfold pick. rewrite first_success_now; [reflexivity| |cbn; lia]. rewrite Hp. apply nltb_lt; auto. }
  destruct (Z.eq_dec (s_nlink s) 1) as [E1|E1].
  - unfold disc_nights_f, disc_nights. rewrite E1. change (1 <? 1)%Z with false. cbv iota. eexists _, _. repeat split; auto.
  - destruct (disc_f_first wt nights flags (s_window s) (s_nlink s) Hs Hl Hw ltac:(lia) Hne Hr ltac:(lia)) as (df & D1 & F1 & G1).
    destruct (disc_first nights flags (s_window s) (s_nlink s) wi Hs Hl Hw ltac:(lia) Hne Hi) as (de & D2 & F2 & G2).
    exists df, de. split; auto. split; auto. apply P. fold (qual nights flags (s_window s) (s_nlink s)) in F1.
    destruct (hd_error df) as [d|] eqn:H1.
    + symmetry. apply F2. unfold qual. apply F1. auto.
    + destruct (hd_error de) as [d|] eqn:H2; auto. exfalso. assert (X := proj1 (F2 d) eq_refl). apply (proj2 (F1 d)) in X. discriminate.
Qed.
Lemma agree_telling draws s n wt wi : (1 <= s_window s)%Z -> (1 <= s_nlink s)%Z -> telling wt n -> generic wi n -> agree draws s n wt wi.
Proof.
  intros Hw Hn Ht Hg nights flags Hs Hl Hne Ln.
  destruct (Z.eq_dec (s_nlink s) 1) as [E1|E1].
  - unfold disc_nights_f, disc_nights. rewrite E1. change (1 <? 1)%Z with false. cbv iota. eexists _, _. repeat split; auto.
  - assert (T1 : telling wt (length nights)) by (intros a b c d X Y; apply Ht; lia).
    assert (T2 : generic wi (length nights)) by (intros a b c d X Y; apply Hg; lia).
    destruct (disc_f_exact wt nights flags (s_window s) (s_nlink s) Hs Hl Hw ltac:(lia) Hne T1) as (df & D1 & S1 & F1).
    destruct (disc_exact nights flags (s_window s) (s_nlink s) wi Hs Hl Hw ltac:(lia) Hne T2) as (de & D2 & S2 & F2).
    exists df, de. split; auto. split; auto. intro g. assert (E : df = de).
    { apply sorted_same_members; auto. intro x. rewrite F1, F2. reflexivity. }
    rewrite E. auto.
Qed.
Lemma dark_clear x : dark x -> clear_phase x.
Proof.
  intros (n & Hn & L & U) m. apply Qlt_Rlt in L. apply Qlt_Rlt in U. rewrite Q2R_plus, Q2R_int in L, U.
  assert (D1 : Q2R (101 # 1000) = 101 / 1000) by reflexivity. assert (D2 : Q2R (899 # 1000) = 899 / 1000) by reflexivity.
  assert (D3 : Q2R (99 # 1000) = 99 / 1000) by reflexivity. assert (D4 : Q2R (901 # 1000) = 901 / 1000) by reflexivity.
  rewrite D1 in L. rewrite D2 in U.
  assert (C : (m < n \/ m = n \/ n < m)%Z) by lia.
  assert (K : forall a b, (a < b)%Z -> IZR a + 1 <= IZR b) by (intros a b H; rewrite <- plus_IZR; apply IZR_le; lia).
  split; [destruct C as [C|[->|C]]; [right|right|left]|destruct C as [C|[->|C]]; [right|left|left]]; apply Rlt_Qlt;
    rewrite Q2R_plus, Q2R_int, ?D1, ?D2, ?D3, ?D4; try (apply K in C); lra.
Qed.
Lemma dark_phased {A} (tm : A -> Q) start r : dark (tm r - start) -> well_phased tm start r.
Proof.
  intros (n & Hn & L & U). exists n. split; auto. split.
  - eapply Qlt_trans; [|exact L]. apply Qplus_lt_r. reflexivity.
  - eapply Qlt_trans; [exact U|]. apply Qplus_lt_r. reflexivity.
Qed.

Lemma C101_same_proof : forall A oid (src : A -> Z) (tm : A -> Q) (ra : A -> num) sep tsort draws osort s wts weights drop l,
  (forall l, Permutation (tsort l) l) -> (1 <= s_window s)%Z -> (1 <= s_nlink s)%Z ->
  margins oid tm sep (s_time s) (s_separation s) (s_night_start s) l ->
  (forall r, In r l -> clear_phase (tm r - s_night_start s / 24)) ->
  (forall k, telling (wts k) (length l)) -> (forall k, generic (weights k) (length l)) ->
  PPLinkingFilter_f oid src tm ra sep tsort draws s osort wts drop l
  = PPLinkingFilter oid src tm ra sep tsort draws osort
      {| c_maxdt_minutes := s_time s * 24 * 60; c_minlen_arcsec := s_separation s; c_min_obs := s_min_obs s;
         c_window := s_window s; c_nlink := s_nlink s; c_p := s_p s; c_night_start := s_night_start s / 24 |} weights drop l.
Proof.
  intros A oid src tm ra sep tsort draws osort s wts weights drop l Hts Hw Hn (M1 & M2 & M3 & M4 & M5 & M6) Hph Ht Hg.
  apply (filter_same oid src tm ra sep tsort draws osort s l); auto. intro k. apply agree_telling; auto.
Qed.
Lemma C101_linked_proof : forall A oid (src : A -> Z) (tm : A -> Q) (ra : A -> num) sep tsort draws, sorter tm tsort ->
  forall osort, sorter (fun x : A * bool * option Z => tm (fst (fst x))) osort ->
  forall s wts drop l,
  (1 <= s_window s)%Z -> (1 <= s_nlink s)%Z -> (1 <= s_min_obs s)%Z -> l <> [] ->
  margins oid tm sep (s_time s) (s_separation s) (s_night_start s) l ->
  (forall r, In r l -> dark (tm r - s_night_start s / 24)) ->
  s_p s = Fin 1 -> (forall g i, num_lt (draws g i) (Fin 1)) ->
  (forall k j, / 1000000000 <= wts k j <= 1) -> (Z.of_nat (length l) <= 1000000)%Z ->
  let q r := linkable tm sep (s_time s * 24 * 60) (s_separation s) (s_min_obs s) (s_window s) (s_nlink s)
             (s_night_start s / 24) (tsort (rows_of oid (oid r) l)) in
  exists out, PPLinkingFilter_f oid src tm ra sep tsort draws s osort wts drop l = Ok out /\
    (forall r b dt, In (r, b, dt) out -> In r l /\
       (b = true <-> exists d, q r d) /\ (forall d, dt = Some d <-> first_with (q r) d)) /\
    (forall r d, In r l -> q r d -> exists b dt, In (r, b, dt) out).
Proof.
  intros A oid src tm ra sep tsort draws Hts osort Hos s wts drop l Hw Hn Ho Hne (M1 & M2 & M3 & M4 & M5 & M6) Hph Hp Hd Hr Hm q.
  rewrite (filter_same oid src tm ra sep tsort draws osort s l M1 M2 M3 M4) with (wis := fun _ _ => 1%Z); auto.
  - apply (@C04_filter_proof A oid src tm ra sep tsort draws Hts osort Hos (exact s) (fun _ _ => 1%Z) drop l); auto; try lia.
    intros r I. apply dark_phased. apply Hph; auto.
  - intros r I. apply dark_clear. apply Hph; auto.
  - intro x. apply Hts.
  - intro k. apply agree_one; auto. lia.
Qed.
Lemma runs_cover {A} (oid : A -> string) l : forall r, In r l -> exists g, In g (runs oid l) /\ In r (snd g).
Proof.
  induction l as [|x l IH]; cbn; [tauto|]. intros r H. destruct (runs oid l) as [|[i h] gs] eqn:E.
  - destruct H as [->|H]; [exists (oid r, [r]); cbn; auto|]. destruct (IH r H) as (g & [] & _).
  - destruct (String.eqb (oid x) i); destruct H as [->|H].
    + exists (i, r :: h). cbn; auto.
    + destruct (IH r H) as (g & [<-|G] & K); [exists (i, x :: h)|exists g]; cbn; auto.
    + exists (oid r, [r]). cbn; auto.
    + destruct (IH r H) as (g & G & K). exists g. cbn; auto.
Qed.
Lemma C101_night_proof : forall A oid (src : A -> Z) (tm : A -> Q) (ra : A -> num) sep tsort draws osort s wts drop l out,
  (forall l, Permutation (tsort l) l) -> (- (1000000000) <= s_night_start s <= 1000000000)%Q ->
  (forall r, In r l -> (- (1000000000) <= tm r <= 1000000000)%Q) ->
  PPLinkingFilter_f oid src tm ra sep tsort draws s osort wts drop l = Ok out ->
  forall r, In r l -> exists n : Z, (0 <= n)%Z /\
    (inject_Z n + (999 # 10000) <= tm r - s_night_start s / 24 <= inject_Z n + (9001 # 10000))%Q.
Proof.
  intros A oid src tm ra sep tsort draws osort s wts drop l out Hts Hn Hr H r I. unfold PPLinkingFilter_f in H.
  destruct l as [|x l0] eqn:El; [destruct I|]. rewrite <- El in *. clear El x l0.
  destruct (linkObservations_f _ _ _ _ _ _ _ _ _ _) as [obj|] eqn:E; [|discriminate]. clear H. unfold linkObservations_f in E.
  destruct (runs_cover oid (sort_ids oid l) r) as (g & G1 & G2); [apply sort_in; auto|].
  assert (K : exists wt v, linkObject_f src tm ra sep tsort draws s wt (snd g) = Ok v).
  { revert E G1. generalize 0%nat. revert obj. induction (runs oid (sort_ids oid l)) as [|[i h] gs IH]; intros obj k E G; [destruct G|]; destruct G as [G|G]; cbn in E.
    - subst g. destruct (linkObject_f _ _ _ _ _ _ _ _ h) as [v|] eqn:L; [|discriminate]. eauto.
    - destruct (linkObject_f _ _ _ _ _ _ _ _ h) as [v|]; [|discriminate]. cbn in E.
      destruct (link_loop_f _ _ _ _ _ _ _ _ (S k) gs) as [v'|] eqn:L; [|discriminate]. eapply IH; eauto. }
  destruct K as (wt & v & K). unfold linkObject_f in K. destruct (snd g) as [|y h]; [destruct G2|]. set (l1 := y :: h) in *.
  destruct (forallb (phase_ok_f tm s) (tsort l1)) eqn:F; [|discriminate]. rewrite forallb_forall in F.
  assert (P : In r (tsort l1)) by (eapply Permutation_in; [apply Permutation_sym, Hts|auto]). apply F in P. rewrite phase_accepted in P.
  assert (W := shift_near (Q2R (tm r)) (Q2R (s_night_start s)) (wide_R _ (Hr r I)) (wide_R _ Hn)).
  change (fl (Q2R (tm r) - fl (Q2R (s_night_start s) / 24))) with (tshift tm s r) in W. rewrite <- shift_R in W.
  destruct (accepted_night _ _ W P) as [N [B1 B2]]. eexists. split; [exact N|].
  split; apply Rle_Qle; rewrite Q2R_plus, Q2R_int.
  - replace (Q2R (999 # 10000)) with (999 / 10000) by reflexivity. auto.
  - replace (Q2R (9001 # 10000)) with (9001 / 10000) by reflexivity. auto.
Qed.

(** The opportunities themselves. *)
Lemma C101_opportunities_proof : forall nights flags window nlink p wt draw,
  StronglySorted Z.lt nights -> length flags = length nights -> nights <> [] -> (1 <= window)%Z -> (2 <= nlink)%Z ->
  let T t := In (t, true) (combine nights flags) in
  let q := qualifies T window nlink in
  exists idx disc, discoveryOpportunities_f nights flags window nlink p wt draw = Ok (idx, disc) /\
    StronglySorted Z.lt disc /\
    (forall d, In d disc -> q d /\ forall d', previous q d d' -> ~ same_window T window d d') /\
    ((forall k, / 1000000000 <= wt k <= 1) -> (Z.of_nat (length nights) <= 1000000)%Z ->
      forall d, hd_error disc = Some d <-> first_with q d) /\
    (telling wt (length nights) -> forall d, In d disc <->
      first_with q d \/ (q d /\ exists d', previous q d d' /\ ~ same_window T window d d')).
Proof.
  intros nights flags window nlink p wt draw Hs Hl Hne Hw Hn T q.
  destruct (disc_f_sound wt nights flags window nlink Hs Hl Hw ltac:(lia) Hne) as (disc & E & S & Q).
  unfold discoveryOpportunities_f. rewrite E. eexists _, disc. split; [reflexivity|]. split; auto. split; auto. split.
  - intros R M. destruct (disc_f_first wt nights flags window nlink Hs Hl Hw ltac:(lia) Hne R M) as (d1 & E1 & F & _).
    rewrite E in E1. inversion E1. apply F.
  - intro Te. destruct (disc_f_exact wt nights flags window nlink Hs Hl Hw ltac:(lia) Hne Te) as (d1 & E1 & _ & F).
    rewrite E in E1. inversion E1. apply F.
Qed.

(** Powers of one half tell runs apart. *)
Lemma float_dyadic m e : (Z.abs m < 2 ^ 53)%Z -> (-1074 <= e)%Z -> generic_format radix2 fexp64 (IZR m * bpow radix2 e).
Proof.
  intros Hm He. apply generic_format_FLT. exists (Float radix2 m e); auto.
Qed.
Lemma halves_sum n : (n <= 50)%nat -> float_sum (fun k => bpow radix2 (- Z.of_nat (S k))) n = 1 - bpow radix2 (- Z.of_nat n).
Proof.
  induction n as [|n IH]; intro L; cbn [float_sum]; [cbn; lra|]. rewrite IH by lia.
  assert (E : bpow radix2 (- Z.of_nat n) = 2 * bpow radix2 (- Z.of_nat (S n))).
  { replace (- Z.of_nat n)%Z with (1 + - Z.of_nat (S n))%Z by lia. rewrite bpow_plus. auto. }
  replace (1 - bpow radix2 (- Z.of_nat n) + bpow radix2 (- Z.of_nat (S n))) with (1 - bpow radix2 (- Z.of_nat (S n))) by lra.
  apply fl_float. replace (1 - bpow radix2 (- Z.of_nat (S n))) with (IZR (2 ^ Z.of_nat (S n) - 1) * bpow radix2 (- Z.of_nat (S n))).
  - apply float_dyadic; [|lia]. assert (0 < 2 ^ Z.of_nat (S n))%Z by (apply Z.pow_pos_nonneg; lia).
    assert (2 ^ Z.of_nat (S n) <= 2 ^ 52)%Z by (apply Z.pow_le_mono_r; lia). assert (2 ^ 52 < 2 ^ 53)%Z by reflexivity. lia.
  - rewrite minus_IZR. change 2%Z with (radix_val radix2). rewrite (IZR_Zpower radix2) by lia. rewrite Rmult_minus_distr_r, <- bpow_plus.
    replace (Z.of_nat (S n) + - Z.of_nat (S n))%Z with 0%Z by lia. cbn. lra.
Qed.
Lemma halves_telling n : (n <= 50)%nat -> telling (fun k => bpow radix2 (- Z.of_nat (S k))) n.
Proof.
  intros Ln a b c d Hab Hcd.
  assert (D : forall a b, (a < b <= n)%nat -> nearest (float_sum (fun k => bpow radix2 (- Z.of_nat (S k))) b - float_sum (fun k => bpow radix2 (- Z.of_nat (S k))) a)
     = IZR (2 ^ Z.of_nat (50 - a) - 2 ^ Z.of_nat (50 - b)) * bpow radix2 (-50)).
  { intros u v L. rewrite !halves_sum by lia.
    assert (E : forall w, (w <= 50)%nat -> bpow radix2 (- Z.of_nat w) = IZR (2 ^ Z.of_nat (50 - w)) * bpow radix2 (-50)).
    { intros w Lw. change 2%Z with (radix_val radix2). rewrite (IZR_Zpower radix2) by lia. rewrite <- bpow_plus. f_equal. lia. }
    rewrite (E u), (E v) by lia. replace (1 - IZR (2 ^ Z.of_nat (50 - v)) * bpow radix2 (-50) - (1 - IZR (2 ^ Z.of_nat (50 - u)) * bpow radix2 (-50)))
      with (IZR (2 ^ Z.of_nat (50 - u) - 2 ^ Z.of_nat (50 - v)) * bpow radix2 (-50)) by (rewrite minus_IZR; ring).
    apply fl_float. apply float_dyadic; [|lia].
    assert (P : forall w, (0 < 2 ^ Z.of_nat (50 - w) <= 2 ^ 50)%Z).
    { intro w. split; [apply Z.pow_pos_nonneg; lia|apply Z.pow_le_mono_r; lia]. }
    assert (P1 := P u). assert (P2 := P v). assert (2 ^ 50 < 2 ^ 53)%Z by reflexivity. lia. }
  assert (B := bpow_gt_0 radix2 (-50)). rewrite (D a b), (D c d) by auto. split.
  - intro C. apply Rmult_integral in C as [C|C]; [|lra]. apply eq_IZR in C.
    assert (2 ^ Z.of_nat (50 - b) < 2 ^ Z.of_nat (50 - a))%Z by (apply Z.pow_lt_mono_r; lia). lia.
  - intro C. apply Rmult_eq_reg_r in C; [|lra]. apply eq_IZR in C.
    destruct (pow2_diff_inj (Z.of_nat (50 - b)) (Z.of_nat (50 - a)) (Z.of_nat (50 - d)) (Z.of_nat (50 - c))); lia.
Qed.
