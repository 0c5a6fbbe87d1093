From Coq Require Import Reals ZArith List Bool Lia Lra Psatz.
From Verif Require Import Base.Prelude Model.Sphere Model.Kepler Spec.Kepler Proofs.Kepler.
Import ListNotations.
Open Scope R_scope.

(** ** Bounded work *)

Lemma hloop_length F xacc m : forall st, (length (fst (hloop F xacc m st)) <= m)%nat.
Proof.
  induction m as [|m IH]; intros st; simpl; [lia|].
  destruct (next_guess st) as [[dx rts]|]; [|simpl; lia].
  destruct (small_step xacc dx rts) as [[]|]; try (simpl; lia).
  specialize (IH {| h_rts := rts; h_v := F rts;
     h_xl := if (if Rlt_dec (v_f (F rts)) 0 then true else false) then rts else h_xl st;
     h_xh := if (if Rlt_dec (v_f (F rts)) 0 then true else false) then h_xh st else rts;
     h_dx := dx; h_dxold := h_dx st |}).
  destruct (hloop F xacc m _) as [tr res]. simpl in *. lia.
Qed.

Lemma C42_bounded_proof : forall F xacc x1 x2 maxit,
  (length (fst (halley_safe F xacc x1 x2 maxit)) <= 3 + maxit)%nat.
Proof.
  intros F xacc x1 x2 maxit. unfold halley_safe.
  destruct (_ || _); [simpl; lia|].
  destruct (Req_EM_T _ 0); [simpl; lia|]. destruct (Req_EM_T _ 0); [simpl; lia|].
  match goal with |- context[hloop F xacc maxit ?s] => pose proof (hloop_length F xacc maxit s) as H;
    destruct (hloop F xacc maxit s) as [tr res] end.
  simpl in *. lia.
Qed.

(** ** Accuracy of a returned root *)

Section Accuracy.
Variable F : R -> value.
Variables m M B rho xacc : R.
Hypothesis Hm : 0 < m.
Hypothesis Hmono : forall x y, x <= y -> m * (y - x) <= v_f (F y) - v_f (F x).
Hypothesis Hrho : v_f (F rho) = 0.

Definition tame (x : R) : Prop := 0 < v_fp (F x) <= M /\ Rabs (v_fpp (F x)) <= B * v_fp (F x).

Lemma below x : v_f (F x) < 0 -> x < rho.
Proof.
  intros H. destruct (Rlt_dec x rho); auto. assert (L : rho <= x) by lra.
  pose proof (Hmono _ _ L). nra.
Qed.
Lemma above x : 0 <= v_f (F x) -> rho <= x.
Proof.
  intros H. destruct (Rle_dec rho x); auto. assert (L : x <= rho) by lra.
  pose proof (Hmono _ _ L). nra.
Qed.
Lemma near x : m * Rabs (x - rho) <= Rabs (v_f (F x)).
Proof.
  destruct (Rle_dec rho x) as [L|L].
  - pose proof (Hmono _ _ L). rewrite (Rabs_right (x - rho)) by lra.
    rewrite Rabs_right by nra. lra.
  - assert (L' : x <= rho) by lra. pose proof (Hmono _ _ L').
    rewrite (Rabs_left (x - rho)) by lra. rewrite Rabs_left by nra. lra.
Qed.

Definition good (st : hstate) : Prop :=
  h_v st = F (h_rts st) /\ v_f (F (h_xl st)) < 0 /\ 0 <= v_f (F (h_xh st)).

Lemma guess_error st dx r : good st -> tame (h_rts st) -> next_guess st = Ok (dx, r) ->
  0 <= B -> B * Rabs dx <= 1 -> 0 < M -> m <= M -> Rabs (r - rho) <= (1 + 2 * M / m) * Rabs dx.
Proof.
  intros (Ev & Hl & Hh) [[P1 P2] P3] E HB Hx HM HmM. unfold next_guess in E.
  apply below in Hl. apply above in Hh.
  assert (K : 0 <= 2 * M / m) by (apply Rmult_le_pos; [lra|apply Rlt_le, Rinv_0_lt_compat; lra]).
  destruct (must_bisect st).
  - assert (Ed : dx = 1 / 2 * (h_xh st - h_xl st) /\ r = h_xl st + 1 / 2 * (h_xh st - h_xl st)).
    { injection E as E1 E2. split; auto. }
    destruct Ed as [-> ->]. rewrite (Rabs_right (1/2 * _)) by lra.
    assert (A : Rabs (h_xl st + 1 / 2 * (h_xh st - h_xl st) - rho) <= 1/2 * (h_xh st - h_xl st)) by (apply Rabs_le; lra).
    nra.
  - unfold rbind in E. destruct (rdiv _ _) as [k|] eqn:E1; [|discriminate].
    destruct (rdiv (2 * _ * _) _) as [dx'|] eqn:E2; [|discriminate].
    assert (Ed : dx' = dx /\ h_rts st - dx' = r) by (injection E as A1 A2; auto).
    destruct Ed as [-> <-]. apply rdiv_ok in E2 as [D E2]. clear E1 E k.
    rewrite Ev in *. set (x := h_rts st) in *.
    set (f := v_f (F x)) in *. set (fp := v_fp (F x)) in *. set (fpp := v_fpp (F x)) in *.
    assert (Eq : f * (2 * fp + dx * fpp) = 2 * dx * (fp * fp)).
    { assert (dx * (2 * fp * fp - f * fpp) = 2 * f * fp) by (rewrite E2; field; auto).
      apply Rmult_eq_reg_r with 1; [|lra].
      (* multiply out *) nra. }
    assert (Eq' : f * (2 + dx * (fpp / fp)) = 2 * dx * fp).
    { apply Rmult_eq_reg_r with fp; [|lra]. replace (f * (2 + dx * (fpp / fp)) * fp) with (f * (2 * fp + dx * fpp)) by (field; lra). lra. }
    assert (Hq : Rabs (fpp / fp) <= B).
    { unfold Rdiv. rewrite Rabs_mult, (Rabs_right (/ fp)) by (apply Rle_ge, Rlt_le, Rinv_0_lt_compat; lra).
      apply Rmult_le_reg_r with fp; [lra|]. rewrite Rmult_assoc, Rinv_l by lra. lra. }
    assert (Hz : Rabs (dx * (fpp / fp)) <= 1).
    { rewrite Rabs_mult. apply Rle_trans with (Rabs dx * B); [apply Rmult_le_compat_l; auto using Rabs_pos|lra]. }
    assert (Hf : Rabs f <= 2 * Rabs dx * fp).
    { assert (E3 : Rabs f * Rabs (2 + dx * (fpp / fp)) = 2 * Rabs dx * fp).
      { rewrite <- Rabs_mult, Eq', !Rabs_mult. rewrite (Rabs_right 2), (Rabs_right fp) by lra. ring. }
      assert (1 <= Rabs (2 + dx * (fpp / fp))).
      { unfold Rabs in Hz. rewrite Rabs_right; destruct (Rcase_abs _); lra. }
      pose proof (Rabs_pos f). nra. }
    pose proof (near x) as N. fold f in N.
    assert (N' : Rabs (x - rho) <= 2 * M / m * Rabs dx).
    { apply Rmult_le_reg_l with m; auto. replace (m * (2 * M / m * Rabs dx)) with (2 * M * Rabs dx) by (field; lra).
      pose proof (Rabs_pos dx). nra. }
    replace (x - dx - rho) with ((x - rho) + - dx) by ring.
    eapply Rle_trans; [apply Rabs_triang|]. rewrite Rabs_Ropp. lra.
Qed.

Lemma small_step_true dx r : small_step xacc dx r = Ok true -> Rabs dx <= xacc * Rabs r.
Proof.
  unfold small_step, rbind. destruct (rdiv dx r) as [k|] eqn:E; [|discriminate].
  apply rdiv_ok in E as [Z ->]. destruct (Rlt_dec _ _) as [L|]; [intros _|discriminate].
  unfold Rdiv in L. rewrite Rabs_mult, Rabs_inv in L.
  pose proof (Rabs_pos_lt r Z). apply Rmult_le_reg_r with (/ Rabs r); [apply Rinv_0_lt_compat; auto|].
  rewrite Rmult_assoc, Rinv_r by lra. lra.
Qed.

Lemma hloop_accuracy n : forall st r d, good st -> tame (h_rts st) ->
  (forall x, In x (fst (hloop F xacc n st)) -> tame x) ->
  snd (hloop F xacc n st) = Ok (true, Some r, d) ->
  0 <= B -> B * (xacc * Rabs r) <= 1 -> 0 < M -> m <= M ->
  Rabs (r - rho) <= (1 + 2 * M / m) * (xacc * Rabs r).
Proof.
  induction n as [|n IH]; intros st r d G T A E HB Hx HM HmM; simpl in *.
  - discriminate.
  - destruct (next_guess st) as [[dx r']|] eqn:EN; [|discriminate].
    destruct (small_step xacc dx r') as [[]|] eqn:ES; [| |discriminate].
    + simpl in E. assert (r' = r) by congruence. subst r'. apply small_step_true in ES.
      assert (BB : B * Rabs dx <= 1) by nra.
      pose proof (guess_error st dx r G T EN HB BB HM HmM) as GE.
      eapply Rle_trans; [exact GE|]. apply Rmult_le_compat_l; auto.
      assert (0 <= 2 * M / m) by (apply Rmult_le_pos; [lra|apply Rlt_le, Rinv_0_lt_compat; lra]). lra.
    + set (st' := {| h_rts := r'; h_v := F r';
        h_xl := if (if Rlt_dec (v_f (F r')) 0 then true else false) then r' else h_xl st;
        h_xh := if (if Rlt_dec (v_f (F r')) 0 then true else false) then h_xh st else r';
        h_dx := dx; h_dxold := h_dx st |}) in *.
      specialize (IH st' r d).
      assert (ET : fst (let '(tr, res) := hloop F xacc n st' in (r' :: tr, res)) = r' :: fst (hloop F xacc n st'))
        by (destruct (hloop F xacc n st'); reflexivity).
      assert (ER : snd (let '(tr, res) := hloop F xacc n st' in (r' :: tr, res)) = snd (hloop F xacc n st'))
        by (destruct (hloop F xacc n st'); reflexivity).
      rewrite ET in A. rewrite ER in E.
      apply IH; auto.
      * destruct G as (_ & G1 & G2). unfold good, st'; simpl.
        destruct (Rlt_dec (v_f (F r')) 0); repeat split; auto; lra.
      * apply A. left; reflexivity.
      * intros x Hin. apply A. right; exact Hin.
Qed.
End Accuracy.

Lemma C42_accuracy_proof : forall F m M B rho xacc x1 x2 maxit r d,
  0 < m -> m <= M -> 0 <= B -> 0 <= xacc ->
  (forall x y, x <= y -> m * (y - x) <= v_f (F y) - v_f (F x)) ->
  v_f (F rho) = 0 ->
  (forall x, In x (fst (halley_safe F xacc x1 x2 maxit)) ->
     0 < v_fp (F x) <= M /\ Rabs (v_fpp (F x)) <= B * v_fp (F x)) ->
  snd (halley_safe F xacc x1 x2 maxit) = Ok (true, Some r, d) ->
  B * (xacc * Rabs r) <= 1 ->
  Rabs (r - rho) <= (1 + 2 * M / m) * (xacc * Rabs r).
Proof.
  intros F m M B rho xacc x1 x2 maxit r d Hm HmM HB Hxa Hmono Hrho A E HBx.
  assert (K : 0 <= 2 * M / m) by (apply Rmult_le_pos; [lra|apply Rlt_le, Rinv_0_lt_compat; lra]).
  assert (Exact : forall x, v_f (F x) = 0 -> Rabs (x - rho) <= (1 + 2 * M / m) * (xacc * Rabs x)).
  { intros x Hx. pose proof (near F m rho Hm Hmono Hrho x) as N. rewrite Hx, Rabs_R0 in N.
    pose proof (Rabs_pos (x - rho)). assert (Rabs (x - rho) <= 0) by nra.
    apply Rle_trans with 0; auto. pose proof (Rabs_pos x). apply Rmult_le_pos; [lra|nra]. }
  unfold halley_safe in *.
  destruct (_ || _) eqn:EO; [discriminate|].
  destruct (Req_EM_T (v_f (F x1)) 0) as [Z1|Z1].
  { simpl in E. assert (x1 = r) by congruence. subst. auto. }
  destruct (Req_EM_T (v_f (F x2)) 0) as [Z2|Z2].
  { simpl in E. assert (x2 = r) by congruence. subst. auto. }
  set (st := {| h_rts := 1 / 2 * (x1 + x2); h_v := F (1 / 2 * (x1 + x2)); h_xl := _; h_xh := _; h_dx := _; h_dxold := _ |}) in *.
  assert (ET : fst (let '(tr, res) := hloop F xacc maxit st in (x1 :: x2 :: 1 / 2 * (x1 + x2) :: tr, res))
     = x1 :: x2 :: 1 / 2 * (x1 + x2) :: fst (hloop F xacc maxit st)) by (destruct (hloop F xacc maxit st); reflexivity).
  assert (ER : snd (let '(tr, res) := hloop F xacc maxit st in (x1 :: x2 :: 1 / 2 * (x1 + x2) :: tr, res))
     = snd (hloop F xacc maxit st)) by (destruct (hloop F xacc maxit st); reflexivity).
  rewrite ET in A. rewrite ER in E.
  eapply (hloop_accuracy F m M B rho xacc Hm Hmono Hrho maxit st r d); auto; try lra.
  - unfold good, st; simpl. apply orb_false_iff in EO as [O1 O2].
    destruct (Rlt_dec (v_f (F x1)) 0); destruct (Rlt_dec (v_f (F x2)) 0);
      destruct (Rlt_dec 0 (v_f (F x1))); destruct (Rlt_dec 0 (v_f (F x2))); try discriminate;
      repeat split; try lra.
  - apply A. right; right; left. reflexivity.
  - intros x Hin. apply A. do 3 right. exact Hin.
Qed.

(** ** Steps that stay in the bracket *)

Lemma C42_step_inside_proof : forall st dx r,
  h_xl st <= h_rts st <= h_xh st \/ h_xh st <= h_rts st <= h_xl st ->
  v_f (h_v st) * v_fpp (h_v st) <= 0 ->
  next_guess st = Ok (dx, r) ->
  between (h_xl st) (h_xh st) r.
Proof.
  intros st dx r Hb Hc E. unfold next_guess in E. unfold between, Rmin, Rmax.
  destruct (must_bisect st) eqn:EB.
  - injection E as _ <-. destruct (Rle_dec _ _); lra.
  - unfold rbind in E. destruct (rdiv _ _) as [k|] eqn:E1; [|discriminate].
    destruct (rdiv (2 * _ * _) _) as [dx'|] eqn:E2; [|discriminate].
    assert (Ed : h_rts st - dx' = r) by (injection E as A1 A2; auto).
    subst r. clear E. apply rdiv_ok in E1 as [Z1 _]. apply rdiv_ok in E2 as [Z2 E2].
    unfold must_bisect in EB. apply orb_false_iff in EB as [EB _].
    destruct (Rlt_dec 0 _) as [|N]; [discriminate|]. clear EB.
    set (f := v_f (h_v st)) in *. set (fp := v_fp (h_v st)) in *. set (fpp := v_fpp (h_v st)) in *.
    set (x := h_rts st) in *. set (l := h_xl st) in *. set (h := h_xh st) in *.
    clearbody f fp fpp x l h.
    (* Newton step n = f/fp, dx' = n / (1 + c) with c >= 0 *)
    set (n := f / fp).
    assert (Ef : f = n * fp) by (unfold n; field; auto).
    assert (Hn : (x - h - n) * (x - l - n) <= 0).
    { assert (E3 : ((x - h) * fp - f) * ((x - l) * fp - f) = (fp * fp) * ((x - h - n) * (x - l - n))) by (rewrite Ef; ring).
      rewrite E3 in N. assert (0 < fp * fp) by nra. nra. }
    set (c := - (f * fpp) / (2 * fp * fp)).
    assert (Hc0 : 0 <= c).
    { unfold c. apply Rmult_le_pos; [lra|]. apply Rlt_le, Rinv_0_lt_compat. nra. }
    assert (Ed : dx' = n / (1 + c)).
    { rewrite E2. unfold c, n. field; repeat split; first [assumption | intros Z; apply Z2; lra]. }
    assert (Hk : 0 < / (1 + c) <= 1).
    { split; [apply Rinv_0_lt_compat; lra|]. rewrite <- Rinv_1. apply Rinv_le_contravar; lra. }
    unfold Rdiv in Ed. set (k' := / (1 + c)) in *. clearbody k' n. clear E2. subst dx'.
    assert (HN : (l <= x - n <= h) \/ (h <= x - n <= l)).
    { destruct (Rle_dec l (x - n)); destruct (Rle_dec (x - n) h); try (left; lra);
        right; split; try lra; destruct (Rle_dec h (x - n)); destruct (Rle_dec (x - n) l); try lra; exfalso; nra. }
    assert (Ex : x - n * k' = (1 - k') * x + k' * (x - n)) by ring.
    assert (C : forall a b u w, a <= u <= b -> a <= w <= b -> a <= (1 - k') * u + k' * w <= b) by (intros; nra).
    destruct (Rle_dec l h); rewrite Ex; apply C; lra.
Qed.

(** ** A Halley step that leaves the bracket *)

Lemma stumpff_0 : stumpff 0 = F4 1 1 (1/2) (1/6).
Proof.
  unfold stumpff. destruct (reduce _ 0 0) as [n y] eqn:E.
  assert (n = 0%nat /\ y = 0) as [-> ->].
  { destruct (Z.to_nat _); simpl in E; [injection E; auto|].
    rewrite Rabs_R0 in E. destruct (Rlt_dec (1/10) 0); [lra|]. injection E; auto. }
  simpl. unfold stumpff_small. f_equal; field.
Qed.

Lemma root_parabolic s mu q t :
  root_function s mu 0 q 0 t = FV (q * s + mu * s * s * s / 6 - t) (q + mu * s * s / 2) (mu * s).
Proof.
  unfold root_function. replace (0 * s * s) with 0 by ring. rewrite stumpff_0. simpl. f_equal; field.
Qed.

(** A parabolic comet with perihelion 3.9 au, 180 days after perihelion. *)
Definition gm_sun : R := 295912208 / 1000000000000.
Definition comet : R -> value := fun s => root_function s gm_sun 0 (39/10) 0 180.

Lemma comet_eq s : comet s =
  FV (39/10 * s + gm_sun * s * s * s / 6 - 180) (39/10 + gm_sun * s * s / 2) (gm_sun * s).
Proof. apply root_parabolic. Qed.

Lemma comet_bracket : bracket comet 2 (180/4) 0 (v_f (comet 0)) (0 + 180/4) (v_f (comet (0 + 180/4))) = Ok (45, 90).
Proof.
  replace (0 + 180/4) with 45 by lra. cbn [bracket].
  replace (45 + 180/4) with 90 by lra. rewrite !comet_eq. unfold gm_sun. simpl.
  destruct (Rlt_dec 0 _) as [H|H]; [|exfalso; apply H; lra].
  destruct (Rlt_dec 0 _) as [H'|H']; [exfalso; lra|]. reflexivity.
Qed.

Lemma rdiv_value a b : b <> 0 -> rdiv a b = Ok (a / b).
Proof. intros H. unfold rdiv. destruct (Req_EM_T b 0); [contradiction|reflexivity]. Qed.

(** The first guess after the midpoint. *)
Definition fm : R := 787342499793/8000000000.
Definition fpm : R := 91482499977/20000000000.
Definition fppm : R := 499351851/25000000000.
Lemma comet_mid : comet (1/2 * (45 + 90)) = FV fm fpm fppm.
Proof. rewrite comet_eq. unfold gm_sun, fm, fpm, fppm. f_equal; field. Qed.

Lemma mid_bounds : 98 < fm < 99 /\ 4 < fpm < 5 /\ 0 < fppm < 1/10.
Proof. unfold fm, fpm, fppm. lra. Qed.

Definition den : R := 2 * fpm * fpm - fm * fppm.
Definition num_ : R := 2 * fm * fpm.
Lemma den_bounds : 0 < den /\ 225/10 * den < num_ < 23 * den.
Proof. unfold den, num_, fm, fpm, fppm. repeat split; lra. Qed.

Lemma mid_keep : must_bisect {| h_rts := 1/2 * (45 + 90); h_v := FV fm fpm fppm; h_xl := 45; h_xh := 90;
    h_dx := Rabs (90 - 45); h_dxold := Rabs (90 - 45) |} = false.
Proof.
  unfold must_bisect. cbn [h_rts h_v h_xl h_xh h_dxold v_f v_fp v_fpp].
  destruct mid_bounds as ([A1 A2] & [B1 B2] & _).
  assert (N : fm < 45/2 * fpm) by (unfold fm, fpm; lra).
  generalize dependent fm. generalize dependent fpm. intros p B1 B2 f A1 A2 N.
  destruct (Rlt_dec 0 _) as [C|C].
  - exfalso. assert ((1/2 * (45 + 90) - 90) * p - f < 0) by lra. assert (0 < (1/2 * (45 + 90) - 45) * p - f) by lra. nra.
  - cbn [orb]. destruct (Rlt_dec _ _) as [C'|C']; [exfalso|reflexivity].
    rewrite (Rabs_right (90 - 45)) in C' by lra. rewrite !Rabs_right in C' by lra. lra.
Qed.

Lemma comet_first_step n99 :
  exists x tr res, halley_safe comet (1 / 100000000000000) 45 90 (S n99) = (45 :: 90 :: 1/2 * (45 + 90) :: x :: tr, res)
    /\ 44 < x < 45.
Proof.
  destruct den_bounds as (D0 & D1 & D2).
  assert (Q : 225/10 < num_ / den < 23).
  { split; apply Rmult_lt_reg_r with den; auto; replace (num_ / den * den) with num_ by (field; lra); lra. }
  exists (1/2 * (45 + 90) - num_ / den). unfold halley_safe.
  assert (L : v_f (comet 45) < 0) by (rewrite comet_eq; unfold gm_sun; cbn [v_f]; lra).
  assert (H : 0 < v_f (comet 90)) by (rewrite comet_eq; unfold gm_sun; cbn [v_f]; lra).
  destruct (Rlt_dec 0 (v_f (comet 45))); [lra|]. destruct (Rlt_dec (v_f (comet 45)) 0); [|lra].
  destruct (Rlt_dec (v_f (comet 90)) 0); [lra|]. cbn [orb]. cbv iota.
  destruct (Req_EM_T (v_f (comet 45)) 0); [lra|]. destruct (Req_EM_T (v_f (comet 90)) 0); [lra|].
  cbv zeta. rewrite comet_mid.
  cbn [hloop].
  unfold next_guess. rewrite mid_keep. cbn [h_rts h_v v_f v_fp v_fpp].
  fold den. fold num_.
  rewrite rdiv_value by (pose proof mid_bounds; lra). rewrite rdiv_value by lra. cbn [rbind].
  set (dx := num_ / den) in *. clearbody dx.
  assert (ES : small_step (1 / 100000000000000) dx (1/2 * (45 + 90) - dx) = Ok false).
  { unfold small_step. rewrite rdiv_value by lra. cbn [rbind].
    destruct (Rlt_dec _ _) as [C|C]; [exfalso|reflexivity].
    set (x := 1/2 * (45 + 90) - dx) in *. assert (Hx : 44 < x < 45) by (unfold x; lra).
    rewrite Rabs_right in C by (apply Rle_ge, Rmult_le_pos; [lra|apply Rlt_le, Rinv_0_lt_compat; lra]).
    assert (dx < 1 / 100000000000000 * x); [|lra].
    apply Rmult_lt_reg_r with (/ x); [apply Rinv_0_lt_compat; lra|]. rewrite Rmult_assoc, Rinv_r by lra. lra. }
  rewrite ES.
  match goal with |- context[hloop comet ?a n99 ?s] => destruct (hloop comet a n99 s) as [tr res] end.
  exists tr, res. split; [reflexivity|]. lra.
Qed.

Lemma C42_outside_refuted_proof :
  exists q t ds x1 x2, 0 < q /\ 0 < t /\ ds = t / 4 /\
    let F := fun s => root_function s gm_sun 0 q 0 t in
    bracket F 2 ds 0 (v_f (F 0)) (0 + ds) (v_f (F (0 + ds))) = Ok (x1, x2)
    /\ v_f (F x1) < 0 < v_f (F x2)
    /\ exists x, In x (fst (halley_safe F (1 / 100000000000000) x1 x2 100)) /\ ~ between x1 x2 x.
Proof.
  exists (39/10), 180, (180/4), 45, 90. split; [lra|]. split; [lra|]. split; [reflexivity|].
  cbv zeta. fold comet. split; [apply comet_bracket|]. split.
  { rewrite !comet_eq. unfold gm_sun. simpl. lra. }
  destruct (comet_first_step 99) as (x & tr & res & E & Hx). exists x. rewrite E. split.
  - simpl. auto.
  - unfold between. rewrite Rmin_left, Rmax_right by lra. lra.
Qed.
