(** The states of elliptic orbits solve Kepler's equation. *)
From Coq Require Import Reals ZArith List Bool Lia Lra Psatz.
From Verif Require Import Base.Prelude Model.Sphere Model.Kepler Spec.Sphere Spec.Kepler Spec.Anomaly
  Proofs.Sphere Proofs.Kepler Proofs.Halley Proofs.KeplerState Proofs.Stumpff.
Import ListNotations.
Open Scope R_scope.

(** ** Stumpff functions times powers of the anomaly *)
Definition eta (E : R) : R := (1 + E * E) / 1000000000000000000.
Lemma stumpff_zero : stumpff 0 = F4 1 1 (1/2) (1/6).
Proof.
  unfold stumpff. destruct (reduce (Z.to_nat (up (10 * Rabs 0))) 0 0) as [n y] eqn:R.
  pose proof (reduce_done _ _ _ R) as [E B]. pose proof (reduce_small _ _ _ _ _ R) as S.
  pose proof (pow4_pos n). assert (y = 0) by (apply Rmult_eq_reg_l with (4 ^ n); lra). subst y.
  destruct S as [->|S]; [|rewrite Rmult_0_r, Rabs_R0 in S; lra].
  cbn [doubles]. unfold stumpff_small. f_equal; field.
Qed.
Lemma stumpff_trig : forall E, Rabs E <= 1000000 -> let d := stumpff (E * E) in
  Rabs (c0 d - cos E) <= eta E /\ Rabs (E * c1 d - sin E) <= Rabs E * eta E
  /\ Rabs (E * E * c2 d - (1 - cos E)) <= E * E * eta E /\ Rabs (E * E * E * c3 d - (E - sin E)) <= Rabs E * (E * E) * eta E.
Proof.
  assert (Pos : forall E, 0 < E -> E <= 1000000 -> let d := stumpff (E * E) in
    Rabs (c0 d - cos E) <= eta E /\ Rabs (E * c1 d - sin E) <= E * eta E
    /\ Rabs (E * E * c2 d - (1 - cos E)) <= E * E * eta E /\ Rabs (E * E * E * c3 d - (E - sin E)) <= E * (E * E) * eta E).
  { intros E P L d. destruct (stumpff_close E P L) as (C0 & C1 & C2 & C3). fold d in C0, C1, C2, C3. fold (eta E) in *.
    assert (G : forall a b k, 0 < k -> Rabs b <= eta E -> a = k * b -> Rabs a <= k * eta E).
    { intros a b k K H ->. rewrite Rabs_mult, (Rabs_right k) by lra. apply Rmult_le_compat_l; lra. }
    assert (P2 : 0 < E * E) by nra. assert (P3 : 0 < E * (E * E)) by nra.
    split; [exact C0|]. split; [|split].
    - apply (G _ _ _ P C1). field. lra.
    - apply (G _ _ _ P2 C2). field. lra.
    - apply (G _ _ _ P3 C3). field. lra. }
  intros E L d. destruct (Rtotal_order E 0) as [N|[Z|P]].
  - rewrite (Rabs_left E) in * by lra. specialize (Pos (- E) ltac:(lra) L). cbv zeta in Pos.
    replace (- E * - E) with (E * E) in Pos by ring. fold d in Pos. rewrite cos_neg, sin_neg in Pos.
    replace (eta (- E)) with (eta E) in Pos by (unfold eta; f_equal; ring). destruct Pos as (C0 & C1 & C2 & C3).
    split; [exact C0|]. split; [|split].
    + rewrite <- Rabs_Ropp. replace (- (E * c1 d - sin E)) with (- E * c1 d - - sin E) by ring. exact C1.
    + exact C2.
    + rewrite <- Rabs_Ropp. replace (- (E * E * E * c3 d - (E - sin E))) with (E * E * - E * c3 d - (- E - - sin E)) by ring. exact C3.
  - subst E. unfold d. rewrite Rmult_0_l, stumpff_zero, sin_0, cos_0, Rabs_R0. unfold eta. cbn [c0 c1 c2 c3].
    repeat split; apply Rabs_le; lra.
  - rewrite (Rabs_right E) in * by lra. apply (Pos E); lra.
Qed.

(** ** Kepler's equation with the anomaly as the unknown *)
Section Scaled.
Variables e M : R.
Hypotheses (E0 : 0 <= e) (E1 : e < 1).
Definition Kt (E : R) : R := (1 - e) * (E * c1 (stumpff (E * E))) + E * E * E * c3 (stumpff (E * E)) - M.
Definition Dt (E : R) : R := (1 - e) * c0 (stumpff (E * E)) + E * E * c2 (stumpff (E * E)).
Definition St (E : R) : R := E * c1 (stumpff (E * E)).
Definition K (E : R) : R := E - e * sin E - M.

Lemma Kt_close : forall E, Rabs E <= 1000000 -> Rabs (Kt E - K E) <= (Rabs E + Rabs E * (E * E)) * eta E.
Proof.
  intros E L. destruct (stumpff_trig E L) as (_ & C1 & _ & C3). unfold Kt, K.
  set (d := stumpff (E * E)) in *.
  replace ((1 - e) * (E * c1 d) + E * E * E * c3 d - M - (E - e * sin E - M)) with ((1 - e) * (E * c1 d - sin E) + (E * E * E * c3 d - (E - sin E))) by ring.
  eapply Rle_trans; [apply Rabs_triang|]. rewrite Rabs_mult, (Rabs_right (1 - e)) by lra.
  assert ((1 - e) * Rabs (E * c1 d - sin E) <= 1 * (Rabs E * eta E)) by (apply Rmult_le_compat; lra || apply Rabs_pos). lra.
Qed.
Lemma Dt_close : forall E, Rabs E <= 1000000 -> Rabs (Dt E - (1 - e * cos E)) <= (1 + E * E) * eta E.
Proof.
  intros E L. destruct (stumpff_trig E L) as (C0 & _ & C2 & _). unfold Dt. set (d := stumpff (E * E)) in *.
  replace ((1 - e) * c0 d + E * E * c2 d - (1 - e * cos E)) with ((1 - e) * (c0 d - cos E) + (E * E * c2 d - (1 - cos E))) by ring.
  eapply Rle_trans; [apply Rabs_triang|]. rewrite Rabs_mult, (Rabs_right (1 - e)) by lra.
  assert ((1 - e) * Rabs (c0 d - cos E) <= 1 * eta E) by (apply Rmult_le_compat; lra || apply Rabs_pos). lra.
Qed.
Lemma sin_diff : forall x y, Rabs (sin x - sin y) <= Rabs (x - y).
Proof.
  assert (S : forall x, Rabs (sin x) <= Rabs x).
  { assert (P : forall x, 0 <= x -> Rabs (sin x) <= x).
    { intros x H. destruct (Req_dec x 0) as [->|N]; [rewrite sin_0, Rabs_R0; lra|]. assert (P : 0 < x) by lra.
      pose proof (sin_lt_x x P). pose proof (sin_lower x P). pose proof (SIN_bound x). apply Rabs_le. split; [|lra].
      destruct (Rle_dec x 1); [assert (x * x * x <= x) by nra; lra|lra]. }
    intros x. destruct (Rle_dec 0 x); [rewrite (Rabs_right x) by lra; auto|].
    rewrite (Rabs_left x), <- Rabs_Ropp, <- sin_neg by lra. apply P. lra. }
  intros x y. rewrite form4, !Rabs_mult, (Rabs_right 2) by lra. pose proof (S ((x - y) / 2)) as Q.
  assert (C : Rabs (cos ((x + y) / 2)) <= 1) by (apply Rabs_le; pose proof (COS_bound ((x + y) / 2)); lra).
  replace (Rabs (x - y)) with (2 * 1 * Rabs ((x - y) / 2)).
  2:{ unfold Rdiv. rewrite Rabs_mult, (Rabs_right (/ 2)) by lra. field. }
  apply Rmult_le_compat; auto using Rabs_pos; [apply Rmult_le_pos; [lra|apply Rabs_pos]|]. lra.
Qed.
Lemma K_diff : forall x y, Rabs (K x - K y) <= 2 * Rabs (x - y).
Proof.
  intros x y. unfold K. replace (x - e * sin x - M - (y - e * sin y - M)) with ((x - y) + - (e * (sin x - sin y))) by ring.
  eapply Rle_trans; [apply Rabs_triang|]. rewrite Rabs_Ropp, Rabs_mult, (Rabs_right e) by lra. pose proof (sin_diff x y).
  assert (e * Rabs (sin x - sin y) <= 1 * Rabs (x - y)) by (apply Rmult_le_compat; lra || apply Rabs_pos). lra.
Qed.

Definition accepted (r : R) : Prop :=
  Kt r = 0
  \/ (exists l h, Kt l < 0 <= Kt h /\ r = (l + h) / 2 /\ Rabs (h - l) <= 2 * (1 / 100000000000000 * Rabs r))
  \/ (exists p dl, r = p - dl /\ Rabs dl <= 1 / 100000000000000 * Rabs r /\ dl * (2 * Dt p * Dt p - e * (Kt p * St p)) = 2 * Kt p * Dt p).

Hypothesis (M0 : 0 <= M) (M1 : M <= 13/2) (W : 1 / 1000000000 <= 1 - e).

Lemma eta_bound : forall E B, Rabs E <= B -> eta E <= (1 + B * B) / 1000000000000000000 /\ 0 < eta E.
Proof.
  intros E B H. assert (E * E <= B * B).
  { replace (E * E) with (Rabs E * Rabs E) by (rewrite <- Rabs_mult; apply Rabs_right; nra). apply Rmult_le_compat; auto using Rabs_pos. }
  unfold eta. split; [lra|]. assert (0 <= E * E) by nra. lra.
Qed.
Lemma err_bound : forall E B b, Rabs E <= B -> B <= 1000000 -> (B + B * (B * B)) * ((1 + B * B) / 1000000000000000000) <= b -> Rabs (Kt E - K E) <= b.
Proof.
  intros E B b H HB L. eapply Rle_trans; [apply Kt_close; lra|]. eapply Rle_trans; [|exact L]. pose proof (Rabs_pos E) as P.
  destruct (eta_bound E B H) as [N N']. assert (E * E <= B * B).
  { replace (E * E) with (Rabs E * Rabs E) by (rewrite <- Rabs_mult; apply Rabs_right; nra). apply Rmult_le_compat; auto using Rabs_pos. }
  assert (0 <= E * E) by nra.
  apply Rmult_le_compat; [|lra| |auto].
  - assert (0 <= Rabs E * (E * E)) by (apply Rmult_le_pos; auto). lra.
  - assert (Rabs E * (E * E) <= B * (B * B)) by (apply Rmult_le_compat; auto). lra.
Qed.

(** The residual when the errors of the functions are at most [b]. *)
Lemma residual_from : forall r b, accepted r -> Rabs r <= 10000 -> Rabs r ^ 4 <= 100000000000000000 * (1 - e) ->
  (forall x, Rabs (x - r) <= 4 / 100000000000000 * Rabs r -> Rabs (Kt x - K x) <= b) ->
  Rabs (K r) <= b + 11 / 100000000000000 * Rabs r.
Proof.
  intros r b A L L4 C. pose proof (Rabs_pos r) as PR. destruct A as [A|[A|A]].
  - specialize (C r). rewrite A in C. replace (0 - K r) with (- K r) in C by ring. rewrite Rabs_Ropp in C.
    assert (Rabs (K r) <= b); [|lra]. apply C. replace (r - r) with 0 by ring. rewrite Rabs_R0. lra.
  - destruct A as (l & h & [A1 A2] & Er & D).
    assert (Dl : Rabs (l - r) <= 1 / 100000000000000 * Rabs r).
    { replace (l - r) with (- ((h - l) / 2)) by (rewrite Er; field). rewrite Rabs_Ropp. unfold Rdiv at 1. rewrite Rabs_mult, (Rabs_right (/ 2)) by lra. lra. }
    assert (Dh : Rabs (h - r) <= 1 / 100000000000000 * Rabs r).
    { replace (h - r) with ((h - l) / 2) by (rewrite Er; field). unfold Rdiv at 1. rewrite Rabs_mult, (Rabs_right (/ 2)) by lra. lra. }
    pose proof (C l ltac:(lra)) as Cl. pose proof (C h ltac:(lra)) as Ch.
    pose proof (K_diff l r) as Kl. pose proof (K_diff h r) as Kh.
    apply Rabs_inv_le in Cl. apply Rabs_inv_le in Ch. apply Rabs_inv_le in Kl. apply Rabs_inv_le in Kh. apply Rabs_le. lra.
  - destruct A as (p & dl & Er & D & Eq).
    assert (Dp : Rabs (p - r) <= 1 / 100000000000000 * Rabs r) by (replace (p - r) with dl by (rewrite Er; ring); lra).
    pose proof (C p ltac:(lra)) as Cp.
    assert (Lp : Rabs p <= Rabs r + Rabs r / 100000000000000).
    { replace p with (r + (p - r)) by ring. eapply Rle_trans; [apply Rabs_triang|]. lra. }
    pose proof (Dt_close p ltac:(lra)) as Dc. destruct (eta_bound p 10001 ltac:(lra)) as [N N'].
    destruct (stumpff_trig p ltac:(lra)) as (_ & S1 & _). fold (St p) in S1.
    assert (P2 : 0 <= p * p <= 100001 / 100000 * (Rabs r * Rabs r)).
    { split; [nra|]. replace (p * p) with (Rabs p * Rabs p) by (rewrite <- Rabs_mult; apply Rabs_right; nra). pose proof (Rabs_pos p).
      apply Rle_trans with ((Rabs r + Rabs r / 100000000000000) * (Rabs r + Rabs r / 100000000000000)); [apply Rmult_le_compat; lra|].
      pose proof (Rmult_le_pos _ _ PR PR). lra. }
    assert (Dc' : Rabs (Dt p - (1 - e * cos p)) <= (1 - e) / 4).
    { eapply Rle_trans; [exact Dc|]. unfold eta. set (g := Rabs r * Rabs r) in *.
      replace (Rabs r ^ 4) with (g * g) in L4 by (unfold g; ring). assert (G : 0 <= g) by (unfold g; nra).
      set (y := p * p) in *. assert (Y : y * y <= 100001 / 100000 * g * (100001 / 100000 * g)) by (apply Rmult_le_compat; lra).
      assert (Y2 : (1 + y) * (1 + y) <= 2 + 2 * (y * y)) by (pose proof (Rle_0_sqr (1 - y)) as Sq; unfold Rsqr in Sq; lra).
      replace ((1 + y) * ((1 + y) / 1000000000000000000)) with ((1 + y) * (1 + y) / 1000000000000000000) by field. lra. }
    assert (S1' : Rabs (St p) <= 2).
    { replace (St p) with (sin p + (St p - sin p)) by ring. eapply Rle_trans; [apply Rabs_triang|].
      assert (Rabs (sin p) <= 1) by (apply Rabs_le; pose proof (SIN_bound p); lra).
      assert (Rabs p * eta p <= 10001 * ((1 + 10001 * 10001) / 1000000000000000000)) by (apply Rmult_le_compat; lra || apply Rabs_pos). lra. }
    assert (Dpos : 3 / 4 * (1 - e) <= Dt p <= 9/4).
    { apply Rabs_inv_le in Dc'. pose proof (COS_bound p). assert (- 1 <= e * cos p <= e) by (split; nra). lra. }
    assert (Rs : Rabs r <= 25000000000000 * (1 - e)).
    { destruct (Rle_dec (Rabs r) 100) as [R1|R1]; [lra|]. apply Rnot_le_lt in R1.
      assert (R3 : 100 * 100 * 100 <= Rabs r * Rabs r * Rabs r) by (repeat apply Rmult_le_compat; lra).
      assert (R4 : Rabs r * (100 * 100 * 100) <= Rabs r ^ 4) by (replace (Rabs r ^ 4) with (Rabs r * (Rabs r * Rabs r * Rabs r)) by ring; apply Rmult_le_compat_l; lra).
      lra. }
    set (D' := Dt p) in *. set (S' := St p) in *. set (k := Kt p) in *. clearbody D' S' k.
    assert (Q : k * (2 * D' + e * S' * dl) = 2 * D' * D' * dl) by lra.
    assert (Sm : Rabs (e * S' * dl) <= D').
    { rewrite !Rabs_mult, (Rabs_right e) by lra. pose proof (Rabs_pos S'). pose proof (Rabs_pos dl).
      assert (e * Rabs S' <= 1 * 2) by (apply Rmult_le_compat; lra). assert (0 <= e * Rabs S') by (apply Rmult_le_pos; lra).
      assert (e * Rabs S' * Rabs dl <= 2 * (1 / 100000000000000 * Rabs r)) by (apply Rmult_le_compat; lra). lra. }
    assert (Hk : Rabs k * D' <= 2 * D' * D' * Rabs dl).
    { assert (Eqa : Rabs k * Rabs (2 * D' + e * S' * dl) = 2 * D' * D' * Rabs dl).
      { rewrite <- Rabs_mult, Q, !Rabs_mult, (Rabs_right 2), (Rabs_right D') by lra. reflexivity. }
      rewrite <- Eqa. apply Rmult_le_compat_l; [apply Rabs_pos|]. apply Rabs_inv_le in Sm. rewrite Rabs_right by lra. lra. }
    assert (Hk' : Rabs k <= 2 * D' * Rabs dl) by (apply Rmult_le_reg_r with D'; lra).
    pose proof (Rabs_pos dl). assert (2 * D' * Rabs dl <= 2 * (9/4) * Rabs dl) by (apply Rmult_le_compat_r; lra).
    pose proof (K_diff p r) as Kp.
    apply Rabs_inv_le in Cp. apply Rabs_inv_le in Kp. apply Rabs_inv_le in Hk'. apply Rabs_le. lra.
Qed.
Lemma root_accuracy : forall r, accepted r -> Rabs r <= 10000 -> Rabs r ^ 4 <= 100000000000000000 * (1 - e) ->
  Rabs (K r) <= 1 / 1000000000000 /\ Rabs r <= 8.
Proof.
  intros r A L L4.
  assert (T : forall B x, Rabs r <= B -> Rabs (x - r) <= 4 / 100000000000000 * Rabs r -> Rabs x <= B + B / 1000000000000).
  { intros B x LB H. replace x with (r + (x - r)) by ring. eapply Rle_trans; [apply Rabs_triang|]. pose proof (Rabs_pos r). lra. }
  assert (S : forall B, Rabs (K r) <= B -> Rabs r <= B + 15/2).
  { intros B F. unfold K in F. apply Rabs_inv_le in F. pose proof (SIN_bound r). assert (-1 <= e * sin r <= 1) by (split; nra). apply Rabs_le. lra. }
  assert (L1 : Rabs r <= 200).
  { apply Rle_trans with (102 + 15/2); [|lra]. apply S. eapply Rle_trans; [apply (residual_from r 101); auto|lra].
    intros x H. apply err_bound with (B := 10001); [|lra|lra]. pose proof (T 10000 x L H). lra. }
  assert (L8 : Rabs r <= 8).
  { apply Rle_trans with (1/10 + 15/2); [|lra]. apply S. eapply Rle_trans; [apply (residual_from r (1/20)); auto|lra].
    intros x H. apply err_bound with (B := 201); [|lra|lra]. pose proof (T 200 x L1 H). lra. }
  split; [|exact L8].
  eapply Rle_trans; [apply (residual_from r (1 / 10000000000000)); auto|lra].
  intros x H. apply err_bound with (B := 81/10); [|lra|lra]. pose proof (T 8 x L8 H). lra.
Qed.
End Scaled.

(** ** What an accepted root looks like *)
Section Found.
Variable F : R -> value.
Variable xacc : R.
Definition found (r : R) : Prop :=
  v_f (F r) = 0
  \/ (exists l h, v_f (F l) < 0 <= v_f (F h) /\ r = (l + h) / 2 /\ Rabs (h - l) <= 2 * (xacc * Rabs r))
  \/ (exists p dx, r = p - dx /\ Rabs dx <= xacc * Rabs r
      /\ dx * (2 * v_fp (F p) * v_fp (F p) - v_f (F p) * v_fpp (F p)) = 2 * v_f (F p) * v_fp (F p)).

Lemma guess_found st dx r : good F st -> next_guess st = Ok (dx, r) -> Rabs dx <= xacc * Rabs r -> found r.
Proof.
  intros (Ev & Hl & Hh) E S. unfold next_guess in E. destruct (must_bisect st).
  - assert (Ed : dx = 1 / 2 * (h_xh st - h_xl st) /\ r = h_xl st + 1 / 2 * (h_xh st - h_xl st)) by (injection E as E1 E2; split; auto).
    destruct Ed as [E1 E2]. right. left. exists (h_xl st), (h_xh st). split; [auto|]. split; [rewrite E2; field|].
    rewrite E1, Rabs_mult, (Rabs_right (1 / 2)) in S by lra. lra.
  - unfold rbind in E. destruct (rdiv _ _) as [k|] eqn:E1; [|discriminate].
    destruct (rdiv (2 * _ * _) _) as [dx'|] eqn:E2; [|discriminate].
    assert (Ed : dx' = dx /\ h_rts st - dx' = r) by (injection E as A1 A2; auto).
    destruct Ed as [-> Er]. apply rdiv_ok in E2 as [D E2]. right. right. exists (h_rts st), dx. rewrite <- Ev. split; [auto|]. split; [auto|].
    rewrite E2. field. exact D.
Qed.
Lemma hloop_found n : forall st r d, good F st -> snd (hloop F xacc n st) = Ok (true, Some r, d) -> found r.
Proof.
  induction n as [|n IH]; intros st r d G E; simpl in *; [discriminate|].
  destruct (next_guess st) as [[dx r']|] eqn:EN; [|discriminate].
  destruct (small_step xacc dx r') as [[]|] eqn:ES; [| |discriminate].
  - simpl in E. assert (r' = r) by congruence. subst r'. apply small_step_true in ES. eapply guess_found; eauto.
  - match type of E with snd (let '(tr, res) := hloop F xacc n ?s in _) = _ => set (st' := s) in * end.
    apply (IH st' r d).
    + destruct G as (_ & G1 & G2). unfold good, st'; simpl. destruct (Rlt_dec (v_f (F r')) 0); repeat split; auto; lra.
    + destruct (hloop F xacc n st'); exact E.
Qed.
Lemma halley_found x1 x2 n r d : snd (halley_safe F xacc x1 x2 n) = Ok (true, Some r, d) -> found r.
Proof.
  unfold halley_safe. intros E.
  destruct (_ || _) eqn:B; [discriminate|]. apply orb_false_iff in B as [B1 B2].
  destruct (Req_EM_T (v_f (F x1)) 0) as [Z1|Z1]; [left; assert (x1 = r) by (simpl in E; congruence); subst; auto|].
  destruct (Req_EM_T (v_f (F x2)) 0) as [Z2|Z2]; [left; assert (x2 = r) by (simpl in E; congruence); subst; auto|].
  match type of E with snd (let '(tr, res) := hloop F xacc n ?s in _) = _ => set (st := s) in * end.
  apply (hloop_found n st r d); [|destruct (hloop F xacc n st); exact E].
  unfold good, st; simpl.
  destruct (Rlt_dec 0 (v_f (F x1))), (Rlt_dec 0 (v_f (F x2))), (Rlt_dec (v_f (F x1)) 0), (Rlt_dec (v_f (F x2)) 0); simpl in *; try discriminate; repeat split; lra.
Qed.
Lemma retry_found : forall left s r root, (forall x d, r = (true, Some x, d) -> found x) -> retry F xacc left s r = Ok (Some root) -> found root.
Proof.
  induction left as [|left IH]; intros s [[b x] d] root G E; cbn [retry] in E.
  - destruct b; [injection E as ->; eauto|]. unfold rbind in E. destruct (rdiv _ _); [|discriminate]. destruct (snd _); discriminate.
  - destruct b; [injection E as ->; eauto|]. unfold rbind in E. destruct (rdiv _ _) as [k|]; [|discriminate].
    destruct (snd (halley_safe F xacc s (s - k) 100)) as [r'|] eqn:H; [|discriminate].
    apply (IH _ _ _) in E; auto. intros y d' ->. eapply halley_found; eauto.
Qed.
Lemma solve_found fuel t root : solve F xacc fuel t = Ok (Some root) -> found root.
Proof.
  unfold solve, rbind. intros E. destruct (bracket _ _ _ _ _ _ _) as [b|]; [|discriminate].
  destruct (snd (halley_safe F xacc (fst b) (snd b) 100)) as [r|] eqn:H; [|discriminate].
  eapply retry_found; [|exact E]. intros x d ->. eapply halley_found; eauto.
Qed.
End Found.

(** ** Scaling *)
Section Scaling.
Variables mu q e t : R.
Hypotheses (MU : 0 < mu) (Q : 0 < q) (E0 : 0 <= e) (E1 : e < 1).
Let al := binding_alpha mu q e.
Let k := sqrt al.
Let a := semi_major q e.
Lemma al_eq : al = mu * (1 - e) / q.
Proof. unfold al, binding_alpha. field. lra. Qed.
Lemma al_pos : 0 < al.
Proof. rewrite al_eq. apply Rdiv_lt_0_compat; auto. apply Rmult_lt_0_compat; lra. Qed.
Lemma k_pos : 0 < k. Proof. apply sqrt_lt_R0, al_pos. Qed.
Lemma k_sq : k * k = al. Proof. apply sqrt_sqrt. apply Rlt_le, al_pos. Qed.
Lemma a_pos : 0 < a. Proof. unfold a, semi_major. apply Rdiv_lt_0_compat; lra. Qed.
Lemma mu_eq : mu = a * (k * k).
Proof. rewrite k_sq, al_eq. unfold a, semi_major. field. split; lra. Qed.
Lemma q_eq : q = a * (1 - e).
Proof. unfold a, semi_major. field. lra. Qed.
Lemma motion_eq : mean_motion mu q e = k / a.
Proof.
  unfold mean_motion. fold a. pose proof a_pos. pose proof k_pos.
  replace (mu / (a * a * a)) with ((k / a) * (k / a)) by (rewrite mu_eq; field; lra).
  apply sqrt_square. apply Rlt_le, Rdiv_lt_0_compat; auto.
Qed.

Let F := fun s => root_function s mu al q 0 t.
Let M := mean_motion mu q e * t.
Lemma arg_eq s : al * s * s = (k * s) * (k * s).
Proof. rewrite <- k_sq. ring. Qed.
Lemma f_eq s : v_f (F s) = a / k * Kt e M (k * s).
Proof.
  unfold F, root_function. cbn [v_f]. rewrite arg_eq. unfold Kt. set (d := stumpff (k * s * (k * s))). unfold M. rewrite motion_eq.
  rewrite mu_eq at 1. rewrite q_eq. pose proof k_pos. pose proof a_pos. field. split; lra.
Qed.
Lemma fp_eq s : v_fp (F s) = a * Dt e (k * s).
Proof.
  unfold F, root_function. cbn [v_fp]. rewrite arg_eq. unfold Dt. set (d := stumpff (k * s * (k * s))).
  rewrite mu_eq at 1. rewrite q_eq. ring.
Qed.
Lemma fpp_eq s : v_fpp (F s) = a * k * e * St (k * s).
Proof.
  unfold F, root_function. cbn [v_fpp]. rewrite arg_eq. unfold St. set (d := stumpff (k * s * (k * s))).
  rewrite <- k_sq. rewrite mu_eq at 1. rewrite q_eq. ring.
Qed.
Lemma found_accepted s : found F (1 / 100000000000000) s -> accepted e M (k * s).
Proof.
  pose proof k_pos as KP. pose proof a_pos as AP. assert (AK : 0 < a / k) by (apply Rdiv_lt_0_compat; auto).
  intros [H|[H|H]].
  - left. rewrite f_eq in H. apply Rmult_integral in H. destruct H; [lra|auto].
  - destruct H as (l & h & [H1 H2] & Er & D). right. left. exists (k * l), (k * h). rewrite f_eq in H1, H2.
    split; [|split].
    + split; [|apply Rmult_le_reg_l with (a / k); lra]. apply Rmult_lt_reg_l with (a / k); lra.
    + rewrite Er. field.
    + replace (k * h - k * l) with (k * (h - l)) by ring. rewrite !Rabs_mult, (Rabs_right k) by lra.
      replace (2 * (1 / 100000000000000 * (k * Rabs s))) with (k * (2 * (1 / 100000000000000 * Rabs s))) by ring. apply Rmult_le_compat_l; lra.
  - destruct H as (p & dx & Er & D & Eq). right. right. exists (k * p), (k * dx). split; [rewrite Er; ring|]. split.
    + rewrite !Rabs_mult, (Rabs_right k) by lra. replace (1 / 100000000000000 * (k * Rabs s)) with (k * (1 / 100000000000000 * Rabs s)) by ring. apply Rmult_le_compat_l; lra.
    + rewrite fp_eq, f_eq, fpp_eq in Eq. set (x := Kt e M (k * p)) in *. set (y := Dt e (k * p)) in *. set (z := St (k * p)) in *. clearbody x y z.
      apply Rmult_eq_reg_l with (a * a / k); [|apply Rgt_not_eq; apply Rdiv_lt_0_compat; nra].
      transitivity (dx * (2 * (a * y) * (a * y) - a / k * x * (a * k * e * z))); [field; lra|]. rewrite Eq. field. lra.
Qed.
End Scaling.

(** ** The state *)
Lemma orient_perifocal i N w x y : orient i N w (V3 x y 0) = perifocal i N w x y.
Proof. unfold orient, perifocal, mat_vec, about_z, about_x, dot; simpl. f_equal; ring. Qed.
Lemma apart_perifocal i N w x y x' y' : apart (perifocal i N w x y) (perifocal i N w x' y') <= Rabs (x - x') + Rabs (y - y').
Proof.
  assert (E : apart (perifocal i N w x y) (perifocal i N w x' y') = length3 (perifocal i N w (x - x') (y - y'))).
  { unfold apart, length3, perifocal; simpl. f_equal. ring. }
  rewrite E, <- orient_perifocal, length3_orient. unfold length3; simpl.
  pose proof (Rabs_pos (x - x')). pose proof (Rabs_pos (y - y')).
  rewrite <- (sqrt_square (Rabs (x - x') + Rabs (y - y'))) by lra. apply sqrt_le_1_alt.
  assert (S : forall z, z * z = Rabs z * Rabs z) by (intros z; rewrite <- Rabs_mult, Rabs_right; [auto|nra]).
  rewrite (S (x - x')), (S (y - y')). nra.
Qed.
Lemma quotient_close : forall S' S D' D d1 d2 w, 0 < w -> w <= 1 -> w <= D -> w / 2 <= D' -> Rabs S <= 1 -> Rabs (S' - S) <= d1 -> Rabs (D' - D) <= d2 ->
  Rabs (S' / D' - S / D) <= 2 * (d1 + d2) / (w * w).
Proof.
  intros S' S D' D d1 d2 w W W1 HD HD' HS H1 H2.
  assert (P1 : 0 <= d1) by (pose proof (Rabs_pos (S' - S)); lra). assert (P2 : 0 <= d2) by (pose proof (Rabs_pos (D' - D)); lra).
  replace (S' / D' - S / D) with ((S' - S) / D' - S * (D' - D) / (D * D')) by (field; lra).
  assert (I : 0 < w * w) by nra.
  assert (A : Rabs ((S' - S) / D') <= 2 * d1 / (w * w)).
  { unfold Rdiv at 1. rewrite Rabs_mult, Rabs_inv, (Rabs_right D') by lra.
    apply Rle_trans with (d1 * (2 / (w * w))); [|right; field; lra].
    apply Rmult_le_compat; auto using Rabs_pos; [apply Rlt_le, Rinv_0_lt_compat; lra|].
    replace (2 / (w * w)) with (/ (w * w / 2)) by (field; lra). apply Rinv_le_contravar; nra. }
  assert (B : Rabs (S * (D' - D) / (D * D')) <= 2 * d2 / (w * w)).
  { unfold Rdiv at 1. rewrite !Rabs_mult, Rabs_inv, (Rabs_right (D * D')) by nra.
    apply Rle_trans with (1 * d2 * (2 / (w * w))); [|right; field; lra].
    assert (0 < D * D') by (apply Rmult_lt_0_compat; lra).
    apply Rmult_le_compat; [apply Rmult_le_pos; apply Rabs_pos|apply Rlt_le, Rinv_0_lt_compat; auto|apply Rmult_le_compat; auto using Rabs_pos|].
    replace (2 / (w * w)) with (/ (w * (w / 2))) by (field; lra). apply Rinv_le_contravar; [nra|]. apply Rmult_le_compat; lra. }
  apply Rabs_inv_le in A. apply Rabs_inv_le in B. apply Rabs_le.
  replace (2 * (d1 + d2) / (w * w)) with (2 * d1 / (w * w) + 2 * d2 / (w * w)) by (field; lra). lra.
Qed.

Section State.
Variables mu q e t : R.
Hypotheses (MU : 0 < mu) (Q : 0 < q) (E0 : 0 <= e) (W : 1 / 1000000000 <= 1 - e).
Let al := binding_alpha mu q e.
Let k := sqrt al.
Let a := semi_major q e.
Let M := mean_motion mu q e * t.
Let g := sqrt ((1 + e) / (1 - e)).
Lemma g_facts : 1 <= g /\ sqrt (mu * (1 + e) / q) = k * g /\ sqrt (1 - e * e) = g * (1 - e) /\ g * (1 - e) <= 1.
Proof.
  assert (E1 : e < 1) by lra.
  pose proof (k_pos mu q e MU Q E1) as KP. fold al in KP. fold k in KP.
  assert (P : 1 <= (1 + e) / (1 - e)) by (apply Rmult_le_reg_r with (1 - e); [lra|]; replace ((1 + e) / (1 - e) * (1 - e)) with (1 + e) by (field; lra); lra).
  assert (G1 : 1 <= g) by (rewrite <- sqrt_1; apply sqrt_le_1_alt; exact P).
  assert (G2 : g * g = (1 + e) / (1 - e)) by (apply sqrt_sqrt; lra).
  assert (G3 : sqrt (1 - e * e) = g * (1 - e)).
  { rewrite <- (sqrt_square (g * (1 - e))) by (apply Rmult_le_pos; lra). f_equal.
    replace (g * (1 - e) * (g * (1 - e))) with (g * g * ((1 - e) * (1 - e))) by ring. rewrite G2. field. lra. }
  split; [auto|]. split; [|split; [auto|]].
  - rewrite <- (sqrt_square (k * g)) by (apply Rmult_le_pos; lra). f_equal.
    replace (k * g * (k * g)) with (k * k * (g * g)) by ring. rewrite G2. pose proof (k_sq mu q e MU Q E1) as KS. fold al in KS. fold k in KS. rewrite KS. unfold al. rewrite (al_eq mu q e Q). field. lra.
  - rewrite <- G3. rewrite <- sqrt_1 at 2. apply sqrt_le_1_alt. nra.
Qed.

Lemma state_close : forall s x v i N w, in_plane mu q (mu * (1 + e) / q) al t s = Ok (x, v) ->
  let E := k * s in Rabs (K e M E) <= 1 / 1000000000000 -> Rabs E <= 8 ->
  apart (orient i N w x) (ellipse_position q e i N w E) <= 2 / 1000000000000 * (a * g)
  /\ apart (orient i N w v) (ellipse_velocity mu q e i N w E) <= 1 / 10000000000000 * k / ((1 - e) * (1 - e)).
Proof.
  intros s x v i N w H E HK HE. assert (E1 : e < 1) by lra.
  pose proof (k_pos mu q e MU Q E1) as KP. fold al in KP. fold k in KP.
  pose proof (a_pos q e Q E1) as AP. fold a in AP.
  pose proof (mu_eq mu q e MU Q E1) as ME. fold al in ME. fold k in ME. fold a in ME.
  pose proof (q_eq q e E1) as QE. fold a in QE.
  pose proof (motion_eq mu q e MU Q E1) as MM. fold al in MM. fold k in MM. fold a in MM.
  destruct g_facts as (G1 & G2 & G3 & G4).
  apply in_plane_ok in H. cbv zeta in H. destruct H as (_ & Hr & -> & ->).
  assert (AE : al * s * s = E * E) by (apply (arg_eq mu q e); auto). rewrite AE in *.
  destruct (stumpff_trig E ltac:(lra)) as (C0 & C1 & C2 & C3). set (d := stumpff (E * E)) in *.
  pose proof (Dt_close e E0 E1 E ltac:(lra)) as DC. unfold Dt in DC. fold d in DC.
  destruct (eta_bound E 8 HE) as [N1 N2].
  assert (EE : 0 <= E * E <= 64).
  { split; [nra|]. replace (E * E) with (Rabs E * Rabs E) by (rewrite <- Rabs_mult; apply Rabs_right; nra). pose proof (Rabs_pos E). nra. }
  assert (T : t = a / k * M) by (unfold M; rewrite MM; field; lra).
  rewrite G2.
  split.
  - rewrite orient_perifocal. unfold ellipse_position. cbv zeta. fold a. eapply Rle_trans; [apply apart_perifocal|].
    assert (X1 : Rabs (q - mu * (s * s) * c2 d - a * (cos E - e)) <= a * (1 / 100000000000000)).
    { replace (q - mu * (s * s) * c2 d - a * (cos E - e)) with (- (a * (E * E * c2 d - (1 - cos E)))) by (rewrite ME at 1; rewrite QE; unfold E; ring).
      rewrite Rabs_Ropp, Rabs_mult, (Rabs_right a) by lra. apply Rmult_le_compat_l; [lra|]. eapply Rle_trans; [exact C2|].
      apply Rle_trans with (64 * ((1 + 8 * 8) / 1000000000000000000)); [apply Rmult_le_compat; lra|lra]. }
    assert (X2 : Rabs ((t - mu * (s * s * s) * c3 d) * (k * g) - a * sqrt (1 - e * e) * sin E) <= a * g * (11 / 10000000000000)).
    { rewrite G3. replace ((t - mu * (s * s * s) * c3 d) * (k * g) - a * (g * (1 - e)) * sin E)
        with (a * g * (- K e M E - (E * E * E * c3 d - (E - sin E)))).
      2:{ unfold K. rewrite T. rewrite ME at 1. unfold E. field. lra. }
      assert (AG : 0 <= a * g) by (apply Rmult_le_pos; lra).
      rewrite Rabs_mult, (Rabs_right (a * g)) by lra. apply Rmult_le_compat_l; [auto|].
      unfold Rminus at 1. eapply Rle_trans; [apply Rabs_triang|]. rewrite !Rabs_Ropp.
      assert (Rabs E * (E * E) * eta E <= 8 * 64 * ((1 + 8 * 8) / 1000000000000000000)).
      { apply Rmult_le_compat; [apply Rmult_le_pos; [apply Rabs_pos|lra]|lra|apply Rmult_le_compat; lra || apply Rabs_pos|lra]. }
      lra. }
    assert (a <= a * g) by nra. lra.
  - rewrite orient_perifocal. unfold ellipse_velocity. cbv zeta. fold a. eapply Rle_trans; [apply apart_perifocal|].
    set (D' := (1 - e) * c0 d + E * E * c2 d) in *. set (D := 1 - e * cos E) in *.
    assert (Er : q * c0 d + mu * (s * s) * c2 d = a * D') by (unfold D'; rewrite ME at 1; rewrite QE; unfold E; ring).
    assert (SQ : sqrt (mu * a) = a * k).
    { rewrite <- (sqrt_square (a * k)) by (apply Rmult_le_pos; lra). f_equal. rewrite ME at 1. ring. }
    assert (HD : 1 - e <= D) by (unfold D; pose proof (COS_bound E); nra).
    assert (D2 : Rabs (D' - D) <= 5 / 1000000000000000).
    { eapply Rle_trans; [exact DC|]. apply Rle_trans with (65 * ((1 + 8 * 8) / 1000000000000000000)); [apply Rmult_le_compat; lra|lra]. }
    assert (HD' : (1 - e) / 2 <= D') by (apply Rabs_inv_le in D2; lra).
    assert (S1 : Rabs (E * c1 d - sin E) <= 1 / 1000000000000000).
    { eapply Rle_trans; [exact C1|]. apply Rle_trans with (8 * ((1 + 8 * 8) / 1000000000000000000)); [apply Rmult_le_compat; lra || apply Rabs_pos|lra]. }
    assert (S0 : Rabs (c0 d - cos E) <= 1 / 1000000000000000) by lra.
    assert (B1 : Rabs (sin E) <= 1) by (apply Rabs_le; pose proof (SIN_bound E); lra).
    assert (B2 : Rabs (cos E) <= 1) by (apply Rabs_le; pose proof (COS_bound E); lra).
    pose proof (quotient_close _ _ _ _ _ _ (1 - e) ltac:(lra) ltac:(lra) HD HD' B1 S1 D2) as Q1.
    pose proof (quotient_close _ _ _ _ _ _ (1 - e) ltac:(lra) ltac:(lra) HD HD' B2 S0 D2) as Q2.
    rewrite Er, SQ, G3.
    assert (WW : 0 < (1 - e) * (1 - e)) by nra.
    set (w2 := (1 - e) * (1 - e)) in *.
    assert (V1 : Rabs (- (mu * s * c1 d / (a * D')) - - (a * k * sin E / (a * D))) <= k * (12 / 1000000000000000 / w2)).
    { replace (- (mu * s * c1 d / (a * D')) - - (a * k * sin E / (a * D))) with (- (k * (E * c1 d / D' - sin E / D))) by (rewrite ME at 1; unfold E; field; lra).
      rewrite Rabs_Ropp, Rabs_mult, (Rabs_right k) by lra. apply Rmult_le_compat_l; [lra|].
      eapply Rle_trans; [exact Q1|]. right. field. lra. }
    assert (V2 : Rabs (q * c0 d / (a * D') * (k * g) - a * k * (g * (1 - e)) * cos E / (a * D)) <= k * (12 / 1000000000000000 / w2)).
    { replace (q * c0 d / (a * D') * (k * g) - a * k * (g * (1 - e)) * cos E / (a * D)) with (k * (g * (1 - e) * (c0 d / D' - cos E / D))) by (rewrite QE; field; lra).
      rewrite Rabs_mult, (Rabs_right k) by lra. apply Rmult_le_compat_l; [lra|].
      assert (0 <= g * (1 - e)) by (apply Rmult_le_pos; lra).
      rewrite Rabs_mult, (Rabs_right (g * (1 - e))) by lra.
      apply Rle_trans with (1 * (2 * (1 / 1000000000000000 + 5 / 1000000000000000) / w2)); [apply Rmult_le_compat; auto using Rabs_pos|right; field; lra]. }
    assert (0 < / w2) by (apply Rinv_0_lt_compat; auto).
    assert (0 <= k * / w2) by (apply Rmult_le_pos; lra).
    replace (1 / 10000000000000 * k / w2) with (1 / 10000000000000 * (k * / w2)) by (field; lra).
    replace (k * (12 / 1000000000000000 / w2)) with (12 / 1000000000000000 * (k * / w2)) in V1, V2 by (field; lra). lra.
Qed.
End State.

(** ** From the epoch to the state *)
Lemma two_pi_below : 2 * PI <= 13/2.
Proof.
  destruct (PI_ineq 5) as [_ H]. unfold tg_alt, PI_tg in H. simpl in H.
  assert (PI / 4 <= 13/16); [|lra]. eapply Rle_trans; [exact H|]. lra.
Qed.
Lemma time_reduced : forall mu q e tp ep t, 0 < mu -> 0 < q -> e < 1 -> since_perihelion mu q e tp ep = Ok t ->
  0 <= mean_motion mu q e * t <= 13/2 /\ exists j : Z, mean_motion mu q e * t = mean_motion mu q e * (ep - tp) - 2 * PI * IZR j.
Proof.
  intros mu q e tp ep t MU Q E1 H. unfold since_perihelion, rbind in H. destruct (Rlt_dec e 1); [|lra].
  destruct (rdiv q (1 - e)) as [a|] eqn:A; [|discriminate]. apply rdiv_ok in A as [_ A].
  destruct (rdiv mu (a * a * a)) as [n2|] eqn:B; [|discriminate]. apply rdiv_ok in B as [_ B].
  destruct (rdiv (2 * PI) (sqrt n2)) as [per|] eqn:C; [|discriminate]. apply rdiv_ok in C as [N0 C].
  destruct (Req_EM_T per 0); [discriminate|].
  assert (EM : mean_motion mu q e = sqrt n2) by (unfold mean_motion, semi_major; rewrite B, A; reflexivity).
  rewrite EM. assert (NP : 0 < sqrt n2) by (pose proof (sqrt_pos n2); lra).
  assert (PP : 0 < per) by (rewrite C; apply Rdiv_lt_0_compat; pose proof PI_RGT_0; lra).
  assert (Et : rmod (ep - tp) per = t) by congruence.
  pose proof (rmod_range (ep - tp) per PP) as RR. rewrite Et in RR.
  assert (NPer : sqrt n2 * per = 2 * PI) by (rewrite C; field; lra). pose proof two_pi_below.
  split.
  - split; [apply Rmult_le_pos; lra|]. apply Rle_trans with (sqrt n2 * per); [apply Rmult_le_compat_l; lra|lra].
  - exists (Int_part ((ep - tp) / per)). rewrite <- Et. unfold rmod. rewrite <- NPer. ring.
Qed.

Lemma C94_kepler_proof : forall fuel mu q e i N w tp ep x v, 0 < mu -> 0 < q -> 0 <= e -> e <= 1 - 1 / 1000000000 ->
  universal_cartesian fuel mu q e i N w tp ep = Ok (Some (x, v)) ->
  exists t s, since_perihelion mu q e tp ep = Ok t
    /\ solve (fun s => root_function s mu (2 * mu / q - mu * (1 + e) / q) q 0 t) (1 / 100000000000000) fuel t = Ok (Some s)
    /\ (sqrt (mu * (1 - e) / q) * Rabs s <= 10000 -> (sqrt (mu * (1 - e) / q) * Rabs s) ^ 4 <= 10 ^ 17 * (1 - e) ->
        exists E (turns : Z),
          Rabs (E - e * sin E - (sqrt (mu / (semi_major q e * semi_major q e * semi_major q e)) * (ep - tp) - 2 * PI * IZR turns)) <= 1 / 1000000000000
          /\ apart x (ellipse_position q e i N w E) <= 2 / 1000000000000 * (semi_major q e * sqrt ((1 + e) / (1 - e)))
          /\ apart v (ellipse_velocity mu q e i N w E) <= 1 / 10000000000000 * sqrt (mu / semi_major q e) / ((1 - e) * (1 - e))).
Proof.
  intros fuel mu q e i N w tp ep x v MU Q E0 W H. assert (E1 : e < 1) by lra. assert (W' : 1 / 1000000000 <= 1 - e) by lra.
  destruct (cartesian_ok _ _ _ _ _ _ _ _ _ _ _ H) as (t & s & x0 & v0 & Ht & Hs & Hp & -> & ->).
  exists t, s. split; [auto|]. split; [exact Hs|]. intros L L4.
  destruct (time_reduced mu q e tp ep t MU Q E1 Ht) as [[M0 M1] [j Ej]].
  pose proof (k_pos mu q e MU Q E1) as KP.
  assert (EA : binding_alpha mu q e = mu * (1 - e) / q) by (rewrite (al_eq mu q e Q); reflexivity || (field; lra)).
  apply solve_found in Hs. apply (found_accepted mu q e t MU Q E1) in Hs.
  assert (ER : Rabs (sqrt (binding_alpha mu q e) * s) = sqrt (mu * (1 - e) / q) * Rabs s) by (rewrite Rabs_mult, (Rabs_right (sqrt _)), EA by lra; reflexivity).
  destruct (root_accuracy e (mean_motion mu q e * t) E0 E1 M0 M1 W' _ Hs ltac:(rewrite ER; exact L) ltac:(rewrite ER; lra)) as [R1 R2].
  destruct (state_close mu q e t MU Q E0 W' s x0 v0 i N w Hp R1 R2) as [S1 S2].
  exists (sqrt (binding_alpha mu q e) * s), j. split; [|split; [exact S1|]].
  - unfold K in R1. rewrite Ej in R1. exact R1.
  - replace (mu / semi_major q e) with (binding_alpha mu q e); [exact S2|].
    rewrite EA. unfold semi_major. field. lra.
Qed.

Lemma C94_functions_proof : forall E, Rabs E <= 1000000 ->
  let b := (1 + E * E) / 1000000000000000000 in
  Rabs (c0 (stumpff (E * E)) - cos E) <= b
  /\ Rabs (E * c1 (stumpff (E * E)) - sin E) <= Rabs E * b
  /\ Rabs (E * E * c2 (stumpff (E * E)) - (1 - cos E)) <= E * E * b
  /\ Rabs (E * E * E * c3 (stumpff (E * E)) - (E - sin E)) <= Rabs E * (E * E) * b.
Proof. intros E H. exact (stumpff_trig E H). Qed.

(** ** The search for a bracket ends *)
Lemma bracket_ends F ds : forall n fuel sp fp s, fp < 0 -> 0 <= v_f (F (s + INR n * ds)) -> (n < fuel)%nat ->
  exists b, bracket F fuel ds sp fp s (v_f (F s)) = Ok b.
Proof.
  induction n as [|n IH]; intros fuel sp fp s Hp H L; (destruct fuel as [|fuel]; [lia|]); cbn [bracket]; destruct (Rlt_dec 0 (v_f (F s) * fp)) as [G|G]; try (eexists; reflexivity).
  - simpl in H. replace (s + 0 * ds) with s in H by ring. exfalso. nra.
  - apply IH; [nra| |lia]. replace (s + ds + INR n * ds) with (s + INR (S n) * ds) by (rewrite S_INR; ring). exact H.
Qed.
Lemma far_positive : forall e M E, 0 <= e -> e < 1 -> M <= 13/2 -> 8 <= E <= 8200 -> 0 <= Kt e M E.
Proof.
  intros e M E E0 E1 M1 HE. assert (A : Rabs E = E) by (apply Rabs_right; lra).
  pose proof (Kt_close e M E0 E1 E ltac:(lra)) as C. rewrite A in C. unfold eta in C.
  assert (B : (E + E * (E * E)) * ((1 + E * E) / 1000000000000000000) <= E / 100).
  { replace ((E + E * (E * E)) * ((1 + E * E) / 1000000000000000000)) with (E * ((1 + E * E) * (1 + E * E) / 1000000000000000000)) by field.
    unfold Rdiv at 2. apply Rmult_le_compat_l; [lra|].
    assert (0 <= E * E <= 67240000) by nra.
    assert ((1 + E * E) * (1 + E * E) <= 67240001 * 67240001) by (apply Rmult_le_compat; lra). lra. }
  apply Rabs_inv_le in C. unfold K in C. pose proof (SIN_bound E). assert (e * sin E <= 1) by nra. lra.
Qed.
Lemma multiple_beyond : forall d b, 0 < d -> 0 <= b -> exists n : nat, b <= INR (S n) * d <= b + d.
Proof.
  intros d b D B. assert (Q : 0 <= b / d) by (apply Rmult_le_pos; [auto|apply Rlt_le, Rinv_0_lt_compat; auto]).
  destruct (base_Int_part (b / d)) as [I1 I2].
  assert (Z : (0 <= Int_part (b / d))%Z).
  { apply le_IZR. apply Rnot_lt_le. intros L. assert (IZR (Int_part (b / d)) <= -1); [|lra].
    apply IZR_le. apply lt_IZR in L. lia. }
  exists (Z.to_nat (Int_part (b / d))). rewrite S_INR, INR_IZR_INZ, Z2Nat.id by auto.
  set (m := IZR (Int_part (b / d))) in *. assert (E : b = b / d * d) by (field; lra). set (x := b / d) in *. clearbody m x. rewrite E. split; nra.
Qed.
Lemma rdiv_no_fuel a b : rdiv a b <> Err OutOfFuel.
Proof. unfold rdiv. destruct (Req_EM_T b 0); discriminate. Qed.
Lemma hloop_no_fuel F xacc : forall n st, snd (hloop F xacc n st) <> Err OutOfFuel.
Proof.
  induction n as [|n IH]; intros st; simpl; [discriminate|].
  destruct (next_guess st) as [[dx r]|er] eqn:EN.
  2:{ simpl. intros H. injection H as ->. unfold next_guess in EN. destruct (must_bisect st); [discriminate|].
      unfold rbind in EN. destruct (rdiv (v_f _) _) eqn:A; [|injection EN as ->; apply rdiv_no_fuel in A; auto].
      destruct (rdiv (2 * _ * _) _) eqn:B; [discriminate|injection EN as ->; apply rdiv_no_fuel in B; auto]. }
  destruct (small_step xacc dx r) as [[]|er] eqn:ES; [discriminate| |].
  - match goal with |- snd (let '(tr, res) := hloop F xacc n ?s in _) <> _ => specialize (IH s); destruct (hloop F xacc n s); exact IH end.
  - simpl. intros H. injection H as ->. unfold small_step, rbind in ES. destruct (rdiv dx r) eqn:A; [discriminate|injection ES as ->; apply rdiv_no_fuel in A; auto].
Qed.
Lemma halley_no_fuel F xacc x1 x2 n : snd (halley_safe F xacc x1 x2 n) <> Err OutOfFuel.
Proof.
  unfold halley_safe. destruct (_ || _); [discriminate|]. destruct (Req_EM_T _ _); [discriminate|]. destruct (Req_EM_T _ _); [discriminate|].
  match goal with |- snd (let '(tr, res) := hloop F xacc n ?s in _) <> _ => pose proof (hloop_no_fuel F xacc n s) as H; destruct (hloop F xacc n s); exact H end.
Qed.
Lemma retry_no_fuel F xacc : forall left s r, retry F xacc left s r <> Err OutOfFuel.
Proof.
  induction left as [|left IH]; intros s [[b x] d]; cbn [retry]; (destruct b; [discriminate|]); unfold rbind;
    (destruct (rdiv _ _) as [k|er] eqn:A; [|intros H; injection H as ->; apply rdiv_no_fuel in A; auto]);
    (destruct (snd _) as [r'|er] eqn:B; [|intros H; injection H as ->; apply halley_no_fuel in B; auto]); [discriminate|apply IH].
Qed.
Lemma C94_ends_proof : forall mu q e i N w tp ep, 0 < mu -> 0 < q -> 0 <= e -> e < 1 -> q / (1 - e) <= 5000 ->
  exists enough, forall fuel, (enough <= fuel)%nat -> universal_cartesian fuel mu q e i N w tp ep <> Err OutOfFuel.
Proof.
  intros mu q e i N w tp ep MU Q E0 E1 HA.
  destruct (since_perihelion mu q e tp ep) as [t|er] eqn:Ht.
  2:{ exists O. intros fuel _ H. unfold universal_cartesian in H. rewrite Ht in H. cbn [rbind] in H. injection H as ->.
      unfold since_perihelion, rdiv, rbind in Ht. repeat match type of Ht with context[if ?b then _ else _] => destruct b end; discriminate. }
  destruct (time_reduced mu q e tp ep t MU Q E1 Ht) as [[M0 M1] _].
  set (al := binding_alpha mu q e). set (F := fun s => root_function s mu al q 0 t).
  pose proof (k_pos mu q e MU Q E1) as KP. fold al in KP. set (k := sqrt al) in *.
  pose proof (a_pos q e Q E1) as AP. set (a := semi_major q e) in *.
  pose proof (motion_eq mu q e MU Q E1) as MM. fold al a in MM. fold k in MM.
  assert (FE : forall s, v_f (F s) = a / k * Kt e (mean_motion mu q e * t) (k * s)) by (intros s; apply (f_eq mu q e t MU Q E1)).
  assert (T0 : 0 <= t). { rewrite MM in M0. apply Rmult_le_reg_l with (k / a); [apply Rdiv_lt_0_compat; lra|lra]. }
  assert (AK : 0 < a / k) by (apply Rdiv_lt_0_compat; auto).
  assert (B : exists n, forall fuel, (n <= fuel)%nat -> exists b, bracket F fuel ((t - 0) / 4) 0 (v_f (F 0)) (0 + (t - 0) / 4) (v_f (F (0 + (t - 0) / 4))) = Ok b).
  { assert (F0 : v_f (F 0) = - t).
    { unfold F, root_function. cbn [v_f]. ring. }
    destruct (Req_dec t 0) as [->|T].
    - exists 1%nat. intros [|fuel] L; [lia|]. cbn [bracket]. rewrite F0. destruct (Rlt_dec 0 _) as [G|G]; [exfalso; lra|]. eexists; reflexivity.
    - assert (TP : 0 < t) by lra. set (ds := (t - 0) / 4). assert (DS : 0 < k * ds) by (apply Rmult_lt_0_compat; unfold ds; lra).
      destruct (multiple_beyond (k * ds) 8 DS ltac:(lra)) as (n & N1 & N2).
      assert (KD : k * ds <= 8125).
      { replace (k * ds) with (a / 4 * (mean_motion mu q e * t)) by (rewrite MM; unfold ds; field; lra).
        assert (a <= 5000) by exact HA. apply Rle_trans with (5000 / 4 * (13 / 2)); [apply Rmult_le_compat; lra|lra]. }
      exists (S n). intros fuel L. apply (bracket_ends F ds n); [rewrite F0; lra| |lia].
      rewrite FE. apply Rmult_le_pos; [lra|]. apply far_positive; auto.
      replace (k * (0 + ds + INR n * ds)) with (INR (S n) * (k * ds)) by (rewrite S_INR; ring). lra. }
  destruct B as [n B]. exists n. intros fuel L H. destruct (B fuel L) as [b Eb]. clear B.
  unfold universal_cartesian in H. rewrite Ht in H. cbn [rbind] in H. rewrite !rdiv_value in H by lra. cbn [rbind] in H.
  fold (binding_alpha mu q e) in H. fold al in H. fold F in H.
  assert (SOLVE : solve F (1 / 100000000000000) fuel t <> Err OutOfFuel).
  { unfold solve. rewrite Eb. cbn [rbind].
    destruct (snd (halley_safe F _ _ _ 100)) as [r|er] eqn:R; cbn [rbind]; [apply retry_no_fuel|].
    intros G. injection G as ->. apply halley_no_fuel in R. auto. }
  destruct (solve F (1 / 100000000000000) fuel t) as [[ss|]|er]; cbn [rbind] in H; [|discriminate|congruence].
  unfold in_plane in H. unfold rdiv in H. repeat match type of H with context[Req_EM_T ?x 0] => destruct (Req_EM_T x 0) end; cbn [rbind] in H; discriminate.
Qed.
