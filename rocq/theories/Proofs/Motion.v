(** Conics swept at the rate of Kepler's equation obey the law of motion. *)
From Coq Require Import Reals Lra Psatz.
From Verif Require Import Base.Prelude Model.Sphere Spec.Sphere Spec.Kepler Spec.Anomaly Spec.Motion
  Proofs.EllipseState Proofs.HyperbolaState.
Open Scope R_scope.

(** ** Inverting Kepler's equation *)

Section Inverse.
Variables (K K' : R -> R) (m : R).
Hypothesis Hm : 0 < m.
Hypothesis HK : forall x, derivable_pt_lim K x (K' x).
Hypothesis Hlow : forall x, m <= K' x.

Lemma K_cont : continuity K.
Proof. intro x. apply derivable_continuous_pt. exists (K' x). apply HK. Qed.
Lemma K_expand : forall a b, a < b -> m * (b - a) <= K b - K a.
Proof.
  intros a b L. destruct (MVT_cor2 K K' a b L) as (c & E & _); [intros; apply HK|]. rewrite E.
  apply Rmult_le_compat_r; [lra|auto].
Qed.
Lemma K_solve : forall y, {x | K x = y}.
Proof.
  intro y. pose (r := (Rabs (y - K 0) + 1) / m).
  assert (Hr : 0 < r) by (apply Rdiv_lt_0_compat; auto; assert (H := Rabs_pos (y - K 0)); lra).
  assert (Er : m * r = Rabs (y - K 0) + 1) by (unfold r; field; lra).
  destruct (IVT_cor (fun x => K x - y) (-r) r) as (x & _ & E).
  - intro x. apply continuity_pt_minus; [apply K_cont|apply continuity_pt_const; intros a b; reflexivity].
  - lra.
  - assert (H1 := K_expand (-r) 0 ltac:(lra)). assert (H2 := K_expand 0 r ltac:(lra)).
    assert (A1 := Rle_abs (y - K 0)). assert (A2 := Rle_abs (- (y - K 0))). rewrite Rabs_Ropp in A2.
    assert (B1 : K (-r) - y <= 0) by lra. assert (B2 : 0 <= K r - y) by lra.
    assert (H := Rmult_le_pos (- (K (-r) - y)) (K r - y) ltac:(lra) B2). lra.
  - exists x. lra.
Qed.
Lemma inverse_derivative : forall (A : R -> R) c tp, 0 < c -> (forall t, K (A t) = c * (t - tp)) ->
  forall t, derivable_pt_lim A t (c / K' (A t)).
Proof.
  intros A c tp Hc HA t eps He. set (d := K' (A t)). assert (Hd : m <= d) by apply Hlow. 
  pose (e1 := Rmin (d / 2) (eps * (d * d) / (4 * c))).
  assert (He1 : 0 < e1).
  { apply Rmin_glb_lt; [lra|]. apply Rdiv_lt_0_compat; [|lra]. apply Rmult_lt_0_compat; auto. apply Rmult_lt_0_compat; lra. }
  destruct (HK (A t) e1 He1) as [del Hdel].
  assert (Hb : 0 < del * m / c) by (apply Rdiv_lt_0_compat; auto; apply Rmult_lt_0_compat; auto; apply cond_pos).
  exists (mkposreal _ Hb). cbn. intros h Hh Hs.
  set (u := A (t + h) - A t).
  assert (Eu : K (A t + u) - K (A t) = c * h) by (unfold u; replace (A t + (A (t + h) - A t)) with (A (t + h)) by ring; rewrite !HA; ring).
  assert (Hu0 : u <> 0). { intro Z. rewrite Z, Rplus_0_r in Eu. assert (c * h <> 0) by (apply Rmult_integral_contrapositive; split; lra). lra. }
  assert (Hus : Rabs u < del).
  { assert (m * Rabs u <= c * Rabs h).
    { rewrite <- (Rabs_right c), <- Rabs_mult, <- Eu by lra. destruct (Rlt_or_le 0 u) as [P|P].
      - assert (H := K_expand (A t) (A t + u) ltac:(lra)). rewrite (Rabs_right u) by lra. apply Rle_trans with (2 := Rle_abs _). lra.
      - assert (H := K_expand (A t + u) (A t) ltac:(lra)). rewrite (Rabs_left u) by lra. rewrite <- Rabs_Ropp. apply Rle_trans with (2 := Rle_abs _). lra. }
    apply Rmult_lt_reg_l with m; auto. apply Rle_lt_trans with (1 := H).
    apply Rmult_lt_compat_l with (r := c) in Hs; auto. replace (c * (del * m / c)) with (m * del) in Hs by (field; lra). exact Hs. }
  assert (Hq := Hdel u Hu0 Hus). set (s := (K (A t + u) - K (A t)) / u) in *. fold d in Hq.
  assert (Es : s * u = c * h) by (unfold s; rewrite Eu; field; auto).
  assert (Hs2 : d / 2 <= s). { assert (e1 <= d / 2) by apply Rmin_l. apply Rabs_def2 in Hq. lra. }
  assert (Eq : u / h = c / s).
  { clearbody s. apply Rmult_eq_reg_l with (s * h); [|apply Rmult_integral_contrapositive; split; lra].
    replace (s * h * (u / h)) with (s * u) by (field; auto). rewrite Es. field. lra. }
  fold u. rewrite Eq.
  replace (c / s - c / d) with (- (s - d) * (c / (s * d))) by (field; split; lra).
  assert (Hsd : d * d / 2 <= s * d) by (replace (d * d / 2) with (d / 2 * d) by field; apply Rmult_le_compat_r; lra).
  assert (Hdd : 0 < d * d) by (apply Rmult_lt_0_compat; lra).
  rewrite Rabs_mult, Rabs_Ropp, (Rabs_right (c / (s * d))) by (apply Rle_ge, Rlt_le, Rdiv_lt_0_compat; lra).
  apply Rle_lt_trans with (e1 * (c / (d * d / 2))).
  - apply Rmult_le_compat; [apply Rabs_pos|apply Rlt_le, Rdiv_lt_0_compat; lra|lra|].
    unfold Rdiv at 1 2. apply Rmult_le_compat_l; [lra|]. apply Rinv_le_contravar; lra.
  - apply Rle_lt_trans with (eps * (d * d) / (4 * c) * (c / (d * d / 2))).
    + apply Rmult_le_compat_r; [apply Rlt_le, Rdiv_lt_0_compat; lra|apply Rmin_r].
    + replace (eps * (d * d) / (4 * c) * (c / (d * d / 2))) with (eps / 2) by (field; lra). lra.
Qed.
End Inverse.

(** ** Derivatives along the orbit *)

Lemma dl_eq : forall f x l l', derivable_pt_lim f x l -> l = l' -> derivable_pt_lim f x l'.
Proof. intros; subst; auto. Qed.
Lemma dl_ext : forall f g x l, (forall z, f z = g z) -> derivable_pt_lim f x l -> derivable_pt_lim g x l.
Proof. intros f g x l E H eps He. destruct (H eps He) as [del Hd]. exists del. intros h H0 H1. rewrite <- !E. auto. Qed.
Lemma dl_lin : forall X Y t X' Y' a b, derivable_pt_lim X t X' -> derivable_pt_lim Y t Y' ->
  derivable_pt_lim (fun t => X t * a + Y t * b) t (X' * a + Y' * b).
Proof.
  intros X Y t X' Y' a b HX HY. assert (H := derivable_pt_lim_plus _ _ _ _ _ (derivable_pt_lim_scal _ a _ _ HX) (derivable_pt_lim_scal _ b _ _ HY)).
  eapply dl_ext; [|eapply dl_eq; [exact H|ring]]. intro z. unfold plus_fct, mult_real_fct. ring.
Qed.
Lemma moves_perifocal : forall i N w X Y t X' Y', derivable_pt_lim X t X' -> derivable_pt_lim Y t Y' ->
  moves (fun t => perifocal i N w (X t) (Y t)) t (perifocal i N w X' Y').
Proof.
  intros i N w X Y t X' Y' HX HY. unfold perifocal. repeat split; cbn [vx vy vz].
  - eapply dl_ext; [|eapply dl_eq; [apply (dl_lin X Y t X' Y' (cos N * cos w - sin N * sin w * cos i) (- (cos N * sin w + sin N * cos w * cos i))); auto|ring]]. intro; cbn; ring.
  - eapply dl_ext; [|eapply dl_eq; [apply (dl_lin X Y t X' Y' (sin N * cos w + cos N * sin w * cos i) (- (sin N * sin w - cos N * cos w * cos i))); auto|ring]]. intro; cbn; ring.
  - apply dl_lin; auto.
Qed.
Lemma pull_perifocal : forall mu i N w x y r, length3 (perifocal i N w x y) = r ->
  pull mu (perifocal i N w x y) = perifocal i N w (- mu / (r * r * r) * x) (- mu / (r * r * r) * y).
Proof. intros mu i N w x y r E. unfold pull. rewrite E. unfold perifocal. cbn [vx vy vz]. f_equal; ring. Qed.
(** In the orbit plane: positions and velocities as functions of an anomaly [A] that
    grows at the rate [n / K']. *)
Lemma swept : forall mu i N w (A : R -> R) (rate : R -> R) (X Y P Q X' Y' P' Q' r : R -> R),
  (forall t, derivable_pt_lim A t (rate (A t))) ->
  (forall a, derivable_pt_lim X a (X' a)) -> (forall a, derivable_pt_lim Y a (Y' a)) ->
  (forall a, derivable_pt_lim P a (P' a)) -> (forall a, derivable_pt_lim Q a (Q' a)) ->
  (forall a, 0 <= r a /\ X a * X a + Y a * Y a = r a * r a) ->
  (forall a, X' a * rate a = P a) -> (forall a, Y' a * rate a = Q a) ->
  (forall a, P' a * rate a = - mu / (r a * r a * r a) * X a) -> (forall a, Q' a * rate a = - mu / (r a * r a * r a) * Y a) ->
  two_body mu (fun t => perifocal i N w (X (A t)) (Y (A t))) (fun t => perifocal i N w (P (A t)) (Q (A t))).
Proof.
  intros mu i N w A rate X Y P Q X' Y' P' Q' r HA HX HY HP HQ Hr E1 E2 E3 E4 t.
  assert (C : forall F F', (forall a, derivable_pt_lim F a (F' a)) -> derivable_pt_lim (fun t => F (A t)) t (F' (A t) * rate (A t))).
  { intros F F' HF. apply (derivable_pt_lim_comp A F); auto. }
  split.
  - rewrite <- E1, <- E2. apply (moves_perifocal i N w (fun t => X (A t)) (fun t => Y (A t))); auto.
  - rewrite (pull_perifocal mu i N w _ _ (r (A t))).
    + rewrite <- E3, <- E4. apply (moves_perifocal i N w (fun t => P (A t)) (fun t => Q (A t))); auto.
    + rewrite length3_perifocal. destruct (Hr (A t)) as [R0 ->]. apply sqrt_square; auto.
Qed.

Lemma motion_rate : forall mu a, 0 < mu -> 0 < a -> sqrt (mu / (a * a * a)) = sqrt (mu * a) / (a * a).
Proof.
  intros mu a Hm Ha. replace (mu / (a * a * a)) with (mu * a / ((a * a) * (a * a))) by (field; lra).
  rewrite sqrt_div_alt by (apply Rmult_lt_0_compat; apply Rmult_lt_0_compat; auto). rewrite sqrt_square; auto. apply Rlt_le, Rmult_lt_0_compat; auto.
Qed.
Lemma dl_quot : forall c (f r : R -> R) f' r' x, r x <> 0 -> derivable_pt_lim f x f' -> derivable_pt_lim r x r' ->
  derivable_pt_lim (fun x => c * f x / r x) x (c * (f' * r x - f x * r') / (r x * r x)).
Proof.
  intros c f r f' r' x H0 Hf Hr. assert (H := derivable_pt_lim_div _ _ _ _ _ (derivable_pt_lim_scal f c x f' Hf) Hr H0).
  eapply dl_eq; [exact H|]. unfold Rsqr, mult_real_fct. field. auto.
Qed.

Lemma C94_motion_proof : forall mu q e i N w tp, 0 < mu -> 0 < q -> 0 <= e -> e < 1 ->
  exists E : R -> R, (forall t, E t - e * sin (E t) = sqrt (mu / (semi_major q e * semi_major q e * semi_major q e)) * (t - tp))
    /\ two_body mu (fun t => ellipse_position q e i N w (E t)) (fun t => ellipse_velocity mu q e i N w (E t)).
Proof.
  intros mu q e i N w tp Hmu Hq He0 He1. pose (a := semi_major q e).
  assert (Ha : 0 < a) by (apply Rdiv_lt_0_compat; lra).
  pose (K := fun E => E - e * sin E). pose (K' := fun E => 1 - e * cos E).
  assert (HK : forall x, derivable_pt_lim K x (K' x)).
  { intro x. apply (derivable_pt_lim_minus id (mult_real_fct e sin)); [apply derivable_pt_lim_id|apply derivable_pt_lim_scal, derivable_pt_lim_sin]. }
  assert (Hlow : forall x, 1 - e <= K' x).
  { intro x. unfold K'. assert (H := COS_bound x). assert (e * cos x <= e * 1) by (apply Rmult_le_compat_l; lra). lra. }
  set (k := sqrt (mu * a)). assert (Hk : 0 < k) by (apply sqrt_lt_R0, Rmult_lt_0_compat; auto).
  assert (Ek : k * k = mu * a) by (apply sqrt_sqrt, Rlt_le, Rmult_lt_0_compat; auto).
  assert (En : sqrt (mu / (a * a * a)) = k / (a * a)) by (apply motion_rate; auto).
  set (g := sqrt (1 - e * e)). assert (Eg : g * g = 1 - e * e).
  { apply sqrt_sqrt. assert (e * e <= e * 1) by (apply Rmult_le_compat_l; lra). lra. }
  pose (E := fun t => proj1_sig (K_solve K K' (1 - e) ltac:(lra) HK Hlow (k / (a * a) * (t - tp)))).
  assert (HE : forall t, K (E t) = k / (a * a) * (t - tp)).
  { intro t. unfold E. destruct (K_solve K K' (1 - e) _ HK Hlow (k / (a * a) * (t - tp))) as [x Hx]. exact Hx. }
  clearbody E. exists E. split; [intro t; fold a; rewrite En; apply HE|].
  assert (Hn : 0 < k / (a * a)) by (apply Rdiv_lt_0_compat; auto; apply Rmult_lt_0_compat; auto).
  assert (HA : forall t, derivable_pt_lim E t (k / (a * a) / K' (E t))).
  { intro t. exact (inverse_derivative K K' (1 - e) ltac:(lra) HK Hlow E (k / (a * a)) tp Hn HE t). }
  assert (Hr : forall x, derivable_pt_lim (fun E => a * (1 - e * cos E)) x (a * (e * sin x))).
  { intro x. assert (H := derivable_pt_lim_scal _ a _ _ (derivable_pt_lim_minus _ _ _ _ _ (derivable_pt_lim_const 1 x) (derivable_pt_lim_scal _ e _ _ (derivable_pt_lim_cos x)))).
    eapply dl_eq; [exact H|ring]. }
  assert (Hp : forall x, 0 < K' x) by (intro x; specialize (Hlow x); lra).
  assert (P0 : forall x, a * (1 - e * cos x) <> 0) by (intro x; apply Rmult_integral_contrapositive; specialize (Hp x); unfold K' in Hp; split; lra).
  assert (CS : forall x, sin x * sin x = 1 - cos x * cos x) by (intro x; assert (H := sin2_cos2 x); unfold Rsqr in H; lra).
  change (two_body mu (fun t => perifocal i N w ((fun x => a * (cos x - e)) (E t)) ((fun x => a * g * sin x) (E t)))
    (fun t => perifocal i N w ((fun x => - (k * sin x / (a * (1 - e * cos x)))) (E t)) ((fun x => k * g * cos x / (a * (1 - e * cos x))) (E t)))).
  apply (swept mu i N w E (fun x => k / (a * a) / K' x) (fun x => a * (cos x - e)) (fun x => a * g * sin x)
    (fun x => - (k * sin x / (a * (1 - e * cos x)))) (fun x => k * g * cos x / (a * (1 - e * cos x)))
    (fun x => - (a * sin x)) (fun x => a * g * cos x)
    (fun x => - (k * (cos x * (a * (1 - e * cos x)) - sin x * (a * (e * sin x))) / ((a * (1 - e * cos x)) * (a * (1 - e * cos x)))))
    (fun x => k * g * (- sin x * (a * (1 - e * cos x)) - cos x * (a * (e * sin x))) / ((a * (1 - e * cos x)) * (a * (1 - e * cos x))))
    (fun x => a * (1 - e * cos x))); auto.
  - intro x. assert (H := derivable_pt_lim_scal _ a _ _ (derivable_pt_lim_minus _ _ _ _ _ (derivable_pt_lim_cos x) (derivable_pt_lim_const e x))).
    eapply dl_eq; [exact H|ring].
  - intro x. apply (derivable_pt_lim_scal sin (a * g)), derivable_pt_lim_sin.
  - intro x. apply (derivable_pt_lim_opp (fun x => k * sin x / (a * (1 - e * cos x)))).
    apply (dl_quot k sin (fun x => a * (1 - e * cos x))); auto. apply derivable_pt_lim_sin.
  - intro x. apply (dl_quot (k * g) cos (fun x => a * (1 - e * cos x))); auto. apply derivable_pt_lim_cos.
  - intro x. split; [apply Rmult_le_pos; [lra|]; specialize (Hp x); unfold K' in Hp; lra|].
    replace (a * g * sin x * (a * g * sin x)) with (a * a * (g * g) * (sin x * sin x)) by ring. rewrite Eg, CS. ring.
  - intro x. unfold K'. specialize (Hp x). unfold K' in Hp. field. split; lra.
  - intro x. unfold K'. specialize (Hp x). unfold K' in Hp. field. split; lra.
  - intro x. unfold K'. specialize (Hp x). unfold K' in Hp.
    replace (cos x * (a * (1 - e * cos x)) - sin x * (a * (e * sin x))) with (a * (cos x * (1 - e * cos x) - e * (sin x * sin x))) by ring. rewrite CS.
    replace mu with (k * k / a) by (rewrite Ek; field; lra). field. split; lra.
  - intro x. unfold K'. specialize (Hp x). unfold K' in Hp.
    replace mu with (k * k / a) by (rewrite Ek; field; lra). field. split; lra.
Qed.

Lemma C96_motion_proof : forall mu q e i N w tp, 0 < mu -> 0 < q -> 1 < e -> let a := q / (e - 1) in
  exists F : R -> R, (forall t, e * sinh (F t) - F t = sqrt (mu / (a * a * a)) * (t - tp))
    /\ two_body mu (fun t => hyperbola_position q e i N w (F t)) (fun t => hyperbola_velocity mu q e i N w (F t)).
Proof.
  intros mu q e i N w tp Hmu Hq He a.
  assert (Ha : 0 < a) by (apply Rdiv_lt_0_compat; lra).
  pose (K := fun E => e * sinh E - E). pose (K' := fun E => e * cosh E - 1).
  assert (HK : forall x, derivable_pt_lim K x (K' x)).
  { intro x. apply (derivable_pt_lim_minus (mult_real_fct e sinh) id); [apply derivable_pt_lim_scal, derivable_pt_lim_sinh|apply derivable_pt_lim_id]. }
  assert (CS : forall x, sinh x * sinh x = cosh x * cosh x - 1).
  { intro x. unfold sinh, cosh. assert (E1 : exp x * exp (-x) = 1) by (rewrite <- exp_plus, Rplus_opp_r; apply exp_0). 
    replace ((exp x - exp (-x)) / 2 * ((exp x - exp (-x)) / 2)) with ((exp x * exp x + exp (-x) * exp (-x) - 2 * (exp x * exp (-x))) / 4) by field.
    replace ((exp x + exp (-x)) / 2 * ((exp x + exp (-x)) / 2)) with ((exp x * exp x + exp (-x) * exp (-x) + 2 * (exp x * exp (-x))) / 4) by field.
    rewrite E1. field. }
  assert (C1 : forall x, 1 <= cosh x).
  { intro x. assert (P : 0 < cosh x) by (unfold cosh; assert (H1 := exp_pos x); assert (H2 := exp_pos (-x)); lra).
    assert (H := CS x). assert (S := Rle_0_sqr (sinh x)). unfold Rsqr in S. destruct (Rle_lt_dec 1 (cosh x)); auto.
    assert (cosh x * cosh x < 1 * 1) by (apply Rmult_le_0_lt_compat; lra). lra. }
  assert (Hlow : forall x, e - 1 <= K' x).
  { intro x. unfold K'. specialize (C1 x). assert (e * 1 <= e * cosh x) by (apply Rmult_le_compat_l; lra). lra. }
  set (k := sqrt (mu * a)). assert (Hk : 0 < k) by (apply sqrt_lt_R0, Rmult_lt_0_compat; auto).
  assert (Ek : k * k = mu * a) by (apply sqrt_sqrt, Rlt_le, Rmult_lt_0_compat; auto).
  assert (En : sqrt (mu / (a * a * a)) = k / (a * a)) by (apply motion_rate; auto).
  set (g := sqrt (e * e - 1)). assert (Eg : g * g = e * e - 1).
  { apply sqrt_sqrt. assert (e * 1 <= e * e) by (apply Rmult_le_compat_l; lra). lra. }
  pose (E := fun t => proj1_sig (K_solve K K' (e - 1) ltac:(lra) HK Hlow (k / (a * a) * (t - tp)))).
  assert (HE : forall t, K (E t) = k / (a * a) * (t - tp)).
  { intro t. unfold E. destruct (K_solve K K' (e - 1) _ HK Hlow (k / (a * a) * (t - tp))) as [x Hx]. exact Hx. }
  clearbody E. exists E. split; [intro t; rewrite En; apply HE|].
  assert (Hn : 0 < k / (a * a)) by (apply Rdiv_lt_0_compat; auto; apply Rmult_lt_0_compat; auto).
  assert (HA : forall t, derivable_pt_lim E t (k / (a * a) / K' (E t))).
  { intro t. exact (inverse_derivative K K' (e - 1) ltac:(lra) HK Hlow E (k / (a * a)) tp Hn HE t). }
  assert (Hr : forall x, derivable_pt_lim (fun E => a * (e * cosh E - 1)) x (a * (e * sinh x))).
  { intro x. assert (H := derivable_pt_lim_scal _ a _ _ (derivable_pt_lim_minus _ _ _ _ _ (derivable_pt_lim_scal _ e _ _ (derivable_pt_lim_cosh x)) (derivable_pt_lim_const 1 x))).
    eapply dl_eq; [exact H|ring]. }
  assert (Hp : forall x, 0 < e * cosh x - 1) by (intro x; specialize (Hlow x); unfold K' in Hlow; lra).
  assert (P0 : forall x, a * (e * cosh x - 1) <> 0) by (intro x; apply Rmult_integral_contrapositive; specialize (Hp x); split; lra).
  change (two_body mu (fun t => perifocal i N w ((fun x => a * (e - cosh x)) (E t)) ((fun x => a * g * sinh x) (E t)))
    (fun t => perifocal i N w ((fun x => - (k * sinh x / (a * (e * cosh x - 1)))) (E t)) ((fun x => k * g * cosh x / (a * (e * cosh x - 1))) (E t)))).
  apply (swept mu i N w E (fun x => k / (a * a) / K' x) (fun x => a * (e - cosh x)) (fun x => a * g * sinh x)
    (fun x => - (k * sinh x / (a * (e * cosh x - 1)))) (fun x => k * g * cosh x / (a * (e * cosh x - 1)))
    (fun x => - (a * sinh x)) (fun x => a * g * cosh x)
    (fun x => - (k * (cosh x * (a * (e * cosh x - 1)) - sinh x * (a * (e * sinh x))) / ((a * (e * cosh x - 1)) * (a * (e * cosh x - 1)))))
    (fun x => k * g * (sinh x * (a * (e * cosh x - 1)) - cosh x * (a * (e * sinh x))) / ((a * (e * cosh x - 1)) * (a * (e * cosh x - 1))))
    (fun x => a * (e * cosh x - 1))); auto.
  - intro x. assert (H := derivable_pt_lim_scal _ a _ _ (derivable_pt_lim_minus _ _ _ _ _ (derivable_pt_lim_const e x) (derivable_pt_lim_cosh x))).
    eapply dl_eq; [exact H|ring].
  - intro x. apply (derivable_pt_lim_scal sinh (a * g)), derivable_pt_lim_sinh.
  - intro x. apply (derivable_pt_lim_opp (fun x => k * sinh x / (a * (e * cosh x - 1)))).
    apply (dl_quot k sinh (fun x => a * (e * cosh x - 1))); auto. apply derivable_pt_lim_sinh.
  - intro x. apply (dl_quot (k * g) cosh (fun x => a * (e * cosh x - 1))); auto. apply derivable_pt_lim_cosh.
  - intro x. split; [apply Rmult_le_pos; [lra|]; specialize (Hp x); lra|].
    replace (a * g * sinh x * (a * g * sinh x)) with (a * a * (g * g) * (sinh x * sinh x)) by ring. rewrite Eg, CS. ring.
  - intro x. unfold K'. specialize (Hp x). field. split; lra.
  - intro x. unfold K'. specialize (Hp x). field. split; lra.
  - intro x. unfold K'. specialize (Hp x).
    replace (cosh x * (a * (e * cosh x - 1)) - sinh x * (a * (e * sinh x))) with (a * (cosh x * (e * cosh x - 1) - e * (sinh x * sinh x))) by ring. rewrite CS.
    replace mu with (k * k / a) by (rewrite Ek; field; lra). field. split; lra.
  - intro x. unfold K'. specialize (Hp x).
    replace mu with (k * k / a) by (rewrite Ek; field; lra). field. split; lra.
Qed.

Lemma C96_parabola_motion_proof : forall mu q i N w tp, 0 < mu -> 0 < q ->
  exists nu : R -> R, (forall t, - PI < nu t < PI
      /\ tan (nu t / 2) + tan (nu t / 2) * tan (nu t / 2) * tan (nu t / 2) / 3 = sqrt (mu / (2 * (q * q * q))) * (t - tp))
    /\ two_body mu (fun t => conic_position q 1 i N w (nu t)) (fun t => conic_velocity mu q 1 i N w (nu t)).
Proof.
  intros mu q i N w tp Hmu Hq.
  pose (K := fun D => D + D * D * D / 3). pose (K' := fun D => 1 + D * D).
  assert (Hsq : forall x, derivable_pt_lim (fun D => D * D) x (2 * x)).
  { intro x. eapply dl_eq; [apply (derivable_pt_lim_mult id id); apply derivable_pt_lim_id|]. unfold id. ring. }
  assert (HK : forall x, derivable_pt_lim K x (K' x)).
  { intro x. assert (H := derivable_pt_lim_plus _ _ _ _ _ (derivable_pt_lim_id x) (derivable_pt_lim_scal _ (1/3) _ _ (derivable_pt_lim_mult _ _ _ _ _ (Hsq x) (derivable_pt_lim_id x)))).
    eapply dl_ext; [|eapply dl_eq; [exact H|]]; [intro z|]; unfold plus_fct, mult_real_fct, mult_fct, id, K, K'; field. }
  assert (Hlow : forall x, 1 <= K' x).
  { intro x. unfold K'. assert (S := Rle_0_sqr x). unfold Rsqr in S. lra. }
  set (n := sqrt (mu / (2 * (q * q * q)))).
  assert (Hq3 : 0 < q * q * q) by (apply Rmult_lt_0_compat; auto; apply Rmult_lt_0_compat; auto).
  assert (Hn : 0 < n) by (apply sqrt_lt_R0, Rdiv_lt_0_compat; lra).
  assert (En : n * n = mu / (2 * (q * q * q))) by (apply sqrt_sqrt, Rlt_le, Rdiv_lt_0_compat; lra).
  assert (Ec : sqrt (mu / (q * (1 + 1))) = q * n).
  { replace (mu / (q * (1 + 1))) with ((q * n) * (q * n)); [apply sqrt_square, Rlt_le, Rmult_lt_0_compat; auto|].
    replace (q * n * (q * n)) with (q * q * (n * n)) by ring. rewrite En. field. lra. }
  pose (D := fun t => proj1_sig (K_solve K K' 1 ltac:(lra) HK Hlow (n * (t - tp)))).
  assert (HD : forall t, K (D t) = n * (t - tp)).
  { intro t. unfold D. destruct (K_solve K K' 1 _ HK Hlow (n * (t - tp))) as [x Hx]. exact Hx. }
  clearbody D.
  assert (HA : forall t, derivable_pt_lim D t (n / K' (D t))).
  { intro t. exact (inverse_derivative K K' 1 ltac:(lra) HK Hlow D n tp Hn HD t). }
  assert (T : forall x, tan (2 * atan x / 2) = x) by (intro x; replace (2 * atan x / 2) with (atan x) by field; apply tan_atan).
  assert (Hp : forall x, 0 < 1 + x * x) by (intro x; specialize (Hlow x); unfold K' in Hlow; lra).
  assert (Half : forall x, cos (2 * atan x) = (1 - x * x) / (1 + x * x) /\ sin (2 * atan x) = 2 * x / (1 + x * x)).
  { intro x. specialize (Hp x). assert (B := atan_bound x).
    assert (C0 : 0 < cos (atan x)) by (apply cos_gt_0; lra).
    assert (Es : sin (atan x) = x * cos (atan x)). { assert (H := tan_atan x). unfold tan in H. rewrite <- H at 2. field. lra. }
    assert (E2 := sin2_cos2 (atan x)). unfold Rsqr in E2. rewrite Es in E2.
    assert (Ec2 : cos (atan x) * cos (atan x) = 1 / (1 + x * x)).
    { apply Rmult_eq_reg_l with (1 + x * x); [|lra]. field_simplify; [|lra]. lra. }
    rewrite cos_2a, sin_2a, Es. split.
    - replace (cos (atan x) * cos (atan x) - x * cos (atan x) * (x * cos (atan x))) with ((1 - x * x) * (cos (atan x) * cos (atan x))) by ring.
      rewrite Ec2. field. lra.
    - replace (2 * (x * cos (atan x)) * cos (atan x)) with (2 * x * (cos (atan x) * cos (atan x))) by ring. rewrite Ec2. field. lra. }
  exists (fun t => 2 * atan (D t)). split.
  { intro t. split; [assert (B := atan_bound (D t)); lra|]. rewrite T. apply HD. }
  assert (W : two_body mu (fun t => perifocal i N w ((fun x => q * (1 - x * x)) (D t)) ((fun x => 2 * q * x) (D t)))
    (fun t => perifocal i N w ((fun x => - 2 * (q * n) * x / (1 + x * x)) (D t)) ((fun x => 2 * (q * n) * 1 / (1 + x * x)) (D t)))).
  { assert (H1 : forall x, derivable_pt_lim (fun x => 1 + x * x) x (2 * x)).
    { intro x. eapply dl_eq; [apply (derivable_pt_lim_plus (fct_cte 1) (fun D => D * D)); [apply derivable_pt_lim_const|apply Hsq]|]. ring. }
    apply (swept mu i N w D (fun x => n / K' x) (fun x => q * (1 - x * x)) (fun x => 2 * q * x)
      (fun x => - 2 * (q * n) * x / (1 + x * x)) (fun x => 2 * (q * n) * 1 / (1 + x * x))
      (fun x => q * (- (2 * x))) (fun x => 2 * q)
      (fun x => - 2 * (q * n) * (1 * (1 + x * x) - x * (2 * x)) / ((1 + x * x) * (1 + x * x)))
      (fun x => 2 * (q * n) * (0 * (1 + x * x) - 1 * (2 * x)) / ((1 + x * x) * (1 + x * x)))
      (fun x => q * (1 + x * x))); auto.
    - intro x. assert (H := derivable_pt_lim_scal _ q _ _ (derivable_pt_lim_minus _ _ _ _ _ (derivable_pt_lim_const 1 x) (Hsq x))).
      eapply dl_eq; [exact H|ring].
    - intro x. eapply dl_eq; [apply (derivable_pt_lim_scal id (2 * q)), derivable_pt_lim_id|ring].
    - intro x. apply (dl_quot (- 2 * (q * n)) id (fun x => 1 + x * x)); auto; [specialize (Hp x); lra|apply derivable_pt_lim_id].
    - intro x. apply (dl_quot (2 * (q * n)) (fct_cte 1) (fun x => 1 + x * x)); auto; [specialize (Hp x); lra|apply derivable_pt_lim_const].
    - intro x. split; [apply Rmult_le_pos; [lra|]; specialize (Hp x); lra|ring].
    - intro x. specialize (Hp x). unfold K'. field. lra.
    - intro x. specialize (Hp x). unfold K'. field. lra.
    - intro x. specialize (Hp x). unfold K'. replace mu with (2 * (q * q * q) * (n * n)) by (rewrite En; field; lra). field. split; lra.
    - intro x. specialize (Hp x). unfold K'. replace mu with (2 * (q * q * q) * (n * n)) by (rewrite En; field; lra). field. split; lra. }
  assert (Ex : forall t, perifocal i N w (q * (1 - D t * D t)) (2 * q * D t) = conic_position q 1 i N w (2 * atan (D t))).
  { intro t. unfold conic_position. destruct (Half (D t)) as [-> ->]. specialize (Hp (D t)). f_equal; field; split; lra. }
  assert (Ev : forall t, perifocal i N w (- 2 * (q * n) * D t / (1 + D t * D t)) (2 * (q * n) * 1 / (1 + D t * D t)) = conic_velocity mu q 1 i N w (2 * atan (D t))).
  { intro t. unfold conic_velocity. rewrite Ec. destruct (Half (D t)) as [-> ->]. specialize (Hp (D t)). f_equal; field; lra. }
  intro t. destruct (W t) as [[W1 [W2 W3]] [W4 [W5 W6]]]. cbv beta in *. rewrite Ev in *. rewrite Ex in *.
  split; (split; [|split]); (eapply dl_ext; [|eassumption]); intro z; cbv beta; rewrite ?Ex, ?Ev; reflexivity.
Qed.
