(** Light time in the rows of the ephemeris. *)
From Coq Require Import String List ZArith Bool Reals Lra Lia Permutation.
From Verif Require Import Base.Prelude Model.Sphere Model.Ephemeris Spec.Sphere Spec.Ephemeris
  Proofs.Sphere Proofs.Sky Proofs.Ephemeris Proofs.EphemerisRows.
Import ListNotations.
Open Scope R_scope.

Lemma C40_seen_proof : forall trajectory jd_ref observatory k t v lt,
  let c := 299792458 * 86400 / 149597870700 in
  let pos := fun u => fst (trajectory k (u - jd_ref)) in
  (forall a b, norm (vsub (pos a) (pos b)) <= v * Rabs (a - b)) -> 0 <= v ->
  norm (vsub (pos (t - lt)) (observatory t)) = c * lt ->
  exists used, Rabs (used - lt) <= (v / c) * (v / c) * Rabs (1/100 - lt)
    /\ (vsub (pos (t - used)) (observatory t) <> V3 0 0 0 ->
        unit (seen trajectory jd_ref observatory k t)
        /\ along (vsub (pos (t - used)) (observatory t)) (seen trajectory jd_ref observatory k t)).
Proof.
  intros trajectory jd_ref observatory k t v lt c pos HL Hv Hlt.
  unfold seen, rho_hat. destruct (integrate_light_time _ _ _ _ _) as [[[rho lt'] p] vel] eqn:E.
  assert (HL' : forall a b, norm (vsub (fst (trajectory k a)) (fst (trajectory k b))) <= v * Rabs (a - b)).
  { intros a b. specialize (HL (a + jd_ref) (b + jd_ref)). unfold pos in HL.
    replace (a + jd_ref - jd_ref) with a in HL by ring. replace (b + jd_ref - jd_ref) with b in HL by ring.
    replace (a + jd_ref - (b + jd_ref)) with (a - b) in HL by ring. exact HL. }
  assert (Hlt' : norm (vsub (fst (trajectory k (t - jd_ref - lt))) (observatory t)) = c * lt).
  { unfold pos in Hlt. replace (t - lt - jd_ref) with (t - jd_ref - lt) in Hlt by ring. exact Hlt. }
  destruct (C63_light_time_proof _ v _ _ _ lt 3%nat _ _ _ _ HL' Hv Hlt' ltac:(lia) E) as (used & U1 & U2 & U3 & _).
  exists used. assert (EP : forall x, x ^ (3 - 1) = x * x) by (intros; simpl; ring). rewrite EP in U1. split; [exact U1|]. intros NZ.
  assert (Er : vsub (pos (t - used)) (observatory t) = rho).
  { rewrite U3. f_equal. unfold pos. replace (t - used - jd_ref) with (t - jd_ref - used) by ring. rewrite <- U2. reflexivity. }
  rewrite Er in *. clear - NZ.
  assert (N : 0 < norm rho).
  { unfold norm. apply sqrt_lt_R0. unfold dot. destruct rho as [x y z]; cbn [vx vy vz] in *.
    destruct (Req_dec x 0); [destruct (Req_dec y 0); [destruct (Req_dec z 0); [subst; congruence|]|]|]; nra. }
  split.
  - unfold unit, scale; cbn [vx vy vz]. assert (S : norm rho * norm rho = dot rho rho) by apply norm_sq. unfold dot in S.
    apply Rmult_eq_reg_l with (norm rho * norm rho); [|apply Rgt_not_eq; nra].
    rewrite S at 2. field. lra.
  - exists (norm rho). split; [auto|]. destruct rho as [x y z]. unfold scale; cbn [vx vy vz]. f_equal; field; lra.
Qed.

Lemma C41_light_proof : forall trajectory jd_ref observatory vec2pix nbrs n_sub interval sims set_order disc fov buffer visits rows,
  0 < interval -> set_listing set_order ->
  ephemeris_rows trajectory jd_ref observatory vec2pix nbrs n_sub interval sims set_order disc fov buffer visits = Ok rows ->
  forall r, In r rows ->
  let c := 299792458 * 86400 / 149597870700 in
  let pos := fun u => fst (trajectory (e_obj r) (u - jd_ref)) in
  forall v lt, (forall a b, norm (vsub (pos a) (pos b)) <= v * Rabs (a - b)) -> 0 <= v ->
  norm (vsub (pos (v_jd (e_visit r) - lt)) (v_obs (e_visit r))) = c * lt ->
  norm (vsub (e_rho r) (vsub (pos (v_jd (e_visit r) - lt)) (v_obs (e_visit r)))) <= v * ((v / c) * (v / c)) * Rabs (1/100 - lt).
Proof.
  intros trajectory jd_ref observatory vec2pix nbrs n_sub interval sims set_order disc fov buffer visits rows HI HO HE r HR c pos v lt HL Hv Hlt.
  destruct visits as [|v0 vs]; [unfold ephemeris_rows in HE; discriminate|].
  destruct (C41_rows_proof trajectory jd_ref observatory vec2pix nbrs n_sub interval sims set_order disc fov buffer v0 vs HI HO) as (blocks & B1 & B2).
  assert (rows = concat blocks) by congruence. subst rows. clear HE B1.
  assert (P : e_rho r = precise trajectory jd_ref (e_obj r) (e_visit r)).
  { apply in_concat in HR as (b & Hb & Hr). clear - B2 Hb Hr. revert Hb.
    induction B2 as [|x y xs ys HB B IH]; intros Hb; [contradiction|]. destruct Hb as [->|Hb]; [|auto].
    destruct HB as (tc & ti & _ & _ & _ & _ & _ & H). pose proof (proj1 (H r) Hr) as G. rewrite (proj1 G). exact (proj1 (proj2 G)). }
  rewrite P. unfold precise. destruct (integrate_light_time _ _ _ _ _) as [[[rho lt'] p] vel] eqn:E.
  set (t := v_jd (e_visit r)) in *.
  assert (HL' : forall a b, norm (vsub (fst (trajectory (e_obj r) a)) (fst (trajectory (e_obj r) b))) <= v * Rabs (a - b)).
  { intros a b. specialize (HL (a + jd_ref) (b + jd_ref)). unfold pos in HL.
    replace (a + jd_ref - jd_ref) with a in HL by ring. replace (b + jd_ref - jd_ref) with b in HL by ring.
    replace (a + jd_ref - (b + jd_ref)) with (a - b) in HL by ring. exact HL. }
  assert (Hp : pos (t - lt) = fst (trajectory (e_obj r) (t - jd_ref - lt))) by (unfold pos; do 2 f_equal; ring).
  rewrite Hp in *.
  destruct (C63_light_time_proof _ v _ _ _ lt 3%nat _ _ _ _ HL' Hv Hlt ltac:(lia) E) as (used & _ & _ & _ & U4 & _).
  assert (EP : forall x, x ^ (3 - 1) = x * x) by (intros; simpl; ring). rewrite EP in U4. exact U4.
Qed.
