(** Proofs about vignetting, fading, distances and variability. *)
From Coq Require Import String List ZArith Bool Reals Lra Lia.
From Verif Require Import Base.Prelude Model.Sphere Model.Photometry Spec.Sphere Proofs.Sphere Proofs.Sky Proofs.Randomize Proofs.Photometry.
Import ListNotations.
Open Scope R_scope.

(** ** C28 *)

Fixpoint falling (x0 y0 : R) (l : list (R * R)) : Prop :=
  match l with
  | [] => True
  | (x1, y1) :: l' => x0 < x1 /\ y1 <= y0 /\ falling x1 y1 l'
  end.
Fixpoint last_y (y0 : R) (l : list (R * R)) : R := match l with [] => y0 | (_, y1) :: l' => last_y y1 l' end.

Lemma segment_bounds : forall x0 y0 x1 y1 x, x0 < x1 -> y1 <= y0 -> x0 <= x < x1 ->
  y1 <= y0 + (y1 - y0) / (x1 - x0) * (x - x0) <= y0.
Proof.
  intros x0 y0 x1 y1 x Hx Hy H. set (t := (x - x0) / (x1 - x0)).
  assert (Hi : 0 < / (x1 - x0)) by (apply Rinv_0_lt_compat; lra).
  assert (T : 0 <= t <= 1).
  { unfold t, Rdiv. split; [apply Rmult_le_pos; lra|]. apply Rmult_le_reg_r with (x1 - x0); [lra|]. rewrite Rmult_assoc, Rinv_l by lra. lra. }
  replace ((y1 - y0) / (x1 - x0) * (x - x0)) with (- ((y0 - y1) * t)) by (unfold t; field; lra).
  assert (0 <= (y0 - y1) * t) by (apply Rmult_le_pos; lra).
  assert (0 <= (y0 - y1) * (1 - t)) by (apply Rmult_le_pos; lra). lra.
Qed.
Lemma segment_mono : forall x0 y0 x1 y1 x x', x0 < x1 -> y1 <= y0 -> x <= x' ->
  y0 + (y1 - y0) / (x1 - x0) * (x' - x0) <= y0 + (y1 - y0) / (x1 - x0) * (x - x0).
Proof.
  intros x0 y0 x1 y1 x x' Hx Hy H.
  assert (Hi : 0 < / (x1 - x0)) by (apply Rinv_0_lt_compat; lra).
  assert (0 <= (y0 - y1) * / (x1 - x0)) by (apply Rmult_le_pos; lra).
  assert (0 <= (y0 - y1) * / (x1 - x0) * (x' - x)) by (apply Rmult_le_pos; lra).
  unfold Rdiv. replace ((y1 - y0) * / (x1 - x0)) with (- ((y0 - y1) * / (x1 - x0))) by ring. lra.
Qed.

Lemma last_le : forall l x0 y0, falling x0 y0 l -> last_y y0 l <= y0.
Proof. induction l as [|[x1 y1] l IH]; intros x0 y0 H; cbn in *; [lra|]. destruct H as [H1 [H2 H3]]. apply IH in H3. lra. Qed.
Lemma interp_from_bounds : forall l x0 y0 x, falling x0 y0 l -> x0 <= x -> last_y y0 l <= interp_from x0 y0 l x <= y0.
Proof.
  induction l as [|[x1 y1] l IH]; intros x0 y0 x H Hx; cbn in *; [lra|]. destruct H as [H1 [H2 H3]].
  pose proof (last_le _ _ _ H3). destruct (Rlt_dec x x1).
  - pose proof (segment_bounds x0 y0 x1 y1 x ltac:(lra) ltac:(lra) ltac:(lra)). lra.
  - specialize (IH x1 y1 x H3 ltac:(lra)). lra.
Qed.
Lemma interp_from_mono : forall l x0 y0 x x', falling x0 y0 l -> x0 <= x <= x' -> interp_from x0 y0 l x' <= interp_from x0 y0 l x.
Proof.
  induction l as [|[x1 y1] l IH]; intros x0 y0 x x' H Hx; cbn in *; [lra|]. destruct H as [H1 [H2 H3]].
  destruct (Rlt_dec x' x1), (Rlt_dec x x1); try lra.
  - apply segment_mono; lra.
  - pose proof (segment_bounds x0 y0 x1 y1 x ltac:(lra) ltac:(lra) ltac:(lra)).
    pose proof (interp_from_bounds l x1 y1 x' H3 ltac:(lra)). lra.
  - apply IH; auto; lra.
Qed.

(** The table, checked on integers. *)
Fixpoint zfalling (y0 : Z) (l : list Z) : bool :=
  match l with [] => true | y1 :: l' => (y1 <=? y0)%Z && zfalling y1 l' end.
Definition conv (p : Z * Z) : R * R := (IZR (fst p) * 0.02, IZR (snd p) / 1000000 / (IZR 623885 / 1000000)).
Lemma zfalling_falling : forall l i y0, zfalling y0 l = true ->
  falling (fst (conv (i, y0))) (snd (conv (i, y0))) (map conv (number (i + 1) l)).
Proof.
  induction l as [|y1 l IH]; intros i y0 H; cbn [zfalling number map falling] in *; auto.
  apply andb_true_iff in H. destruct H as [H1 H2]. apply Z.leb_le in H1. destruct (conv ((i + 1)%Z, y1)) as [a b] eqn:E.
  unfold conv in E. cbn [fst snd] in E. injection E as <- <-. split; [|split].
  - unfold conv; cbn [fst snd]. rewrite plus_IZR. lra.
  - unfold conv; cbn [fst snd]. apply IZR_le in H1. lra.
  - exact (IH (i + 1)%Z y1 H2).
Qed.
Lemma table_eq : vignet_table = conv (0, 623885)%Z :: map conv (number 1 (tl vignet_frac)).
Proof. reflexivity. Qed.
Lemma conv0 : conv (0, 623885)%Z = (0, 1).
Proof. unfold conv; cbn [fst snd]. f_equal; lra. Qed.
Lemma table_falling : falling 0 1 (map conv (number 1 (tl vignet_frac))).
Proof.
  pose proof (zfalling_falling (tl vignet_frac) 0 623885 ltac:(vm_compute; reflexivity)) as H. rewrite conv0 in H. exact H.
Qed.
Lemma table_last : last_y 1 (map conv (number 1 (tl vignet_frac))) = 201974 / 623885.
Proof. cbn [tl vignet_frac number map last_y conv fst snd Z.add]. lra. Qed.

Definition vfrac (x : R) : R := interp vignet_table x.
Lemma vfrac_from : forall x, 0 <= x -> vfrac x = interp_from 0 1 (map conv (number 1 (tl vignet_frac))) x.
Proof.
  intros x Hx. unfold vfrac. rewrite table_eq, conv0. unfold interp. destruct (Rlt_dec x 0); [lra|]. reflexivity.
Qed.
Lemma vfrac_bounds : forall x, 0 <= x -> 201974 / 623885 <= vfrac x <= 1.
Proof.
  intros x Hx. rewrite vfrac_from by auto. rewrite <- table_last. apply interp_from_bounds; auto. apply table_falling.
Qed.
Lemma vfrac_mono : forall x x', 0 <= x <= x' -> vfrac x' <= vfrac x.
Proof. intros. rewrite !vfrac_from by lra. apply interp_from_mono; auto. apply table_falling. Qed.

Lemma plateau : forall k l i x, firstn k l = repeat 623885%Z k -> IZR i * 0.02 <= x <= IZR (i + Z.of_nat k) * 0.02 ->
  interp_from (IZR i * 0.02) 1 (map conv (number (i + 1) l)) x = 1.
Proof.
  induction k as [|k IH]; intros l i x H Hx.
  - assert (E : x = IZR i * 0.02) by (cbn [Z.of_nat] in Hx; rewrite Z.add_0_r in Hx; lra). subst x.
    destruct l as [|y l]; cbn [number map interp_from]; auto. unfold conv; cbn [fst snd]. rewrite plus_IZR.
    destruct (Rlt_dec _ _); [ring|lra].
  - destruct l as [|y l]; [discriminate|]. cbn [firstn repeat] in H. injection H as -> H.
    cbn [number map interp_from]. unfold conv at 1; cbn [fst snd].
    replace (IZR 623885 / 1000000 / (IZR 623885 / 1000000)) with 1 by lra.
    destruct (Rlt_dec x (IZR (i + 1) * 0.02)).
    + unfold Rdiv. ring.
    + apply IH; auto. split; [lra|]. replace (i + 1 + Z.of_nat k)%Z with (i + Z.of_nat (S k))%Z by lia. lra.
Qed.
Lemma vfrac_plateau : forall x, 0 <= x <= 0.64 -> vfrac x = 1.
Proof.
  intros x H. rewrite vfrac_from by lra. pose proof (plateau 32 (tl vignet_frac) 0 x ltac:(reflexivity)) as P.
  replace (0 * 0.02) with 0 in P by ring. apply P. cbn [Z.of_nat Z.add Pos.of_succ_nat Pos.succ]. lra.
Qed.

Lemma log10_le0 : forall x, 0 < x <= 1 -> log10 x <= 0.
Proof. intros x H. rewrite <- log10_1. apply log10_le; lra. Qed.

(** Vignetting depends only on the angle from the field centre. *)
Lemma C28_loss_proof : exists F : R -> R,
  (forall ra dec fra fdec a depth, angle_between (direction ra dec) (direction fra fdec) a ->
     calcVignettingLosses ra dec fra fdec = F a /\ vignettingEffects ra dec fra fdec depth = depth - F a) /\
  (forall a, 0 <= a -> 0 <= F a <= 2.5 * log10 (623885 / 201974)) /\
  (forall a b, 0 <= a <= b -> F a <= F b) /\
  (forall a, 0 <= a <= 0.64 -> F a = 0) /\ F 2 = 2.5 * log10 (623885 / 201974).
Proof.
  exists vignetFunc. split; [|split; [|split; [|split]]].
  - intros ra dec fra fdec a depth H.
    rewrite (angle_between_unique _ _ _ _ H (C66_haversine_proof ra dec fra fdec)). split; reflexivity.
  - intros a Ha. unfold vignetFunc. fold (vfrac a). pose proof (vfrac_bounds a Ha). pose proof (log10_le0 (vfrac a) ltac:(lra)).
    assert (log10 (201974 / 623885) <= log10 (vfrac a)) by (apply log10_le; lra).
    assert (E : log10 (623885 / 201974) = - log10 (201974 / 623885)) by (rewrite !log10_div by lra; ring). rewrite E. lra.
  - intros a b H. unfold vignetFunc. fold (vfrac a). fold (vfrac b).
    pose proof (vfrac_bounds b ltac:(lra)). pose proof (vfrac_mono a b H).
    assert (log10 (vfrac b) <= log10 (vfrac a)) by (apply log10_le; lra). lra.
  - intros a H. unfold vignetFunc. fold (vfrac a). rewrite vfrac_plateau by auto. rewrite log10_1. ring.
  - unfold vignetFunc. fold (vfrac 2).
    assert (E : vfrac 2 = 201974 / 623885).
    { rewrite vfrac_from by lra. generalize (eq_refl (tl vignet_frac)). intros _.
      assert (G : forall l i, interp_from (IZR i * 0.02) (snd (conv (i, nth 0 l 0%Z))) (map conv (number (i + 1) (tl l))) (IZR (i + Z.of_nat (length l) - 1) * 0.02)
              = last_y (snd (conv (i, nth 0 l 0%Z))) (map conv (number (i + 1) (tl l)))).
      { induction l as [|y l IH]; intro i; [reflexivity|]. cbn [tl nth]. destruct l as [|y' l]; [reflexivity|].
        cbn [number map]. rewrite (surjective_pairing (conv ((i + 1)%Z, y'))). cbn [interp_from last_y].
        destruct (Rlt_dec _ _) as [H|H].
        - exfalso. cbn [conv fst] in H. apply Rmult_lt_reg_r in H; [|lra]. apply lt_IZR in H. cbn [length] in H. lia.
        - specialize (IH (i + 1)%Z). cbn [tl nth] in IH.
          replace (i + 1 + Z.of_nat (length (y' :: l)) - 1)%Z with (i + Z.of_nat (length (y :: y' :: l)) - 1)%Z in IH by (cbn [length]; lia).
          exact IH. }
      specialize (G vignet_frac 0%Z). rewrite <- table_last.
      replace (snd (conv (0%Z, nth 0 vignet_frac 0%Z))) with 1 in G by (cbn [nth vignet_frac]; rewrite conv0; reflexivity).
      replace (0 * 0.02) with 0 in G by ring.
      replace (IZR (0 + Z.of_nat (length vignet_frac) - 1) * 0.02) with 2 in G; [exact G|].
      replace (0 + Z.of_nat (length vignet_frac) - 1)%Z with 100%Z by reflexivity. lra. }
    rewrite E, !log10_div by lra. lra.
Qed.

Lemma C28_depth_proof : forall ra dec fra fdec depth,
  depth - 2.5 * log10 (623885 / 201974) <= vignettingEffects ra dec fra fdec depth <= depth /\
  vignettingEffects fra fdec fra fdec depth = depth.
Proof.
  intros. destruct C28_loss_proof as [F [H1 [H2 [_ [H4 _]]]]].
  pose proof (C66_haversine_proof ra dec fra fdec) as A. destruct (H1 _ _ _ _ _ depth A) as [_ ->].
  pose proof (H2 _ (proj1 (proj1 A))). split; [lra|].
  pose proof (C66_haversine_proof fra fdec fra fdec) as B. destruct (H1 _ _ _ _ _ depth B) as [_ ->].
  rewrite (proj2 (C66_zero_proof fra fdec fra fdec) eq_refl), H4 by lra. ring.
Qed.

(** ** C30 *)

Lemma C30_law_proof : forall sbpy f S H alpha range sun m,
  0 < range -> 0 < sun -> apparent sbpy f S H alpha range sun = Ok m ->
  forall H' range' sun' m', 0 < range' -> 0 < sun' -> apparent sbpy f S H' alpha range' sun' = Ok m' ->
      Rpower 10 (- (2 / 5) * (m' - H')) / Rpower 10 (- (2 / 5) * (m - H)) = (range / range') ^ 2 * (sun / sun') ^ 2 /\
      (H' = H -> range' = range -> (m < m' <-> sun < sun')) /\ (H' = H -> sun' = sun -> (m < m' <-> range < range')) /\
      (range' = range -> sun' = sun -> m' - m = H' - H).
Proof.
  intros sbpy f S H alpha range sun m Hr Hs E.
  assert (HA : 0 < AU_KM) by (unfold AU_KM; lra).
  assert (C : exists g, forall h, reduced_mag sbpy f S h alpha = Ok (h + g)).
  { unfold apparent, reduced_mag in E. unfold reduced_mag.
    destruct (_ || _)%bool; [eexists; reflexivity|]. destruct (String.eqb f "linear"); [eexists; reflexivity|].
    destruct (String.eqb f "none"); [exists 0; intro; f_equal; ring|discriminate]. }
  destruct C as [g Hg].
  assert (F : forall h a b, apparent sbpy f S h alpha a b = Ok (5 * log10 (a / AU_KM) + 5 * log10 (b / AU_KM) + (h + g))).
  { intros. unfold apparent. rewrite Hg. reflexivity. }
  rewrite F in E. apply Ok_inj in E.
  intros H' range' sun' m' Hr' Hs' E'. rewrite F in E'. apply Ok_inj in E'.
  assert (L : forall a, 0 < a -> log10 (a / AU_KM) = log10 a - log10 AU_KM) by (intros; apply log10_div; auto).
  rewrite !L in E, E' by auto. repeat split.
  - unfold Rdiv at 1. rewrite <- Rpower_Ropp, <- Rpower_plus.
    assert (Q : - (2 / 5) * (m' - H') + - (- (2 / 5) * (m - H)) = log10 ((range / range') * (range / range') * ((sun / sun') * (sun / sun')))).
    { assert (0 < range / range') by (apply Rmult_lt_0_compat; [auto|apply Rinv_0_lt_compat; auto]).
      assert (0 < sun / sun') by (apply Rmult_lt_0_compat; [auto|apply Rinv_0_lt_compat; auto]).
      rewrite !log10_mult by (auto; apply Rmult_lt_0_compat; auto). rewrite !log10_div by auto. lra. }
    rewrite Q, Rpower_log10; [ring|].
    assert (0 < range / range') by (apply Rmult_lt_0_compat; [auto|apply Rinv_0_lt_compat; auto]).
    assert (0 < sun / sun') by (apply Rmult_lt_0_compat; [auto|apply Rinv_0_lt_compat; auto]).
    apply Rmult_lt_0_compat; apply Rmult_lt_0_compat; auto.
  - subst H' range'. intro Hm. destruct (Rlt_dec sun sun') as [|N]; auto. exfalso. pose proof (log10_le sun' sun Hs' ltac:(lra)). lra.
  - subst H' range'. intro Hm. pose proof (log10_incr sun sun' Hs Hm). lra.
  - subst H' sun'. intro Hm. destruct (Rlt_dec range range') as [|N]; auto. exfalso. pose proof (log10_le range' range Hr' ltac:(lra)). lra.
  - subst H' sun'. intro Hm. pose proof (log10_incr range range' Hr Hm). lra.
  - intros -> ->. lra.
Qed.

(** At one au from Sun and observer, at zero phase correction, the apparent
    magnitude is H. *)
Lemma C30_unit_proof : forall sbpy S H alpha, apparent sbpy "none" S H alpha 149597870.7 149597870.7 = Ok H /\
  apparent sbpy "linear" S H alpha 149597870.7 149597870.7 = Ok (H + S * alpha).
Proof.
  intros. unfold apparent. replace (149597870.7 / AU_KM) with 1 by (unfold AU_KM; lra). rewrite log10_1. cbn. split; f_equal; ring.
Qed.
Lemma C30_unknown_proof : forall sbpy f S H alpha a b,
  ~ In f ["HG"; "HG1G2"; "HG12"; "linear"; "none"]%string <-> apparent sbpy f S H alpha a b = Err SysExit.
Proof.
  intros. unfold apparent, reduced_mag.
  destruct (String.eqb_spec f "HG1G2"); [subst; cbn; split; [intros []; auto|discriminate]|].
  destruct (String.eqb_spec f "HG"); [subst; cbn; split; [intros []; auto|discriminate]|].
  destruct (String.eqb_spec f "HG12"); [subst; cbn; split; [intros []; auto|discriminate]|].
  destruct (String.eqb_spec f "linear"); [subst; cbn; split; [intros []; tauto|discriminate]|].
  destruct (String.eqb_spec f "none"); [subst; cbn; split; [intros []; tauto|discriminate]|].
  cbn. split; [reflexivity|]. intros _ [?|[?|[?|[?|[?|[]]]]]]; congruence.
Qed.

(** ** C32 *)

Lemma logistic_lt : forall a b, a < b -> 1 + exp a < 1 + exp b.
Proof. intros. pose proof (exp_increasing _ _ H). lra. Qed.

Lemma C32_fading_proof : forall lim F w, 0 <= F <= 1 -> 0 < w ->
  let p m := calcDetectionProbability m lim F w in
  (forall m, 0 <= p m <= F) /\ p lim = F / 2 /\
  (0 < F -> (forall m, 0 < p m < F) /\ forall m m', m < m' -> p m' < p m) /\
  (forall d, p (lim - d) + p (lim + d) = F).
Proof.
  intros lim F w [HF HF1] Hw p.
  assert (B : forall m, 0 < / (1 + exp ((m - lim) / w)) < 1).
  { intro m. pose proof (exp_pos ((m - lim) / w)). split; [apply Rinv_0_lt_compat; lra|]. rewrite <- Rinv_1. apply Rinv_lt_contravar; lra. }
  assert (Ep : forall m, p m = F * / (1 + exp ((m - lim) / w))) by reflexivity.
  split; [|split; [|split]].
  - intro m. rewrite Ep. specialize (B m). split; [apply Rmult_le_pos; lra|]. rewrite <- (Rmult_1_r F) at 2. apply Rmult_le_compat_l; lra.
  - rewrite Ep. replace ((lim - lim) / w) with 0 by (field; lra). rewrite exp_0. field.
  - intro HFp. split.
    + intro m. rewrite Ep. specialize (B m). split; [apply Rmult_lt_0_compat; lra|]. rewrite <- (Rmult_1_r F) at 2. apply Rmult_lt_compat_l; lra.
    + intros m m' H. rewrite !Ep. apply Rmult_lt_compat_l; auto.
      pose proof (exp_pos ((m - lim) / w)). pose proof (exp_pos ((m' - lim) / w)).
      apply Rinv_lt_contravar; [apply Rmult_lt_0_compat; lra|]. apply logistic_lt. unfold Rdiv. apply Rmult_lt_compat_r; [apply Rinv_0_lt_compat; auto|lra].
  - intro d. rewrite !Ep. replace ((lim - d - lim) / w) with (- (d / w)) by (field; lra). replace ((lim + d - lim) / w) with (d / w) by (field; lra).
    rewrite exp_Ropp. pose proof (exp_pos (d / w)). field. split; lra.
Qed.

Lemma C32_des_proof : forall lim c k s, 0 < c <= 1 -> 0 < k -> 0 < s <= 1 ->
  let p m := DEScalcDetectionProbability m lim c k s in
  (forall m, 0 < p m < c * s) /\ p lim = c * s / 2 /\ (forall m m', m < m' -> p m' < p m).
Proof.
  intros lim c k s Hc Hk Hs p.
  assert (Hp : 0 < c * s) by (apply Rmult_lt_0_compat; lra).
  assert (Ep : forall m, p m = (c * s) * / (1 + exp (k * (m - lim)))) by (intro; unfold p, DEScalcDetectionProbability, Rdiv; ring).
  split; [|split].
  - intro m. rewrite Ep. pose proof (exp_pos (k * (m - lim))).
    assert (0 < / (1 + exp (k * (m - lim))) < 1) by (split; [apply Rinv_0_lt_compat; lra|rewrite <- Rinv_1; apply Rinv_lt_contravar; lra]).
    split; [apply Rmult_lt_0_compat; lra|]. rewrite <- (Rmult_1_r (c * s)) at 2. apply Rmult_lt_compat_l; lra.
  - rewrite Ep. replace (k * (lim - lim)) with 0 by ring. rewrite exp_0. field.
  - intros m m' H. rewrite !Ep. apply Rmult_lt_compat_l; auto. pose proof (exp_pos (k * (m - lim))). pose proof (exp_pos (k * (m' - lim))).
    apply Rinv_lt_contravar; [apply Rmult_lt_0_compat; lra|]. apply logistic_lt. apply Rmult_lt_compat_l; lra.
Qed.

(** The pipeline's call uses the chip's limiting magnitude when there is one. *)
Lemma C32_column_proof : forall mag loss depth chip F w, 0 <= F <= 1 -> 0 < w ->
  (mag = (match chip with Some l => l | None => depth end) -> PPDetectionProbability false mag loss depth chip F w = F / 2) /\
  (mag + loss = (match chip with Some l => l | None => depth end) -> PPDetectionProbability true mag loss depth chip F w = F / 2).
Proof.
  intros mag loss depth chip F w HF Hw. unfold PPDetectionProbability. split; intro E.
  - rewrite E. exact (proj1 (proj2 (C32_fading_proof _ F w HF Hw))).
  - rewrite E. exact (proj1 (proj2 (C32_fading_proof _ F w HF Hw))).
Qed.

(** ** C69 *)

Lemma C69_lightcurve_proof : forall ca rows, add_variability (Some IdentityLightCurve) ca rows = add_variability None ca rows.
Proof.
  intros. unfold add_variability. f_equal. f_equal. f_equal. cbn. rewrite map_map. reflexivity.
Qed.
Lemma C69_shift_proof : forall (f : R -> R) mb rows,
  let lc := {| lc_compute := map f; lc_maxBrightness := mb |} in
  let shifted := map (fun r => snd r + f (fst r)) rows in
  add_variability (Some lc) None rows = Ok shifted
  /\ forall g mb', add_variability (Some lc) (Some {| ca_arguments := 5; ca_compute := g; ca_maxBrightness := mb' |}) rows = Ok (g shifted).
Proof.
  intros f mb rows lc shifted.
  assert (H : map (fun p => fst p + snd p) (combine (map snd rows) (map f (map fst rows))) = shifted).
  { subst shifted. clear lc. induction rows as [|[t m] l IH]; [reflexivity|]. cbn [map combine fst snd]. f_equal. exact IH. }
  split; [|intros g mb']; unfold add_variability; cbn [lc_compute lc]; rewrite H; reflexivity.
Qed.
Lemma C69_activity_refuted_proof : forall lc rows, add_variability lc (Some IdentityCometaryActivity) rows = Err TypeError.
Proof. reflexivity. Qed.
