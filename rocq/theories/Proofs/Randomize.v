From Coq Require Import String List Arith ZArith Bool Reals Lra Lia Psatz.
From Verif Require Import Base.Prelude Model.Sphere Model.Randomize Spec.Sphere Spec.Randomize Proofs.Sphere.
Import ListNotations.
Open Scope nat_scope.

(** ** Generators *)

Lemma requests_lookup : forall G Q A (init : Z -> G) (draw : G -> Q -> G * A) md5 base m l r1 r2,
  lookup m r1 = lookup m r2 ->
  filter (fun x => String.eqb (fst x) m) (requests init draw md5 base r1 l)
  = requests init draw md5 base r2 (filter (fun x => String.eqb (fst x) m) l).
Proof.
  intros G Q A init draw md5 base m. induction l as [|[n q] l IH]; intros r1 r2 H; cbn; auto.
  destruct (String.eqb n m) eqn:E.
  - apply String.eqb_eq in E. subst n. cbn [requests]. unfold request. rewrite H.
    destruct (draw _ q) as [g' a]. cbn. rewrite String.eqb_refl. f_equal. apply IH. cbn. rewrite String.eqb_refl. reflexivity.
  - unfold request. destruct (draw _ q) as [g' a]. cbn. rewrite E. apply IH. cbn. rewrite E. auto.
Qed.

(** What a module gets is what it would get if it were alone. *)
Lemma C25_alone_proof : forall G Q A (init : Z -> G) (draw : G -> Q -> G * A) md5 base m l,
  filter (fun x => String.eqb (fst x) m) (requests init draw md5 base [] l)
  = requests init draw md5 base [] (filter (fun x => String.eqb (fst x) m) l).
Proof. intros. apply requests_lookup. reflexivity. Qed.

Lemma requests_stream : forall G Q A (init : Z -> G) (draw : G -> Q -> G * A) md5 base m qs r g,
  (lookup m r = Some g \/ (lookup m r = None /\ g = init (module_seed md5 base m))) ->
  stream draw g qs (map snd (requests init draw md5 base r (map (pair m) qs))).
Proof.
  intros G Q A init draw md5 base m. induction qs as [|q qs IH]; intros r g H; cbn; [constructor|].
  unfold request. replace (match lookup m r with Some g0 => g0 | None => init (module_seed md5 base m) end) with g
    by (destruct H as [H|[H1 H2]]; [rewrite H|rewrite H1]; auto).
  destruct (draw g q) as [g' a] eqn:E. cbn. econstructor; [exact E|]. apply IH. left. cbn. rewrite String.eqb_refl. reflexivity.
Qed.
Lemma C25_stream_proof : forall G Q A (init : Z -> G) (draw : G -> Q -> G * A) md5 base m l,
  let asked := map snd (filter (fun x => String.eqb (fst x) m) l) in
  let got := map snd (filter (fun x => String.eqb (fst x) m) (requests init draw md5 base [] l)) in
  stream draw (init ((base + md5 m) mod 2 ^ 31)%Z) asked got /\ (0 <= (base + md5 m) mod 2 ^ 31 < 2 ^ 31)%Z.
Proof.
  intros G Q A init draw md5 base m l asked got. split; [|apply Z.mod_pos_bound; reflexivity].
  unfold got. rewrite C25_alone_proof.
  assert (E : filter (fun x => String.eqb (fst x) m) l = map (pair m) asked).
  { unfold asked. clear. induction l as [|[n q] l IH]; cbn; auto. destruct (String.eqb n m) eqn:E; cbn; auto.
    apply String.eqb_eq in E. subst. f_equal. auto. }
  rewrite E. apply requests_stream. right. split; reflexivity.
Qed.

(** Different names do not always mean different streams. *)
Lemma C25_collision_proof : forall md5 base m n,
  module_seed md5 base m = module_seed md5 base n <-> ((md5 m - md5 n) mod 2 ^ 31 = 0)%Z.
Proof.
  intros md5 base m n. unfold module_seed. split; intro H.
  - replace (md5 m - md5 n)%Z with ((base + md5 m) - (base + md5 n))%Z by ring.
    rewrite Zminus_mod, H, Z.sub_diag. reflexivity.
  - replace (base + md5 m)%Z with ((md5 m - md5 n) + (base + md5 n))%Z by ring.
    rewrite Zplus_mod, H. cbn [Z.add]. rewrite Z.mod_mod by discriminate. reflexivity.
Qed.
(** Base seeds that differ by a multiple of 2^31 give the same run. *)
Lemma C25_base_proof : forall md5 b1 b2 m,
  module_seed md5 b1 m = module_seed md5 b2 m <-> ((b1 - b2) mod 2 ^ 31 = 0)%Z.
Proof.
  intros md5 b1 b2 m. unfold module_seed. split; intro H.
  - replace (b1 - b2)%Z with ((b1 + md5 m) - (b2 + md5 m))%Z by ring.
    rewrite Zminus_mod, H, Z.sub_diag. reflexivity.
  - replace (b1 + md5 m)%Z with ((b1 - b2) + (b2 + md5 m))%Z by ring.
    rewrite Zplus_mod, H. cbn [Z.add]. rewrite Z.mod_mod by discriminate. reflexivity.
Qed.

(** ** Measurements *)
Open Scope R_scope.

Lemma C55_rows_proof : forall s1 s2 g (tl cut : bool) l,
  let out := randomizeAstrometryAndPhotometry s1 s2 g tl cut l in
  exists kept, selected (fun r => cut = true -> 2 < m_snr r) l kept /\ length out = length kept /\
   forall i r r', nth_error kept i = Some r -> nth_error out i = Some r' ->
      m_ra_true r' = Some (m_ra r) /\ m_dec_true r' = Some (m_dec r) /\
      m_trailed_true r' = m_trailed_true r /\ m_psf_true r' = m_psf_true r /\
      m_sig_trailed r' = m_sig_trailed r /\ m_sig_psf r' = m_sig_psf r /\ m_sig_ast r' = m_sig_ast r /\ m_snr r' = m_snr r /\
      m_trailed r' = Some (m_trailed_true r + s1 i * m_sig_trailed r) /\
      m_psf r' = Some (if tl then m_psf_true r + s2 i * m_sig_psf r else m_trailed_true r + s1 i * m_sig_trailed r) /\
      (m_ra r', m_dec r') = randomizeAstrometry (m_ra r) (m_dec r) (m_sig_ast r) (g i).
Proof.
  intros s1 s2 g tl cut l out. subst out. unfold randomizeAstrometryAndPhotometry.
  exists (if cut then filter (fun r => if Rlt_dec 2 (m_snr r) then true else false) l else l). split; [|split].
  - destruct cut.
    + apply selected_filter. intros r _. destruct (Rlt_dec 2 (m_snr r)); split; auto; discriminate || (intro H; exfalso; auto).
    + clear. induction l as [|r l IH]; constructor; auto. discriminate.
  - generalize (if cut then filter (fun r => if Rlt_dec 2 (m_snr r) then true else false) l else l). clear l.
    generalize 0%nat. intros i l. revert i. induction l as [|r l IH]; intro i; cbn; auto.
  - generalize (if cut then filter (fun r => if Rlt_dec 2 (m_snr r) then true else false) l else l). clear l.
    intros l i r r' H1 H2.
    assert (E : forall j, nth_error (randomize_rows s1 s2 g tl j l) i = Some r' -> r' = randomize_row s1 s2 g tl (j + i) r).
    { clear H2. revert i H1. induction l as [|a l IH]; intros [|i] H1 j H2; cbn in *; try discriminate.
      - injection H1 as ->. injection H2 as <-. rewrite Nat.add_0_r. reflexivity.
      - rewrite <- Nat.add_succ_comm. apply IH; auto. }
    rewrite (E _ H2). cbn [Nat.add]. unfold randomize_row; cbn. repeat (split; [reflexivity|]). symmetry. apply surjective_pairing.
Qed.

(** Randomised positions are proper directions, and with zero uncertainty they
    are the true ones. *)
Lemma C55_position_proof : forall ra dec sig g ra' dec', randomizeAstrometry ra dec sig g = (ra', dec') ->
  vadd (scale (deg2rad sig) g) (radec2icrf ra dec) <> V3 0 0 0 ->
  0 <= ra' < 360 /\ -90 <= dec' <= 90 /\
  along (vadd (scale (sig * PI / 180) g) (direction ra dec)) (direction ra' dec').
Proof.
  intros ra dec sig g ra' dec' H Hn. unfold randomizeAstrometry, sampleNormalFOV in H.
  change (sig * PI / 180) with (deg2rad sig). change (direction ra dec) with (radec2icrf ra dec).
  set (m := vadd (scale (deg2rad sig) g) (radec2icrf ra dec)) in *.
  pose proof (norm_nonzero _ Hn) as Hp. pose proof (scaled_unit _ Hn) as Hu.
  assert (Hnz := unit_nonzero _ Hu).
  destruct (C33_vector_proof _ _ _ _ _ Hnz H) as [H1 [H2 [k [Hk H3]]]]. split; auto. split; auto.
  exists (k * norm m). split; [apply Rmult_lt_0_compat; auto|].
  change (direction ra' dec') with (radec2icrf ra' dec').
  revert H3. generalize (radec2icrf ra' dec'). clearbody m. clear - Hp. intros [a b c] E. cbn in *.
  destruct m as [x y z]. cbn in *. injection E as E1 E2 E3. set (n := norm (V3 x y z)) in *. clearbody n.
  f_equal.
  - transitivity (n * (/ n * x)); [field; lra|rewrite E1; ring].
  - transitivity (n * (/ n * y)); [field; lra|rewrite E2; ring].
  - transitivity (n * (/ n * z)); [field; lra|rewrite E3; ring].
Qed.

Lemma C55_zero_noise_proof : forall s1 s2 g tl l,
  Forall (fun r => m_sig_trailed r = 0 /\ m_sig_psf r = 0 /\ m_sig_ast r = 0 /\ 0 <= m_ra r < 360 /\ -90 < m_dec r < 90) l ->
  (tl = false -> Forall (fun r => m_psf_true r = m_trailed_true r) l) ->
  randomizeAstrometryAndPhotometry s1 s2 g tl false l = no_randomization l.
Proof.
  intros s1 s2 g tl l. unfold randomizeAstrometryAndPhotometry, no_randomization. generalize 0%nat.
  induction l as [|r l IH]; intros i H Hp; cbn; auto. inversion H as [|? ? [H1 [H2 [H3 [H4 H5]]]] Hl]; subst. f_equal.
  - unfold randomize_row. rewrite H1, H2, H3.
    assert (E : randomizeAstrometry (m_ra r) (m_dec r) 0 (g i) = (m_ra r, m_dec r)).
    { unfold randomizeAstrometry, sampleNormalFOV. pose proof (proj1 (C33_unit_proof (m_ra r) (m_dec r))) as Hu.
      replace (vadd (scale (deg2rad 0) (g i)) (radec2icrf (m_ra r) (m_dec r))) with (radec2icrf (m_ra r) (m_dec r)).
      - rewrite (unit_norm _ Hu). replace (scale (/ 1) (radec2icrf (m_ra r) (m_dec r))) with (radec2icrf (m_ra r) (m_dec r)).
        + apply C33_angles_proof; auto.
        + apply vec_eq; cbn; field.
      - apply vec_eq; cbn; unfold deg2rad; field. }
    rewrite E. cbn [fst snd]. unfold randomizePhotometry. rewrite !Rmult_0_r, !Rplus_0_r. f_equal.
    destruct tl; auto. specialize (Hp eq_refl). inversion Hp. congruence.
  - apply IH; auto. intro Ht. specialize (Hp Ht). inversion Hp; auto.
Qed.

(** ** Fluxes *)
Lemma ln10_pos : 0 < ln 10.
Proof. rewrite <- ln_1. apply ln_increasing; lra. Qed.
Lemma C67_flux_proof : forall m f0, 0 < f0 -> flux2mag (mag2flux m f0) f0 = m.
Proof.
  intros m f0 H. unfold flux2mag, mag2flux, log10. pose proof ln10_pos.
  replace (f0 * Rpower 10 (- (4 / 10) * m) / f0) with (Rpower 10 (- (4 / 10) * m)) by (field; lra).
  unfold Rpower. rewrite ln_exp. field. lra.
Qed.
Lemma C67_mag_proof : forall f f0, 0 < f -> 0 < f0 -> mag2flux (flux2mag f f0) f0 = f.
Proof.
  intros f f0 Hf H. unfold flux2mag, mag2flux, log10. pose proof ln10_pos. unfold Rpower.
  replace (- (4 / 10) * (- (5 / 2) * (ln (f / f0) / ln 10)) * ln 10) with (ln (f / f0)) by (field; lra).
  rewrite exp_ln; [field; lra|]. apply Rdiv_lt_0_compat; auto.
Qed.
Lemma C67_order_proof : forall m1 m2 f0, 0 < f0 -> m1 < m2 -> 0 < mag2flux m2 f0 < mag2flux m1 f0.
Proof.
  intros m1 m2 f0 H Hm. unfold mag2flux. split.
  - apply Rmult_lt_0_compat; auto. apply exp_pos.
  - apply Rmult_lt_compat_l; auto. apply Rpower_lt; lra.
Qed.
Lemma C67_five_proof : forall m f0, 0 < f0 -> mag2flux (m - 5) f0 = 100 * mag2flux m f0.
Proof.
  intros m f0 H. unfold mag2flux. replace (- (4 / 10) * (m - 5)) with (2 + - (4 / 10) * m) by field.
  rewrite Rpower_plus. replace (Rpower 10 2) with 100; [ring|].
  change 2 with (INR 2). rewrite Rpower_pow by lra. simpl. ring.
Qed.
