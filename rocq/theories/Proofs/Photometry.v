(** Proofs about photometry. *)
From Coq Require Import String List ZArith Bool Reals Lra Lia.
From Verif Require Import Base.Prelude Model.Sphere Model.Photometry Spec.Sphere Proofs.Sphere Proofs.Sky Proofs.Randomize.
Import ListNotations.
Open Scope R_scope.

Lemma ln10_pos : 0 < ln 10.
Proof. rewrite <- ln_1. apply ln_increasing; lra. Qed.
Lemma log10_incr : forall a b, 0 < a -> a < b -> log10 a < log10 b.
Proof.
  intros a b Ha H. unfold log10, Rdiv. apply Rmult_lt_compat_r; [apply Rinv_0_lt_compat, ln10_pos|]. apply ln_increasing; auto.
Qed.
Lemma log10_le : forall a b, 0 < a -> a <= b -> log10 a <= log10 b.
Proof. intros a b Ha [H| ->]; [left; apply log10_incr; auto|right; auto]. Qed.
Lemma log10_1 : log10 1 = 0.
Proof. unfold log10. rewrite ln_1. field. pose proof ln10_pos. lra. Qed.
Lemma log10_mult : forall a b, 0 < a -> 0 < b -> log10 (a * b) = log10 a + log10 b.
Proof. intros. unfold log10. rewrite ln_mult by auto. field. pose proof ln10_pos. lra. Qed.
Lemma log10_div : forall a b, 0 < a -> 0 < b -> log10 (a / b) = log10 a - log10 b.
Proof.
  intros. unfold log10, Rdiv. rewrite ln_mult by (auto; apply Rinv_0_lt_compat; auto). rewrite ln_Rinv by auto. field. pose proof ln10_pos. lra.
Qed.
Lemma Rpower_log10 : forall a, 0 < a -> Rpower 10 (log10 a) = a.
Proof.
  intros a Ha. unfold Rpower, log10. replace (ln a / ln 10 * ln 10) with (ln a) by (field; pose proof ln10_pos; lra). apply exp_ln; auto.
Qed.
Lemma log10_Rpower : forall x, log10 (Rpower 10 x) = x.
Proof. intro x. unfold Rpower, log10. rewrite ln_exp. field. pose proof ln10_pos. lra. Qed.
Lemma Rpower10_pos : forall x, 0 < Rpower 10 x.
Proof. intro. unfold Rpower. apply exp_pos. Qed.
Lemma Rpower10_incr : forall x y, x < y -> Rpower 10 x < Rpower 10 y.
Proof. intros. apply Rpower_lt; lra. Qed.

(** ** C26 *)

Lemma Ok_inj : forall A (a b : A), Ok a = Ok b -> a = b.
Proof. congruence. Qed.

Definition trail (a b x : R) : R := 1.25 * log10 (1 + a * x ^ 2 / (1 + b * x)).
Lemma trail_arg_incr : forall a b x y, 0 < a -> 0 <= b -> 0 <= x < y -> a * x ^ 2 / (1 + b * x) < a * y ^ 2 / (1 + b * y).
Proof.
  intros a b x y Ha Hb [Hx Hxy].
  assert (Dx : 0 < 1 + b * x) by (pose proof (Rmult_le_pos b x Hb Hx); lra).
  assert (Dy : 0 < 1 + b * y) by (pose proof (Rmult_le_pos b y Hb ltac:(lra)); lra).
  apply Rmult_lt_reg_r with ((1 + b * x) * (1 + b * y)); [apply Rmult_lt_0_compat; auto|].
  replace (a * x ^ 2 / (1 + b * x) * ((1 + b * x) * (1 + b * y))) with (a * (x * x * (1 + b * y))) by (field; lra).
  replace (a * y ^ 2 / (1 + b * y) * ((1 + b * x) * (1 + b * y))) with (a * (y * y * (1 + b * x))) by (field; lra).
  apply Rmult_lt_compat_l; auto.
  assert (0 < (y - x) * (y + x + b * x * y)).
  { apply Rmult_lt_0_compat; [lra|]. assert (0 <= b * x * y) by (apply Rmult_le_pos; [apply Rmult_le_pos; auto|lra]). lra. }
  lra.
Qed.
Lemma trail_incr : forall a b x y, 0 < a -> 0 <= b -> 0 <= x < y -> trail a b x < trail a b y.
Proof.
  intros a b x y Ha Hb H. unfold trail. apply Rmult_lt_compat_l; [lra|]. pose proof (trail_arg_incr a b x y Ha Hb H).
  apply log10_incr; [|lra].
  assert (0 <= a * x ^ 2 / (1 + b * x)); [|lra].
  assert (Dx : 0 < 1 + b * x) by (pose proof (Rmult_le_pos b x Hb ltac:(lra)); lra).
  apply Rmult_le_pos; [|left; apply Rinv_0_lt_compat; auto]. apply Rmult_le_pos; [lra|]. apply pow2_ge_0.
Qed.
Lemma trail_0 : forall a b, trail a b 0 = 0.
Proof. intros. unfold trail. replace (1 + a * 0 ^ 2 / (1 + b * 0)) with 1 by field. rewrite log10_1. ring. Qed.

(** Trail length in units of the seeing: rates in degrees per day, exposure in
    seconds, seeing in arcseconds. *)
Lemma C26_loss_proof : forall model, model = "trailedSource"%string \/ model = "circularPSF"%string ->
  exists F : R -> R, F 0 = 0 /\ (forall x y, 0 <= x < y -> F x < F y) /\
   forall dra ddec seeing texp, 0 < seeing -> 0 <= texp ->
     calcTrailingLoss dra ddec seeing texp model
     = Ok (F (sqrt (dra ^ 2 + ddec ^ 2) * 3600 / 86400 * texp / seeing)).
Proof.
  intros model [-> | ->].
  - exists (trail 0.761 1.162). split; [apply trail_0|]. split; [intros; apply trail_incr; lra|].
    intros dra ddec seeing texp Hs Ht. unfold calcTrailingLoss, trail. cbn [String.eqb]. cbn. do 2 f_equal.
    replace (sqrt (dra * (dra * 1) + ddec * (ddec * 1)) * 3600 / 86400 * texp / seeing)
      with (sqrt (dra * (dra * 1) + ddec * (ddec * 1)) / 24 * texp / seeing) by (field; lra). reflexivity.
  - exists (trail 0.420 0.003). split; [apply trail_0|]. split; [intros; apply trail_incr; lra|].
    intros dra ddec seeing texp Hs Ht. unfold calcTrailingLoss, trail. cbn [String.eqb]. cbn. do 2 f_equal.
    replace (sqrt (dra * (dra * 1) + ddec * (ddec * 1)) * 3600 / 86400 * texp / seeing)
      with (sqrt (dra * (dra * 1) + ddec * (ddec * 1)) / 24 * texp / seeing) by (field; lra). reflexivity.
Qed.

Lemma C26_still_proof : forall model dra ddec seeing texp d, 0 < seeing -> 0 < texp ->
  calcTrailingLoss dra ddec seeing texp model = Ok d ->
  0 <= d /\ (d = 0 <-> dra = 0 /\ ddec = 0).
Proof.
  intros model dra ddec seeing texp d Hs Ht H.
  assert (Hm : model = "trailedSource"%string \/ model = "circularPSF"%string).
  { unfold calcTrailingLoss in H. destruct (String.eqb_spec model "trailedSource"); auto.
    destruct (String.eqb_spec model "circularPSF"); auto. discriminate. }
  destruct (C26_loss_proof model Hm) as [F [F0 [Finc HF]]]. rewrite HF in H by lra. apply Ok_inj in H. subst d.
  set (v := sqrt (dra ^ 2 + ddec ^ 2)).
  assert (Hv : 0 <= v) by apply sqrt_pos.
  set (x := v * 3600 / 86400 * texp / seeing).
  assert (Hk : 0 < texp / seeing) by (apply Rmult_lt_0_compat; [auto|apply Rinv_0_lt_compat; auto]).
  assert (Ex : x = v * (3600 / 86400 * (texp / seeing))) by (unfold x; field; lra).
  assert (Hkk : 0 < 3600 / 86400 * (texp / seeing)) by (apply Rmult_lt_0_compat; lra).
  assert (Hx : 0 <= x) by (rewrite Ex; apply Rmult_le_pos; lra).
  assert (V0 : v = 0 <-> dra = 0 /\ ddec = 0).
  { unfold v. pose proof (pow2_ge_0 dra). pose proof (pow2_ge_0 ddec). split.
    - intro E. apply sqrt_eq_0 in E; [|lra].
      assert (dra ^ 2 = 0) by lra. assert (ddec ^ 2 = 0) by lra.
      split; apply Rsqr_0_uniq; rewrite Rsqr_pow2; assumption.
    - intros [-> ->]. replace (0 ^ 2 + 0 ^ 2) with 0 by ring. apply sqrt_0. }
  clearbody x. clearbody v. destruct Hx as [Hx|Hx].
  - assert (0 < F x) by (pose proof (Finc 0 x (conj (Rle_refl 0) Hx)) as P; rewrite F0 in P; exact P). split; [lra|]. split; [intro; exfalso; lra|]. intros E%V0. rewrite Ex, E in Hx. lra.
  - rewrite <- Hx, F0. split; [lra|]. split; auto. intros _. apply V0. rewrite Ex in Hx.
    symmetry in Hx. apply Rmult_integral in Hx. destruct Hx; lra.
Qed.

(** The magnitude at which a source is detected is never brighter than its
    true magnitude, and equal to it exactly for still sources. *)
Lemma C26_detected_proof : forall on r m, 0 < p_seeing_eff r -> 0 < p_texp r ->
  exists M, psf_mag_true on r m = Ok M /\ m <= M /\
    (M = m <-> on = false \/ (p_ra_rate r = 0 /\ p_dec_rate r = 0)).
Proof.
  intros on r m Hs Ht. unfold psf_mag_true. destruct on.
  - destruct (C26_loss_proof "circularPSF" (or_intror eq_refl)) as [F [_ [_ HF]]].
    pose proof (HF (p_ra_rate r) (p_dec_rate r) _ _ Hs (Rlt_le _ _ Ht)) as E.
    destruct (C26_still_proof _ _ _ _ _ _ Hs Ht E) as [H1 H2]. rewrite E. cbn [rmap]. eexists. split; [reflexivity|]. split; [lra|]. split.
    + intro Z. right. apply H2. lra.
    + intros [Z|Z]; [discriminate|]. apply H2 in Z. lra.
  - exists m. repeat split; auto; lra.
Qed.

Lemma C26_monotone_proof : forall model dra ddec seeing texp dra' ddec' seeing' texp' d d',
  0 < seeing -> 0 < seeing' -> 0 <= texp -> 0 <= texp' ->
  calcTrailingLoss dra ddec seeing texp model = Ok d -> calcTrailingLoss dra' ddec' seeing' texp' model = Ok d' ->
  (dra ^ 2 + ddec ^ 2 < dra' ^ 2 + ddec' ^ 2 -> texp = texp' -> seeing = seeing' -> 0 < texp -> d < d') /\
  (dra = dra' -> ddec = ddec' -> (dra <> 0 \/ ddec <> 0) -> texp < texp' -> seeing = seeing' -> d < d') /\
  (dra = dra' -> ddec = ddec' -> (dra <> 0 \/ ddec <> 0) -> texp = texp' -> 0 < texp -> seeing < seeing' -> d' < d).
Proof.
  intros model dra ddec seeing texp dra' ddec' seeing' texp' d d' Hs Hs' Ht Ht' H H'.
  assert (Hm : model = "trailedSource"%string \/ model = "circularPSF"%string).
  { unfold calcTrailingLoss in H. destruct (String.eqb_spec model "trailedSource"); auto.
    destruct (String.eqb_spec model "circularPSF"); auto. discriminate. }
  destruct (C26_loss_proof model Hm) as [F [F0 [Finc HF]]]. rewrite HF in H by lra. rewrite HF in H' by lra.
  apply Ok_inj in H. apply Ok_inj in H'. subst d d'.
  pose proof (sqrt_pos (dra ^ 2 + ddec ^ 2)) as Hv.
  pose proof (pow2_ge_0 dra). pose proof (pow2_ge_0 ddec).
  assert (Hk : forall a b c, 0 <= a -> 0 <= b -> 0 < c -> 0 <= a * 3600 / 86400 * b / c).
  { intros. replace (a * 3600 / 86400 * b / c) with (a * b * (3600 / 86400 * / c)) by (field; lra).
    apply Rmult_le_pos; [apply Rmult_le_pos; auto|]. apply Rmult_le_pos; [lra|]. left; apply Rinv_0_lt_compat; auto. }
  assert (Vp : dra <> 0 \/ ddec <> 0 -> 0 < sqrt (dra ^ 2 + ddec ^ 2)).
  { intro Hn. apply sqrt_lt_R0. destruct Hn as [Hn|Hn]; apply Rsqr_pos_lt in Hn; unfold Rsqr in Hn; cbn; cbn in *; lra. }
  split; [|split].
  - intros Hl <- <- Htp. apply Finc. split; [apply Hk; auto|].
    assert (sqrt (dra ^ 2 + ddec ^ 2) < sqrt (dra' ^ 2 + ddec' ^ 2)) by (apply sqrt_lt_1; lra).
    replace (sqrt (dra ^ 2 + ddec ^ 2) * 3600 / 86400 * texp / seeing) with (sqrt (dra ^ 2 + ddec ^ 2) * (3600 / 86400 * texp * / seeing)) by (field; lra).
    replace (sqrt (dra' ^ 2 + ddec' ^ 2) * 3600 / 86400 * texp / seeing) with (sqrt (dra' ^ 2 + ddec' ^ 2) * (3600 / 86400 * texp * / seeing)) by (field; lra).
    apply Rmult_lt_compat_r; auto. apply Rmult_lt_0_compat; [lra|apply Rinv_0_lt_compat; auto].
  - intros <- <- Hn Hl <-. apply Finc. split; [apply Hk; auto|]. specialize (Vp Hn).
    set (v := sqrt (dra ^ 2 + ddec ^ 2)) in *.
    replace (v * 3600 / 86400 * texp / seeing) with (texp * (v * 3600 / 86400 * / seeing)) by (field; lra).
    replace (v * 3600 / 86400 * texp' / seeing) with (texp' * (v * 3600 / 86400 * / seeing)) by (field; lra).
    apply Rmult_lt_compat_r; auto. apply Rmult_lt_0_compat; [lra|apply Rinv_0_lt_compat; auto].
  - intros <- <- Hn <- Htp Hl. apply Finc. split; [apply Hk; auto|]. specialize (Vp Hn).
    set (v := sqrt (dra ^ 2 + ddec ^ 2)) in *. unfold Rdiv at 1 3. apply Rmult_lt_compat_l.
    + apply Rmult_lt_0_compat; lra.
    + apply Rinv_lt_contravar; auto. apply Rmult_lt_0_compat; auto.
Qed.

(** ** C27 *)

Definition snr_of (mag m5 : R) : R := snd (fst (calcAstrometricUncertainty mag m5 1)).
Lemma snr_fwhm : forall mag m5 w, snd (fst (calcAstrometricUncertainty mag m5 w)) = snr_of mag m5.
Proof. reflexivity. Qed.
Definition noise (x : R) : R := (0.04 - 0.039) * x + 0.039 * x * x.
Lemma noise_incr : forall x y, 0 < x -> x < y -> 0 < noise x < noise y.
Proof.
  intros x y Hx H. unfold noise. assert (0 < x * x) by (apply Rmult_lt_0_compat; auto).
  assert (x * x < y * y) by (apply Rmult_gt_0_lt_compat; lra). lra.
Qed.
Lemma snr_form : forall mag m5, snr_of mag m5 = 1 / sqrt (noise (Rpower 10 (0.4 * (mag - m5)))).
Proof. reflexivity. Qed.
Lemma noise_pos : forall x, 0 < x -> 0 < noise x.
Proof. intros x H. apply (noise_incr x (x + 1)); lra. Qed.
Lemma snr_pos : forall mag m5, 0 < snr_of mag m5.
Proof.
  intros. rewrite snr_form. unfold Rdiv. rewrite Rmult_1_l. apply Rinv_0_lt_compat, sqrt_lt_R0, noise_pos, Rpower10_pos.
Qed.
Lemma snr_decr : forall a b m5 m5', a - m5 < b - m5' -> snr_of b m5' < snr_of a m5.
Proof.
  intros a b m5 m5' H. rewrite !snr_form. unfold Rdiv. rewrite !Rmult_1_l.
  destruct (noise_incr (Rpower 10 (0.4 * (a - m5))) (Rpower 10 (0.4 * (b - m5')))) as [H1 H2].
  - apply Rpower10_pos.
  - apply Rpower10_incr. lra.
  - apply Rinv_lt_contravar.
    + apply Rmult_lt_0_compat; apply sqrt_lt_R0; lra.
    + apply sqrt_lt_1; lra.
Qed.
Lemma snr_five : forall m, snr_of m m = 5.
Proof.
  intro m. rewrite snr_form. replace (0.4 * (m - m)) with 0 by ring. rewrite Rpower_O by lra. unfold noise.
  replace ((0.04 - 0.039) * 1 + 0.039 * 1 * 1) with (Rsqr (1/5)) by (unfold Rsqr; lra). rewrite sqrt_Rsqr by lra. field.
Qed.
Lemma phot_decr : forall a b, 0 < a -> a < b -> 0 < calcPhotometricUncertainty b < calcPhotometricUncertainty a.
Proof.
  intros a b Ha H. unfold calcPhotometricUncertainty, Rdiv. rewrite !Rmult_1_l.
  assert (0 < / b) by (apply Rinv_0_lt_compat; lra). assert (/ b < / a) by (apply Rinv_lt_contravar; [apply Rmult_lt_0_compat; lra|auto]).
  assert (L : log10 1 < log10 (1 + / b)) by (apply log10_incr; lra). rewrite log10_1 in L.
  assert (log10 (1 + / b) < log10 (1 + / a)) by (apply log10_incr; lra). lra.
Qed.

Lemma C27_snr_proof : forall mag m5 fwhm,
  let snr m d := snd (fst (calcAstrometricUncertainty m d fwhm)) in
  snr m5 m5 = 5 /\ 0 < snr mag m5 /\
  (forall mag', mag < mag' -> snr mag' m5 < snr mag m5) /\ (forall m5', m5 < m5' -> snr mag m5 < snr mag m5') /\
  (snr mag m5 > 5 <-> mag < m5).
Proof.
  intros mag m5 fwhm snr. assert (E : forall a b, snr a b = snr_of a b) by reflexivity.
  split; [rewrite E; apply snr_five|]. split; [rewrite E; apply snr_pos|]. split; [|split].
  - intros m' H. rewrite !E. apply snr_decr. lra.
  - intros m' H. rewrite !E. apply snr_decr. lra.
  - rewrite E. split; intro H.
    + destruct (Rlt_dec mag m5) as [|Hn]; auto. exfalso. assert (Hle : m5 <= mag) by lra. destruct Hle as [Hl| ->].
      * pose proof (snr_decr m5 mag m5 m5 ltac:(lra)). rewrite snr_five in H0. lra.
      * rewrite snr_five in H. lra.
    + pose proof (snr_decr mag m5 m5 m5 ltac:(lra)). rewrite snr_five in H0. lra.
Qed.

Lemma C27_photometric_proof : forall snr snr', 0 < snr < snr' ->
  0 < calcPhotometricUncertainty snr' < calcPhotometricUncertainty snr.
Proof. intros. apply phot_decr; lra. Qed.

Lemma C27_astrometric_proof : forall mag m5 fwhm err snr rand, 0 < fwhm ->
  calcAstrometricUncertainty mag m5 fwhm = (err, snr, rand) ->
  rand = 6 / 10 * fwhm / snr /\ 0 < rand /\ err * err = 10 * 10 + rand * rand /\ 10 < err /\
  (forall mag', mag < mag' -> err < fst (fst (calcAstrometricUncertainty mag' m5 fwhm))).
Proof.
  intros mag m5 fwhm err snr rand Hf H. pose proof (snr_pos mag m5) as Hs. unfold calcAstrometricUncertainty in H.
  assert (Es : snr = snr_of mag m5) by (injection H; intros; subst; reflexivity).
  assert (Er : rand = 0.60 * fwhm / snr_of mag m5) by (injection H; intros; subst; reflexivity).
  assert (Ee : err = sqrt (10 * 10 + rand * rand)) by (injection H; intros; subst; reflexivity).
  clear H. subst snr.
  assert (Hr : 0 < rand).
  { rewrite Er. apply Rmult_lt_0_compat; [lra|apply Rinv_0_lt_compat; auto]. }
  assert (Hrr : 0 < rand * rand) by (apply Rmult_lt_0_compat; auto).
  split; [replace (6 / 10) with 0.60 by lra; exact Er|]. split; auto. split; [rewrite Ee; apply sqrt_sqrt; lra|]. split.
  - rewrite Ee. rewrite <- (sqrt_Rsqr 10) at 1 by lra. apply sqrt_lt_1; unfold Rsqr; lra.
  - intros mag' Hm. rewrite Ee. unfold calcAstrometricUncertainty; cbn [fst].
    unfold calcRandomAstrometricErrorPerCoord.
    change (1 / sqrt ((0.04 - 0.039) * Rpower 10 (0.4 * (mag' - m5)) + 0.039 * Rpower 10 (0.4 * (mag' - m5)) * Rpower 10 (0.4 * (mag' - m5)))) with (snr_of mag' m5).
    pose proof (snr_pos mag' m5) as Hs'. pose proof (snr_decr mag mag' m5 m5 ltac:(lra)) as Hd.
    set (rand' := 0.60 * fwhm / snr_of mag' m5).
    assert (rand < rand').
    { rewrite Er. unfold rand', Rdiv. apply Rmult_lt_compat_l; [lra|]. apply Rinv_lt_contravar; auto. apply Rmult_lt_0_compat; auto. }
    assert (rand * rand < rand' * rand') by (apply Rmult_gt_0_lt_compat; lra).
    apply sqrt_lt_1; lra.
Qed.

(** The row-level function: nothing better than ten milliarcseconds, and the
    trailed source is never given a better signal-to-noise ratio than a still
    one of the same magnitude. *)
Lemma C27_row_proof : forall tl r, 0 < p_seeing_geom r -> 0 < p_texp r ->
  exists s, addUncertainties tl r = Ok s /\
   10 / 3600000 < s_ast_deg s /\ 0 < s_snr_trailed s /\ 0 < s_snr_psf s /\ 0 < s_sig_trailed s /\ 0 < s_sig_psf s /\
   (p_psf_true r < p_depth r <-> s_snr_psf s > 5) /\
   (tl = false \/ (p_ra_rate r = 0 /\ p_dec_rate r = 0) -> (p_trailed_true r < p_depth r <-> s_snr_trailed s > 5)) /\
   (s_snr_trailed s > 5 -> p_trailed_true r < p_depth r).
Proof.
  intros tl r Hs Ht. unfold addUncertainties.
  assert (Hd : exists d, (if tl then calcTrailingLoss (p_ra_rate r) (p_dec_rate r) (p_seeing_geom r) (p_texp r) "trailedSource" else Ok 0) = Ok d
     /\ 0 <= d /\ (tl = false \/ (p_ra_rate r = 0 /\ p_dec_rate r = 0) -> d = 0)).
  { destruct tl.
    - destruct (C26_loss_proof "trailedSource" (or_introl eq_refl)) as [F [_ [_ HF]]]. eexists. rewrite HF by lra. split; [reflexivity|].
      destruct (C26_still_proof _ _ _ _ _ _ Hs Ht (HF (p_ra_rate r) (p_dec_rate r) _ _ Hs (Rlt_le _ _ Ht))) as [H1 H2]. split; auto.
      intros [E|E]; [discriminate|]. apply H2, E.
    - exists 0. split; [reflexivity|]. split; [lra|auto]. }
  destruct Hd as [d [Ed [Hd0 Hd1]]]. rewrite Ed. cbn [rbind]. eexists. split; [reflexivity|]. cbn [s_ast_deg s_snr_trailed s_sig_trailed s_snr_psf s_sig_psf].
  rewrite !snr_fwhm.
  destruct (calcAstrometricUncertainty (p_trailed_true r + d) (p_depth r) (p_seeing_geom r * 1000)) as [[err snr] rand] eqn:EA.
  assert (Hf : 0 < p_seeing_geom r * 1000) by lra.
  destruct (C27_astrometric_proof _ _ _ _ _ _ Hf EA) as [_ [_ [_ [He _]]]]. cbn [fst].
  pose proof (snr_pos (p_trailed_true r + d) (p_depth r)) as P1. pose proof (snr_pos (p_psf_true r) (p_depth r)) as P2.
  destruct (C27_snr_proof (p_trailed_true r + d) (p_depth r) 1) as [_ [_ [_ [_ K1]]]].
  destruct (C27_snr_proof (p_psf_true r) (p_depth r) 1) as [_ [_ [_ [_ K2]]]]. rewrite snr_fwhm in K1, K2.
  split; [unfold Rdiv; apply Rmult_lt_compat_r; lra|]. split; auto. split; auto.
  split; [apply (phot_decr (snr_of (p_trailed_true r + d) (p_depth r) / 2)); lra|].
  split; [apply (phot_decr (snr_of (p_psf_true r) (p_depth r) / 2)); lra|].
  split; [symmetry; exact K2|]. split.
  - intro E. apply Hd1 in E. subst d. rewrite Rplus_0_r in *. symmetry. exact K1.
  - intro H. apply K1 in H. lra.
Qed.
