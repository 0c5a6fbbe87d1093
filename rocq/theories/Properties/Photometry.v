From Coq Require Import String Ascii List Arith ZArith Bool Reals Lra Lia.
From Verif Require Import Base.Prelude Model.Csv Model.Sphere Model.Photometry Model.Colours Spec.Sphere Spec.Colours
  Proofs.Photometry Proofs.Magnitudes Proofs.Colours Proofs.Culling.
Import ListNotations.
Open Scope R_scope.

(** * C26: trailing losses *)

Theorem C26_loss : forall model, model = "trailedSource"%string \/ model = "circularPSF"%string ->
  exists F : R -> R, F 0 = 0 /\ (forall x y, 0 <= x < y -> F x < F y) /\
   forall dra ddec seeing texp, 0 < seeing -> 0 <= texp ->
     calcTrailingLoss dra ddec seeing texp model
     = Ok (F (sqrt (dra ^ 2 + ddec ^ 2) * 3600 / 86400 * texp / seeing)).
Proof. exact C26_loss_proof. Qed.
Print Assumptions C26_loss.
Theorem C26_still : forall model dra ddec seeing texp d, 0 < seeing -> 0 < texp ->
  calcTrailingLoss dra ddec seeing texp model = Ok d ->
  0 <= d /\ (d = 0 <-> dra = 0 /\ ddec = 0).
Proof. exact C26_still_proof. Qed.
Print Assumptions C26_still.
Theorem C26_monotone : forall model dra ddec seeing texp dra' ddec' seeing' texp' d d',
  0 < seeing -> 0 < seeing' -> 0 <= texp -> 0 <= texp' ->
  calcTrailingLoss dra ddec seeing texp model = Ok d -> calcTrailingLoss dra' ddec' seeing' texp' model = Ok d' ->
  (dra ^ 2 + ddec ^ 2 < dra' ^ 2 + ddec' ^ 2 -> texp = texp' -> seeing = seeing' -> 0 < texp -> d < d') /\
  (dra = dra' -> ddec = ddec' -> (dra <> 0 \/ ddec <> 0) -> texp < texp' -> seeing = seeing' -> d < d') /\
  (dra = dra' -> ddec = ddec' -> (dra <> 0 \/ ddec <> 0) -> texp = texp' -> 0 < texp -> seeing < seeing' -> d' < d).
Proof. exact C26_monotone_proof. Qed.
Print Assumptions C26_monotone.
Theorem C26_detected : forall on r m, 0 < p_seeing_eff r -> 0 < p_texp r ->
  exists M, psf_mag_true on r m = Ok M /\ m <= M /\
    (M = m <-> on = false \/ (p_ra_rate r = 0 /\ p_dec_rate r = 0)).
Proof. exact C26_detected_proof. Qed.
Print Assumptions C26_detected.

Example C26_case : exists d d', calcTrailingLoss 24 0 1 1 "trailedSource" = Ok d /\ calcTrailingLoss 48 0 1 1 "trailedSource" = Ok d' /\ 0 < d < d'.
Proof.
  destruct (C26_loss "trailedSource" (or_introl eq_refl)) as [F [F0 [Fi HF]]]. do 2 eexists. rewrite !HF by lra.
  split; [reflexivity|]. split; [reflexivity|].
  replace (24 ^ 2 + 0 ^ 2) with (Rsqr 24) by (unfold Rsqr; ring). replace (48 ^ 2 + 0 ^ 2) with (Rsqr 48) by (unfold Rsqr; ring).
  rewrite !sqrt_Rsqr by lra. rewrite <- F0 at 1. split; apply Fi; lra.
Qed.

(** * C27: signal to noise and uncertainties *)

Theorem C27_snr : forall mag m5 fwhm,
  let snr m d := snd (fst (calcAstrometricUncertainty m d fwhm)) in
  snr m5 m5 = 5 /\ 0 < snr mag m5 /\
  (forall mag', mag < mag' -> snr mag' m5 < snr mag m5) /\ (forall m5', m5 < m5' -> snr mag m5 < snr mag m5') /\
  (snr mag m5 > 5 <-> mag < m5).
Proof. exact C27_snr_proof. Qed.
Print Assumptions C27_snr.
Theorem C27_photometric : forall snr snr', 0 < snr < snr' ->
  0 < calcPhotometricUncertainty snr' < calcPhotometricUncertainty snr.
Proof. exact C27_photometric_proof. Qed.
Print Assumptions C27_photometric.
Theorem C27_astrometric : forall mag m5 fwhm err snr rand, 0 < fwhm ->
  calcAstrometricUncertainty mag m5 fwhm = (err, snr, rand) ->
  rand = 6 / 10 * fwhm / snr /\ 0 < rand /\ err * err = 10 * 10 + rand * rand /\ 10 < err /\
  (forall mag', mag < mag' -> err < fst (fst (calcAstrometricUncertainty mag' m5 fwhm))).
Proof. exact C27_astrometric_proof. Qed.
Print Assumptions C27_astrometric.
Theorem C27_row : forall tl r, 0 < p_seeing_geom r -> 0 < p_texp r ->
  exists s, addUncertainties tl r = Ok s /\
   10 / 3600000 < s_ast_deg s /\ 0 < s_snr_trailed s /\ 0 < s_snr_psf s /\ 0 < s_sig_trailed s /\ 0 < s_sig_psf s /\
   (p_psf_true r < p_depth r <-> s_snr_psf s > 5) /\
   (tl = false \/ (p_ra_rate r = 0 /\ p_dec_rate r = 0) -> (p_trailed_true r < p_depth r <-> s_snr_trailed s > 5)) /\
   (s_snr_trailed s > 5 -> p_trailed_true r < p_depth r).
Proof. exact C27_row_proof. Qed.
Print Assumptions C27_row.

Definition p_row (mag : R) : photo :=
  {| p_ra_rate := 0; p_dec_rate := 0; p_seeing_eff := 1; p_seeing_geom := 1; p_texp := 30;
     p_trailed_true := mag; p_psf_true := mag; p_depth := 24 |}.
Example C27_case :
  snd (fst (calcAstrometricUncertainty 24 24 700)) = 5 /\
  (exists s, addUncertainties true (p_row 23) = Ok s /\ s_snr_trailed s > 5) /\
  (exists s, addUncertainties true (p_row 25) = Ok s /\ 0 < s_snr_trailed s /\ ~ s_snr_trailed s > 5).
Proof.
  split; [apply (C27_snr 24 24 700)|]. split.
  - destruct (C27_row true (p_row 23)) as [s [E [_ [_ [_ [_ [_ [_ [H _]]]]]]]]]; cbn; try lra. exists s. split; auto.
    apply H; cbn; [auto|lra].
  - destruct (C27_row true (p_row 25)) as [s [E [_ [P [_ [_ [_ [_ [_ H]]]]]]]]]; cbn; try lra. exists s. split; auto. split; auto.
    intro G. apply H in G. cbn in G. lra.
Qed.

(** * C28: vignetting *)

Theorem C28_loss : exists F : R -> R,
  (forall ra dec fra fdec a depth, angle_between (direction ra dec) (direction fra fdec) a ->
     calcVignettingLosses ra dec fra fdec = F a /\ vignettingEffects ra dec fra fdec depth = depth - F a) /\
  (forall a, 0 <= a -> 0 <= F a <= 2.5 * log10 (623885 / 201974)) /\
  (forall a b, 0 <= a <= b -> F a <= F b) /\
  (forall a, 0 <= a <= 0.64 -> F a = 0) /\ F 2 = 2.5 * log10 (623885 / 201974).
Proof. exact C28_loss_proof. Qed.
Print Assumptions C28_loss.
Theorem C28_depth : forall ra dec fra fdec depth,
  depth - 2.5 * log10 (623885 / 201974) <= vignettingEffects ra dec fra fdec depth <= depth /\
  vignettingEffects fra fdec fra fdec depth = depth.
Proof. exact C28_depth_proof. Qed.
Print Assumptions C28_depth.

Example C28_case : exists F : R -> R, (forall a, 0 <= a <= 0.64 -> F a = 0) /\ 1 < F 2.
Proof.
  destruct C28_loss as [F [_ [_ [_ [H1 H2]]]]]. exists F. split; auto. rewrite H2.
  assert (H : log10 3 <= log10 (623885 / 201974)) by (apply log10_le; lra).
  assert (E : 2 < log10 (3 ^ 5)).
  { replace 2 with (log10 (Rpower 10 2)) by apply log10_Rpower. apply log10_incr; [apply Rpower10_pos|].
    replace (Rpower 10 2) with (10 ^ 2) by (rewrite <- Rpower_pow by lra; f_equal; cbn; lra). cbn [pow]. lra. }
  replace (log10 (3 ^ 5)) with (5 * log10 3) in E; [lra|].
  unfold log10. rewrite <- Rpower_pow by lra. unfold Rpower. rewrite ln_exp. unfold Rdiv. replace (INR 5) with 5 by (cbn; lra). ring.
Qed.

(** * C29: colour offsets *)
Open Scope string_scope.

Theorem C29_rows_partial : forall function observing_filters main t t',
  String.length main = 1%nat -> Forall (fun r => String.length (optFilter r) = 1%nat) (recs t) ->
  Forall (fun x => String.length x = 1%nat) observing_filters ->
  PPApplyColourOffsets function observing_filters main t = Ok t' ->
  exists ps, phase_parameters function = Some ps /\
  (In "H_filter" (columns t') /\ In ("H_" ++ main) (columns t') /\ forall p, In p ps -> In p (columns t')) /\
  Forall2 (fun r r' => optFilter r' = optFilter r /\
     cell r' "H_filter" = (cell r ("H_" ++ main) + if String.eqb (optFilter r) main then 0 else cell r (optFilter r ++ "-" ++ main))%R /\
     cell r' ("H_" ++ main) = cell r ("H_" ++ main) /\
     ((forall p, In p ps -> In p (columns t)) -> forall p, In p ps -> cell r' p = cell r p) /\
     (~ (forall p, In p ps -> In p (columns t)) -> forall p, In p ps -> cell r' p = cell r (p ++ optFilter r)))
   (recs t) (recs t').
Proof. exact C29_rows_proof. Qed.
Print Assumptions C29_rows_partial.
Theorem C29_succeeds_partial : forall function ps observing_filters main t,
  phase_parameters function = Some ps ->
  In ("H_" ++ main) (columns t) ->
  (forall r, In r (recs t) -> In (optFilter r) observing_filters /\
     (optFilter r = main \/ In (optFilter r ++ "-" ++ main) (columns t))) ->
  ((forall p, In p ps -> In p (columns t)) \/
   (forall p f, In p ps -> In f observing_filters -> In (p ++ f) (columns t))) ->
  exists t', PPApplyColourOffsets function observing_filters main t = Ok t'.
Proof. exact C29_succeeds_proof. Qed.
Print Assumptions C29_succeeds_partial.

(** With a single observing filter the per-filter parameters are never looked
    at. *)
Theorem C29_single_refuted :
  (exists function ps main t, phase_parameters function = Some ps /\ In ("H_" ++ main) (columns t) /\
     (forall r, In r (recs t) -> optFilter r = main) /\
     (forall p, In p ps -> In (p ++ main) (columns t)) /\
     phase_inputs function [main] main t = Err KeyError) /\
  (forall main t, phase_inputs "none" [main] main t = Err KeyError <-> ~ In ("H_" ++ main) (columns t)).
Proof. exact C29_single_refuted_proof. Qed.
Print Assumptions C29_single_refuted.

Example C29_case :
  let t := {| columns := ["ObjID"; "H_r"; "g-r"; "GSr"; "GSg"];
              recs := map (fun f => {| optFilter := f; cell := fun c => if String.eqb c "H_r" then 20%R
                                     else if String.eqb c "g-r" then (1/2)%R else if String.eqb c "GSg" then 3%R else 4%R |}) ["r"; "g"; "r"] |} in
  exists t', PPApplyColourOffsets "HG" ["r"; "g"] "r" t = Ok t' /\ columns t' = ["ObjID"; "H_filter"; "H_r"; "GS"] /\
    map (fun r => cell r "H_filter") (recs t') = [20; 20 + 1/2; 20]%R /\
    map (fun r => cell r "H_r") (recs t') = [20; 20; 20]%R /\ map (fun r => cell r "GS") (recs t') = [4; 3; 4]%R.
Proof.
  intro t. eexists. split; [reflexivity|]. split; [reflexivity|]. cbn. split; [repeat f_equal; lra|]. split; reflexivity.
Qed.
Example C29_succeeds_case : exists t', PPApplyColourOffsets "HG" ["r"; "g"] "r" two_filter_table = Ok t'.
Proof.
  apply (C29_succeeds_partial "HG" ["GS"]); [reflexivity|cbn; auto| |].
  - intros r [<-|[]]. cbn. auto.
  - right. intros p f [<-|[]] [<-|[<-|[]]]; cbn; tauto.
Qed.

(** * C48: header and filters *)

Theorem C48_spec_partial : forall header observing_filters filesep main offsets,
  PPGetMainFilterAndColourOffsets header observing_filters filesep = Ok (main, offsets) <->
  exists pre c post names, first_H header pre (String c post) /\ main = String c EmptyString /\
    In main observing_filters /\ header_names filesep header = Some names /\ (2 <= List.length names)%nat /\
    ((exists f, observing_filters = [f] /\ offsets = None) \/
     (exists f rest, observing_filters = f :: rest /\ rest <> [] /\
        offsets = Some (map (fun x => x ++ "-" ++ main) rest) /\
        forall x, In x rest -> In (x ++ "-" ++ main) names)).
Proof. exact C48_spec_proof. Qed.
Print Assumptions C48_spec_partial.

(** The order of the observing filters matters: the main one must come first. *)
Theorem C48_order_refuted : exists header main colours observing_filters observing_filters',
  (forall f, In f observing_filters <-> In f observing_filters') /\
  PPGetMainFilterAndColourOffsets header observing_filters "csv" = Ok (main, Some colours) /\
  PPGetMainFilterAndColourOffsets header observing_filters' "csv" = Err SysExit.
Proof. exact C48_order_refuted_proof. Qed.
Print Assumptions C48_order_refuted.

Example C48_case : PPGetMainFilterAndColourOffsets ("ObjID,H_r,g-r,i-r,GS" ++ newline) ["r"; "i"; "g"] "csv" = Ok ("r", Some ["i-r"; "g-r"])
  /\ PPGetMainFilterAndColourOffsets ("ObjID H_r GS" ++ newline) ["r"] "whitespace" = Ok ("r", None).
Proof. split; vm_compute; reflexivity. Qed.

Open Scope R_scope.

(** * C30: the inverse-square law *)

Theorem C30_law : forall sbpy f S H alpha range sun m,
  0 < range -> 0 < sun -> apparent sbpy f S H alpha range sun = Ok m ->
  forall H' range' sun' m', 0 < range' -> 0 < sun' -> apparent sbpy f S H' alpha range' sun' = Ok m' ->
      Rpower 10 (- (2 / 5) * (m' - H')) / Rpower 10 (- (2 / 5) * (m - H)) = (range / range') ^ 2 * (sun / sun') ^ 2 /\
      (H' = H -> range' = range -> (m < m' <-> sun < sun')) /\ (H' = H -> sun' = sun -> (m < m' <-> range < range')) /\
      (range' = range -> sun' = sun -> m' - m = H' - H).
Proof. exact C30_law_proof. Qed.
Print Assumptions C30_law.
Theorem C30_unit : forall sbpy S H alpha, apparent sbpy "none" S H alpha 149597870.7 149597870.7 = Ok H /\
  apparent sbpy "linear" S H alpha 149597870.7 149597870.7 = Ok (H + S * alpha).
Proof. exact C30_unit_proof. Qed.
Print Assumptions C30_unit.
Theorem C30_unknown : forall sbpy f S H alpha a b,
  ~ In f ["HG"; "HG1G2"; "HG12"; "linear"; "none"]%string <-> apparent sbpy f S H alpha a b = Err SysExit.
Proof. exact C30_unknown_proof. Qed.
Print Assumptions C30_unknown.

Example C30_case : forall sbpy, exists m, apparent sbpy "linear" 2 20 10 (2 * 149597870.7) (3 * 149597870.7) = Ok m /\ 40 < m.
Proof.
  intro sbpy. eexists. split; [reflexivity|].
  replace (2 * 149597870.7 / AU_KM) with 2 by (unfold AU_KM; lra). replace (3 * 149597870.7 / AU_KM) with 3 by (unfold AU_KM; lra).
  pose proof (log10_incr 1 2 ltac:(lra) ltac:(lra)) as H2. pose proof (log10_incr 1 3 ltac:(lra) ltac:(lra)) as H3. rewrite log10_1 in H2, H3. lra.
Qed.

(** * C31: culling *)

Theorem C31_exact_partial : forall main observing_filters lc ca ps l shift act,
  NoDup (map a_id l) -> allowance lc ca shift act -> (forall f, In f observing_filters -> exists d, deepest ps f d) ->
  exists p, PPFaintObjectCullingFilter main observing_filters lc ca ps l = Ok (filter p l) /\
  forall o, In o l -> (p o = false <-> 2 <= a_q o /\
    forall f d, In f observing_filters -> deepest ps f d -> d + 2 < act (estimate main f o shift)).
Proof. exact C31_exact_proof. Qed.
Print Assumptions C31_exact_partial.
Theorem C31_unobservable_partial : forall main observing_filters lc ps l l' shift,
  NoDup (map a_id l) -> allowance lc None shift (fun m => m) ->
  PPFaintObjectCullingFilter main observing_filters lc None ps l = Ok l' ->
  forall o, In o l -> ~ In o l' ->
  2 <= a_q o /\
  forall f depth sbpy function S alpha range_km sun_km red m variation,
    In f observing_filters -> In (f, depth) ps ->
    reduced_mag sbpy function S (H_in main f o) alpha = Ok red -> H_in main f o <= red ->
    apparent sbpy function S (H_in main f o) alpha range_km sun_km = Ok m ->
    shift <= variation ->
    a_q o * AU_KM <= sun_km -> sun_km - 1.1 * AU_KM <= range_km ->
    depth + 1.7 < m + variation.
Proof. exact C31_unobservable_proof. Qed.
Print Assumptions C31_unobservable_partial.

(** A filter that no visit used stops the run. *)
Theorem C31_absent_filter_partial : forall main observing_filters lc ca ps l f,
  classes_ok lc ca = true -> In f observing_filters -> (forall x, ~ In (f, x) ps) ->
  PPFaintObjectCullingFilter main observing_filters lc ca ps l = Err KeyError.
Proof. exact C31_absent_filter_proof. Qed.
Print Assumptions C31_absent_filter_partial.

Definition c_obj (i : string) (q H : R) : aux := {| a_id := i; a_q := q; a_H := H; a_colour := fun _ => 1 |}.
Example C31_case : PPFaintObjectCullingFilter "r" ["r"; "g"]%string None None [("r", 24); ("g", 25); ("r", 23)]%string
   [c_obj "bright" 10 5; c_obj "faint" 10 30; c_obj "near" 1 30] = Ok [c_obj "bright" 10 5; c_obj "near" 1 30].
Proof.
  set (l := [c_obj _ _ _; _; _]).
  assert (Hn : NoDup (map a_id l)) by (repeat constructor; cbn; intuition discriminate).
  assert (Ha : allowance None None 0 (fun m => m)) by (split; reflexivity).
  assert (Dr : deepest [("r", 24); ("g", 25); ("r", 23)]%string "r" 24).
  { split; [cbn; auto|]. intros x [E|[E|[E|[]]]]; try discriminate E; injection E as <-; lra. }
  assert (Dg : deepest [("r", 24); ("g", 25); ("r", 23)]%string "g" 25).
  { split; [cbn; auto|]. intros x [E|[E|[E|[]]]]; try discriminate E; injection E as <-; lra. }
  destruct (C31_exact_partial "r" ["r"; "g"]%string None None [("r", 24); ("g", 25); ("r", 23)]%string l 0 _ Hn Ha) as [p [E Hp]].
  { intros f [<-|[<-|[]]]; eauto. }
  rewrite E. f_equal. subst l. cbn [filter].
  pose proof (log10_incr 1 9 ltac:(lra) ltac:(lra)) as L1. pose proof (log10_incr 9 10 ltac:(lra) ltac:(lra)) as L2.
  rewrite log10_1 in L1.
  assert (L3 : log10 10 = 1) by (unfold log10; field; pose proof ln10_pos; lra).
  assert (P1 : p (c_obj "bright" 10 5) = true).
  { apply not_false_is_true. intro Ep. apply (proj1 (Hp (c_obj "bright" 10 5) (or_introl eq_refl))) in Ep. destruct Ep as [_ Ep]. specialize (Ep "r"%string 24 (or_introl eq_refl) Dr).
    unfold estimate, H_in in Ep. cbn in Ep. replace (10 - 1) with 9 in Ep by lra. lra. }
  assert (P2 : p (c_obj "faint" 10 30) = false).
  { apply Hp; [cbn; auto|]. cbn. split; [lra|]. intros f d Hf [Hd _]. unfold estimate, H_in. cbn [c_obj a_H a_q a_colour].
    replace (10 - 1) with 9 by lra.
    assert (d <= 25) by (destruct Hd as [X|[X|[X|[]]]]; injection X as _ <-; lra). destruct (String.eqb f "r"); lra. }
  assert (P3 : p (c_obj "near" 1 30) = true).
  { apply not_false_is_true. intro Ep. apply (proj1 (Hp (c_obj "near" 1 30) (or_intror (or_intror (or_introl eq_refl))))) in Ep. destruct Ep as [Ep _]. cbn in Ep. lra. }
  rewrite P1, P2, P3. reflexivity.
Qed.

(** * C32: fading functions *)

Theorem C32_fading : forall lim F w, 0 <= F <= 1 -> 0 < w ->
  let p m := calcDetectionProbability m lim F w in
  (forall m, 0 <= p m <= F) /\ p lim = F / 2 /\
  (0 < F -> (forall m, 0 < p m < F) /\ forall m m', m < m' -> p m' < p m) /\
  (forall d, p (lim - d) + p (lim + d) = F).
Proof. exact C32_fading_proof. Qed.
Print Assumptions C32_fading.
Theorem C32_des : forall lim c k s, 0 < c <= 1 -> 0 < k -> 0 < s <= 1 ->
  let p m := DEScalcDetectionProbability m lim c k s in
  (forall m, 0 < p m < c * s) /\ p lim = c * s / 2 /\ (forall m m', m < m' -> p m' < p m).
Proof. exact C32_des_proof. Qed.
Print Assumptions C32_des.
Theorem C32_column : forall mag loss depth chip F w, 0 <= F <= 1 -> 0 < w ->
  (mag = (match chip with Some l => l | None => depth end) -> PPDetectionProbability false mag loss depth chip F w = F / 2) /\
  (mag + loss = (match chip with Some l => l | None => depth end) -> PPDetectionProbability true mag loss depth chip F w = F / 2).
Proof. exact C32_column_proof. Qed.
Print Assumptions C32_column.

Example C32_case : calcDetectionProbability 24 24 1 0.1 = 1 / 2 /\ calcDetectionProbability 25 24 1 0.1 < 1 / 2
  /\ PPDetectionProbability true 23.5 0.5 25 (Some 24) 1 0.1 = 1 / 2.
Proof.
  destruct (C32_fading 24 1 0.1) as [_ [H2 [H3 _]]]; try lra. destruct (H3 ltac:(lra)) as [_ H4]. split; auto. split.
  - rewrite <- H2. apply H4. lra.
  - apply C32_column; lra.
Qed.

(** * C69: the built-in variability models *)

Theorem C69_lightcurve_partial : forall ca rows, add_variability (Some IdentityLightCurve) ca rows = add_variability None ca rows.
Proof. exact C69_lightcurve_proof. Qed.
Print Assumptions C69_lightcurve_partial.
Theorem C69_shift_partial : forall (f : R -> R) mb rows,
  let lc := {| lc_compute := map f; lc_maxBrightness := mb |} in
  let shifted := map (fun r => snd r + f (fst r)) rows in
  add_variability (Some lc) None rows = Ok shifted
  /\ forall g mb', add_variability (Some lc) (Some {| ca_arguments := 5; ca_compute := g; ca_maxBrightness := mb' |}) rows = Ok (g shifted).
Proof. exact C69_shift_proof. Qed.
Print Assumptions C69_shift_partial.
Theorem C69_activity_refuted : forall lc rows, add_variability lc (Some IdentityCometaryActivity) rows = Err TypeError.
Proof. exact C69_activity_refuted_proof. Qed.
Print Assumptions C69_activity_refuted.
Theorem C69_culling_refuted : forall main observing_filters lc ca ps l, observing_filters <> [] ->
  lc = Some IdentityLightCurve \/ ca = Some IdentityCometaryActivity ->
  PPFaintObjectCullingFilter main observing_filters lc ca ps l = Err AttributeError.
Proof. exact C69_culling_refuted_proof. Qed.
Print Assumptions C69_culling_refuted.

Example C69_case : add_variability (Some IdentityLightCurve) None [(1, 20); (2, 21)] = Ok [20 + 0; 21 + 0]
  /\ PPFaintObjectCullingFilter "r" ["r"]%string (Some IdentityLightCurve) None [("r", 24)]%string [] = Err AttributeError.
Proof. split; [reflexivity|]. apply C69_culling_refuted; [discriminate|auto]. Qed.
