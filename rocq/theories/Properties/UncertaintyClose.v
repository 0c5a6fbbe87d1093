(** * C110: the uncertainties computed in binary64 arithmetic are those of the formulas to twelve digits *)
From Coq Require Import Reals ZArith Bool Lra Lia.
From Flocq Require Import Core.
From Verif Require Import Base.Prelude Model.Sphere Model.Photometry Model.LinkingFloat Model.Rounding Model.FadingFloat Model.UncertaintyFloat
  Spec.Rounding Spec.UncertaintyFloat Spec.UncertaintyClose Proofs.LinkingFloat Proofs.Rounding Proofs.FadingFloat Proofs.AngleFloat Proofs.UncertaintyFloat Proofs.UncertaintyClose.
Open Scope R_scope.

Theorem C110_close : forall P L k on dra ddec s t m p d, accurate_power P -> accurate_log L -> Rabs (k - / 3600000) <= / 2 ^ 50 * / 3600000 ->
  ordinary dra ddec s t -> Rabs m <= 50 -> Rabs p <= 50 -> Rabs d <= 50 -> binary64 m ->
  let r := addUncertainties_f P L k on (Real dra) (Real ddec) (Real s) (Real t) (Real m) (Real p) (Real d) in
  let m' := if on then m + trailing_loss (761 / 1000) (1162 / 1000) (trail_length dra ddec s t) else m in
  relatively (SNRTrailedSourceMag r) (exact_snr m' d) /\ relatively (SNRPSFMag r) (exact_snr p d)
  /\ absolutely (trailedSourceMagSigma r) (exact_sigma (exact_snr m' d)) /\ absolutely (PSFMagSigma r) (exact_sigma (exact_snr p d))
  /\ relatively (astrometricSigma_deg r) (exact_astrometric s (exact_snr m' d)).
Proof. exact C110_close_proof. Qed.
Print Assumptions C110_close.
Theorem C110_loss : forall L dra ddec s t, accurate_log L -> ordinary dra ddec s t ->
  absolutely (calcTrailingLoss_f L true (Real dra) (Real ddec) (Real s) (Real t)) (trailing_loss (761 / 1000) (1162 / 1000) (trail_length dra ddec s t))
  /\ absolutely (calcTrailingLoss_f L false (Real dra) (Real ddec) (Real s) (Real t)) (trailing_loss (420 / 1000) (3 / 1000) (trail_length dra ddec s t)).
Proof. exact C110_loss_proof. Qed.
Print Assumptions C110_loss.
Theorem C110_formulas : forall on r, 
  Photometry.addUncertainties on r
  = Ok (let m := if on then Photometry.p_trailed_true r + trailing_loss (761 / 1000) (1162 / 1000) (trail_length (Photometry.p_ra_rate r) (Photometry.p_dec_rate r) (Photometry.p_seeing_geom r) (Photometry.p_texp r))
                 else Photometry.p_trailed_true r in
        let p := Photometry.p_psf_true r in let d := Photometry.p_depth r in
        {| Photometry.s_ast_deg := exact_astrometric (Photometry.p_seeing_geom r) (exact_snr m d); Photometry.s_snr_trailed := exact_snr m d;
           Photometry.s_sig_trailed := exact_sigma (exact_snr m d); Photometry.s_snr_psf := exact_snr p d; Photometry.s_sig_psf := exact_sigma (exact_snr p d) |}).
Proof. exact C110_formulas_proof. Qed.
Print Assumptions C110_formulas.

(** The correctly rounded power and logarithm meet the hypotheses.  For an object at the
    five-sigma depth seen with a PSF of 0.7 arcsec, without trailing losses, the computed
    ratio is 5 and the astrometric uncertainty sqrt(10^2 + 84^2) mas, to twelve digits. *)
Example C110_case :
  accurate_power rounded_power /\ accurate_log rounded_log /\ ordinary (1 / 2) (- 1 / 4) (7 / 10) 30
  /\ let r := addUncertainties_f rounded_power rounded_log (/ 3600000) false (Real (1 / 2)) (Real (- 1 / 4)) (Real (7 / 10)) (Real 30) (Real 24) (Real 24) (Real 24) in
     relatively (SNRPSFMag r) 5 /\ relatively (astrometricSigma_deg r) (sqrt (10 ^ 2 + 84 ^ 2) / 3600000).
Proof.
  assert (O : ordinary (1 / 2) (- 1 / 4) (7 / 10) 30).
  { unfold ordinary. rewrite (Rabs_right (1 / 2)), (Rabs_left (- 1 / 4)) by lra. repeat split; try lra; right; lra. }
  assert (PA := rounded_power_accurate). assert (LA := rounded_log_accurate).
  split; [exact PA|]. split; [exact LA|]. split; [exact O|]. intro r.
  assert (B : binary64 24) by (split; [apply (format_int 24); lia|rewrite Rabs_right by lra; assert (T := top_big); lra]).
  assert (A24 : Rabs 24 <= 50) by (rewrite Rabs_right; lra).
  assert (K : Rabs (/ 3600000 - / 3600000) <= / 2 ^ 50 * / 3600000) by (rewrite Rminus_diag_eq, Rabs_R0 by reflexivity; lra).
  destruct (C110_close_proof _ _ (/ 3600000) false _ _ _ _ 24 24 24 PA LA K O A24 A24 A24 B) as (_ & S & _ & _ & A).
  assert (E : exact_snr 24 24 = 5).
  { unfold exact_snr. replace (4 / 10 * (24 - 24)) with 0 by ring. rewrite Rpower_O by lra.
    replace (1 / 1000 * 1 + 39 / 1000 * 1 ^ 2) with (/ 5 * / 5) by lra. rewrite sqrt_square by lra. lra. }
  rewrite E in S, A. split; [exact S|]. unfold exact_astrometric in A. replace (6 / 10 * (1000 * (7 / 10)) / 5) with 84 in A by lra. exact A.
Qed.
