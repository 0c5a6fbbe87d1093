(** * C109: signal-to-noise ratios and uncertainties in binary64 arithmetic *)
From Coq Require Import Reals ZArith Bool Lra Lia.
From Flocq Require Import Core.
From Verif Require Import Base.Prelude Model.LinkingFloat Model.Rounding Model.FadingFloat Model.UncertaintyFloat Spec.Rounding Spec.UncertaintyFloat
  Proofs.LinkingFloat Proofs.Rounding Proofs.FadingFloat Proofs.AngleFloat Proofs.UncertaintyFloat.
Open Scope R_scope.

Theorem C109_order : forall P L k on dra ddec s t m p d m' p' d', library_power P -> library_log L -> 0 < k -> practical dra ddec s t ->
  m <= m' -> p <= p' -> d' <= d ->
  let r := addUncertainties_f P L k on (Real dra) (Real ddec) (Real s) (Real t) (Real m) (Real p) (Real d) in
  let r' := addUncertainties_f P L k on (Real dra) (Real ddec) (Real s) (Real t) (Real m') (Real p') (Real d') in
  at_most (Real 0) (SNRTrailedSourceMag r') /\ at_most (SNRTrailedSourceMag r') (SNRTrailedSourceMag r)
  /\ at_most (Real 0) (SNRPSFMag r') /\ at_most (SNRPSFMag r') (SNRPSFMag r)
  /\ at_most (Real 0) (trailedSourceMagSigma r) /\ at_most (trailedSourceMagSigma r) (trailedSourceMagSigma r')
  /\ at_most (Real 0) (PSFMagSigma r) /\ at_most (PSFMagSigma r) (PSFMagSigma r')
  /\ at_most (astrometricSigma_deg r) (astrometricSigma_deg r').
Proof. exact C109_order_proof. Qed.
Print Assumptions C109_order.
Theorem C109_floor : forall P L k on dra ddec s t m p d f, library_power P -> library_log L -> 0 < k -> practical dra ddec s t ->
  binary64 f -> f <= 10 * k ->
  at_most (Real f) (astrometricSigma_deg (addUncertainties_f P L k on (Real dra) (Real ddec) (Real s) (Real t) (Real m) (Real p) (Real d))).
Proof. exact C109_floor_proof. Qed.
Print Assumptions C109_floor.
Theorem C109_losses : forall P L k dra ddec s t m p d, library_power P -> library_log L -> 0 < k -> practical dra ddec s t ->
  let on := addUncertainties_f P L k true (Real dra) (Real ddec) (Real s) (Real t) (Real m) (Real p) (Real d) in
  let off := addUncertainties_f P L k false (Real dra) (Real ddec) (Real s) (Real t) (Real m) (Real p) (Real d) in
  at_most (SNRTrailedSourceMag on) (SNRTrailedSourceMag off) /\ at_most (trailedSourceMagSigma off) (trailedSourceMagSigma on)
  /\ at_most (astrometricSigma_deg off) (astrometricSigma_deg on) /\ SNRPSFMag on = SNRPSFMag off /\ PSFMagSigma on = PSFMagSigma off
  /\ (dra = 0 -> ddec = 0 -> on = off).
Proof. exact C109_losses_proof. Qed.
Print Assumptions C109_losses.
Theorem C109_loss : forall L trailed dra ddec s t, library_log L -> practical dra ddec s t ->
  exists l, calcTrailingLoss_f L trailed (Real dra) (Real ddec) (Real s) (Real t) = Real l /\ 0 <= l /\ (dra = 0 -> ddec = 0 -> l = 0).
Proof. exact C109_loss_proof. Qed.
Print Assumptions C109_loss.
Theorem C109_five : forall P L k on dra ddec s t m p d, library_power P -> library_log L -> practical dra ddec s t ->
  (p = d -> SNRPSFMag (addUncertainties_f P L k on (Real dra) (Real ddec) (Real s) (Real t) (Real m) (Real p) (Real d)) = Real 5)
  /\ (m = d -> binary64 m -> (on = false \/ dra = 0 /\ ddec = 0) ->
      SNRTrailedSourceMag (addUncertainties_f P L k on (Real dra) (Real ddec) (Real s) (Real t) (Real m) (Real p) (Real d)) = Real 5).
Proof. exact C109_five_proof. Qed.
Print Assumptions C109_five.
Theorem C109_finite : forall P L k on dra ddec s t m p d, library_power P -> library_log L -> practical dra ddec s t -> Rabs (p - d) <= 100 ->
  let r := addUncertainties_f P L k on (Real dra) (Real ddec) (Real s) (Real t) (Real m) (Real p) (Real d) in
  (exists v e, SNRPSFMag r = Real v /\ 0 < v /\ PSFMagSigma r = Real e /\ 0 <= e)
  /\ (binary64 m -> Rabs (m - d) <= 100 -> on = false \/ dra = 0 /\ ddec = 0 ->
      exists v e, SNRTrailedSourceMag r = Real v /\ 0 < v /\ trailedSourceMagSigma r = Real e /\ 0 <= e).
Proof. exact C109_finite_proof. Qed.
Print Assumptions C109_finite.

(** The correctly rounded power and logarithm meet the hypotheses.  A moving object
    of magnitude 24 at the five-sigma depth has PSF signal-to-noise ratio 5; its
    trailed ratio is 5 without trailing losses and at most 5 with them. *)
Example C109_case :
  library_power rounded_power /\ library_log rounded_log /\ practical 1 (- 1 / 2) (7 / 10) 30
  /\ let row on := addUncertainties_f rounded_power rounded_log (1 / 3600000) on (Real 1) (Real (- 1 / 2)) (Real (7 / 10)) (Real 30) (Real 24) (Real 24) (Real 24) in
     SNRPSFMag (row true) = Real 5 /\ SNRTrailedSourceMag (row false) = Real 5 /\ at_most (SNRTrailedSourceMag (row true)) (Real 5).
Proof.
  assert (P : practical 1 (- 1 / 2) (7 / 10) 30).
  { unfold practical. rewrite Rabs_R1, Rabs_left by lra. assert (1 <= 2 ^ 100) by lra. repeat split; lra. }
  assert (B : binary64 24) by (split; [apply (format_int 24); lia|rewrite Rabs_right by lra; assert (T := top_big); lra]).
  assert (LP := rounded_power_library). assert (LL := rounded_log_library).
  split; [exact LP|]. split; [exact LL|]. split; [exact P|]. intro row.
  destruct (C109_five_proof _ _ (1 / 3600000) true _ _ _ _ 24 24 24 LP LL P) as [A _].
  destruct (C109_five_proof _ _ (1 / 3600000) false _ _ _ _ 24 24 24 LP LL P) as [_ D].
  specialize (D eq_refl B (or_introl eq_refl)).
  split; [exact (A eq_refl)|]. split; [exact D|].
  destruct (C109_losses_proof _ _ (1 / 3600000) _ _ _ _ 24 24 24 LP LL ltac:(lra) P) as [E _]. cbv zeta in E. rewrite D in E. exact E.
Qed.
