(** * C105: the fading functions in binary64 arithmetic *)
From Coq Require Import List Arith ZArith Reals Bool Lra Lia.
From Flocq Require Import Core.
From Verif Require Import Base.Prelude Model.LinkingFloat Model.Rounding Model.FadingFloat Spec.Rounding Spec.FadingFloat Proofs.LinkingFloat Proofs.Rounding Proofs.FadingFloat.
Import ListNotations.
Open Scope R_scope.

Theorem C105_close_partial : forall E m l f w, library_exp E -> binary64 m -> binary64 l -> binary64 f -> 0 <= f <= 1 -> 0 < w <= 1 ->
  exists p, calcDetectionProbability_f E (Real m) (Real l) (Real f) (Real w) = Real p /\ 0 <= p <= f
    /\ Rabs (p - f / (1 + exp ((m - l) / w))) <= f / 10 ^ 15 + / 10 ^ 300.
Proof. exact C105_close_proof. Qed.
Print Assumptions C105_close_partial.
Theorem C105_order_partial : forall E m l m' l' f w, library_exp E -> increasing E -> binary64 f -> 0 <= f <= 1 -> 0 < w -> m - l <= m' - l' ->
  exists p p', calcDetectionProbability_f E (Real m) (Real l) (Real f) (Real w) = Real p
    /\ calcDetectionProbability_f E (Real m') (Real l') (Real f) (Real w) = Real p' /\ 0 <= p' <= p /\ p <= f.
Proof. exact C105_order_proof. Qed.
Print Assumptions C105_order_partial.
Theorem C105_half_partial : forall E m f w, library_exp E -> binary64 f -> / 2 ^ 1000 <= f <= 1 -> 0 < w ->
  calcDetectionProbability_f E (Real m) (Real m) (Real f) (Real w) = Real (f / 2).
Proof. exact C105_half_proof. Qed.
Print Assumptions C105_half_partial.
Theorem C105_bright_partial : forall E m l f w, library_exp E -> binary64 f -> binary64 w -> 0 <= f <= 1 -> 0 < w -> m + 64 * w <= l ->
  calcDetectionProbability_f E (Real m) (Real l) (Real f) (Real w) = Real f.
Proof. exact C105_bright_proof. Qed.
Print Assumptions C105_bright_partial.
Theorem C105_faint_partial : forall E m l f w, library_exp E -> binary64 w -> 0 < w -> l + 1024 * w <= m ->
  calcDetectionProbability_f E (Real m) (Real l) (Real f) (Real w) = Real 0.
Proof. exact C105_faint_proof. Qed.
Print Assumptions C105_faint_partial.
Theorem C105_missing_partial : forall E c f w, library_exp E ->
  calcDetectionProbability_f E Nan c f w = Nan /\ calcDetectionProbability_f E c Nan f w = Nan
  /\ forall A (mag lim : A -> cell) draw rows r, In r (PPFadingFunctionFilter_f E mag lim f w draw rows) -> mag r <> Nan /\ lim r <> Nan.
Proof. exact C105_missing_proof. Qed.
Print Assumptions C105_missing_partial.
Theorem C105_infinite_partial : forall E f w l, library_exp E -> 0 < w -> binary64 f ->
  calcDetectionProbability_f E (Inf false) (Real l) (Real f) (Real w) = Real 0
  /\ calcDetectionProbability_f E (Inf true) (Real l) (Real f) (Real w) = Real f
  /\ (forall s, calcDetectionProbability_f E (Inf s) (Inf s) (Real f) (Real w) = Nan)
  /\ forall A (mag lim : A -> cell) draw rows r, In r (PPFadingFunctionFilter_f E mag lim (Real f) (Real w) draw rows) ->
       forall s, mag r = Inf s -> lim r <> Inf s.
Proof. exact C105_infinite_proof. Qed.
Print Assumptions C105_infinite_partial.
Theorem C105_rows_partial : forall E f w u A (mag lim : A -> cell) rows, library_exp E -> binary64 f -> 0 <= f <= 1 -> 0 < w ->
  selected (fun i r => exists p, calcDetectionProbability_f E (mag r) (lim r) (Real f) (Real w) = Real p /\ u i <= p) 0 rows
    (PPFadingFunctionFilter_f E mag lim (Real f) (Real w) (fun i => Real (u i)) rows).
Proof. exact C105_rows_proof. Qed.
Print Assumptions C105_rows_partial.
Theorem C105_kept_partial : forall E w u A (mag lim : A -> cell) rows, library_exp E -> binary64 w -> 0 < w -> (forall i, u i < 1) ->
  (forall r, In r rows -> exists m l, mag r = Real m /\ lim r = Real l /\ m + 64 * w <= l) ->
  PPFadingFunctionFilter_f E mag lim (Real 1) (Real w) (fun i => Real (u i)) rows = rows.
Proof. exact C105_kept_proof. Qed.
Print Assumptions C105_kept_partial.
Theorem C105_zero_refuted : forall E f w u A (mag lim : A -> cell) r m l, library_exp E -> binary64 w -> 0 < w -> u O = 0 ->
  mag r = Real m -> lim r = Real l -> l + 1024 * w <= m ->
  PPFadingFunctionFilter_f E mag lim (Real f) (Real w) (fun i => Real (u i)) [r] = [r].
Proof. exact C105_zero_refuted_proof. Qed.
Print Assumptions C105_zero_refuted.
Theorem C105_des_partial : forall E m l c k s, library_exp E -> binary64 m -> binary64 l -> binary64 c -> binary64 s ->
  0 <= c <= 1 -> 0 <= s <= 1 -> / 10 ^ 300 <= k ->
  exists p, DEScalcDetectionProbability_f E (Real m) (Real l) (Real c) (Real k) (Real s) = Real p /\ 0 <= p <= s /\ p <= c
    /\ Rabs (p - s * (c / (1 + exp (k * (m - l))))) <= s * c / 10 ^ 15 + / 10 ^ 300.
Proof. exact C105_des_proof. Qed.
Print Assumptions C105_des_partial.
Theorem C105_des_order_partial : forall E m l m' l' c k s, library_exp E -> increasing E -> binary64 c -> binary64 s ->
  0 <= c <= 1 -> 0 <= s <= 1 -> 0 < k -> m - l <= m' - l' ->
  exists p p', DEScalcDetectionProbability_f E (Real m) (Real l) (Real c) (Real k) (Real s) = Real p
    /\ DEScalcDetectionProbability_f E (Real m') (Real l') (Real c) (Real k) (Real s) = Real p' /\ 0 <= p' <= p.
Proof. exact C105_des_order_proof. Qed.
Print Assumptions C105_des_order_partial.
Theorem C105_des_missing_partial : forall E A (mag lim c k : A -> cell) s draw rows r, library_exp E ->
  In r (DESFadingFunctionFilter_f E mag lim c k s draw rows) -> mag r <> Nan /\ lim r <> Nan /\ c r <> Nan /\ k r <> Nan.
Proof. exact C105_des_missing_proof. Qed.
Print Assumptions C105_des_missing_partial.
Theorem C105_des_rows_partial : forall E s u A (mag lim c k : A -> cell) rows, library_exp E -> binary64 s -> 0 <= s <= 1 ->
  (forall r, In r rows -> exists c' k', c r = Real c' /\ k r = Real k' /\ binary64 c' /\ 0 <= c' <= 1 /\ 0 < k') ->
  selected (fun i r => exists p, DEScalcDetectionProbability_f E (mag r) (lim r) (c r) (k r) (Real s) = Real p /\ u i <= p) 0 rows
    (DESFadingFunctionFilter_f E mag lim c k (Real s) (fun i => Real (u i)) rows).
Proof. exact C105_des_rows_proof. Qed.
Print Assumptions C105_des_rows_partial.

(** The correctly rounded exponential meets the hypotheses.  A row far brighter
    than the limit is kept, one at the limit is kept when the draw is a half and
    dropped when it is more, and a far fainter one is dropped. *)
Example C105_case :
  library_exp rounded_exp /\ increasing rounded_exp
  /\ PPFadingFunctionFilter_f rounded_exp (fun m => Real m) (fun _ => Real 24) (Real 1) (Real (1 / 8))
       (fun i => match i with 0%nat => Real (9 / 10) | 1%nat => Real (1 / 2) | 2%nat => Real (51 / 100) | _ => Real (1 / 10) end) [16; 24; 24; 200]
     = [16; 24].
Proof.
  destruct rounded_exp_library as [LE IN]. split; [exact LE|]. split; [exact IN|].
  assert (F : forall e, (-1000 <= e <= 1000)%Z -> binary64 (bpow radix2 e)).
  { intros e H. split; [apply generic_format_bpow; unfold FLT_exp; lia|]. rewrite Rabs_right by (apply Rle_ge, bpow_ge_0). apply bpow_lt. lia. }
  assert (B1 : binary64 1) by (exact (F 0%Z ltac:(lia))).
  assert (BW : binary64 (1 / 8)). { replace (1 / 8) with (bpow radix2 (-3)) by (cbn; lra). apply F. lia. }
  assert (H1 : / 2 ^ 1000 <= 1). { apply inv_le_1. apply pow_R1_Rle. lra. }
  unfold PPFadingFunctionFilter_f. cbn [PPDropObservations_f].
  rewrite (C105_bright_proof rounded_exp 16 24 1 (1 / 8) LE B1 BW) by lra.
  rewrite (C105_half_proof rounded_exp 24 1 (1 / 8) LE B1) by lra.
  rewrite (C105_faint_proof rounded_exp 200 24 1 (1 / 8) LE BW) by lra.
  cbn [at_least].
  destruct (Rle_dec (9 / 10) 1); [|lra]. destruct (Rle_dec (1 / 2) (1 / 2)); [|lra]. destruct (Rle_dec (51 / 100) (1 / 2)); [lra|].
  destruct (Rle_dec (1 / 10) 0); [lra|]. reflexivity.
Qed.
