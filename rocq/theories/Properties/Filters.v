From Coq Require Import String List Arith ZArith QArith Bool.
From Verif Require Import Base.Prelude Base.Num Base.Frame Model.Filters Spec.Filters Proofs.Filters.
Import ListNotations.
Open Scope nat_scope.

(** * C07: threshold cuts *)

Theorem C07_magnitude_limit : forall A (col : A -> num) lim (f : frame A),
  selected (fun r => num_lt (col r) lim) (rows f) (rows (PPMagnitudeLimit col lim f)) /\
  labels (PPMagnitudeLimit col lim f) = seq 0 (length (rows (PPMagnitudeLimit col lim f))).
Proof. exact C07_maglimit_proof. Qed.
Print Assumptions C07_magnitude_limit.

Theorem C07_snr_limit : forall A (col : A -> num) lim (f : frame A),
  selected (fun r => num_lt lim (col r)) (rows f) (rows (PPSNRLimit col lim f)) /\
  labels (PPSNRLimit col lim f) = seq 0 (length (rows (PPSNRLimit col lim f))).
Proof. exact C07_snrlimit_proof. Qed.
Print Assumptions C07_snr_limit.

Theorem C07_saturation_limit : forall A (filt : A -> string) (mag : A -> num) filters lim (f : frame A),
  label_consistent mag f ->
  exists out, PPBrightLimit filt mag filters (BFloat lim) f = Ok out /\
    selected (fun r => ~ num_lt (mag r) lim) (rows f) (rows out) /\
    labels out = seq 0 (length (rows out)).
Proof. exact C07_bright_proof. Qed.
Print Assumptions C07_saturation_limit.

Theorem C07_nan_rows : forall A (filt : A -> string) (col : A -> num) filters lim (f : frame A) r,
  NoDup (labels f) -> In r (rows f) -> col r = NaN ->
  ~ In r (rows (PPMagnitudeLimit col lim f)) /\
  ~ In r (rows (PPSNRLimit col lim f)) /\
  exists out, PPBrightLimit filt col filters (BFloat lim) f = Ok out /\ In r (rows out).
Proof. exact C07_nan_proof. Qed.
Print Assumptions C07_nan_rows.

(** A three-row table with a NaN: the magnitude cut at 24 keeps the first row. *)
Example C07_case :
  rows (PPMagnitudeLimit (fun m => m) (Fin 24) (of_rows [Fin 20; NaN; Fin 24])) = [Fin 20]
  /\ rows (PPSNRLimit (fun m => m) (Fin 5) (of_rows [Fin 5; Fin 6; NaN; PInf])) = [Fin 6; PInf]
  /\ label_consistent (fun m => m) (of_rows [Fin 20; NaN; Fin 24]).
Proof.
  repeat split. apply NoDup_label_consistent. rewrite labels_of_rows. apply seq_NoDup.
Qed.

(** * C08: per-filter saturation limits *)

Theorem C08_per_filter_saturation :
  forall A (filt : A -> string) (mag : A -> num) filters limits (f : frame A),
  length filters <= length limits ->
  label_consistent (fun r => (filt r, mag r)) f ->
  exists out, PPBrightLimit filt mag filters (BList limits) f = Ok out /\
    selected (fun r => ~ exists i lim, nth_error filters i = Some (filt r) /\
                          nth_error limits i = Some lim /\ num_lt (mag r) lim)
      (rows f) (rows out) /\
    labels out = seq 0 (length (rows out)).
Proof. exact C08_proof. Qed.
Print Assumptions C08_per_filter_saturation.

Theorem C08_unlisted_filter_kept :
  forall A (filt : A -> string) (mag : A -> num) filters limits (f : frame A) r out,
  length filters <= length limits ->
  label_consistent (fun r => (filt r, mag r)) f ->
  PPBrightLimit filt mag filters (BList limits) f = Ok out ->
  In r (rows f) -> ~ In (filt r) filters -> In r (rows out).
Proof. exact C08_unlisted_proof. Qed.
Print Assumptions C08_unlisted_filter_kept.

Theorem C08_short_list_raises : forall A (filt : A -> string) (mag : A -> num) filters limits (f : frame A),
  length limits < length filters ->
  PPBrightLimit filt mag filters (BList limits) f = Err IndexError.
Proof. exact C08_short_proof. Qed.
Print Assumptions C08_short_list_raises.

Example C08_case :
  rmap rows (PPBrightLimit fst snd ["g"; "r"]%string (BList [Fin 16; Fin 17])
    (of_rows [("g", Fin 15); ("g", Fin 16); ("r", Fin 16); ("i", Fin 10); ("r", NaN)]%string))
  = Ok [("g", Fin 16); ("i", Fin 10); ("r", NaN)]%string.
Proof. reflexivity. Qed.

(** * C09: random drops *)

Theorem C09_fading_exact : forall A (prob : A -> num) draw (f : frame A),
  selected_pos (fun i r => num_le (draw i) (prob r)) 0 (rows f)
    (rows (PPFadingFunctionFilter prob draw f)).
Proof. exact fading_selected. Qed.
Print Assumptions C09_fading_exact.

Theorem C09_fading_monotone : forall A (p q : A -> num) draw (f : frame A),
  (forall r, num_le (p r) (q r)) ->
  subseq (rows (PPFadingFunctionFilter p draw f)) (rows (PPFadingFunctionFilter q draw f)).
Proof. exact C09_fading_monotone_proof. Qed.
Print Assumptions C09_fading_monotone.

Theorem C09_fading_extremes : forall A (p : A -> num) draw (f : frame A),
  (forall i, num_le (Fin 0) (draw i) /\ num_lt (draw i) (Fin 1)) ->
  ((forall r, p r = Fin 1) -> rows (PPFadingFunctionFilter p draw f) = rows f) /\
  ((forall r, p r = Fin 0) -> (forall i, num_lt (Fin 0) (draw i)) ->
     rows (PPFadingFunctionFilter p draw f) = []) /\
  ((forall r, p r = NaN) -> rows (PPFadingFunctionFilter p draw f) = []).
Proof. exact C09_fading_extremes_proof. Qed.
Print Assumptions C09_fading_extremes.

Theorem C09_efficiency_exact : forall A t draw (f : frame A), (0 <= t)%Q -> (t <= 1)%Q ->
  exists out, PPDetectionEfficiency (Fin t) draw f = Ok out /\
    selected_pos (fun i _ => num_le (draw i) (Fin t)) 0 (rows f) (rows out).
Proof. exact efficiency_ok. Qed.
Print Assumptions C09_efficiency_exact.

Theorem C09_efficiency_monotone : forall A s t draw (f : frame A) o1 o2, (s <= t)%Q ->
  PPDetectionEfficiency (Fin s) draw f = Ok o1 -> PPDetectionEfficiency (Fin t) draw f = Ok o2 ->
  subseq (rows o1) (rows o2).
Proof. exact C09_eff_monotone_proof. Qed.
Print Assumptions C09_efficiency_monotone.

Theorem C09_efficiency_out_of_bounds : forall A t draw (f : frame A), (t < 0 \/ 1 < t)%Q ->
  PPDetectionEfficiency (Fin t) draw f = Err SysExit.
Proof. exact efficiency_out_of_bounds. Qed.
Print Assumptions C09_efficiency_out_of_bounds.

Example C09_case :
  let draw i := match i with 0 => Fin (1#10) | 1 => Fin (1#2) | _ => Fin (9#10) end in
  rows (PPFadingFunctionFilter (fun p => p) draw (of_rows [Fin (1#5); Fin (1#5); Fin 1])) = [Fin (1#5); Fin 1]
  /\ rmap rows (PPDetectionEfficiency (Fin (1#2)) draw (of_rows [true; false; true])) = Ok [true; false].
Proof. split; reflexivity. Qed.

(** * C10: DES distance and motion cuts *)

(** Distance bounds are non-negative numbers of au; columns are finite. *)
Theorem C10_distance_cut_partial :
  forall A (objid : A -> string) (x y z : A -> Q) (up lo : Q) (f : frame A),
  (0 <= lo)%Q -> (0 <= up)%Q ->
  selected (fun r => exists r', In r' (rows f) /\ objid r' = objid r /\
                        in_distance_bounds (x r') (y r') (z r') lo up)
    (rows f)
    (rows (distance_cut objid (fun r => Fin (x r)) (fun r => Fin (y r)) (fun r => Fin (z r))
             (Fin up) (Fin lo) f)).
Proof. exact C10_distance_proof. Qed.
Print Assumptions C10_distance_cut_partial.

Theorem C10_distance_all_or_nothing_partial :
  forall A (objid : A -> string) (x y z : A -> num) up lo (f : frame A) r r',
  In r (rows f) -> In r' (rows f) -> objid r = objid r' ->
  (In r (rows (distance_cut objid x y z up lo f)) <-> In r' (rows (distance_cut objid x y z up lo f))).
Proof. exact C10_all_or_nothing_proof. Qed.
Print Assumptions C10_distance_all_or_nothing_partial.

Theorem C10_motion_cut_partial :
  forall A (rr dr : A -> Q) (up lo : Q) (f : frame A),
  (0 <= lo)%Q -> (0 <= up)%Q -> NoDup (labels f) ->
  exists out, motion_cut (fun r => Fin (rr r)) (fun r => Fin (dr r)) (Fin up) (Fin lo) f = Ok out /\
    selected (fun r => in_rate_bounds (rr r) (dr r) lo up) (rows f) (rows out).
Proof. exact C10_motion_proof. Qed.
Print Assumptions C10_motion_cut_partial.

(** Non-finite components never pass either cut. *)
Theorem C10_motion_cut_nonfinite_partial :
  forall A (rr dr : A -> num) (up lo : Q) (f : frame A) out r,
  NoDup (labels f) -> motion_cut rr dr (Fin up) (Fin lo) f = Ok out ->
  In r (rows out) -> exists a b, rr r = Fin a /\ dr r = Fin b.
Proof. exact C10_motion_nonfinite_proof. Qed.
Print Assumptions C10_motion_cut_nonfinite_partial.

(** Finding: the bounds are squared, so a negative lower bound, which
    validation accepts, removes rows that lie inside the configured bounds. *)
Theorem C10_negative_bound_refuted :
  exists (up lo : Q) (f : frame (Q * Q)) r out,
    NoDup (labels f) /\ In r (rows f) /\ in_rate_bounds (fst r) (snd r) lo up /\
    motion_cut (fun r => Fin (fst r)) (fun r => Fin (snd r)) (Fin up) (Fin lo) f = Ok out /\
    ~ In r (rows out).
Proof. exact C10_negative_refuted_proof. Qed.
Print Assumptions C10_negative_bound_refuted.

Example C10_case :
  rmap rows (motion_cut (fun r => Fin (fst r)) (fun r => Fin (snd r)) (Fin 5) (Fin 1)
     (of_rows [(3, 4); (3, 3); (0, 1); (0, 2)]%Q)) = Ok [(3, 3); (0, 2)]%Q.
Proof. reflexivity. Qed.

(** * C37: circular footprint *)

Theorem C37_circle_footprint_partial : forall A (sep : A -> num) rad (f : frame A),
  selected (fun r => num_lt (sep r) rad) (rows f) (rows (PPCircleFootprint sep rad f)) /\
  labels (PPCircleFootprint sep rad f) = seq 0 (length (PPCircleFootprint sep rad f)).
Proof. exact C37_circle_proof. Qed.
Print Assumptions C37_circle_footprint_partial.

Theorem C37_fill_factor_partial : forall A fill draw (f : frame A),
  labels f = seq 0 (length f) ->
  exists out, PPSimpleSensorArea fill draw f = Ok out /\
    selected_pos (fun i _ => ~ num_lt fill (draw i)) 0 (rows f) (rows out) /\
    labels out = seq 0 (length out).
Proof. exact sensor_area_spec. Qed.
Print Assumptions C37_fill_factor_partial.

(** The whole circular camera model for a non-zero radius and fill factor:
    rows outside the circle go first, then the draws decide row by row. *)
Theorem C37_circle_model_partial : forall A (sep : A -> num) (rad fill : Q) draw (f : frame A),
  ~ (rad == 0)%Q -> ~ (fill == 0)%Q ->
  exists mid out, circle_model sep (Some (Fin rad)) (Some (Fin fill)) draw f = Ok out /\
    selected (fun r => num_lt (sep r) (Fin rad)) (rows f) mid /\
    selected_pos (fun i _ => ~ num_lt (Fin fill) (draw i)) 0 mid (rows out).
Proof. exact C37_model_proof. Qed.
Print Assumptions C37_circle_model_partial.

(** Finding: a fill factor of zero (accepted by validation, meaning that no
    area is covered) and a radius of zero are treated as "not set", so every
    row is kept. *)
Theorem C37_zero_refuted :
  exists (sep : num -> num) draw (f : frame num) r out,
    (forall i, draw i = Fin (1#2)) /\
    circle_model sep (Some (Fin 0)) (Some (Fin 0)) draw f = Ok out /\
    In r (rows f) /\ num_lt (Fin 0) (sep r) /\ In r (rows out).
Proof. exact C37_zero_refuted_proof. Qed.
Print Assumptions C37_zero_refuted.

Example C37_case :
  rmap rows (circle_model (fun s => s) (Some (Fin 2)) (Some (Fin (9#10)))
     (fun i => match i with 0 => Fin (1#2) | _ => Fin (19#20) end)
     (of_rows [Fin 3; Fin 1; Fin (3#2); Fin 2])) = Ok [Fin 1].
Proof. reflexivity. Qed.
