From Coq Require Import String List Arith Bool ZArith QArith Lia Lqa Permutation.
From Verif Require Import Base.Prelude Base.Frame Model.VisitsFootprint Spec.Bricks Proofs.VisitsFootprint Proofs.Bricks.
Import ListNotations.
Open Scope Q_scope.

(** * C93: cameras made of equal CCDs *)

Theorem C93_kept_partial : forall (set_order : list nat -> list nat) (query : string -> list ccd) buffer (f : frame vobs) lab id lim,
  (forall l, Permutation (set_order l) l) ->
  (forall a b x y, In (a, x) f -> In (b, y) f -> o_field x = o_field y -> o_field_ra x = o_field_ra y) ->
  buffer <= 90 ->
  (forall a o, In (a, o) f -> camera (query (o_field o)) /\ 0 <= o_ra o /\ o_ra o < 360 /\ 0 <= o_field_ra o /\ o_field_ra o <= 360
     /\ forall c ra dec, In c (query (o_field o)) -> on_ccd c ra dec -> o_field_ra o - buffer < ra /\ ra < o_field_ra o + buffer) ->
  (In (lab, (id, lim)) (PPVisitsFootprint set_order query buffer 3 f) <->
   exists o c (turn : Z), In (lab, o) f /\ In c (query (o_field o)) /\ on_ccd c (o_ra o + 360 * inject_Z turn) (o_dec o) /\ c_id c = id /\ c_lim c = lim).
Proof. exact C93_kept_proof. Qed.
Print Assumptions C93_kept_partial.
Theorem C93_rows_partial : forall (set_order : list nat -> list nat) (query : string -> list ccd) buffer (f : frame vobs),
  map fst f = seq 0 (length f) ->
  (forall l, Permutation (set_order l) l) ->
  (forall a b x y, In (a, x) f -> In (b, y) f -> o_field x = o_field y -> o_field_ra x = o_field_ra y) ->
  buffer <= 90 ->
  (forall a o, In (a, o) f -> camera (query (o_field o)) /\ 0 <= o_ra o /\ o_ra o < 360 /\ 0 <= o_field_ra o /\ o_field_ra o <= 360
     /\ forall c ra dec, In c (query (o_field o)) -> on_ccd c ra dec -> o_field_ra o - buffer < ra /\ ra < o_field_ra o + buffer) ->
  exists g, visits_filter set_order query buffer 3 f = Ok g /\
  forall lab o id lim, In (lab, (o, (id, lim))) g <->
   exists c (turn : Z), In (lab, o) f /\ In c (query (o_field o)) /\ on_ccd c (o_ra o + 360 * inject_Z turn) (o_dec o) /\ c_id c = id /\ c_lim c = lim.
Proof. exact C93_rows_proof. Qed.
Print Assumptions C93_rows_partial.
Theorem C93_once_partial : forall set_order query buffer num (f : frame vobs), NoDup (map fst f) ->
  NoDup (map fst (PPVisitsFootprint set_order query buffer num f)).
Proof. exact C93_once_proof. Qed.
Print Assumptions C93_once_partial.

(** The radius in right ascension does not grow towards the poles: a CCD across
    the 0/360 boundary is empty. *)
Theorem C93_wrap_refuted : exists (query : string -> list ccd) (o : vobs) c,
  camera (query (o_field o)) /\ 0 <= o_ra o /\ o_ra o < 360 /\ 0 <= o_field_ra o /\ o_field_ra o <= 360 /\
  (forall d ra dec, In d (query (o_field o)) -> on_ccd d ra dec -> o_field_ra o - (22#10) < ra /\ ra < o_field_ra o + (22#10) /\ -61 < dec /\ dec <= -60) /\
  In c (query (o_field o)) /\ on_ccd c (o_ra o - 360) (o_dec o) /\
  PPVisitsFootprint (fun l => l) query (3#2) 3 [(0%nat, o)] = [].
Proof. exact C93_wrap_refuted_proof. Qed.
Print Assumptions C93_wrap_refuted.
(** Three points do not suffice when rows are shifted by another part of a CCD. *)
Theorem C93_missed_refuted : exists (query : string -> list ccd) (o : vobs) c,
  (forall i j d e ra dec, nth_error (query (o_field o)) i = Some d -> nth_error (query (o_field o)) j = Some e -> on_ccd d ra dec -> on_ccd e ra dec -> i = j) /\
  In c (query (o_field o)) /\ on_ccd c (o_ra o) (o_dec o) /\
  PPVisitsFootprint (fun l => l) query (3#2) 3 [(0%nat, o)] = [].
Proof. exact C93_missed_refuted_proof. Qed.
Print Assumptions C93_missed_refuted.

(** The hypotheses of [C93_kept_partial] and [C93_rows_partial] hold of an observation near the
    edge of a CCD with two neighbours. *)
Example C93_case : camera brick_wall /\
  (forall c ra dec, In c brick_wall -> on_ccd c ra dec -> o_field_ra on_wall - 90 < ra /\ ra < o_field_ra on_wall + 90) /\
  visits_filter (fun l => l) (fun _ => brick_wall) 90 3 [(0%nat, on_wall)] = Ok [(0%nat, (on_wall, (1%nat, 24)))].
Proof.
  split; [exact brick_wall_camera|]. split; [|vm_compute; reflexivity].
  intros c ra dec [I|[I|[I|[]]]] O; subst c; unfold on_ccd in O; cbn in *; destruct O as [[O|O] O']; lra.
Qed.
