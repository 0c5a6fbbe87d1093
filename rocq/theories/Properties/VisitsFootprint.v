From Coq Require Import String List Arith Bool QArith Lia Permutation.
From Verif Require Import Base.Prelude Base.Frame Model.VisitsFootprint Proofs.VisitsFootprint.
Import ListNotations.
Open Scope nat_scope.

(** * C74: CCDs from a table of visits *)

Theorem C74_own_partial : forall (set_order : list nat -> list nat) query buffer num (f : frame vobs) lab id lim,
  (forall l, Permutation (set_order l) l) ->
  (forall a b x y, In (a, x) f -> In (b, y) f -> o_field x = o_field y -> o_field_ra x = o_field_ra y) ->
  (forall a o i j c d, In (a, o) f -> nth_error (query (o_field o)) i = Some c -> nth_error (query (o_field o)) j = Some d ->
     contains c (unwrap buffer [o] o) = true -> contains d (unwrap buffer [o] o) = true -> i = j) ->
  (forall a o i c, In (a, o) f -> nth_error (query (o_field o)) i = Some c -> contains c (unwrap buffer [o] o) = true ->
     In i (candidates num (query (o_field o)) [unwrap buffer [o] o])) ->
  In (lab, (id, lim)) (PPVisitsFootprint set_order query buffer num f) <->
  exists o i c, In (lab, o) f /\ nth_error (query (o_field o)) i = Some c /\ contains c (unwrap buffer [o] o) = true /\ c_id c = id /\ c_lim c = lim.
Proof. exact C74_own_proof. Qed.
Print Assumptions C74_own_partial.
Theorem C74_rows_partial : forall so query buffer num (f : frame vobs), map fst f = seq 0 (length f) ->
  exists g, visits_filter so query buffer num f = Ok g /\
  forall lab o d, In (lab, (o, d)) g <-> In (lab, o) f /\ In (lab, d) (PPVisitsFootprint so query buffer num f).
Proof. exact C74_rows_proof. Qed.
Print Assumptions C74_rows_partial.

(** The same observation is lost alone and kept in the company of another. *)
Theorem C74_company_refuted : exists query (o p : vobs), o_field o = o_field p /\
  PPVisitsFootprint (fun l => l) query (3#2) 3 [(0, o)] = [] /\
  exists id lim, In (0, (id, lim)) (PPVisitsFootprint (fun l => l) query (3#2) 3 [(0, o); (1, p)]).
Proof. exact C74_company_refuted_proof. Qed.
Print Assumptions C74_company_refuted.
(** Labels that are not positions select other rows. *)
Theorem C74_labels_refuted : exists query (o p : vobs) d, o <> p /\
  PPVisitsFootprint (fun l => l) query (3#2) 3 [(1, o); (0, p)] = [(1, d)] /\
  visits_filter (fun l => l) query (3#2) 3 [(1, o); (0, p)] = Ok [(0, (p, d))].
Proof. exact C74_labels_refuted_proof. Qed.
Print Assumptions C74_labels_refuted.

(** The hypotheses of [C74_own_partial] and [C74_rows_partial] hold of an observation in the
    middle of a CCD. *)
Example C74_case : contains (box 1 10 10 20 20) (unwrap (3#2) [companion] companion) = true /\
  contains (box 2 (201#10) 17 (206#10) 18) (unwrap (3#2) [companion] companion) = false /\
  In 0 (candidates 3 (mixed_camera "v") [unwrap (3#2) [companion] companion]) /\
  visits_filter (fun l => l) mixed_camera (3#2) 3 [(0, companion)] = Ok [(0, (companion, (1, 24%Q)))].
Proof. vm_compute. repeat split; auto. Qed.
