(** C107: the chunk size in runs that consult random numbers. *)
From Coq Require Import String List Arith ZArith QArith Bool Sorting.Permutation.
From Verif Require Import Base.Prelude Base.Num Base.Frame Model.Filters Model.Linking Model.Readers Model.Driver Model.Pipeline
  Spec.Filters Spec.Linking Spec.Readers Spec.Driver Spec.Pipeline Spec.Streams Proofs.Streams.
Import ListNotations.
Open Scope nat_scope.

(** * C107: random cuts and the chunk size *)

Theorem C107_chunk_size_partial : forall E P R (efield : joined E R -> Z) (etime : joined E R -> Q) (pfield : P -> Z) (pfilt : P -> option string)
    (pstart : P -> Q) pointings physics noise fsep prob gauss fov drop lsep tsort ldraws osort lweights
    (cfg : settings (joined E R) P)
    (EPH : list (string * E)) ephem (aux0 : nat -> option nat -> result (list (string * R))) others tables T,
  unrandomised cfg ->
  sorter (fun x : obs (joined E R) P * bool * option Z => etime (o_eph (fst (fst x)))) osort ->
  sorter (fun o : obs (joined E R) P => etime (o_eph o)) tsort ->
  (forall c d, linking cfg = Some (c, d) -> (1 <= c_window c)%Z /\ (1 <= c_nlink c)%Z /\ (1 <= c_min_obs c)%Z
     /\ forall n k m, generic (lweights n k) m) ->
  exact_reader EPH ephem -> (forall s n, aux0 s n = Ok (slice s n T)) ->
  Forall2 exact_reader tables others ->
  NoDup (map fst T) -> (forall X, In X tables -> NoDup (map fst X)) ->
  (forall i, In i (map fst T) -> forall X, In X tables -> In i (map fst X)) ->
  in_order T EPH ->
  forall s0, exists catalogue, forall k rounds tr, 0 < k ->
  run (read_external aux0 ephem others)
      (process (fun j => fst (fst j)) efield etime pfield pfilt pstart pointings physics noise fsep prob
         gauss fov drop lsep tsort ldraws osort lweights cfg)
      rounds (Z.of_nat (length T)) (Z.of_nat k) s0 = (Done, tr) ->
  Permutation (concat (written tr)) catalogue /\ (linking cfg = None -> concat (written tr) = catalogue).
Proof. exact C107_chunk_size_proof. Qed.
Print Assumptions C107_chunk_size_partial.
Theorem C107_randomised_refuted : in_order s_orbits s_grouped /\ exists tr1 tr2,
  s_run true s_grouped 5 1 = (Done, tr1) /\ s_run true s_grouped 5 2 = (Done, tr2) /\ ~ Permutation (concat (written tr1)) (concat (written tr2)).
Proof. exact C107_randomised_refuted_proof. Qed.
Print Assumptions C107_randomised_refuted.
Theorem C107_ungrouped_refuted : unrandomised (s_cfg false) /\ Permutation s_by_time s_grouped /\ exists tr1 tr2,
  s_run false s_by_time 5 1 = (Done, tr1) /\ s_run false s_by_time 5 2 = (Done, tr2) /\ ~ Permutation (concat (written tr1)) (concat (written tr2)).
Proof. exact C107_ungrouped_refuted_proof. Qed.
Print Assumptions C107_ungrouped_refuted.

(** The fading function drops the second of three rows, whether the two objects
    are read together or one after the other. *)
Example C107_case : unrandomised (s_cfg false) /\ fading_on (s_cfg false) = true /\ in_order s_orbits s_grouped /\
  let ids r := map (fun x => (fst (fst (o_eph (fst x))), fst (snd (fst (o_eph (fst x)))))) (concat (written (snd r))) in
  fst (s_run false s_grouped 5 1) = Done /\ fst (s_run false s_grouped 5 2) = Done /\
  ids (s_run false s_grouped 5 1) = [("a", 1); ("b", 1)]%string%Z /\ ids (s_run false s_grouped 5 2) = [("a", 1); ("b", 1)]%string%Z.
Proof.
  split; [split; [reflexivity|exact I]|]. split; [reflexivity|]. split; [exact (proj1 C107_randomised_refuted)|].
  repeat split; vm_compute; reflexivity.
Qed.
