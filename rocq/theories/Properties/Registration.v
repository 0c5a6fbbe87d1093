(** Properties of the variability models that a user adds. *)
From Coq Require Import String List Bool.
From Verif Require Import Base.Prelude Model.Registration Spec.Registration Proofs.Registration.
Import ListNotations.
Open Scope list_scope.

(** * C99: variability models of add-ons *)

Theorem C99_register_partial : forall C (l : list (klass C)),
  (NoDup (map (fun k => match k with Class n _ _ => n end) l) ->
   exists m, register_lc_subclasses C l = Ok m /\ forall n c, get C n m = Some c <-> exists d, In (Class n c d) l) /\
  (~ NoDup (map (fun k => match k with Class n _ _ => n end) l) -> register_lc_subclasses C l = Err ValueError).
Proof. exact C99_register_proof. Qed.
Print Assumptions C99_register_partial.
Theorem C99_start_partial : forall C (own added : list (klass C)),
  NoDup (map (fun k => match k with Class n _ _ => n end) own) ->
  exists m, at_start C own added = Ok m /\
    (forall n c d, In (Class n c d) own -> get C n m = Some c) /\
    (forall n c, get C n m = Some c -> exists d, In (Class n c d) (own ++ added)) /\
    (forall n, (exists c, get C n m = Some c) <-> In n (map (fun k => match k with Class n _ _ => n end) (own ++ added))) /\
    (NoDup (map (fun k => match k with Class n _ _ => n end) (own ++ added)) ->
     forall n c, get C n m = Some c <-> exists d, In (Class n c d) (own ++ added)).
Proof. exact C99_start_proof. Qed.
Print Assumptions C99_start_partial.
Theorem C99_duplicate_refuted : exists (own added : list (klass nat)) m,
  at_start nat own added = Ok m /\ In (Class "sinusoidal"%string 2 []) added /\ In (Class "sinusoidal"%string 3 []) added /\
  get nat "sinusoidal" m = Some 2 /\ register_lc_subclasses nat (own ++ added) = Err ValueError.
Proof. exact C99_duplicate_refuted_proof. Qed.
Print Assumptions C99_duplicate_refuted.
Theorem C99_derived_refuted : exists (own added : list (klass nat)) m,
  at_start nat own added = Ok m /\ defined "better"%string 3 (own ++ added) /\ get nat "better" m = None.
Proof. exact C99_derived_refuted_proof. Qed.
Print Assumptions C99_derived_refuted.

(** Two models are added to that of the package. *)
Example C99_case : exists m,
  at_start nat [Class "identity"%string 1 []] [Class "sinusoidal"%string 2 []; Class "sawtooth"%string 3 []] = Ok m
  /\ get nat "identity" m = Some 1 /\ get nat "sinusoidal" m = Some 2 /\ get nat "sawtooth" m = Some 3 /\ get nat "square" m = None.
Proof. eexists. split; [reflexivity|]. repeat split. Qed.
