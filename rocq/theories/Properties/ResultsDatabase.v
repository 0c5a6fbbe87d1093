(** Properties of the database made by [sorcha outputs create-sqlite]. *)
From Coq Require Import Ascii String List Bool.
From Verif Require Import Base.Prelude Model.Files Model.Csv Model.ResultsDatabase Spec.ResultsDatabase Proofs.ResultsDatabase.
Import ListNotations.
Open Scope list_scope.

(** * C100: the results database *)

Theorem C100_complete_partial : forall (number : nat -> string) (V : Type) (with_complex : bool) (l : list (found V))
    (dir : list (text * list string)) (o o' : outdb V),
  create_results_database number with_complex l dir o = (o', Ok tt) ->
  (exists names parts, results o' = Some (names, concat parts)
     /\ Forall2 (fun d p => (d = Own -> p = []) /\ (forall t, d = Other t -> exists ns, t = Some (ns, p))) l parts
     /\ Forall (fun r => length r = length names) (concat parts))
  /\ gathered number dir (txt "params") (params o')
  /\ gathered number dir (txt "orbits") (orbits o')
  /\ (with_complex = true -> gathered number dir (txt "complex") (complex o'))
  /\ (with_complex = false -> complex o' = complex o).
Proof. exact C100_complete_proof. Qed.
Print Assumptions C100_complete_partial.
Theorem C100_ends_partial : forall (number : nat -> string) (V : Type) (with_complex : bool) (names : list string) (rows : list (list V))
    (l : list (found V)) (dir : list (text * list string)) (o : outdb V) (headings : text -> list string),
  (forall d, In d (Other (Some (names, rows)) :: l) ->
     d = Own \/ exists ns rs, d = Other (Some (ns, rs)) /\ Forall (fun r => length r = length names) rs) ->
  (forall type, In type [txt "params"; txt "orbits"; txt "complex"] ->
     storable (headings type) /\ (exists f rest, In f dir /\ fst f = type ++ rest)
     /\ (forall f rest, In f dir -> fst f = type ++ rest -> exists data, content (snd f) (headings type) data)) ->
  exists o', create_results_database number with_complex (Other (Some (names, rows)) :: l) dir o = (o', Ok tt).
Proof. exact C100_ends_proof. Qed.
Print Assumptions C100_ends_partial.
Theorem C100_commas_refuted : forall (number : nat -> string), exists o,
  create_results_database number false [Other (Some (["ObjID"%string], [["a"%string]]))]
    [(txt "params.csv", ["ObjID,H_r,GS"; "a,20.5,0.15"]%string);
     (txt "orbits.csv", ["ObjID,q"; "a,2.5"]%string)]
    {| results := None; params := None; orbits := None; complex := None |} = (o, Ok tt)
  /\ params o = Some (["index"; "ObjID,H_r,GS"]%string, [[Some (number 0); Some "a,20.5,0.15"%string]])
  /\ orbits o = Some (["index"; "ObjID,q"]%string, [[Some (number 0); Some "a,2.5"%string]]).
Proof. exact C100_commas_refuted_proof. Qed.
Print Assumptions C100_commas_refuted.
Theorem C100_output_refuted : forall (number : nat -> string) (V : Type) (with_complex : bool) (l : list (found V))
    (dir : list (text * list string)) (o : outdb V),
  results o = None -> create_results_database number with_complex (Own :: l) dir o = (o, Err OperationalError).
Proof. exact C100_output_refuted_proof. Qed.
Print Assumptions C100_output_refuted.
Theorem C100_lost_refuted : forall (number : nat -> string) (V : Type) (with_complex : bool) (names : list string) (rows : list (list V))
    (l : list (found V)) (dir : list (text * list string)) (o : outdb V),
  exists o', create_results_database number with_complex (Other (Some (names, rows)) :: l ++ [Other None]) dir o = (o', Err OperationalError)
  /\ results o' = Some (names, []).
Proof. exact C100_lost_refuted_proof. Qed.
Print Assumptions C100_lost_refuted.
Theorem C100_names_refuted : forall (number : nat -> string) (V : Type) (with_complex : bool) (names : list string) (rows : list (list V)),
  Forall (fun r => length r = length names) rows ->
  exists o, create_results_database number with_complex [Other (Some (names, rows))]
    [(txt "params.txt", ["Index ObjID H_r"; "1 a 20.5"]%string); (txt "orbits.txt", ["ObjID q"; "a 2.5"]%string)]
    {| results := None; params := None; orbits := None; complex := None |} = (o, Err OperationalError)
  /\ params o = None.
Proof. exact C100_names_refuted_proof. Qed.
Print Assumptions C100_names_refuted.

(** Two runs with two files of parameters, the second with its columns in another order. *)
Example C100_case :
  create_results_database (fun i => nth i ["0"; "1"]%string "n"%string) false
    [Other (Some (["ObjID"%string], [["a"%string]; ["b"%string]])); Own; Other (Some (["ObjID"%string], [["c"%string]]))]
    [(txt "params1.txt", ["ObjID INDEX H_r"; "a 7 20.5"; ""; "b 8 21"]%string);
     (txt "orbits.txt", ["ObjID q"; "a 2.5"; "b 3"]%string);
     (txt "params2.txt", ["H_r ObjID"; "19 c"]%string)]
    {| results := Some (["ObjID"%string], [["old"%string]]); params := None; orbits := None; complex := None |}
  = ({| results := Some (["ObjID"%string], [["a"%string]; ["b"%string]; ["c"%string]]);
        params := Some (["index"; "ObjID"; "orig_index"; "H_r"]%string,
          [[Some "0"; Some "a"; Some "7"; Some "20.5"]%string; [Some "1"; Some "b"; Some "8"; Some "21"]%string;
           [Some "0"%string; Some "c"%string; None; Some "19"%string]]);
        orbits := Some (["index"; "ObjID"; "q"]%string,
          [[Some "0"; Some "a"; Some "2.5"]%string; [Some "1"; Some "b"; Some "3"]%string]);
        complex := None |}, Ok tt).
Proof. reflexivity. Qed.

(** Columns as in the files of the case meet the conditions on names; a column index moves the row numbers to level_0. *)
Example C100_storable_case : storable ["ObjID"; "orig_index"; "H_r"]%string /\ storable ["index"; "ObjID"]%string /\ ~ storable ["Index"; "ObjID"]%string.
Proof.
  assert (K : forall H, distinct (index_label H :: H) = true -> storable H).
  { intros H D. pose proof (proj1 (distinct_apart _) D) as A. split.
    - intros j k c d E F S. specialize (A (Datatypes.S j) (Datatypes.S k) c d E F S). congruence.
    - intros c d I R S. apply label_only in R. subst d. apply In_nth_error in I as [j J]. specialize (A (Datatypes.S j) 0 c _ J eq_refl S). discriminate. }
  split; [apply K; reflexivity|split; [apply K; reflexivity|]].
  intro S. apply storable_distinct in S. discriminate.
Qed.
