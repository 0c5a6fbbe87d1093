(** A run from the input tables to the result file: the rounds of
    Model/Pipeline.v in the loop of Model/Library.v.  Paths are relative to
    /repo/src/sorcha. *)
From Coq Require Import String List Arith ZArith Bool.
From Verif Require Import Base.Prelude Model.Output.
Import ListNotations.

Section Table.
Context {V O S C : Type}.
(** The columns that [observations] has when it is written, and what is in them
    for an observation (sorcha.py:232-372, des.py:223-370); they are parameters. *)
Variable columns : list string.
Variable cell : O -> string -> V.
(** sorcha.py:375-386, des.py:373-384: the data frame that is handed to the output. *)
Definition frame_of (l : list O) : table V := {| t_names := columns; t_recs := map cell l |}.
(** sorcha.py:232-386, des.py:223-384: a round that leaves its data frame; without rows
    nothing is written (sorcha.py:375, des.py:373). *)
Definition tabulated (process : S -> C -> result (S * option (list O))) (s : S) (c : C) : result (S * option (table V)) :=
  rmap (fun x => (fst x, option_map frame_of (snd x))) (process s c).
End Table.
