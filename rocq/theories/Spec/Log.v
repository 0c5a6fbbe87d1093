(** Vocabulary for the log of a run. *)
From Coq Require Import QArith String List.
From Verif Require Import Base.Num.
Import ListNotations.
Open Scope string_scope.

(** The line [s] is in the log; a message is its beginning and what is added to it. *)
Definition says (l : list (string * string)) (s : string) : Prop := In s (map (fun m => fst m ++ snd m) l).

(** The number is 0, which Python takes for false. *)
Definition is_zero (x : num) : bool := match x with Fin q => Qeq_bool q 0 | _ => false end.
