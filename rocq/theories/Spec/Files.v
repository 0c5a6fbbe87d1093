(** Vocabulary for statements about files. *)
From Coq Require Import Ascii String List Arith Bool.
From Verif Require Import Base.Prelude Model.Files.
Import ListNotations.
Open Scope nat_scope.

(** [a] begins with [p]; [a] ends with [p]; [p] occurs in [a]. *)
Definition begins (p a : text) : Prop := exists b, a = p ++ b.
Definition ends (p a : text) : Prop := exists b, a = b ++ p.
Definition occurs (p a : text) : Prop := exists b c, a = b ++ p ++ c.

(** No character with a special meaning in shell patterns. *)
Definition plain (s : text) : Prop := ~ In c_star s /\ ~ In c_q s /\ ~ In c_open s.

(** Pieces put together with a separator between neighbours. *)
Fixpoint intercalate (sep : text) (pieces : list text) : text :=
  match pieces with
  | [] => []
  | p :: ps => p ++ match ps with [] => [] | _ => sep ++ intercalate sep ps end
  end.
