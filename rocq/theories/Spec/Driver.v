(** Vocabulary for statements about whole runs. *)
From Coq Require Import String List Arith ZArith Bool.
From Verif Require Import Base.Prelude.
Import ListNotations.
Open Scope nat_scope.

(** [m] blocks of [k] items are needed, and enough, for [n] items. *)
Definition ceil_div (n k m : nat) : Prop := n <= m * k /\ m * k < n + k.

(** [blocks] cut the list [l] into consecutive non-empty pieces of at most [k]
    items. *)
Definition cut_into {A} (k : nat) (l : list A) (blocks : list (list A)) : Prop :=
  concat blocks = l /\ Forall (fun b => b <> [] /\ length b <= k) blocks.

(** [a] is an initial segment of [b]. *)
Definition prefix_of {A} (a b : list A) : Prop := exists c, b = a ++ c.
