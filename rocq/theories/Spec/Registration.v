(** Vocabulary for statements about models that a user adds. *)
From Coq Require Import String List Bool.
From Verif Require Import Base.Prelude Model.Registration.
Import ListNotations.
Open Scope list_scope.

(** [defined n c l]: a class with name [n] and code [c] is in the list, or
    derived from a class of the list, directly or not. *)
Inductive defined {C} (n : string) (c : C) : list (klass C) -> Prop :=
| def_here : forall d l, defined n c (Class n c d :: l)
| def_under : forall m c' d l, defined n c d -> defined n c (Class m c' d :: l)
| def_later : forall k l, defined n c l -> defined n c (k :: l).
