(** Vocabulary for statements about the command [sorcha]. *)
From Coq Require Import String List ZArith Bool.
From Verif Require Import Base.Prelude Model.Dispatch.
Import ListNotations.
Open Scope list_scope.

(** The names of a directory are different. *)
Definition proper {P} (path : PATH P) : Prop :=
  forall d, In (Some d) path -> NoDup (map fst (entries d)).
(** Every directory of PATH can be listed. *)
Definition listable {P} (path : PATH P) : Prop :=
  forall d, In (Some d) path -> readable d = true.
(** A directory of PATH has a program of that name. *)
Definition has {P} (path : PATH P) (name : string) : Prop :=
  exists d p, In (Some d) path /\ In (name, Program p) (entries d).
(** The program of that name that comes first on PATH. *)
Definition first_on {P} (path : PATH P) (name : string) (p : P) : Prop :=
  exists before d after, path = before ++ Some d :: after /\ In (name, Program p) (entries d) /\ ~ has before name.
