(** Vocabulary for statements about random streams. *)
From Coq Require Import List.
Import ListNotations.

(** Answering the requests [qs] one after the other from generator [g] gives
    [l]. *)
Inductive stream {G Q A} (draw : G -> Q -> G * A) : G -> list Q -> list A -> Prop :=
| stream_nil : forall g, stream draw g [] []
| stream_cons : forall g q g' a qs l, draw g q = (g', a) -> stream draw g' qs l -> stream draw g (q :: qs) (a :: l).
