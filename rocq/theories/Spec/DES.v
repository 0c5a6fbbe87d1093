(** The documented discovery criteria of the Dark Energy Survey, in terms of
    nights. *)
From Coq Require Import ZArith QArith Qabs String List Sorting.Sorted Sorting.Permutation.
Import ListNotations.
Open Scope Q_scope.

(** Detections grouped by night: those of a night lie within 0.4 days, those of
    different nights are more than 0.4 days apart; everything is in order of
    time. *)
Definition grouped (ns : list (list Q)) (times : list Q) : Prop :=
  Permutation (concat ns) times
  /\ StronglySorted Qle (concat ns)
  /\ Forall (fun n => n <> [] /\ forall a b, In a n -> In b n -> Qabs (a - b) < 4#10) ns
  /\ StronglySorted (fun n m => forall a b, In a n -> In b m -> 4#10 < b - a) ns.

(** What is left when the detections within 0.7 days of [x] are dropped spans
    more than half a year. *)
Definition still_long (times : list Q) (x : Q) : Prop :=
  exists a b, In a times /\ In b times /\ 7#10 < Qabs (a - x) /\ 7#10 < Qabs (b - x) /\ 365.25 / 2 < b - a.
(** ... for the first and for the last night. *)
Definition long_arc (times : list Q) : Prop :=
  exists f l, In f times /\ In l times /\ (forall t, In t times -> f <= t <= l)
    /\ still_long times f /\ still_long times l.

(** Three nights in a row whose first detections follow each other within the
    window. *)
Definition triplet (ns : list (list Q)) (w : Q) : Prop :=
  exists before n1 n2 n3 after a b c, ns = before ++ n1 :: n2 :: n3 :: after
    /\ hd_error n1 = Some a /\ hd_error n2 = Some b /\ hd_error n3 = Some c /\ b - a < w /\ c - b < w.
(** The same with gaps that are shorter than those of all earlier triples. *)
Definition shortest_triplet (ns : list (list Q)) (w : Q) : Prop :=
  exists before n1 n2 n3 after a b c, ns = before ++ n1 :: n2 :: n3 :: after
    /\ hd_error n1 = Some a /\ hd_error n2 = Some b /\ hd_error n3 = Some c /\ b - a < w /\ c - b < w
    /\ forall pre m1 m2 m3 post p q r, before ++ [n1; n2] = pre ++ m1 :: m2 :: m3 :: post ->
         hd_error m1 = Some p -> hd_error m2 = Some q -> hd_error m3 = Some r -> b - a < q - p /\ c - b < r - q.

(** 90 days if all detections are at 50 au (7479893535 km) or more, else 60. *)
Definition is_window (dist2 : list Q) (w : Q) : Prop :=
  (w = 90 /\ forall d, In d dist2 -> 7479893535 * 7479893535 <= d)
  \/ (w = 60 /\ exists d, In d dist2 /\ d < 7479893535 * 7479893535).
