(** Specification vocabulary for the linking stage, independent of the model. *)
From Coq Require Import String List ZArith QArith Qround Bool Sorting.Sorted Sorting.Permutation.
From Verif Require Import Base.Prelude Base.Num.
Import ListNotations.
Open Scope Z_scope.

Section Spec.
Context {A : Type}.
Variable tm : A -> Q.
Variable sep : A -> A -> num.

(** Rows in chronological order. *)
Definition chronological (l : list A) : Prop := StronglySorted (fun a b => (tm a <= tm b)%Q) l.

(** Two observations [a] (earlier) and [b] of [l] form a tracklet: less than
    [maxdt_minutes] apart and not simultaneous, more than [minlen_arcsec]
    apart on the sky, at least [min_obs] observations from [a] to [b]. *)
Definition tracklet (maxdt_minutes minlen_arcsec : Q) (min_obs : Z) (l : list A) : Prop :=
  exists l1 a l2 b l3, l = l1 ++ a :: l2 ++ b :: l3 /\
    (tm a < tm b)%Q /\ ((tm b - tm a) * 1440 < maxdt_minutes)%Q /\
    num_lt (Fin (minlen_arcsec / 3600)) (sep b a) /\
    min_obs <= Z.of_nat (length l2) + 2.

(** A required number of one observation makes every non-empty night count. *)
Definition tracklet_night (maxdt_minutes minlen_arcsec : Q) (min_obs : Z) (l : list A) : Prop :=
  (min_obs = 1 /\ l <> []) \/
  (min_obs <> 1 /\ tracklet maxdt_minutes minlen_arcsec min_obs l).
End Spec.

(** The trailing window of [w] nights ending at night [d]. *)
Definition in_window (w d t : Z) : Prop := d - w < t <= d.

(** [T] holds of at least [n] distinct nights of the window ending at [d]. *)
Definition qualifies (T : Z -> Prop) (w n d : Z) : Prop :=
  exists S, NoDup S /\ (forall t, In t S -> T t /\ in_window w d t) /\ n <= Z.of_nat (length S).

(** The two windows hold the same tracklet nights. *)
Definition same_window (T : Z -> Prop) (w d d' : Z) : Prop :=
  forall t, T t -> (in_window w d t <-> in_window w d' t).

(** [d'] is the last night before [d] with property [q]. *)
Definition previous (q : Z -> Prop) (d d' : Z) : Prop :=
  q d' /\ d' < d /\ forall e, d' < e < d -> ~ q e.

Definition first_with (q : Z -> Prop) (d : Z) : Prop :=
  q d /\ forall e, e < d -> ~ q e.

(** Sums of the weights number [a] to [b-1]. *)
Fixpoint prefix_sum (w : nat -> Z) (n : nat) : Z :=
  match n with O => 0 | S n' => prefix_sum w n' + w n' end.

(** The first [n] weights are generic: distinct non-empty runs of consecutive
    weights have distinct, non-zero sums.  (Random reals satisfy this with
    probability one.) *)
Definition generic (w : nat -> Z) (n : nat) : Prop :=
  forall a b c d, (a < b <= n)%nat -> (c < d <= n)%nat ->
    prefix_sum w b - prefix_sum w a <> 0 /\
    (prefix_sum w b - prefix_sum w a = prefix_sum w d - prefix_sum w c -> a = c /\ b = d).

(** A sorting routine, not necessarily stable. *)
Definition sorter {A} (key : A -> Q) (f : list A -> list A) : Prop :=
  forall l, Permutation (f l) l /\ StronglySorted (fun a b => (key a <= key b)%Q) (f l).

Section Nights.
Context {A : Type}.
Variable tm : A -> Q.

(** The night of an observation: whole days since the start of nights. *)
Definition night (start : Q) (r : A) : Z := Qfloor (tm r - start)%Q.
(** The observation is taken at night, well away from the day boundary. *)
Definition well_phased (start : Q) (r : A) : Prop :=
  exists n, 0 <= n /\ (inject_Z n + (1#10) < tm r - start)%Q /\ (tm r - start < inject_Z n + (9#10))%Q.
End Nights.

Section Object.
Context {A : Type}.
Variable tm : A -> Q.
Variable sep : A -> A -> num.

(** The observations [l] of one object, in time order, hold a tracklet in
    night [d]. *)
Definition object_tracklet (maxdt minlen : Q) (min_obs : Z) (start : Q) (l : list A) (d : Z) : Prop :=
  tracklet_night tm sep maxdt minlen min_obs (filter (fun r => night tm start r =? d) l).

(** The object can be linked on night [d]: the trailing window holds enough
    tracklet nights. *)
Definition linkable (maxdt minlen : Q) (min_obs window nlink : Z) (start : Q) (l : list A) (d : Z) : Prop :=
  qualifies (object_tracklet maxdt minlen min_obs start l) window nlink d.
End Object.

(** The rows of object [i] in table [l], in table order. *)
Definition rows_of {A} (oid : A -> string) (i : string) (l : list A) : list A :=
  filter (fun r => String.eqb (oid r) i) l.
