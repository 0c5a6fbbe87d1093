(** Vocabulary for the linking filter in floating-point arithmetic. *)
From Coq Require Import String List ZArith QArith Reals Qreals.
From Flocq Require Import Core.
From Verif Require Import Base.Num.
Open Scope R_scope.

(** A number that binary64 can hold (without its upper bound). *)
Definition float (x : Q) : Prop := generic_format radix2 (FLT_exp (-1074) 53) (Q2R x).
(** [x] does not agree with [limit] to fifteen digits. *)
Definition clear_of (limit x : Q) : Prop :=
  (x < limit * (1 - (1 # 1125899906842624)) \/ limit * (1 + (1 # 1125899906842624)) < x)%Q.
(** [x] days are not within a thousandth of a day of a tenth or nine tenths of a day. *)
Definition clear_phase (x : Q) : Prop := forall n : Z,
  (x < inject_Z n + (99 # 1000) \/ inject_Z n + (101 # 1000) < x)%Q
  /\ (x < inject_Z n + (899 # 1000) \/ inject_Z n + (901 # 1000) < x)%Q.

(** The nearest float. *)
Definition nearest (x : R) : R := round radix2 (FLT_exp (-1074) 53) ZnearestE x.
(** The first [n] of the numbers [w], added one after the other in floating point. *)
Fixpoint float_sum (w : nat -> R) (n : nat) : R :=
  match n with O => 0 | S n' => nearest (float_sum w n' + w n') end.
(** The first [n] of the numbers [w] tell all runs of consecutive numbers apart by
    differences of such sums.  (So do random numbers almost always.) *)
Definition telling (w : nat -> R) (n : nat) : Prop :=
  forall a b c d, (a < b <= n)%nat -> (c < d <= n)%nat ->
    nearest (float_sum w b - float_sum w a) <> 0 /\
    (nearest (float_sum w b - float_sum w a) = nearest (float_sum w d - float_sum w c) -> a = c /\ b = d).

(** Limits and times of a table that floating-point arithmetic cannot confuse:
    limits [time] (days) and [separation] (arcseconds) not minute, times within
    a thousand million days that are floats, no gap between two times of one object
    that agrees with [time] to fifteen digits, no separation (degrees) of two
    observations of one object less than [time] apart that agrees with [separation]
    to fifteen digits. *)
Definition margins {A} (oid : A -> string) (tm : A -> Q) (sep : A -> A -> num) (time separation start : Q) (l : list A) : Prop :=
  (1 # 10000000000 <= time)%Q /\ (1 # 10000000000 <= separation)%Q /\ (- (1000000000) <= start <= 1000000000)%Q /\
  (forall r, In r l -> float (tm r) /\ (- (1000000000) <= tm r <= 1000000000)%Q) /\
  (forall r r', In r l -> In r' l -> oid r = oid r' -> clear_of time (tm r - tm r')) /\
  (forall r r' q, In r l -> In r' l -> oid r = oid r' -> (0 < tm r - tm r' < time)%Q -> sep r r' = Fin q -> clear_of (separation / 3600) q).
(** [x] days are well within the dark part of a day that is not before day zero. *)
Definition dark (x : Q) : Prop := exists n : Z, (0 <= n)%Z /\ (inject_Z n + (101 # 1000) < x < inject_Z n + (899 # 1000))%Q.
