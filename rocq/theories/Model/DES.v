(** The discovery criteria of the Dark Energy Survey:
    modules/DESDiscoveryFilter.py (paths relative to /repo/src/sorcha, line
    numbers refer to this file).  Times and coordinates are rational numbers (no
    NaN), arithmetic is exact and the decimal constants are exact. *)
From Coq Require Import ZArith QArith Qabs Qminmax String List Bool Arith.
From Verif Require Import Base.Prelude Base.Num Base.Sort.
Import ListNotations.
Open Scope Q_scope.

(** Line 18: the square of 50 au in km; astropy's au is exactly 149597870.7 km. *)
Definition bound : Q := (50 * (1495978707 # 10)) * (50 * (1495978707 # 10)).

(** [np.min] and [np.max] of a list that starts with [x], lines 62, 104 and 117. *)
Fixpoint minimum (x : Q) (l : list Q) : Q := match l with [] => x | y :: r => minimum (if qltb y x then y else x) r end.
(** Line 105. *)
Fixpoint maximum (x : Q) (l : list Q) : Q := match l with [] => x | y :: r => maximum (if qltb x y then y else x) r end.

(** Lines 111-115: the loop, with the running values [t1a] and [t2a]. *)
Fixpoint arccut_loop (t1 t2 : Q) (times : list Q) (t1a t2a : Q) : Q * Q :=
  match times with
  | [] => (t1a, t2a)
  | t :: rest =>
    arccut_loop t1 t2 rest (if qltb (7#10) (t - t1) && qltb t t1a then t else t1a)
                           (if qltb (7#10) (t2 - t) && qltb t2a t then t else t2a)
  end.
(** Lines 89-119.  Without times numpy's [min] fails; objects here have a detection. *)
Definition compute_arccut (times : list Q) : bool :=
  match times with
  | [] => false
  | x :: r =>
    let t1 := minimum x r in
    let t2 := maximum x r in
    let (t1a, t2a) := arccut_loop t1 t2 times t2 t1 in
    qltb ((1#2) * (36525#100)) (minimum (t2 - t1a) [t2a - t1])
  end.

(** Lines 151-153: a time that is more than 0.4 days after the one before it. *)
Fixpoint detections (prev : Q) (times : list Q) : list Q :=
  match times with
  | [] => []
  | t :: rest => if qltb (4#10) (t - prev) then t :: detections t rest else detections t rest
  end.
(** Lines 156-159: the best pair of gaps so far. *)
Fixpoint triplet_loop (det : list Q) (first_pair second_pair : Q) : Q * Q :=
  match det with
  | a :: ((b :: c :: _) as rest) =>
    if qltb (c - b) first_pair && qltb (b - a) second_pair then triplet_loop rest (c - b) (b - a)
    else triplet_loop rest first_pair second_pair
  | _ => (first_pair, second_pair)
  end.
(** Lines 126-164. *)
Definition compute_triplet (times : list Q) (thresh : Q) : bool :=
  match times with
  | [] => false
  | t :: rest =>
    let (f, s) := triplet_loop (t :: detections t rest) 999 999 in
    qltb f thresh && qltb s thresh
  end.

(** Lines 191-197: [before] are the times already visited. *)
Fixpoint nunique_loop (before times : list Q) : nat :=
  match times with
  | [] => 0
  | t :: rest =>
    ((if existsb (fun s => qltb (Qabs (s - t)) (4#10)) before then 0 else 1) + nunique_loop (before ++ [t]) rest)%nat
  end.
(** Lines 171-199. *)
Definition compute_nunique (times : list Q) : nat := nunique_loop [] times.

Section Filter.
Context {A : Type}.
Variables (objid : A -> string) (time x y z : A -> Q).
(** [sort_values] of line 82, not stable. *)
Variable sort_values : list A -> list A.

(** Line 62. *)
Definition distance2 (r : A) : Q := x r * x r + y r * y r + z r * z r.
(** Lines 60-63. *)
Definition window (obs : list A) : Q :=
  match obs with
  | [] => 60
  | r :: rest => if Qle_bool bound (minimum (distance2 r) (map distance2 rest)) then 90 else 60
  end.
(** Lines 65-79: the verdict on one object. *)
Definition discovered (obs : list A) : bool :=
  let times := sort_by (fun t => t) (map time obs) in
  (9 <=? compute_nunique times)%nat
  || (compute_arccut times && compute_triplet times (window obs) && (7 <=? compute_nunique times)%nat).
(** Lines 45-82, on a table that is not empty (des.py:365).  Grouping by argsort
    and unique (lines 52-55) is the list of distinct identifiers with their
    rows. *)
Definition DESDiscoveryFilter (obs : list A) : list A :=
  let objects := nodup string_dec (map objid obs) in
  let good := filter (fun o => discovered (filter (fun r => String.eqb (objid r) o) obs)) objects in
  sort_values (filter (fun r => existsb (String.eqb (objid r)) good) obs).
End Filter.
