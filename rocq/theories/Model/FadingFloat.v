(** The fading functions in binary64 arithmetic:
    src/sorcha/modules/PPDetectionProbability.py, PPFadingFunctionFilter.py,
    DESDetectionProbability.py, DESFadingFunctionFilter.py and PPDropObservations.py
    (called by their names below) with every rounding and overflow.
    Model/Photometry.v has the same formulas over the reals.  The values and the
    operations multiply and divide are those of Model/Rounding.v; numpy's exp is a
    parameter.  The sign of zero is left out (no divisor is zero). *)
From Coq Require Import List Arith ZArith Reals Bool.
From Flocq Require Import Core.
From Verif Require Import Base.Prelude Model.LinkingFloat Model.Rounding.
Import ListNotations.
Open Scope R_scope.

(** numpy's add, PPDetectionProbability.py:49. *)
Definition plus (a b : cell) : cell :=
  match a, b with
  | Real x, Real y => finish (x + y)
  | Real _, Inf s | Inf s, Real _ => Inf s
  | Inf s, Inf t => if Bool.eqb s t then Inf s else Nan
  | _, _ => Nan
  end.
(** numpy's subtract, PPDetectionProbability.py:49. *)
Definition minus (a b : cell) : cell :=
  match b with
  | Real y => plus a (Real (- y))
  | Inf s => plus a (Inf (negb s))
  | _ => Nan
  end.
(** [a >= b] of float64 columns, PPDropObservations.py:32. *)
Definition at_least (a b : cell) : bool :=
  match a, b with
  | Real x, Real y => if Rle_dec y x then true else false
  | Inf false, Real _ | Inf false, Inf _ => true
  | Real _, Inf true | Inf true, Inf true => true
  | _, _ => false
  end.

Section Fading.
(** [np.exp], PPDetectionProbability.py:49. *)
Variable np_exp : cell -> cell.

(** PPDetectionProbability.py:49. *)
Definition calcDetectionProbability_f (mag limmag fillFactor w : cell) : cell :=
  divide fillFactor (plus (Real 1) (np_exp (divide (minus mag limmag) w))).
(** DESDetectionProbability.py:51. *)
Definition DEScalcDetectionProbability_f (mag limmag c k c_sharp : cell) : cell :=
  multiply c_sharp (divide c (plus (Real 1) (np_exp (multiply k (minus mag limmag))))).

(** PPDropObservations.py:27-34; [draw i] is what [rng.random] gives for row [i],
    counted from [i] here. *)
Fixpoint PPDropObservations_f {A} (prob : A -> cell) (draw : nat -> cell) (i : nat) (rows : list A) : list A :=
  match rows with
  | [] => []
  | r :: rest => if at_least (prob r) (draw i) then r :: PPDropObservations_f prob draw (S i) rest
                 else PPDropObservations_f prob draw (S i) rest
  end.
(** PPFadingFunctionFilter.py:39-50 with PPDetectionProbability.py:101-106 (no
    trailing losses: they are in the magnitudes already); the column of limiting
    magnitudes is chosen in Model/Photometry.v.  Row labels are left out. *)
Definition PPFadingFunctionFilter_f {A} (mag limmag : A -> cell) (fillfactor width : cell) (draw : nat -> cell) (rows : list A) : list A :=
  PPDropObservations_f (fun r => calcDetectionProbability_f (mag r) (limmag r) fillfactor width) draw 0 rows.
(** DESFadingFunctionFilter.py:44-51 with DESDetectionProbability.py:104-110. *)
Definition DESFadingFunctionFilter_f {A} (mag limmag c k : A -> cell) (transient_efficiency : cell) (draw : nat -> cell) (rows : list A) : list A :=
  PPDropObservations_f (fun r => DEScalcDetectionProbability_f (mag r) (limmag r) (c r) (k r) transient_efficiency) draw 0 rows.
End Fading.
