(** Variability models that a user can add: lightcurves/lightcurve_registration.py and
    activity/activity_registration.py, which are the same text for two base
    classes.  Paths are relative to /repo/src/sorcha; lines are those of
    lightcurves/lightcurve_registration.py. *)
From Coq Require Import String List Bool.
From Verif Require Import Base.Prelude.
Import ListNotations.
Open Scope list_scope.

Section Registration.
(** The code of a class. *)
Variable C : Type.

(** A class derived from the base class, with the string of its [name_id] and
    the classes derived from it in turn (lightcurves/base_lightcurve.py:10 and
    74). *)
Inductive klass := Class (name : string) (c : C) (derived : list klass).
(** [subcls.name_id()], line 25. *)
Definition name_id (k : klass) : string := match k with Class n _ _ => n end.
(** The class itself, line 31. *)
Definition code_of (k : klass) : C := match k with Class _ c _ => c end.

(** The dictionary LC_METHODS, line 46. *)
Definition methods := list (string * C).
(** [name in dict], lines 25 and 41. *)
Definition has_name (n : string) (m : methods) : bool := existsb (fun x => String.eqb (fst x) n) m.
(** [dict.get], modules/PPCalculateApparentMagnitudeInFilter.py:135. *)
Definition get (n : string) (m : methods) : option C :=
  match find (fun x => String.eqb (fst x) n) m with Some x => Some (snd x) | None => None end.

(** Lines 23-33; [subclasses] is [__subclasses__()], the classes directly derived
    from the base class in the order of their definition. *)
Fixpoint register_into (m : methods) (subclasses : list klass) : result methods :=
  match subclasses with
  | [] => Ok m
  | k :: ks => if has_name (name_id k) m then Err ValueError else register_into (m ++ [(name_id k, code_of k)]) ks
  end.
(** Lines 5-33 and 46. *)
Definition register_lc_subclasses (subclasses : list klass) : result methods := register_into [] subclasses.

(** Lines 36-42. *)
Fixpoint update_lc_subclasses (m : methods) (subclasses : list klass) : methods :=
  match subclasses with
  | [] => m
  | k :: ks => update_lc_subclasses (if has_name (name_id k) m then m else m ++ [(name_id k, code_of k)]) ks
  end.

(** The models of a run: the package registers its own classes when it is
    imported (sorcha/__init__.py:3), add-ons define theirs afterwards (line 11), and the
    command registers all there are (src/sorcha_cmdline/run.py:166). *)
Definition at_start (own added : list klass) : result methods :=
  rmap (fun m => update_lc_subclasses m (own ++ added)) (register_lc_subclasses own).
End Registration.
Arguments Class {C} _ _ _.
