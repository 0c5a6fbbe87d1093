(** Vocabulary for the statement that describes the catalogue of a whole Dark
    Energy Survey run outright. *)
From Coq Require Import String List Arith ZArith QArith Bool.
From Verif Require Import Base.Prelude Base.Num Model.Pipeline Model.DESPipeline Spec.Filters Spec.DES Spec.DESPipeline.
Import ListNotations.
Open Scope nat_scope.

(** [kept]: of the detections [D], those of objects that are at an allowed
    distance from the Sun in one of them, that move at an allowed rate, and
    whose object is discovered with the observations left.  An object that is
    discovered satisfies the documented criteria; one that surely satisfies
    them is discovered (between the two see C53). *)
Definition des_catalogued {E P} (eid : E -> string) (etime ex ey ez erarate edecrate : E -> Q) (cfg : des_settings E P)
    (D kept : list (obs E P)) : Prop :=
  exists found : list (obs E P) -> Prop,
    (forall mine, found mine -> discoverable etime ex ey ez mine) /\
    (forall mine, surely_discoverable etime ex ey ez mine -> found mine) /\
  exists near slow,
    selected (fun o => exists o', In o' D /\ same_object eid o' o /\ near_enough ex ey ez cfg o') D near /\
    selected (slow_enough erarate edecrate cfg) near slow /\
    selected (fun o => s_discovery cfg = true -> forall mine, selected (fun r => same_object eid r o) slow mine -> found mine) slow kept.
