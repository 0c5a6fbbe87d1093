(** Vocabulary for the statements about one round and about whole runs:
    the conditions an observation must meet to survive. *)
From Coq Require Import String List Arith ZArith QArith Bool.
From Verif Require Import Base.Prelude Base.Num Base.Frame Model.Filters Model.Pipeline Spec.Filters.
Import ListNotations.
Open Scope nat_scope.

Section Spec.
Context {E P : Type}.
Variable efield : E -> Z.
Variable pfield : P -> Z.
Variable pfilt : P -> option string.
Variable fsep : obs E P -> num.

(** The observation joins an ephemeris row of the chunk with a pointing of the
    survey that has the same field number and a filter. *)
Definition stems (js : list E) (pointings : list P) (o : obs E P) : Prop :=
  In (o_eph o) js /\ In (o_pnt o) pointings /\ efield (o_eph o) = pfield (o_pnt o)
  /\ pfilt (o_pnt o) <> None.

(** The observation is brighter than the saturation limit. *)
Definition saturated (cfg : settings E P) (o : obs E P) : Prop :=
  match bright cfg with
  | Some (BFloat lim) => num_lt (k_psf (o_col o)) lim
  | Some (BList lims) => exists i f lim, nth_error (filters cfg) i = Some f /\ pfilt (o_pnt o) = Some f
      /\ nth_error lims i = Some lim /\ num_lt (k_psf (o_col o)) lim
  | _ => False
  end.

(** The observation falls on the camera.  (A radius of zero counts as no
    radius, see C37.) *)
Definition on_camera (cfg : settings E P) (o : obs E P) : Prop :=
  match cam cfg with
  | CamNone => True
  | CamFootprint on => exists d o0, o = set_det (Some d) o0 /\ In d (on o0)
  | CamVisits _ => exists d, o_det o = Some d
  | CamCircle (Some r) _ => (exists q, r = Fin q /\ (q == 0)%Q) \/ num_lt (fsep o) r
  | CamCircle None _ => True
  end.

(** Every enabled threshold is met. *)
Definition passes (cfg : settings E P) (o : obs E P) : Prop :=
  (forall lim, snr_limit cfg = Some lim -> num_lt lim (k_snr (o_col o))) /\
  (forall lim, mag_limit cfg = Some lim -> num_lt (k_trailed (o_col o)) lim) /\
  ~ saturated cfg o.

(** No random number is consulted: no randomisation, no fading function, no
    fill factor; and the camera decides row by row. *)
Definition deterministic (cfg : settings E P) : Prop :=
  randomization_on cfg = false /\ fading_on cfg = false /\
  match cam cfg with
  | CamVisits on => forall l i o, nth_error l i = Some o -> on l i = on [o] 0
  | CamCircle _ (Some f) => truthy (Some f) = false
  | _ => True
  end.
End Spec.

(** What the camera makes of an observation: one row per detector it falls
    on. *)
Definition sightings {E P} (cfg : settings E P) (o : obs E P) : list (obs E P) :=
  match cam cfg with
  | CamFootprint on => map (fun d => set_det (Some d) o) (on o)
  | CamVisits on => match on [o] 0 with Some d => [set_det (Some d) o] | None => [] end
  | _ => [o]
  end.

(** An observation with its values measured once more. *)
Definition remeasured {E P} (cfg : settings E P) (noise : num -> num -> (num * num * num) -> columns -> columns)
    (o o' : obs E P) : Prop :=
  (randomization_on cfg = false -> o' = o) /\
  (randomization_on cfg = true -> o_eph o' = o_eph o /\ o_pnt o' = o_pnt o /\ o_det o' = o_det o
     /\ exists a b c, o_col o' = noise a b c (o_col o)).

(** What the camera keeps of a table, the generator of its fill factor being at
    position [n] of its stream. *)
Definition camera_keeps {E P} (fsep : obs E P -> num) (fov : nat -> num) (n : nat) (cfg : settings E P)
    (l kept : list (obs E P)) : Prop :=
  match cam cfg with
  | CamNone => kept = l
  | CamFootprint _ => kept = flat_map (sightings cfg) l
  | CamVisits on =>
      kept = flat_map (fun i => match nth_error l i, on l i with
                                | Some o, Some d => [set_det (Some d) o]
                                | _, _ => [] end) (seq 0 (length l))
  | CamCircle _ fill =>
      exists inside, selected (on_camera fsep cfg) l inside /\
        match fill with
        | Some x => (exists q, x = Fin q /\ (q == 0)%Q /\ kept = inside) \/
            (~ (exists q, x = Fin q /\ (q == 0)%Q) /\ selected_pos (fun i _ => ~ num_lt x (fov (n + i))) 0 inside kept)
        | None => kept = inside
        end
  end.

(** Every ephemeris row with every pointing of its field that has a filter. *)
Definition candidates {E P} (efield : E -> Z) (pfield : P -> Z) (pfilt : P -> option string)
    (physics : E -> P -> columns) (pointings : list P) (js : list E) : list (obs E P) :=
  flat_map (fun e => map (fun p => {| o_eph := e; o_pnt := p; o_col := physics e p; o_det := None |})
    (filter (fun p => Z.eqb (efield e) (pfield p) && match pfilt p with Some _ => true | None => false end)
       pointings)) js.

(** The rows written in a round. *)
Definition rows_written {A} (o : option (list A)) : list A := match o with Some l => l | None => [] end.
