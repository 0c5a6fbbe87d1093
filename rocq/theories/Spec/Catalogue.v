(** Vocabulary for the statement that describes the catalogue of a whole run
    outright. *)
From Coq Require Import String List Arith ZArith QArith Qabs Bool Sorting.Permutation.
From Verif Require Import Base.Prelude Base.Num Base.Frame Model.Filters Model.Linking Model.Readers Model.Pipeline
  Spec.Filters Spec.Linking Spec.Readers Spec.Pipeline.
Import ListNotations.
Open Scope nat_scope.

(** [js]: the rows of the ephemeris that belong to an object of the table [T],
    in order, each with the data its object has in [T] and in the other
    tables. *)
Definition complete_table {E R} (EPH : list (string * E)) (T : list (string * R)) (tables : list (list (string * R)))
    (js : list (joined E R)) : Prop :=
  exists eph, selected (fun e => In (fst e) (map fst T)) EPH eph
    /\ Forall2 (fun e j => fst j = e /\ own_data (fst e) (T :: tables) (snd j)) eph js.

(** [D]: the observations of these rows that are seen and pass every enabled
    threshold. *)
Definition detected {E P} (efield : E -> Z) (pfield : P -> Z) (pfilt : P -> option string)
    (physics : E -> P -> columns) (fsep : obs E P -> num) (cfg : settings E P) (pointings : list P)
    (js : list E) (D : list (obs E P)) : Prop :=
  selected (fun o => passes pfilt cfg o /\ on_camera fsep cfg o)
    (flat_map (sightings cfg) (candidates efield pfield pfilt physics pointings js)) D.

(** [out] is the catalogue of the observations [D]: without linking all of
    them; with linking every object gets the first night on which it can be
    linked, and unlinked objects go if so configured. *)
Definition catalogued {E P} (eid : E -> string) (etime : E -> Q) (lsep : obs E P -> obs E P -> num)
    (tsort : list (obs E P) -> list (obs E P)) (cfg : settings E P) (D : list (obs E P))
    (out : list (obs E P * option (bool * option Z))) : Prop :=
  match linking cfg with
  | None => Permutation out (map (fun o => (o, None)) D)
  | Some (c, dropu) => exists date kept,
      (forall i d, date i = Some d <->
         first_with (linkable (fun o => etime (o_eph o)) lsep (c_maxdt_minutes c) (c_minlen_arcsec c) (c_min_obs c)
           (c_window c) (c_nlink c) (c_night_start c) (tsort (rows_of (fun o => eid (o_eph o)) i D))) d) /\
      selected (fun o => dropu = true -> date (eid (o_eph o)) <> None) D kept /\
      Permutation out
        (map (fun o => (o, Some (match date (eid (o_eph o)) with Some _ => true | None => false end, date (eid (o_eph o))))) kept)
  end.

(** Linking, if on, succeeds whenever it can: efficiency one. *)
Definition sure_linking {E P} (cfg : settings E P) (draws : list num -> nat -> num) (weights : nat -> nat -> nat -> Z) : Prop :=
  forall c dropu, linking cfg = Some (c, dropu) ->
    (1 <= c_window c)%Z /\ (1 <= c_nlink c)%Z /\ (1 <= c_min_obs c)%Z /\ c_p c = Fin 1 /\
    (forall s i, num_lt (draws s i) (Fin 1)) /\ (forall n k j, (0 < weights n k j)%Z).

(** Every detection falls well within a night. *)
Definition night_time {E P} (etime : E -> Q) (cfg : settings E P) (D : list (obs E P)) : Prop :=
  forall c dropu, linking cfg = Some (c, dropu) -> forall o, In o D ->
    well_phased (fun o => etime (o_eph o)) (c_night_start c) o.

(** Every row is at the time of its pointing, by the code's measure. *)
Definition timely {E P} (efield : E -> Z) (etime : E -> Q) (pfield : P -> Z) (pfilt : P -> option string) (pstart : P -> Q)
    (pointings : list P) (js : list E) : Prop :=
  forall j p, In j js -> In p pointings -> efield j = pfield p -> pfilt p <> None ->
    (Qabs (pstart p - etime j) <= (1 # 100000000) + (1 # 100000) * Qabs (etime j))%Q.

(** The saturation limits are one number, or one for each filter. *)
Definition limits_fit {E P} (cfg : settings E P) : Prop :=
  match bright cfg with
  | Some (BList lims) => length (filters cfg) <= length lims
  | Some BOther => False
  | _ => True
  end.
