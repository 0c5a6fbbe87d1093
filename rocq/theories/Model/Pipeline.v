(** What one round of the main loop does with the observations it read
    (sorcha.py:227-390): join with the pointings, measure, randomise, apply
    the enabled cuts, link.  Paths are relative to /repo/src/sorcha. *)
From Coq Require Import String List Arith ZArith QArith Qabs Bool.
From Verif Require Import Base.Prelude Base.Num Base.Frame Model.Filters Model.Linking.
Import ListNotations.
Open Scope nat_scope.

(** The numeric columns that later stages read. *)
Record columns := {
  k_ra : num; k_dec : num;                (** RA_deg, Dec_deg *)
  k_trailed_true : num; k_psf_true : num; (** trailedSourceMagTrue, PSFMagTrue *)
  k_depth : num;                          (** fiveSigmaDepth_mag *)
  k_snr : num;                            (** SNRPSFMag *)
  k_trailed : num; k_psf : num }.         (** trailedSourceMag, PSFMag *)

(** An observation: the ephemeris row with its auxiliary data, the pointing,
    the computed columns, the detector number. *)
Record obs (E P : Type) := {
  o_eph : E; o_pnt : P; o_col : columns; o_det : option nat }.
Arguments o_eph {E P}. Arguments o_pnt {E P}. Arguments o_col {E P}. Arguments o_det {E P}.

(** Assignment of computed columns, sorcha.py:243-306. *)
Definition set_col {E P} (c : columns) (o : obs E P) : obs E P :=
  {| o_eph := o_eph o; o_pnt := o_pnt o; o_col := c; o_det := o_det o |}.
(** The column detectorID, modules/PPApplyFOVFilter.py:54 and 68. *)
Definition set_det {E P} (d : option nat) (o : obs E P) : obs E P :=
  {| o_eph := o_eph o; o_pnt := o_pnt o; o_col := o_col o; o_det := d |}.

(** [np.isclose(a, b)] with numpy's default tolerances. *)
Definition isclose (a b : Q) : bool :=
  Qle_bool (Qabs (a - b)) ((1 # 100000000) + (1 # 100000) * Qabs b).

Section Match.
Context {E P : Type}.
Variable efield : E -> Z.          (** FieldID of an ephemeris row *)
Variable etime : E -> Q.           (** fieldMJD_TAI *)
Variable pfield : P -> Z.          (** FieldID of a pointing *)
Variable pfilt : P -> option string. (** optFilter, None when missing *)
Variable pstart : P -> Q.          (** observationStartMJD_TAI *)

(** modules/PPMatchPointingToObservations.py:50-56, left merge on FieldID. *)
Definition merge_pointing (pointings : list P) (l : list E) : list (E * option P) :=
  flat_map (fun e =>
    match filter (fun p => Z.eqb (efield e) (pfield p)) pointings with
    | [] => [(e, None)]
    | ps => map (fun p => (e, Some p)) ps
    end) l.
(** modules/PPMatchPointingToObservations.py:60, rows without a filter go. *)
Definition drop_unmatched (l : list (E * option P)) : list (E * P) :=
  flat_map (fun x => match snd x with
                     | Some p => match pfilt p with Some _ => [(fst x, p)] | None => [] end
                     | None => [] end) l.
(** modules/PPMatchPointingToObservations.py:50-74. *)
Definition PPMatchPointing (pointings : list P) (l : list E) : result (list (E * P)) :=
  let m := drop_unmatched (merge_pointing pointings l) in
  if forallb (fun x => isclose (pstart (snd x)) (etime (fst x))) m then Ok m else Err SysExit.
End Match.

(** The camera model, sorcha.py:308 and modules/PPApplyFOVFilter.py:47-81.
    [CamFootprint on]: the detectors an observation falls on, in the order the
    rows have after [sort_index] (line 56; that sort is unstable).
    [CamVisits on]: the detector found for the row at a position of the table,
    if any (modules/PPVisitsFootprintFilter.py); it may depend on the other
    rows of the table. *)
Inductive camera (E P : Type) :=
| CamNone
| CamFootprint (on : obs E P -> list nat)
| CamVisits (on : list (obs E P) -> nat -> option nat)
| CamCircle (radius fill : option num).
Arguments CamNone {E P}. Arguments CamFootprint {E P}. Arguments CamVisits {E P}. Arguments CamCircle {E P}.

(** The switches of the configuration used by sorcha.py:240-372. *)
Record settings (E P : Type) := {
  randomization_on : bool; default_snr_cut : bool;
  cam : camera E P;
  snr_limit : option num;        (** None: off *)
  mag_limit : option num;
  fading_on : bool;
  bright : option bright_arg;
  filters : list string;         (** observing_filters *)
  linking : option (linkcfg * bool) (** parameters and drop_unlinked *) }.
Arguments randomization_on {E P}. Arguments default_snr_cut {E P}. Arguments cam {E P}.
Arguments snr_limit {E P}. Arguments mag_limit {E P}. Arguments fading_on {E P}.
Arguments bright {E P}. Arguments filters {E P}. Arguments linking {E P}.

(** Positions in the streams of the generators of PPRandomizeMeasurements,
    PPApplyFOVFilter and PPDropObservations (utilities/sorchaModuleRNG.py:
    one generator per module for the whole run), and the number of calls of
    the linking filter so far. *)
Record rng := { n_gauss : nat; n_fov : nat; n_drop : nat; n_link : nat }.

Section Round.
Context {E P : Type}.
Variable eid : E -> string.
Variable efield : E -> Z.
Variable etime : E -> Q.
Variable pfield : P -> Z.
Variable pfilt : P -> option string.
Variable pstart : P -> Q.
Variable pointings : list P.
(** sorcha.py:243-281 and, without randomisation, 303-306: the columns are
    computed row by row. *)
Variable physics : E -> P -> columns.
(** modules/PPRandomizeMeasurements.py:78-92: the columns of a row after
    randomisation, from its two photometric draws and its astrometric draw. *)
Variable noise : num -> num -> (num * num * num) -> columns -> columns.
(** Angular distance from the field centre, modules/PPApplyFOVFilter.py:84-115. *)
Variable fsep : obs E P -> num.
(** Detection probability, modules/PPFadingFunctionFilter.py:39-43. *)
Variable prob : obs E P -> num.
(** Streams of the three generators. *)
Variables gauss fov drop : nat -> num.
(** Oracles of the linking stage, see Model/Linking.v. *)
Variable lsep : obs E P -> obs E P -> num.
Variable tsort : list (obs E P) -> list (obs E P).
Variable ldraws : list num -> nat -> num.
Variable osort : list (obs E P * bool * option Z) -> list (obs E P * bool * option Z).
Variable lweights : nat -> nat -> nat -> Z.
Variable cfg : settings E P.

(** The column ObjID, modules/PPLinkingFilter.py:70. *)
Definition oid (o : obs E P) : string := eid (o_eph o).
(** The column optFilter, modules/PPBrightLimit.py:38-45. *)
Definition ofilt (o : obs E P) : string :=
  match pfilt (o_pnt o) with Some f => f | None => EmptyString end.
(** sorcha.py:243-281 for one row. *)
Definition measure (x : E * P) : obs E P :=
  {| o_eph := fst x; o_pnt := snd x; o_col := physics (fst x) (snd x); o_det := None |}.

(** [observations["col"] = array]: rows change by position, labels stay. *)
Fixpoint update_pos {A B} (g : nat -> A -> B) (k : nat) (f : frame A) : frame B :=
  match f with
  | [] => []
  | x :: f' => (fst x, g k (snd x)) :: update_pos g (S k) f'
  end.

(** modules/PPRandomizeMeasurements.py:68-94 with trailing losses on (off, the
    second draw is not made; [noise] then ignores it and the stream is
    renumbered).  Astrometric draws are triples of successive stream values. *)
Definition randomize (st : rng) (f : frame (obs E P)) : rng * frame (obs E P) :=
  if randomization_on cfg then
    let f1 := if default_snr_cut cfg then PPSNRLimit (fun o => k_snr (o_col o)) (Fin 2) f else f in
    let n := length f1 in
    let g i (o : obs E P) :=
      let p := n_gauss st in
      set_col (noise (gauss (p + i)) (gauss (p + n + i))
                 (gauss (p + 2 * n + 3 * i), gauss (p + 2 * n + 3 * i + 1), gauss (p + 2 * n + 3 * i + 2))
                 (o_col o)) o in
    ({| n_gauss := n_gauss st + 5 * n; n_fov := n_fov st; n_drop := n_drop st; n_link := n_link st |},
     update_pos g 0 f1)
  else (st, f).

(** [len(observations.index) > 0], sorcha.py:308, 321, 331, 337, 349, 357 and
    375. *)
Definition nonempty {A} (l : list A) : bool := match l with [] => false | _ => true end.

(** modules/PPApplyFOVFilter.py:47-56: [iloc] with the positions found on each
    detector, detectorID, [sort_index].  The table has index 0..n-1 here. *)
Definition footprint_rows (on : obs E P -> list nat) (f : frame (obs E P)) : frame (obs E P) :=
  flat_map (fun x => map (fun d => (fst x, set_det (Some d) (snd x))) (on (snd x))) f.
(** modules/PPApplyFOVFilter.py:58-70; each row is found on at most one
    detector (PPVisitsFootprintFilter.py:141-148). *)
Fixpoint visits_rows (on : nat -> option nat) (k : nat) (f : frame (obs E P)) : frame (obs E P) :=
  match f with
  | [] => []
  | x :: f' =>
      match on k with
      | Some d => (fst x, set_det (Some d) (snd x)) :: visits_rows on (S k) f'
      | None => visits_rows on (S k) f'
      end
  end.

(** sorcha.py:308-319.  The generator of the field-of-view module is consulted
    only by the fill factor, one draw per row left by the circle. *)
Definition fov_stage (st : rng) (f : frame (obs E P)) : result (rng * frame (obs E P)) :=
  if nonempty f then
    match cam cfg with
    | CamNone => Ok (st, f)
    | CamFootprint on => Ok (st, footprint_rows on f)
    | CamVisits on => Ok (st, visits_rows (on (rows f)) 0 f)
    | CamCircle radius fill =>
        let f1 := match radius with
                  | Some r => if truthy radius then PPCircleFootprint fsep r f else f
                  | None => f end in
        let used := if truthy fill then length f1 else 0 in
        rmap (fun f2 => ({| n_gauss := n_gauss st; n_fov := n_fov st + used;
                            n_drop := n_drop st; n_link := n_link st |}, f2))
          (circle_model fsep radius fill (fun i => fov (n_fov st + i)) f)
    end
  else Ok (st, f).

(** sorcha.py:321-329. *)
Definition snr_stage (f : frame (obs E P)) : frame (obs E P) :=
  match snr_limit cfg with
  | Some lim => if nonempty f then PPSNRLimit (fun o => k_snr (o_col o)) lim f else f
  | None => f
  end.
(** sorcha.py:331-335. *)
Definition mag_stage (f : frame (obs E P)) : frame (obs E P) :=
  match mag_limit cfg with
  | Some lim => if nonempty f then PPMagnitudeLimit (fun o => k_trailed (o_col o)) lim f else f
  | None => f
  end.
(** sorcha.py:337-347. *)
Definition fading_stage (st : rng) (f : frame (obs E P)) : rng * frame (obs E P) :=
  if fading_on cfg && nonempty f then
    ({| n_gauss := n_gauss st; n_fov := n_fov st; n_drop := n_drop st + length f; n_link := n_link st |},
     PPFadingFunctionFilter prob (fun i => drop (n_drop st + i)) f)
  else (st, f).
(** sorcha.py:349-355. *)
Definition bright_stage (f : frame (obs E P)) : result (frame (obs E P)) :=
  match bright cfg with
  | Some a => if nonempty f then PPBrightLimit ofilt (fun o => k_psf (o_col o)) (filters cfg) a f else Ok f
  | None => Ok f
  end.

(** A written row: the observation and, when linking is on, the columns
    object_linked and date_linked_MJD. *)
Definition out_row : Type := (obs E P * option (bool * option Z))%type.
(** sorcha.py:357-372. *)
Definition link_stage (st : rng) (f : frame (obs E P)) : result (rng * list out_row) :=
  match linking cfg with
  | Some (c, dropu) =>
      if nonempty f then
        rmap (fun l => ({| n_gauss := n_gauss st; n_fov := n_fov st; n_drop := n_drop st;
                           n_link := S (n_link st) |},
                        map (fun x => (fst (fst x), Some (snd (fst x), snd x))) l))
          (PPLinkingFilter oid (fun o => efield (o_eph o)) (fun o => etime (o_eph o))
             (fun o => k_ra (o_col o)) lsep tsort ldraws osort c (lweights (n_link st)) dropu (rows f))
      else Ok (st, [])
  | None => Ok (st, map (fun o => (o, None)) (rows f))
  end.

(** sorcha.py:232-355, up to the linking filter. *)
Definition detections (st : rng) (js : list E) : result (rng * frame (obs E P)) :=
  rbind (PPMatchPointing efield etime pfield pfilt pstart pointings js) (fun m =>
  let r1 := randomize st (of_rows (map measure m)) in
  rbind (fov_stage (fst r1) (snd r1)) (fun r2 =>
  let r3 := fading_stage (fst r2) (mag_stage (snr_stage (snd r2))) in
  rmap (fun f => (fst r3, f)) (bright_stage (snd r3)))).

(** sorcha.py:232-390: [None] when nothing is written.  The row-wise
    computations are taken not to fail, also on an empty table. *)
Definition process (st : rng) (js : list E) : result (rng * option (list out_row)) :=
  match js with
  | [] => Ok (st, None)
  | _ =>
      rbind (detections st js) (fun r =>
      rmap (fun x => (fst x, match snd x with [] => None | l => Some l end))
        (link_stage (fst r) (snd r)))
  end.
End Round.
