(** The footprint taken from a table of CCDs per visit.  Line numbers are those
    of /repo/src/sorcha/modules/PPVisitsFootprintFilter.py.  Numbers are exact
    rationals: rounding and missing values are not modelled (in particular
    [groupby] dropping rows without a FieldID is not). *)
From Coq Require Import String List Arith Bool QArith.
From Verif Require Import Base.Prelude Base.Frame Base.Sort.
Import ListNotations.
Open Scope nat_scope.

Notation qpt := (Q * Q)%type.
(** A row of the visits table for one visit (lines 64, 100-106, 124-136). *)
Record ccd := { c_center : qpt; c_ll : qpt; c_lr : qpt; c_ur : qpt; c_ul : qpt; c_id : nat; c_lim : Q }.
(** The columns of an observation used here (lines 60-62, 68-70, 78, 82). *)
Record vobs := { o_field : string; o_ra : Q; o_dec : Q; o_field_ra : Q }.

(** The comparisons [<] of lines 76-83. *)
Definition Qltb (a b : Q) : bool := negb (Qle_bool b a).

(** Lines 75-88: right ascensions are moved next to the camera when the field is
    near the 0/360 boundary. *)
Definition unwrap (buffer : Q) (g : list vobs) (o : vobs) : qpt :=
  if Qltb buffer 180 then
    let ra := o_ra o in
    let ra := if existsb (fun o => Qltb 360 (o_field_ra o + buffer)%Q) g then if Qltb ra 180 then (ra + 360)%Q else ra else ra in
    let ra := if existsb (fun o => Qltb (o_field_ra o - buffer)%Q 0) g then if Qltb 180 ra then (ra - 360)%Q else ra else ra in
    (ra, o_dec o)
  else (o_ra o, o_dec o).

(** Lines 92-106: centre and corners of every CCD. *)
Definition ccd_points (rows : list ccd) : list qpt := flat_map (fun c => [c_center c; c_ll c; c_lr c; c_ur c; c_ul c]) rows.
(** Squared Euclidean distance, by which the tree of line 108 orders points. *)
Definition qdist2 (a b : qpt) : Q := ((fst a - fst b) * (fst a - fst b) + (snd a - snd b) * (snd a - snd b))%Q.
(** Lines 108-112, [cKDTree.query(p, k)]: positions of the [k] nearest points.
    Ties are broken by position; scipy leaves that open. *)
Definition kd_query (pts : list qpt) (k : nat) (p : qpt) : list nat :=
  map fst (firstn k (sort_by (fun q => qdist2 (snd q) p) (combine (seq 0 (length pts)) pts))).
(** Lines 96, 110-117: the CCDs to test, pooled over all points of the visit.
    [k] counts points, of which every CCD has five. *)
Definition candidates (ccd_num : nat) (rows : list ccd) (ps : list qpt) : list nat :=
  if 1 <? length rows then
    let pts := ccd_points rows in
    nodup Nat.eq_dec (flat_map (fun p => map (fun i => i / 5) (kd_query pts (min ccd_num (length pts)) p)) ps)
  else [0].

(** Which side of an edge a point lies on, for lines 125-134 and 143. *)
Definition qside (a b p : qpt) : Q := ((fst b - fst a) * (snd p - snd a) - (snd b - snd a) * (fst p - fst a))%Q.
(** Lines 125-134, 143: shapely's [contains], for a convex outline only:
    strictly inside. *)
Definition contains (c : ccd) (p : qpt) : bool :=
  let s := [qside (c_ll c) (c_lr c) p; qside (c_lr c) (c_ur c) p; qside (c_ur c) (c_ul c) p; qside (c_ul c) (c_ll c) p] in
  forallb (Qltb 0) s || forallb (fun x => Qltb x 0) s.

(** [set_order] is the iteration order of the set of lines 115 and 123, [query]
    the rows of line 64, [buffer] and [ccd_num] the arguments of lines 16 and 20. *)
Section Filter.
Variable set_order : list nat -> list nat.
Variable query : string -> list ccd.
Variables (buffer : Q) (ccd_num : nat).

(** Lines 123-136, 142-148: the first CCD that contains the point. *)
Definition first_ccd (rows : list ccd) (cand : list nat) (p : qpt) : option ccd :=
  match filter (fun c => contains c p) (flat_map (fun i => match nth_error rows i with Some c => [c] | None => [] end) cand) with
  | c :: _ => Some c
  | [] => None
  end.
(** Lines 63-148 for one visit: labels of the detected observations with
    detector and limiting magnitude. *)
Definition one_group (g : frame vobs) (field : string) : list (nat * (nat * Q)) :=
  let rows := query field in
  match rows with
  | [] => []
  | _ =>
      let obs := map snd g in
      let ps := map (unwrap buffer obs) obs in
      let cand := set_order (candidates ccd_num rows ps) in
      flat_map (fun r => match first_ccd rows cand (unwrap buffer obs (snd r)) with
        | Some c => [(fst r, (c_id c, c_lim c))]
        | None => [] end) g
  end.
(** Lines 60-63, 152-157: one group per value of FieldID.  The order of the groups and of
    the final set does not matter, the result being sorted by its caller. *)
Definition fields_of (f : frame vobs) : list string := nodup string_dec (map (fun r => o_field (snd r)) f).
(** Lines 51-157. *)
Definition PPVisitsFootprint (f : frame vobs) : list (nat * (nat * Q)) :=
  flat_map (fun x => one_group (filter (fun r => String.eqb (o_field (snd r)) x) f) x) (fields_of f).

(** PPApplyFOVFilter.py:67-69: the labels are used as positions. *)
Fixpoint iloc_all {A} (f : frame A) (l : list (nat * (nat * Q))) : result (frame (A * (nat * Q))) :=
  match l with
  | [] => Ok []
  | (i, d) :: l' =>
      match nth_error f i with
      | None => Err IndexError
      | Some r => rmap (cons (fst r, (snd r, d))) (iloc_all f l')
      end
  end.
(** PPApplyFOVFilter.py:58-70. *)
Definition visits_filter (f : frame vobs) : result (frame (vobs * (nat * Q))) :=
  rmap (sort_by (fun r : nat * (vobs * (nat * Q)) => inject_Z (Z.of_nat (fst r)))) (iloc_all f (PPVisitsFootprint f)).
End Filter.
