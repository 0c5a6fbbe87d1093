(** The camera footprint in binary64 arithmetic: modules/PPFootprintFilter.py of src/sorcha
    with every rounding.  Line numbers without a file are of that module.
    Model/Footprint.v has the same functions over the reals.  The values are those of
    Model/Rounding.v; the operations those of the other ...Float modules.  The sine, the
    cosine, the angle of a vector and the order in which numpy adds up more than three numbers are parameters.
    [x ** 2] is taken to be one rounded product, no operations are fused, and
    the sign of zero is left out. *)
From Coq Require Import String List Reals ZArith Bool.
From Flocq Require Import Core.
From Verif Require Import Base.Prelude Base.Frame Model.LinkingFloat Model.Rounding Model.FadingFloat Model.UncertaintyFloat Model.SeparationFloat Model.Footprint.
Import ListNotations.
Open Scope list_scope.
Open Scope R_scope.

(** Three-dimensional vectors, line 112. *)
Definition vec_f : Type := (cell * cell * cell)%type.
(** Points of the plane, lines 137-138. *)
Definition pt_f : Type := (cell * cell)%type.
(** Unary minus, line 121. *)
Definition negative (a : cell) : cell :=
  match a with Real x => Real (- x) | Inf s => Inf (negb s) | _ => Nan end.
(** [np.sum(a * b, axis=0)] of two arrays of three rows, lines 132 and 137-138. *)
Definition dot_f (a b : vec_f) : cell :=
  let '(a0, a1, a2) := a in let '(b0, b1, b2) := b in
  plus (plus (multiply a0 b0) (multiply a1 b1)) (multiply a2 b2).
(** [np.cross], line 125. *)
Definition cross_f (a b : vec_f) : vec_f :=
  let '(a0, a1, a2) := a in let '(b0, b1, b2) := b in
  (minus (multiply a1 b2) (multiply a2 b1), minus (multiply a2 b0) (multiply a0 b2), minus (multiply a0 b1) (multiply a1 b0)).
(** [v /= np.linalg.norm(v, axis=0)], lines 128-129: the root of the sum of the squares. *)
Definition normalized_f (v : vec_f) : vec_f :=
  let n := root (dot_f v v) in
  let '(v0, v1, v2) := v in (quotient v0 n, quotient v1 n, quotient v2 n).

(** [np.abs], lines 274, 328 and 369. *)
Definition absolute (a : cell) : cell :=
  match a with Real x => Real (Rabs x) | Inf _ => Inf false | _ => Nan end.
(** One step of [np.max], line 269.  Simplification: not a number unless both are finite. *)
Definition larger (a b : cell) : cell :=
  match a, b with Real x, Real y => Real (Rmax x y) | _, _ => Nan end.
(** [np.max], line 269. *)
Fixpoint np_max (a : cell) (l : list cell) : cell :=
  match l with [] => a | b :: l' => larger a (np_max b l') end.
(** [a > b], line 296. *)
Definition exceeds (a b : cell) : bool := at_least a b && negb (at_least b a).

Section Footprint.
(** np.sin and np.cos, lines 112-116, 171 and 224-226. *)
Variables np_sin np_cos : cell -> cell.
(** [np.sum] of an array, lines 233-234 and 328, and of a list of arrays, line 371. *)
Variables np_sum np_sum_rows : list cell -> cell.

(** Lines 112-116: the direction of a right ascension and a declination in radians. *)
Definition direction_f (ra dec : cell) : vec_f :=
  (multiply (np_cos ra) (np_cos dec), multiply (np_sin ra) (np_cos dec), np_sin dec).
(** Lines 111-140. *)
Definition radec_to_tangent_plane_f (ra dec field_ra field_dec : cell) : pt_f :=
  let observation := direction_f ra dec in
  let field := direction_f field_ra field_dec in
  let '(f0, f1, f2) := field in
  let focalx := (negative f1, f0, Real 0) in
  let focaly := cross_f field focalx in
  let focalx := normalized_f focalx in
  let focaly := normalized_f focaly in
  let k := quotient (Real 1) (dot_f field observation) in
  let '(o0, o1, o2) := observation in
  let observation := (minus (multiply o0 k) f0, minus (multiply o1 k) f1, minus (multiply o2 k) f2) in
  (dot_f observation focalx, dot_f observation focaly).
(** Lines 171-179: a complex product with exp(i rot), whose parts are the cosine and the
    sine of rot. *)
Definition radec_to_focal_plane_f (ra dec field_ra field_dec field_rot : cell) : pt_f :=
  let '(x, y) := radec_to_tangent_plane_f ra dec field_ra field_dec in
  let c := np_cos field_rot in
  let s := np_sin field_rot in
  (minus (multiply x c) (multiply y s), plus (multiply x s) (multiply y c)).
(** Lines 679-692: from the columns in degrees. *)
Definition focal_plane_of_f (ra dec fieldra fielddec rot : cell) : pt_f :=
  radec_to_focal_plane_f (deg2rad_f ra) (deg2rad_f dec) (deg2rad_f fieldra) (deg2rad_f fielddec) (deg2rad_f rot).

(** Lines 224-230: a corner given in radians. *)
Definition project_f (p : pt_f) : pt_f :=
  let '(ra, dec) := p in
  let z := multiply (np_cos ra) (np_cos dec) in
  (quotient (multiply (np_sin ra) (np_cos dec)) z, quotient (np_sin dec) z).
(** Lines 233-234. *)
Definition mean_f (l : list cell) : cell := quotient (np_sum l) (Real (INR (length l))).
(** Lines 215-234: corners and centre. *)
Definition make_detector_f (points : list pt_f) : list pt_f * pt_f :=
  let xy := map project_f points in (xy, (mean_f (map fst xy), mean_f (map snd xy))).

(** [np.argsort], line 391, by insertion; equal angles may come in any order. *)
Fixpoint insert_cell (key : pt_f -> cell) (x : pt_f) (l : list pt_f) : list pt_f :=
  match l with
  | [] => [x]
  | y :: l' => if at_least (key y) (key x) then x :: l else y :: insert_cell key x l'
  end.
(** The whole of the sort of line 391. *)
Definition sort_cells (key : pt_f -> cell) (l : list pt_f) : list pt_f := fold_right (insert_cell key) [] l.
(** [np.arctan2], line 389. *)
Variable np_arctan2 : cell -> cell -> cell.
(** Lines 389-393. *)
Definition sortCorners_f (d : list pt_f * pt_f) : list pt_f * pt_f :=
  (sort_cells (fun v => np_arctan2 (minus (snd v) (snd (snd d))) (minus (fst v) (fst (snd d)))) (fst d), snd d).

(** The squared distances of lines 269-270. *)
Definition dist2_f (a b : pt_f) : cell := plus (squared (minus (fst a) (fst b))) (squared (minus (snd a) (snd b))).
(** Lines 322-330 and 352-371. *)
Definition area_about_f (sum : list cell -> cell) (c : pt_f) (corners : list pt_f) : cell :=
  let xy := map (fun v => (minus (fst v) (fst c), minus (snd v) (snd c))) corners in
  multiply (Real (1 / 2)) (sum (map (fun e => absolute (minus (multiply (fst (fst e)) (snd (snd e))) (multiply (snd (fst e)) (fst (snd e)))))
    (combine xy (rolled (Nan, Nan) xy)))).
(** Lines 65-77 for one point and the segment from [a] to [b]. *)
Definition distToSegment_f (p a b : pt_f) : cell :=
  let '(px, py) := p in let '(x0, y0) := a in let '(x1, y1) := b in
  let len_sq := plus (multiply (minus x1 x0) (minus x1 x0)) (multiply (minus y1 y0) (minus y1 y0)) in
  if at_least len_sq (Real 0) && at_least (Real 0) len_sq
  then root (plus (multiply (minus px x0) (minus px x0)) (multiply (minus py y0) (minus py y0)))
  else
    let t := quotient (plus (multiply (minus px x0) (minus x1 x0)) (multiply (minus py y0) (minus y1 y0))) len_sq in
    let t := if exceeds (Real 0) t then Real 0 else t in
    let t := if exceeds t (Real 1) then Real 1 else t in
    let proj_x := plus x0 (multiply (minus x1 x0) t) in
    let proj_y := plus y0 (multiply (minus y1 y0) t) in
    root (plus (multiply (minus px proj_x) (minus px proj_x)) (multiply (minus py proj_y) (minus py proj_y))).
(** Lines 269-274 for one point, with the tolerance of line 236.  An empty detector is reported as off. *)
Definition on_area_f (d : list pt_f * pt_f) (p : pt_f) : bool :=
  match fst d with
  | [] => false
  | v :: l =>
      at_least (np_max (dist2_f v (snd d)) (map (fun c => dist2_f c (snd d)) l)) (dist2_f p (snd d))
      && at_least (literal (/ 10 ^ 11)) (absolute (minus (area_about_f np_sum_rows p (fst d)) (area_about_f np_sum (snd d) (fst d))))
  end.
(** Edge i goes from corner i to corner (i+1) mod n, lines 287-295. *)
Definition edges_f (l : list pt_f) : list (pt_f * pt_f) :=
  match l with [] => [] | v :: l' => combine l (l' ++ [v])%list end.
(** Lines 277-296; the units are radians. *)
Definition off_edges_f (edge_thresh : option cell) (d : list pt_f * pt_f) (p : pt_f) : bool :=
  match edge_thresh with
  | None => true
  | Some a => forallb (fun e => exceeds (distToSegment_f p (fst e) (snd e)) (deg2rad_f (quotient a (Real 3600)))) (edges_f (fst d))
  end.
(** Lines 269-304 for one point. *)
Definition on_detector_f (edge_thresh : option cell) (d : list pt_f * pt_f) (p : pt_f) : bool :=
  on_area_f d p && off_edges_f edge_thresh d p.
(** Lines 569-591: the corners of the file, grouped by detector name in order of first appearance. *)
Definition make_footprint_f (file : list (string * pt_f)) : list (string * (list pt_f * pt_f)) :=
  let names := fold_right (fun x r => x :: filter (fun y => negb (String.eqb x y)) r) [] (map fst file) in
  map (fun n => (n, sortCorners_f (make_detector_f (map snd (filter (fun r => String.eqb (fst r) n) file))))) names.
(** Lines 269-304: positions of the points on the detector. *)
Definition ison_f (edge_thresh : option cell) (d : list pt_f * pt_f) (ps : list pt_f) : list nat :=
  map fst (filter (fun q => on_detector_f edge_thresh d (snd q)) (combine (seq 0 (length ps)) ps)).
(** Lines 697-707: positions and numbers of detectors. *)
Definition applyFootprint_f (edge_thresh : option cell) (dets : list (list pt_f * pt_f)) (ps : list pt_f) : list (nat * nat) :=
  concat (map (fun q => map (fun i => (i, fst q)) (ison_f edge_thresh (snd q) ps)) (combine (seq 0 (length dets)) dets)).
(** PPApplyFOVFilter.py:47-56: [iloc], the detectorID column, [sort_index]. *)
Definition footprint_filter_f {A} (focal : A -> pt_f) (edge_thresh : option cell) (dets : list (list pt_f * pt_f)) (f : frame A) : frame (A * nat) :=
  sort_index (flat_map (fun q => match nth_error f (fst q) with
    | Some r => [(fst r, (snd r, snd q))]
    | None => [] end) (applyFootprint_f edge_thresh dets (map (fun r => focal (snd r)) f))).
End Footprint.
