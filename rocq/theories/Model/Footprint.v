(** The camera footprint.  Paths are relative to /repo/src/sorcha/modules; line
    numbers without a file are those of PPFootprintFilter.py.  Numbers are real:
    rounding is not modelled. *)
From Coq Require Import String List Arith Bool Reals.
From Verif Require Import Base.Prelude Base.Frame Model.Sphere.
Import ListNotations.
Open Scope R_scope.

Notation pt := (R * R)%type.

(** Lines 65-77 for one point [p] and the segment from [a] to [b]. *)
Definition distToSegment (p a b : pt) : R :=
  let '(px, py) := p in let '(x0, y0) := a in let '(x1, y1) := b in
  let len_sq := (x1 - x0) * (x1 - x0) + (y1 - y0) * (y1 - y0) in
  if Req_EM_T len_sq 0 then sqrt ((px - x0) * (px - x0) + (py - y0) * (py - y0))
  else
    let t := ((px - x0) * (x1 - x0) + (py - y0) * (y1 - y0)) / len_sq in
    let t := if Rlt_dec t 0 then 0 else t in
    let t := if Rlt_dec 1 t then 1 else t in
    let proj_x := x0 + (x1 - x0) * t in
    let proj_y := y0 + (y1 - y0) * t in
    sqrt ((px - proj_x) * (px - proj_x) + (py - proj_y) * (py - proj_y)).

(** [np.cross], line 125. *)
Definition np_cross (a b : vec) : vec :=
  V3 (vy a * vz b - vz a * vy b) (vz a * vx b - vx a * vz b) (vx a * vy b - vy a * vx b).
(** Lines 112-140, angles in radians.  Division by zero (a field at a pole, a
    point 90 degrees away) is not modelled. *)
Definition radec_to_tangent_plane (ra dec field_ra field_dec : R) : pt :=
  let observation := V3 (cos ra * cos dec) (sin ra * cos dec) (sin dec) in
  let field := V3 (cos field_ra * cos field_dec) (sin field_ra * cos field_dec) (sin field_dec) in
  let focalx := V3 (- vy field) (vx field) 0 in
  let focaly := np_cross field focalx in
  let focalx := scale (/ norm focalx) focalx in
  let focaly := scale (/ norm focaly) focaly in
  let k := 1 / dot field observation in
  let observation := vsub (scale k observation) field in
  (dot observation focalx, dot observation focaly).
(** Lines 171-179: multiplication by exp(i rot). *)
Definition radec_to_focal_plane (ra dec field_ra field_dec field_rot : R) : pt :=
  let '(x, y) := radec_to_tangent_plane ra dec field_ra field_dec in
  (x * cos field_rot - y * sin field_rot, x * sin field_rot + y * cos field_rot).

(** [np.sum], lines 233-234, 328 and 371. *)
Definition sum_f {A} (f : A -> R) (l : list A) : R := fold_right (fun a s => f a + s) 0 l.
(** [np.max], line 269. *)
Fixpoint max_f {A} (f : A -> R) (a : A) (l : list A) : R :=
  match l with [] => f a | b :: l' => Rmax (f a) (max_f f b l') end.

(** Lines 190, 214-234: the outline and its centre.  The units are "radians", the
    only ones Footprint uses (lines 574-585).  [np.max] of no corners raises, so
    a detector has at least one. *)
Record detector := { d_corners : list pt; d_center : pt }.
(** Lines 224-230. *)
Definition project (p : pt) : pt :=
  let '(ra, dec) := p in let z := cos ra * cos dec in (sin ra * cos dec / z, sin dec / z).
(** Lines 233-234. *)
Definition mean_point (l : list pt) : pt := (sum_f fst l / INR (length l), sum_f snd l / INR (length l)).
(** Lines 214-234, units "radians". *)
Definition make_detector (points : list pt) : detector :=
  let xy := map project points in {| d_corners := xy; d_center := mean_point xy |}.

(** Lines 214-234 for any units: "degrees" calls [deg2rad] (lines 445-466),
    which reads [self.x] before it is set; with "deg" the method only prints
    that the units are already radians. *)
Definition make_detector_units (units : string) (points : list pt) : result detector :=
  if String.eqb units "degrees" then Err AttributeError else Ok (make_detector points).

(** [np.roll(x, 1)], lines 325-326 and 364-365. *)
Definition rolled {A} (d : A) (l : list A) : list A :=
  match l with [] => [] | _ => last l d :: removelast l end.
(** Lines 322-330 and 352-371: half the sum of the absolute cross products of
    consecutive corners, seen from [c]. *)
Definition area_about (c : pt) (corners : list pt) : R :=
  let xy := map (fun v => (fst v - fst c, snd v - snd c)) corners in
  1 / 2 * sum_f (fun e => Rabs (fst (fst e) * snd (snd e) - snd (fst e) * fst (snd e))) (combine xy (rolled (0, 0) xy)).
(** Lines 306-330. *)
Definition trueArea (d : detector) : R := area_about (d_center d) (d_corners d).
(** Lines 332-371. *)
Definition segmentedArea (d : detector) (p : pt) : R := area_about p (d_corners d).

(** [<=] on lines 270 and 274. *)
Definition Rleb (a b : R) : bool := if Rle_dec a b then true else false.
(** [>] on line 296. *)
Definition Rltb (a b : R) : bool := if Rlt_dec a b then true else false.
(** The squared distances of lines 269-270. *)
Definition dist2 (a b : pt) : R := (fst a - fst b) * (fst a - fst b) + (snd a - snd b) * (snd a - snd b).

(** Lines 269-274 for one point.  An empty detector is reported as off. *)
Definition on_area (eps : R) (d : detector) (p : pt) : bool :=
  match d_corners d with
  | [] => false
  | v :: l =>
      Rleb (dist2 p (d_center d)) (max_f (fun c => dist2 c (d_center d)) v l)
      && Rleb (Rabs (segmentedArea d p - trueArea d)) eps
  end.
(** Lines 287-295: edge i goes from corner i to corner (i+1) mod n. *)
Definition edges (l : list pt) : list (pt * pt) :=
  match l with [] => [] | v :: l' => combine l (l' ++ [v])%list end.
(** Lines 277-296; the threshold is in arcseconds, the units are radians. *)
Definition off_edges (edge_thresh : option R) (d : detector) (p : pt) : bool :=
  match edge_thresh with
  | None => true
  | Some a => forallb (fun e => Rltb (deg2rad (a / 3600)) (distToSegment p (fst e) (snd e))) (edges (d_corners d))
  end.
(** Lines 269-304 for one point. *)
Definition on_detector (eps : R) (edge_thresh : option R) (d : detector) (p : pt) : bool :=
  on_area eps d p && off_edges edge_thresh d p.
(** Lines 269-304: positions of the points on the detector.  The shape check of
    lines 264-266 is not modelled. *)
Definition ison (eps : R) (edge_thresh : option R) (d : detector) (ps : list pt) : list nat :=
  map fst (filter (fun q => on_detector eps edge_thresh d (snd q)) (combine (seq 0 (length ps)) ps)).

(** [np.argsort], line 391, by insertion (equal angles may come in any order). *)
Fixpoint insert_real {A} (key : A -> R) (x : A) (l : list A) : list A :=
  match l with
  | [] => [x]
  | y :: l' => if Rle_dec (key x) (key y) then x :: l else y :: insert_real key x l'
  end.
(** The whole of the sort of line 391. *)
Definition sort_real {A} (key : A -> R) (l : list A) : list A := fold_right (insert_real key) [] l.
(** Lines 389-393. *)
Definition sortCorners (d : detector) : detector :=
  {| d_corners := sort_real (fun v => arctan2 (snd v - snd (d_center d)) (fst v - fst (d_center d))) (d_corners d);
     d_center := d_center d |}.
(** Lines 413-420: the rotated corners go through the constructor again. *)
Definition rotateDetector (theta : R) (d : detector) : detector :=
  make_detector (map (fun v => (fst v * cos theta - snd v * sin theta, fst v * sin theta + snd v * cos theta)) (d_corners d)).

(** Lines 569-591: the corners of the file, grouped by detector name in order of
    first appearance. *)
Definition make_footprint (file : list (string * pt)) : list (string * detector) :=
  let names := fold_right (fun x r => x :: filter (fun y => negb (String.eqb x y)) r) [] (map fst file) in
  map (fun n => (n, sortCorners (make_detector (map snd (filter (fun r => String.eqb (fst r) n) file))))) names.

(** Lines 697-707, after the projection of lines 679-692: positions and numbers of detectors. *)
Definition applyFootprint (eps : R) (edge_thresh : option R) (dets : list detector) (ps : list pt) : list (nat * nat) :=
  concat (map (fun q => map (fun i => (i, fst q)) (ison eps edge_thresh (snd q) ps)) (combine (seq 0 (length dets)) dets)).
(** [sort_index], PPApplyFOVFilter.py:56, by insertion (rows with equal labels
    may come in any order). *)
Definition insert_label {A} := fix ins (x : nat * A) (l : list (nat * A)) : list (nat * A) :=
  match l with [] => [x] | y :: l' => if (fst x <=? fst y)%nat then x :: l else y :: ins x l' end.
(** The whole of the sort of PPApplyFOVFilter.py:56. *)
Definition sort_index {A} (f : frame A) : frame A := fold_right insert_label [] f.
(** PPApplyFOVFilter.py:47-56: [iloc], the detectorID column, [sort_index].  The
    tolerance is the default of PPFootprintFilter.py:236. *)
Definition footprint_filter {A} (focal : A -> pt) (edge_thresh : option R) (dets : list detector) (f : frame A) : frame (A * nat) :=
  sort_index (flat_map (fun q => match nth_error f (fst q) with
    | Some r => [(fst r, (snd r, snd q))]
    | None => [] end) (applyFootprint (/ 10 ^ 11) edge_thresh dets (map (fun r => focal (snd r)) f))).
