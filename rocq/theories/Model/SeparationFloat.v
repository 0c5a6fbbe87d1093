(** Great-circle distances in binary64 arithmetic: modules/PPMiniDifi.py:6-44 and
    modules/PPVignetting.py:80-87 and 90-119 of src/sorcha with every rounding.
    Model/Photometry.v and Model/Sphere.v have the same formulas over the reals.  The values
    are those of Model/Rounding.v; plus and minus those of Model/FadingFloat.v, root that
    of Model/UncertaintyFloat.v.  The sine, the cosine and the arcsine of the libraries are
    parameters.  [x ** 2] is taken to be one rounded product, and no operations are fused
    (numba is used without fastmath).  The sign of zero is left out. *)
From Coq Require Import Reals ZArith.
From Flocq Require Import Core.
From Verif Require Import Base.Prelude Model.LinkingFloat Model.Rounding Model.FadingFloat Model.UncertaintyFloat Model.AngleFloat Model.MagnitudeFloat.
Open Scope R_scope.

(** np.radians, PPMiniDifi.py:37 and PPVignetting.py:3: a product with pi / 180. *)
Definition deg2rad_f (x : cell) : cell := multiply x (divide np_pi (Real 180)).
(** [x ** 2], PPMiniDifi.py:42 and PPVignetting.py:118. *)
Definition squared (x : cell) : cell := multiply x x.

Section Separation.
(** np.sin, np.cos and np.arcsin, PPMiniDifi.py:42-43 and PPVignetting.py:5-6 and 117. *)
Variables np_sin np_cos np_arcsin : cell -> cell.

(** PPMiniDifi.py:37-44. *)
Definition haversine_np_f (lon1 lat1 lon2 lat2 : cell) : cell :=
  let lon1 := deg2rad_f lon1 in
  let lat1 := deg2rad_f lat1 in
  let lon2 := deg2rad_f lon2 in
  let lat2 := deg2rad_f lat2 in
  let dlon := minus lon2 lon1 in
  let dlat := minus lat2 lat1 in
  let a := plus (squared (np_sin (divide dlat (Real 2))))
             (multiply (multiply (np_cos lat1) (np_cos lat2)) (squared (np_sin (divide dlon (Real 2))))) in
  let c := multiply (Real 2) (np_arcsin (root a)) in
  rad2deg_f c.

(** PPVignetting.py:117-119. *)
Definition haversine_f (ra1 dec1 ra2 dec2 : cell) : cell :=
  multiply (Real 2) (np_arcsin (root
    (plus (squared (np_sin (divide (minus dec2 dec1) (Real 2))))
       (multiply (multiply (np_cos dec1) (np_cos dec2)) (squared (np_sin (divide (minus ra2 ra1) (Real 2)))))))).
(** PPVignetting.py:80-85: the angle between an object and the centre of the field. *)
Definition off_axis_f (ra dec fieldra fielddec : cell) : cell :=
  rad2deg_f (haversine_f (deg2rad_f ra) (deg2rad_f dec) (deg2rad_f fieldra) (deg2rad_f fielddec)).
(** PPVignetting.py:49-51 with 80-87. *)
Definition vignettingEffects_f (np_log10 : cell -> cell) (ra dec fieldra fielddec field_depth : cell) : cell :=
  depth_f np_log10 true field_depth (off_axis_f ra dec fieldra fielddec).
End Separation.
