(** Right ascensions and declinations in binary64 arithmetic:
    ephemeris/simulation_geometry.py:145-165 and
    modules/PPRandomizeMeasurements.py:352-403 (with deg=True) with every rounding.
    Model/Sphere.v has the same functions over the reals.  The values and the
    operations multiply, divide and plus are those of Model/Rounding.v and
    Model/FadingFloat.v; numpy's arctan2, arcsin and norm are parameters.  The sign
    of zero is left out. *)
From Coq Require Import Reals ZArith Bool.
From Flocq Require Import Core.
From Verif Require Import Base.Prelude Model.LinkingFloat Model.Rounding Model.FadingFloat.
Open Scope R_scope.

(** np.pi, simulation_geometry.py:159: the float64 nearest to pi. *)
Definition np_pi : cell := Real (884279719003555 / 281474976710656).
(** [180.0 / np.pi], simulation_geometry.py:159; also the factor in numpy's rad2deg. *)
Definition radeg : cell := divide (Real 180) np_pi.
(** numpy's [a % b] for b > 0, simulation_geometry.py:163 and
    PPRandomizeMeasurements.py:397: C's fmod, which is exact, and [b] added if that is
    negative. *)
Definition np_mod (a : cell) (b : R) : cell :=
  match a with
  | Real x =>
      let m := x - b * IZR (Ztrunc (x / b)) in
      if rltb m 0 then finish (m + b) else Real m
  | _ => Nan
  end.

Section Angles.
(** np.arctan2 and np.arcsin, simulation_geometry.py:163-164. *)
Variable np_arctan2 : cell -> cell -> cell.
Variable np_arcsin : cell -> cell.
(** np.linalg.norm, PPRandomizeMeasurements.py:376-386. *)
Variable np_norm : cell -> cell -> cell -> cell.

(** simulation_geometry.py:159-165. *)
Definition vec2ra_dec_f (x y z : cell) : cell * cell :=
  (np_mod (multiply radeg (np_arctan2 y x)) 360, multiply radeg (np_arcsin z)).
(** np.rad2deg, PPRandomizeMeasurements.py:397-398. *)
Definition rad2deg_f (x : cell) : cell := multiply x radeg.
(** PPRandomizeMeasurements.py:376-403. *)
Definition icrf2radec_f (x y z : cell) : cell * cell :=
  let r := np_norm x y z in
  let phi := np_arctan2 (divide y r) (divide x r) in
  let delta := np_arcsin (divide z r) in
  (np_mod (plus (rad2deg_f phi) (Real 360)) 360, rad2deg_f delta).
End Angles.
