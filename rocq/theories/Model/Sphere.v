(** Directions on the sky and rotations, over the real numbers (rounding of
    binary64 arithmetic is not modelled).  Paths are relative to
    /repo/src/sorcha. *)
From Coq Require Import Reals ZArith List.
Import ListNotations.
Open Scope R_scope.

(** Numpy arrays of three entries. *)
Record vec := V3 { vx : R; vy : R; vz : R }.
(** [np.dot], for example ephemeris/simulation_driver.py:217. *)
Definition dot (a b : vec) : R := vx a * vx b + vy a * vy b + vz a * vz b.
(** [np.linalg.norm]. *)
Definition norm (a : vec) : R := sqrt (dot a a).
(** [+] on arrays, modules/PPRandomizeMeasurements.py:247. *)
Definition vadd (a b : vec) : vec := V3 (vx a + vx b) (vy a + vy b) (vz a + vz b).
(** [-] on arrays, modules/PPFootprintFilter.py:134. *)
Definition vsub (a b : vec) : vec := V3 (vx a - vx b) (vy a - vy b) (vz a - vz b).
(** [*] of array and number, modules/PPFootprintFilter.py:133. *)
Definition scale (k : R) (a : vec) : vec := V3 (k * vx a) (k * vy a) (k * vz a).

(** [np.deg2rad], [np.rad2deg]. *)
Definition deg2rad (x : R) : R := x * PI / 180.
(** [np.rad2deg], modules/PPRandomizeMeasurements.py:397-398. *)
Definition rad2deg (x : R) : R := x * 180 / PI.

(** [np.mod] and [%] for a positive modulus. *)
Definition rmod (a m : R) : R := a - m * IZR (Int_part (a / m)).

(** [np.arctan2]; signed zeros are not distinguished. *)
Definition arctan2 (y x : R) : R :=
  if Rlt_dec 0 x then atan (y / x)
  else if Rlt_dec x 0 then if Rle_dec 0 y then atan (y / x) + PI else atan (y / x) - PI
  else if Rlt_dec 0 y then PI / 2 else if Rlt_dec y 0 then - (PI / 2) else 0.

(** modules/PPRandomizeMeasurements.py:406-445 with deg=True. *)
Definition radec2icrf (ra dec : R) : vec :=
  let a := deg2rad ra in
  let d := deg2rad dec in
  V3 (cos d * cos a) (cos d * sin a) (sin d).

(** modules/PPRandomizeMeasurements.py:352-403 with deg=True. *)
Definition icrf2radec (x y z : R) : R * R :=
  let r := norm (V3 x y z) in
  let phi := arctan2 (y / r) (x / r) in
  let delta := asin (z / r) in
  (rmod (rad2deg phi + 360) 360, rad2deg delta).

(** ephemeris/simulation_geometry.py:124-142. *)
Definition ra_dec2vec (ra dec : R) : vec :=
  let radeg := PI / 180 in
  V3 (cos (ra * radeg) * cos (dec * radeg)) (sin (ra * radeg) * cos (dec * radeg)) (sin (dec * radeg)).

(** ephemeris/simulation_geometry.py:145-165. *)
Definition vec2ra_dec (v : vec) : R * R :=
  let radeg := 180 / PI in
  (rmod (radeg * arctan2 (vy v) (vx v)) 360, radeg * asin (vz v)).

(** ** ephemeris/simulation_constants.py:7-36 *)

(** A matrix by rows. *)
Record mat := M3 { row1 : vec; row2 : vec; row3 : vec }.
(** Lines 29-31. *)
Definition create_ecl_to_eq_rotation_matrix (ecl : R) : mat :=
  let ce := cos (- ecl) in
  let se := sin ecl in
  M3 (V3 1 0 0) (V3 0 ce se) (V3 0 (- se) ce).
(** Line 7. *)
Definition OBLIQUITY_ECLIPTIC : R := 84381448 / 1000 * (1 / 3600) * PI / 180.
(** Lines 35-36. *)
Definition ECL_TO_EQ_ROTATION_MATRIX := create_ecl_to_eq_rotation_matrix OBLIQUITY_ECLIPTIC.
(** Line 36. *)
Definition EQ_TO_ECL_ROTATION_MATRIX := create_ecl_to_eq_rotation_matrix (- OBLIQUITY_ECLIPTIC).
(** [np.dot(v, M)] for a vector on the left. *)
Definition vec_dot_mat (v : vec) (m : mat) : vec :=
  vadd (scale (vx v) (row1 m)) (vadd (scale (vy v) (row2 m)) (scale (vz v) (row3 m))).
(** ephemeris/simulation_geometry.py:12-27. *)
Definition ecliptic_to_equatorial (v : vec) : vec := vec_dot_mat v ECL_TO_EQ_ROTATION_MATRIX.
(** ephemeris/simulation_geometry.py:30-45. *)
Definition equatorial_to_ecliptic (v : vec) : vec := vec_dot_mat v EQ_TO_ECL_ROTATION_MATRIX.

(** ** ephemeris/simulation_driver.py *)

(** Lines 245-268.  Division by zero at the poles is not modelled. *)
Definition get_residual_vectors (v : vec) : vec * vec :=
  let cosd := sqrt (1 - vz v * vz v) in
  (V3 (- vy v / cosd) (vx v / cosd) (0 / cosd),
   V3 (- vz v * vx v / cosd) (- vz v * vy v / cosd) cosd).

(** ephemeris/simulation_constants.py:4-6. *)
Definition AU_KM : R := 149597870700 / 1000.
(** ephemeris/simulation_constants.py:6. *)
Definition SPEED_OF_LIGHT : R := 299792458 / 1000 * 86400 / AU_KM.

(** The columns computed in lines 286-336, the vectors kept together. *)
Record geometry := {
  g_range_km : R; g_range_rate : R; g_ra : R; g_ra_rate : R; g_dec : R; g_dec_rate : R;
  g_obj_sun : vec; g_obj_sun_v : vec; g_obs_sun : vec; g_obs_sun_v : vec; g_phase : R }.
(** Lines 286-336; rho, rho_mag and rho_hat as set in lines 208-215. *)
Definition calculate_rates_and_geometry (r_sun r_obs v_sun v_obs rho r_ast v_ast : vec) : geometry :=
  let rho_mag := norm rho in
  let rho_hat := scale (/ rho_mag) rho in
  let radec := vec2ra_dec rho_hat in
  let drhodt0 := vsub v_ast v_obs in
  let drho_magdt := 1 / rho_mag * dot rho drhodt0 in
  let ddeltatdt := drho_magdt / SPEED_OF_LIGHT in
  let drhodt := vsub (scale (1 - ddeltatdt) v_ast) v_obs in
  let AD := get_residual_vectors rho_hat in
  let drho_hatdt := vsub (scale (/ rho_mag) drhodt) (scale (/ rho_mag) (scale drho_magdt rho_hat)) in
  let dradt := dot (fst AD) drho_hatdt in
  let ddecdt := dot (snd AD) drho_hatdt in
  let r_ast_sun := vsub r_ast r_sun in
  let v_ast_sun := vsub v_ast v_sun in
  let r_ast_obs := vsub r_ast r_obs in
  let phase_angle := acos (dot r_ast_sun r_ast_obs / (norm r_ast_sun * norm r_ast_obs)) in
  let obs_sun := vsub r_obs r_sun in
  let dobs_sundt := vsub v_obs v_sun in
  {| g_range_km := rho_mag * AU_KM; g_range_rate := drho_magdt * AU_KM / (24 * 60 * 60);
     g_ra := fst radec; g_ra_rate := dradt * 180 / PI; g_dec := snd radec; g_dec_rate := ddecdt * 180 / PI;
     g_obj_sun := scale AU_KM r_ast_sun; g_obj_sun_v := scale (AU_KM / (24 * 60 * 60)) v_ast_sun;
     g_obs_sun := scale AU_KM obs_sun; g_obs_sun_v := scale (AU_KM / (24 * 60 * 60)) dobs_sundt;
     g_phase := phase_angle * 180 / PI |}.

(** ephemeris/simulation_geometry.py:81-90.  [at_time] gives position and
    velocity of the object (the integrator); the loop runs [n] more rounds. *)
Fixpoint light_time_loop (at_time : R -> vec * vec) (t : R) (r_obs : vec) (n : nat) (lt : R) : R :=
  match n with
  | O => lt
  | S k => light_time_loop at_time t r_obs k (norm (vsub (fst (at_time (t - lt))) r_obs) / SPEED_OF_LIGHT)
  end.
(** Result of the last of [iter >= 1] rounds: rho, lt, position, velocity. *)
Definition integrate_light_time (at_time : R -> vec * vec) (t : R) (r_obs : vec) (lt0 : R) (iter : nat)
  : vec * R * vec * vec :=
  let lt := light_time_loop at_time t r_obs (iter - 1) lt0 in
  let p := at_time (t - lt) in
  let rho := vsub (fst p) r_obs in
  (rho, norm rho / SPEED_OF_LIGHT, fst p, snd p).

(** ** modules/PPMiniDifi.py:6-44 *)
Definition haversine (lon1 lat1 lon2 lat2 : R) : R :=
  let lon1 := deg2rad lon1 in let lat1 := deg2rad lat1 in
  let lon2 := deg2rad lon2 in let lat2 := deg2rad lat2 in
  let dlon := lon2 - lon1 in
  let dlat := lat2 - lat1 in
  let a := sin (dlat / 2) ^ 2 + cos lat1 * cos lat2 * sin (dlon / 2) ^ 2 in
  let c := 2 * asin (sqrt a) in
  rad2deg c.

(** ** Randomisation, modules/PPRandomizeMeasurements.py *)

(** One row of lines 246-251: [g] is the Gaussian draw. *)
Definition sampleNormalFOV (center : vec) (sigma : R) (g : vec) : vec :=
  let m := vadd (scale sigma g) center in
  scale (/ norm m) m.
(** Lines 163-199 for one row, degrees in and out. *)
Definition randomizeAstrometry (ra dec sig : R) (g : vec) : R * R :=
  let v := sampleNormalFOV (radec2icrf ra dec) (deg2rad sig) g in
  icrf2radec (vx v) (vy v) (vz v).
(** Line 302 for one row. *)
Definition randomizePhotometry (mag sig s : R) : R := mag + s * sig.
(** Lines 305-349. *)
Definition log10 (x : R) : R := ln x / ln 10.
(** Lines 305-326. *)
Definition flux2mag (f f0 : R) : R := - (5/2) * log10 (f / f0).
(** Lines 329-349. *)
Definition mag2flux (mag f0 : R) : R := f0 * Rpower 10 (- (4/10) * mag).
