(** Before the ephemeris is generated: starting states of the objects, times and
    positions of the visits.  Paths are relative to /repo/src/sorcha/ephemeris.
    Times and vectors are real: floating-point rounding is not modelled. *)
From Coq Require Import String List ZArith Bool Reals.
From Verif Require Import Base.Prelude Model.Sphere Model.Kepler Model.OrbitParse Model.Ephemeris.
Import ListNotations.
Open Scope R_scope.
Open Scope result_scope.

(** ** simulation_setup.py:121-190 *)

(** simulation_setup.py:147-148, 154 and 187: a row of the table of orbits. *)
Record orbit := { ob_id : string; ob_epoch : R; ob_row : orow }.
(** simulation_setup.py:165-184: what a simulation is made of, the time [sim.t] and the
    state of the particle.  The settings of lines 171-184 are the same for all objects. *)
Record simulation := { sim_t : R; sim_state : vec * vec }.
(** simulation_setup.py:144: [sim_dict], in order of insertion. *)
Definition sims := list (string * simulation).
(** simulation_setup.py:187-188: an existing key keeps its place and gets a new value. *)
Fixpoint put (k : string) (v : simulation) (d : sims) : sims :=
  match d with
  | [] => [(k, v)]
  | (n, w) :: rest => if String.eqb n k then (n, v) :: rest else (n, w) :: put k v rest
  end.
(** simulation_setup.py:148-151. *)
Definition to_jd (epoch : R) : R := if Rlt_dec epoch mjd_zero then epoch + mjd_zero else epoch.

Section Simulations.
(** Steps granted to the orbit conversion (Model/Kepler.v), the Sun at a time
    (simulation_parsing.py:113), the masses and [ephem.jd_ref]. *)
Variables (fuel : nat) (sun : R -> vec * vec) (gm_sun gm_total jd_ref : R).

(** simulation_setup.py:147-188: NaN and ValueError end the run, lines 153-162. *)
Fixpoint simulate (d : sun_dict) (done : sims) (rows : list orbit) : result sims :=
  match rows with
  | [] => Ok done
  | r :: rest =>
      let epoch := to_jd (ob_epoch r) in
      match parse_orbit_row fuel sun (ob_row r) epoch d gm_sun gm_total with
      | Ok (d', Some st) => simulate d' (put (ob_id r) {| sim_t := epoch - jd_ref; sim_state := st |} done) rest
      | Ok (_, None) => Err SysExit
      | Err ValueError => Err SysExit
      | Err e => Err e
      end
  end.
(** simulation_setup.py:121-190. *)
Definition generate_simulations (rows : list orbit) : result sims := simulate [] [] rows.
End Simulations.

(** ** simulation_parsing.py:12-28 *)

(** simulation_parsing.py:27, [spice.j2000()]. *)
Definition j2000 : R := 2451545.
(** simulation_parsing.py:26, ["%lf" % jd]: six decimals. *)
Definition six_decimals (jd : R) : R := IZR (py_round (jd * 1000000)) / 1000000.
(** simulation_parsing.py:12-28; [str2et] gives seconds for a Julian date in terrestrial time. *)
Definition mjd_tai_to_epoch (str2et : R -> R) (mjd_tai : R) : R :=
  let jd := mjd_tai + mjd_zero + 32184 / 1000 / (24 * 60 * 60) in
  j2000 + str2et (six_decimals jd) / (24 * 60 * 60).

(** ** simulation_geometry.py:168-216 *)

(** simulation_geometry.py:201-207: the frames. *)
Inductive frame := ITRF93 | IAU_EARTH.
(** simulation_geometry.py:168, the default. *)
Definition delta_et : R := 10.
(** simulation_constants.py:3. *)
Definition RADIUS_EARTH_KM : R := 6378137 / 1000.

Section Visits.
(** [spice.spkezr], line 194; [spice.pxform], lines 201-207; [et_1962], line 199. *)
Variables (earth : R -> vec * vec) (pxform : frame -> R -> mat) (et_1962 : R).
(** [observatories.ObservatoryXYZ], line 210. *)
Variable codes : string -> option obscode.

(** simulation_geometry.py:168-216; [None] as a position cannot be multiplied. *)
Definition barycentricObservatoryRates (et : R) (code : string) : result (vec * vec) :=
  let '(pos, vel) := earth et in
  let f := if Rle_dec et_1962 et then ITRF93 else IAU_EARTH in
  match codes code with
  | None => Err KeyError
  | Some o =>
      match convert_to_geocentric o with
      | None => Err TypeError
      | Some p =>
          let mVec t := scale RADIUS_EARTH_KM (mat_vec (pxform f t) p) in
          Ok (vadd pos (mVec et),
              vadd vel (scale (/ (2 * delta_et)) (vsub (mVec (et + delta_et)) (mVec (et - delta_et)))))
      end
  end.

(** ** simulation_setup.py:193-270 *)

(** [str2et] and the Sun at a Julian date, lines 226-228 and 261. *)
Variables (str2et : R -> R) (sun : R -> vec * vec).
(** simulation_setup.py:219 and 227: the columns of the pointing table read here. *)
Record pointing := { pt_ra : R; pt_dec : R; pt_mid : R }.
(** simulation_setup.py:221-270: the columns added to it. *)
Record extra := { x_dir : vec; x_jd : R; x_r_obs : vec; x_v_obs : vec; x_r_sun : vec; x_v_sun : vec }.
(** simulation_setup.py:217-270, for one row. *)
Definition precompute_row (code : string) (p : pointing) : result extra :=
  let jd := mjd_tai_to_epoch str2et (pt_mid p) in
  let et := (jd - j2000) * 24 * 60 * 60 in
  rv <- barycentricObservatoryRates et code ;;
  Ok {| x_dir := ra_dec2vec (pt_ra p) (pt_dec p); x_jd := jd;
        x_r_obs := scale (/ AU_KM) (fst rv); x_v_obs := scale (24 * 60 * 60 / AU_KM) (snd rv);
        x_r_sun := fst (sun jd); x_v_sun := snd (sun jd) |}.
(** simulation_setup.py:193-273, for a table with rows (what pandas does with an empty
    one, line 226, is not modelled).  Kernels and observatory table are parameters. *)
Definition precompute_pointing_information (code : string) (l : list pointing) : result (list extra) :=
  each (precompute_row code) l.
End Visits.
