(** Orbit rows and observatories: ephemeris/simulation_parsing.py (line
    numbers refer to it). *)
From Coq Require Import Reals ZArith String List Bool.
From Verif Require Import Base.Prelude Model.Sphere Model.Kepler.
Import ListNotations.
Open Scope R_scope.
Open Scope result_scope.

(** A row of the orbit table: its format and the numbers in its columns; a
    missing column is a KeyError (lines 57-110). *)
Record orow := { or_format : string; or_col : string -> option R }.
(** [row["..."]], for example line 64. *)
Definition get (r : orow) (c : string) : result R :=
  match or_col r c with Some x => Ok x | None => Err KeyError end.

(** Membership in the lists of lines 59, 120 and 162. *)
Definition is_in (x : string) (l : list string) : bool := existsb (String.eqb x) l.

(** 2400000.5, lines 61 and 73. *)
Definition mjd_zero : R := 24000005 / 10.

(** Lines 60-83: arguments of the conversion from cometary elements, and
    236-245. *)
Definition from_cometary (fuel : nat) (gm : R) (r : orow) (epoch : R) : result (option (vec * vec)) :=
  tp <- get r "t_p_MJD_TDB" ;; q <- get r "q" ;; e <- get r "e" ;;
  i <- get r "inc" ;; n <- get r "node" ;; w <- get r "argPeri" ;;
  universal_cartesian fuel gm q e (i * PI / 180) (n * PI / 180) (w * PI / 180) (tp + mjd_zero) epoch.

(** Lines 84-105 and 207-216. *)
Definition from_keplerian (fuel : nat) (gm : R) (r : orow) (epoch : R) : result (option (vec * vec)) :=
  a <- get r "a" ;; e <- get r "e" ;; i <- get r "inc" ;; n <- get r "node" ;; w <- get r "argPeri" ;;
  m <- get r "ma" ;;
  universal_cartesian fuel gm (a * (1 - e)) e (i * PI / 180) (n * PI / 180) (w * PI / 180)
    (epoch - (m * PI / 180) * sqrt (a ^ 3 / gm)) epoch.

(** Lines 109-110. *)
Definition cartesian_columns (r : orow) : result (vec * vec) :=
  x <- get r "x" ;; y <- get r "y" ;; z <- get r "z" ;;
  x' <- get r "xdot" ;; y' <- get r "ydot" ;; z' <- get r "zdot" ;;
  Ok (V3 x y z, V3 x' y' z').

(** Lines 59-110: the state in ecliptic axes; [None] is a NaN state. *)
Definition ecliptic_state (fuel : nat) (r : orow) (epoch gm_sun gm_total : R) : result (option (vec * vec)) :=
  let f := or_format r in
  if negb (is_in f ["CART"; "BCART"]%string) then
    if String.eqb f "COM" then from_cometary fuel gm_sun r epoch
    else if String.eqb f "BCOM" then from_cometary fuel gm_total r epoch
    else if String.eqb f "KEP" then from_keplerian fuel gm_sun r epoch
    else if String.eqb f "BKEP" then from_keplerian fuel gm_total r epoch
    else Err ValueError
  else rmap Some (cartesian_columns r).

(** The cache [sun_dict], keyed by epoch (lines 112-115). *)
Definition sun_dict := list (R * (vec * vec)).
(** Lines 112-115, for one epoch. *)
Fixpoint cache_get (d : sun_dict) (t : R) : option (vec * vec) :=
  match d with
  | [] => None
  | (k, s) :: rest => if Req_EM_T k t then Some s else cache_get rest t
  end.
(** Lines 112-115; [sun] is [ephem.get_particle("Sun", epoch - ephem.jd_ref)]. *)
Definition sun_at (sun : R -> vec * vec) (d : sun_dict) (t : R) : sun_dict * (vec * vec) :=
  match cache_get d t with Some s => (d, s) | None => ((t, sun t) :: d, sun t) end.

(** Lines 31-124: the new cache and the barycentric equatorial state. *)
Definition parse_orbit_row (fuel : nat) (sun : R -> vec * vec) (r : orow) (epoch : R) (d : sun_dict)
    (gm_sun gm_total : R) : result (sun_dict * option (vec * vec)) :=
  st <- ecliptic_state fuel r epoch gm_sun gm_total ;;
  let '(d', (sx, sv)) := sun_at sun d epoch in
  match st with
  | None => Ok (d', None)
  | Some (x, v) =>
    let x := ecliptic_to_equatorial x in
    let v := ecliptic_to_equatorial v in
    if is_in (or_format r) ["KEP"; "COM"; "CART"]%string
    then Ok (d', Some (vadd x sx, vadd v sv)) else Ok (d', Some (x, v))
  end.

(** ** Perihelia for the culling filter, lines 127-275 *)

(** The result of line 275: angles in degrees, time of perihelion in MJD. *)
Record six := { p_q : R; p_e : R; p_inc : R; p_node : R; p_peri : R; p_tp : R }.

(** Lines 164-177 and the like. *)
Definition from_state (gm_sun : R) (x v : vec) (epoch : R) : six :=
  let k := universal_cometary gm_sun x v epoch in
  {| p_q := k_q k; p_e := k_e k; p_inc := k_incl k * (180 / PI); p_node := k_node k * (180 / PI);
     p_peri := k_peri k * (180 / PI); p_tp := k_tp k - mjd_zero |}.

(** Lines 194-203. *)
Definition from_kep_row (gm_sun : R) (r : orow) (epoch : R) : result six :=
  a <- get r "a" ;; e <- get r "e" ;; i <- get r "inc" ;; n <- get r "node" ;; w <- get r "argPeri" ;;
  m <- get r "ma" ;;
  let M := m * PI / 180 in
  let M := if Rlt_dec PI M then M - 2 * PI else M in
  Ok {| p_q := a * (1 - e); p_e := e; p_inc := i; p_node := n; p_peri := w;
        p_tp := epoch - M * sqrt (a ^ 3 / gm_sun) - mjd_zero |}.

(** Lines 266-273. *)
Definition from_com_row (r : orow) : result six :=
  q <- get r "q" ;; e <- get r "e" ;; i <- get r "inc" ;; n <- get r "node" ;; w <- get r "argPeri" ;;
  t <- get r "t_p_MJD_TDB" ;;
  Ok {| p_q := q; p_e := e; p_inc := i; p_node := n; p_peri := w; p_tp := t |}.

(** Lines 127-275; [None] when the barycentric state is NaN.  [sun] is the
    particle of line 156 at this epoch. *)
Definition get_perihelion_row (fuel : nat) (sun : vec * vec) (r : orow) (epoch gm_sun gm_total : R)
  : result (option six) :=
  let off := scale (-1) (equatorial_to_ecliptic (fst sun)) in
  let offv := scale (-1) (equatorial_to_ecliptic (snd sun)) in
  let helio := fun xv : vec * vec => from_state gm_sun (vadd (fst xv) off) (vadd (snd xv) offv) epoch in
  let f := or_format r in
  if negb (is_in f ["COM"]%string) then
    if String.eqb f "CART" then rmap (fun xv => Some (from_state gm_sun (fst xv) (snd xv) epoch)) (cartesian_columns r)
    else if String.eqb f "BCART" then rmap (fun xv => Some (helio xv)) (cartesian_columns r)
    else if String.eqb f "KEP" then rmap Some (from_kep_row gm_sun r epoch)
    else if String.eqb f "BKEP" then rmap (option_map helio) (from_keplerian fuel gm_total r epoch)
    else if String.eqb f "BCOM" then rmap (option_map helio) (from_cometary fuel gm_total r epoch)
    else Err ValueError
  else rmap Some (from_com_row r).

(** ** Observatories, lines 278-390 *)

(** An entry of ObsCodes.json, lines 342-349. *)
Record obscode := { longitude : option R; cosphi : option R; sinphi : option R }.

(** [d.get(key, False)] as a condition, lines 342-344. *)
Definition truthy (x : option R) : bool :=
  match x with Some v => if Req_EM_T v 0 then false else true | None => false end.

(** Lines 327-352; [None] is (None, None, None). *)
Definition convert_to_geocentric (o : obscode) : option vec :=
  match longitude o, cosphi o, sinphi o with
  | Some l, Some c, Some s =>
    if truthy (Some l) && truthy (Some c) && truthy (Some s) then
      let lon := l * PI / 180 in Some (V3 (c * cos lon) (c * sin lon) s)
    else None
  | _, _, _ => None
  end.

(** Lines 354-390: [earth] and [m] are the answers of spkpos and pxform; numpy
    cannot multiply None by a number. *)
Definition barycentricObservatory (earth : vec) (m : mat) (rearth : R) (codes : string -> option obscode)
    (code : string) : result vec :=
  match codes code with
  | None => Err KeyError
  | Some o => match convert_to_geocentric o with
              | None => Err TypeError
              | Some p => Ok (vadd earth (scale rearth (mat_vec m p)))
              end
  end.

(** ** modules/PPFaintObjectCullingFilter.py, lines 103-135 *)

(** One call of [get_perihelion_row] per row, stopping at the first error
    (lines 131-133). *)
Fixpoint each {A B} (f : A -> result B) (l : list A) : result (list B) :=
  match l with [] => Ok [] | x :: rest => y <- f x ;; ys <- each f rest ;; Ok (y :: ys) end.

(** The masses of lines 120-121, the Sun of line 126 and the single epoch of
    line 128; a row is its epoch and its elements; [None] is NaN. *)
Definition PPEstimatePerihelion (fuel : nat) (rows : list (R * orow)) : result (list (option R)) :=
  match rows with
  | [] => Err IndexError
  | (epoch, _) :: _ =>
    each (fun row : R * orow =>
      rmap (option_map p_q)
        (get_perihelion_row fuel (V3 0 0 0, V3 0 0 0) (snd row) epoch
           (29591220828559115 / 100000000000000000000) (29630927487993194 / 100000000000000000000))) rows
  end.
