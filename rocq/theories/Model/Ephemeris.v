(** Interpolated sky positions and the ephemeris loop.  Paths are relative to
    /repo/src/sorcha/ephemeris.  Times and vectors are real: floating-point
    rounding is not modelled. *)
From Coq Require Import String List ZArith Bool Reals.
From Verif Require Import Base.Prelude Model.Sphere.
Import ListNotations.
Open Scope R_scope.

(** ** pixel_dict.py *)

(** Lines 11-45. *)
Definition lagrange3 (t0 t1 t2 t : R) : R * R * R :=
  let L0 := (t - t1) * (t - t2) / ((t0 - t1) * (t0 - t2)) in
  let L1 := (t - t0) * (t - t2) / ((t1 - t0) * (t1 - t2)) in
  let L2 := (t - t0) * (t - t1) / ((t2 - t0) * (t2 - t1)) in
  (L0, L1, L2).
(** Lines 256 and 277. *)
Definition combine3 (w : R * R * R) (a b c : vec) : vec :=
  let '(x, y, z) := w in vadd (vadd (scale x a) (scale y b)) (scale z c).

(** Python's [round]: to the nearest integer, halves to even. *)
Definition py_round (x : R) : Z :=
  let n := Int_part (x + 1/2) in
  if Req_EM_T (x + 1/2) (IZR n) then if Z.even n then n else (n - 1)%Z else n.

Section Pickets.
(** The integrator: position and velocity of an object at a time since jd_ref.
    It is assumed to answer the same whatever was asked before; the simulation
    objects of ASSIST are mutable and their answers depend on the request
    history at the level of integration error. *)
Variable trajectory : string -> R -> vec * vec.
Variable jd_ref : R.
(** Lines 124-139: the observatory position. *)
Variable get_observatory_position : R -> vec.
(** [healpy]: pixel of a vector, neighbours of a pixel. *)
Variable vec2pix : vec -> Z.
Variable get_all_neighbours : Z -> list Z.
Variable n_sub_intervals : nat.
Variable picket_interval : R.
(** The keys of [sim_dict], in insertion order. *)
Variable sims : list string.

(** The dictionaries rho_hat_m_dict, rho_hat_0_dict, rho_hat_p_dict, lines
    118-120. *)
Definition dict := list (string * vec).
(** Indexing such a dictionary, lines 251-253 and 272-274. *)
Fixpoint dict_get (d : dict) (k : string) : result vec :=
  match d with
  | [] => Err KeyError
  | (n, v) :: d' => if String.eqb n k then Ok v else dict_get d' k
  end.

(** Lines 141-172 and 174-194. *)
Definition rho_hat (k : string) (r_obs : vec) (t : R) : vec :=
  let '(rho, _, _, _) := integrate_light_time (trajectory k) (t - jd_ref) r_obs (1/100) 3 in scale (/ norm rho) rho.
(** Lines 174-194. *)
Definition get_all_object_unit_vectors (r_obs : vec) (t : R) : dict := map (fun k => (k, rho_hat k r_obs t)) sims.

(** The attributes that change (lines 99-122). *)
Record pixdict := {
  p_tm : R; p_t0 : R; p_tp : R;
  p_rm : vec; p_r0 : vec; p_rp : vec;
  p_dm : dict; p_d0 : dict; p_dp : dict;
  p_pixels : Z -> list string }.

(** [np.linspace(a, b, n)]. *)
Definition linspace (a b : R) (n : nat) : list R :=
  match n with
  | O => []
  | S O => [a]
  | S m => map (fun i => a + INR i * ((b - a) / INR m)) (seq 0 n)
  end.
(** Lines 262-288.  [set] removes repetitions; the order in which the pixels of
    one object are visited does not matter.  The KeyError of lines 272-274
    cannot occur, the dictionaries being over all of [sim_dict]. *)
Definition pixels_of (tm t0 tp : R) (vm v0 vp : vec) : list Z :=
  let vecs := map (fun t => combine3 (lagrange3 tm t0 tp t) vm v0 vp) (linspace tm tp n_sub_intervals) in
  let pixels := nodup Z.eq_dec (map vec2pix vecs) in
  nodup Z.eq_dec (flat_map get_all_neighbours pixels).
(** Lines 262-288. *)
Definition compute_pixel_traversed (tm t0 tp : R) (dm d0 dp : dict) : Z -> list string :=
  fold_left (fun d k =>
    match dict_get dm k, dict_get d0 k, dict_get dp k with
    | Ok vm, Ok v0, Ok vp =>
        fold_left (fun d pix => fun q => if Z.eqb q pix then (d q ++ [k])%list else d q) (pixels_of tm t0 tp vm v0 vp) d
    | _, _, _ => d
    end) sims (fun _ => []).

(** Lines 54-122. *)
Definition make (tm t0 tp : R) (rm r0 rp : vec) (dm d0 dp : dict) : pixdict :=
  {| p_tm := tm; p_t0 := t0; p_tp := tp; p_rm := rm; p_r0 := r0; p_rp := rp; p_dm := dm; p_d0 := d0; p_dp := dp;
     p_pixels := compute_pixel_traversed tm t0 tp dm d0 dp |}.
(** Lines 54-122: the constructor. *)
Definition init (jd_tdb : R) : pixdict :=
  let t0 := jd_tdb in let r0 := get_observatory_position t0 in
  let tp := t0 + picket_interval in let rp := get_observatory_position tp in
  let tm := t0 - picket_interval in let rm := get_observatory_position tm in
  make tm t0 tp rm r0 rp (get_all_object_unit_vectors rm tm) (get_all_object_unit_vectors r0 t0) (get_all_object_unit_vectors rp tp).

(** Lines 290-351. *)
Definition update_pickets (jd_tdb : R) (s : pixdict) : pixdict :=
  if Rlt_dec (1/2 * picket_interval) (Rabs (jd_tdb - p_t0 s)) then
    if Rle_dec (Rabs (jd_tdb - p_t0 s)) (3/2 * picket_interval) then
      if Rle_dec jd_tdb (p_tm s) then
        let tp := p_t0 s in let t0 := p_tm s in let tm := t0 - picket_interval in
        let rm := get_observatory_position tm in
        make tm t0 tp rm (p_rm s) (p_r0 s) (get_all_object_unit_vectors rm tm) (p_dm s) (p_d0 s)
      else
        let tm := p_t0 s in let t0 := p_tp s in let tp := t0 + picket_interval in
        let rp := get_observatory_position tp in
        make tm t0 tp (p_r0 s) (p_rp s) rp (p_d0 s) (p_dp s) (get_all_object_unit_vectors rp tp)
    else
      let n := py_round ((jd_tdb - p_t0 s) / picket_interval) in
      let t0 := p_t0 s + IZR n * picket_interval in let r0 := get_observatory_position t0 in
      let tp := t0 + picket_interval in let rp := get_observatory_position tp in
      let tm := t0 - picket_interval in let rm := get_observatory_position tm in
      make tm t0 tp rm r0 rp (get_all_object_unit_vectors rm tm) (get_all_object_unit_vectors r0 t0) (get_all_object_unit_vectors rp tp)
  else s.

(** The iteration order of a Python set of strings; it changes from one run of
    the interpreter to the next. *)
Variable set_order : list string -> list string.
(** simulation_geometry.py:93-121: pixels of the disc. *)
Variable get_hp_neighbors : R -> R -> R -> list Z.

(** Lines 353-382: the designations, in the order of the set. *)
Definition get_designations (jd_tdb ra dec ang_fov : R) (s : pixdict) : pixdict * list string :=
  let s := update_pickets jd_tdb s in
  (s, set_order (nodup string_dec (flat_map (p_pixels s) (get_hp_neighbors ra dec ang_fov)))).
(** Lines 226-260. *)
Fixpoint interpolate_all (w : R * R * R) (s : pixdict) (desigs : list string) : result dict :=
  match desigs with
  | [] => Ok []
  | k :: ds =>
      rbind (dict_get (p_dm s) k) (fun vm => rbind (dict_get (p_d0 s) k) (fun v0 => rbind (dict_get (p_dp s) k) (fun vp =>
      rmap (cons (k, combine3 w vm v0 vp)) (interpolate_all w s ds))))
  end.
(** Lines 226-260. *)
Definition interpolate_unit_vectors (desigs : list string) (jd_tdb : R) (s : pixdict) : pixdict * result dict :=
  let s := update_pickets jd_tdb s in
  (s, interpolate_all (lagrange3 (p_tm s) (p_t0 s) (p_tp s) jd_tdb) s desigs).

(** ** simulation_driver.py *)

(** The columns of a pointing used here. *)
Record visit := { v_field : string; v_jd : R; v_ra : R; v_dec : R; v_dir : vec; v_obs : vec }.
(** A row: object, visit and the vector from observatory to object; the other
    columns are [calculate_rates_and_geometry] of these. *)
Record ephem_row := { e_obj : string; e_visit : visit; e_rho : vec }.

(** simulation_driver.py:206 and 217. *)
Definition degrees_between (a b : vec) : R := acos (dot a b) * 180 / PI.
(** simulation_driver.py:208-215: the vector from observatory to object. *)
Definition precise (k : string) (v : visit) : vec :=
  let '(rho, _, _, _) := integrate_light_time (trajectory k) (v_jd v - jd_ref) (v_obs v) (1/100) 3 in rho.

(** Lines 197-220 for one object. *)
Definition one_object (ang_fov_buffer : R) (v : visit) (k : string) (uv : vec) : list ephem_row :=
  let uv := scale (/ norm uv) uv in
  if Rlt_dec (degrees_between uv (v_dir v)) ang_fov_buffer then
    let rho := precise k v in
    if Rlt_dec (degrees_between (scale (/ norm rho) rho) (v_dir v)) ang_fov_buffer
    then [{| e_obj := k; e_visit := v; e_rho := rho |}] else []
  else [].
(** Lines 184-220. *)
Fixpoint visits_loop (ang_fov buffer : R) (s : pixdict) (vs : list visit) : result (list ephem_row) :=
  match vs with
  | [] => Ok []
  | v :: vs' =>
      let (s, desigs) := get_designations (v_jd v) (v_ra v) (v_dec v) ang_fov s in
      let (s, uvs) := interpolate_unit_vectors desigs (v_jd v) s in
      rbind uvs (fun uvs =>
      rmap (app (flat_map (fun p => one_object (ang_fov + buffer) v (fst p) (snd p)) uvs)) (visits_loop ang_fov buffer s vs'))
  end.
(** Lines 174-220: an empty table of pointings has no first row. *)
Definition ephemeris_rows (ang_fov buffer : R) (vs : list visit) : result (list ephem_row) :=
  match vs with
  | [] => Err IndexError
  | v :: _ => visits_loop ang_fov buffer (init (v_jd v)) vs
  end.
End Pickets.
