(** Two-body orbits: ephemeris/orbit_conversion_utilities.py (line numbers
    refer to it).  Real numbers instead of binary64 (fastmath allows any
    reassociation anyway); NaN results are [None]; a division by zero raises
    in numba's default error model. *)
From Coq Require Import Reals ZArith List Bool.
From Verif Require Import Base.Prelude Model.Sphere.
Import ListNotations.
Open Scope R_scope.
Open Scope result_scope.

(** Float division inside numba functions, for example line 173. *)
Definition rdiv (a b : R) : result R := if Req_EM_T b 0 then Err ZeroDivisionError else Ok (a / b).

(** ** Stumpff functions, lines 13-57 *)

(** The result tuple of line 57. *)
Record four := F4 { c0 : R; c1 : R; c2 : R; c3 : R }.

(** Lines 33-38.  [fuel] bounds the loop; [reduce_done] in Proofs/Kepler.v
    shows that the bound used in [stumpff] is never reached. *)
Fixpoint reduce (fuel n : nat) (x : R) : nat * R :=
  match fuel with
  | O => (n, x)
  | S fuel' => if Rlt_dec (1/10) (Rabs x) then reduce fuel' (S n) (x / 4) else (n, x)
  end.

(** Lines 40-48. *)
Definition stumpff_small (x : R) : four :=
  let d2 := (1 - x * (1 - x * (1 - x * (1 - x * (1 - x * (1 - x / 182) / 132) / 90) / 56) / 30) / 12) / 2 in
  let d3 := (1 - x * (1 - x * (1 - x * (1 - x * (1 - x * (1 - x / 210) / 156) / 110) / 72) / 42) / 20) / 6 in
  F4 (1 - x * d2) (1 - x * d3) d2 d3.

(** Lines 52-55. *)
Definition double (d : four) : four :=
  F4 (2 * c0 d * c0 d - 1) (c0 d * c1 d) (c1 d * c1 d / 2) ((c2 d + c0 d * c3 d) / 4).

(** Lines 50-55. *)
Fixpoint doubles (n : nat) (d : four) : four :=
  match n with O => d | S n' => doubles n' (double d) end.

(** Lines 13-57. *)
Definition stumpff (x : R) : four :=
  let '(n, y) := reduce (Z.to_nat (up (10 * Rabs x))) 0 x in
  doubles n (stumpff_small y).

(** ** Universal Kepler equation, lines 61-100 *)

(** The first three results of line 100; the fourth is never used. *)
Record value := FV { v_f : R; v_fp : R; v_fpp : R }.

(** Lines 94-98. *)
Definition root_function (s mu alpha r0 r0dot t : R) : value :=
  let c := stumpff (alpha * s * s) in
  let zeta := mu - alpha * r0 in
  FV (r0 * s * c1 c + r0 * r0dot * s * s * c2 c + mu * s * s * s * c3 c - t)
     (r0 * c0 c + r0 * r0dot * s * c1 c + mu * s * s * c2 c)
     (zeta * s * c1 c + r0 * r0dot * c0 c).

(** ** Root finder, lines 104-194 *)

Section Halley.
(** The function whose root is sought: [root_function] with all arguments but
    the first (lines 141, 142, 166, 185). *)
Variable F : R -> value.
(** The argument of line 104. *)
Variable xacc : R.

(** The local variables of the loop, lines 163-192. *)
Record hstate := { h_rts : R; h_v : value; h_xl : R; h_xh : R; h_dx : R; h_dxold : R }.

(** (converged, root, derivative), lines 144-148, 174, 182, 184 and 194; a NaN
    root is [None]. *)
Definition hresult : Type := bool * option R * R.

(** The condition of line 168. *)
Definition must_bisect (st : hstate) : bool :=
  let f := v_f (h_v st) in let fp := v_fp (h_v st) in
  (if Rlt_dec 0 (((h_rts st - h_xh st) * fp - f) * ((h_rts st - h_xl st) * fp - f)) then true else false)
  || (if Rlt_dec (Rabs (h_dxold st * fp)) (Rabs (2 * f)) then true else false).

(** Lines 168-180: the next step and guess. *)
Definition next_guess (st : hstate) : result (R * R) :=
  let f := v_f (h_v st) in let fp := v_fp (h_v st) in let fpp := v_fpp (h_v st) in
  if must_bisect st then
    let dx := 1/2 * (h_xh st - h_xl st) in Ok (dx, h_xl st + dx)
  else
    _ <- rdiv f fp ;;
    dx <- rdiv (2 * f * fp) (2 * fp * fp - f * fpp) ;;
    Ok (dx, h_rts st - dx).

(** Lines 173, 181 and 183 (the tests repeat each other). *)
Definition small_step (dx rts : R) : result bool :=
  k <- rdiv dx rts ;; Ok (if Rlt_dec (Rabs k) xacc then true else false).

(** Lines 167-194, with the list of points at which the function is evaluated
    (line 185). *)
Fixpoint hloop (maxit : nat) (st : hstate) : list R * result hresult :=
  match maxit with
  | O => ([], Ok (false, None, v_fp (h_v st)))
  | S m =>
    match next_guess st with
    | Err e => ([], Err e)
    | Ok (dx, rts) =>
      match small_step dx rts with
      | Err e => ([], Err e)
      | Ok true => ([], Ok (true, Some rts, v_fp (h_v st)))
      | Ok false =>
        let v := F rts in
        let low := if Rlt_dec (v_f v) 0 then true else false in
        let '(tr, res) := hloop m {| h_rts := rts; h_v := v;
             h_xl := if low then rts else h_xl st; h_xh := if low then h_xh st else rts;
             h_dx := dx; h_dxold := h_dx st |} in
        (rts :: tr, res)
      end
    end
  end.

(** Lines 104-194: points of evaluation and result.  Lines 158-161 have no
    effect, lines 163 and 166 overwrite what they set. *)
Definition halley_safe (x1 x2 : R) (maxit : nat) : list R * result hresult :=
  let l := F x1 in let h := F x2 in
  if (if Rlt_dec 0 (v_f l) then if Rlt_dec 0 (v_f h) then true else false else false)
     || (if Rlt_dec (v_f l) 0 then if Rlt_dec (v_f h) 0 then true else false else false)
  then ([x1; x2], Ok (false, None, v_f l))
  else if Req_EM_T (v_f l) 0 then ([x1; x2], Ok (true, Some x1, v_fp l))
  else if Req_EM_T (v_f h) 0 then ([x1; x2], Ok (true, Some x2, v_fp h))
  else
    let low := if Rlt_dec (v_f l) 0 then true else false in
    let rts := 1/2 * (x1 + x2) in
    let '(tr, res) := hloop maxit {| h_rts := rts; h_v := F rts;
         h_xl := if low then x1 else x2; h_xh := if low then x2 else x1;
         h_dx := Rabs (x2 - x1); h_dxold := Rabs (x2 - x1) |} in
    (x1 :: x2 :: rts :: tr, res).

(** Lines 268-272.  [OutOfFuel] when the loop did not end. *)
Fixpoint bracket (fuel : nat) (ds s_prev f_prev s f : R) : result (R * R) :=
  match fuel with
  | O => Err OutOfFuel
  | S k => if Rlt_dec 0 (f * f_prev)
           then bracket k ds s f (s + ds) (v_f (F (s + ds)))
           else Ok (s_prev, s)
  end.

(** Lines 276-283 with [left] passes still allowed; [None] is line 283. *)
Fixpoint retry (left : nat) (s : R) (r : hresult) : result (option R) :=
  match r with
  | (true, root, _) => Ok root
  | (false, _, _) =>
    k <- rdiv (v_f (F s)) (v_fp (F s)) ;;
    let s' := s - k in
    r' <- snd (halley_safe s s' 100) ;;
    match left with O => Ok None | S m => retry m s' r' end
  end.

(** Lines 262-283: the root [ss] used afterwards. *)
Definition solve (fuel : nat) (t : R) : result (option R) :=
  let ds := (t - 0) / 4 in
  b <- bracket fuel ds 0 (v_f (F 0)) (0 + ds) (v_f (F (0 + ds))) ;;
  r <- snd (halley_safe (fst b) (snd b) 100) ;;
  retry 10 (snd b) r.
End Halley.

(** ** From elements to a state, lines 198-334 *)

(** A matrix times a column, lines 315-332. *)
Definition mat_vec (m : mat) (v : vec) : vec := V3 (dot (row1 m) v) (dot (row2 m) v) (dot (row3 m) v).
(** Lines 313 and 329. *)
Definition about_z (w : R) : mat :=
  M3 (V3 (cos w) (- sin w) 0) (V3 (sin w) (cos w) 0) (V3 0 0 1).
(** Line 321. *)
Definition about_x (i : R) : mat :=
  M3 (V3 1 0 0) (V3 0 (cos i) (- sin i)) (V3 0 (sin i) (cos i)).

(** Lines 309-332. *)
Definition orient (incl longnode argperi : R) (v : vec) : vec :=
  mat_vec (about_z longnode) (mat_vec (about_x incl) (mat_vec (about_z argperi) v)).

(** Lines 246-251: time since perihelion. *)
Definition since_perihelion (mu q e tp epoch : R) : result R :=
  let t := epoch - tp in
  if Rlt_dec e 1 then
    a <- rdiv q (1 - e) ;;
    n2 <- rdiv mu (a * a * a) ;;
    per <- rdiv (2 * PI) (sqrt n2) ;;
    if Req_EM_T per 0 then Err ZeroDivisionError else Ok (rmod t per)
  else Ok t.

(** Lines 285-305: position and velocity in the orbit plane. *)
Definition in_plane (mu q v2 alpha t ss : R) : result (vec * vec) :=
  let c := stumpff (alpha * ss * ss) in
  let r := q * c0 c + q * 0 * ss * c1 c + mu * ss * ss * c2 c in
  let g1 := c1 c * ss in
  let g2 := c2 c * ss * ss in
  let g3 := c3 c * ss * ss * ss in
  k0 <- rdiv mu q ;; k1 <- rdiv mu (r * q) ;; k2 <- rdiv mu r ;;
  let f := 1 - k0 * g2 in
  let g := t - mu * g3 in
  let fdot := - k1 * g1 in
  let gdot := 1 - k2 * g2 in
  let x0 := V3 q 0 0 in
  let v0 := V3 0 (sqrt v2) 0 in
  Ok (vadd (scale f x0) (scale g v0), vadd (scale fdot x0) (scale gdot v0)).

(** Lines 198-334; [Ok None] is the NaN result of line 283. *)
Definition universal_cartesian (fuel : nat) (mu q e incl longnode argperi tp epoch : R)
  : result (option (vec * vec)) :=
  t <- since_perihelion mu q e tp epoch ;;
  v2 <- rdiv (mu * (1 + e)) q ;;
  k <- rdiv (2 * mu) q ;;
  let alpha := k - v2 in
  ss <- solve (fun s => root_function s mu alpha q 0 t) (1 / 100000000000000) fuel t ;;
  match ss with
  | None => Ok None
  | Some ss =>
    xv <- in_plane mu q v2 alpha t ss ;;
    Ok (Some (orient incl longnode argperi (fst xv), orient incl longnode argperi (snd xv)))
  end.

(** ** From a state to elements, lines 338-485 *)

(** [np.floor]. Line 355. *)
Definition rfloor (x : R) : R := IZR (Int_part x).
(** [np.ceil]. Line 353. *)
Definition rceil (x : R) : R := - rfloor (- x).

(** Lines 338-356. *)
Definition principal_value (theta : R) : R :=
  if Rlt_dec theta 0 then theta - 2 * PI * rceil (theta / (2 * PI))
  else theta - 2 * PI * rfloor (theta / (2 * PI)).

(** [np.cross], line 411. *)
Definition np_cross (a b : vec) : vec :=
  V3 (vy a * vz b - vz a * vy b) (vz a * vx b - vx a * vz b) (vx a * vy b - vy a * vx b).

(** [np.arctanh], line 479. *)
Definition arctanh (x : R) : R := 1/2 * ln ((1 + x) / (1 - x)).

(** Lines 427-430, 438-441 and 450-453: zero when either argument is. *)
Definition guarded_arctan2 (y x : R) : R :=
  if Req_EM_T y 0 then 0 else if Req_EM_T x 0 then 0 else arctan2 y x.

(** The result of line 485. *)
Record cometary := { k_q : R; k_e : R; k_incl : R; k_node : R; k_peri : R; k_tp : R }.

(** Lines 459-483: the time of perihelion. *)
Definition perihelion_time (mu p alpha e trueanom epoch : R) : R * R :=
  let e := if Rlt_dec (Rabs (e - 1)) (1 / 1000000000000000) then 1 else e in
  (e,
   if Rlt_dec e 1 then
     let eccanom := 2 * atan (sqrt ((1 - e) / (1 + e)) * tan (trueanom / 2)) in
     let meananom := principal_value (eccanom - e * sin eccanom) in
     let a := mu / alpha in
     epoch - meananom / sqrt (mu / (a * a * a))
   else if Req_EM_T e 1 then
     let tf := tan (1/2 * trueanom) in
     let B := 1/2 * (tf * tf * tf + 3 * tf) in
     epoch - B / (3 * sqrt (mu / (p * p * p)))
   else
     let heccanom := 2 * arctanh (sqrt ((e - 1) / (e + 1)) * tan (trueanom / 2)) in
     let N := e * sinh heccanom - heccanom in
     let a := mu / alpha in
     epoch - N / sqrt (- mu / (a * a * a))).

(** Lines 360-485.  Unlike above, divisions are total here: the statements
    assume mu, r and h positive, and cos(incl) not zero where [k_peri] or
    [k_tp] matter. *)
Definition universal_cometary (mu : R) (pos vel : vec) (epoch : R) : cometary :=
  let h_vec := np_cross pos vel in
  let hs := dot h_vec h_vec in
  let h := sqrt hs in
  let r := norm pos in
  let v2 := dot vel vel in
  let rdot := dot pos vel / r in
  let p := hs / mu in
  let alpha := 2 * mu / r - v2 in
  let incl := acos (vz h_vec / h) in
  let longnode := guarded_arctan2 (vx h_vec) (- vy h_vec) in
  let ecos := p / r - 1 in
  let esin := rdot * h / mu in
  let e := sqrt (ecos * ecos + esin * esin) in
  let q := p / (1 + e) in
  let trueanom := guarded_arctan2 esin ecos in
  let rcosu := vx pos * cos longnode + vy pos * sin longnode in
  let rsinu := (vy pos * cos longnode - vx pos * sin longnode) / cos incl in
  let u := guarded_arctan2 rsinu rcosu in
  let '(e', tp) := perihelion_time mu p alpha e trueanom epoch in
  {| k_q := q; k_e := e'; k_incl := incl; k_node := longnode; k_peri := u - trueanom; k_tp := tp |}.
