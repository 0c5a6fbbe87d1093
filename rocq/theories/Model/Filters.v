(** Row filters that only compare columns with limits or random draws.
    Rows are polymorphic; the columns a filter reads are passed as accessors.
    Paths are relative to /repo/src/sorcha. *)
From Coq Require Import String List Arith ZArith QArith Bool.
From Verif Require Import Base.Prelude Base.Num Base.Frame.
Import ListNotations.
Open Scope nat_scope.

(** modules/PPMagnitudeLimit.py:25-28. [df[df[col] < limit]] then reset_index. *)
Definition PPMagnitudeLimit {A} (col : A -> num) (limit : num) (f : frame A) : frame A :=
  reset_index (mask (fun r => nltb (col r) limit) f).

(** modules/PPSNRLimit.py:28-31. [df[df[snr] > limit]] then reset_index. *)
Definition PPSNRLimit {A} (col : A -> num) (limit : num) (f : frame A) : frame A :=
  reset_index (mask (fun r => nltb limit (col r)) f).

(** The argument [bright_limit] of PPBrightLimit is dispatched on its Python
    type, modules/PPBrightLimit.py:31,34,48. *)
Inductive bright_arg : Type :=
| BFloat (limit : num)
| BList (limits : list num)
| BOther.

(** modules/PPBrightLimit.py:38-45: labels of the rows brighter than the limit
    of their filter, looping over the observing filters with their position.
    [bright_limit[i]] raises IndexError when the list is too short. *)
Fixpoint bright_index {A} (filt : A -> string) (mag : A -> num)
  (i : nat) (filters : list string) (limits : list num) (f : frame A) : result (list nat) :=
  match filters with
  | [] => Ok []
  | fl :: rest =>
      match nth_error limits i with
      | None => Err IndexError
      | Some lim =>
          let ind := labels (mask (fun r => String.eqb (filt r) fl && nltb (mag r) lim) f) in
          match bright_index filt mag (S i) rest limits f with
          | Ok more => Ok (ind ++ more)
          | Err e => Err e
          end
      end
  end.

(** modules/PPBrightLimit.py:31-54. *)
Definition PPBrightLimit {A} (filt : A -> string) (mag : A -> num)
  (filters : list string) (arg : bright_arg) (f : frame A) : result (frame A) :=
  match arg with
  | BFloat lim =>
      rmap reset_index (drop_labels (labels (mask (fun r => nltb (mag r) lim) f)) f)
  | BList lims =>
      rbind (bright_index filt mag 0 filters lims f) (fun ix =>
      rmap reset_index (drop_labels ix f))
  | BOther => Err SysExit
  end.

(** Positional masking with an array computed from row position [k+i]. *)
Fixpoint mask_pos {A} (p : nat -> A -> bool) (k : nat) (f : list (nat * A)) : list (nat * A) :=
  match f with
  | [] => []
  | r :: f' => if p k (snd r) then r :: mask_pos p (S k) f' else mask_pos p (S k) f'
  end.

(** modules/PPDropObservations.py:27-34. The stream [draw] is what the module's
    generator returns for this call ([rng.random(n)], one draw per row).
    Rows with probability >= draw are kept; the index is not reset. *)
Definition PPDropObservations {A} (prob : A -> num) (draw : nat -> num) (f : frame A) : frame A :=
  mask_pos (fun i r => nleb (draw i) (prob r)) 0 f.

(** modules/PPFadingFunctionFilter.py:39-50 (and DESFadingFunctionFilter.py:44-51):
    the probability column is computed, rows dropped, index reset.  The
    probability is an arbitrary column function here; its formula is in
    Model/Photometry. *)
Definition PPFadingFunctionFilter {A} (prob : A -> num) (draw : nat -> num) (f : frame A) : frame A :=
  reset_index (PPDropObservations prob draw f).

(** modules/PPDetectionEfficiency.py:36-46. Index reset first, threshold
    outside [0,1] exits, then rows with draw <= threshold are kept. *)
Definition PPDetectionEfficiency {A} (threshold : num) (draw : nat -> num) (f : frame A)
  : result (frame A) :=
  if nltb (Fin 1) threshold || nltb threshold (Fin 0) then Err SysExit
  else Ok (mask_pos (fun i _ => nleb (draw i) threshold) 0 (reset_index f)).

(** modules/PPDistanceandMotionCuts.py:25-29: squared heliocentric distance in km^2. *)
Definition distance_sq {A} (x y z : A -> num) (r : A) : num :=
  nadd (nadd (nsqr (x r)) (nsqr (y r))) (nsqr (z r)).

(** modules/PPDistanceandMotionCuts.py:30-31: [(bound * u.au).to(u.km)]; astropy's
    au is exactly 149597870700 m. *)
Definition au_km : Q := (149597870700 # 1000)%Q.
(** modules/PPDistanceandMotionCuts.py:30-31: a bound in km, squared. *)
Definition bound_km_sq (b : num) : num :=
  match b with Fin q => nsqr (Fin (q * au_km)%Q) | o => nsqr o end.

(** modules/PPDistanceandMotionCuts.py:33-40. [unique] only removes repeated
    identifiers before [isin], so membership in the list is what matters. The
    index is not reset. *)
Definition distance_cut {A} (objid : A -> string) (x y z : A -> num) (upper lower : num)
  (f : frame A) : frame A :=
  let within r := nltb (distance_sq x y z r) (bound_km_sq upper)
                  && nltb (bound_km_sq lower) (distance_sq x y z r) in
  let good := map objid (rows (mask within f)) in
  mask (fun r => existsb (String.eqb (objid r)) good) f.

(** modules/PPDistanceandMotionCuts.py:63-69: drop by label. *)
Definition motion_cut {A} (rarate decrate : A -> num) (upper lower : num) (f : frame A)
  : result (frame A) :=
  let msq r := nadd (nsqr (rarate r)) (nsqr (decrate r)) in
  let bad r := negb (nltb (msq r) (nsqr upper) && nltb (nsqr lower) (msq r)) in
  drop_labels (labels (mask bad f)) f.

(** modules/PPApplyFOVFilter.py:118-152, PPCircleFootprint: the separation
    column comes from astropy's SkyCoord.separation (oracle). *)
Definition PPCircleFootprint {A} (sep : A -> num) (radius : num) (f : frame A) : frame A :=
  reset_index (mask (fun r => nltb (sep r) radius) f).

(** modules/PPApplyFOVFilter.py:178-190, PPSimpleSensorArea: positions with
    draw > fillfactor are used as labels in [drop]. *)
Definition sensor_drop (fill : num) (draw : nat -> num) (n : nat) : list nat :=
  filter (fun i => nltb fill (draw i)) (seq 0 n).
(** modules/PPApplyFOVFilter.py:178-190. *)
Definition PPSimpleSensorArea {A} (fill : num) (draw : nat -> num) (f : frame A)
  : result (frame A) :=
  rmap reset_index (drop_labels (sensor_drop fill draw (length f)) f).

(** Truthiness of an optional float configuration value, as used in
    modules/PPApplyFOVFilter.py:74,77 ([if sconfigs.fov.circle_radius:]):
    None and 0.0 are false, everything else (NaN included) is true. *)
Definition truthy (v : option num) : bool :=
  match v with
  | None => false
  | Some (Fin q) => negb (Qeq_bool q 0)
  | Some _ => true
  end.

(** modules/PPApplyFOVFilter.py:72-81: the circular camera model. *)
Definition circle_model {A} (sep : A -> num) (radius fill : option num) (draw : nat -> num)
  (f : frame A) : result (frame A) :=
  let f1 := match radius with
            | Some r => if truthy radius then PPCircleFootprint sep r f else f
            | None => f end in
  match fill with
  | Some ff => if truthy fill then PPSimpleSensorArea ff draw f1 else Ok f1
  | None => Ok f1
  end.
