(** Trailing losses, signal-to-noise ratios and uncertainties in binary64 arithmetic:
    modules/PPTrailingLoss.py:83-97 and modules/PPAddUncertainties.py:101-137, 205-220
    and 297 with every rounding, overflow and division by zero.  Model/Photometry.v has
    the same formulas over the reals.  The values are those of Model/Rounding.v; plus
    and minus those of Model/FadingFloat.v.  numpy's power of ten and log10 are
    parameters.  The sign of zero is left out: a zero divisor counts as positive. *)
From Coq Require Import Reals ZArith Bool.
From Flocq Require Import Core.
From Verif Require Import Base.Prelude Model.LinkingFloat Model.Rounding Model.FadingFloat.
Open Scope R_scope.

(** numpy's divide with any divisor, PPAddUncertainties.py:207. *)
Definition quotient (a b : cell) : cell :=
  match a, b with
  | Real x, Real y => if Req_EM_T y 0 then (if Req_EM_T x 0 then Nan else Inf (rltb x 0)) else finish (x / y)
  | Real _, Inf _ => Real 0
  | Inf s, Real y => Inf (xorb s (rltb y 0))
  | _, _ => Nan
  end.
(** numpy's sqrt, PPAddUncertainties.py:207. *)
Definition root (a : cell) : cell :=
  match a with
  | Real x => if rltb x 0 then Nan else finish (sqrt x)
  | Inf false => Inf false
  | _ => Nan
  end.
(** A decimal literal of the source, PPAddUncertainties.py:205-206. *)
Definition literal (x : R) : cell := Real (fl x).

Section Uncertainty.
(** [np.power(10, .)], PPAddUncertainties.py:206. *)
Variable ten_power : cell -> cell.
(** [np.log10], PPTrailingLoss.py:89 and PPAddUncertainties.py:297. *)
Variable np_log10 : cell -> cell.
(** The factor astropy multiplies with, PPAddUncertainties.py:124. *)
Variable mas_to_deg : R.

(** PPTrailingLoss.py:83-86. *)
Definition trail_f (dra ddec seeing texp : cell) : cell :=
  let vel := quotient (root (plus (multiply dra dra) (multiply ddec ddec))) (Real 24) in
  quotient (multiply vel texp) seeing.
(** PPTrailingLoss.py:89 and 92. *)
Definition loss_f (a b : R) (x : cell) : cell :=
  multiply (literal (125 / 100))
    (np_log10 (plus (Real 1) (quotient (multiply (literal a) (multiply x x)) (plus (Real 1) (multiply (literal b) x))))).
(** PPTrailingLoss.py:83-97 with the default coefficients of lines 31-34; [trailed] for
    model="trailedSource", otherwise "circularPSF". *)
Definition calcTrailingLoss_f (trailed : bool) (dra ddec seeing texp : cell) : cell :=
  let x := trail_f dra ddec seeing texp in
  if trailed then loss_f (761 / 1000) (1162 / 1000) x else loss_f (420 / 1000) (3 / 1000) x.
(** PPAddUncertainties.py:205-207. *)
Definition snr_f (mag m5 : cell) : cell :=
  let rgamma := literal (39 / 1000) in
  let xval := ten_power (multiply (literal (4 / 10)) (minus mag m5)) in
  quotient (Real 1) (root (plus (multiply (minus (literal (4 / 100)) rgamma) xval) (multiply (multiply rgamma xval) xval))).
(** PPAddUncertainties.py:276 (calcRandomAstrometricErrorPerCoord). *)
Definition random_error_f (FWHMeff SNR : cell) : cell := quotient (multiply (literal (6 / 10)) FWHMeff) SNR.
(** PPAddUncertainties.py:205-220 with nvisit=1, error_sys=10.0 and output_units="mas":
    the error and the signal-to-noise ratio. *)
Definition calcAstrometricUncertainty_f (mag m5 FWHMeff : cell) : cell * cell :=
  let SNR := snr_f mag m5 in
  let error_rand := random_error_f FWHMeff SNR in
  (root (plus (multiply (Real 10) (Real 10)) (multiply error_rand error_rand)), SNR).
(** PPAddUncertainties.py:297. *)
Definition calcPhotometricUncertainty_f (snr : cell) : cell :=
  multiply (literal (25 / 10)) (np_log10 (plus (Real 1) (quotient (Real 1) snr))).

(** The columns addUncertainties adds to a row, PPAddUncertainties.py:117-135. *)
Record added := mk_added {
  astrometricSigma_deg : cell; SNRTrailedSourceMag : cell; trailedSourceMagSigma : cell;
  SNRPSFMag : cell; PSFMagSigma : cell
}.
(** PPAddUncertainties.py:101-137 for one row. *)
Definition addUncertainties_f (trailing_losses_on : bool) (dra ddec seeingGeom texp trailedMagTrue psfMagTrue depth : cell) : added :=
  let dMag := if trailing_losses_on then calcTrailingLoss_f true dra ddec seeingGeom texp else Real 0 in
  let fwhm := multiply seeingGeom (Real 1000) in
  let trailed := calcAstrometricUncertainty_f (plus trailedMagTrue dMag) depth fwhm in
  let psf := calcAstrometricUncertainty_f psfMagTrue depth fwhm in
  mk_added (multiply (fst trailed) (Real mas_to_deg)) (snd trailed) (calcPhotometricUncertainty_f (snd trailed))
           (snd psf) (calcPhotometricUncertainty_f (snd psf)).
End Uncertainty.
