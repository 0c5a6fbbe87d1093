(** Rounding of the written columns in binary64 arithmetic: [Series.round(decimals=n)]
    of src/sorcha/modules/PPOutput.py:208-241, which is numpy's round.  Model/Output.v
    has everything else; its parameter [round] is [np_round] here.  The sign of
    zero is left out. *)
From Coq Require Import String List Arith ZArith Reals Bool.
From Flocq Require Import Core.
From Verif Require Import Base.Prelude Model.LinkingFloat.
Open Scope R_scope.

(** A value of the table: text, or a float64, PPOutput.py:219. *)
Inductive cell := Text (s : string) | Real (x : R) | Inf (negative : bool) | Nan.

(** Rounds the exact result of an operation; too large is infinite, PPOutput.py:219. *)
Definition finish (x : R) : cell :=
  if Rlt_dec (Rabs (fl x)) (bpow radix2 1024) then Real (fl x) else Inf (rltb x 0).
(** numpy's power of ten for [decimals], PPOutput.py:220 (C's pow is taken to be
    rounded correctly). *)
Definition ten_to (n : nat) : cell := finish (10 ^ n).
(** numpy's multiply, PPOutput.py:219. *)
Definition multiply (a b : cell) : cell :=
  match a, b with
  | Real x, Real y => finish (x * y)
  | Real x, Inf s | Inf s, Real x => if Req_EM_T x 0 then Nan else Inf (xorb s (rltb x 0))
  | Inf s, Inf t => Inf (xorb s t)
  | _, _ => Nan
  end.
(** numpy's rint, PPOutput.py:219. *)
Definition rint (a : cell) : cell :=
  match a with Real x => Real (IZR (ZnearestE x)) | _ => a end.
(** numpy's divide, PPOutput.py:219; the divisor is a power of ten and not zero. *)
Definition divide (a b : cell) : cell :=
  match a, b with
  | Real x, Real y => finish (x / y)
  | Real x, Inf _ => Real 0
  | Inf s, Real y => Inf (xorb s (rltb y 0))
  | _, _ => Nan
  end.
(** [round(decimals=n)] for n > 0, PPOutput.py:219-221 and 237-239.  Text is left alone
    (pandas rounds columns of numbers only). *)
Definition np_round (n : nat) (v : cell) : cell :=
  match v with
  | Text s => Text s
  | _ => divide (rint (multiply v (ten_to n))) (ten_to n)
  end.
