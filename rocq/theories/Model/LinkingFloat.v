(** The SSP linking stage in binary64 arithmetic: src/sorcha/modules/PPMiniDifi.py
    and src/sorcha/modules/PPLinkingFilter.py with every rounding of times and
    limits and of the sums of random weights.  Model/Linking.v has the same
    functions in exact arithmetic; those that do not compute with floating-point
    numbers are taken from there.  Overflow is left out (all numbers here are far
    from it); separations are a parameter as in Model/Linking.v, and so are the
    random weights of PPMiniDifi.py 226. *)
From Coq Require Import String List Arith ZArith QArith Qreals Reals Bool.
From Flocq Require Import Core.
From Verif Require Import Base.Prelude Base.Num Model.Linking.
Import ListNotations.
Open Scope R_scope.

(** The result of one operation in binary64 (numpy's float64), PPMiniDifi.py:314. *)
Definition fl (x : R) : R := round radix2 (FLT_exp (-1074) 53) ZnearestE x.
(** [a < b] of two floats, PPMiniDifi.py:97. *)
Definition rltb (a b : R) : bool := if Rlt_dec a b then true else false.
(** The same where the second is a table value, PPMiniDifi.py:99. *)
Definition rltn (a : R) (b : num) : bool :=
  match b with NaN | MInf => false | PInf => true | Fin q => rltb a (Q2R q) end.

(** The parameters of the linking filter, PPLinkingFilter.py:5-15: times in days,
    separation in arcseconds, night start in hours. *)
Record settings := {
  s_time : Q; s_separation : Q; s_min_obs : Z; s_window : Z; s_nlink : Z; s_p : num; s_night_start : Q }.

(** [maximum_time * 24 * 60], PPLinkingFilter.py:88. *)
Definition maxdt_minutes (s : settings) : R := fl (fl (Q2R (s_time s) * 24) * 60).
(** [maxdt_minutes / (60 * 24)], PPMiniDifi.py:92. *)
Definition maxdt (s : settings) : R := fl (maxdt_minutes s / 1440).
(** [minlen_arcsec / 3600], PPMiniDifi.py:93. *)
Definition minlen (s : settings) : R := fl (Q2R (s_separation s) / 3600).
(** [night_start_utc / 24.0], PPLinkingFilter.py:94. *)
Definition night_start (s : settings) : R := fl (Q2R (s_night_start s) / 24).

(** ** Discovery nights *)

(** [arr2[arr2 != 0] = np.random.rand(count)], PPMiniDifi.py:226. *)
Fixpoint fill_f (wt : nat -> R) (k : nat) (l : list Z) : list R :=
  match l with
  | [] => []
  | x :: l' => if (x =? 0)%Z then 0 :: fill_f wt k l' else wt k :: fill_f wt (S k) l'
  end.
(** [arr2.cumsum()], PPMiniDifi.py:227. *)
Fixpoint cumsum_f (acc : R) (l : list R) : list R :=
  match l with [] => [] | x :: l' => fl (acc + x) :: cumsum_f (fl (acc + x)) l' end.
(** [arr2[window:] -= arr2[:-window].copy()], PPMiniDifi.py:228. *)
Definition trailing_f (w : nat) (l : list R) : list R :=
  map (fun i => if (i <? w)%nat then nth i l 0 else fl (nth i l 0 - nth (i - w) l 0)) (seq 0 (length l)).
(** The entries of [arr2[1:] -= arr2[:-1].copy()] after the first, PPMiniDifi.py:230. *)
Fixpoint steps_f (prev : R) (l : list R) : list R :=
  match l with [] => [] | x :: l' => fl (x - prev) :: steps_f x l' end.
(** [arr2[1:] -= arr2[:-1].copy()], PPMiniDifi.py:230. *)
Definition diffs_f (l : list R) : list R := match l with [] => [] | x :: l' => x :: steps_f x l' end.
(** [nonzero()], PPMiniDifi.py:231. *)
Definition nonzero (x : R) : bool := if Req_EM_T x 0 then false else true.

(** PPMiniDifi.py:195-236; the counts of line 206-210 are integers. *)
Definition disc_nights_f (nights : list Z) (flags : list bool) (window nlink : Z) (wt : nat -> R) : result (list Z) :=
  let nf := combine nights flags in
  if (1 <? nlink)%Z then
    match nights with
    | [] => Err ValueError
    | _ =>
      if (window <=? 0)%Z then Err ValueError else
      let n0 := list_min nights in
      let n1 := (list_max nights + window)%Z in
      let nlen := Z.to_nat (n1 - n0 + 1) in
      let w := Z.to_nat window in
      let arr := trailing w (cumsum 0 (scatter n0 nlen nf)) in
      let idx := filter (fun i => nlink <=? nth i arr 0)%Z (seq 0 nlen) in
      let arr2 := trailing_f w (cumsum_f 0 (fill_f wt 0 (scatter n0 nlen nf))) in
      let sums := map (fun i => nth i arr2 0) idx in
      Ok (map (fun x => Z.of_nat (fst x) + n0)%Z (filter (fun x => nonzero (snd x)) (combine idx (diffs_f sums))))
    end
  else Ok (map fst (filter snd nf)).
(** PPMiniDifi.py:160-243. *)
Definition discoveryOpportunities_f (nights : list Z) (flags : list bool) (window nlink : Z)
    (p : num) (wt : nat -> R) (draw : nat -> num) : result (option nat * list Z) :=
  (disc <- disc_nights_f nights flags window nlink wt ;;
   Ok (first_success p draw 0 (length disc), disc))%result.

(** ** Objects *)

Section Float.
Context {A : Type}.
Variable oid : A -> string.   (** column ObjID *)
Variable src : A -> Z.        (** column FieldID *)
Variable tm : A -> Q.         (** column fieldMJD_TAI *)
Variable ra : A -> num.       (** column RA_deg *)
Variable sep : A -> A -> num. (** [haversine_np] of the positions of two rows *)
(** numpy's [argsort], PPMiniDifi.py:310. *)
Variable tsort : list A -> list A.
(** The stream of the generator, PPMiniDifi.py:328-330. *)
Variable draws : list num -> nat -> num.
Variable s : settings.

(** PPMiniDifi.py:96-101. *)
Definition pair_ok_f (l : list A) (i j : nat) : bool :=
  match nth_error l i, nth_error l j with
  | Some oi, Some oj =>
      let diff := fl (Q2R (tm oi) - Q2R (tm oj)) in
      rltb 0 diff && rltb diff (maxdt s) && rltn (minlen s) (sep oi oj)
      && (s_min_obs s <=? Z.of_nat i + 1 - Z.of_nat j)%Z
  | _, _ => false
  end.
(** PPMiniDifi.py:48-103. *)
Definition hasTracklet_f (l : list A) : result bool :=
  let nobs := length l in
  if (Z.of_nat nobs <? s_min_obs s)%Z then Ok false
  else if negb (time_sorted tm l) then Err ValueError
  else if (s_min_obs s =? 1)%Z then Ok true
  else Ok (existsb (fun i => existsb (pair_ok_f l i) (seq 0 nobs)) (seq 0 nobs)).
(** PPMiniDifi.py:107-156. *)
Definition trackletsInNights_f (night : list Z) (l : list A) : result (list Z * list bool) :=
  let nights := unique night in
  let ends := map (searchsorted_right night) nights in
  (h <- night_loop hasTracklet_f l 0 ends ;; Ok (nights, h))%result.

(** PPMiniDifi.py:314. *)
Definition tshift (r : A) : R := fl (Q2R (tm r) - night_start s).
(** PPMiniDifi.py:315. *)
Definition night_of_f (r : A) : Z := Ztrunc (tshift r).
(** PPMiniDifi.py:316-319; the literals are the nearest floats. *)
Definition phase_ok_f (r : A) : bool :=
  let phased := fl (tshift r - IZR (night_of_f r)) in
  rltb (fl (1 / 10)) phased && rltb phased (fl (9 / 10)).

(** PPMiniDifi.py:246-352. *)
Definition linkObject_f (wt : nat -> R) (l0 : list A) : result (Z * option Z * nat) :=
  match l0 with
  | [] => Ok (no_source, None, O)
  | _ =>
    let l := tsort l0 in
    let night := map night_of_f l in
    if negb (forallb phase_ok_f l) then Err AssertionError else
    (nh <- trackletsInNights_f night l ;;
     id <- discoveryOpportunities_f (fst nh) (snd nh) (s_window s) (s_nlink s) (s_p s) wt (draws (map ra l)) ;;
     match fst id with
     | None => Ok (no_source, None, O)
     | Some ix =>
         match nth_error (snd id) ix with
         | None => Err IndexError
         | Some date =>
             let i := searchsorted_left night (date - s_window s + 1) in
             let j := searchsorted_left night (date + 1) in
             (k <- argmin (map tm (slice i j l)) ;;
              match nth_error l (i + k)%nat, nth_error night (i + k)%nat with
              | Some o, Some n =>
                  if (date <? n + s_window s)%Z
                  then Ok (src o, Some date, length (snd id))
                  else Err AssertionError
              | _, _ => Err IndexError
              end)%result
         end
     end)%result
  end.
(** The loop of PPMiniDifi.py:441-447. *)
Fixpoint link_loop_f (wts : nat -> nat -> R) (k : nat) (gs : list (string * list A))
  : result (list (string * (Z * option Z * nat))) :=
  match gs with
  | [] => Ok []
  | (i, g) :: gs' =>
      (v <- linkObject_f (wts k) g ;; r <- link_loop_f wts (S k) gs' ;; Ok ((i, v) :: r))%result
  end.
(** PPMiniDifi.py:355-449. *)
Definition linkObservations_f (wts : nat -> nat -> R) (l : list A) : result (list (string * (Z * option Z * nat))) :=
  link_loop_f wts 0 (runs oid (sort_ids oid l)).

(** [sort_values("fieldMJD_TAI")], PPLinkingFilter.py:113. *)
Variable osort : list (@lrow A) -> list (@lrow A).
(** PPLinkingFilter.py:5-115. *)
Definition PPLinkingFilter_f (wts : nat -> nat -> R) (drop_unlinked : bool) (l : list A) : result (list (@lrow A)) :=
  match l with
  | [] => Err TypeError
  | _ =>
    (obj <- linkObservations_f wts l ;;
     let found := map fst (filter (fun o => is_some (snd (fst (snd o)))) obj) in
     let flag r := existsb (String.eqb (oid r)) found in
     let kept := if drop_unlinked then filter flag l else l in
     Ok (osort (flat_map (fun r =>
           map (fun o => (r, flag r, snd (fst (snd o))))
             (filter (fun o => String.eqb (oid r) (fst o)) obj)) kept)))%result
  end.
End Float.
