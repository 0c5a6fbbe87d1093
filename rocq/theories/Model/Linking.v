(** The SSP linking stage: src/sorcha/modules/PPMiniDifi.py and
    src/sorcha/modules/PPLinkingFilter.py.

    Times are exact rationals (finite binary64 values); the roundings of
    [mjd - night_start_utc_days], [maximum_time * 24 * 60 / (60 * 24)] and of
    the sums are in Model/LinkingFloat.v.  [haversine_np] (PPMiniDifi.py 6-44) is
    the parameter [sep] here; it is studied over the reals in Model/Sphere.v. *)
From Coq Require Import String List Arith ZArith QArith Bool.
From Verif Require Import Base.Prelude Base.Num.
Import ListNotations.
Open Scope Z_scope.

Section Night.
Context {A : Type}.
Variable tm : A -> Q.
Variable sep : A -> A -> num.

(** [np.all(mjd[:-1] <= mjd[1:])], PPMiniDifi.py 87. *)
Fixpoint time_sorted (l : list A) : bool :=
  match l with
  | a :: (b :: _) as l' => Qle_bool (tm a) (tm b) && time_sorted l'
  | _ => true
  end.

(** The body of the double loop, PPMiniDifi.py 96-101, for row indices [i]
    and [j]. *)
Definition pair_ok (maxdt minlen : Q) (min_obs : Z) (l : list A) (i j : nat) : bool :=
  match nth_error l i, nth_error l j with
  | Some oi, Some oj =>
      let diff := (tm oi - tm oj)%Q in
      qltb 0 diff && qltb diff maxdt && nltb (Fin minlen) (sep oi oj)
      && (min_obs <=? Z.of_nat i + 1 - Z.of_nat j)
  | _, _ => false
  end.

(** [hasTracklet], PPMiniDifi.py 48-103.  The nested loops that return True at
    the first success are [existsb]. *)
Definition hasTracklet (maxdt_minutes minlen_arcsec : Q) (min_obs : Z) (l : list A) : result bool :=
  let nobs := length l in
  if Z.of_nat nobs <? min_obs then Ok false
  else if negb (time_sorted l) then Err ValueError
  else if min_obs =? 1 then Ok true
  else
    let maxdt := (maxdt_minutes / (60 * 24))%Q in
    let minlen := (minlen_arcsec / 3600)%Q in
    Ok (existsb (fun i => existsb (pair_ok maxdt minlen min_obs l i) (seq 0 nobs)) (seq 0 nobs)).

(** [np.unique] on integers: sorted, each value once (PPMiniDifi.py 145). *)
Fixpoint insert_unique (x : Z) (l : list Z) : list Z :=
  match l with
  | [] => [x]
  | y :: l' => if x <? y then x :: l else if x =? y then l else y :: insert_unique x l'
  end.
(** [np.unique], PPMiniDifi.py:145, on a whole list. *)
Definition unique (l : list Z) : list Z := fold_right insert_unique [] l.

(** [np.searchsorted(night, x, side="right")] on a sorted array is the number
    of entries [<= x] (PPMiniDifi.py 148); side "left" (line 344) is the number
    of entries [< x]. *)
Definition searchsorted_right (l : list Z) (x : Z) : nat := length (filter (fun y => y <=? x) l).
(** [np.searchsorted], PPMiniDifi.py:344. *)
Definition searchsorted_left (l : list Z) (x : Z) : nat := length (filter (fun y => y <? x) l).

(** Python slice [l[b:e]] for [0 <= b]. *)
Definition slice {B} (b e : nat) (l : list B) : list B := skipn b (firstn e l).

(** The loop of [trackletsInNights], PPMiniDifi.py 151-154. *)
Fixpoint night_loop (test : list A -> result bool) (l : list A) (b : nat) (ends : list nat)
  : result (list bool) :=
  match ends with
  | [] => Ok []
  | e :: ends' =>
      (h <- test (slice b e l) ;; r <- night_loop test l e ends' ;; Ok (h :: r))%result
  end.

(** [trackletsInNights], PPMiniDifi.py 107-156. *)
Definition trackletsInNights (night : list Z) (l : list A)
    (maxdt_minutes minlen_arcsec : Q) (min_obs : Z) : result (list Z * list bool) :=
  let nights := unique night in
  let ends := map (searchsorted_right night) nights in
  (h <- night_loop (hasTracklet maxdt_minutes minlen_arcsec min_obs) l 0 ends ;;
   Ok (nights, h))%result.
End Night.

(** ** discoveryOpportunities, PPMiniDifi.py 160-243 *)

(** [arr[idx] = v] for one integer index. *)
Fixpoint upd (l : list Z) (i : nat) (v : Z) : list Z :=
  match l, i with
  | [], _ => []
  | _ :: l', O => v :: l'
  | x :: l', S i' => x :: upd l' i' v
  end.

(** [arr = np.zeros(nlen); arr[nights - n0] = flags], lines 206-207 and 224-225. *)
Definition scatter (n0 : Z) (nlen : nat) (nf : list (Z * bool)) : list Z :=
  fold_left (fun a (x : Z * bool) => upd a (Z.to_nat (fst x - n0)) (if snd x then 1 else 0)) nf (repeat 0 nlen).

(** [arr.cumsum()]. *)
Fixpoint cumsum (acc : Z) (l : list Z) : list Z :=
  match l with [] => [] | x :: l' => (acc + x) :: cumsum (acc + x) l' end.

(** [arr[window:] -= arr[:-window].copy()], lines 209 and 228, for
    [window >= 1]. *)
Definition trailing (w : nat) (l : list Z) : list Z :=
  map (fun i => nth i l 0 - (if (i <? w)%nat then 0 else nth (i - w) l 0)) (seq 0 (length l)).

(** [arr2[arr2 != 0] = np.random.rand(count)], line 226: the non-zero entries
    receive successive draws.  [numba]'s generator yields multiples of 2^-53;
    weights are integers in that unit and their sums are exact (the roundings
    of the floating point sums are not modelled). *)
Fixpoint fill (wt : nat -> Z) (k : nat) (l : list Z) : list Z :=
  match l with
  | [] => []
  | x :: l' => if x =? 0 then 0 :: fill wt k l' else wt k :: fill wt (S k) l'
  end.

(** [arr[1:] -= arr[:-1].copy()], line 230. *)
Fixpoint diffs (prev : Z) (l : list Z) : list Z :=
  match l with [] => [] | x :: l' => (x - prev) :: diffs x l' end.

(** [nights.min()], PPMiniDifi.py:204. *)
Definition list_min (l : list Z) : Z := fold_right Z.min (hd 0 l) l.
(** [nights.max()], PPMiniDifi.py:204. *)
Definition list_max (l : list Z) : Z := fold_right Z.max (hd 0 l) l.

(** Lines 195-236: the list of discovery nights.  Failures: [nights.min()] of
    an empty array and a non-positive window (shapes do not broadcast) raise. *)
Definition disc_nights (nights : list Z) (flags : list bool) (window nlink : Z) (wt : nat -> Z)
  : result (list Z) :=
  let nf := combine nights flags in
  if 1 <? nlink then
    match nights with
    | [] => Err ValueError
    | _ =>
      if window <=? 0 then Err ValueError else
      let n0 := list_min nights in
      let n1 := list_max nights + window in
      let nlen := Z.to_nat (n1 - n0 + 1) in
      let w := Z.to_nat window in
      let arr := trailing w (cumsum 0 (scatter n0 nlen nf)) in
      let idx := filter (fun i => nlink <=? nth i arr 0) (seq 0 nlen) in
      let arr2 := trailing w (cumsum 0 (fill wt 0 (scatter n0 nlen nf))) in
      let sums := map (fun i => nth i arr2 0) idx in
      Ok (map (fun x => Z.of_nat (fst x) + n0)
            (filter (fun x => negb (snd x =? 0)) (combine idx (diffs 0 sums))))
    end
  else Ok (map fst (filter snd nf)).

(** [(rng.uniform(size=n) < p).nonzero()[0]], first entry if any, lines 240-241. *)
Fixpoint first_success (p : num) (draw : nat -> num) (k n : nat) : option nat :=
  match n with
  | O => None
  | S n' => if nltb (draw k) p then Some k else first_success p draw (S k) n'
  end.

(** The result [discIdx = -1] is [None]. *)
Definition discoveryOpportunities (nights : list Z) (flags : list bool) (window nlink : Z)
    (p : num) (wt : nat -> Z) (draw : nat -> num) : result (option nat * list Z) :=
  (disc <- disc_nights nights flags window nlink wt ;;
   Ok (first_success p draw 0 (length disc), disc))%result.

(** ** linkObject, linkObservations, PPLinkingFilter *)

(** [tshift.astype(int)]: truncation toward zero, PPMiniDifi.py 315. *)
Definition qtrunc (q : Q) : Z := Z.quot (Qnum q) (Zpos (Qden q)).

(** The linking parameters, in the units of [linkObject]. *)
Record linkcfg := {
  c_maxdt_minutes : Q; c_minlen_arcsec : Q; c_min_obs : Z;
  c_window : Z; c_nlink : Z; c_p : num; c_night_start : Q }.

(** [np.argmin]: position of the first minimum (line 345). *)
Fixpoint argmin_from (best : Q) (bi i : nat) (l : list Q) : nat :=
  match l with
  | [] => bi
  | x :: l' => if qltb x best then argmin_from x i (S i) l' else argmin_from best bi (S i) l'
  end.
(** [np.argmin], PPMiniDifi.py:345; it raises on an empty array. *)
Definition argmin (l : list Q) : result nat :=
  match l with [] => Err ValueError | x :: l' => Ok (argmin_from x 0 1 l') end.

(** The initial value of [discoveryObservationId], line 305. *)
Definition no_source : Z := 2 ^ 64 - 1.

Section Linking.
Context {A : Type}.
Variable oid : A -> string.   (** column ObjID *)
Variable src : A -> Z.        (** column FieldID *)
Variable tm : A -> Q.         (** column fieldMJD_TAI *)
Variable ra : A -> num.       (** column RA_deg *)
Variable sep : A -> A -> num. (** [haversine_np] of the positions of two rows *)
(** The order numpy's default (unstable) [argsort] puts rows in, line 310. *)
Variable tsort : list A -> list A.
(** The stream of the generator seeded from the hash of the RA column in time
    order, lines 328-330. *)
Variable draws : list num -> nat -> num.

(** PPMiniDifi.py:314-315. *)
Definition night_of (start : Q) (r : A) : Z := qtrunc (tm r - start)%Q.
(** The assertion of lines 316-319. *)
Definition phase_ok (start : Q) (r : A) : bool :=
  let ph := ((tm r - start) - inject_Z (night_of start r))%Q in
  qltb (1#10) ph && qltb ph (9#10).

(** [linkObject], PPMiniDifi.py 246-352: discovery observation, discovery
    night ([None] is NaN), number of chances.  [wt] are the draws of the
    process-wide numba generator used for the uniqueness weights. *)
Definition linkObject (c : linkcfg) (wt : nat -> Z) (l0 : list A) : result (Z * option Z * nat) :=
  match l0 with
  | [] => Ok (no_source, None, O)
  | _ =>
    let l := tsort l0 in
    let night := map (night_of (c_night_start c)) l in
    if negb (forallb (phase_ok (c_night_start c)) l) then Err AssertionError else
    (nh <- trackletsInNights tm sep night l (c_maxdt_minutes c) (c_minlen_arcsec c) (c_min_obs c) ;;
     id <- discoveryOpportunities (fst nh) (snd nh) (c_window c) (c_nlink c) (c_p c) wt
             (draws (map ra l)) ;;
     match fst id with
     | None => Ok (no_source, None, O)
     | Some ix =>
         match nth_error (snd id) ix with
         | None => Err IndexError
         | Some date =>
             let i := searchsorted_left night (date - c_window c + 1) in
             let j := searchsorted_left night (date + 1) in
             (k <- argmin (map tm (slice i j l)) ;;
              match nth_error l (i + k)%nat, nth_error night (i + k)%nat with
              | Some o, Some n =>
                  if date <? n + c_window c
                  then Ok (src o, Some date, length (snd id))
                  else Err AssertionError
              | _, _ => Err IndexError
              end)%result
         end
     end)%result
  end.

(** [np.argsort(ids, kind="stable")], PPMiniDifi.py 422. *)
Fixpoint insert_id (r : A) (l : list A) : list A :=
  match l with
  | [] => [r]
  | x :: l' => if String.leb (oid r) (oid x) then r :: l else x :: insert_id r l'
  end.
(** [np.argsort(kind="stable")], PPMiniDifi.py:422, on a whole list. *)
Definition sort_ids (l : list A) : list A := fold_right insert_id [] l.
(** [np.unique(..., return_index=True)] and [np.split], lines 423-424: cut the
    sorted table where the identifier changes. *)
Fixpoint runs (l : list A) : list (string * list A) :=
  match l with
  | [] => []
  | r :: l' =>
      match runs l' with
      | (i, g) :: gs => if String.eqb (oid r) i then (i, r :: g) :: gs else (oid r, [r]) :: (i, g) :: gs
      | [] => [(oid r, [r])]
      end
  end.

(** The loop of lines 441-447. *)
Fixpoint link_loop (c : linkcfg) (wts : nat -> nat -> Z) (k : nat) (gs : list (string * list A))
  : result (list (string * (Z * option Z * nat))) :=
  match gs with
  | [] => Ok []
  | (i, g) :: gs' =>
      (v <- linkObject c (wts k) g ;; r <- link_loop c wts (S k) gs' ;; Ok ((i, v) :: r))%result
  end.
(** [linkObservations], PPMiniDifi.py 355-449. *)
Definition linkObservations (c : linkcfg) (wts : nat -> nat -> Z) (l : list A)
  : result (list (string * (Z * option Z * nat))) :=
  link_loop c wts 0 (runs (sort_ids l)).

(** An output row: input row, [object_linked], [date_linked_MJD]. *)
Definition lrow : Type := (A * bool * option Z)%type.
(** The (unstable) [sort_values("fieldMJD_TAI")] of PPLinkingFilter.py 113. *)
Variable osort : list lrow -> list lrow.

(** [~np.isnan(obj["discoverySubmissionDate"])], PPLinkingFilter.py:98. *)
Definition is_some {B} (o : option B) : bool := match o with Some _ => true | None => false end.

(** [PPLinkingFilter], PPLinkingFilter.py 5-115.  An empty table makes
    [nameLen] NaN and the dtype string invalid (line 77-81).  Identifiers are
    assumed not to be altered by the conversion to a fixed-width byte string
    and back (no trailing NUL, ASCII).  The merge of line 112 keeps the order
    of the left table. *)
Definition PPLinkingFilter (c : linkcfg) (wts : nat -> nat -> Z) (drop_unlinked : bool) (l : list A)
  : result (list lrow) :=
  match l with
  | [] => Err TypeError
  | _ =>
    (obj <- linkObservations c wts l ;;
     let found := map fst (filter (fun o => is_some (snd (fst (snd o)))) obj) in
     let flag r := existsb (String.eqb (oid r)) found in
     let kept := if drop_unlinked then filter flag l else l in
     Ok (osort (flat_map (fun r =>
           map (fun o => (r, flag r, snd (fst (snd o))))
             (filter (fun o => String.eqb (oid r) (fst o)) obj)) kept)))%result
  end.
End Linking.
