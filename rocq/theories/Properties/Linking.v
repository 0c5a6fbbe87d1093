From Coq Require Import String List Arith ZArith QArith Bool Lia Sorting.Sorted Sorting.Permutation.
From Verif Require Import Base.Prelude Base.Num Base.Sort Model.Linking Spec.Linking
  Proofs.Linking Proofs.LinkFilter Proofs.LinkProps.
Import ListNotations.
Open Scope Z_scope.

(** * C01: the tracklet test *)

Theorem C01_tracklet_exact : forall A (tm : A -> Q) sep maxdt minlen k l,
  1 <= k -> chronological tm l ->
  exists b, hasTracklet tm sep maxdt minlen k l = Ok b /\
            (b = true <-> tracklet_night tm sep maxdt minlen k l).
Proof. exact @hasTracklet_ok. Qed.
Print Assumptions C01_tracklet_exact.

(** With enough observations to look at, unordered times are the only error. *)
Theorem C01_error_iff_unordered : forall A (tm : A -> Q) sep maxdt minlen k l,
  1 <= k -> k <= Z.of_nat (length l) ->
  (hasTracklet tm sep maxdt minlen k l = Err ValueError <-> ~ chronological tm l).
Proof. exact C01_error_proof. Qed.
Print Assumptions C01_error_iff_unordered.

(** Three observations in one hour, one degree apart; two are enough, but
    four are not available. *)
Example C01_case :
  let l := [(0%Q); (1#48)%Q; (1#24)%Q] in
  chronological (fun t => t) l /\
  hasTracklet (fun t => t) (fun _ _ => Fin 1) 90 1 2 l = Ok true /\
  hasTracklet (fun t => t) (fun _ _ => Fin 1) 90 1 3 l = Ok true /\
  hasTracklet (fun t => t) (fun _ _ => Fin 1) 90 1 4 l = Ok false /\
  hasTracklet (fun t => t) (fun _ _ => Fin 1) 20 1 2 l = Ok false /\
  hasTracklet (fun t => t) (fun _ _ => Fin 0) 90 1 2 l = Ok false.
Proof.
  cbv zeta. split; [|repeat split; reflexivity].
  repeat constructor; unfold Qle; cbn; lia.
Qed.

(** * C02: nights *)

Theorem C02_nights : forall A (tm : A -> Q) sep (night : A -> Z) l maxdt minlen k,
  1 <= k -> chronological tm l -> StronglySorted (fun a b => night a <= night b) l ->
  exists nights flags,
    trackletsInNights tm sep (map night l) l maxdt minlen k = Ok (nights, flags) /\
    StronglySorted Z.lt nights /\ (forall d, In d nights <-> exists r, In r l /\ night r = d) /\
    Forall2 (fun d h => h = true <->
               exists g, selected (fun r => night r = d) l g /\ tracklet_night tm sep maxdt minlen k g)
      nights flags.
Proof. exact C02_proof. Qed.
Print Assumptions C02_nights.

Example C02_case :
  trackletsInNights (fun t => t) (fun _ _ => Fin 1) [3; 3; 4; 6; 6]
    [(0%Q); (1#48)%Q; 1%Q; 3%Q; (145#48)%Q] 90 1 2 = Ok ([3; 4; 6], [true; false; true]).
Proof. reflexivity. Qed.

(** * C03: discovery opportunities *)

Theorem C03_opportunities_exact : forall nights flags window nlink p wt draw,
  StronglySorted Z.lt nights -> length flags = length nights -> nights <> [] ->
  1 <= window -> 2 <= nlink -> generic wt (length nights) ->
  let T t := In (t, true) (combine nights flags) in
  let q := qualifies T window nlink in
  exists idx disc, discoveryOpportunities nights flags window nlink p wt draw = Ok (idx, disc) /\
    StronglySorted Z.lt disc /\
    forall d, In d disc <->
      first_with q d \/ (q d /\ exists d', previous q d d' /\ ~ same_window T window d d').
Proof. exact C03_exact_proof. Qed.
Print Assumptions C03_opportunities_exact.

(** Without any assumption on the random weights. *)
Theorem C03_opportunities_sound : forall nights flags window nlink p wt draw,
  StronglySorted Z.lt nights -> length flags = length nights -> nights <> [] ->
  1 <= window -> 2 <= nlink ->
  let T t := In (t, true) (combine nights flags) in
  let q := qualifies T window nlink in
  exists idx disc, discoveryOpportunities nights flags window nlink p wt draw = Ok (idx, disc) /\
    StronglySorted Z.lt disc /\
    forall d, In d disc -> q d /\ forall d', previous q d d' -> ~ same_window T window d d'.
Proof. exact C03_sound_proof. Qed.
Print Assumptions C03_opportunities_sound.

Theorem C03_first_opportunity : forall nights flags window nlink p wt draw,
  StronglySorted Z.lt nights -> length flags = length nights -> nights <> [] ->
  1 <= window -> 2 <= nlink -> (forall k, 0 < wt k) ->
  exists idx disc, discoveryOpportunities nights flags window nlink p wt draw = Ok (idx, disc) /\
    forall d, hd_error disc = Some d <->
      first_with (qualifies (fun t => In (t, true) (combine nights flags)) window nlink) d.
Proof. exact C03_first_proof. Qed.
Print Assumptions C03_first_opportunity.

(** The reported index is the first opportunity whose draw succeeds. *)
Theorem C03_first_success : forall nights flags window nlink p wt draw idx disc,
  discoveryOpportunities nights flags window nlink p wt draw = Ok (idx, disc) ->
  match idx with
  | Some i => (i < length disc)%nat /\ num_lt (draw i) p /\ forall j, (j < i)%nat -> ~ num_lt (draw j) p
  | None => forall j, (j < length disc)%nat -> ~ num_lt (draw j) p
  end.
Proof. exact C03_index_proof. Qed.
Print Assumptions C03_first_success.

(** Tracklets on nights 3, 4, 5 and 9; window 4, two needed.  Weights 1, 2, 4,
    8 are generic.  Opportunity at night 7 comes from night 3 leaving the
    window. *)
Example C03_case :
  generic (fun k => 2 ^ Z.of_nat k) 5 /\
  discoveryOpportunities [3; 4; 5; 8; 9] [true; true; true; false; true] 4 2 (Fin (1#2))
    (fun k => 2 ^ Z.of_nat k) (fun i => match i with O => Fin (3#4) | _ => Fin (1#4) end)
  = Ok (Some 1%nat, [4; 5; 7]).
Proof. split; [apply generic_pow2|reflexivity]. Qed.

(** * C04: linking at efficiency one and zero *)

Theorem C04_efficiency_one :
  forall A (src : A -> Z) (tm : A -> Q) (ra : A -> num) sep tsort draws, sorter tm tsort ->
  forall c wt l,
  1 <= c_window c -> 1 <= c_nlink c -> 1 <= c_min_obs c ->
  (forall r, In r l -> well_phased tm (c_night_start c) r) ->
  c_p c = Fin 1 -> (forall s i, num_lt (draws s i) (Fin 1)) -> (forall k, 0 < wt k) ->
  let q := linkable tm sep (c_maxdt_minutes c) (c_minlen_arcsec c) (c_min_obs c) (c_window c) (c_nlink c)
             (c_night_start c) (tsort l) in
  exists o date n, linkObject src tm ra sep tsort draws c wt l = Ok (o, date, n) /\
    (forall d, date = Some d <-> first_with q d) /\
    (date = None <-> forall d, ~ q d).
Proof. exact @C04_one_proof. Qed.
Print Assumptions C04_efficiency_one.

Theorem C04_efficiency_zero :
  forall A (src : A -> Z) (tm : A -> Q) (ra : A -> num) sep tsort draws, sorter tm tsort ->
  forall c wt l,
  1 <= c_window c -> 1 <= c_nlink c -> 1 <= c_min_obs c ->
  (forall r, In r l -> well_phased tm (c_night_start c) r) ->
  c_p c = Fin 0 -> (forall s i, num_le (Fin 0) (draws s i)) ->
  linkObject src tm ra sep tsort draws c wt l = Ok (no_source, None, O).
Proof. exact @C04_zero_proof. Qed.
Print Assumptions C04_efficiency_zero.

(** The same at the level of the table of observations of many objects. *)
Theorem C04_filter_efficiency_one :
  forall A oid (src : A -> Z) (tm : A -> Q) (ra : A -> num) sep tsort draws, sorter tm tsort ->
  forall osort, sorter (fun x : A * bool * option Z => tm (fst (fst x))) osort ->
  forall c wts drop l,
  1 <= c_window c -> 1 <= c_nlink c -> 1 <= c_min_obs c -> l <> [] ->
  (forall r, In r l -> well_phased tm (c_night_start c) r) ->
  c_p c = Fin 1 -> (forall s i, num_lt (draws s i) (Fin 1)) -> (forall k j, 0 < wts k j) ->
  let q r := linkable tm sep (c_maxdt_minutes c) (c_minlen_arcsec c) (c_min_obs c) (c_window c) (c_nlink c)
             (c_night_start c) (tsort (rows_of oid (oid r) l)) in
  exists out, PPLinkingFilter oid src tm ra sep tsort draws osort c wts drop l = Ok out /\
    (forall r b dt, In (r, b, dt) out -> In r l /\
       (b = true <-> exists d, q r d) /\ (forall d, dt = Some d <-> first_with (q r) d)) /\
    (forall r d, In r l -> q r d -> exists b dt, In (r, b, dt) out).
Proof. exact @C04_filter_proof. Qed.
Print Assumptions C04_filter_efficiency_one.

(** Two objects; the first has two-observation tracklets on three nights
    within 15 days, the second on two nights only. *)
Example C04_case :
  let day n := (inject_Z n + (1#2))%Q in
  let dawn n := (inject_Z n + (13#24))%Q in
  let row i s t : string * Z * Q := (i, s, t) in
  let l := [row "a" 1 (day 10); row "b" 2 (day 10); row "a" 3 (dawn 10); row "b" 4 (dawn 10);
            row "a" 5 (day 12); row "a" 6 (dawn 12); row "b" 7 (day 13); row "b" 8 (dawn 13);
            row "a" 9 (day 20); row "a" 10 (dawn 20)]%string in
  let tm := snd in let oid r := fst (fst r) in
  let c := {| c_maxdt_minutes := 90; c_minlen_arcsec := 1#2; c_min_obs := 2; c_window := 15;
              c_nlink := 3; c_p := Fin 1; c_night_start := 0 |} in
  (forall r, In r l -> well_phased tm (c_night_start c) r) /\
  rmap (map (fun x => (snd (fst (fst (fst x))), snd (fst x), snd x)))
    (PPLinkingFilter oid (fun r => snd (fst r)) tm (fun _ => NaN) (fun _ _ => Fin 1) (sort_by tm)
      (fun _ _ => Fin (1#3)) (sort_by (fun x => tm (fst (fst x)))) c (fun _ k => 2 ^ Z.of_nat k) true l)
  = Ok [(1, true, Some 20); (3, true, Some 20); (5, true, Some 20); (6, true, Some 20);
        (9, true, Some 20); (10, true, Some 20)].
Proof.
  cbv zeta. split; [|vm_compute; reflexivity].
  intros r H. exists (Qround.Qfloor (snd r)).
  repeat (destruct H as [<-|H]; [repeat split; vm_compute; congruence || reflexivity|]). destruct H.
Qed.

(** * C05: all or nothing per object *)

Theorem C05_linking_rows :
  forall A oid (src : A -> Z) (tm : A -> Q) (ra : A -> num) sep tsort draws,
  forall osort, sorter (fun x : A * bool * option Z => tm (fst (fst x))) osort ->
  forall c wts drop l out, PPLinkingFilter oid src tm ra sep tsort draws osort c wts drop l = Ok out ->
  (forall r r', In r l -> In r' l -> oid r = oid r' ->
     (In r (map (fun x => fst (fst x)) out) <-> In r' (map (fun x => fst (fst x)) out))) /\
  (drop = false -> Permutation (map (fun x => fst (fst x)) out) l) /\
  (exists l', subseq l' l /\ Permutation (map (fun x => fst (fst x)) out) l').
Proof. exact @C05_rows_proof. Qed.
Print Assumptions C05_linking_rows.

Theorem C05_flags_and_dates :
  forall A oid (src : A -> Z) (tm : A -> Q) (ra : A -> num) sep tsort draws,
  forall osort, sorter (fun x : A * bool * option Z => tm (fst (fst x))) osort ->
  forall c wts drop l out, PPLinkingFilter oid src tm ra sep tsort draws osort c wts drop l = Ok out ->
  exists date : string -> option Z,
    exists kept, selected (fun r => drop = true -> date (oid r) <> None) l kept /\
      Permutation out (map (fun r => (r, match date (oid r) with Some _ => true | None => false end, date (oid r))) kept) /\
      StronglySorted (fun a b : A * bool * option Z => (tm (fst (fst a)) <= tm (fst (fst b)))%Q) out.
Proof. exact @C05_proof. Qed.
Print Assumptions C05_flags_and_dates.

(** * C06: the verdict of an object depends on its own rows only *)

Theorem C06_verdict_is_local :
  forall A oid (src : A -> Z) (tm : A -> Q) (ra : A -> num) sep tsort draws, sorter tm tsort ->
  forall osort, sorter (fun x : A * bool * option Z => tm (fst (fst x))) osort ->
  forall c,
  1 <= c_window c -> 1 <= c_nlink c -> 1 <= c_min_obs c ->
  exists verdict : list A -> option Z,
  forall wts drop l out, (forall k, generic (wts k) (length l)) ->
    PPLinkingFilter oid src tm ra sep tsort draws osort c wts drop l = Ok out ->
    exists kept, selected (fun r => drop = true -> verdict (rows_of oid (oid r) l) <> None) l kept /\
      Permutation out (map (fun r => (r, match verdict (rows_of oid (oid r) l) with Some _ => true | None => false end,
                                      verdict (rows_of oid (oid r) l))) kept).
Proof. exact @C06_proof. Qed.
Print Assumptions C06_verdict_is_local.

Theorem C06_split_by_object :
  forall A oid (src : A -> Z) (tm : A -> Q) (ra : A -> num) sep tsort draws, sorter tm tsort ->
  forall osort, sorter (fun x : A * bool * option Z => tm (fst (fst x))) osort ->
  forall c wts wts1 wts2 drop l1 l2 out out1 out2,
  1 <= c_window c -> 1 <= c_nlink c -> 1 <= c_min_obs c ->
  (forall k, generic (wts k) (length (l1 ++ l2))) ->
  (forall k, generic (wts1 k) (length l1)) -> (forall k, generic (wts2 k) (length l2)) ->
  (forall r1 r2, In r1 l1 -> In r2 l2 -> oid r1 <> oid r2) ->
  PPLinkingFilter oid src tm ra sep tsort draws osort c wts drop (l1 ++ l2) = Ok out ->
  PPLinkingFilter oid src tm ra sep tsort draws osort c wts1 drop l1 = Ok out1 ->
  PPLinkingFilter oid src tm ra sep tsort draws osort c wts2 drop l2 = Ok out2 ->
  Permutation out (out1 ++ out2).
Proof. exact @C06_split_proof. Qed.
Print Assumptions C06_split_by_object.

(** Reordering an object's own rows changes nothing when their times differ. *)
Theorem C06_row_order :
  forall A (src : A -> Z) (tm : A -> Q) (ra : A -> num) sep tsort draws, sorter tm tsort ->
  forall c wt l l', Permutation l l' ->
  (forall a b, In a l -> In b l -> (tm a == tm b)%Q -> a = b) ->
  linkObject src tm ra sep tsort draws c wt l = linkObject src tm ra sep tsort draws c wt l'.
Proof. exact @C06_row_order_proof. Qed.
Print Assumptions C06_row_order.

(** The hypotheses on sorting routines and weights are satisfiable. *)
Example C06_case : forall A (key : A -> Q) n,
  sorter key (sort_by key) /\ generic (fun k => 2 ^ Z.of_nat k) n.
Proof.
  intros A key n. split; [|apply generic_pow2].
  intro l. split; [apply sort_by_perm|apply sort_by_sorted].
Qed.

(** * C56: linking is total on night-time observations and names the right one *)

Theorem C56_linked_observation :
  forall A (src : A -> Z) (tm : A -> Q) (ra : A -> num) sep tsort draws, sorter tm tsort ->
  forall c wt l,
  1 <= c_window c -> 1 <= c_nlink c -> 1 <= c_min_obs c ->
  (forall r, In r l -> well_phased tm (c_night_start c) r) ->
  exists o date n, linkObject src tm ra sep tsort draws c wt l = Ok (o, date, n) /\
    match date with
    | None => o = 18446744073709551615 /\ n = O
    | Some d =>
        linkable tm sep (c_maxdt_minutes c) (c_minlen_arcsec c) (c_min_obs c) (c_window c) (c_nlink c)
             (c_night_start c) (tsort l) d /\ (1 <= n)%nat /\
        exists r, In r l /\ src r = o /\ in_window (c_window c) d (night tm (c_night_start c) r) /\
          forall r', In r' l -> in_window (c_window c) d (night tm (c_night_start c) r') -> (tm r <= tm r')%Q
    end.
Proof. exact @C56_proof. Qed.
Print Assumptions C56_linked_observation.

Theorem C56_linking_total :
  forall A oid (src : A -> Z) (tm : A -> Q) (ra : A -> num) sep tsort draws, sorter tm tsort ->
  forall osort c wts drop l,
  1 <= c_window c -> 1 <= c_nlink c -> 1 <= c_min_obs c -> l <> [] ->
  (forall r, In r l -> well_phased tm (c_night_start c) r) ->
  exists out, PPLinkingFilter oid src tm ra sep tsort draws osort c wts drop l = Ok out.
Proof. exact @C56_total_proof. Qed.
Print Assumptions C56_linking_total.
