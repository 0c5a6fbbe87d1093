(** * C116: great-circle distances in binary64 arithmetic *)
From Coq Require Import String List Reals ZArith QArith Qreals Bool Lra Lia Sorting.Sorted Sorting.Permutation.
From Flocq Require Import Core.
From Verif Require Import Base.Prelude Base.Num Base.Sort Model.Linking Model.LinkingFloat Model.Rounding Model.SeparationFloat Model.MagnitudeFloat
  Spec.Sphere Spec.Linking Spec.LinkingFloat Spec.Rounding Spec.UncertaintyFloat Spec.MagnitudeFloat Spec.SeparationFloat
  Proofs.LinkingFloat Proofs.Rounding Proofs.AngleFloat Proofs.UncertaintyFloat Proofs.UncertaintyClose Proofs.MagnitudeFloat Proofs.SeparationFloat.
Import ListNotations.
Open Scope R_scope.

Theorem C116_distance : forall S C Z p q d, accurate_sin S -> accurate_cos C -> accurate_arcsin Z -> position p -> position q -> distance_between p q d ->
  (d <= 90 -> exists y, haversine_np_f S C Z (Real (fst p)) (Real (snd p)) (Real (fst q)) (Real (snd q)) = Real y /\ binary64 y /\ 0 <= y /\ Rabs (y - d) <= / 10 ^ 11)
  /\ (90 < d <= 170 -> exists y, haversine_np_f S C Z (Real (fst p)) (Real (snd p)) (Real (fst q)) (Real (snd q)) = Real y /\ binary64 y /\ 70 <= y).
Proof. exact C116_distance_proof. Qed.
Print Assumptions C116_distance.
Theorem C116_same_place : forall S C Z p, accurate_sin S -> accurate_cos C -> accurate_arcsin Z -> position p ->
  haversine_np_f S C Z (Real (fst p)) (Real (snd p)) (Real (fst p)) (Real (snd p)) = Real 0.
Proof. exact C116_same_place_proof. Qed.
Print Assumptions C116_same_place.
Theorem C116_linked : forall A oid (src : A -> Z) (tm : A -> Q) (ra : A -> num) sep tsort draws, sorter tm tsort ->
  forall osort, sorter (fun x : A * bool * option Z => tm (fst (fst x))) osort ->
  forall s wts drop l (place : A -> R * R) (true_sep : A -> A -> num) S C Z,
  (1 <= s_window s)%Z -> (1 <= s_nlink s)%Z -> (1 <= s_min_obs s)%Z -> l <> nil ->
  clear_times oid tm (s_time s) (s_separation s) (s_night_start s) l ->
  (forall r, In r l -> dark (tm r - s_night_start s / 24)) ->
  s_p s = Fin 1 -> (forall g i, num_lt (draws g i) (Fin 1)) ->
  (forall k j, / 1000000000 <= wts k j <= 1) -> (Z.of_nat (length l) <= 1000000)%Z ->
  accurate_sin S -> accurate_cos C -> accurate_arcsin Z -> (forall r, In r l -> position (place r)) ->
  (forall r r' y, In r l -> In r' l ->
     haversine_np_f S C Z (Real (fst (place r))) (Real (snd (place r))) (Real (fst (place r'))) (Real (snd (place r'))) = Real y ->
     exists q, sep r r' = Fin q /\ Q2R q = y) ->
  (forall r r', In r l -> In r' l -> oid r = oid r' -> (0 < tm r - tm r' < s_time s)%Q ->
     exists d, distance_between (place r) (place r') d /\ d <= 170 /\ clear_separation (s_separation s) d
       /\ (num_lt (Fin (s_separation s / 3600)) (true_sep r r') <-> Q2R (s_separation s / 3600) < d)) ->
  let q r := linkable tm true_sep (s_time s * 24 * 60) (s_separation s) (s_min_obs s) (s_window s) (s_nlink s)
             (s_night_start s / 24) (tsort (rows_of oid (oid r) l)) in
  exists out, PPLinkingFilter_f oid src tm ra sep tsort draws s osort wts drop l = Ok out /\
    (forall r b dt, In (r, b, dt) out -> In r l /\
       (b = true <-> exists d, q r d) /\ (forall d, dt = Some d <-> first_with (q r) d)) /\
    (forall r d, In r l -> q r d -> exists b dt, In (r, b, dt) out).
Proof. exact C116_linked_proof. Qed.
Print Assumptions C116_linked.
Theorem C116_depth : forall S C Z L p q m d f, accurate_sin S -> accurate_cos C -> accurate_arcsin Z -> accurate_log10 L ->
  position p -> position q -> distance_between p q d -> d <= 90 -> fraction_at d f -> binary64 m -> Rabs m <= 100 ->
  exists v, vignettingEffects_f S C Z L (Real (fst p)) (Real (snd p)) (Real (fst q)) (Real (snd q)) (Real m) = Real v
    /\ v <= m /\ Rabs (v - (m + 5 / 2 * (ln f / ln 10))) <= / 10 ^ 9 /\ (d <= 63 / 100 -> v = m).
Proof. exact C116_depth_proof. Qed.
Print Assumptions C116_depth.

(** The exact functions meet the hypotheses.  Half a degree before and after the origin of
    right ascensions is one degree; a depth of 24, 1.5 degrees from the centre of the field,
    is computed from 595673 / 623885 of the light to nine decimals. *)
Example C116_case :
  accurate_sin (exact_fun sin) /\ accurate_cos (exact_fun cos) /\ accurate_arcsin (exact_fun asin)
  /\ position (719 / 2, 0) /\ position (1 / 2, 0) /\ distance_between (719 / 2, 0) (1 / 2, 0) 1
  /\ (exists y, haversine_np_f (exact_fun sin) (exact_fun cos) (exact_fun asin) (Real (719 / 2)) (Real 0) (Real (1 / 2)) (Real 0) = Real y /\ Rabs (y - 1) <= / 10 ^ 11)
  /\ exists v, vignettingEffects_f (exact_fun sin) (exact_fun cos) (exact_fun asin) rounded_log (Real (719 / 2)) (Real 0) (Real 1) (Real 0) (Real 24) = Real v
       /\ Rabs (v - (24 + 5 / 2 * (ln (595673 / 623885) / ln 10))) <= / 10 ^ 9.
Proof.
  destruct exact_accurate as (HS & HC & HZ). split; [exact HS|]. split; [exact HC|]. split; [exact HZ|].
  assert (P : position (719 / 2, 0)) by (apply (half_position 719); lia). assert (Q : position (1 / 2, 0)) by (apply (half_position 1); lia).
  assert (D : distance_between (719 / 2, 0) (1 / 2, 0) 1) by (apply flat_distance; [lra|right; lra]). split; [exact P|]. split; [exact Q|]. split; [exact D|].
  split; [destruct (proj1 (C116_distance _ _ _ _ _ _ HS HC HZ P Q D) ltac:(lra)) as (y & E & _ & _ & R); exists y; auto|].
  assert (P1 : position (1, 0)) by (replace 1 with (2 / 2) by lra; apply (half_position 2); lia).
  assert (D' : distance_between (719 / 2, 0) (1, 0) (3 / 2)) by (apply flat_distance; [lra|right; lra]).
  assert (F : fraction_at (3 / 2) (595673 / 623885)).
  { left. exists 75%nat, 595673%Z, 594282%Z. split; [reflexivity|]. split; [reflexivity|]. split; [rewrite !INR_IZR_INZ; cbn; lra|]. rewrite INR_IZR_INZ. cbn. lra. }
  assert (B : binary64 24) by (split; [apply (format_int 24); lia|rewrite Rabs_right by lra; assert (T := top_big); lra]).
  destruct (C116_depth _ _ _ rounded_log _ _ 24 _ _ HS HC HZ rounded_log10_accurate P P1 D' ltac:(lra) F B ltac:(rewrite Rabs_right; lra)) as (v & E & _ & R & _). exists v. auto.
Qed.

(** Two observations of an object 45 minutes and half a degree apart make a tracklet, with
    limits of 90 minutes and half an arcsecond; one tracklet is required. *)
Example C116_linked_case :
  let tm (r : bool) : Q := if r then (337 # 32)%Q else (21 # 2)%Q in
  let place (r : bool) : R * R := if r then (1 / 2, 0) else (0 / 2, 0) in
  let oid (_ : bool) := "a"%string in
  let s := {| s_time := 1#16; s_separation := 1#2; s_min_obs := 2; s_window := 15; s_nlink := 1; s_p := Fin 1; s_night_start := 0 |} in
  let computed r r' := haversine_np_f (exact_fun sin) (exact_fun cos) (exact_fun asin) (Real (fst (place r))) (Real (snd (place r))) (Real (fst (place r'))) (Real (snd (place r'))) in
  let sep r r' := match computed r r' with Real y => Fin (as_rational y) | _ => NaN end in
  let l := [false; true] in
  clear_times oid tm (s_time s) (s_separation s) (s_night_start s) l
  /\ (forall r r' y, computed r r' = Real y -> exists q, sep r r' = Fin q /\ Q2R q = y)
  /\ exists out, PPLinkingFilter_f oid (fun r : bool => if r then 1%Z else 0%Z) tm (fun _ => NaN) sep (sort_by tm) (fun _ _ => Fin (1#3)) s
       (sort_by (fun x => tm (fst (fst x)))) (fun _ _ => 1) true l = Ok out
       /\ (forall r, exists b dt, In (r, b, dt) out) /\ (forall r b dt, In (r, b, dt) out -> b = true /\ dt = Some 10%Z).
Proof.
  intros tm place oid s computed sep l. destruct exact_accurate as (HS & HC & HZ).
  assert (PL : forall r, position (place r)) by (intros []; [apply (half_position 1); lia|apply (half_position 0); lia]).
  assert (CT : clear_times oid tm (s_time s) (s_separation s) (s_night_start s) l).
  { split; [discriminate|]. split; [split; discriminate|]. split; [split; discriminate|]. split.
    - intros [] _; (split; [|split; discriminate]); unfold float, Q2R, tm; cbn [Qnum Qden].
      + replace (/ IZR 32) with (bpow radix2 (-5)) by (cbn; lra). apply float_dyadic; lia.
      + replace (/ IZR 2) with (bpow radix2 (-1)) by (cbn; lra). apply float_dyadic; lia.
    - intros [] [] _ _ _; left; reflexivity. }
  assert (CS : forall r r', exists y, computed r r' = Real y /\ Q2R (as_rational y) = y).
  { intros r r'. assert (D : exists d, distance_between (place r) (place r') d /\ d <= 90).
    { destruct r, r'; [exists 0|exists (1 / 2)|exists (1 / 2)|exists 0]; (split; [|lra]); try (apply flat_distance; [lra|left; lra]).
      destruct (flat_distance (1 / 2) (0 / 2) (1 / 2) ltac:(lra) ltac:(left; lra)) as [B E]. split; [exact B|]. rewrite E. cbn [place fst snd]. ring. }
    destruct D as (d & D & L). destruct (proj1 (C116_distance _ _ _ _ _ _ HS HC HZ (PL r) (PL r') D) L) as (y & E & [F _] & _). exists y. split; [exact E|]. apply as_rational_value. exact F. }
  assert (SP : forall r r' y, computed r r' = Real y -> exists q, sep r r' = Fin q /\ Q2R q = y).
  { intros r r' y E. unfold sep. rewrite E. eexists. split; [reflexivity|]. destruct (CS r r') as (y' & E' & V). rewrite E in E'. inversion E'. subst. exact V. }
  split; [exact CT|]. split; [exact SP|].
  assert (S1 : sorter tm (sort_by tm)) by (intro x; split; [apply sort_by_perm|apply sort_by_sorted]).
  assert (S2 : sorter (fun x : bool * bool * option Z => tm (fst (fst x))) (sort_by (fun x => tm (fst (fst x))))) by (intro x; split; [apply sort_by_perm|apply sort_by_sorted]).
  destruct (C116_linked bool oid (fun r : bool => if r then 1%Z else 0%Z) tm (fun _ => NaN) sep (sort_by tm) (fun _ _ => Fin (1#3)) S1
    (sort_by (fun x => tm (fst (fst x)))) S2 s (fun _ _ => 1) true l place (fun _ _ => Fin (1#2)) (exact_fun sin) (exact_fun cos) (exact_fun asin)) as (out & E & H1 & H2); auto; try discriminate.
  - intros [] _; exists 10%Z; (split; [lia|split; reflexivity]).
  - intros _ _. constructor. reflexivity.
  - intros _ _. lra.
  - intros r r' _ _ _ G. exists (1 / 2). destruct r, r'; try (exfalso; destruct G as [G _]; discriminate).
    split; [apply flat_distance; [lra|left; lra]|]. split; [lra|]. assert (X : Q2R ((1 # 2) / 3600) = / 7200) by (unfold Q2R; cbn; lra). unfold clear_separation. cbn [s_separation s].
    rewrite X. split; [rewrite Rabs_right; lra|]. split; intro; [lra|]. constructor. reflexivity.
  - assert (Q10 : linkable tm (fun _ _ => Fin (1#2)) (s_time s * 24 * 60) (s_separation s) (s_min_obs s) (s_window s) (s_nlink s) (s_night_start s / 24) [false; true] 10).
    { exists [10%Z]. split; [repeat constructor; intros []|]. split; [|cbn; lia]. intros t [<-|[]]. split; [|split; cbn; lia]. right. split; [discriminate|].
      exists [], false, [], true, []. repeat split; try reflexivity; try discriminate; constructor; reflexivity. }
    assert (QE : forall d, (d < 10)%Z -> ~ linkable tm (fun _ _ => Fin (1#2)) (s_time s * 24 * 60) (s_separation s) (s_min_obs s) (s_window s) (s_nlink s) (s_night_start s / 24) [false; true] d).
    { intros d D (ns & _ & W & L). destruct ns as [|t ns]; [cbn in L; lia|]. destruct (W t (or_introl eq_refl)) as [O [_ I]]. 
      destruct O as [[O _]|[_ (l1 & a & l2 & b & l3 & F & _)]]; [discriminate|].
      assert (NE : filter (fun r => Z.eqb (night tm (s_night_start s / 24) r) t) [false; true] = []).
      { cbn [filter]. assert (N : forall r, night tm (s_night_start s / 24) r = 10%Z) by (intros []; reflexivity). rewrite !N. destruct (Z.eqb_spec 10 t); [lia|reflexivity]. }
      rewrite NE in F. destruct l1; discriminate. }
    assert (RO : forall r : bool, sort_by tm (rows_of oid (oid r) l) = [false; true]) by (intros []; reflexivity).
    exists out. split; [exact E|]. split.
    + intro r. apply (H2 r 10%Z); [destruct r; cbn; auto|]. rewrite RO. exact Q10.
    + intros r b dt I. destruct (H1 r b dt I) as (_ & HB & HD). rewrite RO in HB, HD. split; [apply HB; exists 10%Z; exact Q10|]. apply HD. split; [exact Q10|exact QE].
Qed.
