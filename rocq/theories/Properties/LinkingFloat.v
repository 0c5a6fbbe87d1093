From Coq Require Import String List Arith ZArith QArith Qreals Reals Bool Lia Lra Sorting.Sorted Sorting.Permutation.
From Flocq Require Import Core.
From Verif Require Import Base.Prelude Base.Num Base.Sort Model.Linking Model.LinkingFloat Spec.Linking Spec.LinkingFloat
  Proofs.LinkFilter Proofs.LinkingFloat.
Import ListNotations.
Open Scope R_scope.

(** * C101: floating-point rounding does not change what is linked *)

(** With efficiency one, whatever the random weights: the objects linked are
    those that exact arithmetic links, on the same night. *)
Theorem C101_linked : forall A oid (src : A -> Z) (tm : A -> Q) (ra : A -> num) sep tsort draws, sorter tm tsort ->
  forall osort, sorter (fun x : A * bool * option Z => tm (fst (fst x))) osort ->
  forall s wts drop l,
  (1 <= s_window s)%Z -> (1 <= s_nlink s)%Z -> (1 <= s_min_obs s)%Z -> l <> [] ->
  margins oid tm sep (s_time s) (s_separation s) (s_night_start s) l ->
  (forall r, In r l -> dark (tm r - s_night_start s / 24)) ->
  s_p s = Fin 1 -> (forall g i, num_lt (draws g i) (Fin 1)) ->
  (forall k j, / 1000000000 <= wts k j <= 1) -> (Z.of_nat (length l) <= 1000000)%Z ->
  let q r := linkable tm sep (s_time s * 24 * 60) (s_separation s) (s_min_obs s) (s_window s) (s_nlink s)
             (s_night_start s / 24) (tsort (rows_of oid (oid r) l)) in
  exists out, PPLinkingFilter_f oid src tm ra sep tsort draws s osort wts drop l = Ok out /\
    (forall r b dt, In (r, b, dt) out -> In r l /\
       (b = true <-> exists d, q r d) /\ (forall d, dt = Some d <-> first_with (q r) d)) /\
    (forall r d, In r l -> q r d -> exists b dt, In (r, b, dt) out).
Proof. exact C101_linked_proof. Qed.
Print Assumptions C101_linked.
(** With any efficiency: the whole output is that of exact arithmetic, when
    rounding does not make two different runs of weights look alike. *)
Theorem C101_same : forall A oid (src : A -> Z) (tm : A -> Q) (ra : A -> num) sep tsort draws osort s wts weights drop l,
  (forall l, Permutation (tsort l) l) -> (1 <= s_window s)%Z -> (1 <= s_nlink s)%Z ->
  margins oid tm sep (s_time s) (s_separation s) (s_night_start s) l ->
  (forall r, In r l -> clear_phase (tm r - s_night_start s / 24)) ->
  (forall k, telling (wts k) (length l)) -> (forall k, generic (weights k) (length l)) ->
  PPLinkingFilter_f oid src tm ra sep tsort draws s osort wts drop l
  = PPLinkingFilter oid src tm ra sep tsort draws osort
      {| c_maxdt_minutes := s_time s * 24 * 60; c_minlen_arcsec := s_separation s; c_min_obs := s_min_obs s;
         c_window := s_window s; c_nlink := s_nlink s; c_p := s_p s; c_night_start := s_night_start s / 24 |} weights drop l.
Proof. exact C101_same_proof. Qed.
Print Assumptions C101_same.
(** Without margins: the night of an accepted observation is right. *)
Theorem C101_night : forall A oid (src : A -> Z) (tm : A -> Q) (ra : A -> num) sep tsort draws osort s wts drop l out,
  (forall l, Permutation (tsort l) l) -> (- (1000000000) <= s_night_start s <= 1000000000)%Q ->
  (forall r, In r l -> (- (1000000000) <= tm r <= 1000000000)%Q) ->
  PPLinkingFilter_f oid src tm ra sep tsort draws s osort wts drop l = Ok out ->
  forall r, In r l -> exists n : Z, (0 <= n)%Z /\
    (inject_Z n + (999 # 10000) <= tm r - s_night_start s / 24 <= inject_Z n + (9001 # 10000))%Q.
Proof. exact C101_night_proof. Qed.
Print Assumptions C101_night.
(** Discovery opportunities: never one for a window that holds the same tracklet
    nights as the last, whatever the weights. *)
Theorem C101_opportunities : forall nights flags window nlink p wt draw,
  StronglySorted Z.lt nights -> length flags = length nights -> nights <> [] -> (1 <= window)%Z -> (2 <= nlink)%Z ->
  let T t := In (t, true) (combine nights flags) in
  let q := qualifies T window nlink in
  exists idx disc, discoveryOpportunities_f nights flags window nlink p wt draw = Ok (idx, disc) /\
    StronglySorted Z.lt disc /\
    (forall d, In d disc -> q d /\ forall d', previous q d d' -> ~ same_window T window d d') /\
    ((forall k, / 1000000000 <= wt k <= 1) -> (Z.of_nat (length nights) <= 1000000)%Z ->
      forall d, hd_error disc = Some d <-> first_with q d) /\
    (telling wt (length nights) -> forall d, In d disc <->
      first_with q d \/ (q d /\ exists d', previous q d d' /\ ~ same_window T window d d')).
Proof. exact C101_opportunities_proof. Qed.
Print Assumptions C101_opportunities.

(** Two objects; tracklets of 45 minutes with a limit of 90 minutes, on three
    nights within 15 for the first and on two for the second. *)
Example C101_case :
  let dusk n := (inject_Z n + (1#2))%Q in
  let later n := (inject_Z n + (17#32))%Q in
  let row i s t : string * Z * Q := (i, s, t) in
  let l := [row "a" 1 (dusk 10); row "b" 2 (dusk 10); row "a" 3 (later 10); row "b" 4 (later 10);
            row "a" 5 (dusk 12); row "a" 6 (later 12); row "b" 7 (dusk 13); row "b" 8 (later 13);
            row "a" 9 (dusk 20); row "a" 10 (later 20)]%string%Z in
  let tm := snd in let oid r := fst (fst r) in
  let s := {| s_time := 1#16; s_separation := 1#2; s_min_obs := 2; s_window := 15; s_nlink := 3;
              s_p := Fin 1; s_night_start := 0 |} in
  let wts (_ : nat) k := bpow radix2 (- Z.of_nat (S k)) in
  let sep := fun _ _ : string * Z * Q => Fin 1 in
  margins oid tm sep (s_time s) (s_separation s) (s_night_start s) l
  /\ (forall r, In r l -> dark (tm r - s_night_start s / 24))
  /\ (forall k, telling (wts k) (length l))
  /\ rmap (map (fun x => (snd (fst (fst (fst x))), snd (fst x), snd x)))
      (PPLinkingFilter_f oid (fun r => snd (fst r)) tm (fun _ => NaN) sep (sort_by tm) (fun _ _ => Fin (1#3)) s
         (sort_by (fun x => tm (fst (fst x)))) wts true l)
    = Ok [(1, true, Some 20); (3, true, Some 20); (5, true, Some 20); (6, true, Some 20);
          (9, true, Some 20); (10, true, Some 20)]%Z.
Proof.
  intros dusk later row l tm oid s wts sep.
  assert (M : margins oid tm sep (s_time s) (s_separation s) (s_night_start s) l).
  { split; [discriminate|]. split; [discriminate|]. split; [split; discriminate|]. split; [|split].
    - intros r H. assert (D : float (tm r)).
      { assert (X : forall m, (Z.abs m < 2 ^ 53)%Z -> float (m # 32)).
        { intros m Hm. unfold float, Q2R. cbn [Qnum Qden]. replace (/ IZR 32) with (bpow radix2 (-5)) by (cbn; lra). apply float_dyadic; [auto|lia]. }
        assert (Y : forall m, (Z.abs m < 2 ^ 53)%Z -> float (m # 2)).
        { intros m Hm. unfold float, Q2R. cbn [Qnum Qden]. replace (/ IZR 2) with (bpow radix2 (-1)) by (cbn; lra). apply float_dyadic; [auto|lia]. }
        repeat (destruct H as [<-|H]; [cbn; solve [apply X; reflexivity|apply Y; reflexivity]|]). destruct H. }
      split; auto. repeat (destruct H as [<-|H]; [split; discriminate|]). destruct H.
    - intros r r' H H' _. unfold clear_of.
      repeat (destruct H as [<-|H]; [repeat (destruct H' as [<-|H']; [solve [left; reflexivity|right; reflexivity]|]); destruct H'|]). destruct H.
    - intros r r' q _ _ _ _ E. inversion E. right. reflexivity. }
  assert (N : forall r, In r l -> dark (tm r - s_night_start s / 24)).
  { intros r H. exists (Qround.Qfloor (tm r)).
    repeat (destruct H as [<-|H]; [split; [discriminate|split; reflexivity]|]). destruct H. }
  assert (W : forall k, telling (wts k) (length l)) by (intro k; apply halves_telling; cbn; lia).
  split; [exact M|]. split; [exact N|]. split; [exact W|].
  rewrite C101_same with (weights := fun _ k => (2 ^ Z.of_nat k)%Z); [vm_compute; reflexivity| | | |exact M| |exact W|].
  - intro x. apply sort_by_perm.
  - discriminate.
  - discriminate.
  - intros r H. apply dark_clear, N, H.
  - intro k. apply generic_pow2.
Qed.
