From Coq Require Import String List Arith ZArith QArith Qround Bool Lia Lqa Sorting.Sorted Sorting.Permutation.
From Verif Require Import Base.Prelude Base.Num Base.Strings Model.Linking Spec.Linking
  Proofs.Linking Proofs.Discovery Proofs.LinkObject Proofs.LinkFilter.
Import ListNotations.
Open Scope Z_scope.

Lemma C01_error_proof : forall A (tm : A -> Q) sep maxdt minlen k l,
  1 <= k -> k <= Z.of_nat (length l) ->
  (hasTracklet tm sep maxdt minlen k l = Err ValueError <-> ~ chronological tm l).
Proof.
  intros A tm sep maxdt minlen k l Hk Hl. split.
  - intro H. apply hasTracklet_err in H as [_ H]; auto.
  - apply hasTracklet_unsorted; auto.
Qed.

Lemma C02_proof : forall A (tm : A -> Q) sep (key : A -> Z) l maxdt minlen k,
  1 <= k -> chronological tm l -> StronglySorted (fun a b => key a <= key b) l ->
  exists nights flags,
    trackletsInNights tm sep (map key l) l maxdt minlen k = Ok (nights, flags) /\
    StronglySorted Z.lt nights /\ (forall d, In d nights <-> exists r, In r l /\ key r = d) /\
    Forall2 (fun d h => h = true <->
               exists g, selected (fun r => key r = d) l g /\ tracklet_night tm sep maxdt minlen k g)
      nights flags.
Proof.
  intros A tm sep key l maxdt minlen k Hk Hc Hs.
  destruct (trackletsInNights_ok tm sep key l maxdt minlen k Hk Hc Hs) as (ns & fs & H1 & H2 & H3 & H4).
  exists ns, fs. split; [auto|]. split; [auto|]. split; [auto|].
  clear - H4. induction H4 as [|d h ds hs Hd H IH]; constructor; auto.
  assert (S : selected (fun r => key r = d) l (filter (fun r => key r =? d) l)).
  { apply selected_filter. intros; apply Z.eqb_eq. }
  rewrite Hd. split.
  - intro T. exists (filter (fun r => key r =? d) l). auto.
  - intros (g & Sg & T). rewrite (selected_functional _ _ _ _ _ S Sg). auto.
Qed.

Lemma combine_disc : forall nights flags window nlink wt p draw disc,
  disc_nights nights flags window nlink wt = Ok disc ->
  discoveryOpportunities nights flags window nlink p wt draw
  = Ok (first_success p draw 0 (length disc), disc).
Proof. intros. unfold discoveryOpportunities. rewrite H. auto. Qed.

Lemma C03_exact_proof : forall nights flags window nlink p wt draw,
  StronglySorted Z.lt nights -> length flags = length nights -> nights <> [] ->
  1 <= window -> 2 <= nlink -> generic wt (length nights) ->
  let T t := In (t, true) (combine nights flags) in
  let q := qualifies T window nlink in
  exists idx disc, discoveryOpportunities nights flags window nlink p wt draw = Ok (idx, disc) /\
    StronglySorted Z.lt disc /\
    forall d, In d disc <->
      first_with q d \/ (q d /\ exists d', previous q d d' /\ ~ same_window T window d d').
Proof.
  intros nights flags window nlink p wt draw Hs Hl Hne Hw Hn Hg T q.
  destruct (disc_exact nights flags window nlink wt Hs Hl Hw ltac:(lia) Hne Hg) as (disc & E & S & X).
  eexists _, disc. split; [apply combine_disc; eauto|]. split; auto.
Qed.

Lemma C03_sound_proof : forall nights flags window nlink p wt draw,
  StronglySorted Z.lt nights -> length flags = length nights -> nights <> [] ->
  1 <= window -> 2 <= nlink ->
  let T t := In (t, true) (combine nights flags) in
  let q := qualifies T window nlink in
  exists idx disc, discoveryOpportunities nights flags window nlink p wt draw = Ok (idx, disc) /\
    StronglySorted Z.lt disc /\
    forall d, In d disc -> q d /\ forall d', previous q d d' -> ~ same_window T window d d'.
Proof.
  intros nights flags window nlink p wt draw Hs Hl Hne Hw Hn T q.
  destruct (disc_sound nights flags window nlink wt Hs Hl Hw ltac:(lia) Hne) as (disc & E & S & X).
  eexists _, disc. split; [apply combine_disc; eauto|]. split; auto.
Qed.

Lemma C03_first_proof : forall nights flags window nlink p wt draw,
  StronglySorted Z.lt nights -> length flags = length nights -> nights <> [] ->
  1 <= window -> 2 <= nlink -> (forall k, 0 < wt k) ->
  exists idx disc, discoveryOpportunities nights flags window nlink p wt draw = Ok (idx, disc) /\
    forall d, hd_error disc = Some d <->
      first_with (qualifies (fun t => In (t, true) (combine nights flags)) window nlink) d.
Proof.
  intros nights flags window nlink p wt draw Hs Hl Hne Hw Hn Hp.
  destruct (disc_first nights flags window nlink wt Hs Hl Hw ltac:(lia) Hne Hp) as (disc & E & X & _).
  eexists _, disc. split; [apply combine_disc; eauto|]. auto.
Qed.

Lemma first_success_spec : forall p draw n k,
  match first_success p draw k n with
  | Some i => (k <= i < k + n)%nat /\ num_lt (draw i) p /\ forall j, (k <= j < i)%nat -> ~ num_lt (draw j) p
  | None => forall j, (k <= j < k + n)%nat -> ~ num_lt (draw j) p
  end.
Proof.
  intros p draw n; induction n as [|n IH]; intro k; cbn [first_success]; [intros; lia|].
  destruct (nltb (draw k) p) eqn:E.
  - repeat split; try lia. apply nltb_lt; auto. 
  - specialize (IH (S k)). destruct (first_success p draw (S k) n) as [i|].
    + destruct IH as (I1 & I2 & I3). repeat split; try lia; auto.
      intros j Hj. destruct (Nat.eq_dec j k) as [->|]; [rewrite <- nltb_lt; congruence|apply I3; lia].
    + intros j Hj. destruct (Nat.eq_dec j k) as [->|]; [rewrite <- nltb_lt; congruence|apply IH; lia].
Qed.

Lemma C03_index_proof : forall nights flags window nlink p wt draw idx disc,
  discoveryOpportunities nights flags window nlink p wt draw = Ok (idx, disc) ->
  match idx with
  | Some i => (i < length disc)%nat /\ num_lt (draw i) p /\ forall j, (j < i)%nat -> ~ num_lt (draw j) p
  | None => forall j, (j < length disc)%nat -> ~ num_lt (draw j) p
  end.
Proof.
  intros nights flags window nlink p wt draw idx disc H. unfold discoveryOpportunities in H.
  destruct (disc_nights nights flags window nlink wt) as [d|]; [|discriminate]. cbn in H. inversion H; subst.
  assert (F := first_success_spec p draw (length disc) 0).
  destruct (first_success p draw 0 (length disc)) as [i|].
  - destruct F as (F1 & F2 & F3). repeat split; auto; [lia|]. intros; apply F3; lia.
  - intros; apply F; lia.
Qed.

Section Obj.
Context {A : Type}.
Variables (oid : A -> string) (src : A -> Z) (tm : A -> Q) (ra : A -> num) (sep : A -> A -> num).
Variables (tsort : list A -> list A) (draws : list num -> nat -> num).
Hypothesis Hts : sorter tm tsort.

Definition lnk (c : linkcfg) (l : list A) : Z -> Prop :=
  linkable tm sep (c_maxdt_minutes c) (c_minlen_arcsec c) (c_min_obs c) (c_window c) (c_nlink c)
    (c_night_start c) (tsort l).

Lemma lnk_lqual : forall c l d, lnk c l d <-> lqual tm sep tsort c l d.
Proof. intros; reflexivity. Qed.

Lemma empty_not_linkable : forall c d, cfg_ok c -> ~ lnk c [] d.
Proof.
  intros c d (Hw & Hn & Hk) (S & H1 & H2 & H3). destruct S as [|t S]; [cbn in H3; lia|].
  destruct (H2 t (or_introl eq_refl)) as [Ht _].
  destruct (tnight_obs tm sep tsort Hts c [] t Ht Hk) as (r & [] & _).
Qed.

Lemma C04_one_proof : forall c wt l,
  1 <= c_window c -> 1 <= c_nlink c -> 1 <= c_min_obs c ->
  (forall r, In r l -> well_phased tm (c_night_start c) r) ->
  c_p c = Fin 1 -> (forall s i, num_lt (draws s i) (Fin 1)) -> (forall k, 0 < wt k) ->
  exists o date n, linkObject src tm ra sep tsort draws c wt l = Ok (o, date, n) /\
    (forall d, date = Some d <-> first_with (lnk c l) d) /\
    (date = None <-> forall d, ~ lnk c l d).
Proof.
  intros c wt l Hw Hn Hk Hp Ep Hd Hwt.
  assert (Hc : cfg_ok c) by (repeat split; auto).
  destruct l as [|x l'] eqn:El.
  - exists no_source, None, O. split; [reflexivity|]. split.
    + intro d. split; [discriminate|]. intros [H _]. exfalso. exact (empty_not_linkable c d Hc H).
    + split; auto. intros _ d. apply empty_not_linkable; auto.
  - rewrite <- El in *. assert (Hne : l <> []) by (rewrite El; discriminate). clear El x l'.
    destruct (linkObject_desc src tm ra sep tsort draws Hts c wt l Hc Hne Hp) as (disc & S & Q & F & N & D & _).
    specialize (F Hwt). specialize (N Hwt).
    assert (Hlt : forall s i, nltb (draws s i) (c_p c) = true) by (intros; rewrite Ep; apply nltb_lt; auto).
    destruct disc as [|d0 disc].
    + cbn [length first_success] in D. exists no_source, None, O. split; auto.
      assert (NL : forall d, ~ lnk c l d).
      { intros d Hq. apply (N d Hq). reflexivity. }
      split; [|tauto].
      intro d. split; [discriminate|]. intros [H _]. exfalso; exact (NL d H).
    + rewrite first_success_now in D by (auto; cbn; lia).
      destruct D as (d & o & En & _ & D). cbn in En. inversion En; subst d0.
      exists (src o), (Some d), (length (d :: disc)). split; auto. split.
      * intro e. rewrite <- (F e). cbn. split; intro H; inversion H; auto.
      * split; [discriminate|]. intro H. exfalso. apply (H d). apply lnk_lqual. apply Q. left; auto.
Qed.

Lemma C04_zero_proof : forall c wt l,
  1 <= c_window c -> 1 <= c_nlink c -> 1 <= c_min_obs c ->
  (forall r, In r l -> well_phased tm (c_night_start c) r) ->
  c_p c = Fin 0 -> (forall s i, num_le (Fin 0) (draws s i)) ->
  linkObject src tm ra sep tsort draws c wt l = Ok (no_source, None, O).
Proof.
  intros c wt l Hw Hn Hk Hp Ep Hd.
  assert (Hc : cfg_ok c) by (repeat split; auto).
  destruct l as [|x l'] eqn:El; [reflexivity|].
  rewrite <- El in *. assert (Hne : l <> []) by (rewrite El; discriminate). clear El x l'.
  destruct (linkObject_desc src tm ra sep tsort draws Hts c wt l Hc Hne Hp) as (disc & _ & _ & _ & _ & D & _).
  rewrite first_success_none in D; auto.
  intro i. rewrite Ep. destruct (nltb _ _) eqn:E; auto. apply nltb_lt in E. exfalso.
  exact (num_le_not_lt _ _ (Hd _ i) E).
Qed.

(** The discovery observation and night for any efficiency. *)
Lemma C56_proof : forall c wt l,
  1 <= c_window c -> 1 <= c_nlink c -> 1 <= c_min_obs c ->
  (forall r, In r l -> well_phased tm (c_night_start c) r) ->
  exists o date n, linkObject src tm ra sep tsort draws c wt l = Ok (o, date, n) /\
    match date with
    | None => o = no_source /\ n = O
    | Some d => lnk c l d /\ (1 <= n)%nat /\
        exists r, In r l /\ src r = o /\ in_window (c_window c) d (night tm (c_night_start c) r) /\
          forall r', In r' l -> in_window (c_window c) d (night tm (c_night_start c) r') -> (tm r <= tm r')%Q
    end.
Proof.
  intros c wt l Hw Hn Hk Hp.
  assert (Hc : cfg_ok c) by (repeat split; auto).
  destruct l as [|x l'] eqn:El; [exists no_source, None, O; auto|].
  rewrite <- El in *. assert (Hne : l <> []) by (rewrite El; discriminate). clear El x l'.
  destruct (linkObject_desc src tm ra sep tsort draws Hts c wt l Hc Hne Hp) as (disc & _ & Q & _ & _ & D & _).
  destruct (first_success _ _ _ _) as [ix|].
  - destruct D as (d & o & En & Eh & D). exists (src o), (Some d), (length disc). split; auto.
    assert (Id : In d disc) by (eapply nth_error_In; eauto).
    split; [apply lnk_lqual, Q; auto|]. split; [destruct disc; [destruct Id|cbn; lia]|].
    exists o.
    remember (filter (fun r => (d - c_window c <? night tm (c_night_start c) r)
                                    && (night tm (c_night_start c) r <=? d)) (tsort l)) as w eqn:Ew.
    destruct w as [|o' g]; [discriminate|]. cbn in Eh; inversion Eh; subst o'.
    assert (Io : In o (o :: g)) by (left; auto). rewrite Ew in Io. apply filter_In in Io as [I1 I2].
    apply andb_true_iff in I2 as [I2 I3]. apply Z.ltb_lt in I2. apply Z.leb_le in I3.
    split; [apply (tsort_in tm tsort Hts); auto|]. split; auto. split; [split; auto|].
    intros r' Hr' [W1 W2].
    assert (I' : In r' (o :: g)).
    { rewrite Ew. apply filter_In. split; [apply (tsort_in tm tsort Hts); auto|].
      apply andb_true_iff; split; [apply Z.ltb_lt|apply Z.leb_le]; auto. }
    destruct (Hts l) as [_ Ss]. 
    assert (SS : StronglySorted (fun a b => (tm a <= tm b)%Q) (o :: g)) by (rewrite Ew; apply ssorted_filter; auto).
    destruct I' as [<-|I']; [apply Qle_refl|]. inversion SS as [|? ? S1 S2]; subst.
    rewrite Forall_forall in S2. apply S2; auto.
  - exists no_source, None, O. auto.
Qed.

(** Two tables holding the same rows of an object, in any order. *)
Lemma tsort_perm : forall l l', Permutation l l' ->
  (forall a b, In a l -> In b l -> (tm a == tm b)%Q -> a = b) -> tsort l = tsort l'.
Proof.
  intros l l' HP Hd. destruct (Hts l) as [P S]. destruct (Hts l') as [P' S'].
  assert (PP : Permutation (tsort l) (tsort l')).
  { etransitivity; [exact P|]. etransitivity; [exact HP|]. apply Permutation_sym; auto. }
  assert (Hd' : forall a b, In a (tsort l) -> In b (tsort l) -> (tm a == tm b)%Q -> a = b).
  { intros a b Ha Hb. apply Hd; apply (tsort_in tm tsort Hts); auto. }
  clear P P' HP Hd Hts. revert S S' PP Hd'. generalize (tsort l) as m, (tsort l') as m'.
  induction m as [|a m IH]; intros m' S S' PP Hd.
  - apply Permutation_nil in PP; auto.
  - destruct m' as [|b m']; [apply Permutation_sym, Permutation_nil in PP; discriminate|].
    inversion S as [|? ? S1 S2]; subst. inversion S' as [|? ? S1' S2']; subst.
    rewrite Forall_forall in S2, S2'.
    assert (Ib : In b (a :: m)) by (eapply Permutation_in; [apply Permutation_sym; eauto|left; auto]).
    assert (Ia : In a (b :: m')) by (eapply Permutation_in; [eauto|left; auto]).
    assert (a = b).
    { destruct Ib as [|Ib]; auto. destruct Ia as [|Ia]; auto.
      apply Hd; [left; auto|right; auto|]. apply Qle_antisym; [apply S2; auto|apply S2'; auto]. }
    subst b. f_equal. apply IH; auto.
    + eapply Permutation_cons_inv; eauto.
    + intros x y Hx Hy. apply Hd; right; auto.
Qed.

Lemma C06_row_order_proof : forall c wt l l', Permutation l l' ->
  (forall a b, In a l -> In b l -> (tm a == tm b)%Q -> a = b) ->
  linkObject src tm ra sep tsort draws c wt l = linkObject src tm ra sep tsort draws c wt l'.
Proof.
  intros c wt l l' HP Hd. unfold linkObject.
  destruct l as [|x l0] eqn:El.
  - apply Permutation_nil in HP; subst. reflexivity.
  - assert (Hne' : l' <> []) by (intros ->; apply Permutation_sym, Permutation_nil in HP; discriminate).
    rewrite <- El in *. assert (Hne : l <> []) by (rewrite El; discriminate). clear El x l0.
    rewrite !match_nonempty by auto. rewrite (tsort_perm l l' HP Hd). reflexivity.
Qed.

Variable osort : list (A * bool * option Z) -> list (A * bool * option Z).
Hypothesis Hos : sorter (fun x : A * bool * option Z => tm (fst (fst x))) osort.
Notation lf := (PPLinkingFilter oid src tm ra sep tsort draws osort).

Lemma lf_members : forall c wts drop l out, lf c wts drop l = Ok out ->
  exists date : string -> option Z,
    (forall r, In r l -> exists k v, linkObject src tm ra sep tsort draws c (wts k) (rows_of oid (oid r) l) = Ok v
        /\ date (oid r) = snd (fst v)) /\
    exists kept, selected (fun r => drop = true -> date (oid r) <> None) l kept /\
      Permutation out (map (fun r => (r, is_some (date (oid r)), date (oid r))) kept) /\
      StronglySorted (fun a b : A * bool * option Z => (tm (fst (fst a)) <= tm (fst (fst b)))%Q) out.
Proof.
  intros c wts drop l out H. destruct (lf_repr oid src tm ra sep tsort draws osort _ _ _ _ _ H) as (date & D & ->).
  exists date. split; [exact D|].
  exists (if drop then filter (fun r => is_some (date (oid r))) l else l). split; [|split; apply Hos].
  destruct drop.
  - apply selected_filter. intros r _. destruct (date (oid r)); cbn; intuition congruence.
  - clear - A. induction l as [|x l IH]; constructor; auto. discriminate.
Qed.

Lemma C05_proof : forall c wts drop l out, lf c wts drop l = Ok out ->
  exists date : string -> option Z,
    exists kept, selected (fun r => drop = true -> date (oid r) <> None) l kept /\
      Permutation out (map (fun r => (r, match date (oid r) with Some _ => true | None => false end, date (oid r))) kept) /\
      StronglySorted (fun a b : A * bool * option Z => (tm (fst (fst a)) <= tm (fst (fst b)))%Q) out.
Proof.
  intros c wts drop l out H. destruct (lf_members _ _ _ _ _ H) as (date & _ & R). exists date. exact R.
Qed.

Lemma C05_rows_proof : forall c wts drop l out, lf c wts drop l = Ok out ->
  (forall r r', In r l -> In r' l -> oid r = oid r' ->
     (In r (map (fun x => fst (fst x)) out) <-> In r' (map (fun x => fst (fst x)) out))) /\
  (drop = false -> Permutation (map (fun x => fst (fst x)) out) l) /\
  (exists l', subseq l' l /\ Permutation (map (fun x => fst (fst x)) out) l').
Proof.
  intros c wts drop l out H. destruct (lf_members _ _ _ _ _ H) as (date & _ & kept & S & P & _).
  assert (P' : Permutation (map (fun x : A * bool * option Z => fst (fst x)) out) kept).
  { apply (Permutation_map (fun x => fst (fst x))) in P. rewrite map_map in P. cbn in P. rewrite map_id in P. auto. }
  split; [|split].
  - intros r r' Hr Hr' E.
    assert (M : forall x, In x (map (fun x : A * bool * option Z => fst (fst x)) out) <-> In x kept).
    { intro x. split; apply Permutation_in; auto. apply Permutation_sym; auto. }
    rewrite !M, !(selected_in _ _ _ _ _ S), E. tauto.
  - intros ->. replace l with kept; auto. clear - S. induction S; auto; [f_equal; auto|].
    exfalso. apply H; discriminate.
  - exists kept. split; auto. eapply selected_subseq; eauto.
Qed.

Lemma C06_proof : forall c,
  1 <= c_window c -> 1 <= c_nlink c -> 1 <= c_min_obs c ->
  exists verdict : list A -> option Z,
  forall wts drop l out, (forall k, generic (wts k) (length l)) -> lf c wts drop l = Ok out ->
    exists kept, selected (fun r => drop = true -> verdict (rows_of oid (oid r) l) <> None) l kept /\
      Permutation out (map (fun r => (r, match verdict (rows_of oid (oid r) l) with Some _ => true | None => false end,
                                      verdict (rows_of oid (oid r) l))) kept).
Proof.
  intros c Hw Hn Hk. exists (verdict src tm ra sep tsort draws c).
  intros wts drop l out Hg H.
  assert (E := lf_verdict oid src tm ra sep tsort draws osort Hts c wts drop l out (conj Hw (conj Hn Hk)) Hg H).
  exists (if drop then filter (fun r => is_some (verdict src tm ra sep tsort draws c (own oid (oid r) l))) l else l).
  split.
  - destruct drop.
    + apply selected_filter. intros r _. change (rows_of oid (oid r) l) with (own oid (oid r) l).
      destruct (verdict src tm ra sep tsort draws c (own oid (oid r) l)); cbn; intuition congruence.
    + clear - A. generalize l at 2 3. intro m. induction m as [|x m IH]; constructor; auto. discriminate.
  - rewrite E. apply Hos.
Qed.

(** Splitting a table by object. *)
Lemma C06_split_proof : forall c wts wts1 wts2 drop l1 l2 out out1 out2,
  1 <= c_window c -> 1 <= c_nlink c -> 1 <= c_min_obs c ->
  (forall k, generic (wts k) (length (l1 ++ l2))) ->
  (forall k, generic (wts1 k) (length l1)) -> (forall k, generic (wts2 k) (length l2)) ->
  (forall r1 r2, In r1 l1 -> In r2 l2 -> oid r1 <> oid r2) ->
  lf c wts drop (l1 ++ l2) = Ok out -> lf c wts1 drop l1 = Ok out1 -> lf c wts2 drop l2 = Ok out2 ->
  Permutation out (out1 ++ out2).
Proof.
  intros c wts wts1 wts2 drop l1 l2 out out1 out2 Hw Hn Hk G G1 G2 Hd E E1 E2.
  assert (Hc : cfg_ok c) by (repeat split; auto).
  apply (lf_verdict oid src tm ra sep tsort draws osort Hts) in E; auto.
  apply (lf_verdict oid src tm ra sep tsort draws osort Hts) in E1; auto.
  apply (lf_verdict oid src tm ra sep tsort draws osort Hts) in E2; auto.
  set (V := verdict src tm ra sep tsort draws c) in *.
  assert (O1 : forall r, In r l1 -> own oid (oid r) (l1 ++ l2) = own oid (oid r) l1).
  { intros r Hr. unfold own. rewrite filter_app.
    replace (filter (fun r0 => String.eqb (oid r0) (oid r)) l2) with (@nil A); [apply app_nil_r|].
    symmetry. destruct (filter (fun r0 => String.eqb (oid r0) (oid r)) l2) as [|x q] eqn:Ef; auto. exfalso.
    assert (I : In x (x :: q)) by (left; auto). rewrite <- Ef in I. apply filter_In in I as [I1 I2].
    apply String.eqb_eq in I2. exact (Hd r x Hr I1 (eq_sym I2)). }
  assert (O2 : forall r, In r l2 -> own oid (oid r) (l1 ++ l2) = own oid (oid r) l2).
  { intros r Hr. unfold own. rewrite filter_app.
    replace (filter (fun r0 => String.eqb (oid r0) (oid r)) l1) with (@nil A); [reflexivity|].
    symmetry. destruct (filter (fun r0 => String.eqb (oid r0) (oid r)) l1) as [|x q] eqn:Ef; auto. exfalso.
    assert (I : In x (x :: q)) by (left; auto). rewrite <- Ef in I. apply filter_In in I as [I1 I2].
    apply String.eqb_eq in I2. exact (Hd x r I1 Hr I2). }
  subst out out1 out2.
  etransitivity; [apply Hos|]. etransitivity; [|apply Permutation_app; apply Permutation_sym; apply Hos].
  assert (F : (if drop then filter (fun r => is_some (V (own oid (oid r) (l1 ++ l2)))) (l1 ++ l2) else l1 ++ l2)
     = (if drop then filter (fun r => is_some (V (own oid (oid r) l1))) l1 else l1) ++
       (if drop then filter (fun r => is_some (V (own oid (oid r) l2))) l2 else l2)).
  { destruct drop; auto. rewrite filter_app.
    f_equal; apply filter_ext_in'; intros r Hr; [rewrite O1 by auto|rewrite O2 by auto]; auto. }
  rewrite F, map_app.
  assert (M1 : forall r, In r (if drop then filter (fun r => is_some (V (own oid (oid r) l1))) l1 else l1) -> In r l1)
    by (intros r Hr; destruct drop; auto; apply filter_In in Hr; tauto).
  assert (M2 : forall r, In r (if drop then filter (fun r => is_some (V (own oid (oid r) l2))) l2 else l2) -> In r l2)
    by (intros r Hr; destruct drop; auto; apply filter_In in Hr; tauto).
  apply Permutation_app.
  - erewrite map_ext_in; [apply Permutation_refl|]. intros r Hr. cbn. rewrite O1 by auto. auto.
  - erewrite map_ext_in; [apply Permutation_refl|]. intros r Hr. cbn. rewrite O2 by auto. auto.
Qed.

Lemma C04_filter_proof : forall c wts drop l,
  1 <= c_window c -> 1 <= c_nlink c -> 1 <= c_min_obs c -> l <> [] ->
  (forall r, In r l -> well_phased tm (c_night_start c) r) ->
  c_p c = Fin 1 -> (forall s i, num_lt (draws s i) (Fin 1)) -> (forall k j, 0 < wts k j) ->
  exists out, lf c wts drop l = Ok out /\
    (forall r b dt, In (r, b, dt) out -> In r l /\
       (b = true <-> exists d, lnk c (rows_of oid (oid r) l) d) /\
       (forall d, dt = Some d <-> first_with (lnk c (rows_of oid (oid r) l)) d)) /\
    (forall r d, In r l -> lnk c (rows_of oid (oid r) l) d -> exists b dt, In (r, b, dt) out).
Proof.
  intros c wts drop l Hw Hn Hk Hne Hp Ep Hd Hwt.
  assert (Hc : cfg_ok c) by (repeat split; auto).
  destruct (lf_ok oid src tm ra sep tsort draws osort Hts c wts drop l Hc Hne Hp) as (out & Eo).
  exists out. split; auto.
  destruct (lf_members _ _ _ _ _ Eo) as (date & D & kept & S & P & _).
  assert (K : forall r, In r l ->
     (forall d, date (oid r) = Some d <-> first_with (lnk c (rows_of oid (oid r) l)) d) /\
     (date (oid r) = None <-> forall d, ~ lnk c (rows_of oid (oid r) l) d)).
  { intros r Hr. destruct (D r Hr) as (k & v & Hv & Ed).
    destruct (C04_one_proof c (wts k) (rows_of oid (oid r) l) Hw Hn Hk) as (o & dt & n & E & K1 & K2); auto.
    { intros x Hx. apply Hp. unfold rows_of in Hx. apply filter_In in Hx; tauto. }
    rewrite Hv in E. inversion E; subst v. cbn in Ed. rewrite Ed. auto. }
  split.
  - intros r b dt Hin.
    eapply Permutation_in in Hin; [|exact P]. apply in_map_iff in Hin as (r' & Er & Hr').
    inversion Er; subst r' b dt. apply (selected_in _ _ _ _ _ S) in Hr' as [Hr _].
    destruct (K r Hr) as [K1 K2]. split; auto. split; auto.
    destruct (date (oid r)) as [d|]; cbn.
    + split; auto. intros _. exists d. apply K1; auto.
    + split; [discriminate|]. intros [d Hq]. exfalso. exact (proj1 K2 eq_refl d Hq).
  - intros r d Hr Hq. destruct (K r Hr) as [K1 K2].
    exists (is_some (date (oid r))), (date (oid r)).
    eapply Permutation_in; [apply Permutation_sym; exact P|]. apply in_map_iff. exists r. split; auto.
    apply (selected_in _ _ _ _ _ S). split; auto. intros _ C. exact (proj1 K2 C d Hq).
Qed.

Lemma C56_total_proof : forall c wts drop l,
  1 <= c_window c -> 1 <= c_nlink c -> 1 <= c_min_obs c -> l <> [] ->
  (forall r, In r l -> well_phased tm (c_night_start c) r) -> exists out, lf c wts drop l = Ok out.
Proof.
  intros. apply lf_ok; auto. repeat split; auto.
Qed.
End Obj.
