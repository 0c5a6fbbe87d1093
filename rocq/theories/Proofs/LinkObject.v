From Coq Require Import String List Arith ZArith QArith Qround Bool Lia Lqa Sorting.Sorted Sorting.Permutation.
From Verif Require Import Base.Prelude Base.Num Base.Strings Model.Linking Spec.Linking Proofs.Linking Proofs.Discovery.
Import ListNotations.
Open Scope Z_scope.

(** ** Windows of observations *)

Lemma slice_window : forall B (key : B -> Z) l p d,
  StronglySorted (fun a b => key a <= key b) l -> p <= d ->
  slice (length (filter (fun y => y <=? p) (map key l)))
        (length (filter (fun y => y <=? d) (map key l))) l
  = filter (fun r => (p <? key r) && (key r <=? d)) l.
Proof.
  intros B key l p d H Hpd. unfold slice. rewrite firstn_count by auto.
  induction H as [|r l H IH F]; cbn; auto.
  destruct (Z.leb_spec (key r) d) as [L|L]; cbn [length].
  - destruct (Z.leb_spec (key r) p) as [L1|L1].
    + cbn [length skipn]. destruct (Z.ltb_spec p (key r)); [lia|]. cbn. auto.
    + assert (E : filter (fun y => y <=? p) (map key l) = []).
      { clear - F L1. induction F as [|y l Hy F IH]; cbn; auto. destruct (Z.leb_spec (key y) p); [lia|auto]. }
      rewrite E in *. cbn in *. destruct (Z.ltb_spec p (key r)); [cbn; f_equal; auto|lia].
  - destruct (Z.leb_spec (key r) p) as [L1|L1]; [lia|].
    rewrite andb_false_r. exact IH.
Qed.

Lemma searchsorted_left_right : forall l x, searchsorted_left l x = length (filter (fun y => y <=? x - 1) l).
Proof.
  intros l x; unfold searchsorted_left. f_equal. apply filter_ext. intro y.
  destruct (Z.ltb_spec y x); destruct (Z.leb_spec y (x - 1)); auto; lia.
Qed.

Lemma slice_head : forall B i j (l : list B) x r, slice i j l = x :: r -> nth_error l i = Some x.
Proof.
  unfold slice. intros B i; induction i as [|i IH]; intros j l x r H.
  - destruct j, l; cbn in *; try discriminate. inversion H; auto.
  - destruct j, l; cbn in *; try discriminate. eapply IH; eauto.
Qed.

Lemma argmin_from_const : forall l best bi i, Forall (fun x => (best <= x)%Q) l -> argmin_from best bi i l = bi.
Proof.
  intros l; induction l as [|x l IH]; intros best bi i H; cbn; auto.
  inversion H; subst. destruct (qltb x best) eqn:E.
  - apply qltb_lt in E. exfalso. exact (Qlt_not_le _ _ E H2).
  - auto.
Qed.

Lemma sorted_same_members : forall l l', StronglySorted Z.lt l -> StronglySorted Z.lt l' ->
  (forall x, In x l <-> In x l') -> l = l'.
Proof.
  induction l as [|x l IH]; intros l' H H' E.
  - destruct l' as [|y l']; auto. exfalso. apply (E y). left; auto.
  - inversion H as [|? ? H1 H2]; subst. rewrite Forall_forall in H2.
    destruct l' as [|y l']; [exfalso; apply (E x); left; auto|].
    inversion H' as [|? ? H1' H2']; subst. rewrite Forall_forall in H2'.
    assert (x = y).
    { destruct (proj1 (E x) (or_introl eq_refl)) as [|I]; auto.
      destruct (proj2 (E y) (or_introl eq_refl)) as [|I']; auto.
      specialize (H2 _ I'). specialize (H2' _ I). lia. }
    subst y. f_equal. apply IH; auto. intro z. split; intro Hz.
    + destruct (proj1 (E z) (or_intror Hz)) as [<-|I]; auto. specialize (H2 _ Hz). lia.
    + destruct (proj2 (E z) (or_intror Hz)) as [<-|I]; auto. specialize (H2' _ Hz). lia.
Qed.

(** ** Night numbers *)

Lemma qtrunc_nonneg : forall q, (0 <= q)%Q -> qtrunc q = Qfloor q.
Proof.
  intros [n d] H. unfold qtrunc, Qfloor. cbn. unfold Qle in H; cbn in H.
  apply Z.quot_div_nonneg; lia.
Qed.

Lemma qtrunc_neg : forall q, (q < 0)%Q -> (q <= inject_Z (qtrunc q))%Q.
Proof.
  intros [n d] H. unfold qtrunc, Qle, inject_Z; cbn. unfold Qlt in H; cbn in H.
  assert (E := Z.quot_rem' n (Zpos d)). assert (R := Z.rem_nonpos n (Zpos d) ltac:(lia) ltac:(lia)). lia.
Qed.

Lemma qfloor_unique : forall q n, (inject_Z n <= q)%Q -> (q < inject_Z (n + 1))%Q -> Qfloor q = n.
Proof.
  intros q n H1 H2.
  assert (F1 := Qfloor_le q). assert (F2 := Qlt_floor q).
  apply Z.le_antisymm.
  - assert ((inject_Z (Qfloor q) < inject_Z (n + 1))%Q) by (eapply Qle_lt_trans; eauto).
    rewrite <- Zlt_Qlt in H. lia.
  - assert ((inject_Z n < inject_Z (Qfloor q + 1))%Q) by (eapply Qle_lt_trans; eauto).
    rewrite <- Zlt_Qlt in H. lia.
Qed.

Section LinkObject.
Context {A : Type}.
Variable src : A -> Z.
Variable tm : A -> Q.
Variable ra : A -> num.
Variable sep : A -> A -> num.
Variable tsort : list A -> list A.
Variable draws : list num -> nat -> num.
Hypothesis Hts : sorter tm tsort.

Notation lo := (linkObject src tm ra sep tsort draws).

Lemma phase_ok_iff : forall start r, phase_ok tm start r = true <-> well_phased tm start r.
Proof.
  intros start r. unfold phase_ok, well_phased, night_of.
  set (q := (tm r - start)%Q).
  rewrite andb_true_iff, !qltb_lt. split.
  - intros [H1 H2]. destruct (Qlt_le_dec q 0) as [L|L].
    + assert (H := qtrunc_neg q L). exfalso. lra.
    + exists (qtrunc q). split.
      * rewrite qtrunc_nonneg by auto. rewrite <- (Qfloor_Z 0). apply Qfloor_resp_le. exact L.
      * split; lra.
  - intros (n & Hn & H1 & H2).
    assert (N : (0 <= inject_Z n)%Q) by (change 0%Q with (inject_Z 0); rewrite <- Zle_Qle; auto).
    assert (E : qtrunc q = n).
    { rewrite qtrunc_nonneg by lra. apply qfloor_unique; [lra|]. rewrite inject_Z_plus. change (inject_Z 1) with 1%Q. lra. }
    rewrite E. split; lra.
Qed.

Lemma night_of_phased : forall start r, well_phased tm start r -> night_of tm start r = night tm start r.
Proof.
  intros start r (n & Hn & H1 & H2). unfold night_of, night. apply qtrunc_nonneg.
  assert (N : (0 <= inject_Z n)%Q) by (change 0%Q with (inject_Z 0); rewrite <- Zle_Qle; auto). lra.
Qed.

Lemma sorted_key : forall start l, (forall r, In r l -> well_phased tm start r) ->
  StronglySorted (fun a b => (tm a <= tm b)%Q) l ->
  StronglySorted (fun a b => night_of tm start a <= night_of tm start b) l.
Proof.
  intros start l Hp H; induction H as [|x l H IH F]; constructor.
  - apply IH. intros; apply Hp; right; auto.
  - rewrite Forall_forall in *. intros y Hy.
    rewrite (night_of_phased start x) by (apply Hp; left; auto).
    rewrite (night_of_phased start y) by (apply Hp; right; auto).
    unfold night. apply Qfloor_resp_le. specialize (F y Hy). lra.
Qed.

Lemma tsort_in : forall l r, In r (tsort l) <-> In r l.
Proof.
  intros l r. destruct (Hts l) as [P _]. split; intro H.
  - eapply Permutation_in; eauto.
  - eapply Permutation_in; [apply Permutation_sym|]; eauto.
Qed.

(** Tracklet nights of an object, in terms of the specification. *)
Definition tnight (c : linkcfg) (l : list A) (d : Z) : Prop :=
  tracklet_night tm sep (c_maxdt_minutes c) (c_minlen_arcsec c) (c_min_obs c)
    (filter (fun r => night tm (c_night_start c) r =? d) (tsort l)).

Definition lqual (c : linkcfg) (l : list A) (d : Z) : Prop :=
  qualifies (tnight c l) (c_window c) (c_nlink c) d.

Lemma tnight_obs : forall c l d, tnight c l d -> 1 <= c_min_obs c -> exists r, In r l /\ night tm (c_night_start c) r = d.
Proof.
  intros c l d H Hk. unfold tnight in H.
  destruct (filter (fun r => night tm (c_night_start c) r =? d) (tsort l)) as [|r g] eqn:E.
  - exfalso. destruct H as [[_ H]|[_ H]]; [congruence|]. destruct H as (l1 & a & l2 & b & l3 & H & _).
    destruct l1; discriminate.
  - assert (I : In r (r :: g)) by (left; auto). rewrite <- E in I. apply filter_In in I as [I1 I2].
    exists r. split; [apply tsort_in; auto|apply Z.eqb_eq; auto].
Qed.

Lemma qualifies_ext : forall T T' w n d, (forall t, T t <-> T' t) -> (qualifies T w n d <-> qualifies T' w n d).
Proof.
  intros T T' w n d H; unfold qualifies. split; intros (S & H1 & H2 & H3); exists S; repeat split; auto;
    try (apply H2; auto); apply H, H2; auto.
Qed.

Lemma first_with_ext : forall q q' d, (forall t, q t <-> q' t) -> (first_with q d <-> first_with q' d).
Proof.
  intros q q' d H; unfold first_with. rewrite H. split; intros [H1 H2]; split; auto; intros e He; specialize (H2 e He);
    rewrite H in *; auto; rewrite <- H; auto.
Qed.

(** The discovery nights, for a positive number of required tracklets. *)
Lemma disc_any : forall nights flags window nlink wt,
  StronglySorted Z.lt nights -> length flags = length nights -> 1 <= window -> 1 <= nlink -> nights <> [] ->
  let q := qualifies (fun t => In (t, true) (combine nights flags)) window nlink in
  exists disc, disc_nights nights flags window nlink wt = Ok disc /\
    StronglySorted Z.lt disc /\
    (forall d, In d disc -> q d) /\
    ((forall k, 0 < wt k) -> forall d, hd_error disc = Some d <-> first_with q d) /\
    ((forall k, 0 < wt k) -> forall d, q d -> disc <> []) /\
    (forall wt', generic wt (length nights) -> generic wt' (length nights) ->
       disc_nights nights flags window nlink wt' = Ok disc).
Proof.
  intros nights flags window nlink wt Hs Hl Hw Hn Hne q.
  destruct (Z.eq_dec nlink 1) as [->|Hn1].
  - unfold disc_nights. cbn [Z.ltb]. change (1 <? 1) with false. cbv iota.
    assert (Ts := T_sorted nights flags Hs Hl). assert (Ti := T_in nights flags).
    set (T := map fst (filter snd (combine nights flags))) in *.
    exists T. split; auto. split; auto.
    assert (Hq : forall t, In t T -> q t).
    { intros t Ht. exists [t]. repeat split.
      - repeat constructor. intros [].
      - destruct H as [<-|[]]. apply Ti; auto.
      - destruct H as [<-|[]]. lia.
      - destruct H as [<-|[]]. lia.
      - cbn; lia. }
    assert (Hq' : forall d, q d -> exists t, In t T /\ t <= d).
    { intros d (S & H1 & H2 & H3). destruct S as [|t S]; [cbn in H3; lia|].
      exists t. destruct (H2 t (or_introl eq_refl)) as [H4 H5]. split; [apply Ti; auto|apply H5]. }
    split; auto. split; [|split; [|intros; reflexivity]].
    2:{ intros _ d Qd E. destruct (Hq' d Qd) as (t & Ht & _). rewrite E in Ht. destruct Ht. }
    intros _ d. split.
    + intro H. destruct T as [|x r]; [discriminate|]. inversion H; subst x. split; [apply Hq; left; auto|].
      intros e He C. destruct (Hq' e C) as (t & Ht & Hle). inversion Ts as [|? ? H1 H2]; subst.
      rewrite Forall_forall in H2. destruct Ht as [<-|Ht]; [lia|]. specialize (H2 _ Ht). lia.
    + intros [H1 H2]. destruct (Hq' d H1) as (t & Ht & Hle). destruct T as [|x r]; [destruct Ht|].
      cbn. f_equal. inversion Ts as [|? ? H3 H4]; subst. rewrite Forall_forall in H4.
      assert (x <= t) by (destruct Ht as [<-|Ht]; [lia|specialize (H4 _ Ht); lia]).
      destruct (Z.lt_ge_cases x d); [|lia]. exfalso. apply (H2 x); auto. apply Hq; left; auto.
  - assert (Hn' : 1 < nlink) by lia.
    destruct (disc_sound nights flags window nlink wt Hs Hl Hw Hn' Hne) as (disc & E & S & Q).
    exists disc. split; [auto|]. split; [auto|]. split; [intros d Hd; apply Q; auto|]. split.
    + intros Hpos d.
      destruct (disc_first nights flags window nlink wt Hs Hl Hw Hn' Hne Hpos) as (disc' & E' & F & _).
      rewrite E in E'; inversion E'; subst. apply F.
    + split.
      { intros Hpos d. destruct (disc_first nights flags window nlink wt Hs Hl Hw Hn' Hne Hpos) as (disc' & E' & _ & F).
        rewrite E in E'; inversion E'; subst. apply F. }
      intros wt' G G'.
      destruct (disc_exact nights flags window nlink wt Hs Hl Hw Hn' Hne G) as (d1 & E1 & S1 & X1).
      destruct (disc_exact nights flags window nlink wt' Hs Hl Hw Hn' Hne G') as (d2 & E2 & S2 & X2).
      rewrite E in E1; inversion E1; subst d1. rewrite E2. f_equal.
      apply sorted_same_members; auto. intro x. rewrite X1, X2. tauto.
Qed.

Definition cfg_ok (c : linkcfg) : Prop := 1 <= c_window c /\ 1 <= c_nlink c /\ 1 <= c_min_obs c.

Lemma forall2_length : forall B C (R : B -> C -> Prop) l l', Forall2 R l l' -> length l' = length l.
Proof. induction 1; cbn; auto. Qed.

Lemma forall2_combine : forall (nights : list Z) (flags : list bool) (P : Z -> Prop),
  Forall2 (fun d h => h = true <-> P d) nights flags ->
  forall t, In (t, true) (combine nights flags) <-> In t nights /\ P t.
Proof.
  intros nights flags P H; induction H as [|d h ds hs Hd H IH]; intro t; cbn; [tauto|].
  rewrite IH. split.
  - intros [E|[H1 H2]]; [inversion E; subst; split; auto; apply Hd; auto|auto].
  - intros [[->|H1] H2]; auto. left. f_equal. apply Hd; auto.
Qed.

(** The general description of [linkObject]. *)
Lemma linkObject_desc : forall c wt l0, cfg_ok c -> l0 <> [] ->
  (forall r, In r l0 -> well_phased tm (c_night_start c) r) ->
  exists disc,
    StronglySorted Z.lt disc /\
    (forall d, In d disc -> lqual c l0 d) /\
    ((forall k, 0 < wt k) -> forall d, hd_error disc = Some d <-> first_with (lqual c l0) d) /\
    ((forall k, 0 < wt k) -> forall d, lqual c l0 d -> disc <> []) /\
    (match first_success (c_p c) (draws (map ra (tsort l0))) 0 (length disc) with
     | None => lo c wt l0 = Ok (no_source, None, O)
     | Some ix => exists d o, nth_error disc ix = Some d /\
         hd_error (filter (fun r => (d - c_window c <? night tm (c_night_start c) r)
                                    && (night tm (c_night_start c) r <=? d)) (tsort l0)) = Some o /\
         lo c wt l0 = Ok (src o, Some d, length disc)
     end) /\
    (forall wt', generic wt (length l0) -> generic wt' (length l0) -> lo c wt' l0 = lo c wt l0).
Proof.
  intros c wt l0 (Hw & Hn & Hk) Hne Hp.
  destruct (Hts l0) as [Hperm Hsorted].
  assert (Hp' : forall r, In r (tsort l0) -> well_phased tm (c_night_start c) r) by (intros; apply Hp, tsort_in; auto).
  assert (Hkey := sorted_key (c_night_start c) (tsort l0) Hp' Hsorted).
  destruct (trackletsInNights_ok tm sep (night_of tm (c_night_start c)) (tsort l0)
              (c_maxdt_minutes c) (c_minlen_arcsec c) (c_min_obs c) Hk Hsorted Hkey)
    as (nights & flags & Etr & Hns & Hnin & Hf).
  assert (Hlen := forall2_length _ _ _ _ _ Hf).
  assert (Hnne : nights <> []).
  { intros ->. destruct l0 as [|r l0']; [congruence|].
    apply (in_nil (a := night_of tm (c_night_start c) r)). apply Hnin. exists r; split; auto. apply tsort_in; left; auto. }
  destruct (disc_any nights flags (c_window c) (c_nlink c) wt Hns Hlen Hw Hn Hnne) as (disc & Ed & Sd & Qd & Fd & Nd & Gd).
  assert (Hkeyn : forall r, In r (tsort l0) -> night_of tm (c_night_start c) r = night tm (c_night_start c) r).
  { intros r Hr. apply night_of_phased; auto. }
  assert (TN : forall t, In (t, true) (combine nights flags) <-> tnight c l0 t).
  { intro t. rewrite (forall2_combine nights flags _ Hf t). unfold tnight.
    assert (EF : forall d, filter (fun r => night_of tm (c_night_start c) r =? d) (tsort l0)
               = filter (fun r => night tm (c_night_start c) r =? d) (tsort l0)).
    { intro d. apply filter_ext_in'. intros r Hr. rewrite Hkeyn; auto. }
    rewrite EF. split; [tauto|]. intro H; split; auto. apply Hnin.
    destruct (tnight_obs c l0 t H Hk) as (r & Hr & Hn'). exists r. apply tsort_in in Hr. split; auto. rewrite Hkeyn; auto. }
  assert (QE : forall d, qualifies (fun t => In (t, true) (combine nights flags)) (c_window c) (c_nlink c) d <-> lqual c l0 d)
    by (intro d; apply qualifies_ext; auto).
  assert (Hphase : forallb (phase_ok tm (c_night_start c)) (tsort l0) = true).
  { apply forallb_forall. intros r Hr. apply phase_ok_iff; auto. }
  assert (Hlol : forall w, lo c w l0 =
    (id <- discoveryOpportunities nights flags (c_window c) (c_nlink c) (c_p c) w (draws (map ra (tsort l0))) ;;
     match fst id with
     | None => Ok (no_source, None, O)
     | Some ix =>
         match nth_error (snd id) ix with
         | None => Err IndexError
         | Some date =>
             let i := searchsorted_left (map (night_of tm (c_night_start c)) (tsort l0)) (date - c_window c + 1) in
             let j := searchsorted_left (map (night_of tm (c_night_start c)) (tsort l0)) (date + 1) in
             (k <- argmin (map tm (slice i j (tsort l0))) ;;
              match nth_error (tsort l0) (i + k)%nat, nth_error (map (night_of tm (c_night_start c)) (tsort l0)) (i + k)%nat with
              | Some o, Some n =>
                  if date <? n + c_window c
                  then Ok (src o, Some date, length (snd id))
                  else Err AssertionError
              | _, _ => Err IndexError
              end)%result
         end
     end)%result).
  { intro w. unfold linkObject. rewrite match_nonempty by auto. rewrite Hphase. cbn [negb].
    rewrite Etr. cbn [rbind fst snd]. reflexivity. }
  exists disc. split; auto. split; [intros; apply QE; auto|]. split.
  { intros Hpos d. rewrite (Fd Hpos d). apply first_with_ext; auto. }
  split.
  { intros Hpos d Hd. apply (Nd Hpos d). apply QE; auto. }
  split.
  - unfold discoveryOpportunities in Hlol.
    destruct (first_success (c_p c) (draws (map ra (tsort l0))) 0 (length disc)) as [ix|] eqn:Efs.
    + assert (Hix : (ix < length disc)%nat).
      { clear - Efs. assert (forall n k ix, first_success (c_p c) (draws (map ra (tsort l0))) k n = Some ix -> (ix < k + n)%nat).
        { induction n as [|n IH]; intros k i H; cbn in H; [discriminate|].
          destruct (nltb _ _); [inversion H; lia|]. apply IH in H. lia. }
        specialize (H _ _ _ Efs). lia. }
      destruct (nth_error disc ix) as [d|] eqn:Enth; [|apply nth_error_None in Enth; lia].
      assert (Hqd : lqual c l0 d) by (apply QE, Qd; eapply nth_error_In; eauto).
      assert (EW : filter (fun r => (d - c_window c <? night tm (c_night_start c) r) && (night tm (c_night_start c) r <=? d)) (tsort l0)
              = slice (searchsorted_left (map (night_of tm (c_night_start c)) (tsort l0)) (d - c_window c + 1))
                      (searchsorted_left (map (night_of tm (c_night_start c)) (tsort l0)) (d + 1)) (tsort l0)).
      { rewrite !searchsorted_left_right. replace (d - c_window c + 1 - 1) with (d - c_window c) by lia.
        replace (d + 1 - 1) with d by lia. rewrite slice_window by (auto; lia).
        apply filter_ext_in'. intros r Hr. rewrite Hkeyn; auto. }
      assert (HX : exists o g, filter (fun r => (d - c_window c <? night tm (c_night_start c) r) && (night tm (c_night_start c) r <=? d)) (tsort l0) = o :: g).
      { destruct Hqd as (S & H1 & H2 & H3). destruct S as [|t S]; [cbn in H3; lia|].
        destruct (H2 t (or_introl eq_refl)) as [Ht [W1 W2]].
        destruct (tnight_obs c l0 t Ht Hk) as (r & Hr & En).
        assert (I : In r (filter (fun r => (d - c_window c <? night tm (c_night_start c) r) && (night tm (c_night_start c) r <=? d)) (tsort l0))).
        { apply filter_In. split; [apply tsort_in; auto|]. rewrite En.
          apply andb_true_iff; split; [apply Z.ltb_lt|apply Z.leb_le]; lia. }
        destruct (filter _ (tsort l0)) as [|o g]; [destruct I|eauto]. }
      destruct HX as (o & g & EX).
      exists d, o. split; auto. split; [rewrite EX; auto|].
      rewrite Hlol, Ed. cbn [rbind fst snd]. rewrite Efs. rewrite Enth. cbv zeta.
      assert (Eo : In o (filter (fun r => (d - c_window c <? night tm (c_night_start c) r) && (night tm (c_night_start c) r <=? d)) (tsort l0))) by (rewrite EX; left; auto).
      apply filter_In in Eo as [Io Bo]. apply andb_true_iff in Bo as [Bo1 Bo2].
      apply Z.ltb_lt in Bo1.
      rewrite EW in EX. assert (Hh := slice_head _ _ _ _ _ _ EX).
      set (i := searchsorted_left (map (night_of tm (c_night_start c)) (tsort l0)) (d - c_window c + 1)) in *.
      rewrite EX. cbn [map argmin]. rewrite argmin_from_const.
      2:{ rewrite <- EW in EX.
          assert (SS : StronglySorted (fun a b => (tm a <= tm b)%Q) (o :: g)) by (rewrite <- EX; apply ssorted_filter; auto).
          inversion SS as [|? ? S1 S2]; subst. clear - S2. induction S2; cbn; constructor; auto. }
      cbn [rbind]. rewrite Nat.add_0_r, Hh. rewrite (map_nth_error _ _ _ Hh).
      rewrite Hkeyn by auto. destruct (Z.ltb_spec d (night tm (c_night_start c) o + c_window c)); [auto|lia].
    + rewrite Hlol, Ed. cbn [rbind fst snd]. rewrite Efs. reflexivity.
  - intros wt' G G'. rewrite !Hlol. unfold discoveryOpportunities. rewrite Ed.
    assert (Hll : (length nights <= length l0)%nat).
    { transitivity (length (map (night_of tm (c_night_start c)) (tsort l0))).
      - apply NoDup_incl_length; [apply ssorted_NoDup; auto|]. intros x Hx. apply Hnin in Hx as (r & Hr & <-).
        apply in_map; auto.
      - rewrite map_length. rewrite (Permutation_length Hperm). auto. }
    rewrite (Gd wt'); auto; intros a b cc dd Hab Hcd; [apply G|apply G']; lia.
Qed.
End LinkObject.
