From Coq Require Import String List Arith ZArith QArith Qround Bool Lia Lqa Sorting.Sorted Sorting.Permutation.
From Verif Require Import Base.Prelude Base.Num Base.Strings Model.Linking Spec.Linking
  Proofs.Linking Proofs.Discovery Proofs.LinkObject.
Import ListNotations.
Open Scope Z_scope.

(** ** First success *)

Lemma first_success_none : forall p draw n k, (forall i, nltb (draw i) p = false) -> first_success p draw k n = None.
Proof. induction n; intros k H; cbn; auto. rewrite H; auto. Qed.

Lemma first_success_now : forall p draw n k, nltb (draw k) p = true -> (0 < n)%nat -> first_success p draw k n = Some k.
Proof. intros p draw [|n] k H L; [lia|]. cbn. rewrite H; auto. Qed.

(** ** Generic weights exist *)

Lemma prefix_pow2 : forall n, prefix_sum (fun k => 2 ^ Z.of_nat k) n = 2 ^ Z.of_nat n - 1.
Proof.
  induction n as [|n IH]; [reflexivity|]. cbn [prefix_sum]. rewrite IH.
  rewrite Nat2Z.inj_succ, Z.pow_succ_r by lia. lia.
Qed.

Lemma pow2_diff_inj : forall a b c d, 0 <= a < b -> 0 <= c < d -> 2 ^ b - 2 ^ a = 2 ^ d - 2 ^ c -> a = c /\ b = d.
Proof.
  assert (H : forall a b c d, 0 <= a < b -> 0 <= c < d -> 2 ^ b - 2 ^ a = 2 ^ d - 2 ^ c -> ~ a < c).
  { intros a b c d Hab Hcd E L.
    assert (E1 : 2 ^ b = 2 ^ a * (2 * 2 ^ (b - a - 1))).
    { rewrite <- Z.pow_succ_r by lia. rewrite <- Z.pow_add_r by lia. f_equal. lia. }
    assert (E2 : 2 ^ c = 2 ^ a * (2 * 2 ^ (c - a - 1))).
    { rewrite <- Z.pow_succ_r by lia. rewrite <- Z.pow_add_r by lia. f_equal. lia. }
    assert (E3 : 2 ^ d = 2 ^ a * (2 * 2 ^ (d - a - 1))).
    { rewrite <- Z.pow_succ_r by lia. rewrite <- Z.pow_add_r by lia. f_equal. lia. }
    assert (P : 0 < 2 ^ a) by (apply Z.pow_pos_nonneg; lia).
    assert (F : 2 ^ a * (2 * 2 ^ (b - a - 1) - 1) = 2 ^ a * (2 * 2 ^ (d - a - 1) - 2 * 2 ^ (c - a - 1))) by lia.
    apply Z.mul_reg_l in F; lia. }
  intros a b c d Hab Hcd E.
  assert (a = c).
  { destruct (Z.lt_trichotomy a c) as [L|[L|L]]; auto; exfalso.
    - exact (H a b c d Hab Hcd E L).
    - exact (H c d a b Hcd Hab (eq_sym E) L). }
  subst c. split; auto. apply (Z.pow_inj_r 2); lia.
Qed.

Lemma generic_pow2 : forall n, generic (fun k => 2 ^ Z.of_nat k) n.
Proof.
  intros n a b c d Hab Hcd. rewrite !prefix_pow2. split.
  - assert (2 ^ Z.of_nat a < 2 ^ Z.of_nat b) by (apply Z.pow_lt_mono_r; lia). lia.
  - intro E. destruct (pow2_diff_inj (Z.of_nat a) (Z.of_nat b) (Z.of_nat c) (Z.of_nat d)); lia.
Qed.

Lemma generic_le : forall w n m, (m <= n)%nat -> generic w n -> generic w m.
Proof. intros w n m L G a b c d H1 H2; apply G; lia. Qed.

Section Link.
Context {A : Type}.
Variable oid : A -> string.
Variable src : A -> Z.
Variable tm : A -> Q.
Variable ra : A -> num.
Variable sep : A -> A -> num.
Variable tsort : list A -> list A.
Variable draws : list num -> nat -> num.
Variable osort : list (A * bool * option Z) -> list (A * bool * option Z).
Hypothesis Hts : sorter tm tsort.
Hypothesis Hos : sorter (fun x : A * bool * option Z => tm (fst (fst x))) osort.

Notation lo := (linkObject src tm ra sep tsort draws).
Notation lf := (PPLinkingFilter oid src tm ra sep tsort draws osort).

(** ** Grouping *)

Definition own (i : string) (l : list A) : list A := filter (fun r => String.eqb (oid r) i) l.

Lemma insert_own : forall i r l, own i (insert_id oid r l) = own i (r :: l).
Proof.
  intros i r l; induction l as [|x l IH]; cbn; auto.
  destruct (String.leb (oid r) (oid x)) eqn:E; auto.
  cbn [own filter]. fold (own i (insert_id oid r l)). rewrite IH. cbn.
  destruct (String.eqb_spec (oid x) i) as [Ex|Ex]; destruct (String.eqb_spec (oid r) i) as [Er|Er]; auto.
  exfalso. rewrite Er, Ex, string_leb_refl in E. discriminate.
Qed.

Lemma sort_own : forall i l, own i (sort_ids oid l) = own i l.
Proof.
  intros i l; unfold sort_ids; induction l as [|r l IH]; cbn [fold_right]; auto.
  rewrite insert_own. cbn. fold (own i (fold_right (insert_id oid) [] l)). rewrite IH. reflexivity.
Qed.

Lemma insert_in : forall r x l, In x (insert_id oid r l) <-> x = r \/ In x l.
Proof.
  intros r x l; induction l as [|y l IH]; cbn; [intuition|].
  destruct (String.leb _ _); cbn; [intuition|]. rewrite IH. intuition.
Qed.

Lemma sort_in : forall x l, In x (sort_ids oid l) <-> In x l.
Proof.
  intros x l; unfold sort_ids; induction l as [|r l IH]; cbn; [tauto|]. rewrite insert_in, IH. intuition.
Qed.

Definition ble (a b : A) : Prop := String.leb (oid a) (oid b) = true.

Lemma insert_sorted : forall r l, StronglySorted ble l -> StronglySorted ble (insert_id oid r l).
Proof.
  intros r l H; induction H as [|x l H IH F]; cbn; [repeat constructor|].
  destruct (String.leb (oid r) (oid x)) eqn:E.
  - constructor; [constructor; auto|]. constructor; auto.
    rewrite Forall_forall in *. intros y Hy. unfold ble. eapply string_leb_trans; eauto. apply F; auto.
  - constructor; auto. rewrite Forall_forall in *. intros y Hy. apply insert_in in Hy as [->|Hy]; auto.
    unfold ble. apply string_leb_false; auto.
Qed.

Lemma sort_sorted : forall l, StronglySorted ble (sort_ids oid l).
Proof. intros l; unfold sort_ids; induction l; cbn; [constructor|apply insert_sorted; auto]. Qed.

Lemma runs_head : forall r l, exists g gs, runs oid (r :: l) = (oid r, r :: g) :: gs.
Proof.
  intros r l; cbn. destruct (runs oid l) as [|[i g] gs]; [eauto|].
  destruct (String.eqb_spec (oid r) i); subst; eauto.
Qed.

Lemma runs_spec : forall l, StronglySorted ble l ->
  NoDup (map fst (runs oid l)) /\
  (forall i g, In (i, g) (runs oid l) -> g = own i l /\ g <> []) /\
  (forall r, In r l -> In (oid r) (map fst (runs oid l))) /\
  (forall i, In i (map fst (runs oid l)) -> exists r, In r l /\ oid r = i).
Proof.
  intros l H; induction H as [|r l H IH F].
  - split; [constructor|]. split; [intros ? ? []|]. split; [intros ? []|intros ? []].
  - destruct IH as (I1 & I2 & I3 & I4).
    destruct l as [|s l].
    + cbn. repeat split.
      * repeat constructor; auto.
      * destruct H0 as [E|[]]. inversion E; subst. rewrite String.eqb_refl. auto.
      * destruct H0 as [E|[]]. inversion E; subst. discriminate.
      * intros x [->|[]]; auto.
      * intros i [<-|[]]. eauto.
    + destruct (runs_head s l) as (g & gs & E).
      change (runs oid (r :: s :: l)) with
        (match runs oid (s :: l) with
         | (i, g) :: gs => if String.eqb (oid r) i then (i, r :: g) :: gs else (oid r, [r]) :: (i, g) :: gs
         | [] => [(oid r, [r])]
         end).
      rewrite E in *. destruct (String.eqb_spec (oid r) (oid s)) as [Ers|Ers].
      * cbn [map fst] in *. inversion I1 as [|? ? N1 N2]; subst. repeat split; auto.
        -- destruct H0 as [Eq|H0].
           ++ inversion Eq; subst. cbn [own filter]. rewrite (proj2 (String.eqb_eq _ _) Ers). f_equal.
              apply I2; left; auto.
           ++ destruct (I2 i g0 (or_intror H0)) as [-> _]. cbn [own filter].
              destruct (String.eqb_spec (oid r) i) as [C|C]; auto. exfalso. apply N1.
              rewrite <- Ers, C. apply in_map_iff. exists (i, own i (s :: l)). auto.
        -- destruct H0 as [Eq|H0]; [inversion Eq; discriminate|]. apply (I2 i g0); right; auto.
        -- intros x [<-|Hx]; [left; auto|]. apply I3; auto.
        -- intros i Hi. destruct (I4 i Hi) as (x & Hx & Ex). exists x; split; [right|]; auto.
      * assert (Nr : forall x, In x (s :: l) -> oid x <> oid r).
        { intros x Hx C. apply Ers. rewrite Forall_forall in F. inversion H as [|? ? H1 H2]; subst.
          assert (B1 : String.leb (oid r) (oid s) = true) by (apply F; left; auto).
          assert (B2 : String.leb (oid s) (oid x) = true).
          { destruct Hx as [<-|Hx]; [apply string_leb_refl|]. rewrite Forall_forall in H2. apply H2; auto. }
          rewrite C in B2. apply String.leb_antisym; auto. }
        cbn [map fst]. repeat split.
        -- constructor; auto. intro C. destruct (I4 (oid r)) as (x & Hx & Ex); auto. exact (Nr x Hx Ex).
        -- destruct H0 as [Eq|H0].
           ++ inversion Eq; subst. cbn [own filter]. rewrite String.eqb_refl. f_equal.
              destruct (filter (fun r0 => String.eqb (oid r0) (oid r)) (s :: l)) as [|x q] eqn:Ef.
              ** cbn [filter] in Ef. auto.
              ** exfalso. assert (Ix : In x (x :: q)) by (left; auto). rewrite <- Ef in Ix.
                 apply filter_In in Ix as [Ix1 Ix2]. apply String.eqb_eq in Ix2. exact (Nr x Ix1 Ix2).
           ++ destruct (I2 i g0 H0) as [-> _]. cbn [own filter].
              destruct (String.eqb_spec (oid r) i) as [C|C]; auto. exfalso.
              destruct (I4 i) as (x & Hx & Ex); [apply in_map_iff; exists (i, own i (s :: l)); auto|].
              apply (Nr x Hx). congruence.
        -- destruct H0 as [Eq|H0]; [inversion Eq; discriminate|]. apply (I2 i g0); auto.
        -- intros x [<-|Hx]; [left; auto|]. right; apply I3; auto.
        -- intros i [<-|Hi]; [exists r; split; [left|]; auto|].
           destruct (I4 i Hi) as (x & Hx & Ex). exists x; split; [right|]; auto.
Qed.

Lemma link_loop_spec : forall c wts gs k obj, link_loop src tm ra sep tsort draws c wts k gs = Ok obj ->
  map fst obj = map fst gs /\
  forall i v, In (i, v) obj -> exists g k', In (i, g) gs /\ lo c (wts k') g = Ok v.
Proof.
  intros c wts gs; induction gs as [|[i g] gs IH]; intros k obj H; cbn in H.
  - inversion H; split; auto. intros ? ? [].
  - destruct (lo c (wts k) g) as [v|] eqn:E; [|discriminate]. cbn in H.
    destruct (link_loop src tm ra sep tsort draws c wts (S k) gs) as [r|] eqn:Er; [|discriminate].
    cbn in H. inversion H; subst. destruct (IH _ _ Er) as [I1 I2]. split; [cbn; f_equal; auto|].
    intros j w [Eq|Hj].
    + inversion Eq; subst. exists g, k. split; [left|]; auto.
    + destruct (I2 j w Hj) as (g' & k' & H1 & H2). exists g', k'. split; [right|]; auto.
Qed.

Lemma link_loop_ok : forall c wts gs k,
  (forall i g k', In (i, g) gs -> exists v, lo c (wts k') g = Ok v) ->
  exists obj, link_loop src tm ra sep tsort draws c wts k gs = Ok obj.
Proof.
  intros c wts gs; induction gs as [|[i g] gs IH]; intros k H; cbn; [eauto|].
  destruct (H i g k (or_introl eq_refl)) as [v ->]. cbn.
  destruct (IH (S k)) as [obj ->]; [intros; eapply H; right; eauto|]. cbn. eauto.
Qed.

(** ** The filter in terms of per-object verdicts *)

Definition annot (date : string -> option Z) (r : A) : A * bool * option Z :=
  (r, is_some (date (oid r)), date (oid r)).

Lemma assoc_unique : forall B (l : list (string * B)) i v w, NoDup (map fst l) -> In (i, v) l -> In (i, w) l -> v = w.
Proof.
  intros B l i v w Hn Hv Hw. induction l as [|[j u] l IH]; [destruct Hv|].
  cbn in Hn. inversion Hn as [|? ? N1 N2]; subst.
  assert (NI : forall z, In (j, z) l -> False).
  { intros z Hz. apply N1. apply in_map_iff. exists (j, z); auto. }
  destruct Hv as [Ev|Hv]; destruct Hw as [Ew|Hw].
  - congruence.
  - inversion Ev; subst. exfalso; eauto.
  - inversion Ew; subst. exfalso; eauto.
  - apply IH; auto.
Qed.

Lemma filter_assoc : forall B (l : list (string * B)) i v, NoDup (map fst l) -> In (i, v) l ->
  filter (fun o => String.eqb i (fst o)) l = [(i, v)].
Proof.
  intros B l i v Hn Hv. induction l as [|[j u] l IH]; [destruct Hv|].
  cbn in Hn. inversion Hn as [|? ? N1 N2]; subst. cbn [filter fst].
  destruct (String.eqb_spec i j) as [->|E].
  - destruct Hv as [Ev|Hv]; [|exfalso; apply N1; apply in_map_iff; exists (j, v); auto].
    inversion Ev; subst. f_equal.
    destruct (filter (fun o => String.eqb j (fst o)) l) as [|[x y] q] eqn:Ef; auto. exfalso.
    assert (I : In (x, y) ((x, y) :: q)) by (left; auto). rewrite <- Ef in I. apply filter_In in I as [I1 I2].
    cbn in I2. apply String.eqb_eq in I2; subst. apply N1. apply in_map_iff. exists (x, y); auto.
  - destruct Hv as [Ev|Hv]; [inversion Ev; congruence|]. apply IH; auto.
Qed.

Lemma flat_map_singleton : forall B C (f : B -> list C) (g : B -> C) l,
  (forall x, In x l -> f x = [g x]) -> flat_map f l = map g l.
Proof.
  intros B C f g l H; induction l as [|x l IH]; cbn; auto. rewrite (H x) by (left; auto). cbn.
  f_equal. apply IH. intros; apply H; right; auto.
Qed.

Lemma lf_repr : forall c wts drop l out, lf c wts drop l = Ok out ->
  exists date : string -> option Z,
    (forall r, In r l -> exists k v, lo c (wts k) (own (oid r) l) = Ok v /\ date (oid r) = snd (fst v)) /\
    out = osort (map (annot date) (if drop then filter (fun r => is_some (date (oid r))) l else l)).
Proof.
  intros c wts drop l out H. unfold PPLinkingFilter in H.
  destruct l as [|r0 l0] eqn:El; [discriminate|]. rewrite <- El in *. clear El r0 l0.
  unfold linkObservations in H.
  destruct (link_loop src tm ra sep tsort draws c wts 0 (runs oid (sort_ids oid l))) as [obj|] eqn:Eo; [|discriminate].
  cbn [rbind] in H.
  destruct (link_loop_spec _ _ _ _ _ Eo) as [E1 E2].
  destruct (runs_spec _ (sort_sorted l)) as (R1 & R2 & R3 & R4).
  assert (ND : NoDup (map fst obj)) by (rewrite E1; auto).
  set (date := fun i => match filter (fun o : string * (Z * option Z * nat) => String.eqb i (fst o)) obj with
                        | o :: _ => snd (fst (snd o)) | [] => None end).
  exists date.
  assert (D : forall r, In r l -> exists v, In (oid r, v) obj /\
     filter (fun o => String.eqb (oid r) (fst o)) obj = [(oid r, v)] /\ date (oid r) = snd (fst v)).
  { intros r Hr. assert (I : In (oid r) (map fst obj)) by (rewrite E1; apply R3, sort_in; auto).
    apply in_map_iff in I as ([i v] & Ei & Hi). cbn in Ei; subst i. exists v.
    assert (Ef := filter_assoc _ _ _ _ ND Hi). repeat split; auto. unfold date. rewrite Ef. auto. }
  assert (FL : forall r, In r l -> existsb (String.eqb (oid r))
             (map fst (filter (fun o : string * (Z * option Z * nat) => is_some (snd (fst (snd o)))) obj)) = is_some (date (oid r))).
  { intros r Hr. destruct (D r Hr) as (v & Hv & _ & Ed). rewrite Ed. apply eq_true_iff_eq.
    rewrite existsb_exists. split.
    - intros (i & Hi & Ei). apply String.eqb_eq in Ei; subst i. apply in_map_iff in Hi as ([j w] & Ej & Hj).
      cbn in Ej; subst j. apply filter_In in Hj as [Hj1 Hj2]. cbn in Hj2.
      rewrite (assoc_unique _ _ _ _ _ ND Hv Hj1). auto.
    - intro Hs. exists (oid r). split; [|apply String.eqb_refl]. apply in_map_iff. exists (oid r, v). split; auto.
      apply filter_In; split; auto. }
  split.
  - intros r Hr. destruct (D r Hr) as (v & Hv & _ & Ed). destruct (E2 _ _ Hv) as (g & k & Hg & Hl).
    destruct (R2 _ _ Hg) as [-> _]. exists k, v. rewrite sort_own in Hl. auto.
  - inversion H. f_equal.
    assert (FM : forall l', (forall r, In r l' -> In r l) ->
      flat_map (fun r => map (fun o => (r, existsb (String.eqb (oid r))
         (map fst (filter (fun o : string * (Z * option Z * nat) => is_some (snd (fst (snd o)))) obj)), snd (fst (snd o))))
         (filter (fun o => String.eqb (oid r) (fst o)) obj)) l' = map (annot date) l').
    { intros l' Hl'. apply flat_map_singleton. intros r Hr. apply Hl' in Hr.
      destruct (D r Hr) as (v & _ & Ef & Ed). rewrite Ef. cbn [map snd fst]. rewrite FL by auto.
      unfold annot. rewrite Ed. auto. }
    destruct drop.
    + rewrite FM by (intros r Hr; apply filter_In in Hr; tauto).
      f_equal. apply filter_ext_in'. intros r Hr. apply FL; auto.
    + apply FM; auto.
Qed.

Lemma own_in : forall i l r, In r (own i l) <-> In r l /\ oid r = i.
Proof. intros. unfold own. rewrite filter_In, String.eqb_eq. tauto. Qed.

Lemma lf_ok : forall c wts drop l, cfg_ok c -> l <> [] ->
  (forall r, In r l -> well_phased tm (c_night_start c) r) -> exists out, lf c wts drop l = Ok out.
Proof.
  intros c wts drop l Hc Hne Hp. unfold PPLinkingFilter. rewrite match_nonempty by auto.
  unfold linkObservations.
  destruct (runs_spec _ (sort_sorted l)) as (R1 & R2 & R3 & R4).
  destruct (link_loop_ok c wts (runs oid (sort_ids oid l)) 0) as [obj ->].
  - intros i g k Hg. destruct (R2 _ _ Hg) as [Eg Hg0]. rewrite sort_own in Eg. subst g.
    destruct (linkObject_desc src tm ra sep tsort draws Hts c (wts k) (own i l) Hc Hg0) as (disc & _ & _ & _ & _ & D & _).
    { intros r Hr. apply own_in in Hr as [Hr _]. auto. }
    destruct (first_success _ _ _ _); [destruct D as (d & o & _ & _ & D)|]; rewrite D; eauto.
  - cbn. eauto.
Qed.

(** [linkObject] returning normally means that the night assertion held. *)
Lemma lo_phased : forall c wt l v, lo c wt l = Ok v -> forall r, In r l -> well_phased tm (c_night_start c) r.
Proof.
  intros c wt l v H r Hr. unfold linkObject in H.
  rewrite match_nonempty in H by (intro E0; rewrite E0 in Hr; destruct Hr).
  destruct (forallb (phase_ok tm (c_night_start c)) (tsort l)) eqn:E; cbn [negb] in H; [|discriminate].
  rewrite forallb_forall in E. apply phase_ok_iff. apply E. apply (tsort_in tm tsort Hts); auto.
Qed.

Definition w0 (k : nat) : Z := 2 ^ Z.of_nat k.
Definition verdict (c : linkcfg) (g : list A) : option Z :=
  match lo c w0 g with Ok v => snd (fst v) | Err _ => None end.

Lemma lo_generic : forall c wt l v, cfg_ok c -> generic wt (length l) -> lo c wt l = Ok v ->
  lo c w0 l = Ok v.
Proof.
  intros c wt l v Hc Hg H. destruct l as [|x l'] eqn:El; [cbn in *; auto|]. rewrite <- El in *.
  assert (Hne : l <> []) by (rewrite El; discriminate). clear El x l'.
  destruct (linkObject_desc src tm ra sep tsort draws Hts c wt l Hc Hne (lo_phased _ _ _ _ H)) as (disc & _ & _ & _ & _ & _ & G).
  rewrite (G w0 Hg (generic_pow2 _)). auto.
Qed.

Lemma own_length : forall i l, (length (own i l) <= length l)%nat.
Proof. intros i l; unfold own; induction l; cbn; [lia|]. destruct (String.eqb _ _); cbn; lia. Qed.

Lemma lf_verdict : forall c wts drop l out, cfg_ok c ->
  (forall k, generic (wts k) (length l)) -> lf c wts drop l = Ok out ->
  out = osort (map (fun r => (r, is_some (verdict c (own (oid r) l)), verdict c (own (oid r) l)))
                 (if drop then filter (fun r => is_some (verdict c (own (oid r) l))) l else l)).
Proof.
  intros c wts drop l out Hc Hg H. destruct (lf_repr _ _ _ _ _ H) as (date & D & ->). f_equal.
  assert (V : forall r, In r l -> date (oid r) = verdict c (own (oid r) l)).
  { intros r Hr. destruct (D r Hr) as (k & v & Hv & ->). unfold verdict.
    rewrite (lo_generic c (wts k) _ v); auto. eapply generic_le; [apply own_length|apply Hg]. }
  assert (F : filter (fun r => is_some (date (oid r))) l = filter (fun r => is_some (verdict c (own (oid r) l))) l).
  { apply filter_ext_in'. intros r Hr. rewrite V; auto. }
  rewrite F. apply map_ext_in. intros r Hr. unfold annot. rewrite V; auto.
  destruct drop; auto. apply filter_In in Hr; tauto.
Qed.
End Link.
