(** C119: what becomes of the identifiers of a table that is read. *)
From Coq Require Import String Ascii List Arith ZArith Bool Lia.
From Verif Require Import Base.Prelude Model.Csv Spec.Readers Proofs.Csv.
Import ListNotations.
Open Scope nat_scope.

Lemma digit_is : forall c, is_digit c = match digit c with Some _ => true | None => false end.
Proof. intros [[] [] [] [] [] [] [] []]; reflexivity. Qed.

Lemma digit_value : forall c d, digit c = Some d -> d = (Z.of_nat (nat_of_ascii c) - 48)%Z.
Proof. intros [[] [] [] [] [] [] [] []] d H; try discriminate; injection H as <-; reflexivity. Qed.

Lemma digit_range : forall c d, digit c = Some d -> (0 <= d <= 9)%Z.
Proof. intros [[] [] [] [] [] [] [] []] d H; try discriminate; injection H as <-; lia. Qed.

Lemma digit_inj : forall c c' d, digit c = Some d -> digit c' = Some d -> c = c'.
Proof.
  intros c c' d H H'. apply digit_value in H. apply digit_value in H'.
  rewrite <- (ascii_nat_embedding c), <- (ascii_nat_embedding c'). f_equal. lia.
Qed.

Lemma digit_zero : forall c d, digit c = Some d -> ((c =? "0")%char = true <-> d = 0%Z).
Proof.
  intros c d H. rewrite Ascii.eqb_eq. split; [intros ->; cbn in H; congruence|].
  intros ->. eapply digit_inj; eauto.
Qed.

Lemma digit_unsigned : forall c d, digit c = Some d -> (c =? "-")%char = false /\ (c =? "+")%char = false.
Proof. intros [[] [] [] [] [] [] [] []] d H; try discriminate; auto. Qed.

(** *** Reading digits *)

Lemma numeral_digits : forall s a,
  match numeral a s with
  | Some v => forallb is_digit (list_ascii_of_string s) = true /\
      v = fold_left (fun a c => 10 * a + (Z.of_nat (nat_of_ascii c) - 48))%Z (list_ascii_of_string s) a
  | None => forallb is_digit (list_ascii_of_string s) = false
  end.
Proof.
  induction s as [|c s IH]; intros a; cbn -[Z.mul Z.sub Z.of_nat]; [auto|]. rewrite digit_is.
  destruct (digit c) as [d|] eqn:E; [|reflexivity]. cbn [andb].
  specialize (IH (10 * a + d)%Z). rewrite <- (digit_value _ _ E). exact IH.
Qed.

Lemma digits_iff : forall s, digits s = true <-> s <> EmptyString /\ numeral 0 s = Some (digits_number s).
Proof.
  intros s. unfold digits, digits_number. rewrite andb_true_iff, negb_true_iff, String.eqb_neq.
  pose proof (numeral_digits s 0). destruct (numeral 0 s) as [v|].
  - destruct H as [H1 H2]. rewrite H1, H2. tauto.
  - rewrite H. split; intros [_ ?]; discriminate.
Qed.

Lemma numeral_digits_true : forall s v, s <> EmptyString -> numeral 0 s = Some v -> digits s = true /\ v = digits_number s.
Proof.
  intros s v Hn Hv. assert (D : digits s = true).
  { unfold digits. pose proof (numeral_digits s 0) as Q. rewrite Hv in Q. destruct Q as [Q _]. rewrite Q. destruct s; [congruence|reflexivity]. }
  split; [exact D|]. apply digits_iff in D. destruct D as [_ D]. congruence.
Qed.

Lemma digits_head : forall c r, digits (String c r) = true -> exists d, digit c = Some d.
Proof.
  intros c r H. unfold digits in H. cbn in H. apply andb_true_iff in H. destruct H as [H _]. rewrite digit_is in H.
  destruct (digit c); eauto. discriminate.
Qed.

Lemma text_iff : forall s z, integer_text s z <-> looks_int s = true /\ z = text_number s.
Proof.
  intros s z. split.
  - intros (ds & v & Hn & Hv & H). apply numeral_digits_true in Hv; [|exact Hn]. destruct Hv as [D ->].
    destruct H as [[[->| ->] ->]|[-> ->]]; [|cbn; auto|cbn; auto].
    destruct ds as [|c r]; [congruence|]. destruct (digits_head _ _ D) as [d Hd].
    destruct (digit_unsigned _ _ Hd) as [E1 E2]. unfold looks_int, text_number. rewrite E1, E2. cbn [orb]. auto.
  - intros [H ->]. destruct s as [|c r]; [discriminate|]. unfold looks_int in H. unfold text_number.
    destruct (Ascii.eqb_spec c "-") as [->|N1]; [|destruct (Ascii.eqb_spec c "+") as [->|N2]]; cbn [orb] in H;
      apply digits_iff in H; destruct H as [Hn Hv]; eexists; eexists; (split; [exact Hn|]); (split; [exact Hv|]); auto.
Qed.

(** *** Printing *)

Lemma number_cons : forall c r d, digit c = Some d ->
  digits_number (String c r) = fold_left (fun a c => 10 * a + (Z.of_nat (nat_of_ascii c) - 48))%Z (list_ascii_of_string r) d.
Proof. intros c r d H. unfold digits_number. cbn -[Z.mul Z.sub Z.of_nat]. rewrite <- (digit_value _ _ H). reflexivity. Qed.

Lemma digits_tail : forall c r, digits (String c r) = true -> r <> EmptyString -> digits r = true.
Proof.
  intros c r H Hn. unfold digits in *. cbn in H. apply andb_true_iff in H. destruct H as [_ H]. rewrite H.
  destruct r; [congruence|reflexivity].
Qed.

Lemma strip_spec : forall s, digits s = true ->
  digits (strip_zeros s) = true /\ digits_number (strip_zeros s) = digits_number s /\
  (strip_zeros s = "0"%string \/ exists c r d, digit c = Some d /\ d <> 0%Z /\ strip_zeros s = String c r).
Proof.
  induction s as [|c s IH]; intros H; [discriminate|]. destruct (digits_head _ _ H) as [d Hd].
  destruct s as [|c' s].
  - cbn [strip_zeros]. split; [exact H|]. split; [reflexivity|]. destruct (Z.eq_dec d 0) as [->|Hn].
    + left. apply digit_zero in Hd. destruct Hd as [_ Hd]. specialize (Hd eq_refl). apply Ascii.eqb_eq in Hd. subst. reflexivity.
    + right. exists c, EmptyString, d. auto.
  - change (strip_zeros (String c (String c' s))) with
      (if (c =? "0")%char then strip_zeros (String c' s) else String c (String c' s)).
    destruct (c =? "0")%char eqn:Ez.
    + assert (D : digits (String c' s) = true) by (eapply digits_tail; eauto; discriminate).
      destruct (IH D) as (A & B & C). split; [exact A|]. split; [|exact C]. rewrite B.
      apply Ascii.eqb_eq in Ez. subst c. cbn in Hd. injection Hd as <-. rewrite (number_cons "0" _ 0 eq_refl). reflexivity.
    + split; [exact H|]. split; [reflexivity|]. right. exists c, (String c' s), d. split; [exact Hd|]. split; [|reflexivity].
      intros E. apply (digit_zero _ _ Hd) in E. congruence.
Qed.

Lemma digits_text : forall s, digits s = true -> integer_text s (digits_number s).
Proof. intros s H. apply digits_iff in H. destruct H. exists s, (digits_number s). split; [auto|]. split; [auto|]. left. auto. Qed.

Lemma canon_decimal : forall s, looks_int s = true -> decimal (canon_int s) (text_number s).
Proof.
  intros s H. destruct s as [|c r]; [discriminate|].
  assert (K : forall x, digits x = true -> decimal (strip_zeros x) (digits_number x)).
  { intros x D. destruct (strip_spec x D) as (A & B & C). split; [rewrite <- B; apply digits_text; exact A|].
    destruct C as [C|(c' & r' & d & Hd & Hn & E)]; [left; exact C|right; exists c', r', d; auto]. }
  unfold looks_int in H. unfold canon_int, text_number.
  destruct (Ascii.eqb_spec c "+") as [->|N2].
  - cbn in H. cbn. apply K; exact H.
  - destruct (Ascii.eqb_spec c "-") as [->|N1]; cbn [orb] in H; [|apply K; exact H].
    destruct (strip_spec r H) as (A & B & C). destruct (String.eqb_spec (strip_zeros r) "0") as [E|N].
    + rewrite <- B, E. split; [|left; reflexivity]. exists "0"%string, 0%Z. split; [discriminate|]. split; [reflexivity|]. left. auto.
    + split.
      * rewrite <- B. apply digits_iff in A. destruct A as [A1 A2]. eexists. eexists. split; [exact A1|]. split; [exact A2|]. right. auto.
      * right. destruct C as [C|(c' & r' & d & Hd & Hn & E)]; [congruence|]. exists c', r', d. rewrite E. auto.
Qed.

(** *** A number is written in one way only *)

Lemma numeral_split : forall s a v, numeral a s = Some v ->
  exists w, numeral 0 s = Some w /\ (0 <= w < 10 ^ Z.of_nat (String.length s))%Z /\ v = (a * 10 ^ Z.of_nat (String.length s) + w)%Z.
Proof.
  induction s as [|c s IH]; intros a v H.
  - cbn in H. injection H as <-. exists 0%Z. cbn. split; [reflexivity|]. lia.
  - cbn -[Z.mul] in H. destruct (digit c) as [d|] eqn:E; [|discriminate]. pose proof (digit_range _ _ E) as R.
    destruct (IH _ _ H) as (w & W & Wr & ->).
    cbn -[Z.mul Z.pow Z.of_nat]. rewrite E. rewrite Z.mul_0_r, Z.add_0_l.
    assert (P : (10 ^ Z.of_nat (S (String.length s)) = 10 * 10 ^ Z.of_nat (String.length s))%Z)
      by (rewrite Nat2Z.inj_succ, Z.pow_succ_r; lia).
    assert (Q : exists v', numeral d s = Some v').
    { pose proof (numeral_digits s d) as N. destruct (numeral d s) as [v'|]; [eauto|]. pose proof (numeral_digits s 0) as N0. rewrite W in N0. destruct N0. congruence. }
    destruct Q as [v' Q]. exists v'. split; [exact Q|]. destruct (IH _ _ Q) as (w' & W' & Wr' & ->).
    rewrite W in W'. injection W' as <-. rewrite P. split; nia.
Qed.

Lemma numeral_inj : forall s s' v, String.length s = String.length s' -> numeral 0 s = Some v -> numeral 0 s' = Some v -> s = s'.
Proof.
  induction s as [|c s IH]; intros [|c' s'] v L H H'; try discriminate; [reflexivity|]. injection L as L.
  cbn -[Z.mul] in H, H'. destruct (digit c) as [d|] eqn:E; [|discriminate]. destruct (digit c') as [d'|] eqn:E'; [|discriminate].
  rewrite Z.mul_0_r, Z.add_0_l in H, H'.
  destruct (numeral_split _ _ _ H) as (w & W & Wr & V). destruct (numeral_split _ _ _ H') as (w' & W' & Wr' & V').
  rewrite <- L in *. set (k := (10 ^ Z.of_nat (String.length s))%Z) in *.
  assert (d = d') by nia. subst d'. assert (w = w') by nia. subst w'.
  f_equal; [eapply digit_inj; eauto|eapply IH; eauto].
Qed.

Lemma numeral_lead : forall c r d v, digit c = Some d -> d <> 0%Z -> numeral 0 (String c r) = Some v ->
  (10 ^ Z.of_nat (String.length r) <= v < 10 ^ Z.of_nat (S (String.length r)))%Z.
Proof.
  intros c r d v E Hn H. cbn -[Z.mul] in H. rewrite E in H. rewrite Z.mul_0_r, Z.add_0_l in H.
  destruct (numeral_split _ _ _ H) as (w & W & Wr & ->). pose proof (digit_range _ _ E).
  rewrite Nat2Z.inj_succ, Z.pow_succ_r by lia. nia.
Qed.

Lemma lead_inj : forall c r d c' r' d' v, digit c = Some d -> d <> 0%Z -> digit c' = Some d' -> d' <> 0%Z ->
  numeral 0 (String c r) = Some v -> numeral 0 (String c' r') = Some v -> String c r = String c' r'.
Proof.
  intros c r d c' r' d' v E N E' N' H H'. pose proof (numeral_lead _ _ _ _ E N H) as A. pose proof (numeral_lead _ _ _ _ E' N' H') as B.
  apply (numeral_inj _ _ v); auto. cbn. f_equal.
  destruct (Nat.lt_trichotomy (String.length r) (String.length r')) as [L|[L|L]]; [exfalso|exact L|exfalso].
  - assert (10 ^ Z.of_nat (S (String.length r)) <= 10 ^ Z.of_nat (String.length r'))%Z by (apply Z.pow_le_mono_r; lia). lia.
  - assert (10 ^ Z.of_nat (S (String.length r')) <= 10 ^ Z.of_nat (String.length r))%Z by (apply Z.pow_le_mono_r; lia). lia.
Qed.

Lemma decimal_cases : forall s z, decimal s z -> (s = "0"%string /\ z = 0%Z) \/
  exists c r d v, digit c = Some d /\ d <> 0%Z /\ numeral 0 (String c r) = Some v /\ (0 < v)%Z /\
    ((s = String c r /\ z = v) \/ (s = String "-" (String c r) /\ z = (- v)%Z)).
Proof.
  intros s z [H [->|(c & r & d & E & N & Hs)]].
  - left. split; [reflexivity|]. apply text_iff in H. destruct H as [_ ->]. reflexivity.
  - right. assert (P : forall v, numeral 0 (String c r) = Some v -> (0 < v)%Z).
    { intros v V. pose proof (numeral_lead _ _ _ _ E N V). assert (0 < 10 ^ Z.of_nat (String.length r))%Z by (apply Z.pow_pos_nonneg; lia). lia. }
    destruct (digit_unsigned _ _ E) as [U1 U2].
    destruct H as (ds & v & Hn & Hv & H). destruct Hs as [->| ->].
    + exists c, r, d, v. destruct H as [[[<-|F] ->]|[F ->]].
      * repeat (split; auto).
      * injection F as -> _. discriminate.
      * injection F as -> _. discriminate.
    + destruct H as [[[<-|F] ->]|[F ->]]; [discriminate|discriminate|]. injection F as F. subst ds.
      exists c, r, d, v. repeat (split; auto).
Qed.

Lemma C119_one_proof : forall s t z, decimal s z -> decimal t z -> s = t.
Proof.
  intros s t z H H'. apply decimal_cases in H. apply decimal_cases in H'.
  destruct H as [[-> ->]|(c & r & d & v & E & N & V & P & H)]; destruct H' as [[-> Z']|(c' & r' & d' & v' & E' & N' & V' & P' & H')].
  - reflexivity.
  - exfalso. destruct H' as [[_ ?]|[_ ?]]; lia.
  - exfalso. destruct H as [[_ ?]|[_ ?]]; lia.
  - destruct H as [[-> ->]|[-> ->]]; destruct H' as [[-> Z']|[-> Z']]; try (exfalso; lia).
    + subst v'. eapply lead_inj; eauto.
    + f_equal. assert (v = v') by lia. subst v'. eapply lead_inj; eauto.
Qed.

(** *** The column *)

Lemma C119_integers_proof : forall ids,
  (forall s, In s ids -> exists z, integer_text s z /\ (- 2 ^ 63 <= z < 2 ^ 63)%Z) \/
  (forall s, In s ids -> exists z, integer_text s z /\ prefix "-" s = false /\ (z < 2 ^ 64)%Z) ->
  Forall2 (fun s t => exists z, integer_text s z /\ decimal t z) ids (pandas_ids ids).
Proof.
  intros ids H. assert (L : forall s, In s ids -> looks_int s = true).
  { intros s Hs. destruct H as [H|H]; destruct (H s Hs) as (z & T & _); apply text_iff in T; tauto. }
  assert (E : pandas_ids ids = map canon_int ids).
  { unfold pandas_ids. assert (F : forallb looks_int ids = true) by (apply forallb_forall; exact L). rewrite F. cbn [andb].
    assert (F2 : forallb fits_int64 ids || forallb fits_uint64 ids = true); [|rewrite F2; reflexivity].
    apply orb_true_iff. destruct H as [H|H]; [left|right]; apply forallb_forall; intros s Hs; destruct (H s Hs) as (z & T & R);
      apply text_iff in T; destruct T as [_ ->].
    - unfold fits_int64. apply andb_true_iff. rewrite Z.leb_le, Z.ltb_lt. exact R.
    - unfold fits_uint64. destruct R as [R1 R2]. rewrite R1. apply Z.ltb_lt. exact R2. }
  rewrite E. clear E H. induction ids as [|s ids IH]; [constructor|]. cbn. constructor.
  - exists (text_number s). assert (Ls : looks_int s = true) by (apply L; left; reflexivity). split; [apply text_iff; auto|].
    apply canon_decimal. exact Ls.
  - apply IH. intros x Hx. apply L. right. exact Hx.
Qed.

Lemma digits_number_pos : forall x, digits x = true -> (0 <= digits_number x)%Z.
Proof.
  intros x D. apply digits_iff in D. destruct D as [_ D]. destruct (numeral_split _ _ _ D) as (w & W & Wr & V). lia.
Qed.

Lemma text_number_pos : forall s, looks_int s = true -> prefix "-" s = false -> (0 <= text_number s)%Z.
Proof.
  intros [|c r] L M; [discriminate|]. unfold looks_int in L. unfold text_number.
  destruct (Ascii.eqb_spec c "-") as [->|N1]; [destruct r; cbn in M; discriminate|]. cbn [orb] in L.
  destruct (c =? "+")%char; apply digits_number_pos; exact L.
Qed.

Lemma C119_text_proof : forall ids,
  (exists s, In s ids /\ forall z, ~ integer_text s z) \/
  (exists s z, In s ids /\ integer_text s z /\ (z < - 2 ^ 63 \/ 2 ^ 64 <= z)%Z) \/
  (exists s z t, In s ids /\ integer_text s z /\ (2 ^ 63 <= z)%Z /\ In t ids /\ prefix "-" t = true) ->
  pandas_ids ids = ids.
Proof.
  intros ids H. unfold pandas_ids. destruct (forallb looks_int ids) eqn:F; [|reflexivity]. cbn [andb].
  rewrite forallb_forall in F. destruct (forallb fits_int64 ids || forallb fits_uint64 ids) eqn:G; [|reflexivity]. exfalso.
  apply orb_true_iff in G. rewrite !forallb_forall in G.
  destruct H as [(s & Hs & H)|[(s & z & Hs & T & R)|(s & z & t & Hs & T & R & Ht & M)]].
  - apply (H (text_number s)). apply text_iff. auto.
  - apply text_iff in T. destruct T as [Ls ->]. destruct G as [G|G]; apply G in Hs.
    + unfold fits_int64 in Hs. apply andb_true_iff in Hs. rewrite Z.leb_le, Z.ltb_lt in Hs. lia.
    + unfold fits_uint64 in Hs. apply andb_true_iff in Hs. destruct Hs as [Hm Hs]. apply Z.ltb_lt in Hs. apply negb_true_iff in Hm.
      pose proof (text_number_pos s Ls Hm). lia.
  - apply text_iff in T. destruct T as [Ls ->]. destruct G as [G|G].
    + apply G in Hs. unfold fits_int64 in Hs. apply andb_true_iff in Hs. rewrite Z.leb_le, Z.ltb_lt in Hs. lia.
    + apply G in Ht. unfold fits_uint64 in Ht. rewrite M in Ht. discriminate.
Qed.

(** Identifiers that are not integers, or are integers written as usual, are
    never changed. *)
Lemma C119_usual_proof : forall ids, (forall s z, In s ids -> integer_text s z -> decimal s z) ->
  stable pandas_ids ids.
Proof.
  intros ids H. apply stable_pandas. intros x Hx L.
  apply (C119_one_proof _ _ (text_number x)); [apply canon_decimal; exact L|]. apply H; [exact Hx|]. apply text_iff. auto.
Qed.

(** Two objects whose identifiers are the same integer get the same one. *)
Lemma C119_merged_proof : forall ids n m s t z,
  (forall x, In x ids -> exists k, integer_text x k /\ (- 2 ^ 63 <= k < 2 ^ 63)%Z) ->
  nth_error ids n = Some s -> nth_error ids m = Some t -> integer_text s z -> integer_text t z ->
  exists x, nth_error (pandas_ids ids) n = Some x /\ nth_error (pandas_ids ids) m = Some x.
Proof.
  intros ids n m s t z H Hs Ht S T. pose proof (C119_integers_proof ids (or_introl H)) as F.
  assert (G : forall k x, nth_error ids k = Some x -> integer_text x z -> exists y, nth_error (pandas_ids ids) k = Some y /\ decimal y z).
  { intros k x. revert F. generalize (pandas_ids ids). clear. revert k. induction ids as [|a ids IH]; intros k l F Hk X; [destruct k; discriminate|].
    inversion F as [|? b ? l' (y & Y & D) F']; subst. destruct k as [|k]; cbn in *.
    - injection Hk as ->. apply text_iff in Y. apply text_iff in X. destruct X as [_ ->]. destruct Y as [_ ->]. eauto.
    - eapply IH; eauto. }
  destruct (G _ _ Hs S) as (a & A & DA). destruct (G _ _ Ht T) as (b & B & DB).
  rewrite (C119_one_proof _ _ _ DB DA) in B. eauto.
Qed.
