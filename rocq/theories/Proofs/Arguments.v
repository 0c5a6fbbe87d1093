(** Reading the command line: proofs for C104. *)
From Coq Require Import Ascii String List Arith ZArith Bool Lia.
From Verif Require Import Base.Prelude Base.Num Model.Files Model.Config Model.Startup Model.Arguments Spec.Arguments Proofs.Files.
Import ListNotations.
Open Scope list_scope.

Lemma starts_with_prefix : forall a b, starts_with a b = true <-> prefix a b.
Proof.
  induction a as [|x a IH]; intros b; cbn.
  - split; auto. intros _. exists b. reflexivity.
  - destruct b as [|y b].
    + split; [discriminate|]. intros [c E]. discriminate.
    + rewrite andb_true_iff, IH. split.
      * intros [E [c ->]]. apply Ascii.eqb_eq in E. subst. exists c. reflexivity.
      * intros [c E]. injection E as -> ->. split; [apply Ascii.eqb_refl|exists c; reflexivity].
Qed.

Lemma partition_none : forall s, ~ In "="%char s -> partition_eq s = (s, None).
Proof.
  induction s as [|c s IH]; intros H; cbn; auto.
  destruct (Ascii.eqb_spec c "="). { exfalso. apply H. left. auto. }
  rewrite IH; [reflexivity|]. intro. apply H. right. auto.
Qed.
Lemma partition_some : forall a v, ~ In "="%char a -> partition_eq (a ++ "="%char :: v) = (a, Some v).
Proof.
  induction a as [|c a IH]; intros v H; cbn; auto.
  destruct (Ascii.eqb_spec c "="). { exfalso. apply H. left. auto. }
  rewrite IH; [reflexivity|]. intro. apply H. right. auto.
Qed.
Lemma partition_inv : forall s a e, partition_eq s = (a, e) ->
  ~ In "="%char a /\ match e with None => s = a | Some v => s = a ++ "="%char :: v end.
Proof.
  induction s as [|c s IH]; intros a e H; cbn in H.
  - injection H as <- <-. cbn. auto.
  - destruct (Ascii.eqb_spec c "=").
    + injection H as <- <-. subst. cbn. auto.
    + destruct (partition_eq s) as [a' e'] eqn:E. injection H as <- <-.
      destruct (IH _ _ eq_refl) as [N S]. split.
      * cbn. intros [X|X]; [auto|exact (N X)].
      * destruct e'; cbn; subst; auto.
Qed.

Lemma partition_cons2 : forall c w, c <> "="%char -> partition_eq ("-"%char :: c :: "="%char :: w) = (["-"%char; c], Some w).
Proof. intros c w H. apply (partition_some ["-"%char; c] w). intros [E|[E|[]]]; [discriminate|congruence]. Qed.
Lemma digit_spec : forall c, digit c = true <-> (48 <= nat_of_ascii c <= 57)%nat.
Proof.
  intro c. unfold digit. rewrite andb_true_iff. split.
  - intros [A B]. split; apply Nat.leb_le; assumption.
  - intros [A B]. split; apply Nat.leb_le; assumption.
Qed.
Lemma text_eqb_nil : forall s, text_eqb s [] = false <-> s <> [].
Proof.
  intro s. destruct (text_eqb s []) eqn:E.
  - apply text_eqb_eq in E. split; [discriminate|]. intro X. contradiction.
  - split; auto. intros _ ->. rewrite (proj2 (text_eqb_eq [] [])) in E; [discriminate|reflexivity].
Qed.
Lemma fraction_spec : forall s, fraction s = true <->
  exists a b, (forall c, In c (a ++ b) -> (48 <= nat_of_ascii c <= 57)%nat) /\ b <> [] /\ s = a ++ "."%char :: b.
Proof.
  induction s as [|c s IH]; cbn.
  - split; [discriminate|]. intros (a & b & _ & _ & E). destruct a; discriminate.
  - destruct (Ascii.eqb_spec c ".").
    + subst. rewrite andb_true_iff, negb_true_iff, text_eqb_nil, forallb_forall. split.
      * intros [A B]. exists [], s. cbn. split; [|split; auto]. intros x Hx. apply digit_spec. auto.
      * intros (a & b & A & B & E). destruct a as [|x a].
        -- cbn in E. injection E as ->. split; auto. intros x Hx. apply digit_spec. apply A. exact Hx.
        -- exfalso. cbn in E. injection E as <- _. specialize (A "."%char (or_introl eq_refl)). cbn in A. lia.
    + rewrite andb_true_iff, IH, digit_spec. split.
      * intros [D (a & b & A & B & E)]. exists (c :: a), b. subst. split; [|split; auto].
        intros x [<-|Hx]; auto.
      * intros (a & b & A & B & E). destruct a as [|x a]; cbn in E; injection E as -> ->; [congruence|].
        split; [apply A; left; auto|]. exists a, b. split; [|auto]. intros y Hy. apply A. right. exact Hy.
Qed.
Lemma negative_number_spec : forall s, negative_number s = true <-> numeral s.
Proof.
  intros [|c s]; cbn.
  - split; [discriminate|]. intros (a & b & _ & _ & [E|E]); discriminate.
  - rewrite andb_true_iff, orb_true_iff, andb_true_iff, negb_true_iff, text_eqb_nil, forallb_forall, fraction_spec.
    split.
    + intros [E H]. apply Ascii.eqb_eq in E. subst c. destruct H as [[A B]|(a & b & A & B & E)].
      * exists [], s. split; [|split; [exact A|left; reflexivity]]. intros x Hx. apply digit_spec. auto.
      * exists a, b. subst. auto.
    + intros (a & b & A & B & [E|E]); injection E as -> ->; (split; [reflexivity|]).
      * left. split. { destruct a; cbn; [exact B|discriminate]. } intros x Hx. apply digit_spec. auto.
      * right. exists a, b. auto.
Qed.

Lemma fm_ext : forall A B (f g : A -> list B) l, (forall x, In x l -> f x = g x) -> flat_map f l = flat_map g l.
Proof.
  intros A B f g. induction l as [|x l IH]; intro H; cbn; auto. rewrite H; [|left; auto].
  f_equal. apply IH. intros y Hy. apply H. right. exact Hy.
Qed.
Lemma fm_nil : forall A B (P : A -> bool) (g : A -> B) l,
  flat_map (fun x => if P x then [g x] else []) l = [] <-> forall x, In x l -> P x = false.
Proof.
  intros A B P g. induction l as [|x l IH]; cbn.
  - split; auto. intros _ y [].
  - destruct (P x) eqn:E; cbn.
    + split; [discriminate|]. intro H. rewrite (H x (or_introl eq_refl)) in E. discriminate.
    + rewrite IH. split; intros H y; [intros [<-|Hy]; auto|intro; apply H; auto].
Qed.
Lemma fm_one : forall A B (P : A -> bool) (g : A -> B) l y, NoDup l ->
  (flat_map (fun x => if P x then [g x] else []) l = [y] <->
   exists x, In x l /\ P x = true /\ y = g x /\ forall z, In z l -> P z = true -> z = x).
Proof.
  intros A B P g l y H. induction H as [|x l N ND IH]; cbn.
  - split; [discriminate|]. intros (x & [] & _).
  - destruct (P x) eqn:E; cbn.
    + split.
      * intro F. injection F as <- F. rewrite fm_nil in F. exists x.
        split; [left; auto|]. split; [exact E|]. split; [auto|]. intros z [<-|Hz] Pz; auto. rewrite (F z Hz) in Pz. discriminate.
      * intros (w & Hw & Pw & -> & U). pose proof (U x (or_introl eq_refl) E) as <-. f_equal.
        apply fm_nil. intros z Hz. destruct (P z) eqn:Pz; auto.
        exfalso. apply N. rewrite <- (U z (or_intror Hz) Pz). exact Hz.
    + rewrite IH. split.
      * intros (w & Hw & Pw & Y & U). exists w. split; [right; exact Hw|]. split; [exact Pw|]. split; [exact Y|].
        intros z [<-|Hz] Pz; [congruence|auto].
      * intros (w & [<-|Hw] & Pw & Y & U); [congruence|]. exists w. repeat split; auto.
Qed.

(** ** A parser and its documentation *)
Definition corr (a : action) (d : documented) : Prop :=
  names a = map txt (d_names d) /\ dest a = d_key d /\ required a = d_required d
  /\ kind_of a = if d_value d then Store else if String.eqb (d_key d) "help" then Help else Switch.
Definition okname (n : text) : Prop :=
  (exists c, n = ["-"%char; c] /\ c <> "-"%char /\ c <> "="%char)
  \/ (exists c r, n = "-"%char :: "-"%char :: c :: r /\ ~ In "="%char n).
Definition okname_b (n : text) : bool :=
  match n with
  | [a; c] => Ascii.eqb a "-" && negb (Ascii.eqb c "-") && negb (Ascii.eqb c "=")
  | a :: b :: _ :: _ => Ascii.eqb a "-" && Ascii.eqb b "-" && negb (existsb (Ascii.eqb "=") n)
  | _ => false
  end.
Lemma okname_ok : forall n, okname_b n = true -> okname n.
Proof.
  intros [|a [|b [|c r]]] H; try discriminate.
  - cbn in H. rewrite !andb_true_iff, !negb_true_iff in H. destruct H as [[A B] C].
    apply Ascii.eqb_eq in A. apply Ascii.eqb_neq in B, C. subst. left. exists b. auto.
  - cbn [okname_b] in H. rewrite !andb_true_iff, negb_true_iff in H. destruct H as [[A B] C].
    apply Ascii.eqb_eq in A, B. subst. right. exists c, r. split; auto.
    intro X. assert (existsb (Ascii.eqb "=") ("-"%char :: "-"%char :: c :: r) = true); [|congruence].
    apply existsb_exists. exists "="%char. split; auto.
Qed.
Record table (p : list action) (T : list documented) : Prop := {
  tab_corr : Forall2 corr p T;
  tab_nodup : NoDup (map fst (option_string_actions p));
  tab_names : forall n a, In (n, a) (option_string_actions p) -> okname n;
  tab_help : forall d, In d T -> d_key d = "help"%string -> d_value d = false;
  tab_two : forall n, exists m a, In (m, a) (option_string_actions p) /\ prefix (txt "--") m /\ m <> n }.

Section Reading.
Variables (p : list action) (T : list documented).
Hypothesis TAB : table p T.
Local Notation osa := (option_string_actions p).

Lemma in_osa : forall n a, In (n, a) osa <-> In a p /\ In n (names a).
Proof.
  intros n a. unfold option_string_actions. rewrite in_flat_map. split.
  - intros (b & Hb & H). apply in_map_iff in H. destruct H as (m & E & Hm). injection E as -> ->. auto.
  - intros [Ha Hn]. exists a. split; auto. apply in_map_iff. exists n. auto.
Qed.
Lemma corr_left : forall a, In a p -> exists d, In d T /\ corr a d.
Proof.
  pose proof (tab_corr p T TAB) as C. clear TAB. induction C as [|a d l l' H C IH]; intros b Hb; [destruct Hb|].
  destruct Hb as [<-|Hb]; [exists d; split; [left; auto|exact H]|].
  destruct (IH b Hb) as (e & He & X). exists e. split; [right; auto|exact X].
Qed.
Lemma corr_right : forall d, In d T -> exists a, In a p /\ corr a d.
Proof.
  pose proof (tab_corr p T TAB) as C. clear TAB. induction C as [|a d l l' H C IH]; intros b Hb; [destruct Hb|].
  destruct Hb as [<-|Hb]; [exists a; split; [left; auto|exact H]|].
  destruct (IH b Hb) as (e & He & X). exists e. split; [right; auto|exact X].
Qed.
Lemma corr_name : forall a d n, corr a d -> (In n (names a) <-> name_of d n).
Proof.
  intros a d n (E & _). rewrite E, in_map_iff. unfold name_of. split; intros (s & A & B); exists s; auto.
Qed.
Lemma osa_doc : forall n a, In (n, a) osa -> exists d, In d T /\ corr a d /\ name_of d n.
Proof.
  intros n a H. apply in_osa in H. destruct H as [A N]. destruct (corr_left a A) as (d & D & C).
  exists d. split; auto. split; auto. apply (corr_name a d n C). exact N.
Qed.
Lemma doc_osa : forall d n, In d T -> name_of d n -> exists a, In a p /\ corr a d /\ In (n, a) osa.
Proof.
  intros d n D N. destruct (corr_right d D) as (a & A & C). exists a. split; auto. split; auto.
  apply in_osa. split; auto. apply (corr_name a d n C). exact N.
Qed.
Lemma osa_same : forall n a b, In (n, a) osa -> In (n, b) osa -> a = b.
Proof.
  destruct TAB as [_ N _ _ _]. intros n a b A B. revert N A B. generalize osa as l.
  induction l as [|[m c] l IH]; intros N A B; [destruct A|]. cbn in N. inversion N as [|? ? N1 N2]; subst.
  destruct A as [A|A]; destruct B as [B|B]; try congruence.
  - injection A as -> ->. exfalso. apply N1. apply in_map_iff. exists (n, b). auto.
  - injection B as -> ->. exfalso. apply N1. apply in_map_iff. exists (n, a). auto.
  - auto.
Qed.
Lemma osa_nodup : NoDup osa.
Proof. apply (NoDup_map_inv fst). apply (tab_nodup p T TAB). Qed.
Lemma lookup_some : forall s a, lookup p s = Some a <-> In (s, a) osa.
Proof.
  intros s a. unfold lookup. destruct (find _ osa) as [x|] eqn:E.
  - apply find_some in E. destruct E as [I Q]. apply text_eqb_eq in Q. destruct x as [n b]. cbn in *. subst.
    split; [intro X; injection X as <-; exact I|]. intro J. f_equal. exact (osa_same s b a I J).
  - split; [discriminate|]. intro H. exfalso. pose proof (find_none _ _ E _ H) as X. cbn in X.
    rewrite (proj2 (text_eqb_eq s s) eq_refl) in X. discriminate.
Qed.
Lemma lookup_none : forall s, lookup p s = None <-> forall a, ~ In (s, a) osa.
Proof.
  intro s. split.
  - intros H a X. apply lookup_some in X. congruence.
  - intro H. destruct (lookup p s) as [a|] eqn:E; auto. apply lookup_some in E. destruct (H a E).
Qed.
Lemma lookup_absent : forall s, (forall d, In d T -> ~ name_of d s) -> lookup p s = None.
Proof.
  intros s H. apply lookup_none. intros a X. destruct (osa_doc _ _ X) as (d & D & _ & N). exact (H d D N).
Qed.
Lemma doc_okname : forall d n, In d T -> name_of d n -> okname n.
Proof. intros d n D N. destruct (doc_osa d n D N) as (a & _ & _ & I). exact (tab_names p T TAB n a I). Qed.

Lemma short_name : forall d c rest, In d T -> name_of d ("-"%char :: c :: rest) -> c <> "-"%char -> rest = [].
Proof.
  intros d c rest D N H. destruct (doc_okname _ _ D N) as [(x & E & _)|(x & r & E & _)].
  - injection E as _ ->. reflexivity.
  - injection E as -> _. congruence.
Qed.
Lemma name_no_eq : forall d n, In d T -> name_of d n -> ~ In "="%char n.
Proof.
  intros d n D N. destruct (doc_okname _ _ D N) as [(x & -> & A & B)|(x & r & -> & H)]; auto.
  intros [E|[E|[]]]; [discriminate|congruence].
Qed.
Lemma name_dash : forall d n, In d T -> name_of d n -> exists c r, n = "-"%char :: c :: r /\ n <> txt "--".
Proof.
  intros d n D N. destruct (doc_okname _ _ D N) as [(x & -> & A & B)|(x & r & -> & H)].
  - exists x, []. split; auto. cbn. congruence.
  - exists "-"%char, (x :: r). split; auto. cbn. discriminate.
Qed.
Lemma stands_shape : forall s d, stands_for T s d -> ~ In "="%char s /\ exists c r, s = "-"%char :: c :: r /\ s <> txt "--".
Proof.
  intros s d [D [N|(n & N & [q Q] & [w W] & S & _ & _)]].
  - split; [exact (name_no_eq d s D N)|exact (name_dash d s D N)].
  - split.
    + intro X. apply (name_no_eq d n D N). rewrite Q. apply in_or_app. left. exact X.
    + cbn in W. subst s. exists "-"%char, w. split; auto.
Qed.

(** The tuples that can match. *)
Lemma tuples_long : forall s prefix e, partition_eq s = (prefix, e) -> forall r, s = "-"%char :: "-"%char :: r ->
  get_option_tuples p s
  = flat_map (fun x => if starts_with prefix (fst x) then [(snd x, fst x, option_map (pair true) e)] else []) osa.
Proof.
  intros s q e E r ->. unfold get_option_tuples. rewrite Ascii.eqb_refl. rewrite E. reflexivity.
Qed.
Lemma tuples_short : forall c rest, c <> "-"%char -> lookup p ("-"%char :: c :: rest) = None ->
  get_option_tuples p ("-"%char :: c :: rest)
  = flat_map (fun x => if text_eqb (fst x) ["-"%char; c] then [(snd x, fst x, Some (false, rest))] else []) osa.
Proof.
  intros c rest C L. unfold get_option_tuples. destruct (Ascii.eqb_spec c dash) as [X|X]; [contradiction|].
  apply fm_ext. intros [n a] I. cbn [fst snd].
  destruct (text_eqb n ["-"%char; c]) eqn:E; auto.
  destruct (starts_with ("-"%char :: c :: rest) n) eqn:S; auto. exfalso.
  apply starts_with_prefix in S. destruct S as [w W].
  destruct (tab_names p T TAB n a I) as [(x & -> & A & B)|(x & r & -> & H)].
  - injection W as -> W. destruct rest; [|discriminate]. 
    rewrite (proj2 (text_eqb_eq _ _) eq_refl) in E. discriminate.
  - injection W as <- W. congruence.
Qed.

(** ** Reading one argument *)
(** Spec to model. *)
Lemma po_exact : forall d s, stands_for T s d -> exists a o, In a p /\ corr a d /\ parse_optional p s = Ok (Option a o None).
Proof.
  intros d s H. destruct (stands_shape s d H) as [NE (c & r & -> & ND)]. destruct H as [D H].
  unfold parse_optional. rewrite Ascii.eqb_refl. cbn [negb].
  destruct H as [N|(n & N & Q & W & _ & U & NN)].
  - destruct (doc_osa d _ D N) as (a & A & C & I). exists a, ("-"%char :: c :: r). split; auto. split; auto.
    apply lookup_some in I. rewrite I. reflexivity.
  - destruct (doc_osa d _ D N) as (a & A & C & I). exists a, n. split; auto. split; auto.
    rewrite (lookup_absent _ NN). rewrite (partition_none _ NE). 
    destruct W as [w W]. cbn in W. injection W as -> ->.
    rewrite (tuples_long _ _ _ (partition_none _ NE) w eq_refl). cbn [option_map].
    assert (E : flat_map (fun x => if starts_with ("-"%char :: "-"%char :: w) (fst x) then [(snd x, fst x, @None (bool * text))] else []) osa = [(a, n, None)]).
    { apply fm_one; [apply osa_nodup|]. exists (n, a). split; auto. split; [apply starts_with_prefix; exact Q|]. split; auto.
      intros [m b] J Z. cbn [fst] in Z. apply starts_with_prefix in Z. destruct (osa_doc m b J) as (e & E & Ce & M).
      pose proof (U e m E M Z) as ->. f_equal. exact (osa_same n b a J I). }
    rewrite E. reflexivity.
Qed.
Lemma po_joined : forall d s v, stands_for T s d ->
  exists a o, In a p /\ corr a d /\ parse_optional p (s ++ "="%char :: v) = Ok (Option a o (Some (true, v))).
Proof.
  intros d s v H. destruct (stands_shape s d H) as [NE (c & r & -> & ND)]. destruct H as [D H].
  assert (L : lookup p (("-"%char :: c :: r) ++ "="%char :: v) = None).
  { apply lookup_absent. intros e E N. apply (name_no_eq e _ E N). apply in_or_app. right. left. auto. }
  unfold parse_optional. rewrite L, (partition_some _ v NE). cbn [app]. rewrite Ascii.eqb_refl. cbn [negb].
  destruct H as [N|(n & N & Q & W & _ & U & NN)].
  - destruct (doc_osa d _ D N) as (a & A & C & I). exists a, ("-"%char :: c :: r). split; auto. split; auto.
    apply lookup_some in I. rewrite I. reflexivity.
  - destruct (doc_osa d _ D N) as (a & A & C & I). exists a, n. split; auto. split; auto.
    rewrite (lookup_absent _ NN).
    destruct W as [w W]. cbn in W. injection W as -> ->.
    pose proof (tuples_long _ _ _ (partition_some _ v NE) (w ++ "="%char :: v) eq_refl) as TL. cbn [app] in TL. rewrite TL. change (option_map (pair true) (Some v)) with (Some (true, v)).
    assert (E : flat_map (fun x => if starts_with ("-"%char :: "-"%char :: w) (fst x) then [(snd x, fst x, Some (true, v))] else []) osa = [(a, n, Some (true, v))]).
    { apply fm_one; [apply osa_nodup|]. exists (n, a). split; auto. split; [apply starts_with_prefix; exact Q|]. split; auto.
      intros [m b] J Z. cbn [fst] in Z. apply starts_with_prefix in Z. destruct (osa_doc m b J) as (e & E & Ce & M).
      pose proof (U e m E M Z) as ->. f_equal. exact (osa_same n b a J I). }
    match goal with |- context [flat_map ?f osa] => replace (flat_map f osa) with [(a, n, Some (true, v))] by (symmetry; exact E) end. reflexivity.
Qed.
Lemma letter_neq : forall d c, letter T d c -> c <> "-"%char /\ c <> "="%char.
Proof.
  intros d c (D & N & C). split; auto. intros ->. apply (name_no_eq d _ D N). right. left. auto.
Qed.
Lemma po_glued : forall d c v, letter T d c -> v <> [] -> (forall w, v <> "="%char :: w) ->
  exists a, In a p /\ corr a d /\ parse_optional p ("-"%char :: c :: v) = Ok (Option a ["-"%char; c] (Some (false, v))).
Proof.
  intros d c v H V1 V2. destruct (letter_neq d c H) as [C1 C2]. destruct H as (D & N & _).
  destruct (doc_osa d _ D N) as (a & A & C & I). exists a. split; auto. split; auto.
  assert (L : forall w, w <> [] -> lookup p ("-"%char :: c :: w) = None).
  { intros w W. apply lookup_absent. intros e E M. apply W. exact (short_name e c w E M C1). }
  unfold parse_optional. rewrite Ascii.eqb_refl. cbn [negb]. rewrite (L v V1).
  destruct (partition_eq ("-"%char :: c :: v)) as [o e] eqn:P.
  assert (G : get_option_tuples p ("-"%char :: c :: v) = [(a, ["-"%char; c], Some (false, v))]).
  { rewrite (tuples_short c v C1 (L v V1)). apply fm_one; [apply osa_nodup|]. exists (["-"%char; c], a).
    split; auto. split; [apply text_eqb_eq; reflexivity|]. split; auto.
    intros [m b] J Z. cbn [fst] in Z. apply text_eqb_eq in Z. subst. f_equal. exact (osa_same _ b a J I). }
  destruct e as [w|]; [|rewrite G; reflexivity].
  assert (O : lookup p o = None).
  { destruct (partition_inv _ _ _ P) as [_ E]. destruct o as [|x [|y [|z o]]].
    - discriminate.
    - cbn in E. injection E as _ E _. congruence.
    - cbn in E. injection E as _ _ E. exfalso. exact (V2 w E).
    - cbn in E. injection E as <- <- _. apply L. discriminate. }
  rewrite O, G. reflexivity.
Qed.
Lemma fits_long : forall s q e, partition_eq s = (q, e) -> forall r, s = "-"%char :: "-"%char :: r -> ~ fits T s ->
  get_option_tuples p s = [].
Proof.
  intros s q e P r S H. rewrite (tuples_long s q e P r S). apply fm_nil. intros [n a] I. cbn [fst snd].
  destruct (starts_with q n) eqn:Z; auto. exfalso. apply H. right. destruct (osa_doc n a I) as (d & D & _ & N).
  apply starts_with_prefix in Z. destruct (partition_inv _ _ _ P) as [NE E]. exists d, n, q.
  split; auto. split; auto. split; auto. split; [|split; [exact NE|]].
  - destruct e as [v|]; [|subst q; exists r; exact S].
    destruct q as [|x [|y q]].
    + subst s. discriminate.
    + subst s. cbn in E. injection E as _ E. discriminate.
    + subst s. cbn in E. injection E as <- <- _. exists q. reflexivity.
  - destruct e as [v|]; [right; exists v; exact E|left; exact E].
Qed.
Lemma fits_short : forall c rest, c <> "-"%char -> lookup p ("-"%char :: c :: rest) = None ->
  ~ fits T ("-"%char :: c :: rest) -> get_option_tuples p ("-"%char :: c :: rest) = [].
Proof.
  intros c rest C L H. rewrite (tuples_short c rest C L). apply fm_nil. intros [n a] I. cbn [fst snd].
  destruct (text_eqb n ["-"%char; c]) eqn:E; auto. exfalso. apply text_eqb_eq in E. subst n.
  destruct (osa_doc _ a I) as (d & D & _ & N). apply H. left. exists d, c, rest. split; auto. split; auto.
Qed.
Lemma name_fits : forall d n, In d T -> name_of d n -> fits T n /\ forall v, fits T (n ++ "="%char :: v).
Proof.
  intros d n D N. destruct (doc_okname d n D N) as [(c & -> & A & B)|(c & r & -> & H)].
  - split; [|intro v]; left; [exists d, c, []|exists d, c, ("="%char :: v)]; (split; [split; auto|reflexivity]).
  - assert (X : forall v, v = ("-"%char :: "-"%char :: c :: r) \/ (exists w, v = ("-"%char :: "-"%char :: c :: r) ++ "="%char :: w) -> fits T v).
    { intros v V. right. exists d, ("-"%char :: "-"%char :: c :: r), ("-"%char :: "-"%char :: c :: r).
      split; auto. split; auto. split; [exists []; rewrite app_nil_r; reflexivity|]. split; [exists (c :: r); reflexivity|auto]. }
    split; [|intro v]; apply X; eauto.
Qed.
Lemma po_unfit : forall s, ~ fits T s -> forall c r, s = "-"%char :: c :: r ->
  parse_optional p s = if negative_number s then Ok Argument else if existsb (Ascii.eqb " ") s then Ok Argument else Ok Unknown.
Proof.
  intros s H c r S. 
  assert (L : lookup p s = None).
  { apply lookup_absent. intros d D N. apply H. apply (name_fits d s D N). }
  assert (G : get_option_tuples p s = []).
  { destruct (ascii_dec c "-") as [->|C].
    - destruct (partition_eq s) as [q e] eqn:P. exact (fits_long s q e P r S H).
    - subst s. exact (fits_short c r C L H). }
  unfold parse_optional. rewrite L, G. rewrite S at 1. cbn [negb]. rewrite Ascii.eqb_refl. cbn [negb].
  destruct (partition_eq s) as [o e] eqn:P. destruct e as [v|]; [|reflexivity].
  destruct (lookup p o) as [a|] eqn:O; [|reflexivity]. exfalso. apply lookup_some in O.
  destruct (osa_doc _ _ O) as (d & D & _ & N). apply H. destruct (partition_inv _ _ _ P) as [_ ->].
  apply (name_fits d o D N).
Qed.
Lemma space_spec : forall v, existsb (Ascii.eqb " ") v = true <-> In " "%char v.
Proof.
  intro v. rewrite existsb_exists. split.
  - intros (x & I & E). apply Ascii.eqb_eq in E. subst. exact I.
  - intro I. exists " "%char. split; auto.
Qed.
Lemma po_plain : forall v, plain T v -> parse_optional p v = Ok Argument.
Proof.
  intros v [H|[->|[H K]]].
  - destruct v as [|c v]; [reflexivity|]. unfold parse_optional. destruct (Ascii.eqb_spec c dash) as [->|X]; [|reflexivity].
    exfalso. exact (H v eq_refl).
  - cbn. rewrite lookup_absent; auto. intros d D N. destruct (name_dash d _ D N) as (c & r & E & _). discriminate.
  - destruct v as [|c [|c' r]].
    + reflexivity.
    + unfold parse_optional. destruct (Ascii.eqb_spec c dash) as [->|X]; [|reflexivity].
      cbn [negb]. rewrite lookup_absent; auto. intros d D N. destruct (name_dash d _ D N) as (x & q & E & _). discriminate.
    + destruct (ascii_dec c "-") as [->|X].
      * rewrite (po_unfit _ H c' r eq_refl). destruct (negative_number _) eqn:E; auto.
        destruct K as [K|K]; [apply negative_number_spec in K; congruence|].
        apply space_spec in K. rewrite K. reflexivity.
      * unfold parse_optional. destruct (Ascii.eqb_spec c dash) as [->|Y]; [contradiction|]. reflexivity.
Qed.
Lemma plain_not_dashes : forall v, plain T v -> v <> txt "--".
Proof.
  intros v H ->. destruct H as [H|[H|[_ [H|H]]]].
  - exact (H _ eq_refl).
  - discriminate.
  - destruct H as (a & b & A & B & [E|E]); cbn in E; injection E as E.
    + assert (I : In "-"%char (a ++ b)) by (rewrite <- E; left; auto). specialize (A _ I). cbn in A. lia.
    + destruct a as [|x a]; [discriminate|]. cbn in E. injection E as <- _. specialize (A "-"%char (or_introl eq_refl)). cbn in A. lia.
  - cbn in H. destruct H as [H|[H|[]]]; discriminate.
Qed.

(** Model to spec. *)
Lemma fits_tuples : forall s, fits T s -> lookup p s = None -> get_option_tuples p s <> [].
Proof.
  intros s [(d & c & rest & L & ->)|(d & n & q & D & N & Q & [w W] & NE & S)] K G.
  - destruct (letter_neq d c L) as [C _]. destruct L as (D & N & _).
    rewrite (tuples_short c rest C K) in G. rewrite fm_nil in G.
    destruct (doc_osa d _ D N) as (a & _ & _ & I). specialize (G _ I). cbn [fst] in G.
    rewrite (proj2 (text_eqb_eq _ _) eq_refl) in G. discriminate.
  - destruct (doc_osa d _ D N) as (a & _ & _ & I).
    assert (P : exists e r, partition_eq s = (q, e) /\ s = "-"%char :: "-"%char :: r).
    { destruct S as [->|[v ->]].
      - exists None, w. split; [apply partition_none; exact NE|exact W].
      - exists (Some v), (w ++ "="%char :: v). split; [apply partition_some; exact NE|rewrite W; reflexivity]. }
    destruct P as (e & r & P & S'). rewrite (tuples_long s q e P r S') in G. rewrite fm_nil in G.
    specialize (G _ I). cbn [fst] in G. apply starts_with_prefix in Q. congruence.
Qed.
Lemma corr_osa : forall n a, In (n, a) osa -> In a p.
Proof. intros n a H. apply in_osa in H. tauto. Qed.
Lemma single_abbrev : forall q a n e (f : text * action -> action * text * option (bool * text)),
  (forall x, fst (fst (f x)) = snd x /\ snd (fst (f x)) = fst x) ->
  prefix (txt "--") q -> lookup p q = None ->
  flat_map (fun x => if starts_with q (fst x) then [f x] else []) osa = [(a, n, e)] ->
  In a p /\ exists d, corr a d /\ stands_for T q d.
Proof.
  intros q a n e f F W K H. apply fm_one in H; [|apply osa_nodup].
  destruct H as ([m b] & I & Z & E & U). pose proof (F (m, b)) as [F1 F2]. rewrite <- E in F1, F2. cbn in F1, F2. subst b m.
  split; [exact (corr_osa n a I)|]. destruct (osa_doc n a I) as (d & D & C & N). exists d. split; auto. split; auto.
  right. exists n. split; auto. split; [apply starts_with_prefix; exact Z|]. split; auto. split; [|split].
  - intros ->. destruct (tab_two p T TAB n) as (m & b & J & M & X). apply X.
    assert (Y : (m, b) = (n, a)) by (apply U; [exact J|apply starts_with_prefix; exact M]). congruence.
  - intros d' m D' N' M. destruct (doc_osa d' m D' N') as (b & _ & _ & J).
    assert (Y : (m, b) = (n, a)) by (apply U; [exact J|apply starts_with_prefix; exact M]). congruence.
  - intros d' D' N'. destruct (doc_osa d' q D' N') as (b & _ & _ & J). apply lookup_some in J. congruence.
Qed.
Definition read_as (s : text) (r : reading) : Prop :=
  match r with
  | Argument => plain T s
  | Dashes => False
  | Option a o None => In a p /\ exists d, corr a d /\ stands_for T s d
  | Option a o (Some (true, v)) => In a p /\ exists s' d, s = s' ++ "="%char :: v /\ corr a d /\ stands_for T s' d
  | Option a o (Some (false, v)) => In a p /\ exists c d, o = ["-"%char; c] /\ s = "-"%char :: c :: v /\ corr a d
      /\ letter T d c /\ v <> [] /\ forall w, v <> "="%char :: w
  | Unknown => ~ plain T s
  end.
Lemma po_inv : forall s r, s <> txt "--" -> parse_optional p s = Ok r -> read_as s r.
Proof.
  intros s r ND H. unfold parse_optional in H. destruct s as [|c r0].
  { injection H as <-. left. intros w. discriminate. }
  destruct (Ascii.eqb_spec c dash) as [->|X]; cbn [negb] in H.
  2:{ injection H as <-. left. intros w E. injection E as -> _. apply X. reflexivity. }
  change dash with "-"%char in *.
  destruct (lookup p ("-"%char :: r0)) as [a|] eqn:L.
  { injection H as <-. apply lookup_some in L. split; [exact (corr_osa _ a L)|].
    destruct (osa_doc _ a L) as (d & D & C & N). exists d. split; auto. split; auto. }
  destruct r0 as [|c r0]. { injection H as <-. right. left. reflexivity. }
  destruct (partition_eq ("-"%char :: c :: r0)) as [o e] eqn:P.
  destruct (partition_inv _ _ _ P) as [NE SE].
  assert (REST : (forall v, e = Some v -> lookup p o = None) ->
    match get_option_tuples p ("-"%char :: c :: r0) with
    | [] => if negative_number ("-"%char :: c :: r0) then Ok Argument
            else if existsb (Ascii.eqb " ") ("-"%char :: c :: r0) then Ok Argument else Ok Unknown
    | [(a, n, e)] => Ok (Option a n e)
    | _ => Err SysExit
    end = Ok r -> read_as ("-"%char :: c :: r0) r).
  { intros LO R.
    destruct (get_option_tuples p ("-"%char :: c :: r0)) as [|[[a n] e'] [|? ?]] eqn:G; [| |destruct (match (a, n) with _ => _ end); discriminate].
    - assert (NF : ~ fits T ("-"%char :: c :: r0)) by (intro Z; exact (fits_tuples _ Z L G)).
      destruct (negative_number ("-"%char :: c :: r0)) eqn:NN.
      { injection R as <-. right. right. split; auto. left. apply negative_number_spec. exact NN. }
      destruct (existsb (Ascii.eqb " ") ("-"%char :: c :: r0)) eqn:SP.
      { injection R as <-. right. right. split; auto. right. apply space_spec. exact SP. }
      injection R as <-. intros [Z|[Z|[_ [Z|Z]]]].
      + exact (Z _ eq_refl).
      + discriminate.
      + apply negative_number_spec in Z. congruence.
      + apply space_spec in Z. congruence.
    - injection R as <-. destruct (ascii_dec c "-") as [->|C].
      + rewrite (tuples_long _ o e P r0 eq_refl) in G.
        assert (W : prefix (txt "--") o).
        { destruct e as [v|]; [|subst o; exists r0; reflexivity]. destruct o as [|x [|y o]].
          - discriminate.
          - cbn in SE. injection SE as _ SE. discriminate.
          - cbn in SE. injection SE as <- <- _. exists o. reflexivity. }
        assert (K : lookup p o = None). { destruct e as [v|]; [exact (LO v eq_refl)|subst o; exact L]. }
        pose proof (single_abbrev o a n e' (fun x => (snd x, fst x, option_map (pair true) e)) (fun x => conj eq_refl eq_refl) W K G) as [A (d & C & S)].
        assert (E' : e' = option_map (pair true) e).
        { apply fm_one in G; [|apply osa_nodup]. destruct G as (x & _ & _ & E' & _). congruence. }
        subst e'. destruct e as [v|]; cbn [option_map read_as].
        * split; auto. exists o, d. auto.
        * split; auto. exists d. subst o. auto.
      + rewrite (tuples_short c r0 C L) in G. apply fm_one in G; [|apply osa_nodup].
        destruct G as ([m b] & I & Z & E & _). cbn [fst snd] in Z, E. apply text_eqb_eq in Z. subst m.
        injection E as -> -> ->. cbn [read_as]. split; [exact (corr_osa _ b I)|].
        destruct (osa_doc _ b I) as (d & D & C' & N). exists c, d. split; auto. split; auto. split; auto.
        split; [split; auto|]. assert (V : r0 <> []).
        { intros ->. apply lookup_some in I. congruence. }
        split; auto. intros w ->. rewrite partition_cons2 in P; [|intros ->; apply (name_no_eq d _ D N); right; left; reflexivity].
        injection P as <- <-. specialize (LO w eq_refl). apply lookup_some in I. congruence. }
  destruct e as [v|]; [|apply REST; [discriminate|exact H]].
  destruct (lookup p o) as [a|] eqn:LO.
  - injection H as <-. cbn [read_as]. apply lookup_some in LO. split; [exact (corr_osa _ a LO)|].
    destruct (osa_doc _ a LO) as (d & D & C & N). exists o, d. split; auto. split; auto. split; auto.
  - apply REST; [intros; reflexivity|exact H].
Qed.

(** ** Several letters in one argument *)
Definition sets (ds : list documented) : settings := map (fun d => (d_key d, None)) ds.
Lemma corr_kind : forall a d, corr a d -> (kind_of a = Store <-> d_value d = true).
Proof. intros a d (_ & _ & _ & E). rewrite E. destruct (d_value d); [tauto|]. destruct (String.eqb _ _); split; discriminate. Qed.
Lemma corr_help : forall a d, corr a d -> In d T -> (kind_of a = Help <-> dest a = "help"%string).
Proof.
  intros a d (_ & K & _ & E) D. rewrite K, E. destruct (d_value d) eqn:V.
  - split; [discriminate|]. intro H. rewrite (tab_help p T TAB d D H) in V. discriminate.
  - destruct (String.eqb_spec (d_key d) "help"); split; congruence.
Qed.
Lemma help_kind : forall a, In a p -> (kind_of a = Help <-> dest a = "help"%string).
Proof. intros a A. destruct (corr_left a A) as (d & D & C). exact (corr_help a d C D). Qed.
Lemma asks_help_spec : forall l, (forall x, In x l -> In (fst x) p) -> (asks_help l = true <-> In "help"%string (map fst (set_all l))).
Proof.
  intros l H. unfold asks_help, set_all. rewrite existsb_exists, map_map. split.
  - intros (x & I & E). apply in_map_iff. exists x. split; auto. cbn. apply help_kind; auto.
    destruct (kind_of (fst x)); auto; discriminate.
  - intro I. apply in_map_iff in I. destruct I as (x & E & I). exists x. split; auto. cbn in E.
    apply help_kind in E; auto. rewrite E. reflexivity.
Qed.
Lemma letter_lookup : forall d c, letter T d c -> exists a, In a p /\ corr a d /\ lookup p ["-"%char; c] = Some a.
Proof.
  intros d c (D & N & _). destruct (doc_osa d _ D N) as (a & A & C & I). exists a. split; auto. split; auto.
  apply lookup_some. exact I.
Qed.
Lemma lookup_letter : forall c a, c <> "-"%char -> lookup p ["-"%char; c] = Some a -> In a p /\ exists d, corr a d /\ letter T d c.
Proof.
  intros c a C H. apply lookup_some in H. split; [exact (corr_osa _ a H)|].
  destruct (osa_doc _ a H) as (d & D & K & N). exists d. split; auto. split; auto.
Qed.
Lemma kind_switch : forall a d X (x y : X), corr a d -> d_value d = false -> match kind_of a with Store => x | _ => y end = y.
Proof. intros a d X x y (_ & _ & _ & E) V. rewrite V in E. destruct (kind_of a); auto. destruct (String.eqb _ _); discriminate. Qed.
Lemma kind_store : forall a d X (x y : X), corr a d -> d_value d = true -> match kind_of a with Store => x | _ => y end = x.
Proof. intros a d X x y C V. apply (corr_kind a d C) in V. rewrite V. reflexivity. Qed.

Lemma letters_sound : forall e a d c acts en, In a p -> corr a d -> letter T d c -> e <> [] -> (forall w, e <> "="%char :: w) ->
  letters p a e = Ok (acts, en) ->
  (forall x, In x acts -> In (fst x) p) /\
  match en with
  | Complete => exists ds cs d' c' v, switches T ds cs /\ letter T d' c' /\ d_value d' = true
      /\ set_all acts = sets ds ++ [(d_key d', Some v)]
      /\ ((c :: e = cs ++ c' :: v /\ v <> [] /\ forall w, v <> "="%char :: w)
          \/ (c :: e = cs ++ c' :: "="%char :: v /\ ds <> []))
  | Pending b => In b p /\ exists ds cs d' c', switches T ds cs /\ ds <> [] /\ letter T d' c' /\ corr b d'
      /\ set_all acts = sets ds /\ c :: e = cs ++ [c']
  | Extra => True
  end.
Proof.
  induction e as [|x e IH]; intros a d c acts en A C L E1 E2 H; [congruence|]. clear E1.
  cbn [letters] in H. destruct (d_value d) eqn:V.
  - rewrite (kind_store a d _ _ _ C V) in H. injection H as <- <-. split.
    + intros y [<-|[]]. exact A.
    + exists [], [], d, c, (x :: e). split; [constructor|]. split; auto. split; auto. split.
      * cbn. destruct C as (_ & -> & _). reflexivity.
      * left. split; [reflexivity|]. split; [discriminate|exact E2].
  - rewrite (kind_switch a d _ _ _ C V) in H.
    assert (KA : dest a = d_key d) by (destruct C as (_ & K & _); exact K).
    assert (SW : switches T [d] [c]) by (constructor; [exact L|exact V|constructor]).
    destruct (Ascii.eqb_spec x dash) as [->|X]; [discriminate|].
    destruct (lookup p [dash; x]) as [b|] eqn:LB.
    2:{ injection H as <- <-. split; [|exact I]. intros y [<-|[]]. exact A. }
    destruct (lookup_letter x b X LB) as [B (d' & C' & L')].
    destruct e as [|y v].
    { injection H as <- <-. split; [intros z [<-|[]]; exact A|]. split; auto.
      exists [d], [c], d', x. split; auto. split; [discriminate|]. split; auto. split; auto. split; [cbn; rewrite KA; reflexivity|reflexivity]. }
    destruct (Ascii.eqb_spec y "=") as [->|Y].
    { destruct (d_value d') eqn:V'.
      - rewrite (kind_store b d' _ _ _ C' V') in H. injection H as <- <-. split.
        + intros z [<-|[<-|[]]]; auto.
        + exists [d], [c], d', x, v. split; auto. split; auto. split; auto. split.
          * cbn. rewrite KA. destruct C' as (_ & -> & _). reflexivity.
          * right. split; [reflexivity|discriminate].
      - rewrite (kind_switch b d' _ _ _ C' V') in H. discriminate. }
    destruct (letters p b (y :: v)) as [[acts' en']|] eqn:R; [|discriminate]. cbn [rbind] in H. injection H as <- <-.
    destruct (IH b d' x acts' en' B C' L') as [F S]; auto; [discriminate|intros w Z; injection Z as -> _; congruence|].
    cbn [fst snd]. split.
    + intros z [<-|Z]; auto.
    + destruct en'.
      * destruct S as (ds & cs & d2 & c2 & w & S1 & S2 & S3 & S4 & S5).
        exists (d :: ds), (c :: cs), d2, c2, w. split; [constructor; auto|]. split; auto. split; auto. split.
        -- cbn. unfold set_all in S4. rewrite S4, KA. reflexivity.
        -- destruct S5 as [(S5 & S6 & S7)|[S5 S6]].
           ++ left. split; [rewrite S5; reflexivity|auto].
           ++ right. split; [rewrite S5; reflexivity|discriminate].
      * destruct S as (B' & ds & cs & d2 & c2 & S1 & S2 & S3 & S4 & S5 & S6). split; auto.
        exists (d :: ds), (c :: cs), d2, c2. split; [constructor; auto|]. split; [discriminate|]. split; auto. split; auto. split.
        -- cbn. unfold set_all in S5. rewrite S5, KA. reflexivity.
        -- rewrite S6. reflexivity.
      * exact I.
Qed.

Lemma switch_char : forall ds cs, switches T ds cs -> forall c, In c cs -> c <> "-"%char /\ c <> "="%char.
Proof.
  induction 1 as [|d c ds cs L V S IH]; intros x; [intros []|]. intros [<-|H]; auto. exact (letter_neq d c L).
Qed.
(** [letters] after a first switch [a]. *)
Lemma letters_run : forall ds cs a d tail r, In a p -> corr a d -> d_value d = false -> switches T ds cs -> tail <> [] ->
  (forall w, tail <> "="%char :: w) ->
  (forall b d', In b p -> corr b d' -> d_value d' = false -> letters p b tail = Ok ((b, None) :: fst r, snd r)) ->
  (forall x, In x (fst r) -> In (fst x) p) ->
  exists acts, letters p a (cs ++ tail) = Ok (acts, snd r) /\ set_all acts = sets (d :: ds) ++ set_all (fst r)
    /\ forall x, In x acts -> In (fst x) p.
Proof.
  intros ds cs a d tail r A C V S. revert a d A C V.
  induction S as [|d1 c1 ds cs L1 V1 S IH]; intros a d A C V T1 T2 H F.
  - exists ((a, None) :: fst r). cbn [app]. rewrite (H a d A C V). split; auto. split.
    + cbn. destruct C as (_ & -> & _). reflexivity.
    + intros x [<-|X]; auto.
  - destruct (letter_lookup d1 c1 L1) as (b & B & C1 & LB). destruct (letter_neq d1 c1 L1) as [N1 N2].
    destruct (IH b d1 B C1 V1 T1 T2 H F) as (acts & R & SA & FA).
    exists ((a, None) :: acts). cbn [app letters]. rewrite (kind_switch a d _ _ _ C V).
    destruct (Ascii.eqb_spec c1 dash) as [->|X]; [exfalso; apply N1; reflexivity|].
    change dash with "-"%char. rewrite LB.
    destruct (cs ++ tail) as [|y v] eqn:E.
    { exfalso. destruct cs; [cbn in E; contradiction|discriminate]. }
    destruct (Ascii.eqb_spec y "=") as [->|Y].
    { exfalso. destruct cs as [|z cs]; cbn in E.
      - exact (T2 v E).
      - injection E as -> _. apply (switch_char _ _ S "="%char); [left; auto|reflexivity]. }
    rewrite R. cbn [rbind fst snd]. split; auto. split.
    + cbn. unfold set_all in SA. rewrite SA. destruct C as (_ & -> & _). reflexivity.
    + intros x [<-|Q]; auto.
Qed.

(** ** One group of arguments *)
Definition helps (g : settings) : bool := existsb (String.eqb "help") (map fst g).
Lemma helps_spec : forall g, helps g = true <-> In "help"%string (map fst g).
Proof.
  intro g. unfold helps. rewrite existsb_exists. split.
  - intros (x & I & E). apply String.eqb_eq in E. subst. exact I.
  - intro I. exists "help"%string. split; auto.
Qed.
Lemma asks_helps : forall l, (forall x, In x l -> In (fst x) p) -> asks_help l = helps (set_all l).
Proof.
  intros l H. apply eq_true_iff_eq. rewrite helps_spec. apply asks_help_spec. exact H.
Qed.
Lemma classify_cons : forall s r rest lr, s <> txt "--" -> parse_optional p s = Ok r -> classify p rest = Ok lr ->
  classify p (s :: rest) = Ok ((s, r) :: lr).
Proof.
  intros s r rest lr N H K. cbn [classify]. destruct (text_eqb s [dash; dash]) eqn:E.
  - apply text_eqb_eq in E. exfalso. apply N. exact E.
  - rewrite H, K. reflexivity.
Qed.
Lemma classify_inv : forall s rest l, classify p (s :: rest) = Ok l ->
  (s = txt "--" /\ l = (s, Dashes) :: map (fun x => (x, Argument)) rest)
  \/ (s <> txt "--" /\ exists r lr, parse_optional p s = Ok r /\ classify p rest = Ok lr /\ l = (s, r) :: lr).
Proof.
  intros s rest l H. cbn [classify] in H. destruct (text_eqb s [dash; dash]) eqn:E.
  - apply text_eqb_eq in E. left. split; [exact E|]. congruence.
  - right. split. { intros ->. rewrite (proj2 (text_eqb_eq _ _)) in E; [discriminate|reflexivity]. }
    destruct (parse_optional p s) as [r|] eqn:R; [|discriminate]. cbn [rbind] in H.
    destruct (classify p rest) as [lr|] eqn:L; [|discriminate]. cbn [rbind] in H. injection H as <-. eauto.
Qed.
Definition step_of (g : settings) (a : list text) : Prop :=
  exists cl, (forall rest lr, classify p rest = Ok lr -> classify p (a ++ rest) = Ok (cl ++ lr))
    /\ forall lr ns ex, consume p (cl ++ lr) ns ex = if helps g then Shown else consume p lr (ns ++ g) ex.
Lemma value_no_help : forall d v, In d T -> d_value d = true -> helps [(d_key d, v)] = false.
Proof.
  intros d v D V. unfold helps. cbn [map fst existsb]. rewrite orb_false_r. destruct (String.eqb_spec "help" (d_key d)); auto.
  symmetry in e. rewrite (tab_help p T TAB d D e) in V. discriminate.
Qed.
Lemma helps_app : forall a b, helps (a ++ b) = helps a || helps b.
Proof. intros a b. unfold helps. rewrite map_app, existsb_app. reflexivity. Qed.
Lemma switches_snoc : forall ds cs, switches T ds cs -> ds <> [] -> exists ds' d cs' c, ds = ds' ++ [d] /\ cs = cs' ++ [c]
  /\ switches T ds' cs' /\ letter T d c /\ d_value d = false.
Proof.
  induction 1 as [|d c ds cs L V S IH]; intro N; [congruence|].
  destruct ds as [|d1 ds].
  - inversion S; subst. exists [], d, [], c. repeat split; auto; try constructor; apply L.
  - destruct IH as (ds' & d' & cs' & c' & E1 & E2 & S' & L' & V'); [discriminate|].
    exists (d :: ds'), d', (c :: cs'), c'. rewrite E1, E2. split; auto. split; auto. split; [constructor; auto|auto].
Qed.
Lemma letter_in : forall d c, letter T d c -> In d T.
Proof. intros d c H. apply H. Qed.
Lemma not_dashes_short : forall c rest, c <> "-"%char -> "-"%char :: c :: rest <> txt "--".
Proof. intros c rest H E. cbn in E. injection E as E _. congruence. Qed.

(** A group of letters beginning with a switch. *)
Lemma group_read : forall ds cs tail r, switches T ds cs -> ds <> [] -> tail <> [] -> (forall w, tail <> "="%char :: w) ->
  (forall b d', In b p -> corr b d' -> d_value d' = false -> letters p b tail = Ok ((b, None) :: fst r, snd r)) ->
  (forall x, In x (fst r) -> In (fst x) p) ->
  exists a o e acts, "-"%char :: cs ++ tail <> txt "--"
    /\ parse_optional p ("-"%char :: cs ++ tail) = Ok (Option a o e) /\ one_option p a o e = Ok (acts, snd r)
    /\ set_all acts = sets ds ++ set_all (fst r) /\ forall x, In x acts -> In (fst x) p.
Proof.
  intros ds cs tail r S N T1 T2 H F. destruct S as [|d c ds cs L V S]; [congruence|].
  assert (E1 : cs ++ tail <> []) by (destruct cs; [exact T1|discriminate]).
  assert (E2 : forall w, cs ++ tail <> "="%char :: w).
  { intros w E. destruct cs as [|z cs]; [exact (T2 w E)|]. cbn in E. injection E as -> _.
    apply (switch_char _ _ S "="%char); [left; auto|reflexivity]. }
  destruct (po_glued d c _ L E1 E2) as (a & A & C & P). destruct (letter_neq d c L) as [N1 N2].
  destruct (letters_run ds cs a d tail r A C V S T1 T2 H F) as (acts & R & SA & FA).
  exists a, ["-"%char; c], (Some (false, cs ++ tail)), acts. split; [exact (not_dashes_short c _ N1)|].
  split; [exact P|]. split; [|auto]. cbn [one_option]. rewrite (kind_switch a d _ _ _ C V).
  destruct (Ascii.eqb_spec c dash) as [->|X]; [exfalso; apply N1; reflexivity|].
  rewrite (proj2 (text_eqb_nil (cs ++ tail)) E1). exact R.
Qed.
Lemma step_pending_value : forall s a o e acts b d v g, s <> txt "--" -> parse_optional p s = Ok (Option a o e) ->
  one_option p a o e = Ok (acts, Pending b) -> In b p -> corr b d -> In d T -> d_value d = true -> plain T v ->
  set_all acts = g -> (forall x, In x acts -> In (fst x) p) -> step_of (g ++ [(d_key d, Some v)]) [s; v].
Proof.
  intros s a o e acts b d v g N P O B C D V PL SA FA. exists [(s, Option a o e); (v, Argument)]. split.
  - intros rest lr K. cbn [app]. apply classify_cons; auto. apply classify_cons; auto.
    + exact (plain_not_dashes v PL).
    + exact (po_plain v PL).
  - intros lr ns ex. cbn [app consume]. rewrite O. rewrite (kind_store b d _ _ _ C V).
    rewrite (asks_helps acts FA), SA, helps_app, (value_no_help d _ D V), orb_false_r.
    destruct (helps g); auto. unfold set_all. rewrite map_app. fold (set_all acts). rewrite SA. cbn.
    destruct C as (_ & -> & _). reflexivity.
Qed.
Lemma step_pending_switch : forall s a o e acts b d g, s <> txt "--" -> parse_optional p s = Ok (Option a o e) ->
  one_option p a o e = Ok (acts, Pending b) -> In b p -> corr b d -> d_value d = false ->
  set_all acts = g -> (forall x, In x acts -> In (fst x) p) -> step_of (g ++ [(d_key d, None)]) [s].
Proof.
  intros s a o e acts b d g N P O B C V SA FA. exists [(s, Option a o e)]. split.
  - intros rest lr K. cbn [app]. apply classify_cons; auto.
  - intros lr ns ex. cbn [app consume]. rewrite O. 
    assert (Q : set_all (acts ++ [(b, None)]) = g ++ [(d_key d, None)]).
    { unfold set_all. rewrite map_app. fold (set_all acts). rewrite SA. cbn. destruct C as (_ & -> & _). reflexivity. }
    assert (F2 : forall x, In x (acts ++ [(b, None)]) -> In (fst x) p).
    { intros x X. apply in_app_iff in X. destruct X as [X|[<-|[]]]; auto. }
    assert (KS : kind_of b <> Store). { intro K. apply (corr_kind b d C) in K. congruence. }
    rewrite (asks_helps _ F2), Q. destruct (kind_of b); [congruence|reflexivity|reflexivity].
Qed.
Lemma step_complete : forall s a o e acts g, s <> txt "--" -> parse_optional p s = Ok (Option a o e) ->
  one_option p a o e = Ok (acts, Complete) -> set_all acts = g -> (forall x, In x acts -> In (fst x) p) -> step_of g [s].
Proof.
  intros s a o e acts g N P O SA FA. exists [(s, Option a o e)]. split.
  - intros rest lr K. cbn [app]. apply classify_cons; auto.
  - intros lr ns ex. cbn [app consume]. rewrite O. rewrite (asks_helps _ FA), SA. reflexivity.
Qed.
Lemma stands_not_dashes : forall s d, stands_for T s d -> s <> txt "--".
Proof. intros s d H. destruct (stands_shape s d H) as [_ (c & r & _ & N)]. exact N. Qed.
Lemma joined_not_dashes : forall s d v, stands_for T s d -> s ++ "="%char :: v <> txt "--".
Proof.
  intros s d v H E. assert (I : In "="%char (txt "--")) by (rewrite <- E; apply in_or_app; right; left; auto).
  cbn in I. destruct I as [I|[I|[]]]; discriminate.
Qed.
Lemma spelled_step : forall g a, spelled T g a -> step_of g a.
Proof.
  intros g l H. destruct H as [s d v S V PL|s d v S V|s d S V|ds cs S N|ds cs d c v S N L V PL|ds cs d c v S N L V|ds cs d c v S L V V1 V2].
  - destruct (po_exact d s S) as (a & o & A & C & P).
    apply (step_pending_value s a o None [] a d v []); auto; [exact (stands_not_dashes s d S)|apply S|intros x []].
  - destruct (po_joined d s v S) as (a & o & A & C & P).
    apply (step_complete _ a o (Some (true, v)) [(a, Some v)]); auto.
    + exact (joined_not_dashes s d v S).
    + cbn. rewrite (kind_store a d _ _ _ C V). reflexivity.
    + cbn. destruct C as (_ & -> & _). reflexivity.
    + intros x [<-|[]]. exact A.
  - destruct (po_exact d s S) as (a & o & A & C & P).
    apply (step_pending_switch s a o None [] a d []); auto; [exact (stands_not_dashes s d S)|intros x []].
  - destruct (switches_snoc ds cs S) as (ds' & d & cs' & c & -> & -> & S' & L & V). { intros ->. cbn in N. lia. }
    rewrite app_length in N. cbn in N.
    destruct (letter_lookup d c L) as (b & B & C & LB). destruct (letter_neq d c L) as [N1 N2].
    destruct (group_read ds' cs' [c] ([], Pending b) S') as (a & o & e & acts & ND & P & O & SA & FA).
    + intros ->. cbn in N. lia.
    + discriminate.
    + intros w E. injection E as -> _. congruence.
    + intros b' d' B' C' V'. cbn [letters fst snd]. rewrite (kind_switch b' d' _ _ _ C' V').
      destruct (Ascii.eqb_spec c dash) as [->|X]; [exfalso; apply N1; reflexivity|]. change dash with "-"%char. rewrite LB. reflexivity.
    + intros x [].
    + rewrite map_app. cbn [map]. cbn [fst snd] in *. rewrite app_nil_r in SA.
      apply (step_pending_switch _ a o e acts b d (sets ds')); auto.
  - destruct (letter_lookup d c L) as (b & B & C & LB). destruct (letter_neq d c L) as [N1 N2].
    destruct (group_read ds cs [c] ([], Pending b) S N) as (a & o & e & acts & ND & P & O & SA & FA).
    + discriminate.
    + intros w E. injection E as -> _. congruence.
    + intros b' d' B' C' V'. cbn [letters fst snd]. rewrite (kind_switch b' d' _ _ _ C' V').
      destruct (Ascii.eqb_spec c dash) as [->|X]; [exfalso; apply N1; reflexivity|]. change dash with "-"%char. rewrite LB. reflexivity.
    + intros x [].
    + cbn [fst snd] in *. rewrite app_nil_r in SA.
      apply (step_pending_value _ a o e acts b d v (sets ds)); auto. exact (letter_in d c L).
  - destruct (letter_lookup d c L) as (b & B & C & LB). destruct (letter_neq d c L) as [N1 N2].
    destruct (group_read ds cs (c :: "="%char :: v) ([(b, Some v)], Complete) S N) as (a & o & e & acts & ND & P & O & SA & FA).
    + discriminate.
    + intros w E. injection E as -> _. congruence.
    + intros b' d' B' C' V'. cbn [letters fst snd]. rewrite (kind_switch b' d' _ _ _ C' V').
      destruct (Ascii.eqb_spec c dash) as [->|X]; [exfalso; apply N1; reflexivity|]. change dash with "-"%char. rewrite LB.
      rewrite Ascii.eqb_refl. rewrite (kind_store b d _ _ _ C V). reflexivity.
    + intros x [<-|[]]. exact B.
    + cbn [fst snd] in *. apply (step_complete _ a o e acts); auto. rewrite SA. cbn. destruct C as (_ & -> & _). reflexivity.
  - destruct (letter_lookup d c L) as (b & B & C & LB). destruct (letter_neq d c L) as [N1 N2].
    destruct ds as [|d0 ds].
    + inversion S; subst. cbn [app map]. destruct (po_glued d c v L V1 V2) as (a & A & Ca & P).
      apply (step_complete _ a ["-"%char; c] (Some (false, v)) [(a, Some v)]); auto.
      * exact (not_dashes_short c v N1).
      * cbn. rewrite (kind_store a d _ _ _ Ca V). reflexivity.
      * cbn. destruct Ca as (_ & -> & _). reflexivity.
      * intros x [<-|[]]. exact A.
    + destruct (group_read (d0 :: ds) cs (c :: v) ([(b, Some v)], Complete) S) as (a & o & e & acts & ND & P & O & SA & FA).
      * discriminate.
      * discriminate.
      * intros w E. injection E as -> _. congruence.
      * intros b' d' B' C' V'. cbn [letters fst snd]. rewrite (kind_switch b' d' _ _ _ C' V').
        destruct (Ascii.eqb_spec c dash) as [->|X]; [exfalso; apply N1; reflexivity|]. change dash with "-"%char. rewrite LB.
        destruct v as [|y v]; [congruence|]. destruct (Ascii.eqb_spec y "=") as [->|Y]; [exfalso; exact (V2 v eq_refl)|].
        cbn [letters]. rewrite (kind_store b d _ _ _ C V). reflexivity.
      * intros x [<-|[]]. exact B.
      * cbn [fst snd] in *. apply (step_complete _ a o e acts); auto. rewrite SA. cbn. destruct C as (_ & -> & _). reflexivity.
Qed.
Lemma line_step : forall g a, line T g a -> step_of g a.
Proof.
  induction 1 as [|g a gs l S L IH].
  - exists []. split; auto. intros lr ns ex. cbn. rewrite app_nil_r. reflexivity.
  - destruct (spelled_step g a S) as (c1 & K1 & C1). destruct IH as (c2 & K2 & C2). exists (c1 ++ c2). split.
    + intros rest lr K. rewrite <- !app_assoc. auto.
    + intros lr ns ex. rewrite <- app_assoc, C1, C2, helps_app. destruct (helps g); auto. cbn. rewrite app_assoc. reflexivity.
Qed.

(** ** Whole command lines *)
Lemma consume_extras : forall n l ns ex ns' ex', length l <= n -> consume p l ns ex = Parsed (ns', ex') -> exists e, ex' = ex ++ e.
Proof.
  assert (NIL : forall ex : list text, exists e, ex = ex ++ e) by (intro ex; exists []; rewrite app_nil_r; reflexivity).
  induction n as [|n IH]; intros l ns ex ns' ex' N H.
  { destruct l; [|cbn in N; lia]. cbn in H. injection H as _ <-. apply NIL. }
  assert (K : forall l0 ns0 t, length l0 <= n -> consume p l0 ns0 (ex ++ t) = Parsed (ns', ex') -> exists e, ex' = ex ++ e).
  { intros l0 ns0 t L R. destruct (IH _ _ _ _ _ L R) as [e ->]. rewrite <- app_assoc. eauto. }
  destruct l as [|[s r] l]. { cbn in H. injection H as _ <-. apply NIL. }
  cbn [length] in N. cbn [consume] in H. destruct r as [| |a o e|].
  - apply (K l ns [s]); [lia|exact H].
  - apply (K l ns [s]); [lia|exact H].
  - destruct (one_option p a o e) as [[acts en]|]; [|discriminate]. destruct en as [|b|].
    + destruct (asks_help acts); [discriminate|]. apply (IH _ _ _ _ _) in H; [exact H|lia].
    + assert (SWITCH : (if asks_help (acts ++ [(b, None)]) then Shown else consume p l (ns ++ set_all (acts ++ [(b, None)])) ex) = Parsed (ns', ex') -> exists e, ex' = ex ++ e).
      { intro R. destruct (asks_help (acts ++ [(b, None)])); [discriminate|]. apply (IH _ _ _ _ _) in R; [exact R|lia]. }
      destruct (kind_of b); [|exact (SWITCH H)|exact (SWITCH H)].
      destruct l as [|[v []] l]; try discriminate. destruct (asks_help acts); [discriminate|].
      cbn [length] in N. apply (IH _ _ _ _ _) in H; [exact H|lia].
    + destruct (asks_help acts); [discriminate|]. apply (K l _ [s]) in H; [exact H|lia].
  - apply (K l ns [s]); [lia|exact H].
Qed.
Lemma no_extra : forall l ns s ns', consume p l ns [s] <> Parsed (ns', []).
Proof. intros l ns s ns' H. destruct (consume_extras _ _ _ _ _ _ (le_n _) H) as [e E]. discriminate. Qed.

Lemma dest_key : forall a d, corr a d -> dest a = d_key d.
Proof. intros a d (_ & E & _). exact E. Qed.
Lemma consume_sound : forall n args l ns ns', length args <= n -> classify p args = Ok l ->
  consume p l ns [] = Parsed (ns', []) -> exists g, ns' = ns ++ g /\ line T g args /\ helps g = false.
Proof.
  induction n as [|n IH]; intros args l ns ns' N K H.
  { destruct args; [|cbn in N; lia]. cbn in K. injection K as <-. cbn in H. injection H as <-.
    exists []. rewrite app_nil_r. split; auto. split; [constructor|reflexivity]. }
  destruct args as [|s rest].
  { cbn in K. injection K as <-. cbn in H. injection H as <-. exists []. rewrite app_nil_r. split; auto. split; [constructor|reflexivity]. }
  cbn [length] in N. destruct (classify_inv s rest l K) as [[-> ->]|[ND (r & lr & P & KR & ->)]].
  { exfalso. cbn [consume] in H. exact (no_extra _ _ _ _ H). }
  pose proof (po_inv s r ND P) as R.
  (* putting a group before what follows *)
  assert (GO : forall g0 a0 rest0 lr0, length rest0 <= n -> spelled T g0 a0 -> s :: rest = a0 ++ rest0 -> classify p rest0 = Ok lr0 ->
    (if helps g0 then Shown else consume p lr0 (ns ++ g0) []) = Parsed (ns', []) ->
    exists g, ns' = ns ++ g /\ line T g (s :: rest) /\ helps g = false).
  { intros g0 a0 rest0 lr0 N0 S0 E0 K0 C0. destruct (helps g0) eqn:H0; [discriminate|].
    destruct (IH _ _ _ _ N0 K0 C0) as (g & -> & L & HG). exists (g0 ++ g). rewrite app_assoc. split; auto. split.
    - rewrite E0. constructor; auto.
    - rewrite helps_app, H0, HG. reflexivity. }
  (* an option that may take the next argument *)
  assert (PEND : forall acts b d g0, In b p -> corr b d -> In d T -> set_all acts = g0 -> (forall x, In x acts -> In (fst x) p) ->
    (d_value d = true -> forall v, plain T v -> spelled T (g0 ++ [(d_key d, Some v)]) [s; v]) ->
    (d_value d = false -> spelled T (g0 ++ [(d_key d, None)]) [s]) ->
    match kind_of b with
    | Store => match lr with
               | (v, Argument) :: l'' => if asks_help acts then Shown else consume p l'' (ns ++ set_all (acts ++ [(b, Some v)])) []
               | _ => Refused
               end
    | _ => if asks_help (acts ++ [(b, None)]) then Shown else consume p lr (ns ++ set_all (acts ++ [(b, None)])) []
    end = Parsed (ns', []) -> exists g, ns' = ns ++ g /\ line T g (s :: rest) /\ helps g = false).
  { intros acts b d g0 B C D SA FA S1 S2 X. destruct (d_value d) eqn:V.
    - rewrite (kind_store b d _ _ _ C V) in X. destruct lr as [|[v rv] l'']; [discriminate|].
      destruct rv; try discriminate. destruct rest as [|v' rest']. { cbn in KR. discriminate. }
      destruct (classify_inv v' rest' _ KR) as [[_ E]|[ND' (r' & lr' & P' & KR' & E)]]; [discriminate|].
      injection E as <- <- <-. pose proof (po_inv v _ ND' P') as PL. cbn [read_as] in PL.
      rewrite (asks_helps acts FA), SA in X.
      apply (GO _ _ rest' l'' ltac:(cbn in N; lia) (S1 eq_refl v PL) eq_refl KR').
      rewrite helps_app, (value_no_help d _ D V), orb_false_r. destruct (helps g0); [discriminate|].
      unfold set_all in X. rewrite map_app in X. fold (set_all acts) in X. rewrite SA in X. cbn in X. rewrite (dest_key b d C) in X. exact X.
    - assert (Q : set_all (acts ++ [(b, None)]) = g0 ++ [(d_key d, None)]).
      { unfold set_all. rewrite map_app. fold (set_all acts). rewrite SA. cbn. rewrite (dest_key b d C). reflexivity. }
      assert (F2 : forall x, In x (acts ++ [(b, None)]) -> In (fst x) p).
      { intros x Y. apply in_app_iff in Y. destruct Y as [Y|[<-|[]]]; auto. }
      apply (GO _ _ rest lr ltac:(lia) (S2 eq_refl) eq_refl KR).
      rewrite <- Q, <- (asks_helps _ F2). rewrite (kind_switch b d _ _ _ C V) in X. exact X. }
  cbn [consume] in H. destruct r as [| |a o e|]; cbn [read_as] in R.
  - exfalso. exact (no_extra _ _ _ _ H).
  - destruct R.
  - destruct e as [[[] v]|].
    + (* s=v *) destruct R as [A (s' & d & -> & C & S)]. cbn [one_option] in H.
      destruct (d_value d) eqn:V.
      * rewrite (kind_store a d _ _ _ C V) in H.
        assert (D : In d T) by apply S.
        apply (GO _ _ rest lr ltac:(lia) (sp_joined T s' d v S V) eq_refl KR).
        rewrite (value_no_help d _ D V). rewrite asks_helps in H; [|intros x [<-|[]]; exact A].
        cbn [set_all map fst snd] in H. rewrite (dest_key a d C), (value_no_help d _ D V) in H. exact H.
      * rewrite (kind_switch a d _ _ _ C V) in H.
        destruct o as [|x [|y o]]; try discriminate. rewrite andb_false_r in H. discriminate.
    + (* letters *) destruct R as [A (c & d & -> & -> & C & L & V1 & V2)]. cbn [one_option] in H.
      destruct (d_value d) eqn:V.
      * rewrite (kind_store a d _ _ _ C V) in H.
        pose proof (letter_in d c L) as D.
        apply (GO _ _ rest lr ltac:(lia) (sp_letters_glued T [] [] d c v (sw_nil T) L V V1 V2) eq_refl KR).
        cbn [map app]. rewrite (value_no_help d _ D V). rewrite asks_helps in H; [|intros x [<-|[]]; exact A].
        cbn [set_all map fst snd] in H. rewrite (dest_key a d C), (value_no_help d _ D V) in H. exact H.
      * rewrite (kind_switch a d _ _ _ C V) in H. destruct (letter_neq d c L) as [N1 N2].
        destruct (Ascii.eqb_spec c dash) as [->|X]; [exfalso; apply N1; reflexivity|].
        rewrite (proj2 (text_eqb_nil v) V1) in H. cbn [negb andb] in H.
        destruct (letters p a v) as [[acts en]|] eqn:LT; [|discriminate].
        destruct (letters_sound v a d c acts en A C L V1 V2 LT) as [FA LS]. destruct en as [|b|].
        -- destruct LS as (ds & cs & d' & c' & w & S1 & S2 & S3 & S4 & S5).
           rewrite (asks_helps _ FA) in H. rewrite S4 in H. destruct S5 as [(E & W1 & W2)|[E W]].
           ++ apply (GO _ _ rest lr ltac:(lia) (sp_letters_glued T ds cs d' c' w S1 S2 S3 W1 W2)); [rewrite E; reflexivity|exact KR|exact H].
           ++ apply (GO _ _ rest lr ltac:(lia) (sp_letters_joined T ds cs d' c' w S1 W S2 S3)); [rewrite E; reflexivity|exact KR|exact H].
        -- destruct LS as (B & ds & cs & d' & c' & S1 & S2 & S3 & S4 & S5 & E).
           apply (PEND acts b d' (sets ds) B S4 (letter_in d' c' S3) S5 FA); [| |exact H].
           ++ intros V' w PL. rewrite E. exact (sp_letters_separate T ds cs d' c' w S1 S2 S3 V' PL).
           ++ intros V'. rewrite E. unfold sets. 
              assert (SN : switches T (ds ++ [d']) (cs ++ [c'])).
              { clear - S1 S3 V'. induction S1; cbn; constructor; auto. constructor. }
              replace (map (fun d => (d_key d, @None text)) ds ++ [(d_key d', None)]) with (map (fun d => (d_key d, @None text)) (ds ++ [d'])) by (rewrite map_app; reflexivity).
              apply sp_letters; [exact SN|]. rewrite app_length. destruct ds; [congruence|cbn; lia].
        -- exfalso. destruct (asks_help acts); [discriminate|]. exact (no_extra _ _ _ _ H).
    + (* a name *) destruct R as [A (d & C & S)]. cbn [one_option] in H.
      apply (PEND [] a d [] A C ltac:(apply S) eq_refl); [intros x []| | |exact H].
      * intros V v PL. exact (sp_separate T s d v S V PL).
      * intros V. exact (sp_switch T s d S V).
  - exfalso. exact (no_extra _ _ _ _ H).
Qed.

Lemma seen_spec : forall k (g : settings), seen k g = true <-> In k (map fst g).
Proof.
  intros k g. unfold seen. rewrite existsb_exists, in_map_iff. split.
  - intros (x & I & E). apply String.eqb_eq in E. eauto.
  - intros (x & E & I). exists x. split; auto. apply String.eqb_eq. exact E.
Qed.
Lemma required_spec : forall g, forallb (fun a => negb (required a) || seen (dest a) g) p = true <->
  forall d, In d T -> d_required d = true -> In (d_key d) (map fst g).
Proof.
  intro g. rewrite forallb_forall. split.
  - intros H d D R. destruct (corr_right d D) as (a & A & C). specialize (H a A).
    destruct C as (_ & K & Q & _). rewrite Q, R, K in H. apply seen_spec. exact H.
  - intros H a A. destruct (corr_left a A) as (d & D & C). destruct C as (_ & K & Q & _). rewrite Q, K.
    destruct (d_required d) eqn:R; auto. cbn. apply seen_spec. auto.
Qed.
Lemma classify_nil : classify p [] = Ok []. Proof. reflexivity. Qed.
Lemma line_classified : forall g args, line T g args ->
  exists l, classify p args = Ok l /\ consume p l [] [] = if helps g then Shown else Parsed (g, []).
Proof.
  intros g args H. destruct (line_step g args H) as (cl & K & C). exists cl.
  pose proof (K [] [] classify_nil) as K0. rewrite !app_nil_r in K0. split; auto.
  specialize (C [] [] []). rewrite app_nil_r in C. rewrite C. reflexivity.
Qed.
Lemma known_iff : forall args g, parse_known_args p args = Parsed (g, []) <-> accepted T g args.
Proof.
  intros args g. unfold parse_known_args, accepted. split.
  - intro H. destruct (classify p args) as [l|] eqn:K; [|discriminate].
    destruct (consume p l [] []) as [[ns ex]| |] eqn:C; try discriminate.
    destruct (forallb _ p) eqn:R; [|discriminate]. injection H as -> ->.
    destruct (consume_sound _ _ _ _ _ (le_n _) K C) as (g' & E & L & HG). cbn in E. subst g'.
    split; auto. split; [|apply required_spec; exact R]. intro I. apply helps_spec in I. congruence.
  - intros (L & NH & R). destruct (line_classified g args L) as (l & K & C). rewrite K, C.
    destruct (helps g) eqn:HG; [exfalso; apply NH; apply helps_spec; exact HG|].
    rewrite (proj2 (required_spec g) R). reflexivity.
Qed.
Lemma args_iff : forall args g, parse_args p args = Parsed g <-> accepted T g args.
Proof.
  intros args g. rewrite <- known_iff. unfold parse_args. split.
  - destruct (parse_known_args p args) as [[ns [|x ex]]| |]; try discriminate. intro H. injection H as ->. reflexivity.
  - intros ->. reflexivity.
Qed.
Lemma args_help : forall args g, line T g args -> In "help"%string (map fst g) -> parse_args p args = Shown.
Proof.
  intros args g L H. destruct (line_classified g args L) as (l & K & C). unfold parse_args, parse_known_args.
  apply helps_spec in H. rewrite K, C, H. reflexivity.
Qed.
End Reading.

(** ** The parsers of the package *)
Fixpoint nodup_b (l : list text) : bool :=
  match l with [] => true | x :: l' => negb (existsb (text_eqb x) l') && nodup_b l' end.
Lemma nodup_ok : forall l, nodup_b l = true -> NoDup l.
Proof.
  induction l as [|x l IH]; cbn; intro H; [constructor|]. rewrite andb_true_iff, negb_true_iff in H. destruct H as [A B].
  constructor; auto. intro I. assert (existsb (text_eqb x) l = true); [|congruence].
  apply existsb_exists. exists x. split; auto. apply text_eqb_eq. reflexivity.
Qed.
Definition two_long (l : list text) : bool :=
  Nat.leb 2 (length (filter (starts_with (txt "--")) l)).
Lemma two_long_ok : forall l, nodup_b l = true -> two_long l = true -> forall n, exists m, In m l /\ prefix (txt "--") m /\ m <> n.
Proof.
  intros l N H n. apply Nat.leb_le in H. apply nodup_ok in N. apply (NoDup_filter (starts_with (txt "--"))) in N.
  destruct (filter (starts_with (txt "--")) l) as [|a [|b r]] eqn:E; cbn in H; try lia.
  assert (A : In a (filter (starts_with (txt "--")) l)) by (rewrite E; left; auto).
  assert (B : In b (filter (starts_with (txt "--")) l)) by (rewrite E; right; left; auto).
  apply filter_In in A, B. rewrite starts_with_prefix in A, B.
  destruct (list_eq_dec ascii_dec a n) as [->|X].
  - exists b. split; [tauto|]. split; [tauto|]. intros ->. inversion N as [|? ? N1 _]; subst. apply N1. left. auto.
  - exists a. tauto.
Qed.
Lemma table_ok : forall p T, Forall2 corr p T ->
  nodup_b (map fst (option_string_actions p)) = true -> forallb okname_b (map fst (option_string_actions p)) = true ->
  two_long (map fst (option_string_actions p)) = true ->
  forallb (fun d => negb (String.eqb (d_key d) "help") || negb (d_value d)) T = true -> table p T.
Proof.
  intros p T C N O W H. constructor; auto.
  - apply nodup_ok. exact N.
  - intros n a I. apply okname_ok. rewrite forallb_forall in O. apply O. apply in_map_iff. exists (n, a). auto.
  - intros d D E. rewrite forallb_forall in H. specialize (H d D). rewrite E in H. cbn in H. destruct (d_value d); [discriminate|reflexivity].
  - intro n. destruct (two_long_ok _ N W n) as (m & I & P & X). apply in_map_iff in I. destruct I as ([m' a] & E & I). cbn in E. subst m'.
    exists m, a. auto.
Qed.
Ltac solve_table := apply table_ok;
  [repeat (first [apply Forall2_nil | apply Forall2_cons]); repeat split; reflexivity|vm_compute; reflexivity..].
Lemma table_run : table run_parser run_options. Proof. solve_table. Qed.
Lemma table_init : table init_parser init_options. Proof. solve_table. Qed.
Lemma table_bootstrap : table bootstrap_parser bootstrap_options. Proof. solve_table. Qed.
Lemma table_cite : table cite_parser cite_options. Proof. solve_table. Qed.
Definition sub_of (l : list (text * list action)) (n : string) : list action :=
  match find (fun x => text_eqb (fst x) (txt n)) l with Some x => snd x | None => [] end.
Lemma table_prepare : table (sub_of demo_parsers "prepare") prepare_options. Proof. solve_table. Qed.
Lemma table_create : table (sub_of outputs_parsers "create-sqlite") create_sqlite_options. Proof. solve_table. Qed.
Lemma table_check : table (sub_of outputs_parsers "check-logs") check_logs_options. Proof. solve_table. Qed.

(** ** Sub-commands *)
Lemma help_tuples : forall c rest, exists l, get_option_tuples [help_action] (dash :: c :: rest) = l
  /\ (l = [] \/ exists o e, l = [(help_action, o, e)]).
Proof.
  intros c rest. eexists. split; [reflexivity|]. cbn [get_option_tuples].
  destruct (Ascii.eqb_spec c dash) as [->|X].
  - destruct (partition_eq (dash :: dash :: rest)) as [q e] eqn:P.
    assert (Q : exists r, q = dash :: dash :: r).
    { cbn in P. destruct (partition_eq rest) as [a b]. injection P as <- _. eauto. }
    destruct Q as [r ->]. cbn [option_string_actions help_action flat_map map names fst snd app].
    change (starts_with (dash :: dash :: r) (txt "-h")) with false.
    destruct (starts_with (dash :: dash :: r) (txt "--help")); cbn [app]; eauto.
  - cbn [option_string_actions help_action flat_map map names fst snd app].
    assert (F1 : text_eqb (txt "--help") [dash; c] = false).
    { destruct (text_eqb (txt "--help") [dash; c]) eqn:E; auto. apply text_eqb_eq in E. discriminate. }
    assert (F2 : starts_with (dash :: c :: rest) (txt "--help") = false).
    { destruct (starts_with (dash :: c :: rest) (txt "--help")) eqn:E; auto. apply starts_with_prefix in E.
      destruct E as [w E]. cbn in E. injection E as E _. exfalso. apply X. symmetry. exact E. }
    rewrite F1, F2. destruct (text_eqb (txt "-h") [dash; c]); [cbn [app]; eauto|].
    destruct (starts_with (dash :: c :: rest) (txt "-h")); cbn [app]; eauto.
Qed.
Lemma help_lookup : forall s, lookup [help_action] s = None \/ lookup [help_action] s = Some help_action.
Proof.
  intro s. unfold lookup. cbn [option_string_actions help_action flat_map map names app find fst].
  destruct (text_eqb (txt "-h") s); auto. destruct (text_eqb (txt "--help") s); auto.
Qed.
Lemma help_po : forall s, exists r, parse_optional [help_action] s = Ok r
  /\ match r with Option a o e => a = help_action | Dashes => False | Argument => True | Unknown => True end.
Proof.
  intros [|c r]; cbn [parse_optional]; [eexists; split; [reflexivity|exact I]|].
  destruct (Ascii.eqb_spec c dash) as [->|X]; cbn [negb]; [|eexists; split; [reflexivity|exact I]].
  destruct (help_lookup (dash :: r)) as [E|E]; rewrite E; [|eexists; split; [reflexivity|reflexivity]].
  destruct r as [|c r]; [eexists; split; [reflexivity|exact I]|].
  destruct (partition_eq (dash :: c :: r)) as [o e].
  assert (G : exists r0, match get_option_tuples [help_action] (dash :: c :: r) with
    | [] => if negative_number (dash :: c :: r) then Ok Argument
            else if existsb (Ascii.eqb " ") (dash :: c :: r) then Ok Argument else Ok Unknown
    | [(a, n, e)] => Ok (Option a n e)
    | _ => Err SysExit end = Ok r0 /\ match r0 with Option a o e => a = help_action | Dashes => False | Argument => True | Unknown => True end).
  { destruct (help_tuples c r) as (l & -> & [->|(n & e' & ->)]); [|eexists; split; reflexivity].
    destruct (negative_number _); [eexists; split; [reflexivity|exact I]|].
    destruct (existsb _ _); eexists; (split; [reflexivity|exact I]). }
  destruct e as [v|]; [|exact G]. destruct (help_lookup o) as [O|O]; rewrite O; [exact G|].
  eexists; split; reflexivity.
Qed.
Lemma help_classify : forall args, exists l, classify [help_action] args = Ok l /\ map fst l = args
  /\ forall s a o e, In (s, Option a o e) l -> a = help_action.
Proof.
  induction args as [|s args IH]; cbn [classify].
  - exists []. split; [reflexivity|]. split; [reflexivity|]. intros s a o e [].
  - destruct (text_eqb s [dash; dash]) eqn:E.
    + eexists. split; [reflexivity|]. split.
      * cbn. rewrite map_map. cbn. rewrite map_id. reflexivity.
      * intros s0 a o e [X|X]; [discriminate|]. apply in_map_iff in X. destruct X as (y & X & _). discriminate.
    + destruct (help_po s) as (r & -> & R). destruct IH as (l & -> & <- & H). cbn. eexists. split; [reflexivity|]. split; [reflexivity|].
      intros s0 a o e [X|X]; [injection X as <- ->; exact R|exact (H _ _ _ _ X)].
Qed.
Lemma help_letters : forall e acts en, letters [help_action] help_action e = Ok (acts, en) -> asks_help acts = true.
Proof.
  intros [|c e] acts en H; cbn [letters help_action kind_of] in H; [discriminate|].
  destruct (Ascii.eqb c dash); [discriminate|].
  match type of H with context [lookup ?q ?s] => destruct (lookup q s) as [b|] end; [|injection H as <- _; reflexivity].
  destruct e as [|c' v]; [injection H as <- _; reflexivity|].
  destruct (Ascii.eqb c' "="); [destruct (kind_of b); try discriminate; injection H as <- _; reflexivity|].
  destruct (letters _ b (c' :: v)) as [[x y]|]; [|discriminate]. cbn in H. injection H as <- _. reflexivity.
Qed.
Lemma help_option_ends : forall o e acts en, one_option [help_action] help_action o e = Ok (acts, en) ->
  (exists b, en = Pending b) \/ asks_help acts = true.
Proof.
  intros o [[sep v]|] acts en H; cbn [one_option help_action kind_of] in H.
  - right. destruct o as [|x [|y o]]; try discriminate. destruct (_ && negb sep); [|discriminate]. exact (help_letters _ _ _ H).
  - injection H as <- <-. left. eexists. reflexivity.
Qed.
Lemma sub_extras : forall subs l n g, consume_sub subs l true <> Parsed (Some (n, g)).
Proof.
  induction l as [|[s r] l IH]; intros n g H; cbn [consume_sub] in H; [discriminate|]. destruct r as [| |a o e|].
  - destruct (find _ subs); [|discriminate]. destruct (parse_known_args _ _) as [[ns [|]]| |]; discriminate.
  - discriminate.
  - destruct (one_option _ a o e) as [[acts []]|]; try discriminate; destruct (asks_help acts); try discriminate; exact (IH _ _ H).
  - exact (IH _ _ H).
Qed.
Lemma sub_iff : forall subs args n g, (forall x, In x subs -> exists c r, fst x = c :: r /\ c <> dash) ->
  (parse_sub subs args = Parsed (Some (n, g)) <->
   exists x rest, find (fun x => text_eqb (fst x) n) subs = Some x /\ args = n :: rest /\ parse_known_args (snd x) rest = Parsed (g, [])).
Proof.
  intros subs args n g NAMES. unfold parse_sub. destruct (help_classify args) as (l & K & E & HO). rewrite K. split.
  - intro H. destruct l as [|[s r] l]; cbn [consume_sub] in H; [discriminate|]. destruct r as [| |a o e|].
    + destruct (find (fun x => text_eqb (fst x) s) subs) as [x|] eqn:F; [|discriminate].
      destruct (parse_known_args (snd x) (map fst l)) as [[ns [|]]| |] eqn:P; try discriminate. injection H as -> ->.
      exists x, (map fst l). auto.
    + discriminate.
    + exfalso. pose proof (HO s a o e (or_introl eq_refl)) as ->.
      destruct (one_option _ help_action o e) as [[acts en]|] eqn:O; [|discriminate].
      destruct (help_option_ends _ _ _ _ O) as [[b ->]|A]; [discriminate|]. rewrite A in H. destruct en; discriminate.
    + exfalso. exact (sub_extras _ _ _ _ H).
  - intros (x & rest & F & -> & P). destruct l as [|[s r] l]; [discriminate|]. cbn in E. injection E as -> <-.
    assert (RA : r = Argument).
    { pose proof (find_some _ _ F) as [I Q]. destruct (NAMES x I) as (c & w & X & D). apply text_eqb_eq in Q. assert (X0 : n = c :: w) by (transitivity (fst x); [symmetry; exact Q|exact X]). clear X Q. rename X0 into X.
      subst n. cbn [classify] in K.
      assert (N : text_eqb (c :: w) [dash; dash] = false).
      { destruct (text_eqb (c :: w) [dash; dash]) eqn:Z; auto. apply text_eqb_eq in Z. injection Z as -> _. congruence. }
      rewrite N in K. cbn [parse_optional] in K. destruct (Ascii.eqb_spec c dash); [contradiction|]. cbn [negb rbind] in K.
      destruct (classify [help_action] (map fst l)); [|discriminate]. cbn in K. injection K as <- _. reflexivity. }
    subst r. cbn [consume_sub]. rewrite F, P. reflexivity.
Qed.

(** ** What a command line asks for *)
Lemma spelled_entries : forall T g a, spelled T g a -> forall k o, In (k, o) g ->
  exists d, In d T /\ d_key d = k /\ (if d_value d then exists v, o = Some v else o = None).
Proof.
  assert (ONE : forall (T : list documented) d (o : option text) k (o' : option text), In d T -> (if d_value d then exists v, o = Some v else o = None) -> In (k, o') [(d_key d, o)] ->
    exists d, In d T /\ d_key d = k /\ (if d_value d then exists v, o' = Some v else o' = None)).
  { intros T d o k o' D V [E|[]]. injection E as <- <-. eauto. }
  assert (SW : forall T ds cs, switches T ds cs -> forall k o, In (k, o) (map (fun d => (d_key d, @None text)) ds) ->
    exists d, In d T /\ d_key d = k /\ (if d_value d then exists v, o = Some v else o = None)).
  { intros T ds cs S k o I. induction S as [|d c ds cs L V S IH]; [destruct I|]. destruct I as [I|I]; auto.
    injection I as <- <-. exists d. split; [apply L|]. rewrite V. auto. }
  intros T g l H k o I.
  destruct H as [s d v S V PL|s d v S V|s d S V|ds cs S N|ds cs d c v S N L V PL|ds cs d c v S N L V|ds cs d c v S L V V1 V2].
  1-3: apply (ONE T d _ k o) in I; [exact I|apply S|rewrite V; eauto].
  - exact (SW T ds cs S k o I).
  - apply in_app_iff in I. destruct I as [I|I]; [exact (SW T ds cs S k o I)|]. apply (ONE T d _ k o) in I; [exact I|apply L|rewrite V; eauto].
  - apply in_app_iff in I. destruct I as [I|I]; [exact (SW T ds cs S k o I)|]. apply (ONE T d _ k o) in I; [exact I|apply L|rewrite V; eauto].
  - apply in_app_iff in I. destruct I as [I|I]; [exact (SW T ds cs S k o I)|]. apply (ONE T d _ k o) in I; [exact I|apply L|rewrite V; eauto].
Qed.
Lemma line_entries : forall T g a, line T g a -> forall k o, In (k, o) g ->
  exists d, In d T /\ d_key d = k /\ (if d_value d then exists v, o = Some v else o = None).
Proof.
  induction 1 as [|g a gs l S L IH]; intros k o I; [destruct I|]. apply in_app_iff in I. destruct I as [I|I]; auto.
  exact (spelled_entries T g a S k o I).
Qed.
Definition has_values (k : string) (g : settings) : Prop := forall o, In (k, o) g -> exists v, o = Some v.
Lemma attribute_none : forall k g, has_values k g -> (attribute k g = None <-> never g k).
Proof.
  intros k g. unfold never. induction g as [|[k' o] g IH]; intro H; cbn; [tauto|].
  assert (H' : has_values k g) by (intros x X; apply H; right; exact X). specialize (IH H').
  destruct (attribute k g) as [w|] eqn:E.
  - split; [discriminate|]. intro N. exfalso. assert (X : Some w = None) by (apply IH; tauto). discriminate.
  - assert (N : ~ In k (map fst g)) by (apply IH; reflexivity).
    destruct (String.eqb_spec k' k) as [->|X].
    + destruct (H o (or_introl eq_refl)) as [v ->]. split; [discriminate|]. tauto.
    + split; auto. intros _ [Y|Y]; auto.
Qed.
Lemma attribute_some : forall k g v, has_values k g -> (attribute k g = Some v <-> last_value g k v).
Proof.
  intros k g v. unfold last_value. induction g as [|[k' o] g IH]; intro H.
  - cbn. split; [discriminate|]. intros (s1 & s2 & E & _). destruct s1; discriminate.
  - assert (H' : has_values k g) by (intros x X; apply H; right; exact X). specialize (IH H'). cbn [attribute].
    destruct (attribute k g) as [w|] eqn:E.
    + split.
      * intro X. injection X as ->. destruct (proj1 IH eq_refl) as (s1 & s2 & -> & N). exists ((k', o) :: s1), s2. auto.
      * intros (s1 & s2 & Q & N). destruct s1 as [|x s1].
        -- exfalso. cbn in Q. injection Q as -> -> ->. apply (attribute_none k s2 H') in N. congruence.
        -- cbn in Q. injection Q as _ ->. apply IH. exists s1, s2. auto.
    + apply (attribute_none k g H') in E. destruct (String.eqb_spec k' k) as [->|X].
      * split.
        -- intros ->. exists [], g. auto.
        -- intros (s1 & s2 & Q & N). destruct s1 as [|x s1]; cbn in Q; injection Q.
           ++ intros _ ->. reflexivity.
           ++ intros -> _. exfalso. apply E. rewrite map_app. apply in_or_app. right. left. reflexivity.
      * split; [discriminate|]. intros (s1 & s2 & Q & N). exfalso. destruct s1 as [|x s1]; cbn in Q; injection Q; [congruence|].
        intros -> _. apply E. rewrite map_app. apply in_or_app. right. left. reflexivity.
Qed.
Lemma run_values : forall g args k, line run_options g args ->
  In k ["c"; "o"; "ob"; "p"; "pd"; "er"; "ew"; "ar"; "cp"; "s"; "t"; "st"; "vd"]%string -> has_values k g.
Proof.
  intros g args k L K o I. destruct (line_entries _ _ _ L k o I) as (d & D & E & V).
  cbn in D. repeat (destruct D as [<-|D]; [cbn in E, V; first [exact V | exfalso; subst k; cbn in K; clear - K; intuition discriminate]|]).
  destruct D.
Qed.
Lemma present : forall k g, has_values k g -> In k (map fst g) -> exists v, attribute k g = Some v.
Proof.
  intros k g H I. destruct (attribute k g) as [v|] eqn:E; [eauto|]. apply (attribute_none k g H) in E. contradiction.
Qed.
Lemma asks_for_namespace : forall g args, accepted run_options g args -> asks_for g (fst (namespace g)).
Proof.
  intros g args (L & _ & R). unfold asks_for, namespace. cbn [fst a_p a_ob a_c a_o a_pd a_er a_ew a_ar a_cp a_f a_s a_t a_st a_vd].
  assert (REQ : forall k, In k ["c"; "o"; "ob"; "p"; "pd"]%string -> last_value g k (match attribute k g with Some v => v | None => [] end)).
  { intros k K. assert (HV : has_values k g) by (apply (run_values g args k L); cbn in K |- *; tauto).
    destruct (present k g HV) as [v E].
    - assert (D : exists d, In d run_options /\ d_required d = true /\ d_key d = k).
      { cbn in K. destruct K as [<-|[<-|[<-|[<-|[<-|[]]]]]].
        - exists (opt ["-c"; "--config"] "c" true true)%string. cbn. auto 20.
        - exists (opt ["-o"; "--outfile"] "o" true true)%string. cbn. auto 20.
        - exists (opt ["--ob"; "--orbits"] "ob" true true)%string. cbn. auto 20.
        - exists (opt ["-p"; "--physical-parameters"] "p" true true)%string. cbn. auto 20.
        - exists (opt ["--pd"; "--pointing-db"] "pd" true true)%string. cbn. auto 20. }
      destruct D as (d & D & D1 & <-). exact (R d D D1).
    - rewrite E. apply (attribute_some k g v HV). exact E. }
  assert (OPT : forall k, In k ["er"; "ew"; "ar"; "cp"; "st"; "vd"; "s"; "t"]%string -> optional g k (attribute k g)).
  { intros k K. assert (HV : has_values k g) by (apply (run_values g args k L); cbn in K |- *; tauto).
    unfold optional. destruct (attribute k g) as [v|] eqn:E; [apply attribute_some|apply attribute_none]; auto. }
  repeat (split; [first [apply REQ; cbn; tauto | apply OPT; cbn; tauto | apply seen_spec]|]).
  split.
  - pose proof (OPT "s"%string ltac:(cbn; tauto)) as S. destruct (attribute "s" g) as [v|]; [left; eauto|right; split; [exact S|reflexivity]].
  - pose proof (OPT "t"%string ltac:(cbn; tauto)) as S. destruct (attribute "t" g) as [v|]; [left; exact S|right; split; [exact S|reflexivity]].
Qed.
Lemma last_unique : forall g k v w, last_value g k v -> last_value g k w -> v = w.
Proof.
  intros g k v w (a & b & -> & N) (c & d & E & M).
  revert c E. induction a as [|x a IH]; intros c E; destruct c as [|y c]; cbn in E; injection E.
  - congruence.
  - intros -> _. exfalso. apply N. rewrite map_app. apply in_or_app. right. left. reflexivity.
  - intros <- _. exfalso. apply M. rewrite map_app. apply in_or_app. right. left. reflexivity.
  - intros E' _. exact (IH c E').
Qed.
Lemma last_never : forall g k v, last_value g k v -> never g k -> False.
Proof. intros g k v (a & b & -> & _) N. apply N. rewrite map_app. apply in_or_app. right. left. reflexivity. Qed.
Lemma optional_unique : forall g k a b, optional g k a -> optional g k b -> a = b.
Proof.
  intros g k [v|] [w|] A B; cbn in *; auto.
  - f_equal. exact (last_unique g k v w A B).
  - destruct (last_never g k v A B).
  - destruct (last_never g k w B A).
Qed.
Lemma asks_for_unique : forall g c c', asks_for g c -> asks_for g c' -> c = c'.
Proof.
  intros g [p1 ob1 c1 o1 pd1 er1 ew1 ar1 cp1 f1 s1 t1 st1 vd1] [p2 ob2 c2 o2 pd2 er2 ew2 ar2 cp2 f2 s2 t2 st2 vd2].
  unfold asks_for. cbn [a_p a_ob a_c a_o a_pd a_er a_ew a_ar a_cp a_f a_s a_t a_st a_vd].
  intros (A1 & A2 & A3 & A4 & A5 & A6 & A7 & A8 & A9 & A10 & A11 & A12 & A13 & A14)
         (B1 & B2 & B3 & B4 & B5 & B6 & B7 & B8 & B9 & B10 & B11 & B12 & B13 & B14).
  assert (f1 = f2) by (apply eq_true_iff_eq; tauto).
  assert (s1 = s2).
  { destruct A13 as [(v & A & ->)|[A ->]]; destruct B13 as [(w & B & ->)|[B ->]]; auto.
    - f_equal. exact (last_unique g _ v w A B).
    - destruct (last_never g _ v A B).
    - destruct (last_never g _ w B A). }
  assert (t1 = t2).
  { destruct A14 as [A|[A ->]]; destruct B14 as [B|[B ->]]; auto.
    - exact (last_unique g _ _ _ A B).
    - destruct (last_never g _ _ A B).
    - destruct (last_never g _ _ B A). }
  pose proof (last_unique _ _ _ _ A1 B1). pose proof (last_unique _ _ _ _ A2 B2). pose proof (last_unique _ _ _ _ A3 B3).
  pose proof (last_unique _ _ _ _ A4 B4). pose proof (last_unique _ _ _ _ A5 B5).
  pose proof (optional_unique _ _ _ _ A6 B6). pose proof (optional_unique _ _ _ _ A7 B7). pose proof (optional_unique _ _ _ _ A8 B8).
  pose proof (optional_unique _ _ _ _ A9 B9). pose proof (optional_unique _ _ _ _ A10 B10). pose proof (optional_unique _ _ _ _ A11 B11).
  clear A1 A2 A3 A4 A5 A6 A7 A8 A9 A10 A11 A12 A13 A14 B1 B2 B3 B4 B5 B6 B7 B8 B9 B10 B11 B12 B13 B14. subst. reflexivity.
Qed.

(** ** C104 *)
Lemma C104_command_proof : forall g argv, accepted run_options g argv -> exists c, asks_for g c /\ forall c', asks_for g c' -> c' = c.
Proof.
  intros g argv H. exists (fst (namespace g)). pose proof (asks_for_namespace g argv H) as A. split; auto.
  intros c' A'. exact (asks_for_unique g c' _ A' A).
Qed.
Lemma C104_run_proof : forall F parse (log : F) int_of float_of lc_methods ca_methods stamp environment fresh argv g c fs fs' r,
  accepted run_options g argv -> asks_for g c ->
  execute F parse log int_of float_of lc_methods ca_methods stamp environment fresh c fs = (fs', r) ->
  match r with
  | Ok x => exists verbose, run_main F parse log int_of float_of lc_methods ca_methods stamp environment fresh argv fs = (fs', Ok (x, verbose))
  | Err e => run_main F parse log int_of float_of lc_methods ca_methods stamp environment fresh argv fs = (fs', Err e)
  end.
Proof.
  intros F parse log int_of float_of lc ca stamp env fresh argv g c fs fs' r H A E.
  unfold run_main. rewrite (proj2 (args_iff _ _ table_run argv g) H).
  rewrite <- (asks_for_unique g c _ A (asks_for_namespace g argv H)). unfold next. rewrite E.
  destruct r as [x|e]; [|reflexivity]. eexists. reflexivity.
Qed.
Lemma C104_only_proof : forall F parse (log : F) int_of float_of lc_methods ca_methods stamp environment fresh argv fs fs' x verbose,
  run_main F parse log int_of float_of lc_methods ca_methods stamp environment fresh argv fs = (fs', Ok (x, verbose)) ->
  exists g c, accepted run_options g argv /\ asks_for g c
    /\ execute F parse log int_of float_of lc_methods ca_methods stamp environment fresh c fs = (fs', Ok x).
Proof.
  intros F parse log int_of float_of lc ca stamp env fresh argv fs fs' x verbose H. unfold run_main in H.
  destruct (parse_args run_parser argv) as [g| |] eqn:P; [|discriminate|discriminate].
  apply (args_iff _ _ table_run) in P. exists g, (fst (namespace g)). split; auto. split; [exact (asks_for_namespace g argv P)|].
  unfold next in H. destruct (execute _ _ _ _ _ _ _ _ _ _ _ fs) as [f [y|e]]; unfold done in H; [|discriminate].
  injection H as <- <- _. reflexivity.
Qed.
Lemma C104_refused_proof : forall F parse (log : F) int_of float_of lc_methods ca_methods stamp environment fresh argv fs,
  (forall g, ~ accepted run_options g argv) ->
  run_main F parse log int_of float_of lc_methods ca_methods stamp environment fresh argv fs = (fs, Err SysExit).
Proof.
  intros F parse log int_of float_of lc ca stamp env fresh argv fs H. unfold run_main.
  destruct (parse_args run_parser argv) as [g| |] eqn:P; [|reflexivity|reflexivity].
  apply (args_iff _ _ table_run) in P. destruct (H g P).
Qed.
Lemma C104_level_refuted_proof : forall F parse (log : F) int_of float_of lc_methods ca_methods stamp environment fresh argv g fs fs' x verbose,
  accepted run_options g argv ->
  run_main F parse log int_of float_of lc_methods ca_methods stamp environment fresh argv fs = (fs', Ok (x, verbose)) ->
  (verbose = false <-> In "l"%string (map fst g)).
Proof.
  intros F parse log int_of float_of lc ca stamp env fresh argv g fs fs' x verbose A H. unfold run_main in H.
  rewrite (proj2 (args_iff _ _ table_run argv g) A) in H. unfold next in H.
  destruct (execute _ _ _ _ _ _ _ _ _ _ _ fs) as [f [y|e]]; unfold done in H; [|discriminate].
  assert (V : verbose = negb (seen "l" g)) by (injection H as _ _ <-; reflexivity). rewrite V, negb_false_iff. apply seen_spec.
Qed.
Lemma C104_others_proof : forall argv g,
  (parse_args init_parser argv = Parsed g <-> accepted init_options g argv)
  /\ (parse_args bootstrap_parser argv = Parsed g <-> accepted bootstrap_options g argv)
  /\ (parse_args cite_parser argv = Parsed g <-> accepted cite_options g argv)
  /\ (parse_sub demo_parsers argv = Parsed (Some (txt "prepare", g)) <->
      exists rest, argv = txt "prepare" :: rest /\ accepted prepare_options g rest)
  /\ (parse_sub outputs_parsers argv = Parsed (Some (txt "create-sqlite", g)) <->
      exists rest, argv = txt "create-sqlite" :: rest /\ accepted create_sqlite_options g rest)
  /\ (parse_sub outputs_parsers argv = Parsed (Some (txt "check-logs", g)) <->
      exists rest, argv = txt "check-logs" :: rest /\ accepted check_logs_options g rest).
Proof.
  intros argv g.
  assert (ND : forall x, In x demo_parsers -> exists c r, fst x = c :: r /\ c <> dash).
  { intros x [<-|[<-|[]]]; eexists; eexists; (split; [reflexivity|discriminate]). }
  assert (NO : forall x, In x outputs_parsers -> exists c r, fst x = c :: r /\ c <> dash).
  { intros x [<-|[<-|[]]]; eexists; eexists; (split; [reflexivity|discriminate]). }
  split; [apply (args_iff _ _ table_init)|]. split; [apply (args_iff _ _ table_bootstrap)|]. split; [apply (args_iff _ _ table_cite)|].
  split; [|split].
  - rewrite (sub_iff _ _ _ _ ND). split.
    + intros (x & rest & F & -> & P). exists rest. split; auto. cbn in F. injection F as <-. apply (known_iff _ _ table_prepare). exact P.
    + intros (rest & -> & A). eexists. exists rest. split; [reflexivity|]. split; [reflexivity|]. apply (known_iff _ _ table_prepare). exact A.
  - rewrite (sub_iff _ _ _ _ NO). split.
    + intros (x & rest & F & -> & P). exists rest. split; auto. cbn in F. injection F as <-. apply (known_iff _ _ table_create). exact P.
    + intros (rest & -> & A). eexists. exists rest. split; [reflexivity|]. split; [reflexivity|]. apply (known_iff _ _ table_create). exact A.
  - rewrite (sub_iff _ _ _ _ NO). split.
    + intros (x & rest & F & -> & P). exists rest. split; auto. cbn in F. injection F as <-. apply (known_iff _ _ table_check). exact P.
    + intros (rest & -> & A). eexists. exists rest. split; [reflexivity|]. split; [reflexivity|]. apply (known_iff _ _ table_check). exact A.
Qed.
Lemma line_no_dashes : forall p T, table p T -> forall g a, line T g a -> ~ In (txt "--") a.
Proof.
  intros p T TAB. induction 1 as [|g a gs l S L IH]; [intros []|]. intro I. apply in_app_iff in I. destruct I as [I|I]; auto. clear IH L.
  assert (SW : forall ds cs tail, switches T ds cs -> (forall c r, tail = c :: r -> c <> "-"%char) -> "-"%char :: cs ++ tail <> txt "--").
  { intros ds cs tail S' H E. cbn in E. injection E as E. destruct cs as [|c cs]; cbn in E.
    - exact (H _ _ E eq_refl).
    - injection E as E _. exact (proj1 (switch_char _ _ TAB ds _ S' c (or_introl eq_refl)) E). }
  destruct S as [s d v S V PL|s d v S V|s d S V|ds cs S N|ds cs d c v S N LE V PL|ds cs d c v S N LE V|ds cs d c v S LE V V1 V2];
    repeat (destruct I as [I|I]); try contradiction.
  - exact (stands_not_dashes _ _ TAB _ _ S I).
  - exact (plain_not_dashes _ _ PL I).
  - exact (joined_not_dashes _ _ _ _ S I).
  - exact (stands_not_dashes _ _ TAB _ _ S I).
  - apply (SW ds cs [] S); [discriminate|]. rewrite app_nil_r. exact I.
  - apply (SW ds cs [c] S); [|exact I]. intros ? ? E. injection E as <- _. exact (proj1 (letter_neq _ _ TAB _ _ LE)).
  - exact (plain_not_dashes _ _ PL I).
  - apply (SW ds cs (c :: "="%char :: v) S); [|exact I]. intros ? ? E. injection E as <- _. exact (proj1 (letter_neq _ _ TAB _ _ LE)).
  - apply (SW ds cs (c :: v) S); [|exact I]. intros ? ? E. injection E as <- _. exact (proj1 (letter_neq _ _ TAB _ _ LE)).
Qed.
Lemma classify_suffix : forall p a rest l, ~ In (txt "--") a -> classify p (a ++ rest) = Ok l -> exists lr, classify p rest = Ok lr.
Proof.
  intros p a rest. induction a as [|s a IH]; intros l N H; [eauto|]. cbn [app] in H.
  apply classify_inv in H. destruct H as [[E _]|(_ & r & lr & _ & K & _)]; [destruct N; left; exact E|].
  apply (IH lr); auto. intro I. apply N. right. exact I.
Qed.
Lemma C104_dash_refuted_proof : forall F parse (log : F) int_of float_of lc_methods ca_methods stamp environment fresh before g d n v after fs,
  line run_options g before -> In d run_options -> name_of d n -> d_value d = true ->
  (exists w, w <> [] /\ v = "-"%char :: w) -> ~ numeral v -> ~ In " "%char v ->
  run_main F parse log int_of float_of lc_methods ca_methods stamp environment fresh (before ++ n :: v :: after) fs = (fs, Err SysExit).
Proof.
  intros F parse log int_of float_of lc ca stamp env fresh before g d n v after fs L D N V (w & W & EV) NN NS.
  pose proof table_run as TAB.
  assert (NP : ~ plain run_options v).
  { intros [X|[X|[_ [X|X]]]]; [exact (X w EV)|subst v; cbn in X; congruence|exact (NN X)|exact (NS X)]. }
  assert (K : forall x, parse_args run_parser (before ++ n :: v :: after) <> Parsed x).
  { intros x X. unfold parse_args, parse_known_args in X.
    destruct (classify run_parser (before ++ n :: v :: after)) as [l|] eqn:KL; [|discriminate].
    destruct (line_step _ _ TAB g before L) as (cl & C1 & C2).
    assert (SN : stands_for run_options n d) by (split; auto).
    destruct (po_exact _ _ TAB d n SN) as (a & o & A & C & P).
    destruct (classify_suffix _ _ _ _ (line_no_dashes _ _ TAB g before L) KL) as [l2 K2].
    rewrite (C1 _ _ K2) in KL. injection KL as <-. rewrite C2 in X.
    apply classify_inv in K2. destruct K2 as [[E _]|(_ & r & l3 & P' & K3 & ->)]; [exact (stands_not_dashes _ _ TAB _ _ SN E)|].
    rewrite P in P'. injection P' as <-.
    destruct (helps g); [discriminate|]. cbn [consume one_option] in X.
    rewrite (proj2 (corr_kind _ _ C) V) in X.
    apply classify_inv in K3. destruct K3 as [[E ->]|(ND & r & l4 & P' & K4 & ->)]; [discriminate|].
    apply (po_inv _ _ TAB v r ND) in P'. destruct r; cbn [read_as] in P'; [contradiction|discriminate|discriminate|discriminate]. }
  unfold run_main. destruct (parse_args run_parser _) as [x| |] eqn:X; [destruct (K x eq_refl)|reflexivity|reflexivity].
Qed.
Lemma C104_help_proof : forall F parse (log : F) int_of float_of lc_methods ca_methods stamp environment fresh argv g fs,
  line run_options g argv -> In "help"%string (map fst g) ->
  parse_args run_parser argv = Shown
  /\ run_main F parse log int_of float_of lc_methods ca_methods stamp environment fresh argv fs = (fs, Err SysExit).
Proof.
  intros F parse log int_of float_of lc ca stamp env fresh argv g fs L H.
  pose proof (args_help _ _ table_run argv g L H) as P. split; [exact P|]. unfold run_main. rewrite P. reflexivity.
Qed.
