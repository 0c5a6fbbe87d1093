(** Models that a user adds. *)
From Coq Require Import String List Bool.
From Verif Require Import Base.Prelude Model.Registration Spec.Registration.
Import ListNotations.
Open Scope list_scope.

Section Reg.
Context {C : Type}.
Implicit Types (m : methods C) (l : list (klass C)).
Notation entry k := (name_id C k, code_of C k).

Lemma has_name_In : forall n m, has_name C n m = true <-> In n (map fst m).
Proof.
  intros n m. unfold has_name. rewrite existsb_exists, in_map_iff. split; intros [x [H1 H2]]; exists x.
  - apply String.eqb_eq in H2. auto.
  - split; auto. apply String.eqb_eq. auto.
Qed.

Lemma get_spec : forall n c m, NoDup (map fst m) -> (get C n m = Some c <-> In (n, c) m).
Proof.
  intros n c. unfold get. induction m as [|[a d] m IH]; intros N; cbn [find fst].
  - split; [discriminate|intros []].
  - inversion N as [|? ? N1 N2]; subst. destruct (String.eqb_spec a n) as [->|D].
    + split; [intros H; injection H as ->; left; auto|]. intros [H|H]; [injection H as ->; reflexivity|].
      exfalso. apply N1. apply (in_map fst) in H. exact H.
    + rewrite (IH N2). split; [right; auto|]. intros [H|H]; [congruence|auto].
Qed.

Lemma register_spec : forall l m, NoDup (map fst m) ->
  match register_into C m l with
  | Ok m' => m' = m ++ map (fun k => entry k) l /\ NoDup (map fst m')
  | Err e => e = ValueError /\ ~ NoDup (map fst (m ++ map (fun k => entry k) l))
  end.
Proof.
  induction l as [|k l IH]; intros m N; cbn [register_into map].
  - rewrite app_nil_r. auto.
  - destruct (has_name C (name_id C k) m) eqn:E.
    + split; auto. apply has_name_In in E. rewrite map_app. cbn [map fst]. intros D. apply NoDup_remove_2 in D. apply D. apply in_or_app. auto.
    + assert (N' : NoDup (map fst (m ++ [entry k]))).
      { rewrite map_app. cbn. apply NoDup_rev in N. rewrite <- (rev_involutive (map fst m ++ _)). apply NoDup_rev.
        rewrite rev_app_distr. cbn. constructor; auto. rewrite <- in_rev. intros H. apply has_name_In in H. congruence. }
      specialize (IH _ N'). destruct (register_into C _ l); rewrite <- app_assoc in IH; exact IH.
Qed.

Lemma update_keeps : forall l m n c, get C n m = Some c -> get C n (update_lc_subclasses C m l) = Some c.
Proof.
  induction l as [|k l IH]; intros m n c H; cbn [update_lc_subclasses]; auto. apply IH.
  destruct (has_name C _ m); auto. unfold get in *. destruct (find _ m) as [x|] eqn:E; [|discriminate].
  assert (F : find (fun x => String.eqb (fst x) n) (m ++ [entry k]) = Some x).
  { clear H IH. induction m as [|a m IH]; cbn in *; [discriminate|]. destruct (String.eqb (fst a) n); auto. }
  rewrite F. exact H.
Qed.

Lemma update_In : forall l m n c, In (n, c) (update_lc_subclasses C m l) -> In (n, c) m \/ exists d, In (Class n c d) l.
Proof.
  induction l as [|k l IH]; intros m n c H; cbn [update_lc_subclasses] in H; auto.
  apply IH in H. destruct H as [H|[d H]]; [|right; exists d; right; auto].
  destruct (has_name C _ m); auto. apply in_app_or in H. destruct H as [H|[H|[]]]; auto.
  right. destruct k as [a b d]. cbn in H. injection H as -> ->. exists d. left. auto.
Qed.

Lemma update_NoDup : forall l m, NoDup (map fst m) -> NoDup (map fst (update_lc_subclasses C m l)).
Proof.
  induction l as [|k l IH]; intros m N; cbn [update_lc_subclasses]; auto. apply IH.
  destruct (has_name C (name_id C k) m) eqn:E; auto.
  rewrite map_app. cbn. apply NoDup_rev in N. rewrite <- (rev_involutive (map fst m ++ _)). apply NoDup_rev.
  rewrite rev_app_distr. cbn. constructor; auto. rewrite <- in_rev. intros H. apply has_name_In in H. congruence.
Qed.

Lemma update_has : forall l m k, In k l -> In (name_id C k) (map fst (update_lc_subclasses C m l)).
Proof.
  assert (K : forall l m n, In n (map fst m) -> In n (map fst (update_lc_subclasses C m l))).
  { induction l as [|k l IH]; intros m n H; cbn [update_lc_subclasses]; auto. apply IH. destruct (has_name C _ m); auto.
    rewrite map_app. apply in_or_app. auto. }
  induction l as [|k l IH]; intros m k' H; [destruct H|]. destruct H as [->|H]; cbn [update_lc_subclasses]; [|apply IH; auto].
  apply K. destruct (has_name C (name_id C k') m) eqn:E; [apply has_name_In; auto|].
  rewrite map_app. apply in_or_app. right. left. auto.
Qed.
End Reg.

Lemma names_of : forall C (l : list (klass C)), map fst (map (fun k => (name_id C k, code_of C k)) l) = map (fun k => match k with Class n _ _ => n end) l.
Proof. intros C l. rewrite map_map. apply map_ext. intros []. reflexivity. Qed.
Lemma in_entries : forall C (l : list (klass C)) n c, In (n, c) (map (fun k => (name_id C k, code_of C k)) l) <-> exists d, In (Class n c d) l.
Proof.
  intros C l n c. rewrite in_map_iff. split.
  - intros [[a b d] [H1 H2]]. cbn in H1. injection H1 as -> ->. eauto.
  - intros [d H]. exists (Class n c d). auto.
Qed.

(** Registration succeeds exactly if no name is used twice, and then a name
    stands for the class that has it. *)
Lemma C99_register_proof : forall C (l : list (klass C)),
  (NoDup (map (fun k => match k with Class n _ _ => n end) l) ->
   exists m, register_lc_subclasses C l = Ok m /\ forall n c, get C n m = Some c <-> exists d, In (Class n c d) l) /\
  (~ NoDup (map (fun k => match k with Class n _ _ => n end) l) -> register_lc_subclasses C l = Err ValueError).
Proof.
  intros C l. unfold register_lc_subclasses. assert (R := register_spec l [] (NoDup_nil _)). rewrite <- (names_of C l).
  destruct (register_into C [] l) as [m|e]; cbn [app] in R.
  - destruct R as [-> N]. split; [|tauto]. intros _. eexists. split; [reflexivity|]. intros n c.
    rewrite (get_spec n c _ N). apply in_entries.
  - destruct R as [-> N]. split; tauto.
Qed.

(** Classes defined later are available after the update if no name is used
    twice, and the classes of the package stay what they are. *)
Lemma C99_start_proof : forall C (own added : list (klass C)),
  NoDup (map (fun k => match k with Class n _ _ => n end) own) ->
  exists m, at_start C own added = Ok m /\
    (forall n c d, In (Class n c d) own -> get C n m = Some c) /\
    (forall n c, get C n m = Some c -> exists d, In (Class n c d) (own ++ added)) /\
    (forall n, (exists c, get C n m = Some c) <-> In n (map (fun k => match k with Class n _ _ => n end) (own ++ added))) /\
    (NoDup (map (fun k => match k with Class n _ _ => n end) (own ++ added)) ->
     forall n c, get C n m = Some c <-> exists d, In (Class n c d) (own ++ added)).
Proof.
  intros C own added N. unfold at_start. destruct (C99_register_proof C own) as [R _]. destruct (R N) as [m0 [E G]].
  rewrite E. cbn [rmap]. eexists. split; [reflexivity|].
  assert (N0 : NoDup (map fst m0)).
  { unfold register_lc_subclasses in E. assert (S := register_spec own [] (NoDup_nil _)). rewrite E in S. tauto. }
  assert (N1 := update_NoDup (own ++ added) m0 N0).
  assert (A : forall n c, get C n (update_lc_subclasses C m0 (own ++ added)) = Some c -> exists d, In (Class n c d) (own ++ added)).
  { intros n c H. apply (get_spec n c _ N1) in H. apply update_In in H. destruct H as [H|H]; auto.
    apply (get_spec n c _ N0), G in H. destruct H as [d H]. exists d. apply in_or_app. auto. }
  assert (B : forall n, In n (map (fun k => match k with Class n _ _ => n end) (own ++ added)) -> exists c, get C n (update_lc_subclasses C m0 (own ++ added)) = Some c).
  { intros n H. apply in_map_iff in H. destruct H as [k [H1 H2]]. apply (update_has _ m0) in H2.
    replace (name_id C k) with n in H2 by (destruct k; cbn in *; auto). apply in_map_iff in H2. destruct H2 as [[a c] [H2 H3]].
    cbn in H2. subst a. exists c. apply (get_spec n c _ N1). auto. }
  split; [|split; [auto|split]].
  - intros n c d H. apply update_keeps. apply G. eauto.
  - intros n. split; auto. intros [c H]. apply A in H. destruct H as [d H]. apply in_map_iff. exists (Class n c d). auto.
  - intros D n c. split; auto. intros [d H].
    destruct (B n) as [c' H']; [apply in_map_iff; exists (Class n c d); auto|]. assert (H2 := A _ _ H'). destruct H2 as [d' H2].
    assert (Q : Class n c d = Class n c' d').
    { clear - D H H2. induction (own ++ added) as [|k l IH]; [destruct H|]. inversion D as [|? ? D1 D2]; subst.
      destruct H as [H|H], H2 as [H2|H2].
      - congruence.
      - exfalso. apply D1. apply in_map_iff. exists (Class n c' d'). split; [rewrite H; reflexivity|auto].
      - exfalso. apply D1. apply in_map_iff. exists (Class n c d). split; [rewrite H2; reflexivity|auto].
      - auto. }
    injection Q as -> _. auto.
Qed.

(** Two add-ons with one name: no error, and only the first can be used. *)
Lemma C99_duplicate_refuted_proof : exists (own added : list (klass nat)) m,
  at_start nat own added = Ok m /\ In (Class "sinusoidal"%string 2 []) added /\ In (Class "sinusoidal"%string 3 []) added /\
  get nat "sinusoidal" m = Some 2 /\ register_lc_subclasses nat (own ++ added) = Err ValueError.
Proof.
  exists [Class "identity"%string 1 []], [Class "sinusoidal"%string 2 []; Class "sinusoidal"%string 3 []]. eexists.
  split; [reflexivity|]. cbn. repeat split; auto.
Qed.

(** A model derived from another model cannot be selected. *)
Lemma C99_derived_refuted_proof : exists (own added : list (klass nat)) m,
  at_start nat own added = Ok m /\ defined "better"%string 3 (own ++ added) /\ get nat "better" m = None.
Proof.
  exists [Class "identity"%string 1 []], [Class "sinusoidal"%string 2 [Class "better"%string 3 []]]. eexists.
  split; [reflexivity|]. split; [|reflexivity]. cbn. apply def_later, def_under, def_here.
Qed.
