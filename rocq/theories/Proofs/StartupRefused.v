(** Commands that are refused early remove nothing, or little, even with -f (C82). *)
From Coq Require Import Ascii String List Arith ZArith Bool.
From Verif Require Import Base.Prelude Base.Num Model.Files Model.Config Model.Startup Spec.Files Spec.Startup Proofs.Files Proofs.Startup.
Import ListNotations.
Open Scope list_scope.

Section Refused.
Variables (F : Type).
Local Notation files := (list (text * node F)).
(** A step that fails, and changes few paths, if it starts in [Q]. *)
Definition only_from {A} (Q : files -> Prop) (P : text -> Prop) (m : step F A) : Prop :=
  forall fs, NoDup (map fst fs) -> Q fs -> same_but P fs (fst (m fs)) /\ exists e, snd (m fs) = Err e.
Definition stable (Q : files -> Prop) (P : text -> Prop) : Prop :=
  forall fs fs', same_but P fs fs' -> (forall p, dir_at fs p <-> dir_at fs' p) -> Q fs -> Q fs'.

Lemma from_next : forall A B Q P (m : step F A) (k : A -> step F B), stable Q P -> only P m ->
  (forall a, only_from Q P (k a)) -> only_from Q P (next F m k).
Proof.
  intros A B Q P m k HS Hm Hk fs N HQ. destruct (Hm fs N) as (N1 & S1 & D1). unfold next.
  destruct (m fs) as [fs1 [a|e]]; cbn [fst snd] in *; [|eauto].
  destruct (Hk a fs1 N1 (HS _ _ S1 D1 HQ)) as [S2 E]. split; [|exact E].
  intros p n H. rewrite (S2 p n H). apply S1; auto.
Qed.
Lemma from_first : forall A B Q P (m : step F A) (k : A -> step F B), only_from Q P m -> only_from Q P (next F m k).
Proof.
  intros A B Q P m k H fs N HQ. destruct (H fs N HQ) as [S [e E]]. unfold next.
  destruct (m fs) as [fs1 [a|x]]; cbn [fst snd] in *; [discriminate|eauto].
Qed.
Lemma from_stop : forall A (Q : files -> Prop) P b e (k : unit -> step F A), (forall fs, NoDup (map fst fs) -> Q fs -> b fs = false) ->
  only_from Q P (next F (check F b e) k).
Proof. intros A Q P b e k H fs N HQ. unfold next, check. rewrite (H fs N HQ). cbn. split; [intros p n _; tauto|eauto]. Qed.

Lemma stable_missing : forall t (P : text -> Prop), ~ P t -> stable (fun fs => ~ found fs t) P.
Proof. intros t P NP fs fs' S _ H [n I]. apply H. exists n. apply (S t n NP). exact I. Qed.
Lemma stable_dir : forall t (P : text -> Prop), stable (fun fs => ~ dir_at fs t) P.
Proof. intros t P fs fs' _ D H I. apply H. apply D. exact I. Qed.
Lemma stop_missing : forall A t P (k : unit -> step F A), only_from (fun fs => ~ found fs t) P (next F (FindFileOrExit F t) k).
Proof.
  intros A t P k. apply from_stop. intros fs _ H. destruct (path_exists F t fs) eqn:E; [|reflexivity].
  apply found_exists in E. contradiction.
Qed.
Lemma stop_dir : forall A t P (k : unit -> step F A), only_from (fun fs => ~ dir_at fs t) P (next F (FindDirectoryOrExit F t) k).
Proof.
  intros A t P k. apply from_stop. intros fs N H. destruct (is_dir F t fs) eqn:E; [|reflexivity].
  apply (is_dir_at F fs t N) in E. contradiction.
Qed.

Lemma parser_missing : forall a t, required_path a t ->
  forall P : text -> Prop, ~ P t -> only_from (fun fs => ~ found fs t) P (sorchaCommandLineParser F a).
Proof.
  intros a t R P NP. unfold sorchaCommandLineParser.
  assert (S := stable_missing t P NP).
  assert (G : forall p A (k : unit -> step F A), (p <> t -> only_from (fun fs => ~ found fs t) P (k tt)) ->
     only_from (fun fs => ~ found fs t) P (next F (FindFileOrExit F p) k)).
  { intros p A k K. destruct (list_eq_dec ascii_dec p t) as [->|N]; [apply stop_missing|].
    apply from_next; [exact S|apply only_check|]. intros []. apply K. exact N. }
  apply G; intro N1. apply G; intro N2. apply G; intro N3. apply G; intro N4. apply G; intro N5.
  destruct (given (a_cp a)) as [u|] eqn:E; cbn [if_given].
  - apply G; intro N6. assert (V : a_vd a = Some t).
    { destruct R as [R|[[R R']|R]]; [cbn in R; intuition congruence| |exact R].
      assert (X : given (a_cp a) = Some t) by (apply given_some; auto). congruence. }
    rewrite V. apply G. intro N7. congruence.
  - apply from_next; [exact S|apply only_same; reflexivity|]. intros [].
    assert (V : a_vd a = Some t).
    { destruct R as [R|[[R R']|R]]; [cbn in R; intuition congruence| |exact R].
      assert (X : given (a_cp a) = Some t) by (apply given_some; auto). congruence. }
    rewrite V. apply G. intro N7. congruence.
Qed.

Lemma parser_ar : forall a t (P : text -> Prop), a_ar a = Some t -> t <> [] -> plain_names a ->
  (forall p, is_early_output a p -> P p) ->
  only_from (fun fs => ~ dir_at fs t) P (sorchaCommandLineParser F a).
Proof.
  intros a t P Ha Ht (_ & Pe & Ps) HP. unfold sorchaCommandLineParser.
  assert (S := stable_dir t P).
  do 5 (apply from_next; [exact S|apply only_check|intros []]).
  apply from_next; [exact S|apply only_if; intros; apply only_check|intros []].
  apply from_next; [exact S|apply only_if; intros; apply only_check|intros []].
  apply from_next; [exact S| |intros []].
  { apply only_if. intros e E. apply given_some in E as [E Ne]. apply only_warn. intros _ x Sx M. apply HP.
    exists x. rewrite join_entry. repeat split; auto. left. exists e. repeat split; auto. apply stem_matches; auto. }
  apply from_next; [exact S| |intros []].
  { apply only_if. intros e E. apply only_warn. intros _ x Sx M. apply HP.
    exists x. rewrite join_entry. repeat split; auto. right. exists e. split; auto.
    apply (exact_matches (e ++ txt ".csv")) in M; auto. apply plain_app; auto using plain_csv. }
  replace (given (a_ar a)) with (Some t) by (symmetry; apply given_some; auto). cbn [if_given]. apply stop_dir.
Qed.
End Refused.

Lemma C82_missing_proof : forall F parse (log : F) int_of float_of lc_methods ca_methods stamp environment fresh a fs t fs' r,
  NoDup (map fst fs) -> required_path a t -> ~ found fs t -> ~ is_log stamp a t ->
  execute F parse log int_of float_of lc_methods ca_methods stamp environment fresh a fs = (fs', r) ->
  same_but (is_log stamp a) fs fs' /\ exists e, r = Err e.
Proof.
  intros F parse log int_of float_of lc ca stamp env fresh a fs t fs' r N R M L E.
  assert (K : only_from F (fun fs => ~ found fs t) (is_log stamp a) (execute F parse log int_of float_of lc ca stamp env fresh a)).
  { assert (S := stable_missing F t (is_log stamp a) L). unfold execute.
    apply from_next; [exact S|apply only_check|intros []].
    apply from_next; [exact S|apply only_logger; auto|intros []].
    apply from_first. apply parser_missing; auto. }
  specialize (K fs N M). rewrite E in K. exact K.
Qed.

Lemma C82_ar_proof : forall F parse (log : F) int_of float_of lc_methods ca_methods stamp environment fresh a fs t fs' r,
  NoDup (map fst fs) -> plain_names a -> a_ar a = Some t -> t <> [] -> ~ dir_at fs t ->
  execute F parse log int_of float_of lc_methods ca_methods stamp environment fresh a fs = (fs', r) ->
  same_but (fun p => is_log stamp a p \/ is_early_output a p) fs fs' /\ exists e, r = Err e.
Proof.
  intros F parse log int_of float_of lc ca stamp env fresh a fs t fs' r N Hp Ha Ht D E.
  assert (K : only_from F (fun fs => ~ dir_at fs t) (fun p => is_log stamp a p \/ is_early_output a p)
                (execute F parse log int_of float_of lc ca stamp env fresh a)).
  { assert (S := stable_dir F t (fun p => is_log stamp a p \/ is_early_output a p)). unfold execute.
    apply from_next; [exact S|apply only_check|intros []].
    apply from_next; [exact S|apply only_logger; auto|intros []].
    apply from_first. apply (parser_ar F a t); auto. }
  specialize (K fs N D). rewrite E in K. exact K.
Qed.
