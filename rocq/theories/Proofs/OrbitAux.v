From Coq Require Import String List Arith ZArith QArith Bool Lia.
From Verif Require Import Base.Prelude Base.Num Model.OrbitAux Spec.OrbitAux.
Import ListNotations.
Open Scope nat_scope.

Lemma mem_str_In : forall x l, mem_str x l = true <-> In x l.
Proof.
  intros x l. unfold mem_str. rewrite existsb_exists. split.
  - intros [y [Hy E]]. apply String.eqb_eq in E; subst; auto.
  - intro H; exists x; split; auto. apply String.eqb_refl.
Qed.

Lemma has_columns_spec : forall needed t, has_columns needed t = true <-> forall c, In c needed -> In c (o_cols t).
Proof.
  intros needed t. unfold has_columns. rewrite forallb_forall.
  split; intros H c Hc; apply mem_str_In; auto.
Qed.

Lemma nltb_false_le : forall a b, a <> NaN -> b <> NaN -> nltb a b = false -> num_le b a.
Proof.
  intros a b Ha Hb H. destruct (num_le_total b a Hb Ha) as [L|L]; auto.
  apply nltb_lt in L. congruence.
Qed.

Lemma unless_le : forall v q, nltb v (Fin q) = false <-> unless_missing v (num_le (Fin q) v).
Proof.
  intros v q. unfold unless_missing. split.
  - intro H. destruct v as [| |w|]; auto; right; apply nltb_false_le; auto; discriminate.
  - intros [->|H]; auto. destruct (nltb v (Fin q)) eqn:E; auto. apply nltb_lt in E.
    destruct (num_le_not_lt _ _ H E).
Qed.

Lemma kep_error_spec : forall r, kep_error r = false <-> physical Keplerian r.
Proof.
  intros r. unfold kep_error. cbn [physical]. set (e := o_val r "e"). set (a := o_val r "a").
  rewrite !orb_false_iff, andb_false_iff. rewrite (unless_le e 0), (unless_le a 0).
  unfold unless_missing at 2 3. split.
  - intros [[H1 H2] H3]. destruct H2 as [H2|H2]; auto. right. split; auto.
    assert (L : num_lt e (Fin 1)).
    { apply nltb_lt. destruct (nltb e (Fin 1)) eqn:E; auto.
      assert (N : e <> NaN) by (intro N; rewrite N in H2; inversion H2; congruence).
      apply nltb_false_le in E; auto; [|discriminate]. apply nleb_le in E. congruence. }
    split; auto. apply nltb_lt in L. destruct H3 as [H3|H3]; [congruence|auto].
  - intros [H|[H1 [H2 H3]]].
    + rewrite H. cbn. split; [split; auto; left; auto|left; auto].
    + split; [split|].
      * destruct (nleb (Fin 1) e) eqn:E; auto. apply nleb_le in E. destruct (num_le_not_lt _ _ E H2).
      * right; auto.
      * right; auto.
Qed.

Lemma com_error_spec : forall r, com_error r = false <-> physical Cometary r.
Proof. intros r. unfold com_error. cbn. rewrite orb_false_iff, !unless_le. tauto. Qed.

Lemma existsb_false : forall A (p : A -> bool) l, existsb p l = false <-> forall x, In x l -> p x = false.
Proof.
  intros A p l; induction l as [|x l IH]; cbn; [split; auto; intros; tauto|].
  rewrite orb_false_iff, IH. split.
  - intros [H1 H2] y [<-|Hy]; auto.
  - intros H; split; [apply H; auto|intros; apply H; auto].
Qed.

Lemma orbit_process_same : forall t t', orbit_process t = Ok t' -> t' = t.
Proof.
  intros t t' H. unfold orbit_process, base_validate in H.
  destruct (length (o_cols t) <=? 1); [discriminate|]. destruct (mem_str "ObjID" (o_cols t)); [|discriminate].
  cbn [rbind] in H. destruct (o_rows t); [congruence|].
  repeat match type of H with (if ?b then _ else _) = _ => destruct b end; congruence.
Qed.

Lemma orbit_process_err : forall t e, orbit_process t = Err e -> e = SysExit.
Proof.
  intros t e H. unfold orbit_process, base_validate in H.
  destruct (length (o_cols t) <=? 1); [cbn in H; congruence|]. destruct (mem_str "ObjID" (o_cols t)); [|cbn in H; congruence].
  cbn [rbind] in H. destruct (o_rows t); [congruence|].
  repeat match type of H with (if ?b then _ else _) = _ => destruct b end; congruence.
Qed.

Lemma family_unique : forall f a b, format_family f a -> format_family f b -> a = b.
Proof. intros f a b Ha Hb; inversion Ha; subst; inversion Hb; auto. Qed.

Lemma orbit_branch : forall t r0 rest fam els (err : orow -> bool),
  o_rows t = r0 :: rest -> length (o_cols t) = 9 -> In "FORMAT"%string (o_cols t) ->
  (forall r, In r (o_rows t) -> o_fmt r = o_fmt r0) ->
  format_family (o_fmt r0) fam ->
  (forall c, In c els -> In c (required fam)) ->
  (forall c, In c (required fam) -> In c els \/ c = "FORMAT"%string) ->
  (forall r, err r = false <-> physical fam r) ->
  (if negb (has_columns els t) then Err SysExit else if existsb err (o_rows t) then Err SysExit else Ok t) = Ok t
  <-> admissible t.
Proof.
  intros t r0 rest fam els err Hr H9 HF Hf Hfam Hc1 Hc2 He. unfold admissible.
  assert (U : forall f fam', format_family f fam' -> (forall r, In r (o_rows t) -> o_fmt r = f /\ physical fam' r) -> fam' = fam).
  { intros f fam' F H. destruct (H r0) as [E _]; [rewrite Hr; left; auto|]. subst f.
    eapply family_unique; eauto. }
  assert (C : has_columns els t = true <-> forall c, In c (required fam) -> In c (o_cols t)).
  { rewrite has_columns_spec. split.
    - intros H c Hc. destruct (Hc2 c Hc) as [K| ->]; auto.
    - intros H c Hc. auto. }
  destruct (has_columns els t) eqn:E1; cbn [negb].
  - destruct (existsb err (o_rows t)) eqn:E2.
    + split; [discriminate|]. intros [_ [fam' [f [F [_ H]]]]]. pose proof (U f fam' F H) as Eq; subst fam'.
      apply existsb_exists in E2 as [r [Hi E2]]. assert (P := proj2 (H r Hi)). apply He in P. congruence.
    + split; auto. intros _. split; auto. exists fam, (o_fmt r0). split; auto. split; [apply C; auto|].
      intros r Hi. split; auto. apply He. rewrite existsb_false in E2. auto.
  - split; [discriminate|]. intros [_ [fam' [f [F [H0 H]]]]]. pose proof (U f fam' F H) as Eq; subst fam'.
    apply C in H0. discriminate.
Qed.

Lemma orbit_nonempty : forall t r0 rest, o_rows t = r0 :: rest -> orbit_process t = Ok t <-> admissible t.
Proof.
  intros t r0 rest Hr. unfold orbit_process, base_validate.
  destruct (length (o_cols t) <=? 1) eqn:E1.
  { apply Nat.leb_le in E1. cbn. split; [discriminate|]. intros [H _]; lia. }
  destruct (mem_str "ObjID" (o_cols t)) eqn:E2.
  2:{ cbn [rbind]. split; [discriminate|]. intros [_ [fam [f [F [H _]]]]].
      assert (K : In "ObjID"%string (o_cols t)) by (apply H; unfold required; apply in_or_app; right; left; auto).
      apply mem_str_In in K. congruence. }
  cbn [rbind]. rewrite Hr at 1.
  destruct (mem_str "FORMAT" (o_cols t)) eqn:E3; cbn [negb].
  2:{ split; [discriminate|]. intros [_ [fam [f [F [H _]]]]].
      assert (K : In "FORMAT"%string (o_cols t)) by (apply H; unfold required; apply in_or_app; right; right; left; auto).
      apply mem_str_In in K. congruence. }
  destruct (length (o_cols t) =? 9) eqn:E4; cbn [negb].
  2:{ apply Nat.eqb_neq in E4. split; [discriminate|]. unfold admissible; tauto. }
  apply Nat.eqb_eq in E4. apply mem_str_In in E2, E3.
  destruct (forallb (fun r => String.eqb (o_fmt r) (o_fmt r0)) (o_rows t)) eqn:E5; cbn [negb].
  2:{ split; [discriminate|]. intros [_ [fam [f [F [_ H]]]]].
      assert (K : forallb (fun r => String.eqb (o_fmt r) (o_fmt r0)) (o_rows t) = true).
      { apply forallb_forall. intros r Hi. apply String.eqb_eq. rewrite (proj1 (H r Hi)).
        symmetry. apply H. rewrite Hr; left; auto. }
      congruence. }
  assert (Hf : forall r, In r (o_rows t) -> o_fmt r = o_fmt r0).
  { rewrite forallb_forall in E5. intros r Hi. apply String.eqb_eq; auto. }
  destruct (mem_str (o_fmt r0) ["KEP"; "BKEP"]%string) eqn:E6.
  { apply mem_str_In in E6. apply (orbit_branch t r0 rest Keplerian); auto.
    - destruct E6 as [<-|[<-|[]]]; constructor.
    - intros c Hc; cbn in *; tauto.
    - intros c Hc; cbn in *; intuition.
    - apply kep_error_spec. }
  destruct (mem_str (o_fmt r0) ["COM"; "BCOM"]%string) eqn:E7.
  { apply mem_str_In in E7. apply (orbit_branch t r0 rest Cometary); auto.
    - destruct E7 as [<-|[<-|[]]]; constructor.
    - intros c Hc; cbn in *; tauto.
    - intros c Hc; cbn in *; intuition.
    - apply com_error_spec. }
  destruct (mem_str (o_fmt r0) ["CART"; "BCART"]%string) eqn:E8.
  { apply mem_str_In in E8.
    rewrite <- (orbit_branch t r0 rest Cartesian cartesian_elements (fun _ => false)); auto.
    - replace (existsb (fun _ : orow => false) (o_rows t)) with false; [reflexivity|].
      symmetry. apply existsb_false. auto.
    - destruct E8 as [<-|[<-|[]]]; constructor.
    - intros c Hc; cbn in *; tauto.
    - intros c Hc; cbn in *; intuition.
    - cbn. tauto. }
  split; [discriminate|]. intros [_ [fam [f [F [_ H]]]]].
  destruct (H r0) as [E _]; [rewrite Hr; left; auto|]. subst f.
  inversion F as [X|X|X|X|X|X]; rewrite <- X in *; discriminate.
Qed.

Lemma C20_accept_proof : forall t t',
  (orbit_process t = Ok t' <->
   t' = t /\ 2 <= length (o_cols t) /\ In "ObjID"%string (o_cols t) /\ (o_rows t = [] \/ admissible t))
  /\ (forall e, orbit_process t = Err e -> e = SysExit).
Proof.
  intros t t'. split; [|apply orbit_process_err]. split.
  - intros H. assert (E := orbit_process_same _ _ H). subst t'. split; auto.
    assert (B : 2 <= length (o_cols t) /\ In "ObjID"%string (o_cols t)).
    { unfold orbit_process, base_validate in H. destruct (length (o_cols t) <=? 1) eqn:E; [discriminate|].
      apply Nat.leb_gt in E. destruct (mem_str "ObjID" (o_cols t)) eqn:E2; [|discriminate].
      apply mem_str_In in E2. auto. }
    destruct B as [B1 B2]. split; auto. split; auto.
    destruct (o_rows t) as [|r0 rest] eqn:E; auto. right. apply (orbit_nonempty t r0 rest E). auto.
  - intros [-> [B1 [B2 B3]]]. destruct (o_rows t) as [|r0 rest] eqn:E.
    + unfold orbit_process, base_validate. replace (length (o_cols t) <=? 1) with false by (symmetry; apply Nat.leb_gt; lia).
      apply mem_str_In in B2. rewrite B2. cbn. rewrite E. auto.
    + destruct B3 as [B3|B3]; [discriminate|]. apply (orbit_nonempty t r0 rest E); auto.
Qed.

Lemma C20_physical_proof : forall t r,
  orbit_process t = Ok t -> In r (o_rows t) -> (forall c, o_val r c <> NaN) ->
  exists fam, format_family (o_fmt r) fam /\ (forall c, In c (required fam) -> In c (o_cols t)) /\
  match fam with
  | Keplerian => num_le (Fin 0) (o_val r "e") /\ num_lt (o_val r "e") (Fin 1) /\ num_le (Fin 0) (o_val r "a")
  | Cometary => num_le (Fin 0) (o_val r "q") /\ num_le (Fin 0) (o_val r "e")
  | Cartesian => True
  end.
Proof.
  intros t r H Hi Hn. apply C20_accept_proof in H as [_ [_ [_ [H|H]]]]; [rewrite H in Hi; destruct Hi|].
  destruct H as [_ [fam [f [F [C K]]]]]. destruct (K r Hi) as [E P]. subst f. exists fam. split; auto. split; auto.
  destruct fam; cbn in *; auto.
  - destruct P as [P|[P1 [P2 P3]]]; [destruct (Hn _ P)|]. split; auto. split; auto.
    destruct P3 as [P3|P3]; [destruct (Hn _ P3)|exact P3].
  - destruct P as [[P1|P1] [P2|P2]]; try (destruct (Hn _ P1)); try (destruct (Hn _ P2)); auto.
Qed.

Lemma C20_blocks_proof : forall t sub,
  orbit_process t = Ok t -> (forall r, In r sub -> In r (o_rows t)) ->
  let b := {| o_cols := o_cols t; o_rows := sub |} in orbit_process b = Ok b.
Proof.
  intros t sub H Hs b. apply C20_accept_proof in H as [_ [B1 [B2 H]]].
  apply C20_accept_proof. split; auto. split; auto. split; auto. cbn.
  destruct sub as [|r0 rest]; auto. right.
  destruct H as [H|[H9 [fam [f [F [C K]]]]]].
  { assert (X : In r0 (o_rows t)) by (apply Hs; left; auto). rewrite H in X; destruct X. }
  split; [exact H9|]. exists fam, f. split; [exact F|]. split; [exact C|]. intros r Hr. apply K. apply Hs. exact Hr.
Qed.
