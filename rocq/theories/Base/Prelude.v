(** Shared vocabulary: results of fallible Python code, list helpers. *)
From Coq Require Import List Arith ZArith Bool Lia.
Import ListNotations.

(** Ways in which a modelled Python function can fail to return.  [SysExit]
    is a clean [sys.exit] with an error message; the others are uncaught
    exceptions; [OutOfFuel] marks a loop that was not seen to finish and is
    always proved unreachable or shown reachable explicitly. *)
Inductive failure : Type :=
| SysExit | ValueError | KeyError | IndexError | AssertionError
| TypeError | NameError | AttributeError | OperationalError | ZeroDivisionError
| OSError | OutOfFuel.

Inductive result (A : Type) : Type :=
| Ok (a : A)
| Err (e : failure).
Arguments Ok {A} _.
Arguments Err {A} _.

Definition rbind {A B} (r : result A) (f : A -> result B) : result B :=
  match r with Ok a => f a | Err e => Err e end.
Definition rmap {A B} (f : A -> B) (r : result A) : result B :=
  match r with Ok a => Ok (f a) | Err e => Err e end.

Declare Scope result_scope.
Delimit Scope result_scope with result.
Notation "x <- r ;; k" := (rbind r (fun x => k))
  (at level 80, r at next level, right associativity) : result_scope.

(** Specification vocabulary: [selected P l l'] says that [l'] is obtained
    from [l] by keeping exactly the elements satisfying [P], in order and with
    multiplicity.  It is a relation, independent of any filtering function. *)
Inductive selected {A} (P : A -> Prop) : list A -> list A -> Prop :=
| sel_nil : selected P [] []
| sel_keep : forall x l l', P x -> selected P l l' -> selected P (x :: l) (x :: l')
| sel_drop : forall x l l', ~ P x -> selected P l l' -> selected P (x :: l) l'.

(** [subseq l' l]: [l'] is an order preserving sub-list of [l]. *)
Inductive subseq {A} : list A -> list A -> Prop :=
| ss_nil : subseq [] []
| ss_keep : forall x l l', subseq l' l -> subseq (x :: l') (x :: l)
| ss_drop : forall x l l', subseq l' l -> subseq l' (x :: l).

Lemma selected_filter : forall A (P : A -> Prop) (f : A -> bool) l,
  (forall x, In x l -> (f x = true <-> P x)) -> selected P l (filter f l).
Proof.
  intros A P f l; induction l as [|x l IH]; intros H; cbn.
  - constructor.
  - destruct (f x) eqn:E.
    + constructor; [apply H; [left; auto|exact E]|].
      apply IH; intros; apply H; right; auto.
    + constructor.
      * intro Px. apply H in Px; [congruence|left; auto].
      * apply IH; intros; apply H; right; auto.
Qed.

Lemma selected_functional : forall A (P : A -> Prop) l l1 l2,
  selected P l l1 -> selected P l l2 -> l1 = l2.
Proof.
  intros A P l l1 l2 H1; revert l2; induction H1; intros l2 H2; inversion H2; subst; auto.
  - f_equal; auto.
  - contradiction.
  - contradiction.
Qed.

Lemma selected_in : forall A (P : A -> Prop) l l' x,
  selected P l l' -> (In x l' <-> In x l /\ P x).
Proof.
  intros A P l l' x H; induction H; cbn.
  - tauto.
  - rewrite IHselected. intuition (subst; auto).
  - rewrite IHselected. intuition (subst; tauto || auto).
Qed.

Lemma selected_subseq : forall A (P : A -> Prop) l l', selected P l l' -> subseq l' l.
Proof. induction 1; constructor; auto. Qed.

Lemma selected_ext : forall A (P Q : A -> Prop) l l',
  (forall x, In x l -> (P x <-> Q x)) -> selected P l l' -> selected Q l l'.
Proof.
  intros A P Q l l' He H; induction H; constructor; auto;
    try (apply IHselected; intros; apply He; right; auto);
    try (apply He; [left; auto|auto]).
  intro HQ; apply H. apply He; [left; auto|auto].
Qed.

Lemma selected_app : forall A (P : A -> Prop) l1 l1' l2 l2',
  selected P l1 l1' -> selected P l2 l2' -> selected P (l1 ++ l2) (l1' ++ l2').
Proof. intros until 1; induction H; cbn; auto; intros; constructor; auto. Qed.

Lemma selected_trans : forall A (P Q : A -> Prop) l l' l'',
  selected P l l' -> selected Q l' l'' -> selected (fun x => P x /\ Q x) l l''.
Proof.
  intros A P Q l l' l'' H; revert l''; induction H; intros l'' H2.
  - inversion H2; constructor.
  - inversion H2; subst.
    + constructor; auto.
    + constructor; [tauto|auto].
  - constructor; [tauto|auto].
Qed.

Lemma selected_length : forall A (P : A -> Prop) l l', selected P l l' -> length l' <= length l.
Proof. induction 1; cbn; lia. Qed.

Lemma subseq_refl : forall A (l : list A), subseq l l.
Proof. induction l; constructor; auto. Qed.

Lemma subseq_nil : forall A (l : list A), subseq [] l.
Proof. induction l; constructor; auto. Qed.

Lemma subseq_trans : forall A (l1 l2 l3 : list A), subseq l1 l2 -> subseq l2 l3 -> subseq l1 l3.
Proof.
  intros A l1 l2 l3 H12 H23; revert l1 H12.
  induction H23; intros l1 H12; auto.
  - inversion H12; subst; constructor; auto.
  - constructor; auto.
Qed.

Lemma subseq_in : forall A (l l' : list A) x, subseq l' l -> In x l' -> In x l.
Proof. induction 1; cbn; intuition. Qed.

Lemma subseq_app : forall A (a a' b b' : list A),
  subseq a' a -> subseq b' b -> subseq (a' ++ b') (a ++ b).
Proof. induction 1; cbn; intros; auto; constructor; auto. Qed.

Lemma subseq_length : forall A (l l' : list A), subseq l' l -> length l' <= length l.
Proof. induction 1; cbn; lia. Qed.

Lemma subseq_map : forall A B (f : A -> B) l l', subseq l' l -> subseq (map f l') (map f l).
Proof. induction 1; cbn; constructor; auto. Qed.

Lemma subseq_filter : forall A (f : A -> bool) l, subseq (filter f l) l.
Proof. induction l; cbn; [constructor|destruct (f a); constructor; auto]. Qed.

Lemma subseq_NoDup : forall A (l l' : list A), subseq l' l -> NoDup l -> NoDup l'.
Proof.
  induction 1; intros Hn; auto; inversion Hn; subst; auto.
  constructor; auto. intro Hi; apply H2; eapply subseq_in; eauto.
Qed.
