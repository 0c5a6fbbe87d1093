(** Extended numbers: the values a binary64 column can hold, as far as
    comparisons can tell.  A finite binary64 value is a rational number, and
    Python/numpy comparisons of finite values are exact comparisons of these
    rationals; infinities compare as expected and NaN makes every ordered
    comparison false (IEEE 754). *)
From Coq Require Import QArith Bool Lia Setoid.

Inductive num : Type := NaN | MInf | Fin (q : Q) | PInf.

Definition qltb (a b : Q) : bool := negb (Qle_bool b a).

(** The comparison operators [<], [<=], [>], [>=] of Python floats. *)
Definition nltb (a b : num) : bool :=
  match a, b with
  | NaN, _ | _, NaN => false
  | MInf, MInf => false
  | MInf, _ => true
  | _, MInf => false
  | PInf, _ => false
  | _, PInf => true
  | Fin p, Fin q => qltb p q
  end.
Definition neqb (a b : num) : bool :=
  match a, b with
  | MInf, MInf | PInf, PInf => true
  | Fin p, Fin q => Qeq_bool p q
  | _, _ => false
  end.
Definition nleb (a b : num) : bool := nltb a b || neqb a b.

(** Specification of the order, as a relation: [num_lt a b] holds when both
    are not NaN and [a] is below [b] in the extended order. *)
Inductive num_lt : num -> num -> Prop :=
| lt_fin : forall p q, (p < q)%Q -> num_lt (Fin p) (Fin q)
| lt_minf_fin : forall q, num_lt MInf (Fin q)
| lt_fin_pinf : forall q, num_lt (Fin q) PInf
| lt_minf_pinf : num_lt MInf PInf.
Inductive num_le : num -> num -> Prop :=
| le_fin : forall p q, (p <= q)%Q -> num_le (Fin p) (Fin q)
| le_minf : forall a, a <> NaN -> num_le MInf a
| le_pinf : forall a, a <> NaN -> num_le a PInf.

Lemma qltb_lt : forall a b, qltb a b = true <-> (a < b)%Q.
Proof.
  intros a b; unfold qltb. rewrite negb_true_iff. split; intro H.
  - apply Qnot_le_lt. intro Hle. apply Qle_bool_iff in Hle. congruence.
  - destruct (Qle_bool b a) eqn:E; auto. apply Qle_bool_iff in E.
    exfalso. exact (Qlt_not_le _ _ H E).
Qed.

Lemma qltb_false : forall a b, qltb a b = false <-> (b <= a)%Q.
Proof.
  intros a b. unfold qltb. rewrite negb_false_iff. apply Qle_bool_iff.
Qed.

Lemma nltb_lt : forall a b, nltb a b = true <-> num_lt a b.
Proof.
  intros a b; destruct a, b; cbn; split; intro H; try discriminate; try constructor;
    try (inversion H; subst; fail); auto.
  - apply qltb_lt; auto.
  - apply qltb_lt. inversion H; auto.
Qed.

Lemma nleb_le : forall a b, nleb a b = true <-> num_le a b.
Proof.
  intros a b; unfold nleb; destruct a as [| |p|], b as [| |q|]; cbn; split; intro H; try discriminate;
    try (constructor; discriminate); try (inversion H; subst; congruence); auto.
  - constructor. apply orb_true_iff in H. destruct H as [H|H].
    + apply Qlt_le_weak, qltb_lt; auto.
    + apply Qeq_bool_iff in H. rewrite H. apply Qle_refl.
  - apply orb_true_iff. inversion H; subst.
    destruct (Qlt_le_dec p q) as [L|L].
    + left; apply qltb_lt; auto.
    + right. apply Qeq_bool_iff. apply Qle_antisym; auto.
Qed.

Lemma num_lt_not_nan : forall a b, num_lt a b -> a <> NaN /\ b <> NaN.
Proof. intros a b H; inversion H; split; discriminate. Qed.

Lemma num_lt_irrefl : forall a, ~ num_lt a a.
Proof. intros a H; inversion H as [p q Hpq| | |]; subst. exact (Qlt_irrefl _ Hpq). Qed.

Lemma num_lt_trans : forall a b c, num_lt a b -> num_lt b c -> num_lt a c.
Proof.
  intros a b c H1 H2; inversion H1; subst; inversion H2; subst; constructor.
  eapply Qlt_trans; eauto.
Qed.

Lemma num_lt_le : forall a b, num_lt a b -> num_le a b.
Proof.
  intros a b H; inversion H; subst; constructor; try discriminate. apply Qlt_le_weak; auto.
Qed.

Lemma num_le_trans : forall a b c, num_le a b -> num_le b c -> num_le a c.
Proof.
  intros a b c H1 H2; inversion H1; subst; inversion H2; subst;
    try (constructor; try discriminate; auto; fail); try congruence.
  constructor. eapply Qle_trans; eauto.
Qed.

Lemma num_lt_le_trans : forall a b c, num_lt a b -> num_le b c -> num_lt a c.
Proof.
  intros a b c H1 H2; inversion H1; subst; inversion H2; subst; try constructor; try congruence.
  eapply Qlt_le_trans; eauto.
Qed.

Lemma num_le_lt_trans : forall a b c, num_le a b -> num_lt b c -> num_lt a c.
Proof.
  intros a b c H1 H2; inversion H1; subst; inversion H2; subst; try constructor; try congruence.
  eapply Qle_lt_trans; eauto.
Qed.

Lemma num_le_not_lt : forall a b, num_le a b -> ~ num_lt b a.
Proof.
  intros a b H1 H2. exact (num_lt_irrefl _ (num_le_lt_trans _ _ _ H1 H2)).
Qed.

Lemma num_le_total : forall a b, a <> NaN -> b <> NaN -> num_le a b \/ num_lt b a.
Proof.
  intros a b Ha Hb; destruct a, b; try congruence;
    try (left; constructor; discriminate); try (right; constructor; fail).
  destruct (Qlt_le_dec q0 q); [right|left]; constructor; auto.
Qed.

(** Arithmetic on extended numbers: exact on finite values (binary64 rounding
    and overflow are not modelled), IEEE rules for NaN and infinities. *)
Definition nadd (a b : num) : num :=
  match a, b with
  | NaN, _ | _, NaN => NaN
  | MInf, PInf | PInf, MInf => NaN
  | MInf, _ | _, MInf => MInf
  | PInf, _ | _, PInf => PInf
  | Fin p, Fin q => Fin (p + q)
  end.
Definition nneg (a : num) : num :=
  match a with NaN => NaN | MInf => PInf | PInf => MInf | Fin q => Fin (- q) end.
Definition nsub (a b : num) : num := nadd a (nneg b).
(** Squaring, [x ** 2]. *)
Definition nsqr (a : num) : num :=
  match a with NaN => NaN | MInf | PInf => PInf | Fin q => Fin (q * q) end.
Definition nabs (a : num) : num :=
  match a with NaN => NaN | MInf | PInf => PInf | Fin q => Fin (if Qle_bool 0 q then q else - q) end.
