(** Facts about the lexicographic order on strings. *)
From Coq Require Import String OrderedTypeEx Bool.

Lemma string_leb_trans : forall a b c, String.leb a b = true -> String.leb b c = true -> String.leb a c = true.
Proof.
  intros a b c H1 H2. unfold String.leb in *.
  destruct (String.compare a b) eqn:E1; [|clear H1|discriminate].
  - apply String_as_OT.cmp_eq in E1; subst; auto.
  - destruct (String.compare b c) eqn:E2; [|clear H2|discriminate].
    + apply String_as_OT.cmp_eq in E2; subst. rewrite E1; auto.
    + apply String_as_OT.cmp_lt in E1. apply String_as_OT.cmp_lt in E2.
      assert (E := String_as_OT.lt_trans _ _ _ E1 E2). apply String_as_OT.cmp_lt in E.
      change String_as_OT.cmp with String.compare in E. rewrite E; auto.
Qed.

Lemma string_leb_refl : forall a, String.leb a a = true.
Proof. intro a. destruct (String.leb_total a a); auto. Qed.

Lemma string_leb_false : forall a b, String.leb a b = false -> String.leb b a = true.
Proof. intros a b H. destruct (String.leb_total a b); [congruence|auto]. Qed.
