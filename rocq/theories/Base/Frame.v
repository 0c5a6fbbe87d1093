(** pandas tables.  A table is a list of (index label, row) pairs: boolean
    masks and [iloc] act by position, [drop] acts by label.  The distinction is
    kept because several filters of sorcha build label lists. *)
From Coq Require Import List Arith ZArith Bool Lia.
From Verif Require Import Base.Prelude.
Import ListNotations.

Definition frame (A : Type) := list (nat * A).

Definition labels {A} (f : frame A) : list nat := map fst f.
Definition rows {A} (f : frame A) : list A := map snd f.

(** [df.reset_index(drop=True)]: relabel 0..n-1, rows unchanged. *)
Definition reset_index {A} (f : frame A) : frame A := combine (seq 0 (length f)) (rows f).
(** The default index of a freshly built table. *)
Definition of_rows {A} (l : list A) : frame A := combine (seq 0 (length l)) l.

(** [df[mask]] for a boolean column computed row by row. *)
Definition mask {A} (p : A -> bool) (f : frame A) : frame A := filter (fun r => p (snd r)) f.

(** [df[mask]] for a boolean array given positionally; pandas raises
    ValueError when the lengths differ. *)
Fixpoint mask_list {A} (m : list bool) (f : list A) : result (list A) :=
  match m, f with
  | [], [] => Ok []
  | b :: m', r :: f' =>
      match mask_list m' f' with
      | Ok k => Ok (if b then r :: k else k)
      | Err e => Err e
      end
  | _, _ => Err ValueError
  end.

(** [df.drop(labels)]: every row carrying one of the labels goes; a label
    that does not occur raises KeyError. *)
Definition mem_nat (x : nat) (l : list nat) : bool := existsb (Nat.eqb x) l.
Definition drop_labels {A} (ls : list nat) (f : frame A) : result (frame A) :=
  if forallb (fun l => mem_nat l (labels f)) ls
  then Ok (filter (fun r => negb (mem_nat (fst r) ls)) f)
  else Err KeyError.

Lemma mem_nat_In : forall x l, mem_nat x l = true <-> In x l.
Proof.
  intros x l; unfold mem_nat. rewrite existsb_exists. split.
  - intros [y [Hy E]]. apply Nat.eqb_eq in E; subst; auto.
  - intro H; exists x; split; auto. apply Nat.eqb_refl.
Qed.

Lemma rows_reset_index : forall A (f : frame A), rows (reset_index f) = rows f.
Proof.
  intros A f. unfold reset_index, rows.
  assert (H : forall (l : list A) s, map snd (combine (seq s (length l)) l) = l).
  { induction l; cbn; intros; f_equal; auto. }
  specialize (H (map snd f) 0). rewrite map_length in H. exact H.
Qed.

Lemma labels_reset_index : forall A (f : frame A), labels (reset_index f) = seq 0 (length f).
Proof.
  intros A f. unfold reset_index, labels, rows.
  assert (H : forall (l : list A) s, map fst (combine (seq s (length l)) l) = seq s (length l)).
  { induction l; cbn; intros; f_equal; auto. }
  specialize (H (map snd f) 0). rewrite map_length in H. exact H.
Qed.

Lemma length_reset_index : forall A (f : frame A), length (reset_index f) = length f.
Proof.
  intros. unfold reset_index, rows. rewrite combine_length, seq_length, map_length. lia.
Qed.

Lemma rows_of_rows : forall A (l : list A), rows (of_rows l) = l.
Proof.
  intros A l. unfold of_rows, rows. generalize 0. induction l; cbn; intros; f_equal; auto.
Qed.

Lemma labels_of_rows : forall A (l : list A), labels (of_rows l) = seq 0 (length l).
Proof.
  intros A l. unfold of_rows, labels. generalize 0. induction l; cbn; intros; f_equal; auto.
Qed.

Lemma rows_mask : forall A (p : A -> bool) f, rows (mask p f) = filter p (rows f).
Proof.
  intros A p f; unfold rows, mask; induction f as [|[i x] f IH]; cbn; auto.
  destruct (p x); cbn; rewrite IH; auto.
Qed.

Lemma length_rows : forall A (f : frame A), length (rows f) = length f.
Proof. intros; unfold rows; apply map_length. Qed.
