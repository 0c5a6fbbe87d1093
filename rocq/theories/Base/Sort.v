(** A stable insertion sort by a rational key, used in concrete instances and
    wherever pandas/numpy sorts stably. *)
From Coq Require Import List QArith Sorting.Sorted Sorting.Permutation.
Import ListNotations.

Fixpoint insert_by {A} (key : A -> Q) (x : A) (l : list A) : list A :=
  match l with
  | [] => [x]
  | y :: l' => if Qle_bool (key x) (key y) then x :: l else y :: insert_by key x l'
  end.
Definition sort_by {A} (key : A -> Q) (l : list A) : list A := fold_right (insert_by key) [] l.

Lemma insert_by_perm : forall A (key : A -> Q) x l, Permutation (insert_by key x l) (x :: l).
Proof.
  intros A key x l; induction l as [|y l IH]; cbn; auto.
  destruct (Qle_bool _ _); auto. rewrite IH. constructor.
Qed.

Lemma insert_by_sorted : forall A (key : A -> Q) x l,
  StronglySorted (fun a b => (key a <= key b)%Q) l ->
  StronglySorted (fun a b => (key a <= key b)%Q) (insert_by key x l).
Proof.
  intros A key x l H; induction H as [|y l H IH F]; cbn; [repeat constructor|].
  destruct (Qle_bool (key x) (key y)) eqn:E.
  - apply Qle_bool_iff in E. constructor; [constructor; auto|]. constructor; auto.
    rewrite Forall_forall in *. intros z Hz. eapply Qle_trans; eauto.
  - assert (L : (key y <= key x)%Q).
    { destruct (Qlt_le_dec (key y) (key x)) as [L|L]; [apply Qlt_le_weak; auto|].
      apply Qle_bool_iff in L. congruence. }
    constructor; auto. rewrite Forall_forall in *. intros z Hz.
    apply (Permutation_in z (insert_by_perm A key x l)) in Hz as [<-|Hz]; auto.
Qed.

Lemma sort_by_perm : forall A (key : A -> Q) l, Permutation (sort_by key l) l.
Proof.
  intros A key l; unfold sort_by; induction l as [|x l IH]; cbn; auto.
  rewrite insert_by_perm. constructor; auto.
Qed.

Lemma sort_by_sorted : forall A (key : A -> Q) l, StronglySorted (fun a b => (key a <= key b)%Q) (sort_by key l).
Proof. intros A key l; unfold sort_by; induction l; cbn; [constructor|apply insert_by_sorted; auto]. Qed.
