(** Proofs about the table of the generated ephemeris. *)
From Coq Require Import String List Arith Bool Lia.
From Verif Require Import Base.Prelude Model.Csv Model.Readers Model.EphemerisTable Spec.Readers Proofs.Csv Proofs.Identifiers.
Import ListNotations.
Open Scope string_scope.

Lemma combine_split : forall A B (l : list (A * B)), combine (map fst l) (map snd l) = l.
Proof. induction l as [|[a b] l IH]; cbn; [reflexivity|]. rewrite IH. reflexivity. Qed.
Lemma filter_none : forall R (orbits : list (string * R)) i, ~ In i (ids_of orbits) -> filter (fun r => String.eqb (fst r) i) orbits = [].
Proof.
  induction orbits as [|[j b] l IH]; intros i H; cbn; [reflexivity|]. cbn in H. destruct (String.eqb_spec j i); [tauto|]. apply IH. tauto.
Qed.
Lemma filter_one : forall R (orbits : list (string * R)) i b, NoDup (ids_of orbits) -> In (i, b) orbits ->
  filter (fun r => String.eqb (fst r) i) orbits = [(i, b)].
Proof.
  induction orbits as [|[j c] l IH]; intros i b Hn Hi; [destruct Hi|]. cbn in Hn. inversion Hn as [|? ? H1 H2]; subst. cbn.
  destruct Hi as [E|Hi].
  - injection E as -> ->. rewrite String.eqb_refl. rewrite filter_none by auto. reflexivity.
  - destruct (String.eqb_spec j i) as [->|Hne]; [exfalso; apply H1; apply (in_map fst) in Hi; exact Hi|]. apply IH; auto.
Qed.

Lemma C68_table_proof : forall (E O : Type) (rows : list (string * E)) (orbits : list (string * O)),
  NoDup (ids_of orbits) -> (forall i, In i (ids_of rows) -> In i (ids_of orbits)) ->
  (exists i, In i (ids_of rows) /\ forall z, ~ integer_text i z) \/
  (forall i z, In i (ids_of rows) -> integer_text i z -> decimal i z) ->
  Forall2 (fun r o => fst o = r /\ exists b, snd o = Some b /\ In (fst r, b) orbits) rows (ephemeris_table pandas_ids rows orbits).
Proof.
  intros E O rows orbits Hn Hin Hs. unfold ephemeris_table, read_back.
  assert (Es : pandas_ids (map fst rows) = map fst rows).
  { destruct Hs as [Hs|Hs]; [apply C119_text_proof; left; exact Hs|]. apply (C119_usual_proof _ Hs). intros x Hx; exact Hx. }
  rewrite Es, combine_split. clear Es Hs. induction rows as [|[i e] rows IH]; [constructor|].
  unfold left_join. cbn [flat_map]. unfold join_one at 1. cbn [fst].
  assert (Hi : In i (ids_of orbits)) by (apply Hin; left; reflexivity). apply in_map_iff in Hi. destruct Hi as [[j b] [Ej Hb]]. cbn in Ej. subst j.
  rewrite (filter_one _ _ _ _ Hn Hb). cbn [map app snd]. constructor.
  - cbn. split; [reflexivity|]. exists b. auto.
  - apply IH. intros; apply Hin. right; auto.
Qed.

(** Objects numbered with leading zeros: one gets another object's name and
    orbit, or no orbit at all. *)
Lemma C68_zeros_refuted_proof : forall (E O : Type) (e : E) (o1 o2 : O),
  ephemeris_table pandas_ids [("0001", e)] [("0001", o1); ("1", o2)] = [(("1", e), Some o2)] /\
  ephemeris_table pandas_ids [("0001", e)] [("0001", o1); ("0002", o2)] = [(("1", e), None)].
Proof. intros E O e o1 o2. split; reflexivity. Qed.
