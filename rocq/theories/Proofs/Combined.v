From Coq Require Import String List Arith ZArith Bool Lia Sorting.Permutation.
From Verif Require Import Base.Prelude Base.Frame Model.Csv Model.Readers Spec.Readers Proofs.Csv.
Import ListNotations.
Open Scope nat_scope.

(** ** Identifier checks *)

Lemma count_id_occ : forall x l, count_id x l = count_occ string_dec l x.
Proof.
  intros x l; unfold count_id; induction l as [|y l IH]; cbn; auto.
  destruct (string_dec y x) as [->|N].
  - rewrite String.eqb_refl. cbn. auto.
  - destruct (String.eqb x y) eqn:E; auto. apply String.eqb_eq in E. congruence.
Qed.

Lemma counter_eqb_perm : forall a b, counter_eqb a b = true <-> Permutation a b.
Proof.
  intros a b. unfold counter_eqb. rewrite forallb_forall.
  rewrite (Permutation_count_occ string_dec). split.
  - intros H x. destruct (in_dec string_dec x (a ++ b)) as [Hi|Hi].
    + specialize (H x Hi). apply Nat.eqb_eq in H. rewrite !count_id_occ in H. auto.
    + rewrite in_app_iff in Hi.
      rewrite (proj1 (count_occ_not_In string_dec a x)), (proj1 (count_occ_not_In string_dec b x)); tauto.
  - intros H x _. apply Nat.eqb_eq. rewrite !count_id_occ. auto.
Qed.

Lemma check_others_spec : forall p others,
  check_others p others = Ok tt <-> Forall (Permutation p) others.
Proof.
  intros p others; induction others as [|ids rest IH]; cbn.
  - split; auto.
  - destruct (length p =? length ids) eqn:E; cbn.
    + destruct (counter_eqb p ids) eqn:C; cbn.
      * apply counter_eqb_perm in C. rewrite IH. split; [constructor; auto|inversion 1; auto].
      * split; [discriminate|]. inversion 1; subst. apply counter_eqb_perm in H2. congruence.
    + split; [discriminate|]. inversion 1; subst. apply Permutation_length in H2. apply Nat.eqb_neq in E. congruence.
Qed.

Lemma check_others_err : forall p others e, check_others p others = Err e -> e = SysExit.
Proof.
  intros p others e; induction others as [|ids rest IH]; cbn; [discriminate|].
  destruct (negb _); [congruence|]. destruct (negb _); [congruence|auto].
Qed.

Lemma C19_check_proof : forall tables,
  (check_aux_object_ids tables = Ok tt <->
   2 <= length tables /\ forall a b, In a tables -> In b tables -> Permutation a b)
  /\ (forall e, check_aux_object_ids tables = Err e -> e = SysExit).
Proof.
  intros tables. unfold check_aux_object_ids. split.
  - destruct tables as [|p [|q rest]]; try (cbn; split; [discriminate|intros [H _]; lia]).
    rewrite check_others_spec. rewrite Forall_forall. split.
    + intros H. split; [cbn; lia|].
      assert (K : forall x, In x (p :: q :: rest) -> Permutation p x).
      { intros x [<-|Hx]; auto. }
      intros a b Ha Hb. transitivity p; [symmetry|]; auto.
    + intros [_ H] x Hx. apply H; [left; auto|right; auto].
  - destruct tables as [|p [|q rest]]; cbn [check_aux_object_ids]; try (intros e H; congruence).
    apply check_others_err.
Qed.

(** ** Distinct identifiers *)

Lemma unique_ids_In : forall x l, In x (unique_ids l) <-> In x l.
Proof.
  intros x l; induction l as [|y l IH]; cbn; [tauto|]. rewrite filter_In, IH.
  destruct (String.eqb y x) eqn:E; cbn.
  - apply String.eqb_eq in E. intuition.
  - intuition.
Qed.

Lemma NoDup_filter : forall A (p : A -> bool) l, NoDup l -> NoDup (filter p l).
Proof. intros A p l H. eapply subseq_NoDup; eauto. apply subseq_filter. Qed.

Lemma unique_ids_NoDup : forall l, NoDup (unique_ids l).
Proof.
  induction l as [|y l IH]; cbn; constructor.
  - rewrite filter_In. rewrite String.eqb_refl. cbn. intros [_ H]; discriminate.
  - apply NoDup_filter; auto.
Qed.

Lemma unique_ids_nil : forall l, unique_ids l = [] <-> l = [].
Proof. intros [|x l]; cbn; split; congruence. Qed.

Lemma subset_ids_spec : forall a b, subset_ids a b = true <-> (forall x, In x a -> In x b).
Proof.
  intros a b. unfold subset_ids. rewrite forallb_forall.
  split; intros H x Hx; apply existsb_eqb_In; auto.
Qed.

(** ** Joins *)

Section Join.
Context {L R : Type}.
Variable lid : L -> string.

Lemma join_one_spec : forall (right : list (string * R)) i (l : L) p,
  In p (join_one right i l) -> fst p = l /\
  match snd p with Some a => In (i, a) right | None => ~ In i (map fst right) end.
Proof.
  intros right i l [l' o] H. unfold join_one in H.
  destruct (filter (fun r => String.eqb (fst r) i) right) as [|m ms] eqn:E.
  - destruct H as [H|[]]. injection H as <- <-. cbn. split; auto.
    intro Hi. apply in_map_iff in Hi as [r [E2 Hr]].
    assert (K : In r (filter (fun r => String.eqb (fst r) i) right)).
    { apply filter_In. split; auto. rewrite E2. apply String.eqb_refl. }
    rewrite E in K. destruct K.
  - apply in_map_iff in H as [r [H Hr]]. injection H as <- <-. cbn. split; auto.
    rewrite <- E in Hr. apply filter_In in Hr as [Hr E3]. apply String.eqb_eq in E3. subst.
    destruct r; auto.
Qed.

Lemma join_one_nonempty : forall (right : list (string * R)) i (l : L), join_one right i l <> [].
Proof. intros right i l. unfold join_one. destruct (filter _ right); discriminate. Qed.

Lemma left_join_sound : forall left (right : list (string * R)) p,
  In p (left_join lid left right) -> In (fst p) left /\
  match snd p with Some a => In (lid (fst p), a) right | None => ~ In (lid (fst p)) (map fst right) end.
Proof.
  intros left right p H. unfold left_join in H. apply in_flat_map in H as [l [Hl H]].
  apply join_one_spec in H as [E H]. subst. auto.
Qed.

Lemma left_join_complete : forall left (right : list (string * R)) l,
  In l left -> exists o, In (l, o) (left_join lid left right).
Proof.
  intros left right l Hl. pose proof (join_one_nonempty right (lid l) l) as N.
  destruct (join_one right (lid l) l) as [|p ps] eqn:E; [congruence|].
  pose proof (join_one_spec right (lid l) l p) as S. rewrite E in S.
  destruct S as [S _]; [left; auto|]. exists (snd p). unfold left_join. apply in_flat_map.
  exists l; split; auto. rewrite E. left. destruct p; cbn in *; congruence.
Qed.

Lemma filter_unique : forall (right : list (string * R)) i, NoDup (map fst right) -> In i (map fst right) ->
  exists a, filter (fun r => String.eqb (fst r) i) right = [(i, a)] /\ In (i, a) right.
Proof.
  induction right as [|[j b] right IH]; intros i Hn Hi; [destruct Hi|]. cbn in *.
  inversion Hn; subst. destruct (String.eqb j i) eqn:E.
  - apply String.eqb_eq in E; subst. exists b. split; auto. f_equal.
    assert (A : forall l, ~ In i (map fst l) -> filter (fun r : string * R => String.eqb (fst r) i) l = []).
    { clear. induction l as [|[k c] l IH]; intros H; cbn in *; auto.
      destruct (String.eqb k i) eqn:E; [apply String.eqb_eq in E; tauto|apply IH; tauto]. }
    apply A; auto.
  - destruct Hi as [->|Hi]; [rewrite String.eqb_refl in E; discriminate|].
    destruct (IH i H2 Hi) as [a [E1 E2]]. exists a. auto.
Qed.

Lemma left_join_unique : forall left (right : list (string * R)),
  NoDup (map fst right) -> (forall l, In l left -> In (lid l) (map fst right)) ->
  Forall2 (fun l p => fst p = l /\ exists a, snd p = Some a /\ In (lid l, a) right) left (left_join lid left right).
Proof.
  intros left right Hn; induction left as [|l left IH]; intros H; cbn; [constructor|].
  unfold join_one. destruct (filter_unique right (lid l) Hn) as [a [E1 E2]]; [apply H; left; auto|].
  rewrite E1. cbn. constructor; [split; auto; exists a; auto|]. apply IH. intros; apply H; right; auto.
Qed.
End Join.

Lemma exact_ids : forall R (T : list (string * R)) wanted l, selected (fun r => In (fst r) wanted) T l ->
  forall i, In i (map fst l) <-> In i (map fst T) /\ In i wanted.
Proof.
  intros R T wanted l H i. rewrite !in_map_iff. split.
  - intros [r [<- Hr]]. apply (selected_in _ _ _ _ r) in H. apply H in Hr. split; [exists r; tauto|tauto].
  - intros [[r [<- Hr]] Hw]. exists r. split; auto. apply (selected_in _ _ _ _ r) in H. apply H; auto.
Qed.

Lemma selected_NoDup_ids : forall R (T : list (string * R)) P l, selected P T l ->
  NoDup (map fst T) -> NoDup (map fst l).
Proof. intros R T P l H Hn. eapply subseq_NoDup; eauto. apply subseq_map. eapply selected_subseq; eauto. Qed.

(** ** read_block *)

Section Block.
Context {E R : Type}.
Notation reader := (list string -> result (list (string * R))).

Lemma join_readers_sound : forall wanted eids (tables : list (list (string * R))) readers (acc : list (joined E R)) js,
  Forall2 exact_reader tables readers ->
  (forall j, In j acc -> In (fst (fst j)) eids) ->
  join_readers wanted eids acc readers = Ok js ->
  (forall j, In j js -> exists a ext, In a acc /\ fst j = fst a /\ snd j = snd a ++ ext
      /\ Forall2 (fun T o => exists x, o = Some x /\ In (fst (fst j), x) T) tables ext)
  /\ (forall a, In a acc -> exists j, In j js /\ fst j = fst a).
Proof.
  intros wanted eids tables readers acc js HF; revert acc js.
  induction HF as [|T rd tables readers HT HF IH]; intros acc js Hacc H; cbn in H.
  - injection H as <-. split.
    + intros j Hj. exists j, []. rewrite app_nil_r. auto.
    + intros a Ha. exists a; auto.
  - destruct (HT wanted) as [cur [E1 E2]]. rewrite E1 in H. cbn [rbind] in H.
    destruct (subset_ids eids (map fst cur)) eqn:S; cbn [negb] in H; [|discriminate].
    rewrite subset_ids_spec in S.
    apply IH in H as [H1 H2].
    + split.
      * intros j Hj. destruct (H1 j Hj) as [a' [ext [Ha' [F1 [F2 F3]]]]].
        apply in_map_iff in Ha' as [p [<- Hp]]. cbn [fst snd] in F1, F2.
        apply left_join_sound in Hp as [Hp1 Hp2].
        destruct (snd p) as [x|] eqn:Ex.
        -- exists (fst p), (Some x :: ext). split; auto. split; auto. split.
           ++ rewrite F2, <- app_assoc. reflexivity.
           ++ constructor; auto. exists x. split; auto. rewrite F1.
              apply (selected_in _ _ _ _ (fst (fst (fst p)), x)) in E2. apply E2 in Hp2. tauto.
        -- exfalso. apply Hp2. apply S. apply Hacc; auto.
      * intros a Ha. destruct (left_join_complete (fun j : joined E R => fst (fst j)) acc cur a Ha) as [o Ho].
        destruct (H2 (fst a, snd a ++ [o])) as [j [Hj E3]].
        -- apply in_map_iff. exists (a, o). auto.
        -- exists j; auto.
    + intros j Hj. apply in_map_iff in Hj as [p [<- Hp]]. apply left_join_sound in Hp as [Hp _]. cbn. auto.
Qed.

Lemma join_readers_unique : forall wanted eids (tables : list (list (string * R))) readers (acc : list (joined E R)),
  Forall2 exact_reader tables readers ->
  (forall j, In j acc -> In (fst (fst j)) eids) ->
  (forall i, In i eids -> In i wanted /\ forall T, In T tables -> In i (map fst T)) ->
  (forall T, In T tables -> NoDup (map fst T)) ->
  exists js, join_readers wanted eids acc readers = Ok js
  /\ Forall2 (fun a j => fst j = fst a /\ exists ext, snd j = snd a ++ ext
      /\ Forall2 (fun T o => exists x, o = Some x /\ In (fst (fst a), x) T) tables ext) acc js.
Proof.
  intros wanted eids tables readers acc HF; revert acc.
  induction HF as [|T rd tables readers HT HF IH]; intros acc Hacc Hids Hn; cbn.
  - exists acc. split; auto. clear. induction acc; constructor; auto. split; auto. exists []. rewrite app_nil_r; auto.
  - destruct (HT wanted) as [cur [E1 E2]]. rewrite E1. cbn [rbind].
    pose proof (exact_ids _ _ _ _ E2) as Ei.
    replace (subset_ids eids (map fst cur)) with true; cbn [negb].
    2:{ symmetry. apply subset_ids_spec. intros x Hx. apply Ei. destruct (Hids x Hx) as [A B].
        split; auto. apply B; left; auto. }
    assert (U : Forall2 (fun l p => fst p = l /\ exists a, snd p = Some a /\ In (fst (fst l), a) cur) acc
                  (left_join (fun j : joined E R => fst (fst j)) acc cur)).
    { apply (left_join_unique (fun j : joined E R => fst (fst j))).
      - eapply selected_NoDup_ids; eauto. apply Hn; left; auto.
      - intros l Hl. apply Ei. destruct (Hids _ (Hacc l Hl)) as [A B]. split; auto. apply B; left; auto. }
    destruct (IH (map (fun p => (fst (fst p), snd (fst p) ++ [snd p]))
                   (left_join (fun j : joined E R => fst (fst j)) acc cur))) as [js [F1 F2]].
    + intros j Hj. apply in_map_iff in Hj as [p [<- Hp]]. apply left_join_sound in Hp as [Hp _]. cbn. auto.
    + intros i Hi. destruct (Hids i Hi) as [A B]. split; auto. intros T' HT'. apply B; right; auto.
    + intros; apply Hn; right; auto.
    + exists js. split; auto. clear -U F2 E2. revert js F2. induction U as [|l p ls ps Hlp U IHU]; intros js F2; inversion F2; subst.
      * constructor.
      * constructor; [|apply IHU; auto]. destruct Hlp as [E3 [x [E4 E5]]]. destruct H1 as [E6 [ext [E7 E8]]].
        cbn in E6, E7, E8. rewrite E3 in *. split; auto. exists (Some x :: ext).
        rewrite E7, E4, <- app_assoc. split; auto. constructor; auto. exists x. split; auto.
        apply (selected_in _ _ _ _ (fst (fst l), x)) in E2. apply E2 in E5. tauto.
Qed.

Lemma exact_const : forall (P : list (string * R)) ids, (forall i, In i ids <-> In i (map fst P)) ->
  forall rd : reader, rd = (fun _ => Ok P) -> exists l, rd ids = Ok l /\ selected (fun r => In (fst r) ids) P l.
Proof.
  intros P ids H rd ->. exists P; split; auto.
  assert (G : forall Q, (forall r, In r Q -> In (fst r) ids) -> selected (fun r : string * R => In (fst r) ids) Q Q).
  { induction Q; intros HQ; constructor; auto; [apply HQ; left; auto|]. apply IHQ. intros; apply HQ; right; auto. }
  apply G. intros r Hr. apply H. apply in_map; auto.
Qed.


End Block.

Lemma C19_sound_proof : forall E R (EPH : list (string * E)) ephem_objects (aux0 : nat -> option nat -> result (list (string * R))) others tables s n P next js,
  exact_reader EPH ephem_objects ->
  aux0 s n = Ok P ->
  Forall2 exact_reader tables others ->
  read_block aux0 ephem_objects others s n = Ok (next, Some js) ->
  (forall j, In j js -> In (fst j) EPH /\ In (fst (fst j)) (map fst P)
      /\ own_data (fst (fst j)) (P :: tables) (snd j))
  /\ (forall e, In e EPH -> In (fst e) (map fst P) -> exists j, In j js /\ fst j = e).
Proof.
  intros E R EPH ephem_objects aux0 others tables s n P next js Heph HP HF H. unfold read_block in H. rewrite HP in H. cbn [rbind] in H.
  destruct (unique_ids (map fst P)) as [|i0 is] eqn:Eu; [discriminate|]. rewrite <- Eu in H. clear i0 is Eu.
  destruct (Heph (unique_ids (map fst P))) as [eph [E1 E2]]. rewrite E1 in H. cbn [rbind] in H.
  unfold rmap in H. destruct (join_readers _ _ _ _) as [js'|] eqn:EJ; [|discriminate]. injection H as _ <-.
  (* the first reader is the constant one; treat it as an exact reader on the wanted ids *)
  assert (HF' : Forall2 exact_reader (P :: tables)
     ((fun w => if list_eq_dec string_dec w (unique_ids (map fst P)) then Ok P
                else Ok (filter (fun r => existsb (String.eqb (fst r)) w) P)) :: others)).
  { constructor; auto. intros w. destruct (list_eq_dec string_dec w (unique_ids (map fst P))) as [->|N].
    - apply (exact_const P (unique_ids (map fst P))) with (rd := fun _ => Ok P); auto.
      intros i; apply unique_ids_In.
    - eexists; split; eauto. apply selected_filter. intros r _. apply existsb_eqb_In. }
  assert (EJ' : join_readers (unique_ids (map fst P)) (unique_ids (map fst eph)) (map (fun e => (e, [])) eph)
     ((fun w => if list_eq_dec string_dec w (unique_ids (map fst P)) then Ok P
                else Ok (filter (fun r => existsb (String.eqb (fst r)) w) P)) :: others) = Ok js').
  { rewrite <- EJ. cbn. destruct (list_eq_dec string_dec (unique_ids (map fst P)) (unique_ids (map fst P))); [auto|congruence]. }
  apply (join_readers_sound _ _ (P :: tables)) in EJ' as [S C]; auto.
  - split.
    + intros j Hj. destruct (S j Hj) as [a [ext [Ha [F1 [F2 F3]]]]].
      apply in_map_iff in Ha as [e [<- He]]. cbn in F1, F2.
      apply (selected_in _ _ _ _ e) in E2. apply E2 in He as [He1 He2].
      rewrite F1. split; auto. split; [apply (proj1 (unique_ids_In _ _)); auto|].
      unfold own_data. rewrite F2. rewrite <- F1. exact F3.
    + intros e He Hi. destruct (C (e, [])) as [j [Hj Ej]].
      * apply in_map_iff. exists e; split; auto. apply (selected_in _ _ _ _ e) in E2. apply E2.
        split; auto. apply unique_ids_In; auto.
      * exists j; auto.
  - intros j Hj. apply in_map_iff in Hj as [e [<- He]]. cbn. apply unique_ids_In. apply in_map; auto.
Qed.

Lemma C19_exact_proof : forall E R (EPH : list (string * E)) ephem_objects (aux0 : nat -> option nat -> result (list (string * R))) others tables s n P,
  exact_reader EPH ephem_objects ->
  aux0 s n = Ok P -> P <> [] ->
  Forall2 exact_reader tables others ->
  NoDup (map fst P) -> (forall T, In T tables -> NoDup (map fst T)) ->
  (forall i, In i (map fst P) -> forall T, In T tables -> In i (map fst T)) ->
  exists js eph, read_block aux0 ephem_objects others s n = Ok (s + length P, Some js)
    /\ selected (fun e => In (fst e) (map fst P)) EPH eph
    /\ Forall2 (fun e j => fst j = e /\ own_data (fst e) (P :: tables) (snd j)) eph js.
Proof.
  intros E R EPH ephem_objects aux0 others tables s n P Heph HP HP0 HF Hn HnT Hsub. unfold read_block. rewrite HP. cbn [rbind].
  destruct (unique_ids (map fst P)) as [|i0 is] eqn:Eu.
  { apply (proj1 (unique_ids_nil _)) in Eu. apply map_eq_nil in Eu. contradiction. }
  rewrite <- Eu. clear i0 is Eu.
  destruct (Heph (unique_ids (map fst P))) as [eph [E1 E2]]. rewrite E1. cbn [rbind].
  assert (HF' : Forall2 exact_reader (P :: tables)
     ((fun w => if list_eq_dec string_dec w (unique_ids (map fst P)) then Ok P
                else Ok (filter (fun r => existsb (String.eqb (fst r)) w) P)) :: others)).
  { constructor; auto. intros w. destruct (list_eq_dec string_dec w (unique_ids (map fst P))) as [->|N].
    - apply (exact_const P (unique_ids (map fst P))) with (rd := fun _ => Ok P); auto.
      intros i; apply unique_ids_In.
    - eexists; split; eauto. apply selected_filter. intros r _. apply existsb_eqb_In. }
  destruct (join_readers_unique (unique_ids (map fst P)) (unique_ids (map fst eph)) _ _
     (map (fun e => (e, [])) eph) HF') as [js [F1 F2]].
  - intros j Hj. apply in_map_iff in Hj as [e [<- He]]. cbn. apply unique_ids_In. apply in_map; auto.
  - intros i Hi. apply (proj1 (unique_ids_In i _)) in Hi. apply (proj1 (exact_ids _ _ _ _ E2 i)) in Hi as [_ Hi].
    split; auto. apply (proj1 (unique_ids_In i _)) in Hi. intros T [<-|HT]; auto.
  - intros T [<-|HT]; auto.
  - exists js, eph.
    assert (EJ : join_readers (unique_ids (map fst P)) (unique_ids (map fst eph)) (map (fun e => (e, [])) eph)
       ((fun _ => Ok P) :: others) = Ok js).
    { rewrite <- F1. cbn. destruct (list_eq_dec string_dec (unique_ids (map fst P)) (unique_ids (map fst P))); [auto|congruence]. }
    rewrite EJ. cbn. split; auto. split.
    + eapply selected_ext; [|exact E2]. intros x _. apply unique_ids_In.
    + clear -F2. revert js F2. induction eph; intros js F2; inversion F2; subst; constructor; auto.
      destruct H1 as [A [ext [B C]]]. cbn in A, B, C. split; auto. unfold own_data. rewrite B. exact C.
Qed.
(** ** read_aux_block *)
Section Aux.
Context {R : Type}.

Lemma join_aux_unique : forall wanted (tables : list (list (string * R))) readers (acc : list (aux_joined R)),
  Forall2 exact_reader tables readers ->
  (forall j, In j acc -> In (fst (fst j)) wanted) ->
  (forall i, In i wanted -> forall T, In T tables -> In i (map fst T)) ->
  (forall T, In T tables -> NoDup (map fst T)) ->
  exists js, join_aux wanted acc readers = Ok js
  /\ Forall2 (fun a j => fst j = fst a /\ exists ext, snd j = snd a ++ ext
      /\ Forall2 (fun T o => exists x, o = Some x /\ In (fst (fst a), x) T) tables ext) acc js.
Proof.
  intros wanted tables readers acc HF; revert acc.
  induction HF as [|T rd tables readers HT HF IH]; intros acc Hacc Hids Hn; cbn.
  - exists acc. split; auto. clear. induction acc; constructor; auto. split; auto. exists []. rewrite app_nil_r; auto.
  - destruct (HT wanted) as [cur [E1 E2]]. rewrite E1. cbn [rbind].
    pose proof (exact_ids _ _ _ _ E2) as Ei.
    replace (subset_ids (map fst cur) wanted) with true; cbn [negb].
    2:{ symmetry. apply subset_ids_spec. intros x Hx. apply Ei in Hx. tauto. }
    assert (U : Forall2 (fun l p => fst p = l /\ exists a, snd p = Some a /\ In (fst (fst l), a) cur) acc
                  (left_join (fun j : aux_joined R => fst (fst j)) acc cur)).
    { apply (left_join_unique (fun j : aux_joined R => fst (fst j))).
      - eapply selected_NoDup_ids; eauto. apply Hn; left; auto.
      - intros l Hl. apply Ei. split; auto. apply Hids; [auto|left; auto]. }
    destruct (IH (map (fun p => (fst (fst p), snd (fst p) ++ [snd p]))
                   (left_join (fun j : aux_joined R => fst (fst j)) acc cur))) as [js [F1 F2]].
    + intros j Hj. apply in_map_iff in Hj as [p [<- Hp]]. apply left_join_sound in Hp as [Hp _]. cbn. auto.
    + intros i Hi T' HT'. apply Hids; auto. right; auto.
    + intros; apply Hn; right; auto.
    + exists js. split; auto. clear -U F2 E2. revert js F2. induction U as [|l p ls ps Hlp U IHU]; intros js F2; inversion F2; subst.
      * constructor.
      * constructor; [|apply IHU; auto]. destruct Hlp as [E3 [x [E4 E5]]]. destruct H1 as [E6 [ext [E7 E8]]].
        cbn in E6, E7, E8. rewrite E3 in *. split; auto. exists (Some x :: ext).
        rewrite E7, E4, <- app_assoc. split; auto. constructor; auto. exists x. split; auto.
        apply (selected_in _ _ _ _ (fst (fst l), x)) in E2. apply E2 in E5. tauto.
Qed.

End Aux.

Lemma C19_aux_exact_proof : forall R (aux0 : nat -> option nat -> result (list (string * R))) others tables s n P,
  aux0 s n = Ok P -> P <> [] ->
  Forall2 exact_reader tables others ->
  (forall T, In T tables -> NoDup (map fst T)) ->
  (forall i, In i (map fst P) -> forall T, In T tables -> In i (map fst T)) ->
  exists js, read_aux_block aux0 others s n = Ok (s + length P, Some js)
    /\ Forall2 (fun r j => fst j = r /\ own_data (fst r) tables (snd j)) P js.
Proof.
  intros R aux0 others tables s n P HP HP0 HF HnT Hsub. unfold read_aux_block. rewrite HP. cbn [rbind].
  destruct (unique_ids (map fst P)) as [|i0 is] eqn:Eu.
  { apply (proj1 (unique_ids_nil _)) in Eu. apply map_eq_nil in Eu. contradiction. }
  rewrite <- Eu. clear i0 is Eu.
  destruct (join_aux_unique (unique_ids (map fst P)) tables others (map (fun r => (r, [])) P) HF) as [js [F1 F2]].
  - intros j Hj. apply in_map_iff in Hj as [e [<- He]]. cbn. apply unique_ids_In. apply in_map; auto.
  - intros i Hi. apply (proj1 (unique_ids_In i _)) in Hi. auto.
  - auto.
  - exists js. rewrite F1. cbn. split; auto. clear -F2. revert js F2.
    induction P; intros js F2; inversion F2; subst; constructor; auto.
    destruct H1 as [A [ext [B C]]]. cbn in A, B, C. split; auto. unfold own_data. rewrite B. exact C.
Qed.
