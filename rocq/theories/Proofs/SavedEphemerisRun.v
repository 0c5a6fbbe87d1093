(** Reusing a saved ephemeris in the rounds of a second run. *)
From Coq Require Import String Ascii List Arith ZArith Bool Lia.
From Verif Require Import Base.Prelude Base.Frame Model.Csv Model.Readers Spec.Readers Proofs.Csv Proofs.Readers
  Proofs.Combined Model.EphemerisTable Model.SavedEphemeris Spec.SavedEphemeris Proofs.SavedEphemeris.
Import ListNotations.
Open Scope nat_scope.

(** ** Formats *)

Lemma C86_formats_proof : forall eph_format output_format,
  In eph_format ["csv"; "whitespace"; "hdf5"]%string ->
  exists f ext, writer_format eph_format output_format = Some (f, ext) /\ reader_format eph_format = Ok f.
Proof.
  intros e o [<-|[<-|[<-|[]]]]; cbn; eauto.
Qed.

(** ** The rounds of a text file *)

Lemma C86_round_proof : forall infer sp (rounds : list (list string * list (list string))) ids rows,
  NoDup (concat (map fst rounds)) ->
  (forall c r, In c rounds -> In r (snd c) -> In (name_of r) (fst c) /\ row_ok sp r) ->
  stable infer (concat (map fst rounds)) ->
  In (ids, rows) rounds ->
  exists lines got, write_texts sp (map snd rounds) None = Some lines /\ csv_open sp (-1) lines = Ok 0
    /\ read_ephemeris infer sp 0 lines ids = Ok got /\ t_cols got = required
    /\ Forall2 (fun r r' => fst r' = name_of r /\ same_values generated r (t_cols got) (snd r')) rows (t_rows got).
Proof.
  intros infer sp rounds ids rows Nd Ho Hs Hi.
  assert (HR : forall r, In r (concat (map snd rounds)) -> exists c, In c rounds /\ In r (snd c)).
  { intros r Hr. apply in_concat in Hr as [l [Hl Hr]]. apply in_map_iff in Hl as [c [<- Hc]]. eauto. }
  destruct (C86_text_proof infer sp (map snd rounds)) as [lines [E1 [E2 E3]]].
  - intro X. apply map_eq_nil in X. subst; destruct Hi.
  - intros r Hr. destruct (HR r Hr) as [c [Hc Hr2]]. apply (Ho c r Hc Hr2).
  - intros l Hl. apply Hs. intros x Hx. apply Hl in Hx. apply in_map_iff in Hx as [r [<- Hr]].
    destruct (HR r Hr) as [c [Hc Hr2]]. apply in_concat. exists (fst c). split; [apply in_map; auto|].
    apply (Ho c r Hc Hr2).
  - destruct (E3 ids) as [got [kept [F1 [F2 [F3 F4]]]]]. exists lines, got. repeat split; auto.
    replace rows with kept; auto. eapply selected_functional; [exact F3|].
    apply (own_chunk _ name_of rounds ids rows); auto. intros c r Hc Hr. apply (Ho c r Hc Hr).
Qed.

(** ** HDF5 *)

Lemma write_hdf5s_empty : forall A (l : list (list (string * A))) f, (forall x, In x l -> x = []) ->
  write_hdf5s l f = Ok f.
Proof.
  intros A l; induction l as [|x l IH]; intros f H; cbn; auto.
  rewrite (H x) by (left; auto). cbn. apply IH. intros; apply H; right; auto.
Qed.

Lemma write_hdf5s_app : forall A (a b : list (list (string * A))) f,
  write_hdf5s (a ++ b) f = rbind (write_hdf5s a f) (write_hdf5s b).
Proof.
  intros A a b; induction a as [|x a IH]; intros f; cbn; auto.
  destruct (write_hdf5 x f); cbn; auto.
Qed.

Lemma labels_of_rows : forall A (l : list A), labels (of_rows l) = seq 0 (length l).
Proof.
  intros A l. unfold of_rows, labels.
  assert (H : forall (l : list A) s, map fst (combine (seq s (length l)) l) = seq s (length l)).
  { clear. induction l; cbn; intros; f_equal; auto. }
  apply H.
Qed.
Lemma rows_of_rows : forall A (l : list A), rows (of_rows l) = l.
Proof.
  intros A l. unfold of_rows, rows.
  assert (H : forall (l : list A) s, map snd (combine (seq s (length l)) l) = l).
  { clear. induction l; cbn; intros; f_equal; auto. }
  apply H.
Qed.

Lemma selected_rows : forall A (P : A -> Prop) (f g : frame A),
  selected (fun r => P (snd r)) f g -> selected P (rows f) (rows g).
Proof. intros A P f g H; induction H; cbn; constructor; auto. Qed.

Lemma C86_hdf5_one_proof : forall A (before after : list (list (string * A))) data,
  data <> [] -> (forall x, In x (before ++ after) -> x = []) ->
  exists t, write_hdf5s (before ++ data :: after) None = Ok (Some t)
    /\ forall wanted, selected (fun r => In (fst r) wanted) data (read_ephemeris_hdf5 t wanted).
Proof.
  intros A before after data N H. rewrite write_hdf5s_app, write_hdf5s_empty by (intros; apply H, in_or_app; auto).
  cbn [rbind write_hdf5s]. destruct data as [|r data]; [congruence|]. cbn [write_hdf5 rbind].
  rewrite write_hdf5s_empty by (intros; apply H, in_or_app; auto).
  eexists. split; [reflexivity|]. intros wanted. unfold read_ephemeris_hdf5. cbn [st_rows].
  set (l := r :: data). rewrite <- (rows_of_rows _ l) at 1. apply selected_rows.
  apply C17_hdf_proof. rewrite labels_of_rows. apply seq_NoDup.
Qed.

(** Rows are stored with the labels of their own round. *)
Lemma write_hdf5s_keeps : forall A (l : list (list (string * A))) f t x,
  write_hdf5s l f = Ok (Some t) ->
  (match f with Some u => In x (st_rows u) | None => False end \/ exists d, In d l /\ In x (of_rows d)) ->
  In x (st_rows t).
Proof.
  intros A l; induction l as [|d l IH]; intros f t x H K; cbn in H.
  - injection H as ->. destruct K as [K|[d [[] _]]]; auto.
  - destruct (write_hdf5 d f) as [g|] eqn:W; [|discriminate]. cbn in H. apply (IH g t x H).
    unfold write_hdf5 in W. destruct d as [|r d].
    + injection W as <-. destruct K as [K|[d [[<-|Hd] Hx]]]; [left; auto|destruct Hx|right; eauto].
    + destruct f as [u|].
      * destruct (longest (map fst (r :: d)) <=? st_width u); [|discriminate]. injection W as <-. cbn [st_rows].
        destruct K as [K|[e [[<-|Hd] Hx]]]; [left; apply in_or_app; auto|left; apply in_or_app; auto|right; eauto].
      * injection W as <-. cbn [st_rows].
        destruct K as [[]|[e [[<-|Hd] Hx]]]; [left; auto|right; eauto].
Qed.

Lemma hdf_shares_label : forall A (f : frame (string * A)) k r1 r2 wanted,
  In (k, r1) f -> In (k, r2) f -> In (fst r1) wanted -> In (k, r2) (hdf_read_objects f wanted).
Proof.
  intros A f k r1 r2 wanted H1 H2 Hw. unfold hdf_read_objects. apply filter_In. split; auto. cbn [fst].
  apply mem_nat_In. unfold labels. apply in_map_iff. exists (k, r1). split; auto. unfold mask.
  apply filter_In. split; auto. cbn [snd]. apply existsb_eqb_In; auto.
Qed.

(** Two rounds with observations: a second run stops in the round of either. *)
Lemma C86_hdf5_rounds_refuted_proof : forall A R (rounds : list (list (string * A))) t r1 d1 r2 d2
  (aux0 : nat -> option nat -> result (list (string * R))) others s n P,
  write_hdf5s rounds None = Ok (Some t) ->
  In (r1 :: d1) rounds -> In (r2 :: d2) rounds ->
  aux0 s n = Ok P -> In (fst r1) (map fst P) -> ~ In (fst r2) (map fst P) ->
  read_block aux0 (fun ids => Ok (read_ephemeris_hdf5 t ids)) others s n = Err SysExit.
Proof.
  intros A R rounds t r1 d1 r2 d2 aux0 others s n P Hw H1 H2 HP I1 I2.
  unfold read_block. rewrite HP. cbn [rbind].
  destruct (unique_ids (map fst P)) as [|i0 is] eqn:Eu.
  { apply (proj1 (unique_ids_nil _)) in Eu. rewrite Eu in I1. destruct I1. }
  rewrite <- Eu. clear i0 is Eu. cbn [join_readers rbind].
  replace (subset_ids _ (map fst P)) with false; [reflexivity|].
  symmetry. apply not_true_is_false. intro S. rewrite subset_ids_spec in S. apply I2. apply S.
  apply unique_ids_In. unfold read_ephemeris_hdf5. apply in_map_iff. exists r2. split; auto.
  unfold rows. apply in_map_iff. exists (0, r2). split; auto.
  apply (hdf_shares_label _ _ _ r1).
  - eapply write_hdf5s_keeps; eauto. right. exists (r1 :: d1). split; auto. left; auto.
  - eapply write_hdf5s_keeps; eauto. right. exists (r2 :: d2). split; auto. left; auto.
  - apply unique_ids_In; auto.
Qed.

Lemma C86_hdf5_names_refuted_proof : forall A (a b : A),
  write_hdf5s [[("S1"%string, a)]; [("S10"%string, b)]] None = Err ValueError.
Proof. reflexivity. Qed.

(** ** The observations of a round *)

Lemma own_data_unique : forall R i (tables : list (list (string * R))) o o',
  (forall T, In T tables -> NoDup (map fst T)) -> own_data i tables o -> own_data i tables o' -> o = o'.
Proof.
  intros R i tables o o' Hn H; revert o'. induction H as [|T x tables o [a [-> Ha]] H IH]; intros o' H'; inversion H'; subst; auto.
  destruct H2 as [a' [-> Ha']]. f_equal.
  - f_equal. assert (N : NoDup (map fst T)) by (apply Hn; left; auto). clear -N Ha Ha'.
    induction T as [|[j b] T IH]; [destruct Ha|]. cbn in N. inversion N; subst.
    destruct Ha as [E|Ha], Ha' as [E'|Ha']; auto.
    + congruence.
    + injection E as -> ->. exfalso. apply H1. apply in_map_iff. exists (i, a'); auto.
    + injection E' as -> ->. exfalso. apply H1. apply in_map_iff. exists (i, a); auto.
  - apply IH; auto. intros; apply Hn; right; auto.
Qed.

Lemma C86_observations_proof : forall infer E R (saved : list (string * E)) ephem_objects
  (aux0 : nat -> option nat -> result (list (string * R))) others tables s n P generated_rows,
  exact_reader saved ephem_objects ->
  aux0 s n = Ok P -> P <> [] ->
  Forall2 exact_reader tables others ->
  NoDup (map fst P) -> (forall T, In T tables -> NoDup (map fst T)) ->
  (forall i, In i (map fst P) -> forall T, In T tables -> In i (map fst T)) ->
  stable infer (map fst generated_rows) ->
  selected (fun e => In (fst e) (map fst P)) saved generated_rows ->
  exists orbits second, read_aux_block aux0 others s n = Ok (s + length P, Some orbits)
    /\ read_block aux0 ephem_objects others s n = Ok (s + length P, Some second)
    /\ forall bright, subseq bright orbits ->
       (forall e, In e generated_rows -> exists o, In o bright /\ fst (fst o) = fst e) ->
       Forall2 (fun o1 o2 => fst o1 = fst o2
                  /\ exists orbit rest, snd o1 = Some (orbit, rest) /\ snd o2 = Some orbit :: rest)
         (ephemeris_table infer generated_rows (map (fun o => (fst (fst o), (snd (fst o), snd o))) bright)) second.
Proof.
  intros infer E R saved ephem_objects aux0 others tables s n P G He HP HP0 HF Hn HnT Hsub Hst Hsel.
  destruct (C19_aux_exact_proof R aux0 others tables s n P) as [orbits [A1 A2]]; auto.
  destruct (C19_exact_proof E R saved ephem_objects aux0 others tables s n P) as [second [eph [B1 [B2 B3]]]]; auto.
  assert (eph = G) by (eapply selected_functional; eauto). subst eph.
  exists orbits, second. split; auto. split; auto. intros bright Hb Hin.
  set (right := map (fun o : aux_joined R => (fst (fst o), (snd (fst o), snd o))) bright).
  assert (RB : read_back infer G = G).
  { unfold read_back. rewrite Hst by auto. clear. induction G as [|[i e] G IH]; cbn; congruence. }
  unfold ephemeris_table. rewrite RB.
  assert (Ids : map fst orbits = P).
  { clear -A2. induction A2; cbn; auto. destruct H; congruence. }
  assert (U : Forall2 (fun l p => fst p = l /\ exists a, snd p = Some a /\ In (fst l, a) right) G (left_join fst G right)).
  { apply (left_join_unique (@fst string E)).
    - replace (map fst right) with (map fst (map fst bright)) by (unfold right; rewrite !map_map; reflexivity).
      eapply subseq_NoDup; [|exact Hn]. rewrite <- Ids. apply subseq_map, subseq_map. exact Hb.
    - intros l Hl. destruct (Hin l Hl) as [o [Ho Eo]]. unfold right. rewrite map_map. cbn [fst].
      apply in_map_iff. exists o; auto. }
  assert (OD : forall o, In o orbits -> In (fst o) P /\ own_data (fst (fst o)) tables (snd o)).
  { clear -A2. induction A2 as [|r o rs os [E1 E2] A IH]; intros x Hx; [destruct Hx|].
    destruct Hx as [<-|Hx].
    - rewrite E1. split; [left; auto|auto].
    - destruct (IH x Hx). split; [right|]; auto. }
  match goal with |- Forall2 _ (left_join fst G ?r) _ => change r with right end.
  clear Hsel B1 B2 A1 Hst RB Hin Ids. revert second B3. induction U as [|l p ls ps Hlp U IHU]; intros second B3; inversion B3; subst.
  - constructor.
  - constructor; [|apply IHU; auto]. destruct Hlp as [E1 [[r os] [E2 E3]]]. destruct H1 as [E4 E5].
    split; [congruence|]. exists r, os. split; auto.
    unfold right in E3. apply in_map_iff in E3 as [o [Eo Ho]].
    assert (Ho' : In o orbits).
    { clear -Hb Ho. induction Hb; [destruct Ho| |right; auto]. destruct Ho as [<-|Ho]; [left; auto|right; auto]. }
    destruct (OD o Ho') as [O1 O2]. injection Eo as Eo1 Eo2 Eo3. subst r os.
    apply (own_data_unique R (fst l) (P :: map (fun T => T) tables)).
    + rewrite map_id. intros T [<-|HT]; auto.
    + rewrite map_id. exact E5.
    + rewrite map_id. constructor.
      * exists (snd (fst o)). split; auto. rewrite <- Eo1. destruct o as [[a b] c]. exact O1.
      * rewrite <- Eo1. exact O2.
Qed.
