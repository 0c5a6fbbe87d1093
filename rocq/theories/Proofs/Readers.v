From Coq Require Import String Ascii List Arith ZArith Bool Lia Sorting.Permutation.
From Verif Require Import Base.Prelude Base.Frame Model.Csv Model.Readers Spec.Readers Proofs.Csv.
Import ListNotations.
Open Scope nat_scope.

(** ** Slices *)

Lemma skipn_skipn' : forall A n m (l : list A), skipn n (skipn m l) = skipn (n + m) l.
Proof.
  intros A n m; revert n; induction m as [|m IH]; intros n l; [rewrite Nat.add_0_r; auto|].
  destruct l; [rewrite !skipn_nil; auto|]. rewrite <- plus_n_Sm. cbn [skipn]. apply IH.
Qed.

Lemma slice_step : forall A (l : list A) start n m,
  firstn (n + m) (skipn start l)
  = slice start (Some n) l ++ firstn m (skipn (start + length (slice start (Some n) l)) l).
Proof.
  intros A l start n m. unfold slice.
  rewrite <- (firstn_skipn n (skipn start l)) at 1.
  rewrite firstn_app, firstn_firstn. rewrite firstn_length, skipn_length.
  replace (Nat.min (n + m) n) with n by lia. f_equal.
  rewrite skipn_skipn'.
  destruct (Nat.le_gt_cases n (length l - start)).
  - rewrite Nat.min_l by lia. replace (n + m - n) with m by lia.
    rewrite Nat.add_comm. reflexivity.
  - rewrite Nat.min_r by lia. rewrite !skipn_all2 by lia. rewrite !firstn_nil. auto.
Qed.

(** ** CSV sources *)

Section Solid.
Variables (infer : list string -> list string) (sp : sep) (header : Z) (lines pre : list string)
  (hd : string) (data ids : list string).
Hypothesis Hh : header_at sp header lines pre hd data.
Hypothesis Hs : stable infer ids.
Hypothesis Hd : forall l i, In l data -> id_cell sp hd l i -> In i ids.

Definition all_rows := map (line_row sp hd) data.

Lemma ids_in : forall l, In l data -> In (fst (line_row sp hd l)) ids.
Proof.
  intros l Hl. apply (Hd l); auto. apply line_row_spec. apply (ha_names _ _ _ _ _ _ Hh).
Qed.

Lemma file_rows_all : file_rows sp hd data all_rows.
Proof.
  unfold all_rows, file_rows. pose proof (proj2 (ha_names _ _ _ _ _ _ Hh)) as N.
  clear Hd Hh. induction data; cbn; constructor; auto. apply line_row_spec; auto.
Qed.

Lemma file_rows_unique : forall all, file_rows sp hd data all -> all = all_rows.
Proof.
  unfold all_rows, file_rows. pose proof (proj2 (ha_names _ _ _ _ _ _ Hh)) as N.
  clear Hd Hh. induction 1; cbn; auto. f_equal; auto. apply row_of_line_unique; auto.
Qed.

Notation src := (csv_source infer sp (length pre) lines Ok).

Lemma rbind_ok : forall A (r : result A), rbind r Ok = r.
Proof. intros A [a|e]; auto. Qed.

Lemma src_read_rows : (forall l, In l data -> solid l) -> forall start size,
  rbind (s_rows src start size) (s_process src)
  = Ok {| t_cols := split sp hd; t_rows := slice start size all_rows |}.
Proof.
  intros Hb start size. cbn [csv_source s_rows s_process]. rewrite rbind_ok.
  eapply csv_read_rows_solid; eauto. apply ids_in.
Qed.

Lemma src_read_objects : (forall l, In l lines -> solid l) -> forall wanted,
  rbind (s_objects src wanted) (s_process src)
  = Ok {| t_cols := split sp hd;
          t_rows := filter (fun r => existsb (String.eqb (fst r)) wanted) all_rows |}.
Proof.
  intros Hb wanted. cbn [csv_source s_objects s_process]. rewrite rbind_ok.
  eapply csv_read_objects_solid; eauto. apply ids_in.
Qed.

Lemma data_solid : (forall l, In l lines -> solid l) -> forall l, In l data -> solid l.
Proof.
  intros H l Hl. apply H. rewrite (ha_split _ _ _ _ _ _ Hh). apply in_or_app; right; right; auto.
Qed.

Definition full := {| t_cols := split sp hd; t_rows := all_rows |}.

Lemma fill_full : (forall l, In l data -> solid l) -> forall st, st = None \/ st = Some full ->
  fill_cache src st = (Ok full, Some full).
Proof.
  intros Hb st [-> | ->]; auto. unfold fill_cache.
  pose proof (src_read_rows Hb 0 None) as E. cbn [csv_source s_rows s_process] in *.
  rewrite rbind_ok in E. rewrite E. reflexivity.
Qed.

Lemma read_rows_any : (forall l, In l data -> solid l) ->
  forall cached st start size, st = None \/ st = Some full ->
  fst (read_rows src cached st start size)
    = Ok {| t_cols := split sp hd; t_rows := slice start size all_rows |}
  /\ (snd (read_rows src cached st start size) = None \/ snd (read_rows src cached st start size) = Some full).
Proof.
  intros Hb cached st start size Hst. unfold read_rows. destruct cached.
  - rewrite fill_full by auto. cbn. split; auto.
  - cbn [fst snd]. rewrite src_read_rows by auto. auto.
Qed.

Lemma read_objects_any : (forall l, In l lines -> solid l) ->
  forall cached st wanted, st = None \/ st = Some full ->
  fst (read_objects src cached st wanted)
    = Ok {| t_cols := split sp hd;
            t_rows := filter (fun r => existsb (String.eqb (fst r)) wanted) all_rows |}
  /\ (snd (read_objects src cached st wanted) = None \/ snd (read_objects src cached st wanted) = Some full).
Proof.
  intros Hb cached st wanted Hst. unfold read_objects. destruct cached.
  - rewrite fill_full by (auto using data_solid). cbn. split; auto.
  - cbn [fst snd]. rewrite src_read_objects by auto. auto.
Qed.

Lemma consecutive_blocks : (forall l, In l data -> solid l) -> forall cached sizes start st,
  st = None \/ st = Some full ->
  exists blocks, consecutive src cached st start sizes = Ok blocks
    /\ concat blocks = firstn (list_sum sizes) (skipn start all_rows).
Proof.
  intros Hb cached sizes; induction sizes as [|n r IH]; intros start st Hst; cbn [consecutive].
  - exists []. auto.
  - destruct (read_rows_any Hb cached st start (Some n) Hst) as [E1 E2]. rewrite E1. cbn [rbind t_rows].
    destruct (IH (start + length (slice start (Some n) all_rows)) _ E2) as [b [E3 E4]]. rewrite E3.
    eexists; split; [reflexivity|]. cbn [concat].
    change (list_sum (n :: r)) with (n + list_sum r). rewrite slice_step, E4. reflexivity.
Qed.

Lemma answers_cached : (forall l, In l lines -> solid l) -> forall cs st, st = None \/ st = Some full ->
  answers src true st cs = answers src false None cs.
Proof.
  intros Hb cs; induction cs as [|c cs IH]; intros st Hst; auto. cbn [answers].
  pose proof (data_solid Hb) as Hbd.
  destruct c as [s n|ids']; cbn [answer].
  - destruct (read_rows_any Hbd true st s n Hst) as [E1 E2].
    destruct (read_rows_any Hbd false None s n (or_introl eq_refl)) as [E3 _].
    rewrite E1, E3. f_equal. rewrite IH by auto. reflexivity.
  - destruct (read_objects_any Hb true st ids' Hst) as [E1 E2].
    destruct (read_objects_any Hb false None ids' (or_introl eq_refl)) as [E3 _].
    rewrite E1, E3. f_equal. rewrite IH by auto. reflexivity.
Qed.
End Solid.

Lemma C16_partition_proof :
  forall infer sp header lines pre hd data ids cached sizes,
  header_at sp header lines pre hd data ->
  (forall l, In l data -> solid l) ->
  stable infer ids -> (forall l i, In l data -> id_cell sp hd l i -> In i ids) ->
  exists all blocks, file_rows sp hd data all
    /\ consecutive (csv_source infer sp (length pre) lines Ok) cached None 0 sizes = Ok blocks
    /\ concat blocks = firstn (list_sum sizes) all.
Proof.
  intros infer sp header lines pre hd data ids cached sizes Hh Hb Hs Hd.
  exists (all_rows sp hd data).
  destruct (consecutive_blocks infer sp header lines pre hd data ids Hh Hs Hd Hb cached sizes 0 None) as [b [E1 E2]]; auto.
  exists b. split; [eapply file_rows_all; eauto|]. split; auto.
Qed.

Lemma C16_block_proof :
  forall infer sp header lines pre hd data ids all cached start size,
  header_at sp header lines pre hd data ->
  (forall l, In l data -> solid l) ->
  stable infer ids -> (forall l i, In l data -> id_cell sp hd l i -> In i ids) ->
  file_rows sp hd data all ->
  exists t, fst (read_rows (csv_source infer sp (length pre) lines Ok) cached None start size) = Ok t
    /\ t_cols t = split sp hd
    /\ forall i, nth_error (t_rows t) i =
         match size with
         | Some n => if i <? n then nth_error all (start + i) else None
         | None => nth_error all (start + i) end.
Proof.
  intros infer sp header lines pre hd data ids all cached start size Hh Hb Hs Hd Ha.
  apply (file_rows_unique sp header lines pre hd data Hh) in Ha. subst all.
  destruct (read_rows_any infer sp header lines pre hd data ids Hh Hs Hd Hb cached None start size) as [E1 _]; auto.
  eexists; split; [exact E1|]. cbn [t_cols t_rows]. split; auto. intros i.
  assert (S : forall (l : list (string * list string)) s i, nth_error (skipn s l) i = nth_error l (s + i)).
  { clear. induction l as [|x l IH]; intros [|s] i; cbn; auto. destruct i; auto. }
  assert (F : forall (l : list (string * list string)) n i, nth_error (firstn n l) i = if i <? n then nth_error l i else None).
  { clear. induction l as [|x l IH]; intros [|n] [|i]; cbn [firstn nth_error]; auto.
    - destruct (S i <? S n); auto.
    - rewrite IH. auto. }
  unfold slice. destruct size; rewrite ?F, ?S; auto.
Qed.

Lemma C16_cache_proof :
  forall infer sp header lines pre hd data ids cs,
  header_at sp header lines pre hd data ->
  (forall l, In l lines -> solid l) ->
  stable infer ids -> (forall l i, In l data -> id_cell sp hd l i -> In i ids) ->
  answers (csv_source infer sp (length pre) lines Ok) true None cs
  = answers (csv_source infer sp (length pre) lines Ok) false None cs.
Proof. intros. eapply answers_cached; eauto. Qed.

Lemma C17_csv_proof :
  forall infer sp header lines pre hd data ids all cached wanted,
  header_at sp header lines pre hd data ->
  (forall l, In l lines -> solid l) ->
  stable infer ids -> (forall l i, In l data -> id_cell sp hd l i -> In i ids) ->
  file_rows sp hd data all ->
  exists t, fst (read_objects (csv_source infer sp (length pre) lines Ok) cached None wanted) = Ok t
    /\ t_cols t = split sp hd
    /\ selected (fun r => In (fst r) wanted) all (t_rows t).
Proof.
  intros infer sp header lines pre hd data ids all cached wanted Hh Hb Hs Hd Ha.
  apply (file_rows_unique sp header lines pre hd data Hh) in Ha. subst all.
  destruct (read_objects_any infer sp header lines pre hd data ids Hh Hs Hd Hb cached None wanted) as [E1 _]; auto.
  eexists; split; [exact E1|]. cbn [t_cols t_rows]. split; auto.
  apply selected_filter. intros r _. apply existsb_eqb_In.
Qed.

Lemma C17_never_half_read_proof :
  forall infer sp header lines pre hd data ids wanted t,
  header_at sp header lines pre hd data ->
  (forall l, In l data -> ~ In "ObjID"%string (split sp l)) ->
  stable infer ids -> (forall l i, In l data -> id_cell sp hd l i -> In i ids) ->
  csv_read_objects infer sp (length pre) lines wanted = Ok t ->
  exists all, file_rows sp hd data all /\ selected (fun r => In (fst r) wanted) all (t_rows t).
Proof.
  intros infer sp header lines pre hd data ids wanted t Hh Hn Hs Hd Ho.
  pose proof (ids_in sp header lines pre hd data ids Hh Hd) as Hd'.
  assert (Hp : forall l, In l pre -> solid l).
  { intros l Hl. destruct (blank l) eqn:E; auto.
    rewrite (csv_read_objects_blank_before infer sp header lines pre hd data wanted l) in Ho; auto; [discriminate|].
    unfold solid; congruence. }
  assert (Hb : forall l, In l data -> solid l).
  { intros l Hl. destruct (blank l) eqn:E; auto.
    rewrite (csv_read_objects_blank infer sp header lines pre hd data ids wanted l) in Ho; auto; [discriminate|].
    unfold solid; congruence. }
  rewrite (csv_read_objects_solid infer sp header lines pre hd data ids wanted) in Ho; auto.
  - injection Ho as <-. exists (all_rows sp hd data). split; [eapply file_rows_all; eauto|].
    cbn. apply selected_filter. intros r _. apply existsb_eqb_In.
  - intros l Hl. rewrite (ha_split _ _ _ _ _ _ Hh) in Hl. apply in_app_or in Hl as [Hl|[<-|Hl]]; auto.
    eapply names_solid. apply (ha_names _ _ _ _ _ _ Hh).
Qed.

Lemma C18_header_proof : forall sp header lines h,
  csv_open sp header lines = Ok h ->
  exists pre hd data, header_at sp header lines pre hd data /\ h = length pre.
Proof. exact open_header_at. Qed.

Lemma C18_all_rows_proof :
  forall infer sp header lines pre hd data ids,
  header_at sp header lines pre hd data ->
  stable infer ids -> (forall l i, In l data -> id_cell sp hd l i -> In i ids) ->
  exists solid_lines all, selected solid data solid_lines
    /\ file_rows sp hd solid_lines all
    /\ csv_read_rows infer sp (length pre) lines 0 None = Ok {| t_cols := split sp hd; t_rows := all |}.
Proof.
  intros infer sp header lines pre hd data ids Hh Hs Hd.
  exists (filter nonblank data), (map (line_row sp hd) (filter nonblank data)).
  split; [|split].
  - apply selected_filter. intros l _. unfold nonblank, solid. destruct (blank l); cbn; intuition congruence.
  - pose proof (proj2 (ha_names _ _ _ _ _ _ Hh)) as N. unfold file_rows.
    induction (filter nonblank data); cbn; constructor; auto. apply line_row_spec; auto.
  - rewrite (csv_read_rows_general infer sp header lines pre hd data 0 None ids); auto.
    eapply ids_in; eauto.
Qed.

Lemma C18_blank_by_object_proof :
  forall infer sp header lines pre hd data ids wanted l,
  header_at sp header lines pre hd data ->
  (forall l, In l pre -> solid l) ->
  stable infer ids -> (forall l i, In l data -> id_cell sp hd l i -> In i ids) ->
  In l data -> ~ solid l ->
  csv_read_objects infer sp (length pre) lines wanted = Err SysExit.
Proof. intros. eapply csv_read_objects_blank; eauto. eapply ids_in; eauto. Qed.

(** ** HDF5 *)

Lemma in_labels : forall A (f : frame A) i x, In (i, x) f -> In i (labels f).
Proof. intros. apply in_map_iff. exists (i, x); auto. Qed.

Lemma label_unique : forall A (f : frame A) i x y, NoDup (labels f) -> In (i, x) f -> In (i, y) f -> x = y.
Proof.
  intros A f i x y; induction f as [|[j z] f IH]; intros Hn H1 H2; [destruct H1|].
  cbn in Hn. inversion Hn; subst. destruct H1 as [E1|H1]; destruct H2 as [E2|H2].
  - congruence.
  - injection E1 as -> ->. destruct H3. eapply in_labels; eauto.
  - injection E2 as -> ->. destruct H3. eapply in_labels; eauto.
  - auto.
Qed.

Lemma C17_hdf_proof : forall A (f : frame (string * A)) wanted,
  NoDup (labels f) ->
  selected (fun r => In (fst (snd r)) wanted) f (hdf_read_objects f wanted).
Proof.
  intros A f wanted Hn. unfold hdf_read_objects. apply selected_filter. intros [i [o a]] Hi. cbn.
  rewrite mem_nat_In. split.
  - intro H. unfold labels in H. apply in_map_iff in H as [[j [o' a']] [E H]]. cbn in E; subst j.
    unfold mask in H. apply filter_In in H as [H1 H2]. cbn in H2.
    assert (E : (o, a) = (o', a')) by (eapply label_unique; eauto). injection E as -> ->.
    apply existsb_eqb_In; auto.
  - intro H. eapply in_labels with (x := (o, a)). unfold mask. apply filter_In. split; auto.
    cbn. apply existsb_eqb_In; auto.
Qed.

Lemma nth_slice : forall A (l : list A) start size i,
  nth_error (slice start size l) i =
  match size with
  | Some n => if i <? n then nth_error l (start + i) else None
  | None => nth_error l (start + i) end.
Proof.
  intros A l start size i.
  assert (S : forall (l : list A) s i, nth_error (skipn s l) i = nth_error l (s + i)).
  { clear. induction l as [|x l IH]; intros [|s] i; cbn; auto. destruct i; auto. }
  assert (F : forall (l : list A) n i, nth_error (firstn n l) i = if i <? n then nth_error l i else None).
  { clear. induction l as [|x l IH]; intros [|n] [|i]; cbn [firstn nth_error]; auto.
    - destruct (S i <? S n); auto.
    - rewrite IH. auto. }
  unfold slice. destruct size; rewrite ?F, ?S; auto.
Qed.

Lemma C16_hdf_proof : forall A (f : frame (string * A)) start size i,
  nth_error (hdf_read_rows f start size) i =
  match size with
  | Some n => if i <? n then nth_error f (start + i) else None
  | None => nth_error f (start + i) end.
Proof.
  intros A f start size i. rewrite <- (nth_slice _ f). unfold hdf_read_rows, slice. destruct size; auto.
Qed.
