(** Reading ephemeris files and reusing a saved ephemeris. *)
From Coq Require Import String Ascii List Arith ZArith Bool Lia.
From Verif Require Import Base.Prelude Base.Frame Model.Csv Model.Readers Spec.Readers Proofs.Csv Proofs.Readers
  Proofs.Combined Model.SavedEphemeris Spec.SavedEphemeris.
Import ListNotations.
Open Scope nat_scope.

(** ** White space *)

Lemma py_space_white : forall c, py_space c = true <-> white c.
Proof.
  intros c. unfold py_space, white. rewrite orb_true_iff, !andb_true_iff, !Nat.leb_le. tauto.
Qed.
Lemma py_space_not_white : forall c, py_space c = false <-> ~ white c.
Proof. intros c. rewrite <- py_space_white. destruct (py_space c); split; congruence. Qed.

Lemma list_of_app : forall a b, list_ascii_of_string (a ++ b) = (list_ascii_of_string a ++ list_ascii_of_string b)%list.
Proof. induction a; cbn; intros; f_equal; auto. Qed.
Lemma string_of_app : forall a b, string_of_list_ascii (a ++ b) = (string_of_list_ascii a ++ string_of_list_ascii b)%string.
Proof. induction a; cbn; intros; f_equal; auto. Qed.

Lemma lstrip_spec : forall l, exists a, l = a ++ lstrip l /\ (forall c, In c a -> white c)
  /\ (forall c r, lstrip l = c :: r -> ~ white c).
Proof.
  induction l as [|c l IH]; cbn.
  - exists []. repeat split; [intros c []|discriminate].
  - destruct (py_space c) eqn:E.
    + destruct IH as [a [E1 [E2 E3]]]. exists (c :: a). repeat split; auto.
      * cbn. f_equal. exact E1.
      * intros d [<-|H]; auto. apply py_space_white; auto.
    + exists []. repeat split; [intros d []|]. intros d r H. injection H as <- <-. apply py_space_not_white; auto.
Qed.

Lemma strip_trimmed : forall s, trimmed s (strip s).
Proof.
  intros s. unfold strip. set (l := list_ascii_of_string s).
  destruct (lstrip_spec l) as [a [E1 [E2 E3]]]. set (m := lstrip l) in *.
  destruct (lstrip_spec (rev m)) as [b [F1 [F2 F3]]]. set (w := lstrip (rev m)) in *.
  assert (Em : m = rev w ++ rev b).
  { rewrite <- rev_app_distr, <- F1, rev_involutive. auto. }
  exists (string_of_list_ascii a), (string_of_list_ascii (rev b)). repeat split.
  - rewrite <- !string_of_app, <- Em, <- E1. unfold l. rewrite string_of_list_ascii_of_string. auto.
  - intros c H. rewrite list_ascii_of_string_of_list_ascii in H. auto.
  - intros c H. rewrite list_ascii_of_string_of_list_ascii in H. apply in_rev in H. auto.
  - intros c r H. rewrite list_ascii_of_string_of_list_ascii in H. eapply E3. rewrite Em, H. reflexivity.
  - intros c r H. rewrite list_ascii_of_string_of_list_ascii in H.
    apply (f_equal (@rev ascii)) in H. rewrite rev_involutive, rev_app_distr in H. cbn in H. eapply F3; eauto.
Qed.

(** Trimming has one result. *)
Lemma trimmed_lists : forall a w b a' w' b' : list ascii, a ++ w ++ b = a' ++ w' ++ b' ->
  (forall c, In c a -> white c) -> (forall c, In c b -> white c) ->
  (forall c, In c a' -> white c) -> (forall c, In c b' -> white c) ->
  (forall c r, w = c :: r -> ~ white c) -> (forall c r, w = r ++ [c] -> ~ white c) ->
  (forall c r, w' = c :: r -> ~ white c) -> (forall c r, w' = r ++ [c] -> ~ white c) -> w = w'.
Proof.
  assert (G : forall (w b w' b' : list ascii), w ++ b = w' ++ b' ->
    (forall c, In c b -> white c) -> (forall c, In c b' -> white c) ->
    (forall c r, w = r ++ [c] -> ~ white c) -> (forall c r, w' = r ++ [c] -> ~ white c) -> w = w').
  { assert (K : forall (w b w' b' : list ascii), w ++ b = w' ++ b' -> length w <= length w' ->
      (forall c, In c b -> white c) -> (forall c r, w' = r ++ [c] -> ~ white c) -> w = w').
    { intros w b w' b' E L Hb Hw'.
      assert (P : exists d, w' = w ++ d /\ b = d ++ b').
      { clear Hb Hw'. revert w' E L. induction w as [|c w IH]; intros w' E L; cbn in *; [exists w'; auto|].
        destruct w' as [|c' w']; cbn in *; [lia|]. injection E as <- E.
        destruct (IH w' E) as [d [-> ->]]; [lia|]. exists d; auto. }
      destruct P as [d [Ew Ed]]. destruct d as [|c d _] using rev_ind; [rewrite app_nil_r in Ew; auto|].
      exfalso. apply (Hw' c (w ++ d)); [rewrite Ew, app_assoc; auto|]. apply Hb. rewrite Ed.
      apply in_or_app; left; apply in_or_app; right; left; auto. }
    intros w b w' b' E H1 H2 H3 H4. destruct (Nat.le_ge_cases (length w) (length w')) as [L|L].
    - eapply K; eauto.
    - symmetry. eapply K; eauto. }
  intros a w b a' w' b' E Ha Hb Ha' Hb' W1 W2 W1' W2'.
  destruct w as [|c w].
  - destruct w' as [|c' w']; auto. exfalso. apply (W1' c' w'); auto.
    assert (In c' (a ++ [] ++ b)) by (rewrite E; apply in_or_app; right; left; auto).
    apply in_app_or in H as [H|H]; auto.
  - destruct w' as [|c' w'].
    + exfalso. apply (W1 c w); auto.
      assert (In c (a' ++ [] ++ b')) by (rewrite <- E; apply in_or_app; right; left; auto).
      apply in_app_or in H as [H|H]; auto.
    + apply (G (c :: w) b (c' :: w') b'); auto.
      revert a' E Ha'. induction a as [|x a IH]; intros a' E Ha'.
      * destruct a' as [|y a']; auto. cbn in E. injection E as E1 _. exfalso.
        apply (W1 c w); auto. rewrite E1. apply Ha'; left; auto.
      * destruct a' as [|y a'].
        -- cbn in E. injection E as E1 _. exfalso. apply (W1' c' w'); auto. rewrite <- E1. apply Ha; left; auto.
        -- injection E as _ E. apply (IH (fun d H => Ha d (or_intror H)) a' E (fun d H => Ha' d (or_intror H))).
Qed.

Lemma trimmed_unique : forall s w w', trimmed s w -> trimmed s w' -> w = w'.
Proof.
  intros s w w' [a [b [E [H1 [H2 [H3 H4]]]]]] [a' [b' [E' [H1' [H2' [H3' H4']]]]]].
  assert (L : list_ascii_of_string w = list_ascii_of_string w').
  { eapply (trimmed_lists (list_ascii_of_string a) _ (list_ascii_of_string b)
      (list_ascii_of_string a') _ (list_ascii_of_string b')); eauto.
    rewrite <- !list_of_app. congruence. }
  rewrite <- (string_of_list_ascii_of_string w), <- (string_of_list_ascii_of_string w'). f_equal. auto.
Qed.

Lemma headings_strip : forall cols names, headings cols names -> map strip cols = names.
Proof.
  intros cols names H; induction H; cbn; f_equal; auto. eapply trimmed_unique; eauto. apply strip_trimmed.
Qed.
Lemma strip_headings : forall cols, headings cols (map strip cols).
Proof. induction cols; cbn; constructor; auto. apply strip_trimmed. Qed.

(** ** The columns *)

Lemma mem_name_In : forall c l, mem_name c l = true <-> In c l.
Proof. intros. apply existsb_eqb_In. Qed.
Lemma mem_name_not : forall c l, mem_name c l = false <-> ~ In c l.
Proof. intros c l. rewrite <- mem_name_In. destruct (mem_name c l); split; congruence. Qed.

Lemma index_of_first : forall x l k, index_of x l = Some k -> nth_error l k = Some x.
Proof.
  intros x l; induction l as [|y l IH]; intros k H; cbn in H; [discriminate|].
  destruct (String.eqb x y) eqn:E.
  - injection H as <-. apply String.eqb_eq in E; subst; auto.
  - destruct (index_of x l) as [n|]; [|discriminate]. injection H as <-. cbn. auto.
Qed.

Lemma cell_under : forall cols cells c, In c cols -> under cols cells c (cell cols cells c).
Proof.
  intros cols cells c H. unfold cell. destruct (index_of_spec _ _ H) as [k [E _]]. rewrite E.
  exists k. split; auto. apply index_of_first; auto.
Qed.

Lemma under_map : forall cols (f : string -> string) c, In c cols -> under cols (map f cols) c (f c).
Proof.
  intros cols f c H. destruct (In_nth_error _ _ H) as [k E]. exists k. split; auto.
  erewrite nth_error_nth; eauto. rewrite nth_error_map, E. reflexivity.
Qed.

Lemma process_ok : forall t names, headings (t_cols t) names ->
  (forall c, In c required -> In c names) ->
  (forall c, In c names -> In c required \/ In c tolerated) ->
  process_ephemeris t = Ok {| t_cols := ephem_cols;
    t_rows := map (fun r => (fst r, map (cell names (snd r)) ephem_cols)) (t_rows t) |}.
Proof.
  intros t names Hn H1 H2. apply headings_strip in Hn. unfold process_ephemeris. rewrite Hn.
  set (kept := filter _ names).
  assert (R : forall c, In c ephem_cols -> In c kept).
  { intros c Hc. apply filter_In. split; [apply H1; exact Hc|].
    apply negb_true_iff, mem_name_not. intros [<-|[<-|[]]]; revert Hc; apply mem_name_not; reflexivity. }
  replace (forallb (fun c => mem_name c kept) ephem_cols) with true.
  2:{ symmetry. apply forallb_forall. intros c Hc. apply mem_name_In; auto. }
  assert (X : existsb (fun c => negb (mem_name c ephem_cols) && negb (mem_name c optional_cols)) kept = false).
  { apply not_true_is_false. intro X. apply existsb_exists in X as [c [Hc X]].
    apply filter_In in Hc as [Hc Hd]. apply andb_true_iff in X as [X1 X2].
    apply negb_true_iff, mem_name_not in X1. apply negb_true_iff, mem_name_not in X2.
    apply negb_true_iff, mem_name_not in Hd.
    destruct (H2 c Hc) as [K|[<-|[<-|[<-|[]]]]].
    - apply X1; exact K.
    - apply X2; left; auto.
    - apply Hd; left; auto.
    - apply Hd; right; left; auto. }
  rewrite X, andb_false_r. reflexivity.
Qed.

Lemma process_unknown : forall t names c, headings (t_cols t) names ->
  In c names -> ~ In c required -> ~ In c tolerated -> process_ephemeris t = Err SysExit.
Proof.
  intros t names c Hn Hc N1 N2. apply headings_strip in Hn. unfold process_ephemeris. rewrite Hn.
  set (kept := filter _ names).
  assert (K : In c kept).
  { apply filter_In. split; auto. apply negb_true_iff, mem_name_not. intro K. apply N2. right. exact K. }
  replace (same_names kept ephem_cols) with false.
  2:{ symmetry. unfold same_names. apply andb_false_iff. left. apply not_true_is_false. intro X.
      rewrite forallb_forall in X. apply X in K. apply mem_name_In in K. auto. }
  replace (existsb (fun d => negb (mem_name d ephem_cols) && negb (mem_name d optional_cols)) kept) with true; auto.
  symmetry. apply existsb_exists. exists c. split; auto. apply andb_true_iff. split; apply negb_true_iff, mem_name_not; auto.
  intros [K2|[]]. apply N2. left. exact K2.
Qed.

Lemma process_missing : forall t names c, headings (t_cols t) names ->
  In c required -> ~ In c names -> exists e, process_ephemeris t = Err e.
Proof.
  intros t names c Hn Hc N. apply headings_strip in Hn. unfold process_ephemeris. rewrite Hn.
  set (kept := filter _ names). destruct (negb _ && _); [eauto|].
  replace (forallb (fun c => mem_name c kept) ephem_cols) with false; [eauto|].
  symmetry. apply not_true_is_false. intro X. rewrite forallb_forall in X. specialize (X c Hc).
  apply mem_name_In in X. apply filter_In in X as [X _]. auto.
Qed.

Lemma C85_columns_proof : forall t names, headings (t_cols t) names -> NoDup names ->
  ((exists got, process_ephemeris t = Ok got) <->
   (forall c, In c required -> In c names) /\ (forall c, In c names -> In c required \/ In c tolerated))
  /\ (forall got, process_ephemeris t = Ok got ->
      t_cols got = required
      /\ Forall2 (fun r r' => fst r' = fst r /\ length (snd r') = length required
                   /\ same_values names (snd r) (t_cols got) (snd r')) (t_rows t) (t_rows got)).
Proof.
  intros t names Hn Nd.
  assert (A : forall got, process_ephemeris t = Ok got ->
    (forall c, In c required -> In c names) /\ (forall c, In c names -> In c required \/ In c tolerated)).
  { intros got E. split.
    - intros c Hc. destruct (in_dec string_dec c names) as [H|H]; auto.
      destruct (process_missing t names c Hn Hc H) as [e X]. congruence.
    - intros c Hc. destruct (in_dec string_dec c required) as [H|H]; auto.
      destruct (in_dec string_dec c tolerated) as [H2|H2]; auto.
      rewrite (process_unknown t names c) in E; auto; discriminate. }
  split; [split|].
  - intros [got E]. apply (A got E).
  - intros [H1 H2]. eexists. apply (process_ok t names); auto.
  - intros got E. destruct (A got E) as [H1 H2]. rewrite (process_ok t names) in E; auto. injection E as <-.
    cbn [t_cols t_rows]. split; [reflexivity|].
    induction (t_rows t) as [|r rs IH]; cbn [map]; constructor; auto.
    cbn [fst snd]. split; [auto|]. split; [reflexivity|].
    intros c Hc. exists (cell names (snd r) c). split; [apply cell_under; auto|].
    apply (under_map ephem_cols (cell names (snd r)) c). exact Hc.
Qed.

Lemma C85_unknown_proof : forall t names c, headings (t_cols t) names ->
  In c names -> ~ In c required -> ~ In c tolerated -> process_ephemeris t = Err SysExit.
Proof. exact process_unknown. Qed.

(** A missing heading is an error without a message. *)
Lemma C85_missing_refuted_proof : forall t names c, headings (t_cols t) names ->
  (forall d, In d names -> In d required \/ In d tolerated) ->
  In c required -> ~ In c names -> process_ephemeris t = Err KeyError.
Proof.
  intros t names c Hn H2 Hc N. pose proof (process_missing t names c Hn Hc N) as [e E]. rewrite E.
  unfold process_ephemeris in E. rewrite (headings_strip _ _ Hn) in E.
  set (kept := filter _ names) in *.
  assert (X : existsb (fun c => negb (mem_name c ephem_cols) && negb (mem_name c optional_cols)) kept = false).
  { apply not_true_is_false. intro X. apply existsb_exists in X as [d [Hd X]].
    apply filter_In in Hd as [Hd Hv]. apply andb_true_iff in X as [X1 X2].
    apply negb_true_iff, mem_name_not in X1. apply negb_true_iff, mem_name_not in X2.
    apply negb_true_iff, mem_name_not in Hv.
    destruct (H2 d Hd) as [K|[<-|[<-|[<-|[]]]]].
    - apply X1; exact K.
    - apply X2; left; auto.
    - apply Hv; left; auto.
    - apply Hv; right; left; auto. }
  rewrite X, andb_false_r in E. destruct (forallb _ ephem_cols); [discriminate|congruence].
Qed.

(** ** The text formats *)

Lemma split_on_cell : forall p w rest, (forall c, In c (list_ascii_of_string w) -> p c = false) ->
  forall d, p d = true -> split_on p (w ++ String d rest) = w :: split_on p rest.
Proof.
  intros p w; induction w as [|c w IH]; intros rest H d Hd; cbn.
  - rewrite Hd. reflexivity.
  - rewrite H by (left; auto). rewrite (IH rest); auto. intros; apply H; right; auto.
Qed.

Lemma split_on_concat : forall p d cells, p d = true -> cells <> [] ->
  (forall w, In w cells -> forall c, In c (list_ascii_of_string w) -> p c = false) ->
  split_on p (String.concat (String d EmptyString) cells) = cells.
Proof.
  intros p d cells Hd; induction cells as [|w cells IH]; intros N H; [congruence|].
  destruct cells as [|w2 cells].
  - cbn. apply split_on_none. apply H; left; auto.
  - change (String.concat (String d EmptyString) (w :: w2 :: cells))
      with (w ++ String d (String.concat (String d EmptyString) (w2 :: cells)))%string.
    rewrite split_on_cell; auto. 2:{ apply H; left; auto. }
    rewrite IH; auto; [discriminate|]. intros; eapply H; eauto. right; auto.
Qed.

Lemma split_line : forall sp cells, cells <> [] -> (forall w, In w cells -> plain sp w) ->
  split sp (csv_line sp cells) = cells.
Proof.
  intros [|] cells N H; unfold csv_line; cbn [separator split].
  - apply split_on_concat; auto. intros w Hw c Hc. apply Ascii.eqb_neq. apply (H w Hw c Hc).
  - unfold split_ws. rewrite split_on_concat; auto.
    + apply filter_all. intros w Hw. apply negb_true_iff, String.eqb_neq. apply (H w Hw).
    + intros w Hw c Hc. apply py_space_not_white. apply (H w Hw); auto.
Qed.

Lemma plain_names : forall sp w, In w column_names -> plain sp w.
Proof.
  intros sp w Hw.
  assert (K : forallb (fun w => negb (String.eqb w "") && forallb (fun c => negb (py_space c) && negb (c =? ",")%char)
    (list_ascii_of_string w)) column_names = true) by reflexivity.
  rewrite forallb_forall in K. specialize (K w Hw). apply andb_true_iff in K as [K1 K2].
  apply negb_true_iff, String.eqb_neq in K1. rewrite forallb_forall in K2.
  destruct sp; cbn.
  - intros c Hc. apply K2, andb_true_iff in Hc as [_ Hc]. apply negb_true_iff, Ascii.eqb_neq in Hc. auto.
  - split; auto. intros c Hc. apply K2, andb_true_iff in Hc as [Hc _]. apply negb_true_iff, py_space_not_white in Hc. auto.
Qed.

Lemma write_texts_some : forall sp chunks old,
  write_texts sp chunks (Some old) = Some (old ++ map (csv_line sp) (concat chunks)).
Proof.
  intros sp chunks; induction chunks as [|c cs IH]; intros old; cbn; [rewrite app_nil_r; auto|].
  rewrite IH, map_app, app_assoc. auto.
Qed.
Lemma write_texts_none : forall sp chunks, chunks <> [] ->
  write_texts sp chunks None = Some (csv_line sp column_names :: map (csv_line sp) (concat chunks)).
Proof.
  intros sp [|c cs] N; [congruence|]. cbn [write_texts write_text]. rewrite write_texts_some.
  cbn. rewrite map_app. auto.
Qed.

Lemma in_concat_text : forall s w cells c, In w cells -> In c (list_ascii_of_string w) ->
  In c (list_ascii_of_string (String.concat s cells)).
Proof.
  intros s w cells c; induction cells as [|v cells IH]; intros Hw Hc; [destruct Hw|].
  destruct cells as [|v2 cells].
  - destruct Hw as [<-|[]]. exact Hc.
  - change (String.concat s (v :: v2 :: cells)) with (v ++ s ++ String.concat s (v2 :: cells))%string.
    rewrite !list_of_app. destruct Hw as [<-|Hw]; apply in_or_app; [left; auto|].
    right; apply in_or_app; right. auto.
Qed.

Lemma row_solid : forall sp cells, row_ok sp cells -> solid (csv_line sp cells).
Proof.
  intros sp cells [L [_ [c [Hc Hw]]]]. unfold solid. apply not_true_is_false. intro B.
  pose proof (blank_chars _ B) as K. unfold blank in B. rewrite forallb_forall in B.
  assert (I : In c (list_ascii_of_string (csv_line sp cells))).
  { unfold csv_line. apply (in_concat_text _ (name_of cells)); auto. unfold name_of.
    apply nth_In. rewrite L. cbn. lia. }
  apply B in I. apply Hw. unfold is_blank_char in I. apply orb_true_iff in I as [I|I];
    apply Ascii.eqb_eq in I; subst; unfold white; cbn; lia.
Qed.

Lemma text_header : forall sp data, header_at sp (-1) (csv_line sp column_names :: data) [] (csv_line sp column_names) data.
Proof.
  intros sp data. constructor; auto.
  - cbn; lia.
  - lia.
  - intros _. split; [destruct sp; reflexivity|intros l []].
  - rewrite split_line; [|discriminate|intros; apply plain_names; auto]. split; [cbn; lia|left; auto].
Qed.

Lemma line_row_written : forall sp cells, row_ok sp cells ->
  line_row sp (csv_line sp column_names) (csv_line sp cells) = (name_of cells, cells).
Proof.
  intros sp cells [L [P _]]. unfold line_row, id_col.
  rewrite split_line; [|discriminate|intros; apply plain_names; auto].
  cbn [index_of column_names String.eqb]. cbn -[split csv_line nth raw_id].
  rewrite split_line; auto. intro; subst; discriminate.
Qed.

Lemma row_ok_cells : forall sp cells c, row_ok sp cells -> In c required ->
  exists v, under generated cells c v /\ under ephem_cols (map (cell generated cells) ephem_cols) c v.
Proof.
  intros sp cells c [L _] Hc.
  assert (G : In c generated).
  { assert (K : forallb (fun c => mem_name c generated) required = true) by reflexivity.
    rewrite forallb_forall in K. apply mem_name_In. auto. }
  exists (cell generated cells c). split; [apply cell_under; auto|].
  apply (under_map ephem_cols (cell generated cells) c). exact Hc.
Qed.

Lemma trimmed_names : headings column_names generated.
Proof.
  change generated with (map strip column_names). apply strip_headings.
Qed.

Lemma text_rows : forall infer sp chunks wanted, chunks <> [] ->
  (forall r, In r (concat chunks) -> row_ok sp r) ->
  stable infer (map name_of (concat chunks)) ->
  read_ephemeris infer sp 0 (csv_line sp column_names :: map (csv_line sp) (concat chunks)) wanted
  = Ok {| t_cols := ephem_cols;
          t_rows := map (fun r => (name_of r, map (cell generated r) ephem_cols))
                      (filter (fun r => existsb (String.eqb (name_of r)) wanted) (concat chunks)) |}.
Proof.
  intros infer sp chunks wanted N Hr Hs. set (R := concat chunks) in *.
  unfold read_ephemeris.
  change 0 with (length (@nil string)).
  rewrite (csv_read_objects_solid infer sp (-1) _ [] (csv_line sp column_names) (map (csv_line sp) R)
    (map name_of R) wanted); auto.
  - cbn [rbind]. rewrite split_line; [|discriminate|intros; apply plain_names; auto].
    rewrite (process_ok _ generated).
    + cbn [t_cols t_rows]. f_equal. f_equal. clear Hs.
      assert (M : map (line_row sp (csv_line sp column_names)) (map (csv_line sp) R) = map (fun r => (name_of r, r)) R).
      { rewrite map_map. apply map_ext_in. intros r Hx. apply line_row_written; auto. }
      rewrite M. clear. induction R as [|r R IH]; auto.
      cbn [filter]. rewrite map_cons. cbn [filter fst].
      destruct (existsb (String.eqb (name_of r)) wanted); [rewrite !map_cons; cbn [fst snd]; f_equal|]; exact IH.
    + exact trimmed_names.
    + assert (K : forallb (fun c => mem_name c generated) required = true) by reflexivity.
      rewrite forallb_forall in K. intros c Hc. apply mem_name_In. auto.
    + assert (K : forallb (fun c => mem_name c required || mem_name c tolerated) generated = true) by reflexivity.
      rewrite forallb_forall in K. intros c Hc. apply K, orb_true_iff in Hc as [H|H]; apply mem_name_In in H; auto.
  - apply text_header.
  - intros l [<-|Hl].
    + apply (names_solid sp). rewrite split_line; [cbn; lia|discriminate|intros; apply plain_names; auto].
    + apply in_map_iff in Hl as [r [<- Hx]]. apply row_solid; auto.
  - intros l Hl. apply in_map_iff in Hl as [r [<- Hx]]. rewrite line_row_written by auto. cbn.
    apply in_map; auto.
Qed.

Lemma C86_text_proof : forall infer sp chunks, chunks <> [] ->
  (forall r, In r (concat chunks) -> row_ok sp r) ->
  stable infer (map name_of (concat chunks)) ->
  exists lines, write_texts sp chunks None = Some lines /\ csv_open sp (-1) lines = Ok 0 /\
    forall wanted, exists got kept, read_ephemeris infer sp 0 lines wanted = Ok got
      /\ t_cols got = required
      /\ selected (fun r => In (name_of r) wanted) (concat chunks) kept
      /\ Forall2 (fun r r' => fst r' = name_of r /\ same_values generated r (t_cols got) (snd r')) kept (t_rows got).
Proof.
  intros infer sp chunks N Hr Hs. eexists. split; [apply write_texts_none; auto|]. split.
  - unfold csv_open, find_header. cbn [Z.leb Z.compare andb orb Z.ltb].
    replace (prefix "ObjID" (csv_line sp column_names)) with true by (destruct sp; reflexivity).
    cbn [andb orb]. destruct sp; reflexivity.
  - intros wanted. rewrite text_rows by auto. eexists. exists (filter (fun r => existsb (String.eqb (name_of r)) wanted) (concat chunks)).
    split; [reflexivity|]. split; [reflexivity|]. split.
    + apply selected_filter. intros r _. apply existsb_eqb_In.
    + cbn [t_cols t_rows].
      assert (K : forall r, In r (filter (fun r => existsb (String.eqb (name_of r)) wanted) (concat chunks)) -> row_ok sp r).
      { intros r Hx. apply filter_In in Hx as [Hx _]. auto. }
      induction (filter _ (concat chunks)) as [|r rs IH]; cbn [map]; constructor; auto.
      * cbn [fst snd]. split; auto. intros c Hc. apply (row_ok_cells sp); auto. apply K; left; auto.
      * apply IH. intros; apply K; right; auto.
Qed.

Lemma NoDup_app_parts : forall A (a b : list A), NoDup (a ++ b) ->
  NoDup a /\ NoDup b /\ forall x, In x a -> ~ In x b.
Proof.
  intros A a b; induction a as [|x a IH]; cbn; intros H.
  - split; [constructor|]. split; [auto|]. intros x [].
  - inversion H; subst. destruct (IH H3) as [H4 [H5 H6]]. split; [|split; auto].
    + constructor; auto. intro Hx. apply H2. apply in_or_app; auto.
    + intros y [<-|Hy]; auto. intro Hy. apply H2. apply in_or_app; auto.
Qed.

(** Rounds of the same size: the rows of the round. *)
Lemma own_chunk : forall (A : Type) (name : A -> string) (chunks : list (list string * list A)) ids rows,
  NoDup (concat (map fst chunks)) ->
  (forall c r, In c chunks -> In r (snd c) -> In (name r) (fst c)) ->
  In (ids, rows) chunks ->
  selected (fun r => In (name r) ids) (concat (map snd chunks)) rows.
Proof.
  intros A name chunks; induction chunks as [|[i l] chunks IH]; intros ids rows Nd Ho Hi; [destruct Hi|].
  cbn [map concat fst snd] in *. apply NoDup_app_parts in Nd as [Nd1 [Nd2 Nd3]].
  assert (D1 : forall l, (forall r, In r l -> ~ In (name r) ids) -> forall rest out,
    selected (fun r => In (name r) ids) rest out -> selected (fun r => In (name r) ids) (l ++ rest) out).
  { clear. induction l as [|r l IH]; intros H rest out S; cbn; auto. constructor; [apply H; left; auto|].
    apply IH; auto. intros; apply H; right; auto. }
  assert (D2 : forall l, (forall r, In r l -> In (name r) ids) -> forall rest out,
    selected (fun r => In (name r) ids) rest out -> selected (fun r => In (name r) ids) (l ++ rest) (l ++ out)).
  { clear. induction l as [|r l IH]; intros H rest out S; cbn; auto. constructor; [apply H; left; auto|].
    apply IH; auto. intros; apply H; right; auto. }
  destruct Hi as [E|Hi].
  - injection E as -> ->. rewrite <- (app_nil_r rows) at 2. apply D2.
    + intros r Hr. apply (Ho (ids, rows)); [left; auto|auto].
    + assert (Z : forall l, (forall r, In r l -> ~ In (name r) ids) -> selected (fun r => In (name r) ids) l []).
      { clear. induction l as [|r l IH]; intros H; constructor; [apply H; left; auto|].
        apply IH. intros; apply H; right; auto. }
      apply Z. intros r Hr Hx. apply in_concat in Hr as [rs [Hrs Hr]]. apply in_map_iff in Hrs as [[i2 l2] [<- Hc]].
      apply (Nd3 (name r) Hx). apply in_concat. exists i2. split; [apply in_map_iff; exists (i2, l2); auto|].
      apply (Ho (i2, l2)); [right; auto|auto].
  - apply D1.
    + intros r Hr Hx. apply (Nd3 (name r)); [apply (Ho (i, l)); [left; auto|auto]|].
      apply in_concat. exists ids. split; auto. apply in_map_iff. exists (ids, rows); auto.
    + apply IH; auto. intros; eapply Ho; eauto. right; auto.
Qed.
