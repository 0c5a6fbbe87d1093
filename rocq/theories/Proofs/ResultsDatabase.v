From Coq Require Import Ascii String List Arith Bool Lia.
From Verif Require Import Base.Prelude Model.Files Model.Csv Model.ResultsDatabase Spec.Files Spec.ResultsDatabase Proofs.Files Proofs.Csv.
Import ListNotations.
Open Scope list_scope.
Open Scope nat_scope.

(** ** Reading a file *)

Lemma split_on_nonempty : forall p s, split_on p s <> [].
Proof. intros p s. destruct s; cbn; [congruence|]. destruct (p a); [congruence|]. destruct (split_on p s); congruence. Qed.
Lemma written_line : forall l, negb (isspace_line l) = true <-> written l.
Proof.
  intro l. unfold written, isspace_line, split_ws. induction l as [|c l IH]; cbn; [split; congruence|].
  destruct (py_space c); cbn; [exact IH|]. split; [|auto]. intros _.
  destruct (split_on py_space l); cbn; congruence.
Qed.
Lemma stored_rename : forall H, Forall2 stored_as H (map rename H).
Proof.
  induction H as [|c H IH]; constructor; auto. unfold rename. destruct (String.eqb_spec c "INDEX"); [subst; constructor|constructor; auto].
Qed.
Lemma stored_functional : forall H H', Forall2 stored_as H H' -> H' = map rename H.
Proof.
  intros H H' F. induction F as [|c d H H' S F IH]; auto. cbn. f_equal; auto. destruct S; unfold rename; cbn; auto.
  destruct (String.eqb_spec c "INDEX"); congruence.
Qed.

Lemma read_csv_content : forall f H data, read_csv f = Ok (H, data) -> content f (map rename H) data.
Proof.
  intros f H data E. unfold read_csv in E.
  assert (S : selected written f (filter (fun l => negb (isspace_line l)) f)).
  { apply selected_filter. intros x _. apply written_line. }
  destruct (filter (fun l => negb (isspace_line l)) f) as [|h rest]; [discriminate|].
  destruct (forallb _ rest) eqn:B; [|discriminate]. injection E as <- <-.
  exists h, rest. split; auto. split; [apply stored_rename|].
  rewrite forallb_forall in B. clear S. induction rest as [|l rest IH]; constructor.
  - exists (length (split_ws h) - length (split_ws l)). split; auto. unfold cells.
    rewrite app_length, repeat_length, !map_length. specialize (B l (or_introl eq_refl)). apply Nat.leb_le in B. lia.
  - apply IH. intros x I. apply B. right; auto.
Qed.
Lemma content_read_csv : forall f H data, content f H data ->
  exists H', read_csv f = Ok (H', data) /\ map rename H' = H.
Proof.
  intros f H data (h & rest & S & F & R). unfold read_csv.
  assert (S' : selected written f (filter (fun l => negb (isspace_line l)) f)).
  { apply selected_filter. intros x _. apply written_line. }
  rewrite (selected_functional _ _ _ _ _ S' S). apply stored_functional in F. subst H. rewrite map_length in R.
  assert (B : forallb (fun r => length (split_ws r) <=? length (split_ws h)) rest = true
    /\ map (cells (length (split_ws h))) rest = data).
  { clear S S'. induction R as [|l r rest data (k & E & L) R [I1 I2]]; auto. cbn.
    assert (K : k = length (split_ws h) - length (split_ws l) /\ length (split_ws l) <= length (split_ws h)).
    { rewrite E, app_length, repeat_length, map_length in L. lia. }
    destruct K as [-> K]. rewrite I1. apply Nat.leb_le in K. rewrite K. split; auto. rewrite I2. f_equal. rewrite E. reflexivity. }
  destruct B as [-> <-]. exists (split_ws h). auto.
Qed.

(** ** Adding files *)

Lemma numbered_length : forall n rows i, length (numbered n i rows) = length rows.
Proof. induction rows as [|r rows IH]; intro i; cbn; auto. Qed.
Lemma numbered_nth : forall n rows i k r, nth_error rows k = Some r ->
  nth_error (numbered n i rows) k = Some (Some (n (i + k)) :: r).
Proof.
  induction rows as [|x rows IH]; intros i [|k] r E; try discriminate; cbn in *.
  - injection E as ->. rewrite Nat.add_0_r. auto.
  - rewrite IH with (r := r) by auto. do 4 f_equal. lia.
Qed.
Lemma name_char_same : forall a b, name_char a = name_char b <-> same_letter a b.
Proof.
  assert (U : forall a, nat_of_ascii a < 256) by apply nat_ascii_bounded.
  assert (I : forall n m, n < 256 -> m < 256 -> ascii_of_nat n = ascii_of_nat m -> n = m).
  { intros n m A B E. rewrite <- (nat_ascii_embedding n), <- (nat_ascii_embedding m) by auto. congruence. }
  intros a b. rewrite <- (ascii_nat_embedding a), <- (ascii_nat_embedding b). generalize (U a) (U b).
  generalize (nat_of_ascii a) as n, (nat_of_ascii b) as m. intros n m Ua Ub. clear a b. unfold name_char, same_letter.
  rewrite !nat_ascii_embedding by auto.
  destruct (Nat.leb_spec 65 n), (Nat.leb_spec n 90), (Nat.leb_spec 65 m), (Nat.leb_spec m 90); cbn [andb]; split; intro E;
    try (apply I in E; [|lia|lia]); try (left; f_equal; lia);
    try (destruct E as [E|(x & X & [[E1 E2]|[E1 E2]])]; [apply I in E; [|lia|lia]|apply I in E1; [|lia|lia]; apply I in E2; [|lia|lia]|apply I in E1; [|lia|lia]; apply I in E2; [|lia|lia]]; try lia; f_equal; lia).
  all: right; first [solve [exists n; split; [lia|left; split; f_equal; lia]]|solve [exists m; split; [lia|right; split; f_equal; lia]]].
Qed.
Lemma same_iff : forall c d, same c d = true <-> same_name c d.
Proof.
  intros c d. unfold same, same_name. rewrite String.eqb_eq. revert d.
  induction c as [|a c IH]; intros [|b d]; cbn; split; intro E; try discriminate; try constructor; try solve [inversion E]; auto.
  - injection E as E1 E2. apply name_char_same. auto.
  - injection E as E1 E2. apply IH. auto.
  - inversion E; subst. f_equal; [apply name_char_same; auto|apply IH; auto].
Qed.
Lemma same_false : forall c d, same c d = false <-> ~ same_name c d.
Proof. intros c d. rewrite <- same_iff. destruct (same c d); split; intros; congruence || (exfalso; auto) || auto. Qed.
Lemma same_refl : forall c, same_name c c.
Proof. intro c. apply same_iff. apply String.eqb_refl. Qed.
Lemma same_sym : forall c d, same_name c d -> same_name d c.
Proof. intros c d. rewrite <- !same_iff. unfold same. rewrite !String.eqb_eq. auto. Qed.
Lemma same_trans : forall c d e, same_name c d -> same_name d e -> same_name c e.
Proof. intros c d e. rewrite <- !same_iff. unfold same. rewrite !String.eqb_eq. congruence. Qed.

Lemma distinct_apart : forall names, distinct names = true <->
  (forall j k c d, nth_error names j = Some c -> nth_error names k = Some d -> same_name c d -> j = k).
Proof.
  induction names as [|x names IH]; cbn [distinct].
  - split; auto. intros _ [|j] k c d E; discriminate.
  - rewrite andb_true_iff, negb_true_iff, IH. clear IH.
    assert (X : existsb (same x) names = false <-> forall d, In d names -> ~ same_name x d).
    { split.
      - intros E d I. apply same_false. destruct (same x d) eqn:S; auto. rewrite <- E. symmetry. apply existsb_exists. eauto.
      - intro A. destruct (existsb (same x) names) eqn:E; auto. apply existsb_exists in E as (d & I & S). apply same_iff in S. exfalso. eapply A; eauto. }
    rewrite X. clear X. split.
    + intros [A B] [|j] [|k] c d E F S; cbn in *; auto.
      * injection E as <-. apply nth_error_In in F. exfalso. eapply A; eauto.
      * injection F as <-. apply nth_error_In in E. exfalso. eapply A; eauto. apply same_sym. auto.
      * f_equal. eauto.
    + intro A. split.
      * intros d I S. apply In_nth_error in I as [k K]. specialize (A 0 (Datatypes.S k) x d eq_refl K S). discriminate.
      * intros j k c d E F S. specialize (A (Datatypes.S j) (Datatypes.S k) c d E F S). congruence.
Qed.
Lemma column_of_nth : forall H j c d, distinct H = true -> nth_error H j = Some d -> same_name c d -> column_of c H = Some j.
Proof.
  induction H as [|x H IH]; intros j c d N E S; [destruct j; discriminate|]. cbn.
  destruct (same c x) eqn:X.
  - apply same_iff in X. f_equal. eapply (proj1 (distinct_apart _) N 0 j x d); eauto. eapply same_trans; [apply same_sym|]; eauto.
  - destruct j as [|j]; cbn in E; [injection E as ->; apply same_iff in S; congruence|].
    cbn in N. apply andb_true_iff in N as [_ N]. rewrite (IH _ _ _ N E S). auto.
Qed.
Lemma column_of_absent : forall c H, (forall d, In d H -> ~ same_name c d) -> column_of c H = None.
Proof.
  intros c H. induction H as [|x H IH]; intro A; auto. cbn. destruct (same c x) eqn:X.
  - apply same_iff in X. exfalso. apply (A x); cbn; auto.
  - rewrite IH; auto. intros d I. apply A. right; auto.
Qed.
Lemma label : forall H, row_numbers H (index_label H).
Proof.
  intros H. unfold index_label. destruct (existsb (String.eqb "index") H) eqn:E.
  - apply existsb_exists in E as (x & I & E). apply String.eqb_eq in E. subst. constructor. auto.
  - constructor. intro I. assert (F : existsb (String.eqb "index") H = true) by (apply existsb_exists; eexists; split; [exact I|reflexivity]). congruence.
Qed.
Lemma label_only : forall H d, row_numbers H d -> d = index_label H.
Proof. intros H d R. pose proof (label H) as L. inversion R; inversion L; auto; contradiction. Qed.
Lemma content_lengths : forall f H data r, content f H data -> In r data -> length r = length H.
Proof.
  intros f H data r (h & rest & _ & _ & R) I. induction R as [|l x rest data (k & _ & L) R IH]; [destruct I|].
  destruct I as [->|I]; auto.
Qed.

Lemma holds_value : forall have H i r, distinct (index_label H :: H) = true -> length r = length H ->
  holds have (map (value (index_label H :: H) (Some i :: r)) have) i H r.
Proof.
  intros have H i r N L. split; [apply map_length|]. intros k c E.
  rewrite nth_error_map, E. cbn [option_map]. unfold value. repeat split.
  - intros j d F S. rewrite (column_of_nth _ (Datatypes.S j) c d N F S). cbn. symmetry. apply nth_error_nth'. rewrite L. apply nth_error_Some. congruence.
  - intros d R S. apply label_only in R. subst d. rewrite (column_of_nth _ 0 c _ N eq_refl S). reflexivity.
  - intro A. rewrite column_of_absent; auto. intros d [<-|I]; apply A; [right; apply label|left; auto].
Qed.
Lemma nth_error_ext' : forall A (l m : list A), (forall k, nth_error l k = nth_error m k) -> l = m.
Proof.
  induction l as [|x l IH]; intros [|y m] E; auto; try (specialize (E 0); discriminate).
  f_equal; [specialize (E 0); cbn in E; congruence|]. apply IH. intro k. exact (E (S k)).
Qed.
Lemma values_same : forall names r, distinct names = true -> length r = length names -> map (value names r) names = r.
Proof.
  intros names r N L. apply nth_error_ext'. intro k. rewrite nth_error_map.
  destruct (nth_error names k) as [c|] eqn:E; cbn [option_map].
  - unfold value. rewrite (column_of_nth _ k c c N E (same_refl c)). symmetry. apply nth_error_nth'. rewrite L. apply nth_error_Some. congruence.
  - symmetry. apply nth_error_None. rewrite L. apply nth_error_None. auto.
Qed.
Lemma holds_first : forall H i r, distinct (index_label H :: H) = true -> length r = length H ->
  holds (index_label H :: H) (Some i :: r) i H r.
Proof.
  intros H i r N L. rewrite <- (values_same (index_label H :: H) (Some i :: r)) by (cbn; auto). apply holds_value; auto.
Qed.

Lemma add_more : forall n fs have before t, add_files n fs (Some (have, before)) = (t, Ok tt) ->
  exists datas groups, t = Some (have, before ++ concat groups)
    /\ Forall2 (fun f d => content f (fst d) (snd d)) fs datas
    /\ Forall2 (fun d g => (forall c, In c (fst d) \/ row_numbers (fst d) c -> exists n, In n have /\ same_name c n) /\ holds_all n have (fst d) (snd d) g) datas groups.
Proof.
  intros n fs. induction fs as [|f fs IH]; intros have before t E; cbn [add_files] in E.
  - injection E as <-. exists [], []. cbn. rewrite app_nil_r. repeat split; constructor.
  - destruct (read_csv f) as [[H data]|] eqn:R; [|discriminate]. cbn [rbind fst snd] in E.
    apply read_csv_content in R.
    unfold to_sql in E. cbn [fst snd] in E. destruct (distinct (index_label (map rename H) :: map rename H)) eqn:N; cbn [negb] in E; [|discriminate].
    match type of E with context [if ?b then _ else _] => destruct b eqn:B end; [|discriminate].
    apply IH in E. destruct E as (datas & groups & -> & F1 & F2).
    exists ((map rename H, data) :: datas), (map (fun r => map (value (index_label (map rename H) :: map rename H) r) have) (numbered n 0 data) :: groups).
    cbn [concat]. rewrite app_assoc. repeat split; constructor; auto. cbn [fst snd].
    rewrite forallb_forall in B. split; [|split].
    + intros c I. assert (J : In c (index_label (map rename H) :: map rename H)) by (destruct I as [I|I]; [right; auto|left; symmetry; apply label_only; auto]).
      specialize (B c J). apply existsb_exists in B as (x & I' & X). apply same_iff in X. eauto.
    + rewrite map_length, numbered_length. auto.
    + intros i r out D O. rewrite nth_error_map, (numbered_nth _ _ _ _ _ D) in O. cbn [option_map] in O. injection O as <-.
      apply holds_value; auto. eapply content_lengths; eauto. eapply nth_error_In; eauto.
Qed.
Lemma add_all : forall n fs t, fs <> [] -> add_files n fs None = (t, Ok tt) ->
  exists names datas groups, t = Some (names, concat groups)
    /\ Forall2 (fun f d => content f (fst d) (snd d)) fs datas
    /\ Forall2 (fun d g => (forall c, In c (fst d) \/ row_numbers (fst d) c -> exists n, In n names /\ same_name c n) /\ holds_all n names (fst d) (snd d) g) datas groups.
Proof.
  intros n [|f fs] t X E; [contradiction|]. cbn [add_files] in E.
  destruct (read_csv f) as [[H data]|] eqn:R; [|discriminate]. cbn [rbind fst snd] in E. unfold to_sql in E. cbn [fst snd] in E.
  apply read_csv_content in R. destruct (distinct (index_label (map rename H) :: map rename H)) eqn:N; cbn [negb] in E; [|discriminate].
  apply add_more in E. destruct E as (datas & groups & -> & F1 & F2).
  exists (index_label (map rename H) :: map rename H), ((map rename H, data) :: datas), (numbered n 0 data :: groups).
  repeat split; constructor; auto. cbn [fst snd]. split; [intros c I; exists c; split; [|apply same_refl]; destruct I as [I|I]; [right; auto|left; symmetry; apply label_only; auto]|]. split; [apply numbered_length|].
  intros i r out D O. rewrite (numbered_nth _ _ _ _ _ D) in O. injection O as <-. apply holds_first; auto.
  eapply content_lengths; eauto. eapply nth_error_In; eauto.
Qed.

(** ** Choosing the files *)

Lemma glob_begins : forall c stem names, plain (c :: stem) -> c <> c_dot ->
  glob ((c :: stem) ++ txt "*") names = filter (starts_with (c :: stem)) names.
Proof.
  intros c stem names Hp D. unfold glob. apply filter_ext. intro s.
  assert (Ht : tokens (length ((c :: stem) ++ txt "*")) ((c :: stem) ++ txt "*") = map TLit (c :: stem) ++ [TAny]).
  { rewrite app_length, tokens_plain; auto.
    replace (length (c :: stem) + length (txt "*") - length (c :: stem)) with 1 by (cbn; lia). reflexivity. }
  rewrite Ht, match_lits. destruct (starts_with (c :: stem) s) eqn:E; auto. cbn [andb].
  apply starts_with_begins in E. destruct E as [b ->]. cbn. destruct (Ascii.eqb_spec c c_dot); [contradiction|]. reflexivity.
Qed.

Lemma chosen_files : forall c stem dir chosen, plain (c :: stem) -> c <> c_dot ->
  selected (fun f : text * lines => exists rest, fst f = (c :: stem) ++ rest) dir chosen ->
  filter (fun f => existsb (text_eqb (fst f)) (glob ((c :: stem) ++ txt "*") (map fst dir))) dir = chosen.
Proof.
  intros c stem dir chosen Hp D S. eapply selected_functional; [|exact S]. apply selected_filter.
  intros f I. rewrite glob_begins by auto. rewrite existsb_exists. split.
  - intros (x & J & E). apply text_eqb_eq in E. subst. apply filter_In in J as [_ J]. apply starts_with_begins in J. exact J.
  - intros [rest E]. exists (fst f). split; [|apply text_eqb_eq; auto]. apply filter_In. split; [apply in_map; auto|].
    apply starts_with_begins. exists rest. exact E.
Qed.
Lemma inputs_gathered : forall n c stem dir old t, plain (c :: stem) -> c <> c_dot ->
  create_inputs_table n dir (c :: stem) old = (t, Ok tt) -> gathered n dir (c :: stem) t.
Proof.
  intros n c stem dir old t Hp D E chosen S. unfold create_inputs_table in E. rewrite (chosen_files _ _ _ _ Hp D S) in E.
  destruct chosen as [|f chosen]; [discriminate|]. split; [congruence|]. cbn [map] in E.
  apply add_all in E; [|congruence].
  destruct E as (names & datas & groups & -> & F1 & F2). exists names, datas, groups. repeat split; auto.
    clear - F1. change (snd f :: map snd chosen) with (map snd (f :: chosen)) in F1. revert F1. generalize (f :: chosen). intros l F1.
    remember (map snd l) as m eqn:M. revert l M. induction F1 as [|a b m datas C F1 IH]; intros [|x l] M; try discriminate; constructor; cbn in M; injection M as -> ->; auto.
Qed.

(** ** The results *)

Lemma insert_all : forall V names (l : list (found V)) rows, insert_rows V names l = Ok rows ->
  exists parts, rows = concat parts
    /\ Forall2 (fun d p => (d = Own -> p = []) /\ (forall t, d = Other t -> exists ns, t = Some (ns, p))) l parts
    /\ Forall (fun r => length r = length names) rows.
Proof.
  intros V names l. induction l as [|d l IH]; intros rows E; cbn in E.
  - injection E as <-. exists []. repeat split; constructor.
  - destruct d as [[[ns rs]|]|]; try discriminate.
    + destruct (forallb _ rs) eqn:B; [|discriminate]. destruct (insert_rows V names l) as [rest|]; [|discriminate].
      cbn in E. injection E as <-. destruct (IH _ eq_refl) as (parts & -> & F & A). exists (rs :: parts). split; auto. split.
      * constructor; auto. split; [discriminate|]. intros t X. injection X as <-. exists ns. auto.
      * apply Forall_app. split; auto. apply Forall_forall. intros r I. rewrite forallb_forall in B. apply Nat.eqb_eq. auto.
    + destruct (IH _ E) as (parts & -> & F & A). exists ([] :: parts). repeat split; auto. constructor; auto. split; auto. discriminate.
Qed.

Ltac letters := unfold plain; repeat split; cbn; intuition discriminate.
Lemma C100_complete_proof : forall (number : nat -> string) (V : Type) (with_complex : bool) (l : list (found V))
    (dir : list (text * list string)) (o o' : outdb V),
  create_results_database number with_complex l dir o = (o', Ok tt) ->
  (exists names parts, results o' = Some (names, concat parts)
     /\ Forall2 (fun d p => (d = Own -> p = []) /\ (forall t, d = Other t -> exists ns, t = Some (ns, p))) l parts
     /\ Forall (fun r => length r = length names) (concat parts))
  /\ gathered number dir (txt "params") (params o')
  /\ gathered number dir (txt "orbits") (orbits o')
  /\ (with_complex = true -> gathered number dir (txt "complex") (complex o'))
  /\ (with_complex = false -> complex o' = complex o).
Proof.
  intros number V wc l dir o o' E.
  unfold create_results_database in E. destruct (create_results_table V (results o) l) as [r e1] eqn:E1.
  destruct e1 as [[]|]; [|discriminate]. cbn [params orbits complex results] in E.
  destruct (create_inputs_table number dir (txt "params") (params o)) as [p e2] eqn:E2. destruct e2 as [[]|]; [|discriminate].
  cbn [params orbits complex results] in E.
  destruct (create_inputs_table number dir (txt "orbits") (orbits o)) as [b e3] eqn:E3. destruct e3 as [[]|]; [|discriminate].
  cbn [params orbits complex results] in E.
  assert (R : exists names parts, r = Some (names, concat parts)
     /\ Forall2 (fun d p => (d = Own -> p = []) /\ (forall t, d = Other t -> exists ns, t = Some (ns, p))) l parts
     /\ Forall (fun r => length r = length names) (concat parts)).
  { unfold create_results_table in E1. destruct l as [|d l]; [discriminate|].
    destruct (get_column_names V (results o) d) as [names|]; [|discriminate].
    destruct (insert_rows V names (d :: l)) as [rows|] eqn:I; [|discriminate]. injection E1 as <-.
    apply insert_all in I as (parts & -> & F & A). exists names, parts. auto. }
  apply inputs_gathered in E2; [|letters|discriminate]. apply inputs_gathered in E3; [|letters|discriminate].
  destruct wc.
  - destruct (create_inputs_table number dir (txt "complex") (complex o)) as [x e4] eqn:E4. injection E as <- ->. cbn.
    apply inputs_gathered in E4; [|letters|discriminate].
    split; [exact R|]. split; [exact E2|]. split; [exact E3|]. split; [auto|discriminate].
  - injection E as <-. cbn. split; [exact R|]. split; [exact E2|]. split; [exact E3|]. split; [discriminate|auto].
Qed.

Lemma selected_exists : forall A (P : A -> Prop) (f : A -> bool) l, (forall x, f x = true <-> P x) -> exists l', selected P l l'.
Proof. intros A P f l E. exists (filter f l). apply selected_filter. auto. Qed.
Lemma add_same : forall n H fs rows, distinct (index_label H :: H) = true -> Forall (fun f => exists data, content f H data) fs ->
  exists t, add_files n fs (Some (index_label H :: H, rows)) = (t, Ok tt).
Proof.
  intros n H fs. induction fs as [|f fs IH]; intros rows N F; cbn [add_files]; [eauto|].
  inversion F as [|? ? (data & C) F']; subst. apply content_read_csv in C as (H' & R & E). rewrite R. cbn [rbind fst snd].
  rewrite E. unfold to_sql. cbn [fst snd]. rewrite N. cbn [negb].
  replace (forallb (fun c => existsb (same c) (index_label H :: H)) (index_label H :: H)) with true; [apply IH; auto|].
  symmetry. apply forallb_forall. intros c I. apply existsb_exists. exists c. split; auto. apply same_iff, same_refl.
Qed.
Lemma storable_distinct : forall H, storable H -> distinct (index_label H :: H) = true.
Proof.
  intros H [A B]. apply distinct_apart. intros [|j] [|k] c d E F S; cbn in *; auto.
  - injection E as <-. apply nth_error_In in F. exfalso. apply (B d (index_label H)); auto; [apply label|apply same_sym; auto].
  - injection F as <-. apply nth_error_In in E. exfalso. apply (B c (index_label H)); auto. apply label.
  - f_equal. eauto.
Qed.
Lemma inputs_end : forall n c stem (dir : list (text * lines)) old H, plain (c :: stem) -> c <> c_dot -> storable H ->
  (exists f rest, In f dir /\ fst f = (c :: stem) ++ rest) ->
  (forall f rest, In f dir -> fst f = (c :: stem) ++ rest -> exists data, content (snd f) H data) ->
  exists t, create_inputs_table n dir (c :: stem) old = (t, Ok tt).
Proof.
  intros n c stem dir old H Hp D ST (f0 & r0 & I0 & E0) A.
  destruct (selected_exists _ (fun f : text * lines => exists rest, fst f = (c :: stem) ++ rest) (fun f => starts_with (c :: stem) (fst f)) dir) as [chosen S].
  { intro f. apply starts_with_begins. }
  unfold create_inputs_table. rewrite (chosen_files _ _ _ _ Hp D S).
  assert (J : In f0 chosen) by (eapply selected_in; eauto).
  assert (B : Forall (fun f => exists data, content f H data) (map snd chosen)).
  { apply Forall_forall. intros x I. apply in_map_iff in I as (g & <- & I). eapply selected_in in I; [|exact S]. destruct I as [I [rest E]]. eauto. }
  destruct chosen as [|f chosen]; [destruct J|]. cbn [map] in *. inversion B as [|? ? (data & C) B']; subst.
  cbn [add_files]. apply content_read_csv in C as (H' & R & E). rewrite R. cbn [rbind fst snd]. unfold to_sql. cbn [fst snd]. rewrite E. rewrite storable_distinct by auto. cbn [negb]. apply add_same; auto. apply storable_distinct; auto.
Qed.
Lemma C100_ends_proof : forall (number : nat -> string) (V : Type) (with_complex : bool) (names : list string) (rows : list (list V))
    (l : list (found V)) (dir : list (text * list string)) (o : outdb V) (headings : text -> list string),
  (forall d, In d (Other (Some (names, rows)) :: l) ->
     d = Own \/ exists ns rs, d = Other (Some (ns, rs)) /\ Forall (fun r => length r = length names) rs) ->
  (forall type, In type [txt "params"; txt "orbits"; txt "complex"] ->
     storable (headings type) /\ (exists f rest, In f dir /\ fst f = type ++ rest)
     /\ (forall f rest, In f dir -> fst f = type ++ rest -> exists data, content (snd f) (headings type) data)) ->
  exists o', create_results_database number with_complex (Other (Some (names, rows)) :: l) dir o = (o', Ok tt).
Proof.
  intros number V wc names rows l dir o H A B.
  assert (I : forall l', (forall d, In d l' -> d = Own \/ exists ns rs, d = Other (Some (ns, rs)) /\ Forall (fun r => length r = length names) rs) ->
    exists all, insert_rows V names l' = Ok all).
  { induction l' as [|d l' IH]; intro A'; cbn; [eauto|].
    destruct IH as [all IH]; [intros; apply A'; right; auto|]. destruct (A' d (or_introl eq_refl)) as [->|(ns & rs & -> & F)]; [eauto|].
    rewrite IH. replace (forallb (fun r => length r =? length names) rs) with true; [cbn; eauto|]. symmetry. apply forallb_forall.
    intros r J. apply Nat.eqb_eq. rewrite Forall_forall in F. auto. }
  destruct (I _ A) as [all E]. unfold create_results_database, create_results_table. cbn [get_column_names]. rewrite E.
  cbn [params orbits complex results].
  destruct (B (txt "params")) as (P0 & P1 & P2); [cbn; auto|]. destruct (B (txt "orbits")) as (O0 & O1 & O2); [cbn; auto|].
  destruct (B (txt "complex")) as (X0 & X1 & X2); [cbn; auto|].
  assert (Ep : exists t, create_inputs_table number dir (txt "params") (params o) = (t, Ok tt)).
  { eapply inputs_end; [letters|discriminate|exact P0|exact P1|exact P2]. }
  destruct Ep as [p Ep].
  assert (Eb : exists t, create_inputs_table number dir (txt "orbits") (orbits o) = (t, Ok tt)).
  { eapply inputs_end; [letters|discriminate|exact O0|exact O1|exact O2]. }
  destruct Eb as [b Eb].
  assert (Ex : exists t, create_inputs_table number dir (txt "complex") (complex o) = (t, Ok tt)).
  { eapply inputs_end; [letters|discriminate|exact X0|exact X1|exact X2]. }
  destruct Ex as [x Ex].
  rewrite Ep. cbn [params orbits complex results]. rewrite Eb. cbn [params orbits complex results].
  destruct wc; [rewrite Ex|]; eauto.
Qed.

Lemma C100_commas_refuted_proof : forall (number : nat -> string), exists o,
  create_results_database number false [Other (Some (["ObjID"%string], [["a"%string]]))]
    [(txt "params.csv", ["ObjID,H_r,GS"; "a,20.5,0.15"]%string);
     (txt "orbits.csv", ["ObjID,q"; "a,2.5"]%string)]
    {| results := None; params := None; orbits := None; complex := None |} = (o, Ok tt)
  /\ params o = Some (["index"; "ObjID,H_r,GS"]%string, [[Some (number 0); Some "a,20.5,0.15"%string]])
  /\ orbits o = Some (["index"; "ObjID,q"]%string, [[Some (number 0); Some "a,2.5"%string]]).
Proof.
  intro number. eexists. split; [cbv; reflexivity|]. split; reflexivity.
Qed.
Lemma C100_output_refuted_proof : forall (number : nat -> string) (V : Type) (with_complex : bool) (l : list (found V))
    (dir : list (text * list string)) (o : outdb V),
  results o = None -> create_results_database number with_complex (Own :: l) dir o = (o, Err OperationalError).
Proof.
  intros number V wc l dir o E. unfold create_results_database. rewrite E. cbn. destruct o; cbn in *. subst. reflexivity.
Qed.
Lemma C100_lost_refuted_proof : forall (number : nat -> string) (V : Type) (with_complex : bool) (names : list string) (rows : list (list V))
    (l : list (found V)) (dir : list (text * list string)) (o : outdb V),
  exists o', create_results_database number with_complex (Other (Some (names, rows)) :: l ++ [Other None]) dir o = (o', Err OperationalError)
  /\ results o' = Some (names, []).
Proof.
  intros number V wc names rows l dir o.
  assert (I : forall l', insert_rows V names (l' ++ [Other None]) = Err OperationalError).
  { induction l' as [|d l' IH]; [reflexivity|]. destruct d as [[[ns rs]|]|]; cbn; auto. destruct (forallb _ rs); auto. rewrite IH. reflexivity. }
  specialize (I (Other (Some (names, rows)) :: l)). cbn [app] in I.
  eexists. unfold create_results_database, create_results_table. cbn [get_column_names]. rewrite I. split; reflexivity.
Qed.

Lemma C100_names_refuted_proof : forall (number : nat -> string) (V : Type) (with_complex : bool) (names : list string) (rows : list (list V)),
  Forall (fun r => length r = length names) rows ->
  exists o, create_results_database number with_complex [Other (Some (names, rows))]
    [(txt "params.txt", ["Index ObjID H_r"; "1 a 20.5"]%string); (txt "orbits.txt", ["ObjID q"; "a 2.5"]%string)]
    {| results := None; params := None; orbits := None; complex := None |} = (o, Err OperationalError)
  /\ params o = None.
Proof.
  intros number V wc names rows F. unfold create_results_database, create_results_table. cbn [get_column_names insert_rows].
  replace (forallb (fun r => length r =? length names) rows) with true.
  2:{ symmetry. apply forallb_forall. intros r I. rewrite Forall_forall in F. apply Nat.eqb_eq. auto. }
  cbn [rmap rbind]. eexists. split; [cbv; reflexivity|reflexivity].
Qed.
