(** Proofs about the start of a run. *)
From Coq Require Import Ascii String List ZArith Bool Lia.
From Verif Require Import Base.Prelude Base.Num Model.Files Model.Config Model.Startup Spec.Files Spec.Startup Proofs.Files.
Import ListNotations.
Open Scope list_scope.

(** ** Steps *)
Lemma next_ok : forall F A B (m : step F A) (k : A -> step F B) fs fs' b,
  next F m k fs = (fs', Ok b) -> exists fs1 a, m fs = (fs1, Ok a) /\ k a fs1 = (fs', Ok b).
Proof. intros F A B m k fs fs' b H. unfold next in H. destruct (m fs) as [fs1 [a|e]]; [eauto|discriminate]. Qed.
Lemma next_err : forall F A B (m : step F A) (k : A -> step F B) fs fs' e,
  next F m k fs = (fs', Err e) ->
  m fs = (fs', Err e) \/ exists fs1 a, m fs = (fs1, Ok a) /\ k a fs1 = (fs', Err e).
Proof. intros F A B m k fs fs' b H. unfold next in H. destruct (m fs) as [fs1 [a|e]]; [eauto|left; congruence]. Qed.
Lemma next_run : forall F A B (m : step F A) (k : A -> step F B) fs fs1 a,
  m fs = (fs1, Ok a) -> next F m k fs = k a fs1.
Proof. intros. unfold next. rewrite H. reflexivity. Qed.
Lemma check_ok : forall F b e (fs fs' : list (text * node F)) u, check F b e fs = (fs', Ok u) -> fs' = fs /\ b fs = true.
Proof. intros F b e fs fs' u H. unfold check in H. destruct (b fs); inversion H; auto. Qed.
Lemma check_err : forall F b e (fs fs' : list (text * node F)) e', check F b e fs = (fs', Err e') -> fs' = fs /\ e' = e /\ b fs = false.
Proof. intros F b e fs fs' u H. unfold check in H. destruct (b fs); inversion H; auto. Qed.
Lemma check_run : forall F b e (fs : list (text * node F)), b fs = true -> check F b e fs = (fs, Ok tt).
Proof. intros. unfold check. rewrite H. reflexivity. Qed.

(** ** Looking at files *)
Lemma found_exists : forall F (fs : list (text * node F)) p, path_exists F p fs = true <-> found fs p.
Proof.
  intros F fs p. unfold path_exists, stat, found. destruct (find _ fs) as [[q n]|] eqn:E.
  - apply find_some in E as [I E]. cbn in E. apply text_eqb_eq in E. subst q. split; eauto.
  - split; [discriminate|]. intros [n H]. apply (find_none _ _ E) in H. cbn in H.
    assert (T : text_eqb p p = true) by (apply text_eqb_eq; reflexivity). congruence.
Qed.
Lemma stat_in : forall F (fs : list (text * node F)) p n, NoDup (map fst fs) ->
  (stat F p fs = Some n <-> In (p, n) fs).
Proof.
  intros F fs p n. unfold stat. induction fs as [|[q m] fs IH]; intro N; cbn [find fst map] in *.
  - split; [discriminate|intros []].
  - inversion N as [|? ? N1 N2]; subst. destruct (text_eqb q p) eqn:E.
    + apply text_eqb_eq in E. subst q. cbn [snd]. split.
      * intro H. inversion H. left. reflexivity.
      * intros [H|H]; [congruence|]. exfalso. apply N1. apply (in_map fst) in H. exact H.
    + rewrite IH by auto. split; [right; auto|]. intros [H|H]; auto. inversion H; subst.
      assert (T : text_eqb p p = true) by (apply text_eqb_eq; reflexivity). congruence.
Qed.
Lemma is_file_at : forall F (fs : list (text * node F)) p, NoDup (map fst fs) -> (is_file F p fs = true <-> file_at fs p).
Proof.
  intros F fs p N. unfold is_file, file_at. split.
  - destruct (stat F p fs) as [[x|]|] eqn:E; try discriminate. intros _. exists x. apply stat_in; auto.
  - intros [x H]. apply stat_in in H; auto. rewrite H. reflexivity.
Qed.
Lemma is_dir_at : forall F (fs : list (text * node F)) p, NoDup (map fst fs) -> (is_dir F p fs = true <-> dir_at fs p).
Proof.
  intros F fs p N. unfold is_dir, dir_at. split.
  - destruct (stat F p fs) as [[x|]|] eqn:E; try discriminate. intros _. apply stat_in; auto.
  - intros H. apply stat_in in H; auto. rewrite H. reflexivity.
Qed.

Lemma after_spec : forall p s n, after p s = Some n <-> s = p ++ n.
Proof.
  induction p as [|c p IH]; intros s n; cbn [after app].
  - split; congruence.
  - destruct s as [|d s]; [split; discriminate|]. destruct (Ascii.eqb c d) eqn:E.
    + apply Ascii.eqb_eq in E. subst d. rewrite IH. split; congruence.
    + split; [discriminate|]. intro H. inversion H; subst. rewrite Ascii.eqb_refl in E. discriminate.
Qed.
Lemma join_entry : forall a x, join (a_o a) x = entry a x.
Proof. reflexivity. Qed.
Lemma join_inj : forall d x y, join d x = join d y -> x = y.
Proof. intros d x y H. unfold join in H. apply app_inv_head in H. cbn in H. inversion H. reflexivity. Qed.
Lemma names_in_spec : forall F d (fs : list (text * node F)) x,
  In x (names_in F d fs) <-> x <> [] /\ ~ In "/"%char x /\ found fs (join d x).
Proof.
  intros F d fs x. unfold names_in, found. rewrite in_flat_map. split.
  - intros [[p n] [I H]]. cbn [fst] in H. destruct (after (join d []) p) as [[|c y]|] eqn:E; try contradiction.
    apply after_spec in E. destruct (existsb (Ascii.eqb slash) (c :: y)) eqn:X; [contradiction|].
    destruct H as [H|[]]. subst x. split; [discriminate|]. split.
    + intro J. assert (T : existsb (Ascii.eqb slash) (c :: y) = true).
      { apply existsb_exists. exists "/"%char. split; auto. }
      congruence.
    + exists n. replace (join d (c :: y)) with p; auto. rewrite E. unfold join. rewrite <- !app_assoc. reflexivity.
  - intros (N & S & n & I). exists (join d x, n). split; auto. cbn [fst].
    replace (after (join d []) (join d x)) with (Some x).
    2:{ symmetry. apply after_spec. unfold join. rewrite <- !app_assoc. reflexivity. }
    destruct x as [|c y]; [congruence|].
    replace (existsb (Ascii.eqb slash) (c :: y)) with false; [left; reflexivity|].
    symmetry. apply not_true_is_false. intro T. apply existsb_exists in T as (z & Z & E).
    apply Ascii.eqb_eq in E. subst z. auto.
Qed.

(** ** Steps that change few paths *)
Definition only {F A} (P : text -> Prop) (m : step F A) : Prop := forall fs, NoDup (map fst fs) ->
  NoDup (map fst (fst (m fs))) /\ same_but P fs (fst (m fs)) /\ (forall p, dir_at fs p <-> dir_at (fst (m fs)) p).

Lemma only_next : forall F A B P (m : step F A) (k : A -> step F B), only P m -> (forall a, only P (k a)) -> only P (next F m k).
Proof.
  intros F A B P m k Hm Hk fs N. destruct (Hm fs N) as (N1 & S1 & D1). unfold next.
  destruct (m fs) as [fs1 [a|e]]; cbn [fst] in *; [|auto].
  destruct (Hk a fs1 N1) as (N2 & S2 & D2). split; [auto|split].
  - intros p n H. rewrite (S2 p n H). apply S1; auto.
  - intro p. rewrite D1. apply D2.
Qed.
Lemma only_same : forall F A P (m : step F A), (forall fs, fst (m fs) = fs) -> only P m.
Proof. intros F A P m H fs N. rewrite H. split; [auto|split; [intros p n _; tauto|tauto]]. Qed.
Lemma only_if : forall F P v (k : text -> step F unit), (forall t, v = Some t -> only P (k t)) -> only P (if_given F v k).
Proof. intros F P [t|] k H; cbn; [auto|]. apply only_same. reflexivity. Qed.

Lemma map_replace_fst : forall F p (c : node F) fs,
  map fst (map (fun x => if text_eqb (fst x) p then (p, c) else x) fs) = map fst fs.
Proof.
  intros. rewrite map_map. apply map_ext. intros [q n]. cbn. destruct (text_eqb q p) eqn:E; auto.
  apply text_eqb_eq in E. auto.
Qed.
Lemma write_in : forall F p (c : F) fs q n, NoDup (map fst fs) ->
  (In (q, n) (write_file F p c fs) <-> (q = p /\ n = File c) \/ (q <> p /\ In (q, n) fs)).
Proof.
  intros F p c fs q n N. unfold write_file. destruct (path_exists F p fs) eqn:E.
  - apply found_exists in E as [m I]. rewrite in_map_iff. split.
    + intros ([r k] & H & J). cbn in H. destruct (text_eqb r p) eqn:X.
      * inversion H. left. auto.
      * inversion H; subst. right. split; auto. intro; subst.
        assert (T : text_eqb p p = true) by (apply text_eqb_eq; reflexivity). congruence.
    + intros [[-> ->]|[Q J]].
      * exists (p, m). cbn. assert (T : text_eqb p p = true) by (apply text_eqb_eq; reflexivity). rewrite T. auto.
      * exists (q, n). cbn. destruct (text_eqb q p) eqn:X; [apply text_eqb_eq in X; congruence|auto].
  - assert (Z : ~ found fs p) by (rewrite <- found_exists; congruence).
    rewrite in_app_iff. cbn [In]. split.
    + intros [J|[J|[]]]; [right|left; inversion J; auto]. split; auto. intro; subst. apply Z. exists n. auto.
    + intros [[-> ->]|[Q J]]; auto.
Qed.
Lemma write_nodup : forall F p (c : F) fs, NoDup (map fst fs) -> NoDup (map fst (write_file F p c fs)).
Proof.
  intros F p c fs N. unfold write_file. destruct (path_exists F p fs) eqn:E.
  - rewrite map_replace_fst. auto.
  - rewrite map_app. cbn.
    assert (Z : ~ In p (map fst fs)).
    { intro H. apply in_map_iff in H as ([q n] & Q & I). cbn in Q. subst q.
      assert (T : path_exists F p fs = true) by (apply found_exists; exists n; auto). congruence. }
    clear E. induction fs as [|[q n] fs IH]; cbn in *.
    + repeat constructor. intros [].
    + inversion N; subst. constructor; [|apply IH; auto]. rewrite in_app_iff. cbn. intuition.
Qed.
Lemma only_open : forall F (log : F) (P : text -> Prop) p, P p -> only P (open_log F log p).
Proof.
  intros F log P p Hp fs N. unfold open_log. destruct (is_dir F p fs) eqn:D; cbn [fst].
  - split; [auto|split; [intros q n _; tauto|tauto]].
  - split; [apply write_nodup; auto|split].
    + intros q n H. rewrite write_in by auto. split; [intros [[-> _]|[_ J]]; [tauto|auto]|].
      intro J. right. split; auto. intro; subst. auto.
    + intros q. unfold dir_at in *. rewrite write_in by auto. split.
      * intro J. right. split; auto. intro; subst q. apply is_dir_at in J; auto. congruence.
      * intros [[_ J]|[_ J]]; [discriminate|auto].
Qed.
Lemma remove_in : forall F p (fs : list (text * node F)) q n,
  In (q, n) (filter (fun x => negb (text_eqb (fst x) p)) fs) <-> q <> p /\ In (q, n) fs.
Proof.
  intros. rewrite filter_In. cbn. destruct (text_eqb q p) eqn:E; cbn.
  - apply text_eqb_eq in E. intuition congruence.
  - split; [|intuition]. intros [H _]. split; auto. intro; subst.
    assert (T : text_eqb p p = true) by (apply text_eqb_eq; reflexivity). congruence.
Qed.
Lemma filter_nodup : forall F f (fs : list (text * node F)), NoDup (map fst fs) -> NoDup (map fst (filter f fs)).
Proof.
  intros F f fs. induction fs as [|[q n] fs IH]; intro N; cbn in *; auto. inversion N; subst.
  destruct (f (q, n)); cbn; auto. constructor; auto. intro H. apply in_map_iff in H as ([r m] & R & I).
  cbn in R. subst r. apply filter_In in I as [I _]. apply (in_map fst) in I. auto.
Qed.
Lemma only_remove : forall F (P : text -> Prop) p, P p -> only P (remove F p).
Proof.
  intros F P p Hp fs N. unfold remove. destruct (stat F p fs) as [[x|]|] eqn:E; cbn [fst];
    try (split; [auto|split; [intros q n _; tauto|tauto]]).
  split; [apply filter_nodup; auto|split].
  - intros q n H. rewrite remove_in. split; [tauto|]. intro J. split; auto. intro; subst. auto.
  - intros q. unfold dir_at in *. rewrite remove_in. split; [|tauto]. intro J. split; auto. intro; subst q.
    apply stat_in in J; auto. congruence.
Qed.

Lemma only_warn : forall F (P : text -> Prop) d pat force,
  (force = true -> forall x, ~ In "/"%char x -> (forall l : list text, In x l -> In x (glob pat l)) -> P (join d x)) ->
  only P (warn_or_remove F d pat force).
Proof.
  intros F P d pat force H fs N. unfold warn_or_remove. destruct (glob pat (names_in F d fs)) as [|n l] eqn:E.
  - cbn. split; [auto|split; [intros q m _; tauto|tauto]].
  - destruct force; [|cbn; split; [auto|split; [intros q m _; tauto|tauto]]].
    apply only_remove; auto. assert (I : In n (glob pat (names_in F d fs))) by (rewrite E; left; auto).
    unfold glob in I. apply filter_In in I as [I M]. apply names_in_spec in I as (_ & S & _).
    apply H; auto. intros l' J. unfold glob. apply filter_In. auto.
Qed.

Lemma stem_matches : forall stem x, plain stem ->
  ((forall l : list text, In x l -> In x (glob (stem ++ txt ".*") l)) <-> begins (stem ++ txt ".") x).
Proof.
  intros stem x Hp. split.
  - intro H. assert (I := H [x] (or_introl eq_refl)). rewrite glob_stem in I by auto.
    apply filter_In in I as [_ I]. apply starts_with_begins in I. auto.
  - intros H l I. rewrite glob_stem by auto. apply filter_In. split; auto. apply starts_with_begins. auto.
Qed.
Lemma plain_app : forall a b, plain a -> plain b -> plain (a ++ b).
Proof. unfold plain. intros a b (A1 & A2 & A3) (B1 & B2 & B3). rewrite !in_app_iff. tauto. Qed.
Lemma plain_csv : plain (txt ".csv").
Proof. vm_compute. intuition discriminate. Qed.
Lemma exact_matches : forall p x, plain p ->
  ((forall l : list text, In x l -> In x (glob p l)) <-> x = p).
Proof.
  intros p x Hp. split.
  - intro H. assert (I := H [x] (or_introl eq_refl)). apply glob_exact in I as [_ I]; auto.
  - intros -> l I. apply glob_exact; auto.
Qed.

(** ** The whole command *)
Section Run.
Variables (F : Type) (parse : F -> result config_file) (log : F).
Variables (int_of : string -> option Z) (float_of : string -> option num) (lc_methods ca_methods : list string).
Variables (stamp : text) (environment : option string) (fresh : Z).
Local Notation exec := (execute F parse log int_of float_of lc_methods ca_methods stamp environment fresh).

Lemma only_check : forall P b e, only P (check F b e).
Proof. intros. apply only_same. reflexivity. Qed.
Hint Resolve only_check only_next only_same only_if : core.

Lemma only_parser : forall (P : text -> Prop) a,
  (forall p, P p) \/ (a_f a = true -> plain_names a /\ forall p, is_output a p -> P p) ->
  only P (sorchaCommandLineParser F a).
Proof.
  intros P a H. unfold sorchaCommandLineParser.
  assert (W : forall pat, (a_f a = true -> plain_names a -> forall x,
      (forall l : list text, In x l -> In x (glob pat l)) -> output_name a x) ->
      only P (warn_or_remove F (a_o a) pat (a_f a))).
  { intros pat K. apply only_warn. intros f x S M. destruct H as [H|H]; [apply H|].
    destruct (H f) as [Hp Ho]. apply Ho. exists x. rewrite join_entry.
    repeat split; auto. }
  repeat (apply only_next; [|intros []]); try (apply only_if; intros t E); try apply only_check.
  - apply W. intros _ (_ & Hp & _) x M. unfold given in E. destruct (a_ew a) as [[|c e]|] eqn:X; inversion E; subst.
    left. exists (c :: e). repeat split; auto; [discriminate|]. apply stem_matches; auto.
  - apply W. intros _ (_ & _ & Hp) x M. right; left. exists t. split; auto.
    apply (exact_matches (t ++ txt ".csv")) in M; auto. apply plain_app; auto using plain_csv.
  - apply W. intros _ (Hp & _ & _) x M. right; right. apply stem_matches; auto.
  - apply only_same. reflexivity.
Qed.
Lemma only_logger : forall (P : text -> Prop) a, (forall p, is_log stamp a p -> P p) ->
  only P (sorchaGetLogger F log stamp (a_o a) (a_t a)).
Proof.
  intros P a H. unfold sorchaGetLogger. apply only_next; [apply only_check|intros _].
  assert (E : forall s, join (a_o a) (a_t a ++ txt "-" ++ stamp ++ txt "-sorcha." ++ txt s) =
                        entry a (a_t a ++ txt "-" ++ stamp ++ txt "-sorcha." ++ txt s)) by reflexivity.
  apply only_next; [|intros _]; apply only_open; apply H; unfold is_log, log_path; rewrite E; cbn [map log_names In]; auto.
Qed.
Lemma only_validate : forall P a, only P (validate_arguments F a).
Proof.
  intros. unfold validate_arguments. repeat (apply only_next; [|intros []]); try apply only_if; intros; apply only_check.
Qed.
Lemma only_rest : forall P args, only P (next F (sorchaConfigs F parse int_of float_of lc_methods ca_methods (configfile args) (surveyname args))
    (fun c => next F (run_checks F int_of environment fresh c args) (fun s => dispatch F c args s))).
Proof.
  intros P args. apply only_next; [apply only_same; reflexivity|intro c]. apply only_next.
  - unfold run_checks. repeat (apply only_next; [try apply only_check|intros ?]); try (apply only_same; reflexivity); [].
    destruct environment as [v|]; [destruct (int_of v)|]; apply only_same; reflexivity.
  - intro s. unfold dispatch.
    destruct (member _ _); [|destruct (member _ _); [apply only_same; reflexivity|destruct (member _ _); [|apply only_same; reflexivity]]];
      (apply only_next; [apply only_validate|intros; apply only_same; reflexivity]).
Qed.
Lemma only_execute : forall (P : text -> Prop) a, (forall p, is_log stamp a p -> P p) ->
  (forall p, P p) \/ (a_f a = true -> plain_names a /\ forall p, is_output a p -> P p) -> only P (exec a).
Proof.
  intros P a HL HO. unfold execute. apply only_next; [apply only_check|intros _].
  apply only_next; [apply only_logger; auto|intros _]. apply only_next; [apply only_parser; auto|intro args].
  apply only_rest.
Qed.

Lemma given_some : forall v t, given v = Some t <-> v = Some t /\ t <> [].
Proof.
  intros [[|c v]|] t; cbn; split; try discriminate; try (intros [E N]; congruence).
  intro E. inversion E. split; [auto|discriminate].
Qed.
Lemma given_none : forall v, given v = None <-> forall t, v = Some t -> t = [].
Proof.
  intros [[|c v]|]; cbn; split; try discriminate; auto; try congruence.
  intro H. specialize (H _ eq_refl). discriminate.
Qed.

Lemma validate_ok : forall a fs fs' u, NoDup (map fst fs) -> validate_arguments F a fs = (fs', Ok u) ->
  fs' = fs /\ file_at fs (paramsinput a) /\ file_at fs (orbinfile a) /\ file_at fs (configfile a)
  /\ file_at fs (pointing_database a)
  /\ (forall t, input_ephemeris_file a = Some t -> t <> [] -> file_at fs t)
  /\ (forall t, ar_data_path a = Some t -> t <> [] -> dir_at fs t).
Proof.
  intros a fs fs' u N H. unfold validate_arguments in H.
  apply next_ok in H as (f1 & [] & H1 & H). apply check_ok in H1 as [-> H1].
  apply next_ok in H as (f1 & [] & H2 & H). apply check_ok in H2 as [-> H2].
  apply next_ok in H as (f1 & [] & H3 & H).
  assert (E3 : f1 = fs /\ forall t, input_ephemeris_file a = Some t -> t <> [] -> is_file F t fs = true).
  { destruct (given (input_ephemeris_file a)) as [t|] eqn:G; cbn in H3.
    - apply check_ok in H3 as [-> H3]. split; auto. apply given_some in G as [G _]. intros t' E _. congruence.
    - inversion H3. split; auto. intros t E NE. destruct NE. apply (proj1 (given_none _) G t E). }
  destruct E3 as [-> E3].
  apply next_ok in H as (f1 & [] & H4 & H). apply check_ok in H4 as [-> H4].
  apply next_ok in H as (f1 & [] & H5 & H). apply check_ok in H5 as [-> H5].
  assert (E6 : fs' = fs /\ forall t, ar_data_path a = Some t -> t <> [] -> is_dir F t fs = true).
  { destruct (given (ar_data_path a)) as [t|] eqn:G; cbn in H.
    - apply check_ok in H as [-> H]. split; auto. apply given_some in G as [G _]. intros t' E _. congruence.
    - inversion H. split; auto. intros t E NE. destruct NE. apply (proj1 (given_none _) G t E). }
  destruct E6 as [-> E6].
  repeat split; try (apply is_file_at; auto; fail).
  - intros t E NE. apply is_file_at; auto.
  - intros t E NE. apply is_dir_at; auto.
Qed.

Lemma warn_ok : forall d pat force (fs fs' : list (text * node F)) u, warn_or_remove F d pat force fs = (fs', Ok u) ->
  force = false -> fs' = fs /\ forall x, In x (names_in F d fs) -> ~ In x (glob pat (names_in F d fs)).
Proof.
  intros d pat force fs fs' u H ->. unfold warn_or_remove in H. destruct (glob pat (names_in F d fs)); inversion H.
  split; auto.
Qed.

(** What the parser returns. *)
Definition parsed (a : command) : cmd_args :=
  {| paramsinput := a_p a; orbinfile := a_ob a; configfile := a_c a; outpath := a_o a;
     pointing_database := a_pd a; complex_physical_parameters := given (a_cp a);
     input_ephemeris_file := a_er a; output_ephemeris_file := a_ew a; visits_database := a_vd a;
     surveyname := a_s a; outfilestem := a_t a; stats := a_st a; ar_data_path := a_ar a |}.
Lemma parser_ok : forall a fs fs' r, sorchaCommandLineParser F a fs = (fs', Ok r) ->
  r = parsed a
  /\ (forall t, a_cp a = Some t -> t <> [] -> found fs t) /\ (forall t, a_vd a = Some t -> found fs t)
  /\ (a_f a = false -> fs' = fs
      /\ (forall t x, a_ew a = Some t -> t <> [] -> In x (names_in F (a_o a) fs) -> ~ In x (glob (t ++ txt ".*") (names_in F (a_o a) fs)))
      /\ (forall t x, a_st a = Some t -> In x (names_in F (a_o a) fs) -> ~ In x (glob (t ++ txt ".csv") (names_in F (a_o a) fs)))
      /\ (forall x, In x (names_in F (a_o a) fs) -> ~ In x (glob (a_t a ++ txt ".*") (names_in F (a_o a) fs)))).
Proof.
  intros a fs fs' r H. unfold sorchaCommandLineParser in H.
  do 5 (let K := fresh "K" in apply next_ok in H as (f1 & [] & K & H); apply check_ok in K as [-> K]).
  apply next_ok in H as (f1 & [] & C1 & H).
  assert (E1 : f1 = fs /\ forall t, a_cp a = Some t -> t <> [] -> found fs t).
  { destruct (given (a_cp a)) as [t|] eqn:G; cbn in C1.
    - apply check_ok in C1 as [-> C1]. split; auto. apply given_some in G as [G _]. intros t' E _.
      apply found_exists. congruence.
    - inversion C1. split; auto. intros t E NE. destruct NE. apply (proj1 (given_none _) G t E). }
  destruct E1 as [-> E1]. apply next_ok in H as (f1 & [] & C2 & H).
  assert (E2 : f1 = fs /\ forall t, a_vd a = Some t -> found fs t).
  { destruct (a_vd a) as [t|] eqn:G; cbn in C2.
    - apply check_ok in C2 as [-> C2]. split; auto. intros t' E. apply found_exists. congruence.
    - inversion C2. split; auto. discriminate. }
  destruct E2 as [-> E2]. apply next_ok in H as (f1 & [] & C3 & H). apply next_ok in H as (f2 & [] & C4 & H).
  apply next_ok in H as (f3 & [] & C5 & H). apply next_ok in H as (f4 & [] & C6 & H). inversion H; subst f4 r.
  split; [reflexivity|]. split; [auto|split; [auto|]]. intro NF.
  assert (E3 : f1 = fs /\ forall t x, a_ew a = Some t -> t <> [] -> In x (names_in F (a_o a) fs) -> ~ In x (glob (t ++ txt ".*") (names_in F (a_o a) fs))).
  { destruct (given (a_ew a)) as [t|] eqn:G; cbn in C3.
    - apply warn_ok in C3 as [-> C3]; auto. split; auto. apply given_some in G as [G _]. intros t' x E _. rewrite G in E.
      inversion E; subst. auto.
    - inversion C3. split; auto. intros t x E NE. destruct NE. apply (proj1 (given_none _) G t E). }
  destruct E3 as [-> E3].
  assert (E4 : f2 = fs /\ forall t x, a_st a = Some t -> In x (names_in F (a_o a) fs) -> ~ In x (glob (t ++ txt ".csv") (names_in F (a_o a) fs))).
  { destruct (a_st a) as [t|] eqn:G; cbn in C4.
    - apply warn_ok in C4 as [-> C4]; auto. split; auto. intros t' x E. inversion E; subst. auto.
    - inversion C4. split; auto. discriminate. }
  destruct E4 as [-> E4].
  assert (E5 : f3 = fs).
  { destruct (given (a_ar a)) as [t|]; cbn in C5; [apply check_ok in C5 as [-> _]|inversion C5]; auto. }
  subst f3. apply warn_ok in C6 as [-> C6]; auto.
Qed.

Lemma checks_ok : forall c a fs fs' z, run_checks F int_of environment fresh c (parsed a) fs = (fs', Ok z) ->
  fs' = fs /\ compatible c a /\ seeded int_of environment fresh z.
Proof.
  intros c a fs fs' z H. unfold run_checks in H. cbn [parsed input_ephemeris_file complex_physical_parameters visits_database] in H.
  apply next_ok in H as (f1 & [] & K1 & H). apply check_ok in K1 as [-> K1].
  apply next_ok in H as (f1 & [] & K2 & H). apply check_ok in K2 as [-> K2].
  apply next_ok in H as (f1 & [] & K3 & H). apply check_ok in K3 as [-> K3].
  apply next_ok in H as (f1 & z' & K4 & H).
  assert (E4 : f1 = fs /\ seeded int_of environment fresh z').
  { unfold seeded. destruct environment as [v|].
    - destruct (int_of v) eqn:I; inversion K4; subst; auto.
    - inversion K4; auto. }
  destruct E4 as [-> E4].
  apply next_ok in H as (f1 & [] & K5 & H). apply check_ok in K5 as [-> K5].
  apply next_ok in H as (f1 & [] & K6 & H). apply check_ok in K6 as [-> K6]. inversion H; subst. split; [auto|split; [|auto]].
  unfold compatible. split; [|split; [|split]].
  - intro E. rewrite E in K1. cbn in K1. destruct (a_er a); [discriminate|discriminate K1].
  - intros m M E. assert (T : truthy (Some m) = true) by (destruct m; [congruence|reflexivity]).
    destruct (given (a_cp a)) as [t|] eqn:G; [apply given_some in G; eauto|]. exfalso.
    destruct E as [E|E]; [rewrite E, T in K2; discriminate|rewrite E, T in K3; discriminate].
  - destruct (a_vd a), (fov_visits_query (c_fov c)); split; congruence || discriminate.
  - intro E. destruct (a_vd a); [|congruence]. rewrite orb_false_r in K5. apply String.eqb_eq in K5. auto.
Qed.

Lemma member_in : forall x l, member x l = true <-> In x l.
Proof.
  intros x l. unfold member. rewrite existsb_exists. split.
  - intros (y & I & E). apply String.eqb_eq in E. subst. auto.
  - intro I. exists x. split; auto. apply String.eqb_refl.
Qed.

Lemma started : forall a fs fs' sim args c, NoDup (map fst fs) -> exec a fs = (fs', Ok (sim, args, c)) ->
  inputs_present fs' a /\ simulates (a_s a) sim
  /\ configured parse int_of float_of lc_methods ca_methods fs' a c /\ compatible c a
  /\ passed_on a (sa_args args) /\ seeded int_of environment fresh (sa_seed args)
  /\ exists fs1, same_but (is_log stamp a) fs fs1 /\ optional_present fs1 a /\ NoDup (map fst fs1)
     /\ sorchaCommandLineParser F a fs1 = (fs', Ok (parsed a)) /\ dir_at fs1 (a_o a).
Proof.
  intros a fs fs' sim args c N H. assert (N' : NoDup (map fst fs')).
  { assert (O := only_execute (fun _ => True) a (fun _ _ => I) (or_introl (fun _ => I)) fs N).
    rewrite H in O. apply O. }
  unfold execute in H. apply next_ok in H as (f1 & [] & K1 & H). apply check_ok in K1 as [-> K1].
  apply next_ok in H as (fs1 & [] & K2 & H).
  assert (L := only_logger (is_log stamp a) a (fun _ h => h) fs N). rewrite K2 in L. cbn [fst] in L. destruct L as (N1 & S1 & D1).
  unfold sorchaGetLogger in K2. apply next_ok in K2 as (f1 & [] & K0 & K2). apply check_ok in K0 as [-> K0].
  apply is_dir_at in K0; auto. apply D1 in K0.
  apply next_ok in H as (fs2 & r & K3 & H). assert (P := parser_ok _ _ _ _ K3). destruct P as (-> & P1 & P2 & P3).
  assert (D2 := only_parser (fun _ => True) a (or_introl (fun _ => I)) fs1 N1). rewrite K3 in D2. destruct D2 as (N2 & _ & D2).
  cbn [fst] in *.
  apply next_ok in H as (f3 & c' & K4 & H). unfold sorchaConfigs in K4. inversion K4; subst f3. clear K4. rename H2 into K4.
  apply next_ok in H as (f3 & z & K5 & H). apply checks_ok in K5 as (-> & K5 & K6).
  assert (Q : exists sim', simulates (a_s a) sim' /\ next F (validate_arguments F (parsed a))
      (fun _ => done F (sim', {| sa_args := parsed a; sa_seed := z |}, c')) fs2 = (fs', Ok (sim, args, c))).
  { unfold dispatch in H. cbn [parsed surveyname] in H. destruct (member (a_s a) _) eqn:M1.
    - exists runLSSTSimulation. split; auto. left. apply member_in in M1. auto.
    - destruct (member (a_s a) ["LSST"; "lsst"]%string); [discriminate|].
      destruct (member (a_s a) ["DES"; "des"]%string) eqn:M2; [|discriminate].
      exists runDESSimulation. split; auto. right. apply member_in in M2. auto. }
  destruct Q as (sim' & Q & R). apply next_ok in R as (f4 & [] & V & R). inversion R; subst f4 sim' args c'.
  apply validate_ok in V as (V0 & V1 & V2 & V3 & V4 & V5 & V6); auto. subst fs'. cbn [parsed paramsinput orbinfile configfile pointing_database input_ephemeris_file ar_data_path] in *.
  split; [repeat split; auto; apply D2; auto|]. split; [auto|]. split.
  { destruct (stat F (a_c a) fs2) as [[x|]|] eqn:T; try discriminate. apply stat_in in T; auto.
    destruct (parse x) as [f|] eqn:Y; [|discriminate]. exists x, f, (fun q => path_exists F (txt q) fs2).
    split; [auto|split; [auto|split; [intro; apply found_exists|]]]. exact K4. }
  split; [auto|]. split.
  { unfold passed_on. cbn [sa_args parsed paramsinput orbinfile configfile outpath pointing_database complex_physical_parameters
      input_ephemeris_file output_ephemeris_file visits_database surveyname outfilestem stats ar_data_path].
    repeat (split; [reflexivity|]). intro t. apply given_some. }
  split; [auto|]. exists fs1. split; [auto|]. split; [split; auto|]. auto.
Qed.

(** ** A command that starts *)
Lemma log_dec : forall a p, is_log stamp a p \/ ~ is_log stamp a p.
Proof.
  intros a p. unfold is_log. destruct (in_dec (list_eq_dec ascii_dec) p (map (entry a) (log_names stamp a))); auto.
Qed.
Lemma logger_run : forall a fs, NoDup (map fst fs) -> dir_at fs (a_o a) -> (forall p, is_log stamp a p -> ~ dir_at fs p) ->
  exists fs1, sorchaGetLogger F log stamp (a_o a) (a_t a) fs = (fs1, Ok tt) /\ NoDup (map fst fs1)
    /\ same_but (is_log stamp a) fs fs1 /\ (forall p, is_log stamp a p -> file_at fs1 p)
    /\ (forall p, dir_at fs p <-> dir_at fs1 p).
Proof.
  intros a fs N D L. assert (O := only_logger (is_log stamp a) a (fun _ h => h) fs N).
  set (p1 := entry a (a_t a ++ txt "-" ++ stamp ++ txt "-sorcha.log")).
  set (p2 := entry a (a_t a ++ txt "-" ++ stamp ++ txt "-sorcha.err")).
  assert (E1 : log_path stamp (a_o a) (a_t a) "log" = p1) by reflexivity.
  assert (E2 : log_path stamp (a_o a) (a_t a) "err" = p2) by reflexivity.
  assert (L1 : is_log stamp a p1) by (left; reflexivity).
  assert (L2 : is_log stamp a p2) by (right; left; reflexivity).
  assert (R : sorchaGetLogger F log stamp (a_o a) (a_t a) fs = (write_file F p2 log (write_file F p1 log fs), Ok tt)).
  { unfold sorchaGetLogger. rewrite E1, E2. erewrite next_run; [|apply check_run; apply is_dir_at; auto].
    erewrite next_run.
    2:{ unfold open_log. destruct (is_dir F p1 fs) eqn:X; [|reflexivity]. apply is_dir_at in X; auto. destruct (L _ L1 X). }
    unfold open_log. destruct (is_dir F p2 _) eqn:X; [|reflexivity]. apply is_dir_at in X; [|apply write_nodup; auto].
    apply write_in in X as [[_ X]|[_ X]]; auto; [discriminate|]. destruct (L _ L2 X). }
  rewrite R in *. cbn [fst] in O. destruct O as (O1 & O2 & O3). eexists. split; [reflexivity|]. split; [auto|split; [auto|split; [|auto]]].
  assert (N1 : NoDup (map fst (write_file F p1 log fs))) by (apply write_nodup; auto).
  intros p [H|[H|[]]]; subst p; exists log; apply write_in; auto.
  destruct (list_eq_dec ascii_dec p1 p2) as [Q|Q]; [left; auto|right; split; auto]. apply write_in; auto.
Qed.
Lemma warn_run : forall d pat force (fs : list (text * node F)),
  (forall x, In x (names_in F d fs) -> ~ In x (glob pat (names_in F d fs))) ->
  warn_or_remove F d pat force fs = (fs, Ok tt).
Proof.
  intros d pat force fs H. unfold warn_or_remove. destruct (glob pat (names_in F d fs)) as [|n l] eqn:E; auto.
  exfalso. apply (H n).
  - assert (I : In n (glob pat (names_in F d fs))) by (rewrite E; left; auto). unfold glob in I. apply filter_In in I as [I _]. auto.
  - left. auto.
Qed.
Lemma if_run : forall v k (fs : list (text * node F)), (forall t, v = Some t -> k t fs = (fs, Ok tt)) -> if_given F v k fs = (fs, Ok tt).
Proof. intros [t|] k fs H; cbn; auto. Qed.

Lemma parser_run : forall a fs, plain_names a ->
  found fs (a_p a) -> found fs (a_ob a) -> found fs (a_c a) -> found fs (a_pd a) -> dir_at fs (a_o a) -> NoDup (map fst fs) ->
  optional_present fs a -> (forall t, a_ar a = Some t -> t <> [] -> dir_at fs t) ->
  (forall p, is_output a p -> ~ found fs p) ->
  sorchaCommandLineParser F a fs = (fs, Ok (parsed a)).
Proof.
  intros a fs (P1 & P2 & P3) H1 H2 H3 H4 H5 N (H6 & H7) H8 H9. unfold sorchaCommandLineParser.
  assert (X : forall x, In x (names_in F (a_o a) fs) -> ~ output_name a x).
  { intros x I O. apply names_in_spec in I as (_ & S & Y). apply (H9 (entry a x)); [|exact Y]. exists x. auto. }
  do 3 (erewrite next_run; [|apply check_run; apply found_exists; auto]).
  erewrite next_run; [|apply check_run; apply found_exists; exists Dir; auto].
  erewrite next_run; [|apply check_run; apply found_exists; auto].
  erewrite next_run; [|apply if_run; intros t E; apply given_some in E as [E NE]; apply check_run; apply found_exists; eauto].
  erewrite next_run; [|apply if_run; intros t E; apply check_run; apply found_exists; eauto].
  erewrite next_run.
  2:{ apply if_run. intros t E. apply given_some in E as [E NE]. apply warn_run. intros x I G. apply (X x I).
      rewrite glob_stem in G by auto. apply filter_In in G as [_ G]. apply starts_with_begins in G. left. exists t. auto. }
  erewrite next_run.
  2:{ apply if_run. intros t E. apply warn_run. intros x I G. apply (X x I).
      apply glob_exact in G as [_ G]; [|apply plain_app; auto using plain_csv]. right; left. exists t. auto. }
  erewrite next_run; [|apply if_run; intros t E; apply given_some in E as [E NE]; apply check_run; apply is_dir_at; auto].
  erewrite next_run.
  2:{ apply warn_run. intros x I G. apply (X x I). rewrite glob_stem in G by auto.
      apply filter_In in G as [_ G]. apply starts_with_begins in G. right; right. auto. }
  reflexivity.
Qed.
Lemma checks_run : forall c a fs z, compatible c a -> seeded int_of environment fresh z ->
  run_checks F int_of environment fresh c (parsed a) fs = (fs, Ok z).
Proof.
  intros c a fs z (C1 & C2 & C3 & C4) Z. unfold run_checks. cbn [parsed input_ephemeris_file complex_physical_parameters visits_database].
  erewrite next_run.
  2:{ apply check_run. destruct (String.eqb_spec (in_ephemerides_type (c_input c)) "external") as [E|E]; auto.
      apply C1 in E. destruct (a_er a); [reflexivity|congruence]. }
  assert (G : forall m, c_lightcurve c = m \/ c_activity c = m ->
    negb (truthy m && match given (a_cp a) with Some _ => false | None => true end) = true).
  { intros [m|] E; auto. destruct m as [|ch m]; auto. destruct (C2 (String ch m)) as (t & T & NE); [discriminate|exact E|].
    rewrite T. destruct t; [congruence|reflexivity]. }
  erewrite next_run; [|apply check_run; apply G; auto].
  erewrite next_run; [|apply check_run; apply G; auto].
  erewrite next_run.
  2:{ unfold seeded in Z. destruct environment as [v|]; [rewrite Z|subst z]; reflexivity. }
  erewrite next_run.
  2:{ apply check_run. destruct (a_vd a) as [v|]; [|apply orb_true_r]. rewrite C4 by discriminate. reflexivity. }
  erewrite next_run.
  2:{ apply check_run. destruct (a_vd a) as [v|], (fov_visits_query (c_fov c)) as [q|]; auto.
      - destruct C3 as [C3 _]. destruct C3; congruence.
      - destruct C3 as [_ C3]. destruct C3; congruence. }
  reflexivity.
Qed.
Lemma validate_run : forall a fs, NoDup (map fst fs) -> inputs_present fs a -> validate_arguments F (parsed a) fs = (fs, Ok tt).
Proof.
  intros a fs N (H1 & H2 & H3 & H4 & H5 & H6 & H7). unfold validate_arguments.
  cbn [parsed paramsinput orbinfile configfile pointing_database input_ephemeris_file ar_data_path].
  do 2 (erewrite next_run; [|apply check_run; apply is_file_at; auto]).
  erewrite next_run; [|apply if_run; intros t E; apply given_some in E as [E NE]; apply check_run; apply is_file_at; auto].
  do 2 (erewrite next_run; [|apply check_run; apply is_file_at; auto]).
  apply if_run; intros t E; apply given_some in E as [E NE]; apply check_run; apply is_dir_at; auto.
Qed.
Lemma read_configs_ext : forall pe pe' f survey, (forall q, pe q = pe' q) ->
  read_configs int_of float_of pe lc_methods ca_methods f survey = read_configs int_of float_of pe' lc_methods ca_methods f survey.
Proof.
  intros pe pe' f survey H. unfold read_configs.
  assert (E : fovConfigs float_of pe (section_or_empty f "FOV") survey = fovConfigs float_of pe' (section_or_empty f "FOV") survey).
  { unfold fovConfigs, camera_footprint. destruct (key (section_or_empty f "FOV") "footprint_path") as [q|]; [rewrite (H q)|]; reflexivity. }
  rewrite E. reflexivity.
Qed.

Lemma starts : forall a fs x f there c sim z, NoDup (map fst fs) -> plain_names a ->
  inputs_present fs a -> optional_present fs a ->
  (forall p, is_log stamp a p -> ~ dir_at fs p /\ ~ is_output a p) -> ~ is_log stamp a (a_c a) ->
  (forall p, is_output a p -> ~ found fs p) ->
  In (a_c a, File x) fs -> parse x = Ok f ->
  (forall q, there q = true <-> found fs (txt q) \/ is_log stamp a (txt q)) ->
  read_configs int_of float_of there lc_methods ca_methods f (a_s a) = Ok c ->
  compatible c a -> simulates (a_s a) sim -> seeded int_of environment fresh z ->
  exists fs', exec a fs = (fs', Ok (sim, {| sa_args := parsed a; sa_seed := z |}, c))
    /\ same_but (is_log stamp a) fs fs' /\ (forall p, is_log stamp a p -> file_at fs' p).
Proof.
  intros a fs x f there c sim z N Hp (I1 & I2 & I3 & I4 & I5 & I6 & I7) (O1 & O2) HL HC HO X Pf Ht Hr Hc Hs Hz.
  destruct (logger_run a fs N I5 (fun p h => proj1 (HL p h))) as (fs1 & R & N1 & S1 & L1 & D1').
  assert (D1 : forall p, dir_at fs p -> dir_at fs1 p) by (intro; apply D1').
  assert (F1 : forall p, file_at fs p -> file_at fs1 p).
  { intros p [y Y]. destruct (log_dec a p) as [L|L]; [apply L1; auto|]. exists y. apply S1; auto. }
  assert (G1 : forall p, found fs p -> found fs1 p).
  { intros p [y Y]. destruct (log_dec a p) as [L|L]; [destruct (L1 p L) as [w W]; eexists; eauto|]. exists y. apply S1; auto. }
  assert (FG : forall p, file_at fs1 p -> found fs1 p) by (intros p [y Y]; eexists; eauto).
  exists fs1. split; [|split; auto]. unfold execute.
  erewrite next_run; [|apply check_run; apply found_exists; eexists; exact I5].
  erewrite next_run; [|exact R].
  erewrite next_run.
  2:{ apply parser_run; auto.
      - split; intros; apply G1; eauto.
      - intros p P [n Y]. destruct (log_dec a p) as [L|L]; [apply (HL p L); auto|]. apply S1 in Y; auto.
        apply (HO p P). exists n. auto. }
  cbn [parsed configfile surveyname].
  erewrite next_run.
  2:{ unfold sorchaConfigs. rewrite (proj2 (stat_in F fs1 (a_c a) (File x) N1)) by (apply S1; auto). rewrite Pf. cbn [rbind].
      rewrite (read_configs_ext _ there), Hr; [reflexivity|]. intro q.
      destruct (there q) eqn:T; [apply found_exists; apply Ht in T as [T|T]; auto|].
      apply not_true_is_false. intro Y. apply found_exists in Y as [n Y].
      assert (T' : there q = true); [|congruence]. apply Ht. destruct (log_dec a (txt q)); auto.
      left. exists n. apply S1; auto. }
  erewrite next_run; [|apply checks_run; eauto].
  assert (V := validate_run a fs1 N1). assert (IP : inputs_present fs1 a) by (repeat split; auto). specialize (V IP).
  unfold dispatch. cbn [parsed surveyname].
  destruct Hs as [[-> M]|[-> M]].
  - apply member_in in M. rewrite M. erewrite next_run; [|exact V]. reflexivity.
  - assert (M' : member (a_s a) ["rubin_sim"; "RUBIN_SIM"]%string = false /\ member (a_s a) ["LSST"; "lsst"]%string = false).
    { destruct M as [<-|[<-|[]]]; split; reflexivity. }
    destruct M' as [-> ->]. apply member_in in M. rewrite M. erewrite next_run; [|exact V]. reflexivity.
Qed.

(** ** Errors *)
Lemma logger_err : forall a fs fs' e, NoDup (map fst fs) -> sorchaGetLogger F log stamp (a_o a) (a_t a) fs = (fs', Err e) ->
  e = OSError /\ (~ dir_at fs (a_o a) \/ exists p, is_log stamp a p /\ dir_at fs p).
Proof.
  intros a fs fs' e N H. unfold sorchaGetLogger in H. apply next_err in H as [H|(f1 & [] & K & H)].
  - apply check_err in H as (_ & -> & H). split; auto. left. rewrite <- is_dir_at by auto. congruence.
  - apply check_ok in K as [-> K].
    assert (L1 : is_log stamp a (log_path stamp (a_o a) (a_t a) "log")) by (left; reflexivity).
    assert (L2 : is_log stamp a (log_path stamp (a_o a) (a_t a) "err")) by (right; left; reflexivity).
    apply next_err in H as [H|(f1 & [] & K1 & H)]; unfold open_log in *.
    + destruct (is_dir F (log_path _ _ _ _) fs) eqn:D; inversion H; subst. split; [reflexivity|]. right. apply is_dir_at in D; eauto.
    + destruct (is_dir F (log_path _ _ _ _) fs) eqn:D1; inversion K1. subst f1.
      destruct (is_dir F _ (write_file _ _ _ _)) eqn:D2; inversion H; subst.
      split; [reflexivity|]. right. apply is_dir_at in D2; [|apply write_nodup; auto].
      apply write_in in D2 as [[_ X]|[_ X]]; auto; [discriminate|]. eauto.
Qed.
Lemma warn_err : forall a pat fs fs' e, NoDup (map fst fs) ->
  (forall x, (forall l : list text, In x l -> In x (glob pat l)) -> output_name a x) ->
  warn_or_remove F (a_o a) pat (a_f a) fs = (fs', Err e) ->
  e = SysExit \/ (e = OSError /\ a_f a = true /\ exists p, is_output a p /\ dir_at fs p).
Proof.
  intros a pat fs fs' e N O H. unfold warn_or_remove in H. destruct (glob pat (names_in F (a_o a) fs)) as [|n l] eqn:E; [discriminate|].
  destruct (a_f a); [|left; congruence]. assert (I : In n (glob pat (names_in F (a_o a) fs))) by (rewrite E; left; auto).
  unfold glob in I. apply filter_In in I as [I M]. apply names_in_spec in I as (_ & S & [k K]).
  unfold remove in H. assert (T := K). apply stat_in in T; auto. rewrite T in H. destruct k; inversion H; subst fs' e. right. split; [auto|split; [auto|]].
  exists (join (a_o a) n). split; [|exact K]. exists n. rewrite join_entry. repeat split; auto. apply O.
  intros l' J. unfold glob. apply filter_In. auto.
Qed.
Lemma parser_err : forall a fs fs' e, NoDup (map fst fs) -> plain_names a -> sorchaCommandLineParser F a fs = (fs', Err e) ->
  e = SysExit \/ (e = OSError /\ a_f a = true /\ exists p, is_output a p /\ dir_at fs p).
Proof.
  intros a fs fs' e N (P1 & P2 & P3) H. unfold sorchaCommandLineParser in H.
  do 5 (apply next_err in H as [H|(f1 & [] & K & H)]; [apply check_err in H; intuition|apply check_ok in K as [-> _]]).
  apply next_err in H as [H|(f1 & [] & C1 & H)].
  { destruct (given (a_cp a)); cbn [if_given] in H; [apply check_err in H; intuition|discriminate]. }
  assert (f1 = fs) as -> by (destruct (given (a_cp a)); cbn [if_given] in C1; [apply check_ok in C1 as [-> _]|inversion C1]; auto).
  apply next_err in H as [H|(f1 & [] & C2 & H)].
  { destruct (a_vd a); cbn [if_given] in H; [apply check_err in H; intuition|discriminate]. }
  assert (f1 = fs) as -> by (destruct (a_vd a); cbn [if_given] in C2; [apply check_ok in C2 as [-> _]|inversion C2]; auto).
  assert (W1 : forall t x, given (a_ew a) = Some t -> (forall l : list text, In x l -> In x (glob (t ++ txt ".*") l)) -> output_name a x).
  { intros t x E M. apply given_some in E as [E NE]. left. exists t. repeat split; auto. apply stem_matches; auto. }
  assert (W2 : forall t x, a_st a = Some t -> (forall l : list text, In x l -> In x (glob (t ++ txt ".csv") l)) -> output_name a x).
  { intros t x E M. right; left. exists t. split; auto. apply (exact_matches (t ++ txt ".csv")) in M; auto. apply plain_app; auto using plain_csv. }
  assert (OW : forall pat, only (fun _ => True) (warn_or_remove F (a_o a) pat (a_f a))) by (intro; apply only_warn; auto).
  apply next_err in H as [H|(f1 & [] & C3 & H)].
  { destruct (given (a_ew a)) as [t|] eqn:G; cbn [if_given] in H; [|discriminate]. apply (warn_err a (t ++ txt ".*") fs fs'); auto. intros x. apply W1. auto. }
  assert (D1 : NoDup (map fst f1) /\ forall p, dir_at fs p <-> dir_at f1 p).
  { destruct (given (a_ew a)) as [t|]; cbn [if_given] in C3; [|inversion C3; subst; split; [auto|tauto]].
    destruct (OW (t ++ txt ".*") fs N) as (A & _ & B). rewrite C3 in A, B. auto. }
  destruct D1 as [N1 D1]. apply next_err in H as [H|(f2 & [] & C4 & H)].
  { destruct (a_st a) as [t|] eqn:G; cbn [if_given] in H; [|discriminate].
    destruct (warn_err a (t ++ txt ".csv") f1 fs' e N1 (fun x => W2 t x eq_refl) H) as [Q|(Q1 & Q2 & p & Q3 & Q4)]; auto.
    right. repeat split; auto. exists p. split; auto. apply D1. auto. }
  assert (D2 : NoDup (map fst f2) /\ forall p, dir_at fs p <-> dir_at f2 p).
  { destruct (a_st a) as [t|]; cbn [if_given] in C4; [|inversion C4; subst; split; [auto|auto]].
    destruct (OW (t ++ txt ".csv") f1 N1) as (A & _ & B). rewrite C4 in A, B. split; auto. intro p. rewrite D1. apply B. }
  destruct D2 as [N2 D2]. apply next_err in H as [H|(f3 & [] & C5 & H)].
  { destruct (given (a_ar a)); cbn [if_given] in H; [apply check_err in H; intuition|discriminate]. }
  assert (f3 = f2) as -> by (destruct (given (a_ar a)); cbn [if_given] in C5; [apply check_ok in C5 as [-> _]|inversion C5]; auto).
  apply next_err in H as [H|(f4 & [] & C6 & H)]; [|discriminate].
  assert (W3 : forall x, (forall l : list text, In x l -> In x (glob (a_t a ++ txt ".*") l)) -> output_name a x).
  { intros x M. right; right. apply stem_matches; auto. }
  destruct (warn_err a (a_t a ++ txt ".*") f2 fs' e N2 W3 H) as [Q|(Q1 & Q2 & p & Q3 & Q4)]; auto.
  right. repeat split; auto. exists p. split; auto. apply D2. auto.
Qed.
Lemma validate_err : forall a fs fs' e, validate_arguments F a fs = (fs', Err e) -> e = SysExit.
Proof.
  intros a fs fs' e H. unfold validate_arguments in H.
  apply next_err in H as [H|(f1 & [] & _ & H)]; [apply check_err in H; intuition|].
  apply next_err in H as [H|(f2 & [] & _ & H)]; [apply check_err in H; intuition|].
  apply next_err in H as [H|(f3 & [] & _ & H)].
  { destruct (given (input_ephemeris_file a)); cbn [if_given] in H; [apply check_err in H; intuition|discriminate]. }
  apply next_err in H as [H|(f4 & [] & _ & H)]; [apply check_err in H; intuition|].
  apply next_err in H as [H|(f5 & [] & _ & H)]; [apply check_err in H; intuition|].
  destruct (given (ar_data_path a)); cbn [if_given] in H; [apply check_err in H; intuition|discriminate].
Qed.
Lemma checks_err : forall c a fs fs' e, run_checks F int_of environment fresh c (parsed a) fs = (fs', Err e) ->
  fs' = fs /\ (e = SysExit
  \/ (e = KeyError /\ (forall t, a_cp a = Some t -> t = []) /\ exists m, m <> ""%string /\ (c_lightcurve c = Some m \/ c_activity c = Some m))
  \/ (e = ValueError /\ exists v, environment = Some v /\ int_of v = None)).
Proof.
  intros c a fs fs' e H. unfold run_checks in H. cbn [parsed input_ephemeris_file complex_physical_parameters visits_database] in H.
  apply next_err in H as [H|(f1 & [] & K1 & H)]; [apply check_err in H; intuition|]. apply check_ok in K1 as [-> K1].
  assert (G : forall m, negb (truthy m && match given (a_cp a) with Some _ => false | None => true end) = false ->
     (forall t, a_cp a = Some t -> t = []) /\ exists n, n <> ""%string /\ m = Some n).
  { intros m E. apply negb_false_iff, andb_prop in E as [E1 E2]. split.
    - apply given_none. destruct (given (a_cp a)); [discriminate|reflexivity].
    - destruct m as [[|ch m]|]; try discriminate. exists (String ch m). split; [discriminate|reflexivity]. }
  apply next_err in H as [H|(f1 & [] & K2 & H)].
  { apply check_err in H as (-> & -> & H). apply G in H as (G1 & n & G2 & G3). split; auto. right; left. split; [auto|split; [auto|]].
    exists n. auto. }
  apply check_ok in K2 as [-> K2].
  apply next_err in H as [H|(f1 & [] & K3 & H)].
  { apply check_err in H as (-> & -> & H). apply G in H as (G1 & n & G2 & G3). split; auto. right; left. split; [auto|split; [auto|]].
    exists n. auto. }
  apply check_ok in K3 as [-> K3].
  apply next_err in H as [H|(f1 & z & K4 & H)].
  { destruct environment as [v|]; [|discriminate]. destruct (int_of v) eqn:I; inversion H. split; auto. right; right. split; auto. exists v. auto. }
  assert (f1 = fs) as -> by (destruct environment as [v|]; [destruct (int_of v)|]; inversion K4; auto).
  apply next_err in H as [H|(f1 & [] & K5 & H)]; [apply check_err in H; intuition|]. apply check_ok in K5 as [-> K5].
  apply next_err in H as [H|(f1 & [] & K6 & H)]; [apply check_err in H; intuition|]. discriminate.
Qed.
Lemma errors : forall a fs fs' e, NoDup (map fst fs) -> plain_names a -> exec a fs = (fs', Err e) ->
  e = SysExit
  \/ (e = OSError /\ (~ dir_at fs (a_o a) \/ (exists p, is_log stamp a p /\ dir_at fs p)
       \/ (a_f a = true /\ exists p, is_output a p /\ dir_at fs p) \/ ~ file_at fs' (a_c a)))
  \/ (exists x, In (a_c a, File x) fs' /\ parse x = Err e)
  \/ (exists x f there, In (a_c a, File x) fs' /\ parse x = Ok f /\ (forall q, there q = true <-> found fs' (txt q))
       /\ read_configs int_of float_of there lc_methods ca_methods f (a_s a) = Err e)
  \/ (e = KeyError /\ (forall t, a_cp a = Some t -> t = []) /\ exists c m,
       configured parse int_of float_of lc_methods ca_methods fs' a c /\ m <> ""%string
       /\ (c_lightcurve c = Some m \/ c_activity c = Some m))
  \/ (e = ValueError /\ exists v, environment = Some v /\ int_of v = None).
Proof.
  intros a fs fs' e N Hp H. unfold execute in H.
  apply next_err in H as [H|(f1 & [] & K1 & H)]; [apply check_err in H; intuition|]. apply check_ok in K1 as [-> K1].
  apply next_err in H as [H|(fs1 & [] & K2 & H)].
  { apply logger_err in H as [-> H]; [|exact N]. right; left. split; [reflexivity|]. tauto. }
  assert (L := only_logger (is_log stamp a) a (fun _ h => h) fs N). rewrite K2 in L. cbn [fst] in L. destruct L as (N1 & S1 & D1).
  apply next_err in H as [H|(fs2 & r & K3 & H)].
  { apply parser_err in H as [H|(H1 & H2 & p & H3 & H4)]; auto. right; left. split; auto. right; right; left. split; auto.
    exists p. split; auto. apply D1. auto. }
  assert (P := parser_ok _ _ _ _ K3). destruct P as (-> & _).
  assert (D2 := only_parser (fun _ => True) a (or_introl (fun _ => I)) fs1 N1). rewrite K3 in D2. destruct D2 as (N2 & _ & D2). cbn [fst] in *.
  apply next_err in H as [H|(f3 & c & K4 & H)].
  { unfold sorchaConfigs in H. inversion H; subst fs2. clear H. rename H2 into H. cbn [parsed configfile surveyname] in H.
    destruct (stat F (a_c a) fs') as [[x|]|] eqn:T.
    - apply stat_in in T; auto. destruct (parse x) as [f|e'] eqn:Y; cbn [rbind] in H.
      + right; right; right; left. exists x, f, (fun q => path_exists F (txt q) fs'). repeat split; auto; apply found_exists.
      + right; right; left. exists x. split; congruence.
    - right; left. split; [congruence|]. right; right; right. intros [x X]. apply stat_in in X; auto. congruence.
    - right; left. split; [congruence|]. right; right; right. intros [x X]. apply stat_in in X; auto. congruence. }
  unfold sorchaConfigs in K4. inversion K4; subst f3. clear K4. rename H2 into K4. cbn [parsed configfile surveyname] in K4.
  assert (C : configured parse int_of float_of lc_methods ca_methods fs2 a c).
  { destruct (stat F (a_c a) fs2) as [[x|]|] eqn:T; try discriminate. apply stat_in in T; auto.
    destruct (parse x) as [f|] eqn:Y; [|discriminate]. exists x, f, (fun q => path_exists F (txt q) fs2).
    split; [auto|split; [auto|split; [intro; apply found_exists|]]]. exact K4. }
  apply next_err in H as [H|(f3 & z & K5 & H)].
  { apply checks_err in H as (-> & [H|[(H1 & H2 & m & H3 & H4)|H]]); auto 10. right; right; right; right; left.
    split; [auto|split; [auto|]]. exists c, m. auto. }
  apply checks_ok in K5 as (-> & _). left. unfold dispatch in H.
  destruct (member _ _); [|destruct (member _ _); [inversion H; auto|destruct (member _ _); [|inversion H; auto]]];
    (apply next_err in H as [H|(f4 & [] & _ & H)]; [apply validate_err in H; auto|discriminate]).
Qed.
End Run.
