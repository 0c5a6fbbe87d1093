(** Statements about whole commands. *)
From Coq Require Import Ascii String List ZArith QArith Bool Lia.
From Verif Require Import Base.Prelude Base.Num Model.Files Model.Config Model.Shipped Model.Startup Spec.Files Spec.Shipped
  Spec.Startup Proofs.Files Proofs.Startup.
Import ListNotations.
Open Scope list_scope.

Lemma C81_started_proof : forall F parse (log : F) int_of float_of lc_methods ca_methods stamp environment fresh a fs fs' sim args c,
  NoDup (map fst fs) ->
  execute F parse log int_of float_of lc_methods ca_methods stamp environment fresh a fs = (fs', Ok (sim, args, c)) ->
  inputs_present fs' a /\ simulates (a_s a) sim
  /\ configured parse int_of float_of lc_methods ca_methods fs' a c /\ compatible c a
  /\ passed_on a (sa_args args) /\ seeded int_of environment fresh (sa_seed args).
Proof.
  intros F parse log int_of float_of lc ca stamp env fresh a fs fs' sim args c N H.
  apply started in H as (H1 & H2 & H3 & H4 & H5 & H6 & _); auto. auto 10.
Qed.
Lemma output_nonempty : forall a x, output_name a x -> x <> [].
Proof.
  intros a x [(e & _ & _ & b & ->)|[(e & _ & ->)|(b & ->)]] H; apply (f_equal (@length ascii)) in H; cbn in H;
    rewrite ?app_length in H; cbn in H; lia.
Qed.
Lemma C81_no_old_output_proof : forall F parse (log : F) int_of float_of lc_methods ca_methods stamp environment fresh a fs fs' r,
  NoDup (map fst fs) -> plain_names a -> a_f a = false ->
  execute F parse log int_of float_of lc_methods ca_methods stamp environment fresh a fs = (fs', Ok r) ->
  forall p, is_output a p -> ~ found fs' p.
Proof.
  intros F parse log int_of float_of lc ca stamp env fresh a fs fs' [[sim args] c] N (P1 & P2 & P3) NF H p (x & -> & S & O) Y.
  apply started in H as (_ & _ & _ & _ & _ & _ & fs1 & _ & _ & _ & K & _); auto.
  apply parser_ok in K as (_ & _ & _ & K). destruct (K NF) as (-> & K1 & K2 & K3).
  assert (I : In x (names_in F (a_o a) fs1)).
  { apply names_in_spec. split; [eapply output_nonempty; eauto|]. split; auto. }
  destruct O as [(e & E & NE & B)|[(e & E & ->)|B]].
  - apply (K1 e x E NE I). rewrite glob_stem by auto. apply filter_In. split; auto. apply starts_with_begins. auto.
  - apply (K2 e _ E I). apply glob_exact; auto. apply plain_app; auto using plain_csv.
  - apply (K3 x I). rewrite glob_stem by auto. apply filter_In. split; auto. apply starts_with_begins. auto.
Qed.
(** ** Forced runs *)
Lemma warn_shrinks : forall F d pat force (fs fs' : list (text * node F)) r p,
  warn_or_remove F d pat force fs = (fs', r) -> found fs' p -> found fs p.
Proof.
  intros F d pat force fs fs' r p H [n I]. unfold warn_or_remove in H. destruct (glob pat (names_in F d fs)) as [|x l]; [inversion H; subst; exists n; auto|].
  destruct force; [|inversion H; subst; exists n; auto]. unfold remove in H.
  destruct (stat F (join d x) fs) as [[c|]|]; inversion H; subst; [|exists n; auto|exists n; auto].
  apply remove_in in I as [_ I]. exists n. exact I.
Qed.
Lemma warn_removed : forall F d pat (fs fs' : list (text * node F)) u x,
  warn_or_remove F d pat true fs = (fs', Ok u) -> x <> [] -> ~ In "/"%char x -> (forall l, In x l -> In x (glob pat l)) ->
  (forall y, In y (names_in F d fs) -> In y (glob pat (names_in F d fs)) -> y = x) -> ~ found fs' (join d x).
Proof.
  intros F d pat fs fs' u x H NE S M U Y.
  assert (I : In x (names_in F d fs)) by (apply names_in_spec; split; [auto|split; [auto|eapply warn_shrinks; eauto]]).
  unfold warn_or_remove in H. assert (J := M _ I). destruct (glob pat (names_in F d fs)) as [|y l] eqn:E; [destruct J|].
  assert (y = x). { apply U; [|left; reflexivity]. assert (K : In y (glob pat (names_in F d fs))) by (rewrite E; left; auto). unfold glob in K. apply filter_In in K. apply K. }
  subst y. unfold remove in H. destruct (stat F (join d x) fs) as [[c|]|]; inversion H; subst.
  destruct Y as [n Y]. apply remove_in in Y as [Y _]. auto.
Qed.
Lemma not_log : forall stamp a x, begins (a_t a ++ txt ".") x -> ~ is_log stamp a (entry a x).
Proof.
  intros stamp a x [b ->] L. unfold is_log in L. apply in_map_iff in L as (y & E & I). apply (join_inj (a_o a)) in E. subst y.
  destruct I as [I|[I|[]]]; rewrite <- !app_assoc in I; apply app_inv_head in I; discriminate I.
Qed.
Lemma C81_forced_proof : forall F parse (log : F) int_of float_of lc_methods ca_methods stamp environment fresh a fs fs' r,
  NoDup (map fst fs) -> plain_names a -> a_f a = true ->
  execute F parse log int_of float_of lc_methods ca_methods stamp environment fresh a fs = (fs', Ok r) ->
  (forall e, a_st a = Some e -> ~ In "/"%char e -> ~ found fs' (entry a (e ++ txt ".csv")))
  /\ ((forall x y, begins (a_t a ++ txt ".") x -> begins (a_t a ++ txt ".") y -> ~ In "/"%char x -> ~ In "/"%char y ->
         found fs (entry a x) -> found fs (entry a y) -> x = y) ->
      forall x, begins (a_t a ++ txt ".") x -> ~ In "/"%char x -> ~ found fs' (entry a x)).
Proof.
  intros F parse log int_of float_of lc ca stamp env fresh a fs fs' [[sim args] c] N (P1 & P2 & P3) FO H.
  apply started in H as (_ & _ & _ & _ & _ & _ & fs1 & SB & _ & _ & K & _); auto.
  unfold sorchaCommandLineParser in K. rewrite FO in K.
  do 5 (let Q := fresh "Q" in apply next_ok in K as (f1 & [] & Q & K); apply check_ok in Q as [-> Q]).
  assert (IG : forall v f g, if_given F v (FindFileOrExit F) f = (g, Ok tt) -> g = f).
  { intros [t|] f g G; cbn in G; [apply check_ok in G as [-> _]|inversion G]; reflexivity. }
  assert (ID : forall v f g, if_given F v (FindDirectoryOrExit F) f = (g, Ok tt) -> g = f).
  { intros [t|] f g G; cbn in G; [apply check_ok in G as [-> _]|inversion G]; reflexivity. }
  assert (IW : forall v s f g p, if_given F v (fun e => warn_or_remove F (a_o a) (e ++ txt s) true) f = (g, Ok tt) -> found g p -> found f p).
  { intros [t|] s f g p G Y; cbn [if_given] in G; [eapply warn_shrinks; eauto|inversion G; subst; exact Y]. }
  apply next_ok in K as (f1 & [] & C1 & K). apply IG in C1. subst f1.
  apply next_ok in K as (f1 & [] & C2 & K). apply IG in C2. subst f1.
  apply next_ok in K as (f1 & [] & C3 & K). apply next_ok in K as (f2 & [] & C4 & K).
  apply next_ok in K as (f3 & [] & C5 & K). apply ID in C5. subst f3.
  apply next_ok in K as (f4 & [] & C6 & K). inversion K; subst f4. split.
  - intros e E S Y. rewrite E in C4. cbn [if_given] in C4.
    assert (P : plain (e ++ txt ".csv")) by (apply plain_app; auto using plain_csv).
    apply (warn_removed _ _ _ _ _ _ (e ++ txt ".csv") C4).
    + destruct e; discriminate.
    + intro I. apply in_app_or in I as [I|I]; [auto|]. vm_compute in I. intuition discriminate.
    + apply exact_matches; auto.
    + intros y _ I. apply glob_exact in I as [_ I]; auto.
    + eapply warn_shrinks; [exact C6|exact Y].
  - intros U x B S Y. assert (T := warn_shrinks _ _ _ _ _ _ _ _ C6 Y).
    assert (G : forall y, begins (a_t a ++ txt ".") y -> found f2 (entry a y) -> found fs (entry a y)).
    { intros y By Z. apply (IW _ _ _ _ _ C4) in Z. apply (IW _ _ _ _ _ C3) in Z. destruct Z as [n Z]. exists n.
      apply (SB _ n (not_log stamp a y By)). exact Z. }
    apply (warn_removed _ _ _ _ _ _ x C6); auto.
    + destruct B as [b ->]. destruct (a_t a); discriminate.
    + apply stem_matches; auto.
    + intros y Iy J. apply names_in_spec in Iy as (_ & Sy & Fy). rewrite glob_stem in J by auto. apply filter_In in J as [_ J].
      apply starts_with_begins in J. apply U; auto.
Qed.
Lemma slash_dec : forall x : text, In "/"%char x \/ ~ In "/"%char x.
Proof. intro x. destruct (in_dec ascii_dec "/"%char x); auto. Qed.
Lemma output_dec : forall a p, is_output a p \/ ~ is_output a p.
Proof.
  intros a p. destruct (after (join (a_o a) []) p) as [x|] eqn:E.
  - apply after_spec in E. assert (Q : p = entry a x) by (rewrite E; unfold join, entry; rewrite <- !app_assoc; reflexivity).
    destruct (slash_dec x) as [S|S].
    { right. intros (y & Y & T & _). rewrite Q in Y. apply join_inj in Y. subst y. auto. }
    assert (D : output_name a x \/ ~ output_name a x).
    { unfold output_name.
      assert (B : forall e, begins (e ++ txt ".") x \/ ~ begins (e ++ txt ".") x).
      { intro e. rewrite <- starts_with_begins. destruct (starts_with (e ++ txt ".") x); auto. }
      assert (D1 : (exists e, a_ew a = Some e /\ e <> [] /\ begins (e ++ txt ".") x) \/ ~ (exists e, a_ew a = Some e /\ e <> [] /\ begins (e ++ txt ".") x)).
      { destruct (a_ew a) as [[|ch e]|].
        - right. intros (e & A & C & _). congruence.
        - destruct (B (ch :: e)) as [Y|Y]; [left; exists (ch :: e); repeat split; auto; discriminate|right].
          intros (e' & A & _ & C). inversion A; subst. auto.
        - right. intros (e & A & _). discriminate. }
      assert (D2 : (exists e, a_st a = Some e /\ x = e ++ txt ".csv") \/ ~ (exists e, a_st a = Some e /\ x = e ++ txt ".csv")).
      { destruct (a_st a) as [e|].
        - destruct (list_eq_dec ascii_dec x (e ++ txt ".csv")) as [Y|Y]; [left; eauto|right]. intros (e' & A & C). inversion A; subst. auto.
        - right. intros (e & A & _). discriminate. }
      destruct (B (a_t a)); tauto. }
    destruct D as [D|D]; [left; exists x; auto|right].
    intros (y & Y & T & O). rewrite Q in Y. apply join_inj in Y. subst y. auto.
  - right. intros (y & Y & _). assert (Z : after (join (a_o a) []) p = Some y); [|congruence].
    apply after_spec. rewrite Y. unfold join, entry. rewrite <- !app_assoc. reflexivity.
Qed.
Lemma C81_optional_proof : forall F parse (log : F) int_of float_of lc_methods ca_methods stamp environment fresh a fs fs' r t,
  NoDup (map fst fs) -> plain_names a ->
  execute F parse log int_of float_of lc_methods ca_methods stamp environment fresh a fs = (fs', Ok r) ->
  (a_cp a = Some t /\ t <> []) \/ a_vd a = Some t -> found fs' t \/ (a_f a = true /\ is_output a t).
Proof.
  intros F parse log int_of float_of lc ca stamp env fresh a fs fs' [[sim args] c] t N P H Q.
  apply started in H as (_ & _ & _ & _ & _ & _ & fs1 & _ & (O1 & O2) & N1 & K & _); auto.
  assert (Y : found fs1 t) by (destruct Q as [[Q1 Q2]|Q]; auto).
  destruct (a_f a) eqn:E.
  - destruct (output_dec a t) as [D|D]; auto. left.
    assert (L := only_parser F (is_output a) a (or_intror (fun _ => conj P (fun p h => h))) fs1 N1).
    rewrite K in L. destruct L as (_ & L & _). cbn [fst] in L. destruct Y as [n Y]. exists n. apply L; auto.
  - left. apply parser_ok in K as (_ & _ & _ & K). destruct (K E) as (-> & _). auto.
Qed.
Lemma C81_starts_proof : forall F parse (log : F) int_of float_of lc_methods ca_methods stamp environment fresh a fs x f there c sim z,
  NoDup (map fst fs) -> plain_names a -> inputs_present fs a -> optional_present fs a ->
  (forall p, is_log stamp a p -> ~ dir_at fs p /\ ~ is_output a p) -> ~ is_log stamp a (a_c a) ->
  (forall p, is_output a p -> ~ found fs p) ->
  In (a_c a, File x) fs -> parse x = Ok f ->
  (forall q, there q = true <-> found fs (txt q) \/ is_log stamp a (txt q)) ->
  read_configs int_of float_of there lc_methods ca_methods f (a_s a) = Ok c ->
  compatible c a -> simulates (a_s a) sim -> seeded int_of environment fresh z ->
  exists fs' args, execute F parse log int_of float_of lc_methods ca_methods stamp environment fresh a fs = (fs', Ok (sim, args, c))
    /\ passed_on a (sa_args args) /\ sa_seed args = z
    /\ same_but (is_log stamp a) fs fs' /\ (forall p, is_log stamp a p -> file_at fs' p).
Proof.
  intros F parse log int_of float_of lc ca stamp env fresh a fs x f there c sim z H1 H2 H3 H4 H5 H6 H7 H8 H9 H10 H11 H12 H13 H14.
  destruct (starts F parse log int_of float_of lc ca stamp env fresh a fs x f there c sim z) as (fs' & E & S & L); auto.
  exists fs'. eexists. split; [exact E|]. split; [|split; [reflexivity|auto]].
  unfold passed_on. cbn [sa_args parsed paramsinput orbinfile configfile outpath pointing_database complex_physical_parameters
      input_ephemeris_file output_ephemeris_file visits_database surveyname outfilestem stats ar_data_path].
  repeat (split; [reflexivity|]). intro t. apply given_some.
Qed.

(** ** Patterns in the stem *)
Lemma match_suffix : forall ts s1 s2, match_tokens ts s2 = true -> match_tokens (TAny :: ts) (s1 ++ s2) = true.
Proof.
  intros ts s1 s2 H. induction s1 as [|c s1 IH].
  - cbn [app]. destruct s2; cbn in *; rewrite H; reflexivity.
  - cbn [app]. change (match_tokens (TAny :: ts) (c :: s1 ++ s2)) with (match_tokens ts (c :: s1 ++ s2) || match_tokens (TAny :: ts) (s1 ++ s2)).
    rewrite IH. apply orb_true_r.
Qed.
Lemma C81_pattern_refuted_proof : forall F parse (log : F) int_of float_of lc_methods ca_methods stamp environment fresh a fs fs' r,
  NoDup (map fst fs) -> a_t a = txt "run*" -> a_f a = false -> ~ In "/"%char stamp ->
  execute F parse log int_of float_of lc_methods ca_methods stamp environment fresh a fs <> (fs', Ok r).
Proof.
  intros F parse log int_of float_of lc ca stamp env fresh a fs fs' r N T NF S H. unfold execute in H.
  apply next_ok in H as (f1 & [] & K1 & H). apply check_ok in K1 as [-> K1].
  apply next_ok in H as (fs1 & [] & K2 & H). apply next_ok in H as (fs2 & r' & K3 & _).
  assert (L : found fs1 (entry a (a_t a ++ txt "-" ++ stamp ++ txt "-sorcha.log"))).
  { unfold sorchaGetLogger in K2. apply next_ok in K2 as (f1 & [] & K0 & K2). apply check_ok in K0 as [-> K0].
    apply next_ok in K2 as (f1 & [] & K4 & K2). unfold open_log in K4, K2.
    match type of K4 with context [if ?b then _ else _] => destruct b; [discriminate|] end.
    match type of K2 with context [if ?b then _ else _] => destruct b; [discriminate|] end.
    inversion K4; subst f1. inversion K2; subst fs1. exists (File log).
    set (p1 := entry a (a_t a ++ txt "-" ++ stamp ++ txt "-sorcha.log")).
    change (log_path stamp (a_o a) (a_t a) "log") with p1.
    apply write_in; [apply write_nodup; auto|].
    destruct (list_eq_dec ascii_dec p1 (log_path stamp (a_o a) (a_t a) "err")) as [Q|Q]; [left; auto|right; split; auto].
    apply write_in; auto. }
  apply parser_ok in K3 as (_ & _ & _ & K3). destruct (K3 NF) as (_ & _ & _ & K).
  set (n := a_t a ++ txt "-" ++ stamp ++ txt "-sorcha.log") in *.
  assert (I : In n (names_in F (a_o a) fs1)).
  { apply names_in_spec. split; [unfold n; rewrite T; discriminate|]. split; [|exact L].
    unfold n. rewrite T, !in_app_iff. intros [J|[J|[J|J]]]; auto; vm_compute in J; intuition discriminate. }
  apply (K n I). unfold glob. apply filter_In. split; auto. rewrite T. apply andb_true_intro. split.
  - change (match_tokens (map TLit (txt "run") ++ [TAny; TLit "."%char; TAny]) n = true).
    unfold n. rewrite T. change (txt "run*" ++ txt "-" ++ stamp ++ txt "-sorcha.log") with (txt "run" ++ txt "*-" ++ stamp ++ txt "-sorcha.log").
    assert (Q : match_tokens [TAny; TLit "."%char; TAny] (txt "*-" ++ stamp ++ txt "-sorcha.log") = true).
    { change (txt "-sorcha.log") with (txt "-sorcha" ++ txt ".log"). rewrite !app_assoc. apply match_suffix. reflexivity. }
    exact Q.
  - unfold n. rewrite T. reflexivity.
Qed.

(** ** What is left alone *)
Lemma C82_unforced_proof : forall F parse (log : F) int_of float_of lc_methods ca_methods stamp environment fresh a fs,
  NoDup (map fst fs) -> a_f a = false ->
  same_but (is_log stamp a) fs
    (fst (execute F parse log int_of float_of lc_methods ca_methods stamp environment fresh a fs)).
Proof.
  intros F parse log int_of float_of lc ca stamp env fresh a fs N NF.
  apply (only_execute F parse log int_of float_of lc ca stamp env fresh (is_log stamp a) a); auto.
  right. congruence.
Qed.
Lemma C82_forced_proof : forall F parse (log : F) int_of float_of lc_methods ca_methods stamp environment fresh a fs,
  NoDup (map fst fs) -> plain_names a ->
  same_but (fun p => is_log stamp a p \/ is_output a p) fs
    (fst (execute F parse log int_of float_of lc_methods ca_methods stamp environment fresh a fs)).
Proof.
  intros F parse log int_of float_of lc ca stamp env fresh a fs N P.
  apply (only_execute F parse log int_of float_of lc ca stamp env fresh (fun p => is_log stamp a p \/ is_output a p) a); auto.
Qed.

(** ** Examples of commands *)
Definition ex_int (s : string) : option Z :=
  match s with "20000" => Some 20000 | "5000" => Some 5000 | "1" => Some 1 | "6" => Some 6 | "2" => Some 2 | "3" => Some 3
             | "15" => Some 15 | _ => None end%Z%string.
Definition ex_float (s : string) : option num :=
  match s with "2.06" => Some (Fin (206#100)) | "1.3" => Some (Fin (13#10)) | "0.2" => Some (Fin (2#10)) | "16.0" => Some (Fin 16)
             | "0.9" => Some (Fin (9#10)) | "1.75" => Some (Fin (175#100)) | "2." => Some (Fin 2) | "0.1" => Some (Fin (1#10))
             | "1." => Some (Fin 1) | "0.95" => Some (Fin (95#100)) | "0.5" => Some (Fin (5#10))
             | "0.0625" => Some (Fin (625#10000)) | "0.95529" => Some (Fin (95529#100000)) | _ => None end%string.
Lemma ex_reads : reads_decimals ex_int ex_float.
Proof. split; intros s x H; cbn [In] in H; repeat (destruct H as [H|H]; [injection H as <- <-; reflexivity|]); destruct H. Qed.
Definition ex_cmd (p stem : string) (cp : option text) (f : bool) (s : string) : command :=
  {| a_p := txt p; a_ob := txt "ob.csv"; a_c := txt "c.ini"; a_o := txt "out"; a_pd := txt "v.db"; a_er := None; a_ew := None;
     a_ar := None; a_cp := cp; a_f := f; a_s := s; a_t := txt stem; a_st := None; a_vd := None |}.
Definition ex_fs (cfg : config_file) (more : list (text * node config_file)) : list (text * node config_file) :=
  [(txt "out", Dir); (txt "p.csv", File []); (txt "ob.csv", File []); (txt "v.db", File []); (txt "c.ini", File cfg)] ++ more.
Definition with_model (f : config_file) : config_file := ("LIGHTCURVE", [("lc_model", "sine")])%string :: f.

Lemma C82_forced_refuted_proof : exists F parse (log : F) int_of float_of lc_methods ca_methods stamp environment fresh a fs fs' p,
  NoDup (map fst fs) /\ plain_names a /\ reads_decimals int_of float_of /\ inputs_present fs a /\ file_at fs p
  /\ execute F parse log int_of float_of lc_methods ca_methods stamp environment fresh a fs = (fs', Err SysExit) /\ ~ found fs' p.
Proof.
  exists config_file, (fun x => Ok x), [], ex_int, ex_float, [], [], (txt "now-p1"), None, 7%Z, (ex_cmd "p.csv" "run" None true "lsst"),
    (ex_fs demo [(txt "out/run.csv", File [])]).
  eexists. exists (txt "out/run.csv").
  split; [repeat (constructor; [vm_compute; intuition discriminate|]); constructor|].
  split; [split; [vm_compute; intuition discriminate|split; intros e E; discriminate]|]. split; [exact ex_reads|].
  split; [repeat split; try (eexists; cbn; tauto); try (cbn; tauto); intros t E; discriminate|].
  split; [eexists; cbn; tauto|]. split; [vm_compute; reflexivity|]. intros [n H]. cbn in H. intuition discriminate.
Qed.
Lemma C83_errors_proof : forall F parse (log : F) int_of float_of lc_methods ca_methods stamp environment fresh a fs fs' e,
  NoDup (map fst fs) -> plain_names a ->
  execute F parse log int_of float_of lc_methods ca_methods stamp environment fresh a fs = (fs', Err e) ->
  e = SysExit
  \/ (e = OSError /\ (~ dir_at fs (a_o a) \/ (exists p, is_log stamp a p /\ dir_at fs p)
       \/ (a_f a = true /\ exists p, is_output a p /\ dir_at fs p) \/ ~ file_at fs' (a_c a)))
  \/ (exists x, In (a_c a, File x) fs' /\ parse x = Err e)
  \/ (exists x f there, In (a_c a, File x) fs' /\ parse x = Ok f /\ (forall q, there q = true <-> found fs' (txt q))
       /\ read_configs int_of float_of there lc_methods ca_methods f (a_s a) = Err e)
  \/ (e = KeyError /\ (forall t, a_cp a = Some t -> t = []) /\ exists c m,
       configured parse int_of float_of lc_methods ca_methods fs' a c /\ m <> ""%string
       /\ (c_lightcurve c = Some m \/ c_activity c = Some m))
  \/ (e = ValueError /\ exists v, environment = Some v /\ int_of v = None).
Proof. intros F parse log int_of float_of lc ca stamp env fresh a fs fs' e. apply errors. Qed.
Lemma C83_model_refuted_proof : exists F parse (log : F) int_of float_of lc_methods ca_methods stamp fresh a fs fs',
  NoDup (map fst fs) /\ plain_names a /\ reads_decimals int_of float_of /\ inputs_present fs a /\ a_cp a = None
  /\ (exists c, configured parse int_of float_of lc_methods ca_methods fs a c /\ c_lightcurve c = Some "sine"%string)
  /\ execute F parse log int_of float_of lc_methods ca_methods stamp None fresh a fs = (fs', Err KeyError).
Proof.
  exists config_file, (fun x => Ok x), [], ex_int, ex_float, ["sine"%string], [], (txt "now-p1"), 7%Z, (ex_cmd "p.csv" "run" None false "rubin_sim"),
    (ex_fs (with_model demo) []).
  eexists. split; [repeat (constructor; [vm_compute; intuition discriminate|]); constructor|].
  split; [split; [vm_compute; intuition discriminate|split; intros e E; discriminate]|]. split; [exact ex_reads|].
  split; [repeat split; try (eexists; cbn; tauto); try (cbn; tauto); intros t E; discriminate|].
  split; [reflexivity|]. split; [|vm_compute; reflexivity].
  eexists. split.
  - exists (with_model demo), (with_model demo), (fun q => path_exists config_file (txt q) (ex_fs (with_model demo) [])).
    split; [cbn; tauto|]. split; [reflexivity|]. split; [intro; apply found_exists|]. vm_compute. reflexivity.
  - reflexivity.
Qed.
Lemma C83_seed_refuted_proof : exists F parse (log : F) int_of float_of lc_methods ca_methods stamp fresh a fs fs',
  NoDup (map fst fs) /\ plain_names a /\ reads_decimals int_of float_of /\ inputs_present fs a
  /\ execute F parse log int_of float_of lc_methods ca_methods stamp (Some "1.5"%string) fresh a fs = (fs', Err ValueError)
  /\ exists fs'' r, execute F parse log int_of float_of lc_methods ca_methods stamp (Some "15"%string) fresh a fs = (fs'', Ok r).
Proof.
  exists config_file, (fun x => Ok x), [], ex_int, ex_float, [], [], (txt "now-p1"), 7%Z, (ex_cmd "p.csv" "run" None false "rubin_sim"),
    (ex_fs demo []).
  eexists. split; [repeat (constructor; [vm_compute; intuition discriminate|]); constructor|].
  split; [split; [vm_compute; intuition discriminate|split; intros e E; discriminate]|]. split; [exact ex_reads|].
  split; [repeat split; try (eexists; cbn; tauto); try (cbn; tauto); intros t E; discriminate|].
  split; [vm_compute; reflexivity|]. do 2 eexists. vm_compute. reflexivity.
Qed.
Lemma C83_outfile_refuted_proof : forall F parse (log : F) int_of float_of lc_methods ca_methods stamp environment fresh a fs,
  NoDup (map fst fs) -> file_at fs (a_o a) ->
  execute F parse log int_of float_of lc_methods ca_methods stamp environment fresh a fs = (fs, Err OSError).
Proof.
  intros F parse log int_of float_of lc ca stamp env fresh a fs N [x X]. unfold execute.
  erewrite next_run; [|apply check_run; apply found_exists; eexists; exact X].
  unfold next at 1. unfold sorchaGetLogger, next at 1, check.
  assert (T := X). apply stat_in in T; auto. unfold is_dir. rewrite T. reflexivity.
Qed.
Lemma C84_kept_proof : forall F parse (log : F) int_of float_of lc_methods ca_methods stamp environment fresh a fs p x,
  NoDup (map fst fs) -> plain_names a -> ~ is_log stamp a p ->
  (forall y, p = a_o a ++ txt "/" ++ y -> ~ output_name a y) -> In (p, x) fs ->
  In (p, x) (fst (execute F parse log int_of float_of lc_methods ca_methods stamp environment fresh a fs)).
Proof.
  intros F parse log int_of float_of lc ca stamp env fresh a fs p x N P L O I.
  apply (C82_forced_proof F parse log int_of float_of lc ca stamp env fresh a fs N P); auto.
  intros [H|(y & E & _ & H)]; [auto|]. apply (O y E H).
Qed.
Lemma C84_input_refuted_proof : exists F parse (log : F) int_of float_of lc_methods ca_methods stamp environment fresh a fs fs',
  NoDup (map fst fs) /\ plain_names a /\ reads_decimals int_of float_of /\ inputs_present fs a
  /\ execute F parse log int_of float_of lc_methods ca_methods stamp environment fresh a fs = (fs', Err SysExit)
  /\ ~ found fs' (a_p a).
Proof.
  exists config_file, (fun x => Ok x), [], ex_int, ex_float, [], [], (txt "now-p1"), None, 7%Z, (ex_cmd "out/run.csv" "run" None true "rubin_sim"),
    (ex_fs demo [(txt "out/run.csv", File [])]).
  eexists. split; [repeat (constructor; [vm_compute; intuition discriminate|]); constructor|].
  split; [split; [vm_compute; intuition discriminate|split; intros e E; discriminate]|]. split; [exact ex_reads|].
  split; [repeat split; try (eexists; cbn; tauto); try (cbn; tauto); intros t E; discriminate|].
  split; [vm_compute; reflexivity|]. intros [n H]. cbn in H. intuition discriminate.
Qed.
Lemma C84_missing_refuted_proof : exists F parse (log : F) int_of float_of lc_methods ca_methods stamp environment fresh a fs fs' r t,
  NoDup (map fst fs) /\ plain_names a /\ reads_decimals int_of float_of /\ a_cp a = Some t /\ t <> [] /\ file_at fs t
  /\ execute F parse log int_of float_of lc_methods ca_methods stamp environment fresh a fs = (fs', Ok r)
  /\ complex_physical_parameters (sa_args (snd (fst r))) = Some t /\ ~ found fs' t.
Proof.
  exists config_file, (fun x => Ok x), [], ex_int, ex_float, ["sine"%string], [], (txt "now-p1"), None, 7%Z,
    (ex_cmd "p.csv" "run" (Some (txt "out/run.txt")) true "rubin_sim"), (ex_fs (with_model demo) [(txt "out/run.txt", File [])]).
  do 2 eexists. exists (txt "out/run.txt"). split; [repeat (constructor; [vm_compute; intuition discriminate|]); constructor|].
  split; [split; [vm_compute; intuition discriminate|split; intros e E; discriminate]|]. split; [exact ex_reads|].
  split; [reflexivity|]. split; [discriminate|]. split; [eexists; cbn; tauto|].
  split; [vm_compute; reflexivity|]. split; [reflexivity|]. intros [n H]. cbn in H. intuition discriminate.
Qed.
