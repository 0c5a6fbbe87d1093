(** C120: the demonstration. *)
From Coq Require Import Ascii String List Arith ZArith QArith Bool Lia.
From Verif Require Import Base.Prelude Base.Num Model.Files Model.Config Model.Shipped Model.Startup Model.Arguments Model.FrontEnds
  Model.Demo Spec.Files Spec.Startup Spec.Shipped Spec.FrontEnds Proofs.Files Proofs.Startup Proofs.StartupRun Proofs.Shipped Proofs.FrontEnds.
Import ListNotations.
Open Scope list_scope.

(** The command of the printed line, in directory [w]. *)
Definition demo_run (w : text) : command :=
  {| a_p := under w (txt "sspp_testset_colours.txt"); a_ob := under w (txt "sspp_testset_orbits.des");
     a_c := under w (txt "sorcha_config_demo.ini"); a_o := w; a_pd := under w (txt "baseline_v2.0_1yr.db");
     a_er := None; a_ew := None; a_ar := None; a_cp := None; a_f := false; a_s := "rubin_sim";
     a_t := txt "testrun_e2e"; a_st := Some (txt "testrun_stats"); a_vd := None |}.

Lemma typed_demo : forall F parse (log : F) int_of float_of lc ca stamp env fresh w fs,
  typed_in F parse log int_of float_of lc ca stamp env fresh w get_demo_command fs
  = execute F parse log int_of float_of lc ca stamp env fresh (demo_run w) fs.
Proof. intros. reflexivity. Qed.

Lemma under_inj : forall w x y, under w x = under w y -> x = y.
Proof. intros w x y H. unfold under in H. apply app_inv_head in H. cbn in H. congruence. Qed.

Lemma demo_plain : forall w, plain_names (demo_run w).
Proof.
  intros w. split; [vm_compute; intuition discriminate|]. split; intros e E; [discriminate|].
  injection E as <-. vm_compute; intuition discriminate.
Qed.

Lemma demo_log : forall stamp w p, is_log stamp (demo_run w) p -> exists y, begins (txt "testrun_e2e-") y /\ p = under w y.
Proof.
  intros stamp w p [<-|[<-|[]]]; eexists; (split; [|reflexivity]).
  - exists (stamp ++ txt "-sorcha.log"). reflexivity.
  - exists (stamp ++ txt "-sorcha.err"). reflexivity.
Qed.

Lemma demo_output : forall w p, is_output (demo_run w) p ->
  exists y, p = under w y /\ (begins (txt "testrun_e2e.") y \/ y = txt "testrun_stats.csv").
Proof.
  intros w p (x & -> & _ & [(e & E & _)|[(e & E & X)|B]]); [discriminate| |].
  - injection E as <-. exists x. split; [reflexivity|]. right. exact X.
  - exists x. split; [reflexivity|]. left. exact B.
Qed.

Lemma startup_parts : forall int_of float_of there lc ca f c,
  startup int_of float_of there lc ca f {| arg_survey := "rubin_sim"; arg_ephemeris := None; arg_complex := None; arg_visits := None |} = Ok c ->
  forall w, read_configs int_of float_of there lc ca f (a_s (demo_run w)) = Ok c /\ compatible c (demo_run w).
Proof.
  intros int_of float_of there lc ca f c H w. unfold startup in H. cbn [arg_survey arg_ephemeris arg_complex arg_visits] in H.
  cbn [a_s demo_run]. destruct (read_configs int_of float_of there lc ca f "rubin_sim") as [c'|e]; [|discriminate].
  cbn [rbind] in H. unfold exit_if in H.
  destruct (String.eqb_spec (in_ephemerides_type (c_input c')) "external") as [E1|E1]; [discriminate|]. cbn [andb rbind] in H.
  destruct (truthy (c_lightcurve c')) eqn:E2; [discriminate|]. cbn [rbind] in H.
  destruct (truthy (c_activity c')) eqn:E3; [discriminate|]. cbn [rbind] in H. rewrite andb_false_r in H. cbn [rbind] in H.
  destruct (fov_visits_query (c_fov c')) eqn:E4; [discriminate|]. cbn [rbind] in H. injection H as <-.
  split; [reflexivity|]. unfold compatible. cbn [a_er a_cp a_vd demo_run]. split; [intros; contradiction|]. split; [|split].
  - intros m Hm [E|E]; rewrite E in *; destruct m; try contradiction; discriminate.
  - rewrite E4. tauto.
  - intros X. contradiction X. reflexivity.
Qed.

Lemma demo_prepare_proper : forall F (demos : list (text * F)) w force fs fs' r,
  proper fs -> demo_prepare F demos w force fs = (fs', r) -> proper fs'.
Proof.
  intros F demos w force fs fs' r N H. unfold demo_prepare, next in H.
  destruct (FindDirectoryOrExit F w fs) as [fs1 r1] eqn:E. apply find_directory in E; auto.
  destruct E as [-> [[-> E]|[-> E]]].
  - apply copy_spec in H; [tauto|auto|apply names_nodup; vm_compute; reflexivity].
  - inversion H; subst. auto.
Qed.

Lemma C120_started_proof : forall F parse (log : F) int_of float_of lc_methods ca_methods stamp environment fresh demos w force fs fs1 x z,
  proper fs -> NoDup (map fst demos) -> reads_decimals int_of float_of -> seeded int_of environment fresh z ->
  In (txt "sorcha_config_demo.ini", x) demos -> parse x = Ok demo ->
  (forall y, found fs (under w y) -> ~ begins (txt "testrun_e2e.") y /\ y <> txt "testrun_stats.csv") ->
  (forall y, begins (txt "testrun_e2e-") y -> ~ dir_at fs (under w y)) ->
  demo_prepare F demos w force fs = (fs1, Ok tt) ->
  exists fs2 args c,
    typed_in F parse log int_of float_of lc_methods ca_methods stamp environment fresh w get_demo_command fs1
      = (fs2, Ok (runLSSTSimulation, args, c))
    /\ rubin_detection c /\ sa_seed args = z
    /\ paramsinput (sa_args args) = under w (txt "sspp_testset_colours.txt")
    /\ orbinfile (sa_args args) = under w (txt "sspp_testset_orbits.des")
    /\ configfile (sa_args args) = under w (txt "sorcha_config_demo.ini")
    /\ pointing_database (sa_args args) = under w (txt "baseline_v2.0_1yr.db")
    /\ outpath (sa_args args) = w /\ outfilestem (sa_args args) = txt "testrun_e2e" /\ stats (sa_args args) = Some (txt "testrun_stats")
    /\ (forall f, demo_file f -> exists v, In (f, v) demos /\ In (under w f, File v) fs2)
    /\ same_but (fun p => exists f, (demo_file f \/ begins (txt "testrun_e2e-") f) /\ p = under w f) fs fs2.
Proof.
  intros F parse log int_of float_of lc ca stamp env fresh demos w force fs fs1 x z Hp Hd Hr Hz Hx Hparse Hout Hdir Hprep.
  destruct (C92_demo_proof F demos w force fs fs1 (Ok tt) Hp Hprep) as (Kept & New & Done & There).
  specialize (There eq_refl). destruct (proj1 Done eq_refl) as [Dw Free].
  assert (Hp1 : NoDup (map fst fs1)) by (eapply demo_prepare_proper; eauto).
  assert (Logs : forall f y, demo_file f -> begins (txt "testrun_e2e-") y \/ begins (txt "testrun_e2e.") y \/ y = txt "testrun_stats.csv" -> f <> y).
  { intros f y Hf Hy E. subst y. destruct Hf as [<-|[<-|[<-|[<-|[]]]]]; destruct Hy as [[b B]|[[b B]|B]]; discriminate B. }
  assert (Cfg : In (under w (txt "sorcha_config_demo.ini"), File x) fs1).
  { destruct (There (txt "sorcha_config_demo.ini")) as (v & V1 & V2); [left; reflexivity|].
    assert (v = x); [|subst v; exact V2]. clear - Hd Hx V1. induction demos as [|[n c] l IH]; [destruct Hx|].
    cbn in Hd. inversion Hd as [|? ? N1 N2]; subst. destruct Hx as [X|X]; destruct V1 as [V|V].
    - congruence.
    - injection X as -> ->. exfalso. apply N1. apply (in_map fst) in V. exact V.
    - injection V as -> ->. exfalso. apply N1. apply (in_map fst) in X. exact X.
    - auto. }
  set (a := demo_run w). set (there := fun q : string => path_exists F (txt q) fs1 || existsb (text_eqb (txt q)) (map (entry a) (log_names stamp a))).
  assert (HT : forall q, there q = true <-> found fs1 (txt q) \/ is_log stamp a (txt q)).
  { intros q. unfold there, is_log. rewrite orb_true_iff, existsb_exists. rewrite found_exists.
    split; (intros [H|H]; [left; exact H|right]).
    - destruct H as (y & Hy & E). apply text_eqb_eq in E. rewrite E. exact Hy.
    - exists (txt q). split; [exact H|]. apply text_eqb_eq. reflexivity. }
  destruct (C80_rubin_proof int_of float_of there lc ca Hr
    {| arg_survey := "rubin_sim"; arg_ephemeris := None; arg_complex := None; arg_visits := None |} eq_refl eq_refl) as [R _].
  destruct (R demo) as (c & Hc & Rd); [right; right; left; reflexivity|].
  destruct (startup_parts _ _ _ _ _ _ _ Hc w) as [Hread Hcomp].
  destruct (C81_starts_proof F parse log int_of float_of lc ca stamp env fresh a fs1 x demo there c runLSSTSimulation z) as (fs2 & args & E & P & S & Same & Lg).
  - exact Hp1.
  - apply demo_plain.
  - assert (FA : forall f, demo_file f -> file_at fs1 (under w f)) by (intros f Hf; destruct (There f Hf) as (v & _ & V); exists v; exact V).
    split; [apply FA; right; left; reflexivity|]. split; [apply FA; right; right; left; reflexivity|]. split; [exists x; exact Cfg|].
    split; [apply FA; right; right; right; left; reflexivity|]. split.
    + cbn. destruct (Kept _ _ Dw) as [K|(_ & f & v & Hf & _ & K)]; [exact K|discriminate].
    + split; intros t T; discriminate.
  - split; intros t T; discriminate.
  - intros p L. destruct (demo_log _ _ _ L) as (y & By & ->). split.
    + intros D. destruct (New _ _ D) as [N|(f & v & _ & _ & N & _)]; [exact (Hdir y By N)|discriminate].
    + intros O. destruct (demo_output _ _ O) as (y' & Ey & Hy'). apply under_inj in Ey. subst y'.
      destruct By as [b ->]. destruct Hy' as [[b' B]|B]; discriminate B.
  - intros L. destruct (demo_log _ _ _ L) as (y & [b ->] & Ey). apply under_inj in Ey. discriminate Ey.
  - intros p O [n N]. destruct (demo_output _ _ O) as (y & -> & Hy). destruct (New _ _ N) as [N'|(f & v & Hf & Ef & _)].
    + destruct (Hout y) as [H1 H2]; [exists n; exact N'|]. tauto.
    + apply under_inj in Ef. apply (Logs f y Hf); [tauto|congruence].
  - exact Cfg.
  - exact Hparse.
  - exact HT.
  - exact Hread.
  - exact Hcomp.
  - left. split; [reflexivity|left; reflexivity].
  - exact Hz.
  - exists fs2, args, c. split; [rewrite typed_demo; exact E|]. split; [exact Rd|]. split; [exact S|].
    destruct P as (P1 & P2 & P3 & P4 & P5 & _ & _ & _ & _ & P6 & P7 & _).
    split; [exact P1|]. split; [exact P2|]. split; [exact P3|]. split; [exact P5|]. split; [exact P4|]. split; [exact P6|]. split; [exact P7|].
    split.
    + intros f Hf. destruct (There f Hf) as (v & V1 & V2). exists v. split; [exact V1|]. apply Same; [|exact V2].
      intros L. destruct (demo_log _ _ _ L) as (y & By & Ey). apply under_inj in Ey. exact (Logs f y Hf (or_introl By) Ey).
    + intros p n Hn. assert (Same' : In (p, n) fs2 <-> In (p, n) fs1).
      2:{ rewrite Same'. split; intros H; [destruct (New _ _ H) as [N|(f & v & Hf & Ef & _)]|destruct (Kept _ _ H) as [K|(_ & f & v & Hf & Ef & _)]]; auto;
          exfalso; apply Hn; exists f; auto. }
      apply Same. intros L. apply Hn. destruct (demo_log _ _ _ L) as (y & By & Ey). exists y. auto.
Qed.

(** With the results of an earlier run in the directory it is refused, and
    nothing changes but the logs. *)
Lemma C120_again_proof : forall F parse (log : F) int_of float_of lc_methods ca_methods stamp environment fresh w fs y,
  proper fs -> found fs (under w y) -> ~ In "/"%char y ->
  begins (txt "testrun_e2e.") y \/ y = txt "testrun_stats.csv" ->
  exists fs' e, typed_in F parse log int_of float_of lc_methods ca_methods stamp environment fresh w get_demo_command fs = (fs', Err e)
    /\ same_but (fun p => exists f, begins (txt "testrun_e2e-") f /\ p = under w f) fs fs'.
Proof.
  intros F parse log int_of float_of lc ca stamp env fresh w fs y Hp [n Hn] Hs Hy. rewrite typed_demo.
  assert (Hl : ~ begins (txt "testrun_e2e-") y) by (intros [b ->]; destruct Hy as [[b' B]|B]; discriminate B).
  pose proof (C82_unforced_proof F parse log int_of float_of lc ca stamp env fresh (demo_run w) fs Hp eq_refl) as Same.
  destruct (execute F parse log int_of float_of lc ca stamp env fresh (demo_run w) fs) as [fs' r] eqn:E. cbn [fst] in Same.
  assert (Same' : same_but (fun p => exists f, begins (txt "testrun_e2e-") f /\ p = under w f) fs fs').
  { intros p m Hm. apply Same. intros L. apply Hm. destruct (demo_log _ _ _ L) as (f & B & Ef). eauto. }
  destruct r as [r|e]; [exfalso|exists fs', e; auto].
  apply (C81_no_old_output_proof F parse log int_of float_of lc ca stamp env fresh (demo_run w) fs fs' r Hp (demo_plain w) eq_refl E (under w y)).
  - exists y. split; [reflexivity|]. split; [exact Hs|]. destruct Hy as [B|B]; [right; right; exact B|right; left; exists (txt "testrun_stats"); split; [reflexivity|exact B]].
  - exists n. apply Same'; [|exact Hn]. intros (f & B & Ef). apply under_inj in Ef. subst f. exact (Hl B).
Qed.
