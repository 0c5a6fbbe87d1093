From Coq Require Import Ascii String List ZArith QArith Bool Lia.
From Verif Require Import Base.Prelude Base.Num Model.Files Model.Config Model.Shipped Model.Startup Spec.Files Spec.Shipped
  Spec.Startup Proofs.Startup Proofs.StartupRefused Proofs.StartupRun.
Import ListNotations.
Open Scope list_scope.

(** * C81: when a run starts *)

(** What holds when the simulation is called: the inputs are there, the
    simulation is the one of the survey, the configuration was accepted and goes
    with the command, the simulation gets the arguments of the command. *)
Theorem C81_started_partial : forall F parse (log : F) int_of float_of lc_methods ca_methods stamp environment fresh a fs fs' sim args c,
  NoDup (map fst fs) ->
  execute F parse log int_of float_of lc_methods ca_methods stamp environment fresh a fs = (fs', Ok (sim, args, c)) ->
  inputs_present fs' a /\ simulates (a_s a) sim
  /\ configured parse int_of float_of lc_methods ca_methods fs' a c /\ compatible c a
  /\ passed_on a (sa_args args) /\ seeded int_of environment fresh (sa_seed args).
Proof. exact C81_started_proof. Qed.
Print Assumptions C81_started_partial.
Theorem C81_no_old_output_partial : forall F parse (log : F) int_of float_of lc_methods ca_methods stamp environment fresh a fs fs' r,
  NoDup (map fst fs) -> plain_names a -> a_f a = false ->
  execute F parse log int_of float_of lc_methods ca_methods stamp environment fresh a fs = (fs', Ok r) ->
  forall p, is_output a p -> ~ found fs' p.
Proof. exact C81_no_old_output_proof. Qed.
Print Assumptions C81_no_old_output_partial.
Theorem C81_forced_partial : forall F parse (log : F) int_of float_of lc_methods ca_methods stamp environment fresh a fs fs' r,
  NoDup (map fst fs) -> plain_names a -> a_f a = true ->
  execute F parse log int_of float_of lc_methods ca_methods stamp environment fresh a fs = (fs', Ok r) ->
  (forall e, a_st a = Some e -> ~ In "/"%char e -> ~ found fs' (entry a (e ++ txt ".csv")))
  /\ ((forall x y, begins (a_t a ++ txt ".") x -> begins (a_t a ++ txt ".") y -> ~ In "/"%char x -> ~ In "/"%char y ->
         found fs (entry a x) -> found fs (entry a y) -> x = y) ->
      forall x, begins (a_t a ++ txt ".") x -> ~ In "/"%char x -> ~ found fs' (entry a x)).
Proof. exact C81_forced_proof. Qed.
Print Assumptions C81_forced_partial.
Theorem C81_optional_partial : forall F parse (log : F) int_of float_of lc_methods ca_methods stamp environment fresh a fs fs' r t,
  NoDup (map fst fs) -> plain_names a ->
  execute F parse log int_of float_of lc_methods ca_methods stamp environment fresh a fs = (fs', Ok r) ->
  (a_cp a = Some t /\ t <> []) \/ a_vd a = Some t -> found fs' t \/ (a_f a = true /\ is_output a t).
Proof. exact C81_optional_proof. Qed.
Print Assumptions C81_optional_partial.

(** A command that is in order does start, and changes only its log files. *)
Theorem C81_starts_partial : forall F parse (log : F) int_of float_of lc_methods ca_methods stamp environment fresh a fs x f there c sim z,
  NoDup (map fst fs) -> plain_names a -> inputs_present fs a -> optional_present fs a ->
  (forall p, is_log stamp a p -> ~ dir_at fs p /\ ~ is_output a p) -> ~ is_log stamp a (a_c a) ->
  (forall p, is_output a p -> ~ found fs p) ->
  In (a_c a, File x) fs -> parse x = Ok f ->
  (forall q, there q = true <-> found fs (txt q) \/ is_log stamp a (txt q)) ->
  read_configs int_of float_of there lc_methods ca_methods f (a_s a) = Ok c ->
  compatible c a -> simulates (a_s a) sim -> seeded int_of environment fresh z ->
  exists fs' args, execute F parse log int_of float_of lc_methods ca_methods stamp environment fresh a fs = (fs', Ok (sim, args, c))
    /\ passed_on a (sa_args args) /\ sa_seed args = z
    /\ same_but (is_log stamp a) fs fs' /\ (forall p, is_log stamp a p -> file_at fs' p).
Proof. exact C81_starts_proof. Qed.
Print Assumptions C81_starts_partial.

(** With a star in the stem a run never starts: it finds its own log file in the
    way. *)
Theorem C81_pattern_refuted : forall F parse (log : F) int_of float_of lc_methods ca_methods stamp environment fresh a fs fs' r,
  NoDup (map fst fs) -> a_t a = txt "run*" -> a_f a = false -> ~ In "/"%char stamp ->
  execute F parse log int_of float_of lc_methods ca_methods stamp environment fresh a fs <> (fs', Ok r).
Proof. exact C81_pattern_refuted_proof. Qed.
Print Assumptions C81_pattern_refuted.

Definition s_int (s : string) : option Z :=
  match s with "20000" => Some 20000 | "5000" => Some 5000 | "1" => Some 1 | "6" => Some 6 | "2" => Some 2 | "3" => Some 3
             | "15" => Some 15 | _ => None end%Z%string.
Definition s_float (s : string) : option num :=
  match s with "2.06" => Some (Fin (206#100)) | "1.3" => Some (Fin (13#10)) | "0.2" => Some (Fin (2#10)) | "16.0" => Some (Fin 16)
             | "0.9" => Some (Fin (9#10)) | "1.75" => Some (Fin (175#100)) | "2." => Some (Fin 2) | "0.1" => Some (Fin (1#10))
             | "1." => Some (Fin 1) | "0.95" => Some (Fin (95#100)) | "0.5" => Some (Fin (5#10))
             | "0.0625" => Some (Fin (625#10000)) | "0.95529" => Some (Fin (95529#100000)) | _ => None end%string.
(** The command of the documentation's demonstration. *)
Definition s_cmd (force : bool) (stem survey : string) : command :=
  {| a_p := txt "sspp_testset_colours.txt"; a_ob := txt "sspp_testset_orbits.des"; a_c := txt "sorcha_config_demo.ini";
     a_o := txt "."; a_pd := txt "baseline_v2.0_1yr.db"; a_er := None; a_ew := Some (txt "testrun_ephem"); a_ar := None;
     a_cp := None; a_f := force; a_s := survey; a_t := txt stem; a_st := Some (txt "testrun_stats"); a_vd := None |}.
Definition s_fs (more : list (text * node config_file)) : list (text * node config_file) :=
  [(txt ".", Dir); (txt "sspp_testset_colours.txt", File []); (txt "sspp_testset_orbits.des", File []);
   (txt "baseline_v2.0_1yr.db", File []); (txt "sorcha_config_demo.ini", File demo)] ++ more.
Definition s_run (env : option string) (a : command) (fs : list (text * node config_file)) :=
  execute config_file (fun x => Ok x) [] s_int s_float [] [] (txt "2026-11-16-09-00-00-p321") env 7%Z a fs.
Example C81_case :
  NoDup (map fst (s_fs [])) /\ plain_names (s_cmd false "testrun" "rubin_sim")
  /\ inputs_present (s_fs []) (s_cmd false "testrun" "rubin_sim") /\ optional_present (s_fs []) (s_cmd false "testrun" "rubin_sim")
  /\ (forall p, is_log (txt "2026-11-16-09-00-00-p321") (s_cmd false "testrun" "rubin_sim") p ->
        ~ dir_at (s_fs []) p /\ ~ is_output (s_cmd false "testrun" "rubin_sim") p)
  /\ (exists r, s_run (Some "15"%string) (s_cmd false "testrun" "rubin_sim") (s_fs [])
       = (s_fs [(txt "./testrun-2026-11-16-09-00-00-p321-sorcha.log", File []);
                (txt "./testrun-2026-11-16-09-00-00-p321-sorcha.err", File [])], Ok r)
       /\ fst (fst r) = runLSSTSimulation /\ sa_seed (snd (fst r)) = 15%Z /\ outfilestem (sa_args (snd (fst r))) = txt "testrun")
  /\ snd (s_run None (s_cmd false "testrun" "rubin_sim") (s_fs [(txt "./testrun.csv", File [])])) = Err SysExit
  /\ snd (s_run None (s_cmd false "testrun" "LSST") (s_fs [])) = Err SysExit.
Proof.
  split; [repeat (constructor; [vm_compute; intuition discriminate|]); constructor|].
  split; [split; [vm_compute; intuition discriminate|split; intros e E; injection E as <-; vm_compute; intuition discriminate]|].
  split; [repeat split; try (eexists; cbn; tauto); try (cbn; tauto); intros t E; discriminate|].
  split; [split; intros t E; discriminate|]. split.
  - intros p H. cbn [map log_names is_log In] in H. split.
    + destruct H as [<-|[<-|[]]]; cbn; intuition discriminate.
    + intros (x & E & _ & O). destruct H as [<-|[<-|[]]]; apply join_inj in E; subst x;
        (destruct O as [(e & Q & _ & b & B)|[(e & Q & B)|(b & B)]]; [injection Q as <-|injection Q as <-|]; discriminate B).
  - split; [|split; vm_compute; reflexivity]. eexists. split; [vm_compute; reflexivity|repeat split].
Qed.

Example C81_forced_case :
  exists r, s_run (Some "15"%string) (s_cmd true "testrun" "rubin_sim") (s_fs [(txt "./testrun.csv", File []); (txt "./testrun_stats.csv", File [])])
  = (s_fs [(txt "./testrun-2026-11-16-09-00-00-p321-sorcha.log", File []);
           (txt "./testrun-2026-11-16-09-00-00-p321-sorcha.err", File [])], Ok r).
Proof. eexists. vm_compute. reflexivity. Qed.

(** * C82: files in place *)

Theorem C82_unforced_partial : forall F parse (log : F) int_of float_of lc_methods ca_methods stamp environment fresh a fs,
  NoDup (map fst fs) -> a_f a = false ->
  same_but (is_log stamp a) fs
    (fst (execute F parse log int_of float_of lc_methods ca_methods stamp environment fresh a fs)).
Proof. exact C82_unforced_proof. Qed.
Print Assumptions C82_unforced_partial.
Theorem C82_forced_partial : forall F parse (log : F) int_of float_of lc_methods ca_methods stamp environment fresh a fs,
  NoDup (map fst fs) -> plain_names a ->
  same_but (fun p => is_log stamp a p \/ is_output a p) fs
    (fst (execute F parse log int_of float_of lc_methods ca_methods stamp environment fresh a fs)).
Proof. exact C82_forced_proof. Qed.
Print Assumptions C82_forced_partial.
Theorem C82_missing_partial : forall F parse (log : F) int_of float_of lc_methods ca_methods stamp environment fresh a fs t fs' r,
  NoDup (map fst fs) -> required_path a t -> ~ found fs t -> ~ is_log stamp a t ->
  execute F parse log int_of float_of lc_methods ca_methods stamp environment fresh a fs = (fs', r) ->
  same_but (is_log stamp a) fs fs' /\ exists e, r = Err e.
Proof. exact C82_missing_proof. Qed.
Print Assumptions C82_missing_partial.
Theorem C82_ar_partial : forall F parse (log : F) int_of float_of lc_methods ca_methods stamp environment fresh a fs t fs' r,
  NoDup (map fst fs) -> plain_names a -> a_ar a = Some t -> t <> [] -> ~ dir_at fs t ->
  execute F parse log int_of float_of lc_methods ca_methods stamp environment fresh a fs = (fs', r) ->
  same_but (fun p => is_log stamp a p \/ is_early_output a p) fs fs' /\ exists e, r = Err e.
Proof. exact C82_ar_proof. Qed.
Print Assumptions C82_ar_partial.

(** With -f earlier results are deleted before the survey name and the
    configuration are checked. *)
Theorem C82_forced_refuted : exists F parse (log : F) int_of float_of lc_methods ca_methods stamp environment fresh a fs fs' p,
  NoDup (map fst fs) /\ plain_names a /\ reads_decimals int_of float_of /\ inputs_present fs a /\ file_at fs p
  /\ execute F parse log int_of float_of lc_methods ca_methods stamp environment fresh a fs = (fs', Err SysExit) /\ ~ found fs' p.
Proof. exact C82_forced_refuted_proof. Qed.
Print Assumptions C82_forced_refuted.

Example C82_case :
  fst (s_run None (s_cmd false "testrun" "lsst") (s_fs [(txt "./old.csv", File [])]))
  = s_fs [(txt "./old.csv", File []); (txt "./testrun-2026-11-16-09-00-00-p321-sorcha.log", File []);
          (txt "./testrun-2026-11-16-09-00-00-p321-sorcha.err", File [])]
  /\ fst (s_run None (s_cmd true "testrun" "lsst") (s_fs [(txt "./testrun.csv", File []); (txt "./old.csv", File [])]))
  = s_fs [(txt "./old.csv", File []); (txt "./testrun-2026-11-16-09-00-00-p321-sorcha.log", File []);
          (txt "./testrun-2026-11-16-09-00-00-p321-sorcha.err", File [])].
Proof. split; vm_compute; reflexivity. Qed.

(** With -f: a missing file of parameters removes nothing; a missing directory for
    --ar removes the old ephemeris, but not the old results. *)
Definition s_ar : command :=
  {| a_p := txt "sspp_testset_colours.txt"; a_ob := txt "sspp_testset_orbits.des"; a_c := txt "sorcha_config_demo.ini";
     a_o := txt "."; a_pd := txt "baseline_v2.0_1yr.db"; a_er := None; a_ew := Some (txt "testrun_ephem"); a_ar := Some (txt "ar_files");
     a_cp := None; a_f := true; a_s := "rubin_sim"; a_t := txt "testrun"; a_st := None; a_vd := None |}.
Definition s_old : list (text * node config_file) := [(txt "./testrun.csv", File []); (txt "./testrun_ephem.csv", File [])].
Example C82_refused_case :
  required_path s_ar (txt "sspp_testset_colours.txt") /\ plain_names s_ar /\ ~ dir_at (s_fs s_old) (txt "ar_files")
  /\ (let r := s_run None s_ar (skipn 2 (s_fs s_old) ++ [(txt ".", Dir)]) in
      snd r = Err SysExit /\ file_at (fst r) (txt "./testrun.csv") /\ file_at (fst r) (txt "./testrun_ephem.csv"))
  /\ (let r := s_run None s_ar (s_fs s_old) in
      snd r = Err SysExit /\ file_at (fst r) (txt "./testrun.csv") /\ ~ found (fst r) (txt "./testrun_ephem.csv")).
Proof.
  split; [left; left; reflexivity|].
  split; [split; [vm_compute; intuition discriminate|split; intros e E; [injection E as <-; vm_compute; intuition discriminate|discriminate]]|].
  split; [cbn; intuition discriminate|]. split.
  - split; [vm_compute; reflexivity|]. split; exists []; vm_compute; tauto.
  - split; [vm_compute; reflexivity|]. split; [exists []; vm_compute; tauto|]. intros [n H]. vm_compute in H. intuition discriminate.
Qed.

(** * C83: error messages *)

Theorem C83_errors_partial : forall F parse (log : F) int_of float_of lc_methods ca_methods stamp environment fresh a fs fs' e,
  NoDup (map fst fs) -> plain_names a ->
  execute F parse log int_of float_of lc_methods ca_methods stamp environment fresh a fs = (fs', Err e) ->
  e = SysExit
  \/ (e = OSError /\ (~ dir_at fs (a_o a) \/ (exists p, is_log stamp a p /\ dir_at fs p)
       \/ (a_f a = true /\ exists p, is_output a p /\ dir_at fs p) \/ ~ file_at fs' (a_c a)))
  \/ (exists x, In (a_c a, File x) fs' /\ parse x = Err e)
  \/ (exists x f there, In (a_c a, File x) fs' /\ parse x = Ok f /\ (forall q, there q = true <-> found fs' (txt q))
       /\ read_configs int_of float_of there lc_methods ca_methods f (a_s a) = Err e)
  \/ (e = KeyError /\ (forall t, a_cp a = Some t -> t = []) /\ exists c m,
       configured parse int_of float_of lc_methods ca_methods fs' a c /\ m <> ""%string
       /\ (c_lightcurve c = Some m \/ c_activity c = Some m))
  \/ (e = ValueError /\ exists v, environment = Some v /\ int_of v = None).
Proof. exact C83_errors_proof. Qed.
Print Assumptions C83_errors_partial.

(** A light curve model without its parameter file, a seed that is not an
    integer, an output path that is a file. *)
Theorem C83_model_refuted : exists F parse (log : F) int_of float_of lc_methods ca_methods stamp fresh a fs fs',
  NoDup (map fst fs) /\ plain_names a /\ reads_decimals int_of float_of /\ inputs_present fs a /\ a_cp a = None
  /\ (exists c, configured parse int_of float_of lc_methods ca_methods fs a c /\ c_lightcurve c = Some "sine"%string)
  /\ execute F parse log int_of float_of lc_methods ca_methods stamp None fresh a fs = (fs', Err KeyError).
Proof. exact C83_model_refuted_proof. Qed.
Print Assumptions C83_model_refuted.
Theorem C83_seed_refuted : exists F parse (log : F) int_of float_of lc_methods ca_methods stamp fresh a fs fs',
  NoDup (map fst fs) /\ plain_names a /\ reads_decimals int_of float_of /\ inputs_present fs a
  /\ execute F parse log int_of float_of lc_methods ca_methods stamp (Some "1.5"%string) fresh a fs = (fs', Err ValueError)
  /\ exists fs'' r, execute F parse log int_of float_of lc_methods ca_methods stamp (Some "15"%string) fresh a fs = (fs'', Ok r).
Proof. exact C83_seed_refuted_proof. Qed.
Print Assumptions C83_seed_refuted.
Theorem C83_outfile_refuted : forall F parse (log : F) int_of float_of lc_methods ca_methods stamp environment fresh a fs,
  NoDup (map fst fs) -> file_at fs (a_o a) ->
  execute F parse log int_of float_of lc_methods ca_methods stamp environment fresh a fs = (fs, Err OSError).
Proof. exact C83_outfile_refuted_proof. Qed.
Print Assumptions C83_outfile_refuted.

Example C83_case :
  snd (s_run None (s_cmd false "testrun" "rubin_sim") [(txt ".", Dir)]) = Err SysExit
  /\ snd (s_run None (s_cmd false "testrun" "rubin") (s_fs [])) = Err SysExit
  /\ snd (s_run (Some "x"%string) (s_cmd false "testrun" "rubin_sim") (s_fs [])) = Err ValueError
  /\ s_run None (s_cmd false "testrun" "rubin_sim") [(txt ".", File [])] = ([(txt ".", File [])], Err OSError).
Proof. repeat split; vm_compute; reflexivity. Qed.

(** * C84: inputs survive -f *)

Theorem C84_kept_partial : forall F parse (log : F) int_of float_of lc_methods ca_methods stamp environment fresh a fs p x,
  NoDup (map fst fs) -> plain_names a -> ~ is_log stamp a p ->
  (forall y, p = a_o a ++ txt "/" ++ y -> ~ output_name a y) -> In (p, x) fs ->
  In (p, x) (fst (execute F parse log int_of float_of lc_methods ca_methods stamp environment fresh a fs)).
Proof. exact C84_kept_proof. Qed.
Print Assumptions C84_kept_partial.

(** An object file in the output directory that is named like the results is
    deleted; with a file of complex parameters the simulation even starts
    without it. *)
Theorem C84_input_refuted : exists F parse (log : F) int_of float_of lc_methods ca_methods stamp environment fresh a fs fs',
  NoDup (map fst fs) /\ plain_names a /\ reads_decimals int_of float_of /\ inputs_present fs a
  /\ execute F parse log int_of float_of lc_methods ca_methods stamp environment fresh a fs = (fs', Err SysExit)
  /\ ~ found fs' (a_p a).
Proof. exact C84_input_refuted_proof. Qed.
Print Assumptions C84_input_refuted.
Theorem C84_missing_refuted : exists F parse (log : F) int_of float_of lc_methods ca_methods stamp environment fresh a fs fs' r t,
  NoDup (map fst fs) /\ plain_names a /\ reads_decimals int_of float_of /\ a_cp a = Some t /\ t <> [] /\ file_at fs t
  /\ execute F parse log int_of float_of lc_methods ca_methods stamp environment fresh a fs = (fs', Ok r)
  /\ complex_physical_parameters (sa_args (snd (fst r))) = Some t /\ ~ found fs' t.
Proof. exact C84_missing_refuted_proof. Qed.
Print Assumptions C84_missing_refuted.

Example C84_case :
  (forall y, txt "sspp_testset_colours.txt" = a_o (s_cmd true "testrun" "rubin_sim") ++ txt "/" ++ y ->
     ~ output_name (s_cmd true "testrun" "rubin_sim") y)
  /\ In (txt "sspp_testset_colours.txt", File [])
       (fst (s_run None (s_cmd true "testrun" "rubin_sim") (s_fs [(txt "./testrun.csv", File [])])))
  /\ ~ In (txt "./testrun.csv", File [])
       (fst (s_run None (s_cmd true "testrun" "rubin_sim") (s_fs [(txt "./testrun.csv", File [])]))).
Proof. split; [intros y E; discriminate|]. split; vm_compute; intuition discriminate. Qed.
