From Coq Require Import Ascii String List Arith ZArith QArith Bool Lia.
From Verif Require Import Base.Prelude Base.Num Model.Files Model.Config Model.Shipped Model.Startup Model.Arguments Model.FrontEnds
  Model.Demo Spec.Files Spec.Startup Spec.Shipped Spec.FrontEnds Proofs.Startup Proofs.StartupRun Proofs.FrontEnds Proofs.Demo.
Import ListNotations.
Open Scope list_scope.

(** * C120: the demonstration *)

Theorem C120_started : forall F parse (log : F) int_of float_of lc_methods ca_methods stamp environment fresh demos w force fs fs1 x z,
  proper fs -> NoDup (map fst demos) -> reads_decimals int_of float_of -> seeded int_of environment fresh z ->
  In (txt "sorcha_config_demo.ini", x) demos -> parse x = Ok demo ->
  (forall y, found fs (under w y) -> ~ begins (txt "testrun_e2e.") y /\ y <> txt "testrun_stats.csv") ->
  (forall y, begins (txt "testrun_e2e-") y -> ~ dir_at fs (under w y)) ->
  demo_prepare F demos w force fs = (fs1, Ok tt) ->
  exists fs2 args c,
    typed_in F parse log int_of float_of lc_methods ca_methods stamp environment fresh w get_demo_command fs1
      = (fs2, Ok (runLSSTSimulation, args, c))
    /\ rubin_detection c /\ sa_seed args = z
    /\ paramsinput (sa_args args) = under w (txt "sspp_testset_colours.txt")
    /\ orbinfile (sa_args args) = under w (txt "sspp_testset_orbits.des")
    /\ configfile (sa_args args) = under w (txt "sorcha_config_demo.ini")
    /\ pointing_database (sa_args args) = under w (txt "baseline_v2.0_1yr.db")
    /\ outpath (sa_args args) = w /\ outfilestem (sa_args args) = txt "testrun_e2e" /\ stats (sa_args args) = Some (txt "testrun_stats")
    /\ (forall f, demo_file f -> exists v, In (f, v) demos /\ In (under w f, File v) fs2)
    /\ same_but (fun p => exists f, (demo_file f \/ begins (txt "testrun_e2e-") f) /\ p = under w f) fs fs2.
Proof. exact C120_started_proof. Qed.
Print Assumptions C120_started.
Theorem C120_again : forall F parse (log : F) int_of float_of lc_methods ca_methods stamp environment fresh w fs y,
  proper fs -> found fs (under w y) -> ~ In "/"%char y ->
  begins (txt "testrun_e2e.") y \/ y = txt "testrun_stats.csv" ->
  exists fs' e, typed_in F parse log int_of float_of lc_methods ca_methods stamp environment fresh w get_demo_command fs = (fs', Err e)
    /\ same_but (fun p => exists f, begins (txt "testrun_e2e-") f /\ p = under w f) fs fs'.
Proof. exact C120_again_proof. Qed.
Print Assumptions C120_again.

(** A directory with a note of the user in it: the files are copied, the line
    printed starts the run, and the line typed again after results were written
    is refused. *)
Definition case120_demos : list (text * config_file) :=
  [(txt "sorcha_config_demo.ini", demo); (txt "sspp_testset_colours.txt", []); (txt "sspp_testset_orbits.des", []);
   (txt "baseline_v2.0_1yr.db", [])].
Definition case120_fs : list (text * node config_file) := [(txt "/w", Dir); (txt "/w/notes", File [])].
Example C120_case :
  proper case120_fs /\ NoDup (map fst case120_demos) /\ reads_decimals ex_int ex_float /\ seeded ex_int None 7 7
  /\ (forall y, found case120_fs (under (txt "/w") y) -> ~ begins (txt "testrun_e2e.") y /\ y <> txt "testrun_stats.csv")
  /\ (forall y, begins (txt "testrun_e2e-") y -> ~ dir_at case120_fs (under (txt "/w") y))
  /\ exists fs1, demo_prepare config_file case120_demos (txt "/w") false case120_fs = (fs1, Ok tt) /\ length fs1 = 6%nat
     /\ (exists fs2 args c, typed_in config_file (fun x => Ok x) [] ex_int ex_float [] [] (txt "now-p1") None 7 (txt "/w") get_demo_command fs1
           = (fs2, Ok (runLSSTSimulation, args, c)) /\ length fs2 = 8%nat)
     /\ (exists fs2, typed_in config_file (fun x => Ok x) [] ex_int ex_float [] [] (txt "now-p1") None 7 (txt "/w") get_demo_command
           (fs1 ++ [(txt "/w/testrun_e2e.csv", File [])]) = (fs2, Err SysExit)).
Proof.
  split; [apply names_nodup; vm_compute; reflexivity|]. split; [apply names_nodup; vm_compute; reflexivity|].
  split; [exact ex_reads|]. split; [reflexivity|]. split; [|split].
  - intros y [n [E|[E|[]]]]; [discriminate E|]. injection E as E _. rewrite <- E. split; [intros [b B]; discriminate B|discriminate].
  - intros y [b ->] [E|[E|[]]]; discriminate E.
  - eexists. split; [vm_compute; reflexivity|]. split; [reflexivity|]. split.
    + eexists. eexists. eexists. split; [vm_compute; reflexivity|]. reflexivity.
    + eexists. vm_compute. reflexivity.
Qed.
