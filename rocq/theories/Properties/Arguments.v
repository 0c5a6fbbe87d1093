(** * C104: reading the command line *)
From Coq Require Import Ascii String List Arith Bool.
From Verif Require Import Base.Prelude Model.Files Model.Startup Model.Arguments Spec.Arguments Proofs.Arguments.
Import ListNotations.
Open Scope list_scope.

Theorem C104_command_partial : forall g argv, accepted run_options g argv -> exists c, asks_for g c /\ forall c', asks_for g c' -> c' = c.
Proof. exact C104_command_proof. Qed.
Print Assumptions C104_command_partial.
Theorem C104_run_partial : forall F parse (log : F) int_of float_of lc_methods ca_methods stamp environment fresh argv g c fs fs' r,
  accepted run_options g argv -> asks_for g c ->
  execute F parse log int_of float_of lc_methods ca_methods stamp environment fresh c fs = (fs', r) ->
  match r with
  | Ok x => exists verbose, run_main F parse log int_of float_of lc_methods ca_methods stamp environment fresh argv fs = (fs', Ok (x, verbose))
  | Err e => run_main F parse log int_of float_of lc_methods ca_methods stamp environment fresh argv fs = (fs', Err e)
  end.
Proof. exact C104_run_proof. Qed.
Print Assumptions C104_run_partial.
Theorem C104_only_partial : forall F parse (log : F) int_of float_of lc_methods ca_methods stamp environment fresh argv fs fs' x verbose,
  run_main F parse log int_of float_of lc_methods ca_methods stamp environment fresh argv fs = (fs', Ok (x, verbose)) ->
  exists g c, accepted run_options g argv /\ asks_for g c
    /\ execute F parse log int_of float_of lc_methods ca_methods stamp environment fresh c fs = (fs', Ok x).
Proof. exact C104_only_proof. Qed.
Print Assumptions C104_only_partial.
Theorem C104_refused_partial : forall F parse (log : F) int_of float_of lc_methods ca_methods stamp environment fresh argv fs,
  (forall g, ~ accepted run_options g argv) ->
  run_main F parse log int_of float_of lc_methods ca_methods stamp environment fresh argv fs = (fs, Err SysExit).
Proof. exact C104_refused_proof. Qed.
Print Assumptions C104_refused_partial.
Theorem C104_help_partial : forall F parse (log : F) int_of float_of lc_methods ca_methods stamp environment fresh argv g fs,
  line run_options g argv -> In "help"%string (map fst g) ->
  parse_args run_parser argv = Shown
  /\ run_main F parse log int_of float_of lc_methods ca_methods stamp environment fresh argv fs = (fs, Err SysExit).
Proof. exact C104_help_proof. Qed.
Print Assumptions C104_help_partial.
Theorem C104_others_partial : forall argv g,
  (parse_args init_parser argv = Parsed g <-> accepted init_options g argv)
  /\ (parse_args bootstrap_parser argv = Parsed g <-> accepted bootstrap_options g argv)
  /\ (parse_args cite_parser argv = Parsed g <-> accepted cite_options g argv)
  /\ (parse_sub demo_parsers argv = Parsed (Some (txt "prepare", g)) <->
      exists rest, argv = txt "prepare" :: rest /\ accepted prepare_options g rest)
  /\ (parse_sub outputs_parsers argv = Parsed (Some (txt "create-sqlite", g)) <->
      exists rest, argv = txt "create-sqlite" :: rest /\ accepted create_sqlite_options g rest)
  /\ (parse_sub outputs_parsers argv = Parsed (Some (txt "check-logs", g)) <->
      exists rest, argv = txt "check-logs" :: rest /\ accepted check_logs_options g rest).
Proof. exact C104_others_proof. Qed.
Print Assumptions C104_others_partial.
Theorem C104_dash_refuted : forall F parse (log : F) int_of float_of lc_methods ca_methods stamp environment fresh before g d n v after fs,
  line run_options g before -> In d run_options -> name_of d n -> d_value d = true ->
  (exists w, w <> [] /\ v = "-"%char :: w) -> ~ numeral v -> ~ In " "%char v ->
  run_main F parse log int_of float_of lc_methods ca_methods stamp environment fresh (before ++ n :: v :: after) fs = (fs, Err SysExit).
Proof. exact C104_dash_refuted_proof. Qed.
Print Assumptions C104_dash_refuted.
Theorem C104_level_refuted : forall F parse (log : F) int_of float_of lc_methods ca_methods stamp environment fresh argv g fs fs' x verbose,
  accepted run_options g argv ->
  run_main F parse log int_of float_of lc_methods ca_methods stamp environment fresh argv fs = (fs', Ok (x, verbose)) ->
  (verbose = false <-> In "l"%string (map fst g)).
Proof. exact C104_level_refuted_proof. Qed.
Print Assumptions C104_level_refuted.

(** Letters in one argument, a shortened name, a value after an equals sign, a
    value glued to its letter, an option given twice. *)
Definition case_line : list text :=
  map txt ["-fc"; "old.ini"; "--out=a=b"; "--orbits"; "-"; "-pphys.csv"; "--pd"; "x y.db"; "-c"; "new.ini"; "--vis"; "-.5"]%string.
Definition case_settings : list (string * option text) :=
  [("f", None); ("c", Some (txt "old.ini")); ("o", Some (txt "a=b")); ("ob", Some (txt "-")); ("p", Some (txt "phys.csv"));
   ("pd", Some (txt "x y.db")); ("c", Some (txt "new.ini")); ("vd", Some (txt "-.5"))]%string.
Definition case_command : command :=
  {| a_p := txt "phys.csv"; a_ob := txt "-"; a_c := txt "new.ini"; a_o := txt "a=b"; a_pd := txt "x y.db";
     a_er := None; a_ew := None; a_ar := None; a_cp := None; a_f := true; a_s := "rubin_sim"; a_t := txt "SSPPOutput";
     a_st := None; a_vd := Some (txt "-.5") |}.
Example C104_case :
  accepted run_options case_settings case_line /\ asks_for case_settings case_command
  /\ accepted check_logs_options [("force", None); ("filepath", Some (txt "logs"))]%string (map txt ["--forc"; "-f"; "logs"]%string)
  /\ (forall g, ~ accepted run_options g (map txt ["-c"; "x.ini"; "--p"; "y"]%string))
  /\ parse_args run_parser (map txt ["-lh"]%string) = Shown.
Proof.
  assert (A : accepted run_options case_settings case_line) by (apply (args_iff _ _ table_run); reflexivity).
  split; [exact A|]. split; [exact (asks_for_namespace _ _ A)|].
  split; [apply (known_iff _ _ table_check); reflexivity|].
  split; [|reflexivity]. intros g H. apply (args_iff _ _ table_run) in H. discriminate.
Qed.
