(** Starting a run: src/sorcha_cmdline/run.py (called run.py below), the command
    line parser, the checks of the arguments.  Other paths are relative to
    /repo/src/sorcha.

    Every file has one path, written without trailing separator; links, file
    permissions and the current directory are left out.  What is written to the
    logs is not modelled, only that the two log files exist. *)
From Coq Require Import Ascii String List Arith ZArith Bool.
From Verif Require Import Base.Prelude Base.Num Model.Files Model.Config.
Import ListNotations.
Open Scope list_scope.

Section Startup.
(** What files contain, the text that configparser finds in a configuration
    (utilities/sorchaConfigs.py:1225-1226; its own errors are among the
    failures), and the first contents of a log file. *)
Variable F : Type.
Variable parse : F -> result config_file.
Variable log : F.
(** Python's [int] and [float] on strings and the registries of models, see
    Model/Config.v. *)
Variables (int_of : string -> option Z) (float_of : string -> option num).
Variables lc_methods ca_methods : list string.
(** utilities/sorchaGetLogger.py:52-53: date and process number; run.py:186:
    the environment variable; utilities/sorchaArguments.py:89: the seed that
    the system provides. *)
Variable stamp : text.
Variable environment : option string.
Variable fresh : Z.

(** ** The file system *)

(** What a path leads to, utilities/sorchaArguments.py:93-110. *)
Inductive node := File (contents : F) | Dir.
(** All paths, in the order in which directories are listed
    (utilities/sorchaCommandLineParser.py:25). *)
Notation files := (list (text * node)).
(** utilities/fileAccessUtils.py:27 and utilities/sorchaArguments.py:93. *)
Definition stat (p : text) (fs : files) : option node :=
  match find (fun x => text_eqb (fst x) p) fs with Some x => Some (snd x) | None => None end.
(** [os.path.exists], utilities/fileAccessUtils.py:27. *)
Definition path_exists (p : text) (fs : files) : bool := match stat p fs with Some _ => true | None => false end.
(** [os.path.isfile], utilities/sorchaArguments.py:93. *)
Definition is_file (p : text) (fs : files) : bool := match stat p fs with Some (File _) => true | _ => false end.
(** [os.path.isdir], utilities/fileAccessUtils.py:54. *)
Definition is_dir (p : text) (fs : files) : bool := match stat p fs with Some Dir => true | _ => false end.

(** utilities/sorchaCommandLineParser.py:88: the separator. *)
Definition slash : ascii := "/".
(** [os.path.join], utilities/sorchaCommandLineParser.py:88, for a second part
    that is not an absolute path. *)
Definition join (d n : text) : text := d ++ [slash] ++ n.
(** What follows a prefix, for [names_in]
    (utilities/sorchaCommandLineParser.py:25). *)
Fixpoint after (p s : text) : option text :=
  match p, s with
  | [], _ => Some s
  | a :: p', b :: s' => if Ascii.eqb a b then after p' s' else None
  | _ :: _, [] => None
  end.
(** The entries of a directory, as [glob.glob] reads them
    (utilities/sorchaCommandLineParser.py:25). *)
Definition names_in (d : text) (fs : files) : list text :=
  flat_map (fun x => match after (join d []) (fst x) with
                     | Some [] | None => []
                     | Some n => if existsb (Ascii.eqb slash) n then [] else [n]
                     end) fs.

(** Steps of a program that change files and may fail: run.py:136. *)
Definition step (A : Type) := files -> files * result A.
(** run.py:136. *)
Definition done {A} (a : A) : step A := fun fs => (fs, Ok a).
(** run.py:136. *)
Definition fail {A} (e : failure) : step A := fun fs => (fs, Err e).
(** One statement after another, run.py:136. *)
Definition next {A B} (m : step A) (k : A -> step B) : step B :=
  fun fs => match m fs with (fs', Ok a) => k a fs' | (fs', Err e) => (fs', Err e) end.
(** A check that changes nothing, for example utilities/fileAccessUtils.py:27-31. *)
Definition check (b : files -> bool) (e : failure) : step unit := fun fs => (fs, if b fs then Ok tt else Err e).
Local Notation "x <-- m ;; k" := (next m (fun x => k)) (at level 80, m at next level, right associativity).

(** utilities/fileAccessUtils.py:6-31. *)
Definition FindFileOrExit (p : text) : step unit := check (path_exists p) SysExit.
(** utilities/fileAccessUtils.py:34-58. *)
Definition FindDirectoryOrExit (p : text) : step unit := check (is_dir p) SysExit.

(** Opening a file for writing, utilities/sorchaGetLogger.py:58: replaces what
    was there. *)
Definition write_file (p : text) (c : F) (fs : files) : files :=
  if path_exists p fs then map (fun x => if text_eqb (fst x) p then (p, File c) else x) fs
  else fs ++ [(p, File c)].
(** utilities/sorchaGetLogger.py:55-56. *)
Definition log_path (d stem : text) (suffix : string) : text :=
  join d (stem ++ txt "-" ++ stamp ++ txt "-sorcha." ++ txt suffix).
(** utilities/sorchaGetLogger.py:58 and 63; a directory cannot be opened. *)
Definition open_log (p : text) : step unit := fun fs =>
  if is_dir p fs then (fs, Err OSError) else (write_file p log fs, Ok tt).
(** utilities/sorchaGetLogger.py:44-70: the files are opened at once; this fails
    if the output path is not a directory.  (A stem with a separator is left
    out.) *)
Definition sorchaGetLogger (d stem : text) : step unit :=
  _ <-- check (is_dir d) OSError ;;
  _ <-- open_log (log_path d stem "log") ;;
  open_log (log_path d stem "err").

(** [os.remove], utilities/sorchaCommandLineParser.py:29; directories are not
    removed. *)
Definition remove (p : text) : step unit := fun fs =>
  match stat p fs with
  | Some (File _) => (filter (fun x => negb (text_eqb (fst x) p)) fs, Ok tt)
  | _ => (fs, Err OSError)
  end.
(** utilities/sorchaCommandLineParser.py:25-36, for a pattern in directory [d],
    whose path has no pattern characters. *)
Definition warn_or_remove (d pattern : text) (force : bool) : step unit := fun fs =>
  match glob pattern (names_in d fs) with
  | [] => (fs, Ok tt)
  | n :: _ => if force then remove (join d n) fs else (fs, Err SysExit)
  end.

(** ** The command *)

(** run.py:16-129. *)
Record command := { a_p : text; a_ob : text; a_c : text; a_o : text; a_pd : text;
  a_er : option text; a_ew : option text; a_ar : option text; a_cp : option text; a_f : bool; a_s : string;
  a_t : text; a_st : option text; a_vd : option text }.
(** Truth value of an optional argument, utilities/sorchaCommandLineParser.py:67. *)
Definition given (v : option text) : option text := match v with Some [] | None => None | Some t => Some t end.
(** A step for an optional argument, utilities/sorchaCommandLineParser.py:67-70. *)
Definition if_given (v : option text) (k : text -> step unit) : step unit :=
  match v with Some t => k t | None => done tt end.

(** The dictionary of utilities/sorchaCommandLineParser.py:59-103;
    [complex_physical_parameters] is absent ([None]) unless given (line 67). *)
Record cmd_args := { paramsinput : text; orbinfile : text; configfile : text; outpath : text;
  pointing_database : text; complex_physical_parameters : option text; input_ephemeris_file : option text;
  output_ephemeris_file : option text; visits_database : option text; surveyname : string; outfilestem : text;
  stats : option text; ar_data_path : option text }.

(** utilities/sorchaCommandLineParser.py:39-115. *)
Definition sorchaCommandLineParser (a : command) : step cmd_args :=
  _ <-- FindFileOrExit (a_p a) ;;
  _ <-- FindFileOrExit (a_ob a) ;;
  _ <-- FindFileOrExit (a_c a) ;;
  _ <-- FindFileOrExit (a_o a) ;;
  _ <-- FindFileOrExit (a_pd a) ;;
  _ <-- if_given (given (a_cp a)) FindFileOrExit ;;
  _ <-- if_given (a_vd a) FindFileOrExit ;;
  _ <-- if_given (given (a_ew a)) (fun e => warn_or_remove (a_o a) (e ++ txt ".*") (a_f a)) ;;
  _ <-- if_given (a_st a) (fun e => warn_or_remove (a_o a) (e ++ txt ".csv") (a_f a)) ;;
  _ <-- if_given (given (a_ar a)) FindDirectoryOrExit ;;
  _ <-- warn_or_remove (a_o a) (a_t a ++ txt ".*") (a_f a) ;;
  done {| paramsinput := a_p a; orbinfile := a_ob a; configfile := a_c a; outpath := a_o a;
          pointing_database := a_pd a; complex_physical_parameters := given (a_cp a);
          input_ephemeris_file := a_er a; output_ephemeris_file := a_ew a; visits_database := a_vd a;
          surveyname := a_s a; outfilestem := a_t a; stats := a_st a; ar_data_path := a_ar a |}.

(** utilities/sorchaConfigs.py:1214-1229 and run.py:172: the file is opened and
    read.  A directory cannot be opened.  [footprint_path] is looked for among the
    files (utilities/sorchaConfigs.py:368). *)
Definition sorchaConfigs (p : text) (survey : string) : step configs := fun fs =>
  (fs, match stat p fs with
       | Some (File c) =>
           (f <- parse c ;;
            read_configs int_of float_of (fun q => path_exists (txt q) fs) lc_methods ca_methods f survey)%result
       | _ => Err OSError
       end).

(** What the simulation is started with: utilities/sorchaArguments.py:54-90. *)
Record sorchaArguments := { sa_args : cmd_args; sa_seed : Z }.

(** utilities/sorchaArguments.py:92-110; the exceptions are turned into an exit by
    run.py:215-217 and 238-240. *)
Definition validate_arguments (a : cmd_args) : step unit :=
  _ <-- check (is_file (paramsinput a)) SysExit ;;
  _ <-- check (is_file (orbinfile a)) SysExit ;;
  _ <-- if_given (given (input_ephemeris_file a)) (fun p => check (is_file p) SysExit) ;;
  _ <-- check (is_file (configfile a)) SysExit ;;
  _ <-- check (is_file (pointing_database a)) SysExit ;;
  if_given (given (ar_data_path a)) (fun p => check (is_dir p) SysExit).

(** run.py:207-242: which simulation is called. *)
Inductive simulator := runLSSTSimulation | runDESSimulation.

(** run.py:175-205: the checks on command line and configuration, the seed
    between them. *)
Definition run_checks (c : configs) (a : cmd_args) : step Z :=
  _ <-- check (fun _ => negb (String.eqb (in_ephemerides_type (c_input c)) "external"
                              && match input_ephemeris_file a with None => true | Some _ => false end)) SysExit ;;
  _ <-- check (fun _ => negb (truthy (c_lightcurve c)
                              && match complex_physical_parameters a with None => true | Some _ => false end)) KeyError ;;
  _ <-- check (fun _ => negb (truthy (c_activity c)
                              && match complex_physical_parameters a with None => true | Some _ => false end)) KeyError ;;
  s <-- match environment with
        | Some v => match int_of v with Some z => done z | None => fail ValueError end
        | None => done fresh
        end ;;
  _ <-- check (fun _ => String.eqb (fov_camera_model (c_fov c)) "visits_footprint"
                        || match visits_database a with None => true | Some _ => false end) SysExit ;;
  _ <-- check (fun _ => match visits_database a, fov_visits_query (c_fov c) with
                        | Some _, None | None, Some _ => false | _, _ => true end) SysExit ;;
  done s.

(** run.py:207-253. *)
Definition dispatch (c : configs) (a : cmd_args) (s : Z) : step (simulator * sorchaArguments * configs) :=
  if member (surveyname a) ["rubin_sim"; "RUBIN_SIM"]%string then
    (_ <-- validate_arguments a ;; done (runLSSTSimulation, {| sa_args := a; sa_seed := s |}, c))
  else if member (surveyname a) ["LSST"; "lsst"]%string then fail SysExit
  else if member (surveyname a) ["DES"; "des"]%string then
    (_ <-- validate_arguments a ;; done (runDESSimulation, {| sa_args := a; sa_seed := s |}, c))
  else fail SysExit.

(** run.py:136-253, up to the call of the simulation. *)
Definition execute (a : command) : step (simulator * sorchaArguments * configs) :=
  _ <-- FindFileOrExit (a_o a) ;;
  _ <-- sorchaGetLogger (a_o a) (a_t a) ;;
  args <-- sorchaCommandLineParser a ;;
  c <-- sorchaConfigs (configfile args) (surveyname args) ;;
  s <-- run_checks c args ;;
  dispatch c args s.
End Startup.
Arguments File {F}. Arguments Dir {F}.
