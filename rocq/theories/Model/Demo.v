(** The demonstration: src/sorcha/utilities/sorcha_demo_command.py and
    src/sorcha_cmdline/demo.py, and what becomes of the command printed there
    when it is typed.  Printing itself is not modelled. *)
From Coq Require Import Ascii String List Arith ZArith Bool.
From Verif Require Import Base.Prelude Base.Num Model.Files Model.Config Model.Startup Model.Arguments.
Import ListNotations.
Open Scope list_scope.

(** utilities/sorcha_demo_command.py:17. *)
Definition get_demo_command : string :=
  "sorcha run -c sorcha_config_demo.ini -p sspp_testset_colours.txt --orbits sspp_testset_orbits.des --pointing-db baseline_v2.0_1yr.db -o ./ -t testrun_e2e --stats testrun_stats".

(** The shell takes the line apart (utilities/sorcha_demo_command.py:40); no
    quotes, no special characters. *)
Fixpoint shell_words (word line : text) : list text :=
  match line with
  | [] => match word with [] => [] | _ => [rev word] end
  | c :: r =>
      if Ascii.eqb c " " then match word with [] => shell_words [] r | _ => rev word :: shell_words [] r end
      else shell_words (c :: word) r
  end.

(** A name looked up from the working directory [w]
    (utilities/sorcha_demo_command.py:42); files have one path in the model of
    the file system (Model/Startup.v). *)
Definition looked_up (w t : text) : text := if text_eqb t (txt "./") then w else join w t.
(** The paths among the arguments of src/sorcha_cmdline/run.py:16-129; the stems are not paths. *)
Definition in_directory (w : text) (a : command) : command :=
  {| a_p := looked_up w (a_p a); a_ob := looked_up w (a_ob a); a_c := looked_up w (a_c a); a_o := looked_up w (a_o a);
     a_pd := looked_up w (a_pd a); a_er := option_map (looked_up w) (a_er a); a_ew := a_ew a;
     a_ar := option_map (looked_up w) (a_ar a); a_cp := option_map (looked_up w) (a_cp a); a_f := a_f a; a_s := a_s a;
     a_t := a_t a; a_st := a_st a; a_vd := option_map (looked_up w) (a_vd a) |}.

(** A line that is typed in directory [w]; only [sorcha run] is of interest
    (src/sorcha_cmdline/main.py:59-87, src/sorcha_cmdline/run.py:8-133). *)
Definition typed_in F parse (log : F) int_of float_of lc_methods ca_methods stamp environment fresh (w : text) (line : string)
  : step F (simulator * sorchaArguments * configs) :=
  match shell_words [] (txt line) with
  | program :: verb :: argv =>
      if text_eqb program (txt "sorcha") && text_eqb verb (txt "run") then
        match parse_args run_parser argv with
        | Parsed ns =>
            execute F parse log int_of float_of lc_methods ca_methods stamp environment fresh (in_directory w (fst (namespace ns)))
        | _ => fail F SysExit
        end
      else fail F SysExit
  | _ => fail F SysExit
  end.
