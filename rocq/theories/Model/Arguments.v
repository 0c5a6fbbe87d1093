(** Reading the command line: the parsers that src/sorcha_cmdline/run.py, init.py,
    bootstrap.py, cite.py, demo.py and outputs.py build (called by their names
    below), and [parse_args] of Python's argparse (as of Python 3.11.10) as far as
    these parsers use it.  sorchaargumentparser.py only changes what is printed.

    Characters are bytes.  What is printed is not modelled; asking for help
    ([Shown], exit status 0) and a usage error ([Refused], exit status 2) end the
    program. *)
From Coq Require Import Ascii String List Arith ZArith Bool.
From Verif Require Import Base.Prelude Base.Num Model.Files Model.Config Model.Startup.
Import ListNotations.
Open Scope list_scope.

(** What an option does: takes one value (action store), is a switch (actions
    store_true and store_false), shows the help; run.py:16-129. *)
Inductive kind := Store | Switch | Help.
(** One call of [add_argument], run.py:16-23. *)
Record action := { names : list text; dest : string; kind_of : kind; required : bool }.
(** How the arguments were read; run.py:131. *)
Inductive outcome (A : Type) := Parsed (a : A) | Shown | Refused.
Arguments Parsed {A}. Arguments Shown {A}. Arguments Refused {A}.

(** ** argparse *)

(** [_option_string_actions]: every name with its action, run.py:131. *)
Definition option_string_actions (p : list action) : list (text * action) :=
  flat_map (fun a => map (fun n => (n, a)) (names a)) p.
(** Looking up an option, run.py:131. *)
Definition lookup (p : list action) (s : text) : option action :=
  match find (fun x => text_eqb (fst x) s) (option_string_actions p) with Some x => Some (snd x) | None => None end.
(** The dash, run.py:17. *)
Definition dash : ascii := "-".
(** [str.partition("=")], run.py:131. *)
Fixpoint partition_eq (s : text) : text * option text :=
  match s with
  | [] => ([], None)
  | c :: s' => if Ascii.eqb c "=" then ([], Some s')
               else let '(a, b) := partition_eq s' in (c :: a, b)
  end.
(** [str.startswith], run.py:131. *)
Fixpoint starts_with (p s : text) : bool :=
  match p, s with
  | [], _ => true
  | a :: p', b :: s' => Ascii.eqb a b && starts_with p' s'
  | _ :: _, [] => false
  end.
(** A digit, run.py:131. *)
Definition digit (c : ascii) : bool := Nat.leb 48 (nat_of_ascii c) && Nat.leb (nat_of_ascii c) 57.
(** Text of the shape [\d*\.\d+], run.py:131. *)
Fixpoint fraction (s : text) : bool :=
  match s with
  | [] => false
  | c :: s' => if Ascii.eqb c "." then negb (text_eqb s' []) && forallb digit s' else digit c && fraction s'
  end.
(** [_negative_number_matcher] of argparse, run.py:131 (a line feed at the end is
    left out). *)
Definition negative_number (s : text) : bool :=
  match s with
  | c :: s' => Ascii.eqb c dash && ((negb (text_eqb s' []) && forallb digit s') || fraction s')
  | [] => false
  end.

(** An argument is a value, the two dashes, an option (with the name it stands
    for and the value in the same argument; [true] if it follows an equals
    sign), or looks like an option but is none; run.py:131. *)
Inductive reading := Argument | Dashes | Option (a : action) (o : text) (e : option (bool * text)) | Unknown.

(** [_get_option_tuples], run.py:131. *)
Definition get_option_tuples (p : list action) (s : text) : list (action * text * option (bool * text)) :=
  match s with
  | d :: c :: rest =>
      if Ascii.eqb c dash then
        let '(prefix, e) := partition_eq s in
        flat_map (fun x => if starts_with prefix (fst x) then [(snd x, fst x, option_map (pair true) e)] else [])
          (option_string_actions p)
      else
        flat_map (fun x => if text_eqb (fst x) [d; c] then [(snd x, fst x, Some (false, rest))]
                           else if starts_with s (fst x) then [(snd x, fst x, None)] else [])
          (option_string_actions p)
  | _ => []
  end.
(** [_parse_optional], run.py:131; none of the parsers has options that look like
    negative numbers. *)
Definition parse_optional (p : list action) (s : text) : result reading :=
  match s with
  | [] => Ok Argument
  | c :: r =>
      if negb (Ascii.eqb c dash) then Ok Argument
      else match lookup p s with
      | Some a => Ok (Option a s None)
      | None =>
          match r with
          | [] => Ok Argument
          | _ =>
              let '(o, e) := partition_eq s in
              match e, lookup p o with
              | Some v, Some a => Ok (Option a o (Some (true, v)))
              | _, _ =>
                  match get_option_tuples p s with
                  | [] => if negative_number s then Ok Argument
                          else if existsb (Ascii.eqb " ") s then Ok Argument else Ok Unknown
                  | [(a, n, e)] => Ok (Option a n e)
                  | _ => Err SysExit
                  end
              end
          end
      end
  end.
(** The first loop of [_parse_known_args], run.py:131. *)
Fixpoint classify (p : list action) (l : list text) : result (list (text * reading)) :=
  match l with
  | [] => Ok []
  | s :: l' =>
      if text_eqb s [dash; dash] then Ok ((s, Dashes) :: map (fun x => (x, Argument)) l')
      else (r <- parse_optional p s ;; rs <- classify p l' ;; Ok ((s, r) :: rs))%result
  end.

(** How reading one argument ends: complete; with an option that may take the next
    argument; with letters that are no options.  run.py:131. *)
Inductive ending := Complete | Pending (a : action) | Extra.
(** Several single letter options in one argument (the loop of
    [consume_optional]), run.py:131; [e] follows the letter of [a]. *)
Fixpoint letters (p : list action) (a : action) (e : text) : result (list (action * option text) * ending) :=
  match kind_of a with
  | Store => Ok ([(a, Some e)], Complete)
  | _ =>
      match e with
      | [] => Err SysExit
      | c :: e' =>
          if Ascii.eqb c dash then Err SysExit
          else match lookup p [dash; c] with
          | None => Ok ([(a, None)], Extra)
          | Some b =>
              match e' with
              | [] => Ok ([(a, None)], Pending b)
              | c' :: v =>
                  if Ascii.eqb c' "=" then
                    match kind_of b with
                    | Store => Ok ([(a, None); (b, Some v)], Complete)
                    | _ => Err SysExit
                    end
                  else (r <- letters p b e' ;; Ok ((a, None) :: fst r, snd r))%result
              end
          end
      end
  end.
(** One argument that is an option (the loop of [consume_optional]), run.py:131. *)
Definition one_option (p : list action) (a : action) (o : text) (e : option (bool * text))
  : result (list (action * option text) * ending) :=
  match e with
  | None => Ok ([], Pending a)
  | Some (sep, v) =>
      match kind_of a with
      | Store => Ok ([(a, Some v)], Complete)
      | _ => match o with
             | _ :: c :: _ => if negb (Ascii.eqb c dash) && negb (text_eqb v []) && negb sep then letters p a v
                              else Err SysExit
             | _ => Err SysExit
             end
      end
  end.
(** What the actions leave in the namespace, in order; [None] for a switch.
    run.py:131. *)
Definition settings := list (string * option text).
(** Does one of the actions show the help?  run.py:131. *)
Definition asks_help (l : list (action * option text)) : bool :=
  existsb (fun x => match kind_of (fst x) with Help => true | _ => false end) l.
(** run.py:131. *)
Definition set_all (l : list (action * option text)) : settings := map (fun x => (dest (fst x), snd x)) l.
(** The second loop of [_parse_known_args], run.py:131; [ns] and [extras] are what
    was found before. *)
Fixpoint consume (p : list action) (l : list (text * reading)) (ns : settings) (extras : list text)
  : outcome (settings * list text) :=
  match l with
  | [] => Parsed (ns, extras)
  | (s, Option a o e) :: l' =>
      match one_option p a o e with
      | Err _ => Refused
      | Ok (acts, Complete) =>
          if asks_help acts then Shown else consume p l' (ns ++ set_all acts) extras
      | Ok (acts, Extra) =>
          if asks_help acts then Shown else consume p l' (ns ++ set_all acts) (extras ++ [s])
      | Ok (acts, Pending b) =>
          match kind_of b with
          | Store => match l' with
                     | (v, Argument) :: l'' =>
                         if asks_help acts then Shown
                         else consume p l'' (ns ++ set_all (acts ++ [(b, Some v)])) extras
                     | _ => Refused
                     end
          | _ => if asks_help (acts ++ [(b, None)]) then Shown
                 else consume p l' (ns ++ set_all (acts ++ [(b, None)])) extras
          end
      end
  | (s, _) :: l' => consume p l' ns (extras ++ [s])
  end.
(** Was an option given?  run.py:131. *)
Definition seen (d : string) (ns : settings) : bool := existsb (fun x => String.eqb (fst x) d) ns.
(** [parse_known_args], run.py:131. *)
Definition parse_known_args (p : list action) (args : list text) : outcome (settings * list text) :=
  match classify p args with
  | Err _ => Refused
  | Ok l =>
      match consume p l [] [] with
      | Parsed (ns, extras) =>
          if forallb (fun a => negb (required a) || seen (dest a) ns) p then Parsed (ns, extras) else Refused
      | Shown => Shown
      | Refused => Refused
      end
  end.
(** [parse_args], run.py:131. *)
Definition parse_args (p : list action) (args : list text) : outcome settings :=
  match parse_known_args p args with
  | Parsed (ns, []) => Parsed ns
  | Parsed _ => Refused
  | Shown => Shown
  | Refused => Refused
  end.

(** A parser with sub-commands: demo.py:45-87, outputs.py:70-149.  Only -h and --help
    come before the name of the sub-command; the arguments after it are the
    sub-command's.  The value is the sub-command (if any) and its settings. *)
Definition help_action : action := {| names := [txt "-h"; txt "--help"]; dest := "help"; kind_of := Help; required := false |}.
(** Reading the arguments before the name of the sub-command, outputs.py:146;
    [extras] tells whether some were not recognised. *)
Fixpoint consume_sub (subs : list (text * list action)) (l : list (text * reading)) (extras : bool)
  : outcome (option (text * settings)) :=
  match l with
  | [] => if extras then Refused else Parsed None
  | (s, Option a o e) :: l' =>
      match one_option [help_action] a o e with
      | Err _ => Refused
      | Ok (acts, Pending b) => Shown
      | Ok (acts, _) => if asks_help acts then Shown else consume_sub subs l' extras
      end
  | (s, Unknown) :: l' => consume_sub subs l' true
  | (s, Dashes) :: l' => Refused
  | (s, Argument) :: l' =>
      match find (fun x => text_eqb (fst x) s) subs with
      | None => Refused
      | Some x => match parse_known_args (snd x) (map fst l') with
                  | Parsed (ns, []) => if extras then Refused else Parsed (Some (s, ns))
                  | Parsed _ => Refused
                  | Shown => Shown
                  | Refused => Refused
                  end
      end
  end.
(** outputs.py:146 and demo.py:80. *)
Definition parse_sub (subs : list (text * list action)) (args : list text) : outcome (option (text * settings)) :=
  match classify [help_action] args with
  | Err _ => Refused
  | Ok l => consume_sub subs l false
  end.

(** ** The parsers *)

(** An option with a value, run.py:16-23. *)
Definition store (ns : list string) (d : string) (r : bool) : action :=
  {| names := map txt ns; dest := d; kind_of := Store; required := r |}.
(** A switch, run.py:91-98. *)
Definition switch (ns : list string) (d : string) : action :=
  {| names := map txt ns; dest := d; kind_of := Switch; required := false |}.
(** run.py:9-129. *)
Definition run_parser : list action :=
  [help_action;
   store ["-c"; "--config"] "c" true;
   store ["-o"; "--outfile"] "o" true;
   store ["--ob"; "--orbits"] "ob" true;
   store ["-p"; "--physical-parameters"] "p" true;
   store ["--pd"; "--pointing-db"] "pd" true;
   store ["--er"; "--ephem-read"] "er" false;
   store ["--ew"; "--ephem-write"] "ew" false;
   store ["--ar"; "--ar-data-path"] "ar" false;
   store ["--cp"; "--complex-physical-parameters"] "cp" false;
   switch ["-f"; "--force"] "f";
   store ["-s"; "--survey"] "s" false;
   store ["-t"; "--stem"] "t" false;
   switch ["-l"; "--log-level"] "l";
   store ["--st"; "--stats"] "st" false;
   store ["--vd"; "--visits-db"] "vd" false]%string.
(** init.py:82-101. *)
Definition init_parser : list action :=
  [help_action; switch ["-v"; "--verbose"] "verbose"; store ["-p"; "--path"] "path" false;
   switch ["-f"; "--force"] "force"]%string.
(** bootstrap.py:10-26. *)
Definition bootstrap_parser : list action :=
  [help_action; store ["--cache"] "cache" false; switch ["-f"; "--force"] "force"]%string.
(** cite.py:10-35. *)
Definition cite_parser : list action :=
  [help_action; store ["-o"; "--outfile"] "o" false; switch ["-p"; "--print"] "p"]%string.
(** demo.py:57-78. *)
Definition demo_parsers : list (text * list action) :=
  [(txt "prepare", [help_action; store ["-p"; "--path"] "path" false; switch ["-f"; "--force"] "force"]);
   (txt "howto", [help_action])]%string.
(** outputs.py:77-143. *)
Definition outputs_parsers : list (text * list action) :=
  [(txt "create-sqlite",
    [help_action; store ["-o"; "--output"] "output" true; store ["-i"; "--inputs"] "inputs" true;
     store ["-r"; "--results"] "results" true; store ["-s"; "--stem"] "stem" false;
     switch ["-c"; "--complex"] "complex"]);
   (txt "check-logs",
    [help_action; store ["-f"; "--filepath"] "filepath" true; store ["-o"; "--outpath"] "outpath" false;
     switch ["--force"] "force"])]%string.

(** ** sorcha run *)

(** The attribute [d] of the namespace: the last value set, or the default ([None]
    here); run.py:131. *)
Fixpoint attribute (d : string) (ns : settings) : option text :=
  match ns with
  | [] => None
  | (k, v) :: ns' => match attribute d ns' with
                     | Some w => Some w
                     | None => if String.eqb k d then v else None
                     end
  end.
(** run.py:19-129: the attributes with their defaults; the second part is
    [args.l] (lines 105-112, action store_false). *)
Definition namespace (ns : settings) : command * bool :=
  let required d := match attribute d ns with Some v => v | None => [] end in
  let default d v := match attribute d ns with Some w => w | None => v end in
  ({| a_p := required "p"%string; a_ob := required "ob"%string; a_c := required "c"%string;
      a_o := required "o"%string; a_pd := required "pd"%string;
      a_er := attribute "er" ns; a_ew := attribute "ew" ns; a_ar := attribute "ar" ns; a_cp := attribute "cp" ns;
      a_f := seen "f" ns;
      a_s := string_of_list_ascii (default "s"%string (txt "rubin_sim"));
      a_t := default "t"%string (txt "SSPPOutput");
      a_st := attribute "st" ns; a_vd := attribute "vd" ns |},
   negb (seen "l" ns)).
(** run.py:8-133: the parser and [execute].  Exit on a usage error or after
    showing the help.  The flag [args.l] is returned beside what the simulation
    is called with (utilities/sorchaCommandLineParser.py:95,
    utilities/sorchaArguments.py:77). *)
Definition run_main F parse log int_of float_of lc_methods ca_methods stamp environment fresh (argv : list text)
  : step F (simulator * sorchaArguments * configs * bool) :=
  match parse_args run_parser argv with
  | Parsed ns =>
      next F (execute F parse log int_of float_of lc_methods ca_methods stamp environment fresh (fst (namespace ns)))
        (fun r => done F (r, snd (namespace ns)))
  | _ => fail F SysExit
  end.
