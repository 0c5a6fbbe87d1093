(** The command [sorcha]: /repo/src/sorcha_cmdline/main.py, called main.py below. *)
From Coq Require Import Ascii String List ZArith Bool.
From Verif Require Import Base.Prelude.
Import ListNotations.
Open Scope list_scope.

Section Dispatch.
(** Programs, and the return code of [subprocess.run] for each list of
    arguments (main.py:85); minus the signal for a program that was killed. *)
Variable P : Type.
Variable code : P -> list string -> Z.

(** What a name in a directory stands for: something that can be executed, a
    directory that can be entered, or something [os.access] refuses
    (main.py:18). *)
Inductive entry := Program (p : P) | Folder | Other.
(** A directory of PATH; [os.listdir] (main.py:17) fails unless it can be read. *)
Record directory := { readable : bool; entries : list (string * entry) }.
(** PATH split at the colons, main.py:15; [None] is a part that is no directory
    (main.py:16). *)
Definition PATH := list (option directory).

(** main.py:18: the rest of a name that begins with sorcha-. *)
Definition verb_of (e : string * entry) : option string :=
  match snd e with
  | Other => None
  | _ => if prefix "sorcha-" (fst e) then Some (substring 7 (String.length (fst e) - 7) (fst e)) else None
  end.
(** main.py:16-19. *)
Fixpoint verbs_in (es : list (string * entry)) : list string :=
  match es with
  | [] => []
  | e :: es => match verb_of e with Some v => v :: verbs_in es | None => verbs_in es end
  end.
(** main.py:12-20; sorting and removing duplicates (line 20) do not matter for
    the choices of a parser. *)
Fixpoint find_sorcha_verbs (path : PATH) : result (list string) :=
  match path with
  | [] => Ok []
  | None :: ds => find_sorcha_verbs ds
  | Some d :: ds =>
      if readable d then rmap (app (verbs_in (entries d))) (find_sorcha_verbs ds) else Err OSError
  end.

(** The program of that name in a directory, main.py:79. *)
Definition program_in (name : string) (d : directory) : option P :=
  match find (fun e => String.eqb (fst e) name) (entries d) with
  | Some (_, Program p) => Some p
  | _ => None
  end.
(** [shutil.which], main.py:79, and the search for the program when it is
    started, line 85: files that can be executed, in the order of PATH. *)
Fixpoint which (name : string) (path : PATH) : option P :=
  match path with
  | [] => None
  | None :: ds => which name ds
  | Some d :: ds => match program_in name d with Some p => Some p | None => which name ds end
  end.

(** What [parser.parse_args] (main.py:61) makes of the command line: the
    version, no verb, a verb with everything after it, or a message about
    usage with exit code 2. *)
Inductive parsed := ShowVersion | NoVerb | Verb (v : string) (rest : list string) | Usage.

(** An option begins with a dash, main.py:61. *)
Definition dash (s : string) : bool := prefix "-" s.
(** main.py:58-61: two dashes directly after the verb are taken with the verb
    and dropped; only [REMAINDER] keeps them. *)
Definition without_dashes (rest : list string) : list string :=
  match rest with
  | a :: l => if String.eqb a "--" then l else rest
  | [] => []
  end.
(** main.py:47-61: the first argument is the verb, [choices] checks it (line 58),
    and [REMAINDER] (line 59) takes all that follows, options too.  Simplification:
    command lines whose first argument (or first after [--version]) begins with
    a dash, other than [--version], are left out: [None]. *)
Definition parse_args (verbs : list string) (argv : list string) : option parsed :=
  let known v := existsb (String.eqb v) verbs in
  match argv with
  | [] => Some NoVerb
  | a :: rest =>
      if String.eqb a "--version" then
        match rest with
        | [] => Some ShowVersion
        | v :: _ => if dash v then None else Some (if known v then ShowVersion else Usage)
        end
      else if dash a then None else Some (if known a then Verb a (without_dashes rest) else Usage)
  end.

(** What a user sees: which programs were run with which arguments, whether
    the version was printed, and the exit status, or the exception, main.py:23-89. *)
Record seen := { ran : list (P * list string); printed_version : bool; status : result Z }.
(** [sys.exit] with a number, main.py:86 and 89: the system keeps it modulo 256. *)
Definition exits (l : list (P * list string)) (n : Z) : seen :=
  {| ran := l; printed_version := false; status := Ok (n mod 256)%Z |}.

(** main.py:23-89. *)
Definition main (path : PATH) (argv : list string) : option seen :=
  match find_sorcha_verbs path with
  | Err e => Some {| ran := []; printed_version := false; status := Err e |}
  | Ok [] => Some (exits [] 1)
  | Ok verbs =>
      match parse_args verbs argv with
      | None => None
      | Some Usage => Some (exits [] 2)
      | Some ShowVersion => Some {| ran := []; printed_version := true; status := Ok 0%Z |}
      | Some NoVerb => Some (exits [] 1)
      | Some (Verb v rest) =>
          if String.eqb v "" then Some (exits [] 1) else
          match which ("sorcha-" ++ v) path with
          | None => Some (exits [] 1)
          | Some p => Some (exits [(p, rest)] (code p rest))
          end
      end
  end.
End Dispatch.
Arguments Program {P} _.
Arguments Folder {P}.
Arguments Other {P}.
Arguments readable {P} _.
Arguments entries {P} _.
Arguments ran {P} _.
Arguments printed_version {P} _.
Arguments status {P} _.
