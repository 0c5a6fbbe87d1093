(** Words for the claims about reading the command line (C104). *)
From Coq Require Import Ascii String List Arith.
From Verif Require Import Base.Prelude Model.Files Model.Startup.
Import ListNotations.
Open Scope list_scope.

(** An option as documented: its names, a key, whether it takes a value, whether
    it must be given. *)
Record documented := { d_names : list string; d_key : string; d_value : bool; d_required : bool }.
Notation opt ns k v r := {| d_names := ns; d_key := k; d_value := v; d_required := r |}.
Definition help_option := opt ["-h"; "--help"]%string "help"%string false false.

Definition run_options : list documented :=
  [help_option;
   opt ["-c"; "--config"] "c" true true; opt ["-o"; "--outfile"] "o" true true;
   opt ["--ob"; "--orbits"] "ob" true true; opt ["-p"; "--physical-parameters"] "p" true true;
   opt ["--pd"; "--pointing-db"] "pd" true true; opt ["--er"; "--ephem-read"] "er" true false;
   opt ["--ew"; "--ephem-write"] "ew" true false; opt ["--ar"; "--ar-data-path"] "ar" true false;
   opt ["--cp"; "--complex-physical-parameters"] "cp" true false; opt ["-f"; "--force"] "f" false false;
   opt ["-s"; "--survey"] "s" true false; opt ["-t"; "--stem"] "t" true false;
   opt ["-l"; "--log-level"] "l" false false; opt ["--st"; "--stats"] "st" true false;
   opt ["--vd"; "--visits-db"] "vd" true false]%string.
Definition init_options : list documented :=
  [help_option; opt ["-v"; "--verbose"] "verbose" false false; opt ["-p"; "--path"] "path" true false;
   opt ["-f"; "--force"] "force" false false]%string.
Definition bootstrap_options : list documented :=
  [help_option; opt ["--cache"] "cache" true false; opt ["-f"; "--force"] "force" false false]%string.
Definition cite_options : list documented :=
  [help_option; opt ["-o"; "--outfile"] "o" true false; opt ["-p"; "--print"] "p" false false]%string.
Definition prepare_options : list documented :=
  [help_option; opt ["-p"; "--path"] "path" true false; opt ["-f"; "--force"] "force" false false]%string.
Definition create_sqlite_options : list documented :=
  [help_option; opt ["-o"; "--output"] "output" true true; opt ["-i"; "--inputs"] "inputs" true true;
   opt ["-r"; "--results"] "results" true true; opt ["-s"; "--stem"] "stem" true false;
   opt ["-c"; "--complex"] "complex" false false]%string.
Definition check_logs_options : list documented :=
  [help_option; opt ["-f"; "--filepath"] "filepath" true true; opt ["-o"; "--outpath"] "outpath" true false;
   opt ["--force"] "force" false false]%string.

Section Lines.
Variable T : list documented.

Definition name_of (d : documented) (n : text) : Prop := exists s, In s (d_names d) /\ n = txt s.
Definition prefix (a b : text) : Prop := exists c, b = a ++ c.
(** [s] is a name of the option, or begins exactly one of the names (two dashes)
    and is not a name itself. *)
Definition stands_for (s : text) (d : documented) : Prop :=
  In d T /\ (name_of d s
    \/ (exists n, name_of d n /\ prefix s n /\ prefix (txt "--") s /\ s <> txt "--"
        /\ (forall e m, In e T -> name_of e m -> prefix s m -> m = n)
        /\ (forall e, In e T -> ~ name_of e s))).
(** A single letter option. *)
Definition letter (d : documented) (c : ascii) : Prop := In d T /\ name_of d ["-"%char; c] /\ c <> "-"%char.
Inductive switches : list documented -> text -> Prop :=
| sw_nil : switches [] []
| sw_cons : forall d c ds cs, letter d c -> d_value d = false -> switches ds cs -> switches (d :: ds) (c :: cs).
(** [v] may be read as an option: it begins with the letter of one, or what comes
    before the first equals sign begins a long name. *)
Definition fits (v : text) : Prop :=
  (exists d c rest, letter d c /\ v = "-"%char :: c :: rest)
  \/ (exists d n p, In d T /\ name_of d n /\ prefix p n /\ prefix (txt "--") p /\ ~ In "="%char p
      /\ (v = p \/ exists w, v = p ++ "="%char :: w)).
Definition numeral (v : text) : Prop :=
  exists a b, (forall c, In c (a ++ b) -> (48 <= nat_of_ascii c <= 57)%nat) /\ b <> []
    /\ (v = "-"%char :: a ++ b \/ v = "-"%char :: a ++ "."%char :: b).
(** Values that may be given as an argument of their own. *)
Definition plain (v : text) : Prop :=
  (forall w, v <> "-"%char :: w) \/ v = txt "-" \/ (~ fits v /\ (numeral v \/ In " "%char v)).

(** The ways to write settings (a key, and a value unless it is a switch). *)
Inductive spelled : list (string * option text) -> list text -> Prop :=
| sp_separate : forall s d v, stands_for s d -> d_value d = true -> plain v ->
    spelled [(d_key d, Some v)] [s; v]
| sp_joined : forall s d v, stands_for s d -> d_value d = true ->
    spelled [(d_key d, Some v)] [s ++ "="%char :: v]
| sp_switch : forall s d, stands_for s d -> d_value d = false -> spelled [(d_key d, None)] [s]
| sp_letters : forall ds cs, switches ds cs -> (2 <= length ds)%nat ->
    spelled (map (fun d => (d_key d, None)) ds) ["-"%char :: cs]
| sp_letters_separate : forall ds cs d c v, switches ds cs -> ds <> [] -> letter d c -> d_value d = true -> plain v ->
    spelled (map (fun d => (d_key d, None)) ds ++ [(d_key d, Some v)]) ["-"%char :: cs ++ [c]; v]
| sp_letters_joined : forall ds cs d c v, switches ds cs -> ds <> [] -> letter d c -> d_value d = true ->
    spelled (map (fun d => (d_key d, None)) ds ++ [(d_key d, Some v)]) ["-"%char :: cs ++ c :: "="%char :: v]
| sp_letters_glued : forall ds cs d c v, switches ds cs -> letter d c -> d_value d = true ->
    v <> [] -> (forall w, v <> "="%char :: w) ->
    spelled (map (fun d => (d_key d, None)) ds ++ [(d_key d, Some v)]) ["-"%char :: cs ++ c :: v].
(** A command line. *)
Inductive line : list (string * option text) -> list text -> Prop :=
| line_nil : line [] []
| line_cons : forall g a gs l, spelled g a -> line gs l -> line (g ++ gs) (a ++ l).
End Lines.

(** The command line is in order and sets [s]. *)
Definition accepted T (s : list (string * option text)) (args : list text) : Prop :=
  line T s args /\ ~ In "help"%string (map fst s)
  /\ forall d, In d T -> d_required d = true -> In (d_key d) (map fst s).
(** The last value given for a key. *)
Definition last_value (s : list (string * option text)) (k : string) (v : text) : Prop :=
  exists s1 s2, s = s1 ++ (k, Some v) :: s2 /\ ~ In k (map fst s2).
Definition never (s : list (string * option text)) (k : string) : Prop := ~ In k (map fst s).
Definition optional s k (o : option text) : Prop :=
  match o with Some v => last_value s k v | None => never s k end.
(** The command that the settings ask for. *)
Definition asks_for (s : list (string * option text)) (c : command) : Prop :=
  last_value s "c" (a_c c) /\ last_value s "o" (a_o c) /\ last_value s "ob" (a_ob c)
  /\ last_value s "p" (a_p c) /\ last_value s "pd" (a_pd c)
  /\ optional s "er" (a_er c) /\ optional s "ew" (a_ew c) /\ optional s "ar" (a_ar c) /\ optional s "cp" (a_cp c)
  /\ optional s "st" (a_st c) /\ optional s "vd" (a_vd c)
  /\ (a_f c = true <-> In "f"%string (map fst s))
  /\ ((exists v, last_value s "s" v /\ a_s c = string_of_list_ascii v) \/ (never s "s" /\ a_s c = "rubin_sim"%string))
  /\ (last_value s "t" (a_t c) \/ (never s "t" /\ a_t c = txt "SSPPOutput")).
