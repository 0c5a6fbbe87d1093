(** Vocabulary for statements about the start of a run. *)
From Coq Require Import Ascii String List ZArith Bool.
From Verif Require Import Base.Prelude Base.Num Model.Files Model.Config Model.Startup Spec.Files.
Import ListNotations.
Open Scope list_scope.

(** A file system lists every path with what it leads to. *)
Definition file_at {F} (fs : list (text * node F)) (p : text) : Prop := exists x, In (p, File x) fs.
Definition dir_at {F} (fs : list (text * node F)) (p : text) : Prop := In (p, Dir) fs.
Definition found {F} (fs : list (text * node F)) (p : text) : Prop := exists n, In (p, n) fs.

(** Path of an entry of the output directory. *)
Definition entry (a : command) (x : text) : text := a_o a ++ txt "/" ++ x.

(** The two log files of the run. *)
Definition log_names (stamp : text) (a : command) : list text :=
  [a_t a ++ txt "-" ++ stamp ++ txt "-sorcha.log"; a_t a ++ txt "-" ++ stamp ++ txt "-sorcha.err"].
Definition is_log (stamp : text) (a : command) (p : text) : Prop := In p (map (entry a) (log_names stamp a)).

(** Names under which the command may write results: the stem of the ephemeris,
    the statistics, the stem of the results. *)
Definition output_name (a : command) (x : text) : Prop :=
  (exists e, a_ew a = Some e /\ e <> [] /\ begins (e ++ txt ".") x)
  \/ (exists e, a_st a = Some e /\ x = e ++ txt ".csv")
  \/ begins (a_t a ++ txt ".") x.
Definition is_output (a : command) (p : text) : Prop :=
  exists x, p = entry a x /\ ~ In "/"%char x /\ output_name a x.

(** The names given on the command line have no pattern characters. *)
Definition plain_names (a : command) : Prop :=
  plain (a_t a) /\ (forall e, a_ew a = Some e -> plain e) /\ (forall e, a_st a = Some e -> plain e).

(** What the run is going to read and where it is going to write. *)
Definition inputs_present {F} (fs : list (text * node F)) (a : command) : Prop :=
  file_at fs (a_p a) /\ file_at fs (a_ob a) /\ file_at fs (a_c a) /\ file_at fs (a_pd a) /\ dir_at fs (a_o a)
  /\ (forall t, a_er a = Some t -> t <> [] -> file_at fs t)
  /\ (forall t, a_ar a = Some t -> t <> [] -> dir_at fs t).
Definition optional_present {F} (fs : list (text * node F)) (a : command) : Prop :=
  (forall t, a_cp a = Some t -> t <> [] -> found fs t) /\ (forall t, a_vd a = Some t -> found fs t).

(** The configuration file says [c]. *)
Definition configured {F} (parse : F -> result config_file) (int_of : string -> option Z)
  (float_of : string -> option num) (lc_methods ca_methods : list string) (fs : list (text * node F)) (a : command)
  (c : configs) : Prop :=
  exists x f there, In (a_c a, File x) fs /\ parse x = Ok f /\ (forall q, there q = true <-> found fs (txt q))
    /\ read_configs int_of float_of there lc_methods ca_methods f (a_s a) = Ok c.

(** Command line and configuration go together. *)
Definition compatible (c : configs) (a : command) : Prop :=
  (in_ephemerides_type (c_input c) = "external"%string -> a_er a <> None)
  /\ (forall m, m <> ""%string -> c_lightcurve c = Some m \/ c_activity c = Some m -> exists t, a_cp a = Some t /\ t <> [])
  /\ (a_vd a <> None <-> fov_visits_query (c_fov c) <> None)
  /\ (a_vd a <> None -> fov_camera_model (c_fov c) = "visits_footprint"%string).

(** Which simulation belongs to a survey. *)
Definition simulates (survey : string) (s : simulator) : Prop :=
  (s = runLSSTSimulation /\ In survey ["rubin_sim"; "RUBIN_SIM"]%string)
  \/ (s = runDESSimulation /\ In survey ["DES"; "des"]%string).

(** Where the seed comes from. *)
Definition seeded (int_of : string -> option Z) (environment : option string) (fresh z : Z) : Prop :=
  match environment with Some v => int_of v = Some z | None => z = fresh end.

(** The simulation gets the arguments of the command. *)
Definition passed_on (a : command) (r : cmd_args) : Prop :=
  paramsinput r = a_p a /\ orbinfile r = a_ob a /\ configfile r = a_c a /\ outpath r = a_o a
  /\ pointing_database r = a_pd a /\ input_ephemeris_file r = a_er a /\ output_ephemeris_file r = a_ew a
  /\ visits_database r = a_vd a /\ surveyname r = a_s a /\ outfilestem r = a_t a /\ stats r = a_st a
  /\ ar_data_path r = a_ar a
  /\ (forall t, complex_physical_parameters r = Some t <-> a_cp a = Some t /\ t <> []).

(** [fs'] differs from [fs] at most in paths satisfying [P]. *)
Definition same_but {F} (P : text -> Prop) (fs fs' : list (text * node F)) : Prop :=
  forall p n, ~ P p -> (In (p, n) fs' <-> In (p, n) fs).

(** Paths that the command requires to exist, apart from --er and --ar. *)
Definition required_path (a : command) (t : text) : Prop :=
  In t [a_p a; a_ob a; a_c a; a_o a; a_pd a] \/ (a_cp a = Some t /\ t <> []) \/ a_vd a = Some t.
(** Old ephemerides and statistics. *)
Definition is_early_output (a : command) (p : text) : Prop :=
  exists x, p = entry a x /\ ~ In "/"%char x
    /\ ((exists e, a_ew a = Some e /\ e <> [] /\ begins (e ++ txt ".") x) \/ (exists e, a_st a = Some e /\ x = e ++ txt ".csv")).
