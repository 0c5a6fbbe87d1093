(** Vocabulary for statements about the commands init, demo and outputs. *)
From Coq Require Import Ascii String List ZArith Bool.
From Verif Require Import Base.Prelude Model.Files Model.Startup Spec.Files Spec.Startup.
Import ListNotations.
Open Scope list_scope.

(** A path made of a directory and a name. *)
Definition under (d x : text) : text := d ++ txt "/" ++ x.

(** The configuration files that belong to the numbers of the menu. *)
Definition chosen (n : Z) (x : text) : Prop :=
  (n = 1%Z \/ n = 5%Z) /\ x = txt "Rubin_circular_approximation.ini"
  \/ (n = 2%Z \/ n = 5%Z) /\ x = txt "Rubin_full_footprint.ini"
  \/ (n = 3%Z \/ n = 5%Z) /\ x = txt "Rubin_known_object_prediction.ini"
  \/ (n = 4%Z \/ n = 5%Z) /\ x = txt "DES_config_file.ini".
(** The files of the demonstration. *)
Definition demo_file (x : text) : Prop :=
  In x [txt "sorcha_config_demo.ini"; txt "sspp_testset_colours.txt"; txt "sspp_testset_orbits.des";
        txt "baseline_v2.0_1yr.db"].

(** Every path leads to one thing. *)
Definition proper {F} (fs : list (text * node F)) : Prop := NoDup (map fst fs).

(** Log files below a directory, the one called [o] left out. *)
Definition log_below {F} (fs : list (text * node F)) (d : text) (o : option text) (p : text) (c : F) : Prop :=
  In (p, File c) fs /\ (exists x, p = under d x) /\ ends (txt "sorcha.log") p /\ o <> Some p.
(** The last line of a log says that the run was completed. *)
Definition completed (lines : list text) : Prop :=
  exists before l, lines = before ++ [l] /\ ends (txt "Sorcha process is completed. ") l.
(** A row of the report tells the truth about a log. *)
Definition true_row {F} (lines_of : F -> list text) (c : F) (r : bool * text) : Prop :=
  (completed (lines_of c) /\ r = (true, txt " "))
  \/ (exists before l, lines_of c = before ++ [l] /\ ~ ends (txt "Sorcha process is completed. ") l /\ r = (false, l)).
