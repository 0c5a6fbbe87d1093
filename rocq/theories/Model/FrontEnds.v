(** Commands beside [sorcha run]: src/sorcha_cmdline/init.py, demo.py and
    outputs.py (called by their names below), utilities/sorcha_copy_configs.py,
    utilities/sorcha_copy_demo_files.py and utilities/check_output_logs.py
    (paths relative to /repo/src/sorcha).

    Paths are absolute, as [os.path.abspath] gives them (init.py:71, demo.py:21,
    outputs.py:42 and 46); the root directory is the empty path.  The file
    system is that of Model/Startup.v.  What is printed is not modelled, except
    for the answer of check-logs. *)
From Coq Require Import Ascii String List Arith ZArith Bool.
From Verif Require Import Base.Prelude Model.Files Model.Startup.
Import ListNotations.
Open Scope list_scope.

Section FrontEnds.
(** Contents of files; the lines of a file (utilities/check_output_logs.py:55);
    the CSV file made from the table of logs (lines 95-97 and 105). *)
Variable F : Type.
Variable lines_of : F -> list text.
Variable report_of : list (text * (bool * text)) -> F.
(** Python's [int] on strings, init.py:26. *)
Variable int_of : string -> option Z.
(** The data files that come with the package, name and contents
    (utilities/sorcha_copy_configs.py:34, utilities/sorcha_copy_demo_files.py:32). *)
Variables setups demos : list (text * F).

Local Notation files := (list (text * node F)).
Local Notation "x <-- m ;; k" := (next F m (fun x => k)) (at level 80, m at next level, right associativity).

(** ** Copying files *)

(** A file of the package, utilities/sorcha_copy_configs.py:60. *)
Definition joinpath (n : text) (l : list (text * F)) : option F :=
  match find (fun x => text_eqb (fst x) n) l with Some x => Some (snd x) | None => None end.
(** [shutil.copy] of a file of the package into a directory,
    utilities/sorcha_copy_configs.py:60-61: replaces a file of the same name; a
    directory of that name cannot be opened. *)
Definition shutil_copy (package : list (text * F)) (n loc : text) : step F unit := fun fs =>
  match joinpath n package with
  | None => (fs, Err OSError)
  | Some c => if is_dir F (join loc n) fs then (fs, Err OSError) else (write_file F (join loc n) c fs, Ok tt)
  end.
(** The loops of utilities/sorcha_copy_configs.py:54-61 and
    utilities/sorcha_copy_demo_files.py:41-48. *)
Fixpoint copy_each (package : list (text * F)) (loc : text) (force : bool) (names : list text) : step F unit :=
  match names with
  | [] => done F tt
  | n :: ns =>
      _ <-- check F (fun fs => negb (negb force && is_file F (join loc n) fs)) SysExit ;;
      _ <-- shutil_copy package n loc ;;
      copy_each package loc force ns
  end.

(** ** sorcha init *)

(** init.py:9-43. *)
Definition parse_file_selection (s : string) : result string :=
  match int_of s with
  | None => Err SysExit
  | Some n =>
      if existsb (Z.eqb n) [1; 2; 3; 4; 5]%Z then
        if (n =? 1)%Z then Ok "rubin_circle"%string
        else if (n =? 2)%Z then Ok "rubin_footprint"%string
        else if (n =? 3)%Z then Ok "rubin_known"%string
        else if (n =? 4)%Z then Ok "des_configs"%string
        else Ok "all"%string
      else Err SysExit
  end.
(** utilities/sorcha_copy_configs.py:36-41. *)
Definition configs_dict : list (string * list text) :=
  [("rubin_circle"%string, [txt "Rubin_circular_approximation.ini"]);
   ("rubin_footprint"%string, [txt "Rubin_full_footprint.ini"]);
   ("rubin_known"%string, [txt "Rubin_known_object_prediction.ini"]);
   ("des_configs"%string, [txt "DES_config_file.ini"])].
(** utilities/sorcha_copy_configs.py:43-52. *)
Definition config_locations (which : string) : result (list text) :=
  match find (fun x => String.eqb (fst x) which) configs_dict with
  | Some x => Ok (snd x)
  | None => if String.eqb which "all" then Ok (flat_map snd configs_dict) else Err SysExit
  end.
(** utilities/sorcha_copy_configs.py:32-63. *)
Definition copy_demo_configs (loc : text) (which : string) (force : bool) : step F unit :=
  _ <-- FindDirectoryOrExit F loc ;;
  match config_locations which with
  | Err e => fail F e
  | Ok names => copy_each setups loc force names
  end.
(** init.py:46-72; [typed] is what the user enters. *)
Definition init (typed : string) (path : text) (force : bool) : step F unit :=
  match parse_file_selection typed with
  | Err e => fail F e
  | Ok which => copy_demo_configs path which force
  end.

(** ** sorcha demo prepare *)

(** utilities/sorcha_copy_demo_files.py:34-39. *)
Definition demo_files : list text :=
  [txt "sorcha_config_demo.ini"; txt "sspp_testset_colours.txt"; txt "sspp_testset_orbits.des";
   txt "baseline_v2.0_1yr.db"].
(** utilities/sorcha_copy_demo_files.py:30-52, demo.py:8-22. *)
Definition demo_prepare (path : text) (force : bool) : step F unit :=
  _ <-- FindDirectoryOrExit F path ;;
  copy_each demos path force demo_files.

(** ** sorcha outputs check-logs *)

(** [str.endswith], utilities/check_output_logs.py:24. *)
Definition ends_with (s t : text) : bool := text_eqb (last_chars (length s) t) s && (length s <=? length t).
(** The last component of a path, utilities/check_output_logs.py:23-25. *)
Fixpoint basename (p : text) : text :=
  match p with
  | [] => []
  | c :: p' => if existsb (Ascii.eqb slash) p' then basename p'
               else if Ascii.eqb c slash then p' else c :: p'
  end.
(** [os.path.dirname], outputs.py:47. *)
Fixpoint dirname (p : text) : text :=
  match p with
  | [] => []
  | c :: p' => if existsb (Ascii.eqb slash) p' then c :: dirname p' else []
  end.
(** The order of strings, utilities/check_output_logs.py:27. *)
Fixpoint text_leb (a b : text) : bool :=
  match a, b with
  | [], _ => true
  | _ :: _, [] => false
  | x :: a', y :: b' =>
      if Ascii.eqb x y then text_leb a' b' else nat_of_ascii x <? nat_of_ascii y
  end.
(** [sorted], utilities/check_output_logs.py:27. *)
Fixpoint insert_text (x : text * F) (l : list (text * F)) : list (text * F) :=
  match l with
  | [] => [x]
  | y :: l' => if text_leb (fst x) (fst y) then x :: l else y :: insert_text x l'
  end.
(** [sorted], utilities/check_output_logs.py:27. *)
Definition sorted_text (l : list (text * F)) : list (text * F) := fold_right insert_text [] l.
(** utilities/check_output_logs.py:23-27, with the contents of the files;
    [os.walk] visits every directory below [d]. *)
Definition find_all_log_files (d : text) (fs : files) : list (text * F) :=
  sorted_text (flat_map (fun x => match snd x, after (join d []) (fst x) with
                                  | File c, Some _ =>
                                      if ends_with (txt "sorcha.log") (basename (fst x)) then [(fst x, c)] else []
                                  | _, _ => []
                                  end) fs).

(** What the user is told, with the rows of the table where it is shown:
    outputs.py:50-54, utilities/check_output_logs.py:104, 107-110 and 113. *)
Inductive answer :=
  | AlreadyThere
  | AllGood
  | Saved (path : text)
  | Shown (failed : list (text * (bool * text))).

(** [log_results.to_csv], utilities/check_output_logs.py:105. *)
Definition to_csv (p : text) (rows : list (text * (bool * text))) : step F unit := fun fs =>
  if is_dir F p fs then (fs, Err OSError) else (write_file F p (report_of rows) fs, Ok tt).

(** utilities/check_output_logs.py:84-117.  A string is true unless empty. *)
Definition check_output_logs (d : text) (output : option text) : step F answer := fun fs =>
  let logs := find_all_log_files d fs in
  match logs with
  | [] => (fs, Err SysExit)
  | _ =>
      match check_all_logs (map (fun x => lines_of (snd x)) logs) with
      | Err e => (fs, Err e)
      | Ok rs =>
          let rows := combine (map fst logs) rs in
          let failed := filter (fun r => negb (fst (snd r))) rows in
          match failed with
          | [] => (fs, Ok AllGood)
          | _ => match given output with
                 | Some p => (_ <-- to_csv p rows ;; done F (Saved p)) fs
                 | None => (fs, Ok (Shown failed))
                 end
          end
      end
  end.

(** outputs.py:37-62. *)
Definition cmd_outputs_check_logs (d : text) (outpath : option text) (force : bool) : step F answer :=
  _ <-- FindDirectoryOrExit F d ;;
  match given outpath with
  | None => check_output_logs d None
  | Some o =>
      _ <-- FindDirectoryOrExit F (dirname o) ;;
      fun fs =>
        if path_exists F o fs && negb force then (fs, Ok AlreadyThere)
        else (_ <-- (if path_exists F o fs && force then remove F o else done F tt) ;;
              check_output_logs d (Some (if text_eqb (last_chars 4 o) (txt ".csv") then o else o ++ txt ".csv"))) fs
  end.

End FrontEnds.
