(** Files around a run: overwrite protection, log checking, merging of result
    databases, the SPICE meta kernel.  Paths are relative to
    /repo/src/sorcha. *)
From Coq Require Import Ascii String List Arith ZArith Bool.
From Verif Require Import Base.Prelude.
Import ListNotations.
Open Scope nat_scope.

(** Text as a list of characters. *)
Definition text := list ascii.
(** A Python string, for the literals of this file (for example
    utilities/check_output_logs.py:58). *)
Definition txt (s : string) : text := list_ascii_of_string s.
(** [==] on strings, utilities/check_output_logs.py:58. *)
Definition text_eqb (a b : text) : bool := if list_eq_dec ascii_dec a b then true else false.

(** ** Shell-style patterns: Python's [fnmatch] *)

(** The parts of a pattern given to [glob.glob],
    utilities/sorchaCommandLineParser.py:25. *)
Inductive token := TAny | TOne | TLit (c : ascii) | TClass (neg : bool) (ranges : list (ascii * ascii)).

(** The special characters of such patterns,
    utilities/sorchaCommandLineParser.py:25. *)
Definition c_star : ascii := "*". Definition c_q : ascii := "?". Definition c_open : ascii := "[".
(** As above, utilities/sorchaCommandLineParser.py:25. *)
Definition c_close : ascii := "]". Definition c_bang : ascii := "!". Definition c_dash : ascii := "-".
(** As above, utilities/sorchaCommandLineParser.py:25. *)
Definition c_dot : ascii := ".".

(** Text up to the first [']'], and what follows it. *)
Fixpoint until_close (t : text) : option (text * text) :=
  match t with
  | [] => None
  | c :: t' => if Ascii.eqb c c_close then Some ([], t')
               else match until_close t' with Some (a, b) => Some (c :: a, b) | None => None end
  end.
(** Members of a bracket expression, [a-z] being a range. *)
Fixpoint ranges_of (fuel : nat) (t : text) : list (ascii * ascii) :=
  match fuel with
  | 0 => []
  | S k => match t with
           | [] => []
           | a :: d :: b :: t' => if Ascii.eqb d c_dash then (a, b) :: ranges_of k t' else (a, a) :: ranges_of k (d :: b :: t')
           | a :: t' => (a, a) :: ranges_of k t'
           end
  end.
(** [fnmatch.translate].  A ['['] without closing bracket is literal.  The
    treatment of unusual brackets (leading [']'], several dashes) is
    simplified. *)
Fixpoint tokens (fuel : nat) (t : text) : list token :=
  match fuel with
  | 0 => []
  | S k => match t with
           | [] => []
           | c :: t' =>
               if Ascii.eqb c c_star then TAny :: tokens k t'
               else if Ascii.eqb c c_q then TOne :: tokens k t'
               else if Ascii.eqb c c_open then
                 let (neg, body) := match t' with
                                    | b :: t'' => if Ascii.eqb b c_bang then (true, t'') else (false, t')
                                    | [] => (false, t') end in
                 match until_close body with
                 | Some (inside, rest) => TClass neg (ranges_of (length inside) inside) :: tokens k rest
                 | None => TLit c :: tokens k t'
                 end
               else TLit c :: tokens k t'
           end
  end.

(** Bracket expressions in [glob.glob],
    utilities/sorchaCommandLineParser.py:25. *)
Definition in_ranges (c : ascii) (l : list (ascii * ascii)) : bool :=
  existsb (fun r => (nat_of_ascii (fst r) <=? nat_of_ascii c) && (nat_of_ascii c <=? nat_of_ascii (snd r))) l.

(** The match itself in [glob.glob], utilities/sorchaCommandLineParser.py:25.
    *)
Fixpoint match_tokens (ts : list token) (s : text) : bool :=
  match ts with
  | [] => match s with [] => true | _ => false end
  | TAny :: ts' =>
      (fix any (s : text) : bool :=
         match_tokens ts' s || match s with [] => false | _ :: s' => any s' end) s
  | TOne :: ts' => match s with [] => false | _ :: s' => match_tokens ts' s' end
  | TLit c :: ts' => match s with [] => false | d :: s' => Ascii.eqb c d && match_tokens ts' s' end
  | TClass neg l :: ts' =>
      match s with [] => false | d :: s' => xorb neg (in_ranges d l) && match_tokens ts' s' end
  end.

(** Hidden names in [glob.glob], utilities/sorchaCommandLineParser.py:25. *)
Definition is_hidden (s : text) : bool := match s with c :: _ => Ascii.eqb c c_dot | [] => false end.

(** [glob.glob] inside one directory: names matching the pattern, in directory
    order, hidden names only for patterns starting with a dot.  The directory
    part of the path is assumed to be free of pattern characters. *)
Definition glob (pattern : text) (names : list text) : list text :=
  filter (fun s => match_tokens (tokens (length pattern) pattern) s && (is_hidden pattern || negb (is_hidden s))) names.

(** ** utilities/sorchaCommandLineParser.py:8-36 *)

(** A directory: names with contents, in the order the system lists them. *)
Definition directory (F : Type) := list (text * F).

(** [os.remove], utilities/sorchaCommandLineParser.py:29. *)
Definition remove_file {F} (n : text) (d : directory F) : directory F :=
  filter (fun x => negb (text_eqb (fst x) n)) d.

(** Lines 25-36. *)
Definition warn_or_remove_file {F} (pattern : text) (force : bool) (d : directory F) : result (directory F) :=
  match glob pattern (map fst d) with
  | [] => Ok d
  | n :: _ => if force then Ok (remove_file n d) else Err SysExit
  end.

(** The contents found under a name afterwards
    (utilities/sorchaCommandLineParser.py:25-29). *)
Definition look_up {F} (n : text) (d : directory F) : option F :=
  match find (fun x => text_eqb (fst x) n) d with Some x => Some (snd x) | None => None end.

(** ** utilities/check_output_logs.py:30-65 *)

(** The last [n] characters, [s[-n:]]. *)
Definition last_chars (n : nat) (s : text) : text := skipn (length s - n) s.
(** The text of utilities/check_output_logs.py:58. *)
Definition completion : text := txt "Sorcha process is completed. ".

(** Lines 53-63 for one log, given as its lines; [lines[-1]] fails on an empty
    file. *)
Definition check_log (lines : list text) : result (bool * text) :=
  match rev lines with
  | [] => Err IndexError
  | l :: _ => if text_eqb (last_chars 29 l) completion then Ok (true, txt " ") else Ok (false, l)
  end.
(** Lines 50-65. *)
Fixpoint check_all_logs (logs : list (list text)) : result (list (bool * text)) :=
  match logs with
  | [] => Ok []
  | l :: ls => (r <- check_log l ;; rs <- check_all_logs ls ;; Ok (r :: rs))%result
  end.

(** utilities/sorchaGetLogger.py:9: how a message without line breaks becomes a
    line; [stamp] stands for time, logger name and level. *)
Definition log_line (m : text * text) : text := fst m ++ snd m ++ txt " ".

(** ** utilities/createResultsSQLDatabase.py:18-82 *)

(** A database file: path and, if it has a table sorcha_results, the column
    names and the rows of that table. *)
Notation database V := (text * option (list string * list (list V)))%type.

(** Lines 69-79: a row is inserted by position and must have as many values as
    the new table has columns. *)
Fixpoint insert_all {V} (names : list string) (l : list (database V)) : result (list string * list (list V)) :=
  match l with
  | [] => Ok (names, [])
  | (_, None) :: _ => Err OperationalError
  | (_, Some (_, rows)) :: l' =>
      if forallb (fun r => length r =? length names) rows
      then rmap (fun x => (fst x, rows ++ snd x)) (insert_all names l')
      else Err OperationalError
  end.

(** Lines 45-82.  [listing] is what [glob] finds; [filename] is the path that
    is left out (line 47; list.remove removes the first occurrence, paths are
    distinct).  The columns are those of the first database. *)
Definition create_results_table {V} (filename : text) (listing : list (database V))
  : result (list string * list (list V)) :=
  let dbs := filter (fun d => negb (text_eqb (fst d) filename)) listing in
  match dbs with
  | [] => Err SysExit
  | (_, None) :: _ => Err OperationalError
  | (_, Some (names, _)) :: _ => insert_all names dbs
  end.

(** ** utilities/generate_meta_kernel.py *)

(** Line 45: what is inserted between two pieces. *)
Definition joint : text := txt "+' '".

(** Lines 43-46, the loop over n = n_iter, ..., 1. *)
Fixpoint split_loop (split n : nat) (s : text) : text :=
  match n with
  | 0 => s
  | S k => split_loop split k (firstn (split * n) s ++ joint ++ skipn (split * n) s)
  end.
(** Lines 27-46 (split > 0). *)
Definition split_kernel_path (split : nat) (s : text) : text := split_loop split (length s / split) s.

(** [str.replace(pat, by)] for a non-empty pattern: leftmost, not overlapping.
    [skip] counts the characters of a match still to be passed. *)
Fixpoint starts_with (pat s : text) : bool :=
  match pat, s with
  | [], _ => true
  | p :: pat', c :: s' => Ascii.eqb p c && starts_with pat' s'
  | _ :: _, [] => false
  end.
(** [str.replace], utilities/generate_meta_kernel.py:101. *)
Fixpoint replace_from (pat by_ : text) (skip : nat) (s : text) : text :=
  match s with
  | [] => []
  | c :: s' =>
      match skip with
      | S k => replace_from pat by_ k s'
      | 0 => if starts_with pat s then by_ ++ replace_from pat by_ (length pat - 1) s'
             else c :: replace_from pat by_ 0 s'
      end
  end.
(** [str.replace], utilities/generate_meta_kernel.py:101. *)
Definition replace (pat by_ s : text) : text := replace_from pat by_ 0 s.

(** Line 101. *)
Definition build_file_name (cache_dir file_path : text) : text := replace cache_dir (txt "$A") file_path.
