(** Filters, colours and faint-object culling.  Paths are relative to
    /repo/src/sorcha. *)
From Coq Require Import String Ascii List ZArith Bool Reals.
From Verif Require Import Base.Prelude Model.Csv Model.Sphere Model.Photometry.
Import ListNotations.
Open Scope string_scope.

(** Python's [in] on a list, modules/PPGetMainFilterAndColourOffsets.py:57 and
    100. *)
Definition mem (x : string) (l : list string) : bool := existsb (String.eqb x) l.

(** ** modules/PPGetMainFilterAndColourOffsets.py *)

(** Lines 40-109.  [first_line] as [readline] returns it, with its newline;
    [index] is [str.find] and [get] indexing. *)
Definition drop_last (s : string) : string := substring 0 (String.length s - 1) s.
(** Lines 40-109. *)
Definition PPGetMainFilterAndColourOffsets (first_line : string) (observing_filters : list string) (filesep : string)
  : result (string * option (list string)) :=
  match index 0 "H_" first_line with
  | None => Err SysExit
  | Some H_loc =>
      match get (H_loc + 2) first_line with
      | None => Err IndexError
      | Some c =>
          let mainfilter := String c EmptyString in
          if negb (mem mainfilter observing_filters) then Err SysExit else
          let offsets := match observing_filters with
                         | [_] => None
                         | _ :: rest => Some (map (fun x => x ++ "-" ++ mainfilter) rest)
                         | [] => None
                         end in
          let split_line :=
            if String.eqb filesep "whitespace" then Some (split_ws (drop_last first_line))
            else if (String.eqb filesep "comma" || String.eqb filesep "csv")%bool then Some (split_comma (drop_last first_line))
            else None in
          match split_line with
          | None => Err SysExit
          | Some cols =>
              if Nat.leb (List.length cols) 1 then Err SysExit
              else match offsets with
                   | Some o => if forallb (fun x => mem x cols) o then Ok (mainfilter, offsets) else Err SysExit
                   | None => Ok (mainfilter, offsets)
                   end
          end
      end
  end.

(** ** modules/PPApplyColourOffsets.py *)

(** A table of observations: its column names and its rows; [cell r c] is the
    number in column [c] of row [r] and means something for listed columns
    only.  Column names are assumed to be distinct. *)
Record obs := { optFilter : string; cell : string -> R }.
(** The table [observations], modules/PPApplyColourOffsets.py:7. *)
Record obs_table := { columns : list string; recs : list obs }.

(** One cell of the assignments of modules/PPApplyColourOffsets.py:56, 59 and
    67. *)
Definition set_cell (c : string) (v : R) (r : obs) : obs :=
  {| optFilter := optFilter r; cell := fun k => if String.eqb k c then v else cell r k |}.
(** [df[c] = ...]. *)
Definition assign (c : string) (f : obs -> R) (t : obs_table) : obs_table :=
  {| columns := if mem c (columns t) then columns t else (columns t ++ [c])%list;
     recs := map (fun r => set_cell c (f r) r) (recs t) |}.
(** [df.drop(cs, axis=1)] for listed columns. *)
Definition drop_columns (p : string -> bool) (t : obs_table) : obs_table :=
  {| columns := filter (fun c => negb (p c)) (columns t); recs := recs t |}.
(** [Series.unique]: in order of first appearance. *)
Fixpoint unique (seen l : list string) : list string :=
  match l with
  | [] => []
  | x :: l' => if mem x seen then unique seen l' else x :: unique (x :: seen) l'
  end.
(** Lines 62-71. *)
Fixpoint apply_filters (H_col mainfilter : string) (fs : list string) (t : obs_table) : result obs_table :=
  match fs with
  | [] => Ok t
  | f :: fs' =>
      if mem (f ++ "-" ++ mainfilter) (columns t)
      then apply_filters H_col mainfilter fs'
             {| columns := columns t;
                recs := map (fun r => if String.eqb (optFilter r) f
                                      then set_cell H_col (cell r H_col + cell r (f ++ "-" ++ mainfilter))%R r else r) (recs t) |}
      else Err SysExit
  end.
(** Lines 77-154: the phase parameters of a function. *)
Definition phase_parameters (function : string) : option (list string) :=
  if String.eqb function "HG1G2" then Some ["G1"; "G2"]
  else if String.eqb function "HG" then Some ["GS"]
  else if String.eqb function "HG12" then Some ["G12"]
  else if String.eqb function "linear" then Some ["S"]
  else if String.eqb function "none" then Some []
  else None.
(** modules/PPApplyColourOffsets.py:78-79, 97, 114, 131: one column per
    parameter and filter. *)
Definition per_filter (ps observing_filters : list string) : list string :=
  flat_map (fun p => map (fun f => p ++ f) observing_filters) ps.
(** modules/PPApplyColourOffsets.py:77-154. *)
Definition choose_parameters (H_col function : string) (observing_filters : list string) (t : obs_table) : result obs_table :=
  match phase_parameters function with
  | None => Err SysExit
  | Some [] => Ok t
  | Some ps =>
      if forallb (fun c => mem c (columns t)) (H_col :: ps) then Ok t
      else if forallb (fun c => mem c (columns t)) (H_col :: per_filter ps observing_filters)
      then if forallb (fun r => forallb (fun p => mem (p ++ optFilter r) (columns t)) ps) (recs t)
           then Ok (drop_columns (fun c => mem c (per_filter ps observing_filters))
                     (fold_left (fun u p => assign p (fun r => cell r (p ++ optFilter r)) u) ps t))
           else Err KeyError
      else Err SysExit
  end.
(** Lines 157-159: [fnmatch] with the pattern "?-main". *)
Definition obsolete (mainfilter c : string) : bool :=
  match c with String _ r => String.eqb r ("-" ++ mainfilter) | EmptyString => false end.
(** Line 162: both renamings at once. *)
Definition renamed (H_col c : string) : string :=
  if String.eqb c H_col then "H_filter" else if String.eqb c "H_original" then H_col else c.
(** modules/PPApplyColourOffsets.py:162 on a whole table. *)
Definition rename_H (H_col : string) (t : obs_table) : obs_table :=
  {| columns := map (renamed H_col) (columns t);
     recs := map (fun r => {| optFilter := optFilter r;
        cell := fun k => if String.eqb k "H_filter" then cell r H_col
                         else if String.eqb k H_col then cell r "H_original" else cell r k |}) (recs t) |}.
(** Lines 7-164. *)
Definition PPApplyColourOffsets (function : string) (observing_filters : list string) (mainfilter : string) (t : obs_table)
  : result obs_table :=
  let H_col := "H_" ++ mainfilter in
  if negb (mem H_col (columns t)) then Err KeyError else
  let t := assign "H_original" (fun r => cell r H_col) t in
  let t := assign (mainfilter ++ "-" ++ mainfilter) (fun _ => 0%R) t in
  rbind (apply_filters H_col mainfilter (unique [] (map optFilter (recs t))) t) (fun t =>
  rbind (choose_parameters H_col function observing_filters t) (fun t =>
  Ok (rename_H H_col (drop_columns (obsolete mainfilter) t)))).
(** modules/PPCalculateApparentMagnitude.py:76-83, followed by the reads of
    PPCalculateApparentMagnitudeInFilter.py:94-120: the columns H_filter and
    the phase parameters. *)
Definition phase_inputs (function : string) (observing_filters : list string) (mainfilter : string) (t : obs_table)
  : result obs_table :=
  rbind (if Nat.ltb 1 (List.length observing_filters)
         then PPApplyColourOffsets function observing_filters mainfilter t
         else if mem ("H_" ++ mainfilter) (columns t)
              then Ok (assign "H_filter" (fun r => cell r ("H_" ++ mainfilter)) t) else Err KeyError) (fun t =>
  match phase_parameters function with
  | None => Err SysExit
  | Some ps => if forallb (fun c => mem c (columns t)) ps then Ok t else Err KeyError
  end).

(** ** modules/PPFaintObjectCullingFilter.py *)
Open Scope R_scope.

(** An object of the chunk; [a_colour f] is its column f-main. *)
Record aux := { a_id : string; a_q : R; a_H : R; a_colour : string -> R }.
(** A pointing: filter and depth. *)
Definition pointing := (string * R)%type.
(** Lines 48-50. *)
Definition max_five_sigma (ps : list pointing) (f : string) : option R :=
  fold_left (fun m p => if String.eqb (fst p) f then match m with None => Some (snd p) | Some x => Some (Rmax x (snd p)) end else m) ps None.
(** Lines 67-91 for one object and one filter.  The classes are looked up in
    the registries; a class without [maxBrightness] raises AttributeError.
    [lc] and [ca] stand for the lightcurve and activity chosen, if any. *)
Definition brightest (mainfilter : string) (lc : option lc_class) (ca : option ca_class) (f : string) (o : aux) : result R :=
  let H := if String.eqb f mainfilter then a_H o else a_H o + a_colour o f in
  let m := H + 5 * log10 (a_q o) + 5 * log10 (a_q o - 1) in
  rbind (match lc with
         | None => Ok m
         | Some c => match lc_maxBrightness c with None => Err AttributeError | Some d => Ok (m + d) end
         end) (fun m =>
  match ca with
  | None => Ok m
  | Some c => match ca_maxBrightness c with None => Err AttributeError | Some g => Ok (g m) end
  end).
(** The methods are looked up even for an empty table. *)
Definition classes_ok (lc : option lc_class) (ca : option ca_class) : bool :=
  (match lc with Some c => match lc_maxBrightness c with None => false | _ => true end | None => true end &&
   match ca with Some c => match ca_maxBrightness c with None => false | _ => true end | None => true end)%bool.
(** Line 94 for one object. *)
Definition too_faint (mainfilter : string) lc ca (ps : list pointing) (f : string) (o : aux) : bool :=
  match brightest mainfilter lc ca f o, max_five_sigma ps f with
  | Ok m, Some d => if Rlt_dec (d + 2) m then true else false
  | _, _ => false
  end.
(** Lines 10-100, with the perihelion distances given. *)
Definition PPFaintObjectCullingFilter (mainfilter : string) (observing_filters : list string) lc ca (ps : list pointing) (l : list aux)
  : result (list aux) :=
  let far := filter (fun o => if Rle_dec 2 (a_q o) then true else false) l in
  if (negb (classes_ok lc ca) && negb (Nat.eqb (List.length observing_filters) 0))%bool then Err AttributeError
  else if negb (forallb (fun f => match max_five_sigma ps f with Some _ => true | None => false end) observing_filters) then Err KeyError
  else let dropped := map a_id (filter (fun o => forallb (fun f => too_faint mainfilter lc ca ps f o) observing_filters) far) in
       Ok (filter (fun o => negb (mem (a_id o) dropped)) l).
