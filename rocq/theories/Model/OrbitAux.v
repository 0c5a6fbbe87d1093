(** The orbit file validation, readers/OrbitAuxReader.py, on a table whose cells
    have been read as numbers.  Warnings (lines 96-125, 157-173) only write to
    the log and are left out. *)
From Coq Require Import String List Arith ZArith QArith Bool.
From Verif Require Import Base.Prelude Base.Num.
Import ListNotations.
Open Scope nat_scope.

(** One row: identifier, FORMAT cell, and the numeric cell under a heading. *)
Record orow := { o_id : string; o_fmt : string; o_val : string -> num }.
(** The argument [input_table], readers/OrbitAuxReader.py:43. *)
Record otable := { o_cols : list string; o_rows : list orow }.

(** Python's [in], readers/OrbitAuxReader.py:74 and 91-92. *)
Definition mem_str (x : string) (l : list string) : bool := existsb (String.eqb x) l.

(** readers/ObjectDataReader.py:190-200: more than one column, ObjID present. *)
Definition base_validate (t : otable) : result unit :=
  if length (o_cols t) <=? 1 then Err SysExit
  else if mem_str "ObjID" (o_cols t) then Ok tt else Err SysExit.

(** readers/OrbitAuxReader.py:87-89. *)
Definition keplerian_elements : list string :=
  ["ObjID"; "a"; "e"; "inc"; "node"; "argPeri"; "ma"; "epochMJD_TDB"]%string.
(** readers/OrbitAuxReader.py:88. *)
Definition cometary_elements : list string :=
  ["ObjID"; "q"; "e"; "inc"; "node"; "argPeri"; "t_p_MJD_TDB"; "epochMJD_TDB"]%string.
(** readers/OrbitAuxReader.py:89. *)
Definition cartesian_elements : list string :=
  ["ObjID"; "x"; "y"; "z"; "xdot"; "ydot"; "zdot"; "epochMJD_TDB"]%string.

(** readers/OrbitAuxReader.py:92, 154 and 194. *)
Definition has_columns (needed : list string) (t : otable) : bool :=
  forallb (fun c => mem_str c (o_cols t)) needed.

(** readers/OrbitAuxReader.py:126-151: [error_raised] after the three checks. *)
Definition kep_error (r : orow) : bool :=
  nleb (Fin 1) (o_val r "e") || nltb (o_val r "e") (Fin 0)
  || (nltb (o_val r "e") (Fin 1) && nltb (o_val r "a") (Fin 0)).
(** readers/OrbitAuxReader.py:162-191. *)
Definition com_error (r : orow) : bool :=
  nltb (o_val r "q") (Fin 0) || nltb (o_val r "e") (Fin 0).

(** readers/OrbitAuxReader.py:43-207, [_process_and_validate_input_table]. *)
Definition orbit_process (t : otable) : result otable :=
  rbind (base_validate t) (fun _ =>
  match o_rows t with
  | [] => Ok t
  | r0 :: _ =>
      if negb (mem_str "FORMAT" (o_cols t)) then Err SysExit
      else if negb (length (o_cols t) =? 9) then Err SysExit
      else if negb (forallb (fun r => String.eqb (o_fmt r) (o_fmt r0)) (o_rows t)) then Err SysExit
      else if mem_str (o_fmt r0) ["KEP"; "BKEP"]%string then
        if negb (has_columns keplerian_elements t) then Err SysExit
        else if existsb kep_error (o_rows t) then Err SysExit else Ok t
      else if mem_str (o_fmt r0) ["COM"; "BCOM"]%string then
        if negb (has_columns cometary_elements t) then Err SysExit
        else if existsb com_error (o_rows t) then Err SysExit else Ok t
      else if mem_str (o_fmt r0) ["CART"; "BCART"]%string then
        if negb (has_columns cartesian_elements t) then Err SysExit else Ok t
      else Err SysExit
  end).
