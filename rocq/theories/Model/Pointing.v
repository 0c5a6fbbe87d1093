(** The pointing table: modules/PPReadPointingDatabase.py and
    modules/PPMatchPointingToObservations.py.  Paths are relative to
    /repo/src/sorcha.  The SQL query is outside the model: the table it returns
    is the argument.  Times are rational numbers (no NaN) and arithmetic is
    exact.  [A] holds the other columns. *)
From Coq Require Import ZArith QArith Qabs String List Bool.
From Verif Require Import Base.Prelude.
Import ListNotations.
Open Scope string_scope.

(** A row of the query's result, modules/PPReadPointingDatabase.py:50-53: the
    identifier, the filter ([None] is a null) and the times that are read. *)
Record pointing (A : Type) := { p_id : Z; p_filter : option string; p_start : Q; p_mid : Q;
  p_visit : Q; p_exposure : Q; p_c : option Q; p_k : option Q; p_other : A }.
Arguments p_id {A} _. Arguments p_filter {A} _. Arguments p_start {A} _. Arguments p_mid {A} _.
Arguments p_visit {A} _. Arguments p_exposure {A} _. Arguments p_c {A} _. Arguments p_k {A} _. Arguments p_other {A} _.

(** [df.optFilter.isin(observing_filters)], modules/PPReadPointingDatabase.py:55. *)
Definition in_filters {A} (filters : list string) (p : pointing A) : bool :=
  match p_filter p with Some f => existsb (String.eqb f) filters | None => false end.

(** modules/PPReadPointingDatabase.py:70-72. *)
Definition with_midpoint {A} (p : pointing A) : pointing A :=
  {| p_id := p_id p; p_filter := p_filter p; p_start := p_start p; p_mid := p_start p + (p_visit p / 2) / 86400;
     p_visit := p_visit p; p_exposure := p_exposure p; p_c := p_c p; p_k := p_k p; p_other := p_other p |}%Q.
(** modules/PPReadPointingDatabase.py:74-76. *)
Definition with_start {A} (p : pointing A) : pointing A :=
  {| p_id := p_id p; p_filter := p_filter p; p_start := p_mid p - (p_exposure p / 2) / 86400; p_mid := p_mid p;
     p_visit := p_visit p; p_exposure := p_exposure p; p_c := p_c p; p_k := p_k p; p_other := p_other p |}%Q.

(** modules/PPReadPointingDatabase.py:50-103.  [columns] says which columns the
    query returned (only "c" and "k" matter here, line 82). *)
Definition PPReadPointingDatabase {A} (filters : list string) (survey : string) (fading_on : bool)
    (columns : list string) (table : list (pointing A)) : result (list (pointing A)) :=
  let dfo := filter (in_filters filters) table in
  match dfo with
  | [] => Err SysExit
  | _ =>
    rbind (if existsb (String.eqb survey) ["rubin_sim"; "RUBIN_SIM"] then Ok (map with_midpoint dfo)
           else if existsb (String.eqb survey) ["DES"; "des"] then Ok (map with_start dfo)
           else Err SysExit) (fun dfo =>
    if fading_on && existsb (String.eqb survey) ["DES"; "des"] then
      if negb (existsb (String.eqb "c") columns) || negb (existsb (String.eqb "k") columns) then Err SysExit
      else if existsb (fun p => match p_c p, p_k p with Some _, Some _ => false | _, _ => true end) dfo then Err SysExit
      else Ok dfo
    else Ok dfo)
  end.

(** numpy's [isclose(a, b)] with its default tolerances, used in
    modules/PPMatchPointingToObservations.py:62. *)
Definition isclose (a b : Q) : bool := Qle_bool (Qabs (a - b)) ((1 # 100000000) + (1 # 100000) * Qabs b)%Q.

(** modules/PPMatchPointingToObservations.py:50-56, the left merge: each
    observation with every pointing of its FieldID, in the order of the table,
    or once with nulls. *)
Definition left_merge {O A} (field : O -> Z) (obs : list O) (pts : list (pointing A)) : list (O * option (pointing A)) :=
  flat_map (fun o => match filter (fun p => Z.eqb (p_id p) (field o)) pts with
                     | [] => [(o, None)]
                     | ps => map (fun p => (o, Some p)) ps
                     end) obs.
(** modules/PPMatchPointingToObservations.py:60: rows without a filter go. *)
Fixpoint with_filter {O A} (l : list (O * option (pointing A))) : list (O * pointing A) :=
  match l with
  | [] => []
  | (o, Some p) :: rest => match p_filter p with Some _ => (o, p) :: with_filter rest | None => with_filter rest end
  | (_, None) :: rest => with_filter rest
  end.
(** modules/PPMatchPointingToObservations.py:50-74.  The columns dropped in
    lines 46-52 and 72 are not read by later stages; the pairs stand for the
    merged rows. *)
Definition PPMatchPointingToObservations {O A} (field : O -> Z) (mjd : O -> Q)
    (obs : list O) (pts : list (pointing A)) : result (list (O * pointing A)) :=
  let res := with_filter (left_merge field obs pts) in
  if forallb (fun r => isclose (p_start (snd r)) (mjd (fst r))) res then Ok res else Err SysExit.
