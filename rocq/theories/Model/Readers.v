(** The reader base class with its in-memory cache, the HDF5 reader, and the
    reader that joins several files.  Paths are relative to /repo/src/sorcha. *)
From Coq Require Import String List Arith ZArith Bool.
From Verif Require Import Base.Prelude Base.Frame Model.Csv.
Import ListNotations.
Open Scope nat_scope.

(** The two abstract methods of a reader subclass and its validation,
    readers/ObjectDataReader.py:95-98, 129-132, 159-210.  [T] is the table. *)
Record source (T : Type) := {
  s_rows : nat -> option nat -> result T;
  s_objects : list string -> result T;
  s_process : T -> result T;
  s_iloc : nat -> option nat -> T -> T;
  s_isin : list string -> T -> T
}.
Arguments s_rows {T}. Arguments s_objects {T}. Arguments s_process {T}.
Arguments s_iloc {T}. Arguments s_isin {T}.

(** readers/ObjectDataReader.py:78-81 and 118-121: fill the cache.  The raw
    table is stored before it is validated, so a failed validation leaves it
    in the cache. *)
Definition fill_cache {T} (src : source T) (st : option T) : result T * option T :=
  match st with
  | Some t => (Ok t, st)
  | None =>
      match s_rows src 0 None with
      | Err e => (Err e, None)
      | Ok raw =>
          match s_process src raw with
          | Err e => (Err e, Some raw)
          | Ok t => (Ok t, Some t)
          end
      end
  end.

(** readers/ObjectDataReader.py:51-93, [read_rows]. *)
Definition read_rows {T} (src : source T) (cached : bool) (st : option T) (start : nat) (size : option nat)
  : result T * option T :=
  if cached then
    let p := fill_cache src st in (rmap (s_iloc src start size) (fst p), snd p)
  else (rbind (s_rows src start size) (s_process src), st).

(** readers/ObjectDataReader.py:100-127, [read_objects]. *)
Definition read_objects {T} (src : source T) (cached : bool) (st : option T) (ids : list string)
  : result T * option T :=
  if cached then
    let p := fill_cache src st in (rmap (s_isin src ids) (fst p), snd p)
  else (rbind (s_objects src ids) (s_process src), st).

(** A client of one reader object: a sequence of calls and their answers. *)
Inductive call := CRows (start : nat) (size : option nat) | CObjects (ids : list string).
(** One call, readers/ObjectDataReader.py:51-127. *)
Definition answer {T} (src : source T) (cached : bool) (st : option T) (c : call) : result T * option T :=
  match c with
  | CRows s n => read_rows src cached st s n
  | CObjects ids => read_objects src cached st ids
  end.
(** Calls one after the other, readers/ObjectDataReader.py:51-127. *)
Fixpoint answers {T} (src : source T) (cached : bool) (st : option T) (cs : list call) : list (result T) :=
  match cs with
  | [] => []
  | c :: rest => let p := answer src cached st c in fst p :: answers src cached (snd p) rest
  end.

(** The CSV reader as a source.  [csv_read_rows] and [csv_read_objects] already
    include the validation, so [s_process] only repeats the part that can fail
    after loading ([extra], for example the orbit checks). *)
Definition csv_iloc (start : nat) (size : option nat) (t : table) : table :=
  {| t_cols := t_cols t;
     t_rows := match size with
               | Some k => firstn k (skipn start (t_rows t))
               | None => skipn start (t_rows t) end |}.
(** [isin] on the cached table, readers/ObjectDataReader.py:122. *)
Definition csv_isin (ids : list string) (t : table) : table :=
  {| t_cols := t_cols t;
     t_rows := filter (fun r => existsb (String.eqb (fst r)) ids) (t_rows t) |}.
(** readers/CSVReader.py:166-280 as the methods of ObjectDataReader.py:95-132.
    *)
Definition csv_source (infer : list string -> list string) (sp : sep) (h : nat) (lines : list string)
  (extra : table -> result table) : source table := {|
  s_rows := csv_read_rows infer sp h lines;
  s_objects := csv_read_objects infer sp h lines;
  s_process := extra;
  s_iloc := csv_iloc;
  s_isin := csv_isin
|}.

(** readers/HDF5Reader.py:35-70: [pd.read_hdf(start=, stop=)].  The stored table
    keeps the index labels it was written with. *)
Definition hdf_read_rows {A} (f : frame (string * A)) (start : nat) (size : option nat)
  : frame (string * A) :=
  match size with Some k => firstn k (skipn start f) | None => skipn start f end.

(** readers/HDF5Reader.py:79-99: the labels of the matching rows are collected
    and the rows *carrying those labels* are read. *)
Definition hdf_read_objects {A} (f : frame (string * A)) (ids : list string) : frame (string * A) :=
  let match_inds := labels (mask (fun r => existsb (String.eqb (fst r)) ids) f) in
  filter (fun r => mem_nat (fst r) match_inds) f.

(** [df["ObjID"].unique()]: distinct identifiers in order of first appearance. *)
Fixpoint unique_ids (l : list string) : list string :=
  match l with
  | [] => []
  | x :: r => x :: filter (fun y => negb (String.eqb x y)) (unique_ids r)
  end.

(** [left.join(right.set_index("ObjID"), on="ObjID")]: a left join, keeping the
    order of the left rows and, for each, of the matching right rows; a left
    row without a match gets one row of missing values. *)
Definition join_one {L R} (right : list (string * R)) (i : string) (l : L) : list (L * option R) :=
  match filter (fun r => String.eqb (fst r) i) right with
  | [] => [(l, None)]
  | ms => map (fun r => (l, Some (snd r))) ms
  end.
(** readers/CombinedDataReader.py:195 and 268. *)
Definition left_join {L R} (lid : L -> string) (left : list L) (right : list (string * R))
  : list (L * option R) :=
  flat_map (fun l => join_one right (lid l) l) left.

(** [issubset], readers/CombinedDataReader.py:190 and 260. *)
Definition subset_ids (a b : list string) : bool :=
  forallb (fun x => existsb (String.eqb x) b) a.

Section Combined.
(** Rows of the ephemeris file and of the auxiliary files, each with its
    identifier. *)
Variables (E R : Type).

Variable aux0_rows : nat -> option nat -> result (list (string * R)).
Variable ephem_objects : list string -> result (list (string * E)).

(** readers/CombinedDataReader.py:68-109, [check_aux_object_ids] on the
    identifier columns: [collections.Counter] compares multiplicities. *)
Definition count_id (x : string) (l : list string) : nat := length (filter (String.eqb x) l).
(** The comparison of readers/CombinedDataReader.py:97-99. *)
Definition counter_eqb (a b : list string) : bool :=
  forallb (fun x => count_id x a =? count_id x b) (a ++ b).
(** readers/CombinedDataReader.py:78-109 after the first reader. *)
Fixpoint check_others (primary : list string) (others : list (list string)) : result unit :=
  match others with
  | [] => Ok tt
  | ids :: rest =>
      if negb (length primary =? length ids) then Err SysExit
      else if negb (counter_eqb primary ids) then Err SysExit
      else check_others primary rest
  end.
(** readers/CombinedDataReader.py:68-109. *)
Definition check_aux_object_ids (tables : list (list string)) : result unit :=
  match tables with
  | [] | [_] => Err SysExit
  | primary :: others => check_others primary others
  end.

(** A joined row: the ephemeris row and, for each auxiliary file in order, the
    data joined to it. *)
Definition joined := ((string * E) * list (option R))%type.

(** readers/CombinedDataReader.py:178-195, the loop over the auxiliary readers
    other than the first (whose rows are already in hand). *)
Fixpoint join_readers (wanted : list string) (ephem_ids : list string)
  (acc : list joined) (readers : list (list string -> result (list (string * R))))
  : result (list joined) :=
  match readers with
  | [] => Ok acc
  | rd :: rest =>
      rbind (rd wanted) (fun cur =>
      if negb (subset_ids ephem_ids (map fst cur)) then Err SysExit
      else join_readers wanted ephem_ids
             (map (fun p => (fst (fst p), snd (fst p) ++ [snd p]))
                  (left_join (fun j : joined => fst (fst j)) acc cur)) rest)
  end.

(** readers/CombinedDataReader.py:111-197, [read_block] with
    [ephem_primary=False] (the only value runLSSTSimulation uses,
    sorcha.py:144-145).  Returns the new [block_start] and the joined rows,
    [None] when there is nothing left to read. *)
Definition read_block (others : list (list string -> result (list (string * R))))
  (block_start : nat) (size : option nat) : result (nat * option (list joined)) :=
  rbind (aux0_rows block_start size) (fun primary =>
    let next := block_start + length primary in
    let ids := unique_ids (map fst primary) in
    match ids with
    | [] => Ok (next, None)
    | _ =>
        rbind (ephem_objects ids) (fun eph =>
          let eids := unique_ids (map fst eph) in
          rmap (fun js => (next, Some js))
            (join_readers ids eids (map (fun e => (e, [])) eph) ((fun _ => Ok primary) :: others)))
    end).

(** readers/CombinedDataReader.py:199-270, [read_aux_block]. *)
Definition aux_joined := ((string * R) * list (option R))%type.
(** readers/CombinedDataReader.py:248-268 after the first reader. *)
Fixpoint join_aux (wanted : list string) (acc : list aux_joined)
  (readers : list (list string -> result (list (string * R)))) : result (list aux_joined) :=
  match readers with
  | [] => Ok acc
  | rd :: rest =>
      rbind (rd wanted) (fun cur =>
      if negb (subset_ids (map fst cur) wanted) then Err SysExit
      else join_aux wanted
             (map (fun p => (fst (fst p), snd (fst p) ++ [snd p]))
                  (left_join (fun j : aux_joined => fst (fst j)) acc cur)) rest)
  end.
(** readers/CombinedDataReader.py:199-270. *)
Definition read_aux_block (others : list (list string -> result (list (string * R))))
  (block_start : nat) (size : option nat) : result (nat * option (list aux_joined)) :=
  rbind (aux0_rows block_start size) (fun primary =>
    let next := block_start + length primary in
    let ids := unique_ids (map fst primary) in
    match ids with
    | [] => Ok (next, None)
    | _ => rmap (fun js => (next, Some js)) (join_aux ids (map (fun r => (r, [])) primary) others)
    end).
End Combined.
Arguments read_block {E R}. Arguments read_aux_block {R}. Arguments join_readers {E R}.
Arguments join_aux {R}.

(** The way CombinedDataReader consumes its primary file: consecutive calls of
    [read_rows], each starting where the rows returned so far end
    (readers/CombinedDataReader.py:159-160 and 234-235). *)
Fixpoint consecutive (src : source table) (cached : bool) (st : option table) (start : nat)
  (sizes : list nat) : result (list (list (string * list string))) :=
  match sizes with
  | [] => Ok []
  | n :: rest =>
      let p := read_rows src cached st start (Some n) in
      rbind (fst p) (fun t =>
      rmap (cons (t_rows t)) (consecutive src cached (snd p) (start + length (t_rows t)) rest))
  end.
