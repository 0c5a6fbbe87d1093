(** The chunk loop of the main driver.  Paths are relative to
    /repo/src/sorcha. *)
From Coq Require Import String List Arith ZArith Bool.
From Verif Require Import Base.Prelude Model.Readers.
Import ListNotations.
Open Scope nat_scope.

(** How a run stands: completed, stopped by an exception, or cut off from
    outside after some number of rounds (kill, power loss). *)
Inductive status : Type := Done | Stopped (e : failure) | Interrupted.

(** The variables of sorcha.py:167-169, the [block_start] attribute of the
    CombinedDataReader and whatever else persists between rounds (generators). *)
Record loop_state (S : Type) := {
  startChunk : Z; endChunk : Z; loopCounter : nat; block_start : nat; inner : S }.
Arguments startChunk {S}. Arguments endChunk {S}. Arguments loopCounter {S}.
Arguments block_start {S}. Arguments inner {S}.

Section Loop.
Context {S C O : Type}.
(** Reading one block: block_start and requested size to new block_start and
    data ([None] is Python's None, returned when no object is left). *)
Variable read : nat -> Z -> result (nat * option C).
(** sorcha.py:197-390: what a round does with the data it read; [None] when
    the round writes nothing, including the early [continue]s of 219-221 and
    236-238. *)
Variable process : S -> C -> result (S * option O).

(** sorcha.py:184-393.  [rounds] bounds the number of rounds executed before
    the run is cut off.  The trace lists, per completed round, the data read
    and what was written.  A round that reads None fails when it looks at
    [.index] (lines 201 and 232). *)
Fixpoint main_loop (rounds : nat) (lenf size : Z) (st : loop_state S)
  : status * list (C * option O) :=
  if (endChunk st <? lenf)%Z then
    match rounds with
    | 0 => (Interrupted, [])
    | Datatypes.S k =>
        let e := (startChunk st + size)%Z in
        match read (block_start st) size with
        | Err x => (Stopped x, [])
        | Ok (_, None) => (Stopped AttributeError, [])
        | Ok (next, Some c) =>
            match process (inner st) c with
            | Err x => (Stopped x, [])
            | Ok (s', o) =>
                let r := main_loop k lenf size
                  {| startChunk := startChunk st + size; endChunk := e;
                     loopCounter := Datatypes.S (loopCounter st);
                     block_start := next; inner := s' |} in
                (fst r, (c, o) :: snd r)
            end
        end
    end
  else (Done, []).

(** sorcha.py:167-169 and readers/CombinedDataReader.py:41. *)
Definition initial (s : S) : loop_state S :=
  {| startChunk := 0; endChunk := 0; loopCounter := 0; block_start := 0; inner := s |}.
(** sorcha.py:167-393: the loop from its initial state. *)
Definition run (rounds : nat) (lenf size : Z) (s : S) : status * list (C * option O) :=
  main_loop rounds lenf size (initial s).
End Loop.

(** What a run wrote, chunk by chunk. *)
Definition written {C O} (tr : list (C * option O)) : list O :=
  flat_map (fun r => match snd r with Some o => [o] | None => [] end) tr.

(** sorcha.py:192 with readers/CombinedDataReader.py:111-197: pandas rejects a
    negative [nrows] with ValueError. *)
Definition read_external {E R} (aux0 : nat -> option nat -> result (list (string * R)))
    (ephem : list string -> result (list (string * E)))
    (others : list (list string -> result (list (string * R)))) (start : nat) (size : Z)
  : result (nat * option (list (joined E R))) :=
  if (size <? 0)%Z then Err ValueError
  else read_block aux0 ephem others start (Some (Z.to_nat size)).
(** sorcha.py:195 with readers/CombinedDataReader.py:199-270. *)
Definition read_internal {R} (aux0 : nat -> option nat -> result (list (string * R)))
    (others : list (list string -> result (list (string * R)))) (start : nat) (size : Z)
  : result (nat * option (list (aux_joined R))) :=
  if (size <? 0)%Z then Err ValueError
  else read_aux_block aux0 others start (Some (Z.to_nat size)).
