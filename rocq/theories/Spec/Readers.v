(** Vocabulary for the statements about input files: what the rows of a text
    file are, what a slice is, what it means for a schedule of reads to cover
    a file. *)
From Coq Require Import String Ascii List Arith ZArith Bool.
From Verif Require Import Base.Prelude Model.Csv.
Import ListNotations.
Open Scope nat_scope.

(** [header_at sp header lines pre hd data]: the file is [pre], the header line
    [hd], then [data]; [hd] is the line asked for, or the first one starting
    with ObjID, and it is a usable header. *)
Record header_at (sp : sep) (header : Z) (lines pre : list string) (hd : string) (data : list string)
  : Prop := {
  ha_split : lines = pre ++ hd :: data;
  ha_near : length pre <= 101;
  ha_asked : (0 <= header)%Z -> header = Z.of_nat (length pre);
  ha_first : (header < 0)%Z ->
    prefix "ObjID" hd = true /\ forall l, In l pre -> prefix "ObjID" l = false;
  ha_names : 2 <= length (split sp hd) /\ In "ObjID"%string (split sp hd)
}.

(** A line with something other than spaces and tabs in it. *)
Definition solid (l : string) : Prop := blank l = false.

(** The rows written in the data lines of a file: the cells of each line, with
    the cell under the ObjID heading as identifier. *)
Definition id_cell (sp : sep) (hd line : string) (i : string) : Prop :=
  exists k, nth_error (split sp hd) k = Some "ObjID"%string
    /\ (forall j, j < k -> nth_error (split sp hd) j <> Some "ObjID"%string)
    /\ i = nth k (split sp line) EmptyString.
Definition row_of_line (sp : sep) (hd line : string) (r : string * list string) : Prop :=
  snd r = split sp line /\ id_cell sp hd line (fst r).

(** [slice s n l]: the rows numbered s, s+1, ... s+n-1 that exist. *)
Definition slice {A} (s : nat) (n : option nat) (l : list A) : list A :=
  match n with Some k => firstn k (skipn s l) | None => skipn s l end.

(** Column type inference leaves the identifiers [ids] alone, whichever of
    them are read together. *)
Definition stable (infer : list string -> list string) (ids : list string) : Prop :=
  forall l, (forall x, In x l -> In x ids) -> infer l = l.

(** [file_rows sp hd data all]: [all] are the rows of the data lines, in order. *)
Definition file_rows (sp : sep) (hd : string) (data : list string) (all : list (string * list string)) : Prop :=
  Forall2 (row_of_line sp hd) data all.

(** A reader that answers a request for some identifiers with exactly the rows
    of [T] that carry one of them. *)
Definition exact_reader {R} (T : list (string * R)) (rd : list string -> result (list (string * R))) : Prop :=
  forall wanted, exists l, rd wanted = Ok l /\ selected (fun r => In (fst r) wanted) T l.

(** [own_data i tables auxs]: [auxs] holds, for each table, the data of one row
    of that table with identifier [i]. *)
Definition own_data {R} (i : string) (tables : list (list (string * R))) (auxs : list (option R)) : Prop :=
  Forall2 (fun T o => exists a, o = Some a /\ In (i, a) T) tables auxs.

Definition ids_of {R} (T : list (string * R)) : list string := map fst T.

(** The value of a decimal digit. *)
Definition digit (c : ascii) : option Z :=
  match c with
  | "0" => Some 0%Z | "1" => Some 1%Z | "2" => Some 2%Z | "3" => Some 3%Z | "4" => Some 4%Z
  | "5" => Some 5%Z | "6" => Some 6%Z | "7" => Some 7%Z | "8" => Some 8%Z | "9" => Some 9%Z
  | _ => None
  end%char.

(** The number written by the digits of [s], after those that make [acc]. *)
Fixpoint numeral (acc : Z) (s : string) : option Z :=
  match s with
  | EmptyString => Some acc
  | String c r => match digit c with Some d => numeral (10 * acc + d)%Z r | None => None end
  end.

(** [integer_text s z]: [s] is an optional sign followed by at least one digit,
    and stands for [z]. *)
Definition integer_text (s : string) (z : Z) : Prop :=
  exists ds v, ds <> EmptyString /\ numeral 0 ds = Some v /\
    (((s = ds \/ s = String "+" ds) /\ z = v) \/ (s = String "-" ds /\ z = (- v)%Z)).

(** [decimal s z]: [s] is the usual way of writing [z]: no plus sign, no leading
    zero, zero without a sign. *)
Definition decimal (s : string) (z : Z) : Prop :=
  integer_text s z /\
  (s = "0"%string \/
   exists c r d, digit c = Some d /\ d <> 0%Z /\ (s = String c r \/ s = String "-" (String c r))).
