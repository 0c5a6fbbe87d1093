(** Vocabulary for the results database of [sorcha outputs create-sqlite]. *)
From Coq Require Import Ascii String List.
From Verif Require Import Base.Prelude Model.Files Model.Csv.
Import ListNotations.
Open Scope list_scope.

(** A line with something other than blanks on it. *)
Definition written (l : string) : Prop := split_ws l <> [].
(** The name under which a column is stored. *)
Inductive stored_as : string -> string -> Prop :=
| stored_index : stored_as "INDEX" "orig_index"
| stored_same : forall c, c <> "INDEX"%string -> stored_as c c.
(** [f] is a file whose columns, apart by blanks, have the names [H], and whose rows
    are [data]; cells at the end of a row may be missing. *)
Definition content (f : list string) (H : list string) (data : list (list (option string))) : Prop :=
  exists h rest, selected written f (h :: rest) /\ Forall2 stored_as (split_ws h) H
    /\ Forall2 (fun l r => exists k, r = map Some (split_ws l) ++ repeat None k /\ length r = length H) rest data.
(** Names that differ at most in capitals. *)
Definition same_letter (a b : ascii) : Prop :=
  a = b \/ exists n, 65 <= n <= 90 /\ ((a = ascii_of_nat n /\ b = ascii_of_nat (n + 32)) \/ (a = ascii_of_nat (n + 32) /\ b = ascii_of_nat n)).
Definition same_name (c d : string) : Prop := Forall2 same_letter (list_ascii_of_string c) (list_ascii_of_string d).
(** The name of the column with the numbers of the rows of a file with columns [H]. *)
Inductive row_numbers (H : list string) : string -> Prop :=
| rows_index : ~ In "index"%string H -> row_numbers H "index"
| rows_level : In "index"%string H -> row_numbers H "level_0".
(** A database can have these columns. *)
Definition storable (H : list string) : Prop :=
  (forall j k c d, nth_error H j = Some c -> nth_error H k = Some d -> same_name c d -> j = k)
  /\ (forall c d, In c H -> row_numbers H d -> ~ same_name c d).
(** The row [out] with columns [names] holds the row [r] with columns [H], and [i] in the column of row numbers. *)
Definition holds (names : list string) (out : list (option string)) (i : string) (H : list string) (r : list (option string)) : Prop :=
  length out = length names
  /\ forall k c, nth_error names k = Some c ->
       (forall j d, nth_error H j = Some d -> same_name c d -> nth_error out k = nth_error r j)
       /\ (forall d, row_numbers H d -> same_name c d -> nth_error out k = Some (Some i))
       /\ ((forall d, In d H \/ row_numbers H d -> ~ same_name c d) -> nth_error out k = Some None).
(** The rows [g] hold the rows [data] in order, numbered from 0. *)
Definition holds_all (number : nat -> string) (names H : list string) (data g : list (list (option string))) : Prop :=
  length g = length data
  /\ forall i r out, nth_error data i = Some r -> nth_error g i = Some out -> holds names out (number i) H r.
(** The table [t] holds the rows of all files of [dir] whose names begin with [type]. *)
Definition gathered (number : nat -> string) (dir : list (text * list string)) (type : text)
    (t : option (list string * list (list (option string)))) : Prop :=
  forall chosen, selected (fun f => exists rest, fst f = type ++ rest) dir chosen ->
  chosen <> [] /\ exists names datas groups, t = Some (names, concat groups)
    /\ Forall2 (fun f d => content (snd f) (fst d) (snd d)) chosen datas
    /\ Forall2 (fun d g => (forall c, In c (fst d) \/ row_numbers (fst d) c -> exists n, In n names /\ same_name c n)
                           /\ holds_all number names (fst d) (snd d) g) datas groups.
