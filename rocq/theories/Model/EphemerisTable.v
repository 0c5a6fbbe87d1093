(** The table of the generated ephemeris.  Paths are relative to
    /repo/src/sorcha/ephemeris. *)
From Coq Require Import String List Bool.
From Verif Require Import Base.Prelude Model.Csv Model.Readers.
Import ListNotations.

Section Table.
(** The columns of a generated row other than the identifier, and those of the
    orbits table. *)
Variables (E O : Type).

(** simulation_driver.py:160-161, 220, 224-225: rows are written to a CSV in memory
    and read back.  [defaultdict(...).setdefault(float)] is None, so
    [read_csv] gets no column types and infers them: [infer].  Numbers are
    written with enough digits to be read back unchanged. *)
Variable infer : list string -> list string.
(** simulation_driver.py:220, 224-225. *)
Definition read_back (rows : list (string * E)) : list (string * E) :=
  combine (infer (map fst rows)) (map snd rows).
(** simulation_driver.py:235-237.  [astype("string")] on a column of integers
    prints them. *)
Definition ephemeris_table (rows : list (string * E)) (orbits : list (string * O)) : list ((string * E) * option O) :=
  left_join fst (read_back rows) orbits.
End Table.
Arguments read_back {E}. Arguments ephemeris_table {E O}.
