(** Vocabulary for the statements about ephemeris files. *)
From Coq Require Import String Ascii List Arith ZArith Bool.
From Verif Require Import Base.Prelude Model.Csv.
Import ListNotations.
Open Scope nat_scope.

(** The headings that the documentation requires of an ephemeris file, and
    those that may be there besides. *)
Definition required : list string :=
  ["ObjID"; "FieldID"; "fieldMJD_TAI"; "Range_LTC_km"; "RangeRate_LTC_km_s"; "RA_deg"; "RARateCosDec_deg_day";
   "Dec_deg"; "DecRate_deg_day"; "Obj_Sun_x_LTC_km"; "Obj_Sun_y_LTC_km"; "Obj_Sun_z_LTC_km";
   "Obj_Sun_vx_LTC_km_s"; "Obj_Sun_vy_LTC_km_s"; "Obj_Sun_vz_LTC_km_s"; "Obs_Sun_x_km"; "Obs_Sun_y_km";
   "Obs_Sun_z_km"; "Obs_Sun_vx_km_s"; "Obs_Sun_vy_km_s"; "Obs_Sun_vz_km_s"; "phase_deg"]%string.
Definition tolerated : list string := ["fieldJD_TDB"; "V"; "V(H=0)"]%string.
(** The headings of a generated ephemeris. *)
Definition generated : list string :=
  ["ObjID"; "FieldID"; "fieldMJD_TAI"; "fieldJD_TDB"; "Range_LTC_km"; "RangeRate_LTC_km_s"; "RA_deg";
   "RARateCosDec_deg_day"; "Dec_deg"; "DecRate_deg_day"; "Obj_Sun_x_LTC_km"; "Obj_Sun_y_LTC_km";
   "Obj_Sun_z_LTC_km"; "Obj_Sun_vx_LTC_km_s"; "Obj_Sun_vy_LTC_km_s"; "Obj_Sun_vz_LTC_km_s"; "Obs_Sun_x_km";
   "Obs_Sun_y_km"; "Obs_Sun_z_km"; "Obs_Sun_vx_km_s"; "Obs_Sun_vy_km_s"; "Obs_Sun_vz_km_s"; "phase_deg"]%string.

(** White space, and [trimmed s w]: [w] is [s] without the white space at
    both ends. *)
Definition white (c : ascii) : Prop := 9 <= nat_of_ascii c <= 13 \/ 28 <= nat_of_ascii c <= 32.
Definition all_white (s : string) : Prop := forall c, In c (list_ascii_of_string s) -> white c.
Definition trimmed (s w : string) : Prop :=
  exists a b, s = (a ++ w ++ b)%string /\ all_white a /\ all_white b
  /\ (forall c r, list_ascii_of_string w = c :: r -> ~ white c)
  /\ (forall c r, list_ascii_of_string w = r ++ [c] -> ~ white c).

(** [headings t names]: the headings of the file without blanks around them. *)
Definition headings (cols names : list string) : Prop := Forall2 trimmed cols names.

(** The value of a row under a heading: the cell at the place of the heading,
    nothing when the row is too short. *)
Definition under (cols cells : list string) (c v : string) : Prop :=
  exists k, nth_error cols k = Some c /\ nth k cells EmptyString = v.

(** [same_values cols cells cols' cells']: both rows have the same value under
    each of the required headings. *)
Definition same_values (cols cells cols' cells' : list string) : Prop :=
  forall c, In c required -> exists v, under cols cells c v /\ under cols' cells' c v.

(** A cell that can be written without quotation marks. *)
Definition plain (sp : sep) (w : string) : Prop :=
  match sp with
  | Comma => forall c, In c (list_ascii_of_string w) -> c <> ","%char
  | Whitespace => w <> EmptyString /\ forall c, In c (list_ascii_of_string w) -> ~ white c
  end.

(** A generated row: one cell for each heading, the first is the identifier. *)
Definition name_of (cells : list string) : string := nth 0 cells EmptyString.
Definition row_ok (sp : sep) (cells : list string) : Prop :=
  length cells = length generated /\ (forall w, In w cells -> plain sp w)
  /\ exists c, In c (list_ascii_of_string (name_of cells)) /\ ~ white c.
