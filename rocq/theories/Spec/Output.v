(** Vocabulary for statements about written results. *)
From Coq Require Import String List Arith ZArith QArith Bool Sorting.Permutation Sorting.Sorted.
From Verif Require Import Base.Prelude Base.Num Model.Output.
Import ListNotations.
Open Scope nat_scope.

(** Documented contents of the "basic" output
    (docs: "basic" columns) and the columns subject to each rounding option. *)
Definition basic_names : list string :=
  ["ObjID"; "fieldMJD_TAI"; "fieldRA_deg"; "fieldDec_deg"; "RA_deg"; "Dec_deg"; "astrometricSigma_deg";
   "optFilter"; "trailedSourceMag"; "trailedSourceMagSigma"; "fiveSigmaDepth_mag"; "phase_deg";
   "Range_LTC_km"; "RangeRate_LTC_km_s"; "Obj_Sun_LTC_km"]%string.
Definition position_names : list string :=
  ["fieldRA_deg"; "fieldDec_deg"; "RA_deg"; "Dec_deg"; "astrometricSigma_deg"; "RATrue_deg"; "DecTrue_deg"]%string.
Definition magnitude_names : list string :=
  ["PSFMag"; "trailedSourceMag"; "trailedSourceMagTrue"; "PSFMagTrue"; "PSFMagSigma"; "trailedSourceMagSigma";
   "fieldFiveSigmaDepth_mag"; "fiveSigmaDepth_mag"]%string.

(** The columns a user asked for, given the columns [cs] of the internal
    table (which gains the heliocentric distance). *)
Definition requested (cfg : outcfg) (cs : list string) : list string :=
  match oc_columns cfg with
  | Basic => basic_names ++ (if oc_link_col cfg then ["object_linked"%string] else [])
  | All => if in_dec string_dec "Obj_Sun_LTC_km"%string cs then cs else cs ++ ["Obj_Sun_LTC_km"%string]
  | Columns l => l
  end.

Section Shown.
Context {V : Type}.
Variable norm3 : V -> V -> V -> V.
Variable round : nat -> V -> V.

(** The value of column [c] before rounding. *)
Definition raw (r : string -> V) (c : string) : V :=
  if string_dec c "Obj_Sun_LTC_km"
  then norm3 (r "Obj_Sun_x_LTC_km"%string) (r "Obj_Sun_y_LTC_km"%string) (r "Obj_Sun_z_LTC_km"%string)
  else r c.

(** Configured number of decimals that applies to column [c]; zero means no
    rounding. *)
Definition decimals (cfg : outcfg) (c : string) : option nat :=
  if in_dec string_dec c position_names then oc_pos cfg
  else if in_dec string_dec c magnitude_names then oc_mag cfg else None.

(** The value printed for column [c]. *)
Definition shown (cfg : outcfg) (r : string -> V) (c : string) : V :=
  match decimals cfg c with
  | Some (S n) => round (S n) (raw r c)
  | _ => raw r c
  end.

(** What can be written from columns [cs]. *)
Definition available (cfg : outcfg) (cs : list string) : Prop :=
  (forall c, In c ["Obj_Sun_x_LTC_km"; "Obj_Sun_y_LTC_km"; "Obj_Sun_z_LTC_km"]%string -> In c cs) /\
  (forall c, In c (requested cfg cs) -> c = "Obj_Sun_LTC_km"%string \/ In c cs) /\
  match oc_columns cfg with Columns l => 2 <= length l | _ => True end.
End Shown.

(** [m] is the least (greatest) number of the list, NaN if it has none. *)
Definition least (l : list num) (m : num) : Prop :=
  (m = NaN /\ (forall x, In x l -> x = NaN)) \/
  (m <> NaN /\ In m l /\ forall x, In x l -> x <> NaN -> num_le m x).
Definition greatest (l : list num) (m : num) : Prop :=
  (m = NaN /\ (forall x, In x l -> x = NaN)) \/
  (m <> NaN /\ In m l /\ forall x, In x l -> x <> NaN -> num_le x m).
(** [m] lies half way between [a] and [b]. *)
Inductive midpoint : num -> num -> num -> Prop :=
| mid_fin : forall p q r, (r + r == p + q)%Q -> midpoint (Fin p) (Fin q) (Fin r)
| mid_low : forall b, b <> NaN -> b <> PInf -> midpoint MInf b MInf
| mid_high : forall a, a <> NaN -> a <> MInf -> midpoint a PInf PInf
| mid_none : midpoint MInf PInf NaN.
(** [m] is the median of the numbers of the list. *)
Definition median (l : list num) (m : num) : Prop :=
  exists l1 s, selected (fun x => x <> NaN) l l1 /\ Permutation l1 s /\ StronglySorted num_le s /\
    ((s = [] /\ m = NaN) \/
     (exists a b c, s = a ++ c :: b /\ length a = length b /\ m = c) \/
     (exists a b c d, s = a ++ c :: d :: b /\ length a = length b /\ midpoint c d m)).
