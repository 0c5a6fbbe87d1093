(** Vocabulary for claims about colours, filter headers and culling. *)
From Coq Require Import String List Bool Reals.
From Verif Require Import Base.Prelude Model.Csv Model.Sphere Model.Photometry Model.Colours.
Import ListNotations.
Open Scope string_scope.

(** [pre] is what stands before the first occurrence of "H_". *)
Definition first_H (header pre rest : string) : Prop :=
  header = pre ++ "H_" ++ rest /\ forall a b, header = a ++ "H_" ++ b -> (String.length pre <= String.length a)%nat.
(** The names on a header line, without its newline. *)
Definition header_names (filesep header : string) : option (list string) :=
  if String.eqb filesep "whitespace" then Some (split_ws (drop_last header))
  else if (String.eqb filesep "comma" || String.eqb filesep "csv")%bool then Some (split_comma (drop_last header))
  else None.

Open Scope R_scope.
(** The deepest visit in a filter. *)
Definition deepest (ps : list pointing) (f : string) (d : R) : Prop := In (f, d) ps /\ forall x, In (f, x) ps -> x <= d.
(** The absolute magnitude of an object in a filter. *)
Definition H_in (main f : string) (o : aux) : R := a_H o + (if String.eqb f main then 0 else a_colour o f).
(** Magnitude at perihelion, one au closer to the observer than to the Sun and
    with no phase darkening, shifted by [d_lc]. *)
Definition estimate (main f : string) (o : aux) (d_lc : R) : R := H_in main f o + 5 * log10 (a_q o) + 5 * log10 (a_q o - 1) + d_lc.
(** What the two kinds of variability model allow the brightness to become. *)
Definition allowance (lc : option lc_class) (ca : option ca_class) (shift : R) (act : R -> R) : Prop :=
  match lc with None => shift = 0 | Some c => lc_maxBrightness c = Some shift end /\
  match ca with None => act = (fun m => m) | Some c => ca_maxBrightness c = Some act end.
