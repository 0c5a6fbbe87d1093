(** Vocabulary for statements about orbit rows. *)
From Coq Require Import Reals String List.
From Verif Require Import Model.Sphere Model.OrbitParse.
Import ListNotations.
Open Scope string_scope.

(** A heliocentric format and the barycentric one with the same elements. *)
Inductive paired : string -> string -> Prop :=
| pair_kep : paired "KEP" "BKEP"
| pair_com : paired "COM" "BCOM"
| pair_cart : paired "CART" "BCART".

(** The documented columns of each format. *)
Definition documented_columns (f : string) : list string :=
  if in_dec string_dec f ["KEP"; "BKEP"] then ["a"; "e"; "inc"; "node"; "argPeri"; "ma"]
  else if in_dec string_dec f ["COM"; "BCOM"] then ["q"; "e"; "inc"; "node"; "argPeri"; "t_p_MJD_TDB"]
  else if in_dec string_dec f ["CART"; "BCART"] then ["x"; "y"; "z"; "xdot"; "ydot"; "zdot"]
  else [].

Definition with_format (f : string) (r : orow) : orow := {| or_format := f; or_col := or_col r |}.

(** Every entry of the cache is the position of the Sun at its epoch. *)
Definition true_cache (sun : R -> vec * vec) (d : sun_dict) : Prop := forall t s, In (t, s) d -> s = sun t.

(** The heliocentric orbit that two rows describe is the same. *)
Definition same_orbit (gm epoch : R) (kep com : orow) : Prop :=
  exists a e i n w m, (or_col kep "a" = Some a /\ or_col kep "e" = Some e /\ or_col kep "inc" = Some i
    /\ or_col kep "node" = Some n /\ or_col kep "argPeri" = Some w /\ or_col kep "ma" = Some m
    /\ or_col com "q" = Some (a * (1 - e)) /\ or_col com "e" = Some e /\ or_col com "inc" = Some i
    /\ or_col com "node" = Some n /\ or_col com "argPeri" = Some w
    /\ or_col com "t_p_MJD_TDB" = Some (epoch - m * PI / 180 * sqrt (a * a * a / gm) - 24000005 / 10))%R.
