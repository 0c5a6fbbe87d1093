(** What an admissible orbit table is, following the documentation of the
    orbit file rather than the reader. *)
From Coq Require Import String List Arith QArith.
From Verif Require Import Base.Prelude Base.Num Model.OrbitAux.
Import ListNotations.
Open Scope nat_scope.

Inductive family := Keplerian | Cometary | Cartesian.

Inductive format_family : string -> family -> Prop :=
| ff_kep : format_family "KEP" Keplerian
| ff_bkep : format_family "BKEP" Keplerian
| ff_com : format_family "COM" Cometary
| ff_bcom : format_family "BCOM" Cometary
| ff_cart : format_family "CART" Cartesian
| ff_bcart : format_family "BCART" Cartesian.

Definition required (fam : family) : list string :=
  match fam with
  | Keplerian => ["a"; "e"; "inc"; "node"; "argPeri"; "ma"]
  | Cometary => ["q"; "e"; "inc"; "node"; "argPeri"; "t_p_MJD_TDB"]
  | Cartesian => ["x"; "y"; "z"; "xdot"; "ydot"; "zdot"]
  end%string ++ ["ObjID"; "FORMAT"; "epochMJD_TDB"]%string.

(** [v] is missing or satisfies [P]. *)
Definition unless_missing (v : num) (P : Prop) : Prop := v = NaN \/ P.

Definition physical (fam : family) (r : orow) : Prop :=
  let a := o_val r "a" in let e := o_val r "e" in let q := o_val r "q" in
  match fam with
  | Keplerian => unless_missing e (num_le (Fin 0) e /\ num_lt e (Fin 1) /\ unless_missing a (num_le (Fin 0) a))
  | Cometary => unless_missing q (num_le (Fin 0) q) /\ unless_missing e (num_le (Fin 0) e)
  | Cartesian => True
  end.

Definition admissible (t : otable) : Prop :=
  length (o_cols t) = 9 /\
  exists fam f, format_family f fam /\
    (forall c, In c (required fam) -> In c (o_cols t)) /\
    (forall r, In r (o_rows t) -> o_fmt r = f /\ physical fam r).
