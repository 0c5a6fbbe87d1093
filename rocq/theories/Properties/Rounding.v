(** * C102: rounding of written columns in binary64 *)
From Coq Require Import String List Arith ZArith Reals Lia Lra.
From Flocq Require Import Core.
From Verif Require Import Base.Prelude Model.Output Model.Rounding Spec.Output Spec.LinkingFloat Spec.Rounding
  Proofs.Output Proofs.LinkingFloat Proofs.Rounding.
Import ListNotations.
Open Scope R_scope.

Theorem C102_close_partial : forall norm3 cfg t f i r c n x,
  PPWriteOutput_csv norm3 np_round cfg t None = Ok (Some f) -> nth_error (t_recs t) i = Some r -> In c (requested cfg (t_names t)) ->
  rounded_to cfg c n -> (n <= 308)%nat -> r c = Real x -> Rabs x * 10 ^ n <= 10 ^ 308 ->
  exists y, written_value (requested cfg (t_names t)) f i c (Real y) /\ binary64 y
    /\ Rabs (y - x) <= (/ 2 + / 100000000000000) / 10 ^ n + Rabs x / 1000000000000000.
Proof. exact C102_close_proof. Qed.
Print Assumptions C102_close_partial.
Theorem C102_order_partial : forall norm3 cfg t f i j r s c n x y,
  PPWriteOutput_csv norm3 np_round cfg t None = Ok (Some f) -> nth_error (t_recs t) i = Some r -> nth_error (t_recs t) j = Some s ->
  In c (requested cfg (t_names t)) -> rounded_to cfg c n -> (n <= 308)%nat -> r c = Real x -> s c = Real y ->
  Rabs x * 10 ^ n <= 10 ^ 308 -> Rabs y * 10 ^ n <= 10 ^ 308 -> x <= y ->
  exists x' y', written_value (requested cfg (t_names t)) f i c (Real x') /\ written_value (requested cfg (t_names t)) f j c (Real y') /\ x' <= y'.
Proof. exact C102_order_proof. Qed.
Print Assumptions C102_order_partial.
Theorem C102_between_partial : forall norm3 cfg t f i r c n x lo hi,
  PPWriteOutput_csv norm3 np_round cfg t None = Ok (Some f) -> nth_error (t_recs t) i = Some r -> In c (requested cfg (t_names t)) ->
  rounded_to cfg c n -> (n <= 22)%nat -> r c = Real x -> IZR lo <= x <= IZR hi ->
  (Z.abs lo * 10 ^ Z.of_nat n <= 9007199254740992)%Z -> (Z.abs hi * 10 ^ Z.of_nat n <= 9007199254740992)%Z ->
  exists y, written_value (requested cfg (t_names t)) f i c (Real y) /\ IZR lo <= y <= IZR hi.
Proof. exact C102_between_proof. Qed.
Print Assumptions C102_between_partial.
Theorem C102_decimal_partial : forall norm3 cfg t f i r c n x,
  PPWriteOutput_csv norm3 np_round cfg t None = Ok (Some f) -> nth_error (t_recs t) i = Some r -> In c (requested cfg (t_names t)) ->
  rounded_to cfg c n -> (n <= 22)%nat -> r c = Real x -> Rabs x * 10 ^ n <= 1125899906842624 ->
  exists z, written_value (requested cfg (t_names t)) f i c (Real (nearest (IZR z / 10 ^ n)))
    /\ Rabs (IZR z - x * 10 ^ n) <= / 2 + (1 + Rabs x * 10 ^ n) / 9007199254740992.
Proof. exact C102_decimal_proof. Qed.
Print Assumptions C102_decimal_partial.
Theorem C102_again_partial : forall norm3 cfg t f i r c n z,
  PPWriteOutput_csv norm3 np_round cfg t None = Ok (Some f) -> nth_error (t_recs t) i = Some r -> In c (requested cfg (t_names t)) ->
  rounded_to cfg c n -> (n <= 22)%nat -> (Z.abs z <= 1125899906842624)%Z -> r c = Real (nearest (IZR z / 10 ^ n)) ->
  written_value (requested cfg (t_names t)) f i c (r c).
Proof. exact C102_again_proof. Qed.
Print Assumptions C102_again_partial.
Theorem C102_special_partial : forall norm3 cfg t f i r c n,
  PPWriteOutput_csv norm3 np_round cfg t None = Ok (Some f) -> nth_error (t_recs t) i = Some r -> In c (requested cfg (t_names t)) ->
  rounded_to cfg c n -> (n <= 308)%nat -> (r c = Nan \/ exists s, r c = Inf s) -> written_value (requested cfg (t_names t)) f i c (r c).
Proof. exact C102_special_proof. Qed.
Print Assumptions C102_special_partial.
Theorem C102_circle_refuted : forall norm3 cfg t f i r n x,
  PPWriteOutput_csv norm3 np_round cfg t None = Ok (Some f) -> nth_error (t_recs t) i = Some r -> In "RA_deg"%string (requested cfg (t_names t)) ->
  oc_pos cfg = Some n -> (1 <= n <= 12)%nat -> r "RA_deg"%string = Real x -> 360 - / (4 * 10 ^ n) <= x < 360 ->
  written_value (requested cfg (t_names t)) f i "RA_deg" (Real 360).
Proof. exact C102_circle_refuted_proof. Qed.
Print Assumptions C102_circle_refuted.
Theorem C102_many_refuted : forall norm3 cfg t f i r c n x,
  PPWriteOutput_csv norm3 np_round cfg t None = Ok (Some f) -> nth_error (t_recs t) i = Some r -> In c (requested cfg (t_names t)) ->
  rounded_to cfg c n -> (309 <= n)%nat -> r c = Real x -> written_value (requested cfg (t_names t)) f i c Nan.
Proof. exact C102_many_refuted_proof. Qed.
Print Assumptions C102_many_refuted.

(** Two rows: a right ascension just below 360 that binary64 can hold, and one
    that is already rounded. *)
Example C102_case : forall norm3, exists (t : table cell) cfg f r s x,
  PPWriteOutput_csv norm3 np_round cfg t None = Ok (Some f) /\ t_recs t = [r; s]
  /\ requested cfg (t_names t) = ["ObjID"; "RA_deg"; "Dec_deg"]%string
  /\ rounded_to cfg "RA_deg" 7 /\ r "RA_deg"%string = Real x /\ binary64 x
  /\ 360 - / (4 * 10 ^ 7) <= x < 360 /\ written_value ["ObjID"; "RA_deg"; "Dec_deg"]%string f 0 "RA_deg" (Real 360)
  /\ s "RA_deg"%string = Real (nearest (IZR 123 / 10 ^ 7)) /\ written_value ["ObjID"; "RA_deg"; "Dec_deg"]%string f 1 "RA_deg" (s "RA_deg"%string)
  /\ s "Dec_deg"%string = Real (-90) /\ written_value ["ObjID"; "RA_deg"; "Dec_deg"]%string f 1 "Dec_deg" (Real (-90)).
Proof.
  intro norm3.
  set (x := 360 - / 17592186044416).
  set (r := fun c => if String.eqb c "ObjID" then Text "a" else if String.eqb c "RA_deg" then Real x else Real 1).
  set (s := fun c => if String.eqb c "ObjID" then Text "b" else if String.eqb c "RA_deg" then Real (nearest (IZR 123 / 10 ^ 7)) else Real (-90)).
  set (t := {| t_names := ["ObjID"; "RA_deg"; "Dec_deg"; "Obj_Sun_x_LTC_km"; "Obj_Sun_y_LTC_km"; "Obj_Sun_z_LTC_km"]%string; t_recs := [r; s] |}).
  set (cfg := {| oc_columns := Columns ["ObjID"; "RA_deg"; "Dec_deg"]%string; oc_pos := Some 7%nat; oc_mag := None; oc_link_col := false |}).
  assert (A : available cfg (t_names t)).
  { split; [|split]; [intros c Hc; cbn in *; tauto|intros c Hc; right; cbn in *; tauto|cbn; lia]. }
  assert (FA : Forall (fun t => available cfg (t_names t)) [t]) by (constructor; [exact A|constructor]).
  destruct (C21_succeeds_proof cell norm3 np_round cfg [t] None FA) as [f' Hf].
  cbn [csv_writes] in Hf. destruct (PPWriteOutput_csv norm3 np_round cfg t None) as [g|] eqn:Ef; [|discriminate].
  assert (G : exists f, g = Some f). { apply csv_one in Ef. subst. eauto. }
  destruct G as [f ->]. exists t, cfg, f, r, s, x.
  assert (R : forall c, In c position_names -> rounded_to cfg c 7). { intros c Hc. split; [discriminate|]. left. auto. }
  assert (B : 360 - / (4 * 10 ^ 7) <= x < 360) by (unfold x; lra).
  split; [exact Ef|]. split; [reflexivity|]. split; [reflexivity|].
  split; [apply R; cbn; tauto|]. split; [reflexivity|]. split.
  { split.
    - apply generic_format_FLT. exists (Float radix2 6333186975989759 (-44)); [unfold F2R, x; cbn; lra|cbn; lia|cbn; lia].
    - apply Rle_lt_trans with (bpow radix2 9); [|apply bpow_lt; lia]. unfold x. cbn. rewrite Rabs_right; lra. }
  split; [exact B|]. split.
  { apply (C102_circle_refuted_proof norm3 cfg t f 0 r 7 x Ef eq_refl); auto; [cbn; tauto|lia]. }
  split; [reflexivity|]. split.
  { apply (C102_again_proof norm3 cfg t f 1 s "RA_deg" 7 123 Ef eq_refl); [cbn; tauto|apply R; cbn; tauto|lia|lia|reflexivity]. }
  split; [reflexivity|].
  destruct (C102_between_proof norm3 cfg t f 1 s "Dec_deg" 7 (-90) (-90) (-90) Ef eq_refl) as (y & W & Y1 & Y2);
    [cbn; tauto|apply R; cbn; tauto|lia|reflexivity|lra|cbn; lia|cbn; lia|].
  replace (-90) with y by lra. exact W.
Qed.
