(** The shipped configuration files. *)
From Coq Require Import ZArith QArith String List Bool.
From Verif Require Import Base.Prelude Base.Num Model.Config Model.Shipped Spec.Config Spec.Shipped.
Import ListNotations.
Open Scope string_scope.

Section S.
Variables (int_of : string -> option Z) (float_of : string -> option num) (path_exists : string -> bool)
  (lc_methods ca_methods : list string).
Hypothesis R : reads_decimals int_of float_of.

Lemma ri s z : In (s, z) [("20000", 20000); ("5000", 5000); ("1", 1); ("6", 6); ("2", 2); ("3", 3); ("15", 15)]%Z ->
  cast_as_int int_of s = Ok z.
Proof. intros H. unfold cast_as_int. rewrite (proj1 R s z H). reflexivity. Qed.
Lemma rf s q : In (s, q) [("2.06", 206#100); ("1.3", 13#10); ("0.2", 2#10); ("16.0", 16); ("0.9", 9#10); ("1.75", 175#100);
        ("2.", 2); ("0.1", 1#10); ("1.", 1); ("0.95", 95#100); ("0.5", 5#10); ("0.0625", 625#10000); ("0.95529", 95529#100000)] ->
  cast_as_float float_of s = Ok (Fin q).
Proof. intros H. unfold cast_as_float. rewrite (proj2 R s q H). reflexivity. Qed.


Ltac int_ s z := rewrite ?(ri s z%Z ltac:(cbn; tauto)).
Ltac float_ s q := rewrite ?(rf s q ltac:(cbn; tauto)).
Ltac numbers :=
  int_ "20000" 20000%Z; int_ "5000" 5000%Z; int_ "1" 1%Z; int_ "6" 6%Z; int_ "2" 2%Z; int_ "3" 3%Z; int_ "15" 15%Z;
  float_ "2.06" (206#100); float_ "1.3" (13#10); float_ "0.2" (2#10); float_ "16.0" 16; float_ "0.9" (9#10);
  float_ "1.75" (175#100); float_ "2." 2; float_ "0.1" (1#10); float_ "1." 1; float_ "0.95" (95#100); float_ "0.5" (5#10);
  float_ "0.0625" (625#10000); float_ "0.95529" (95529#100000).
Ltac evaluate := cbv -[cast_as_int cast_as_float arg_ephemeris arg_complex]; numbers; cbv -[arg_ephemeris arg_complex].

Lemma shipped_rubin f a : In f [circular_approximation; full_footprint; demo] ->
  arg_survey a = "rubin_sim" -> arg_visits a = None ->
  exists c, startup int_of float_of path_exists lc_methods ca_methods f a = Ok c /\ rubin_detection c.
Proof.
  intros Hf Ha Hv. unfold startup. rewrite Ha, Hv. cbn [In] in Hf.
  repeat (destruct Hf as [<-|Hf]; [evaluate; eexists; split; [reflexivity|cbv; tauto]|]). destruct Hf.
Qed.
Lemma shipped_known a : arg_survey a = "rubin_sim" -> arg_visits a = None ->
  exists c, startup int_of float_of path_exists lc_methods ca_methods known_object_prediction a = Ok c /\ prediction c.
Proof.
  intros Ha Hv. unfold startup. rewrite Ha, Hv. evaluate; eexists; split; [reflexivity|cbv; tauto].
Qed.
Lemma shipped_des a : arg_survey a = "DES" -> 
  startup int_of float_of path_exists lc_methods ca_methods dark_energy_survey a = Err TypeError.
Proof. intros Ha. unfold startup. rewrite Ha. evaluate. reflexivity. Qed.
Lemma shipped_des_respelled a v : arg_survey a = "DES" -> arg_visits a = Some v ->
  exists c, startup int_of float_of path_exists lc_methods ca_methods
    (respelled "self.des_transient_efficency" "des_transient_efficency" dark_energy_survey) a = Ok c
    /\ c_fading c = FadingDES (Fin (95529#100000)) /\ l_des_discovery_on (c_linking c) = true
    /\ fov_camera_model (c_fov c) = "visits_footprint".
Proof. intros Ha Hv. unfold startup. rewrite Ha, Hv. evaluate. eexists. split; [reflexivity|]. cbv; tauto. Qed.
End S.

Lemma C80_rubin_proof : forall int_of float_of path_exists lc_methods ca_methods,
  reads_decimals int_of float_of -> forall a, arg_survey a = "rubin_sim" -> arg_visits a = None ->
  (forall f, In f [circular_approximation; full_footprint; demo] ->
     exists c, startup int_of float_of path_exists lc_methods ca_methods f a = Ok c /\ rubin_detection c)
  /\ (exists c, startup int_of float_of path_exists lc_methods ca_methods known_object_prediction a = Ok c /\ prediction c).
Proof.
  intros int_of float_of pe lc ca R a Ha Hv. split; [intros f Hf; now apply shipped_rubin|now apply shipped_known].
Qed.
Lemma C80_des_refuted_proof : forall int_of float_of path_exists lc_methods ca_methods,
  reads_decimals int_of float_of -> forall a, arg_survey a = "DES" ->
  startup int_of float_of path_exists lc_methods ca_methods dark_energy_survey a = Err TypeError.
Proof. intros. now apply shipped_des. Qed.
Lemma C80_des_respelled_proof : forall int_of float_of path_exists lc_methods ca_methods,
  reads_decimals int_of float_of -> forall a v, arg_survey a = "DES" -> arg_visits a = Some v ->
  exists c, startup int_of float_of path_exists lc_methods ca_methods
    (respelled "self.des_transient_efficency" "des_transient_efficency" dark_energy_survey) a = Ok c
    /\ c_fading c = FadingDES (Fin (95529#100000)) /\ l_des_discovery_on (c_linking c) = true
    /\ fov_camera_model (c_fov c) = "visits_footprint".
Proof. intros. eapply shipped_des_respelled; eauto. Qed.
