From Coq Require Import String Ascii List Bool Arith Lia ZArith QArith.
From Verif Require Import Base.Prelude Base.Num Model.Config Model.Columns Spec.Config Spec.Columns Model.Colours Model.Shipped Spec.Shipped Proofs.Config Proofs.Columns.
Import ListNotations.
Open Scope string_scope.

Section Accepted.
Variables (int_of : string -> option Z) (float_of : string -> option num) (path_exists : string -> bool)
  (lc_methods ca_methods : list string) (f : config_file) (a : arguments) (c : configs).
Hypothesis S : startup int_of float_of path_exists lc_methods ca_methods f a = Ok c.

Lemma accepted_phase : In (c_phase_function c) ["HG"; "HG1G2"; "HG12"; "linear"; "none"].
Proof. destruct (C46_startup_proof _ _ _ _ _ _ _ _ S) as [(_ & _ & _ & _ & _ & P & _) _]. exact P. Qed.
Lemma accepted_letters : In (arg_survey a) ["rubin_sim"; "RUBIN_SIM"; "DES"; "des"] ->
  incl (c_filters c) ["u"; "g"; "r"; "i"; "z"; "y"; "Y"].
Proof.
  intro Hs. destruct (C46_startup_proof _ _ _ _ _ _ _ _ S) as [(_ & _ & _ & [F1 F2] & _) _].
  assert (E : is_lsst (arg_survey a) \/ is_des (arg_survey a)).
  { unfold is_lsst, is_des. cbn in *. tauto. }
  intros x Hx. destruct E as [E|E]; [apply (F1 E) in Hx|apply (F2 E) in Hx]; cbn [In] in Hx |- *; clear - Hx; tauto.
Qed.
Lemma accepted_des : is_des (arg_survey a) ->
  is_on (x_randomization_on (c_expert c)) = false /\ is_on (x_vignetting_on (c_expert c)) = false
  /\ is_on (x_trailing_losses_on (c_expert c)) = false.
Proof.
  intro Hd. destruct (C46_startup_proof _ _ _ _ _ _ _ _ S) as [(_ & _ & _ & _ & _ & _ & _ & _ & _ & _ & _ & _ & E) _].
  destruct E as (_ & _ & E & _). destruct (E Hd) as (-> & -> & ->). auto.
Qed.
Lemma accepted_ssp : is_des (arg_survey a) -> l_ssp (c_linking c) = None.
Proof.
  intro Hd. destruct (C46_startup_proof _ _ _ _ _ _ _ _ S) as [(_ & _ & _ & _ & _ & _ & _ & _ & E & _) _].
  destruct E as (E & _). destruct (l_ssp (c_linking c)) as [p|]; auto. destruct (E p eq_refl) as [_ N]. exfalso. apply N.
  unfold is_des, des_any_case in *. cbn in *. tauto.
Qed.
Lemma accepted_fading : In (arg_survey a) ["rubin_sim"; "RUBIN_SIM"] -> forall e, c_fading c <> FadingDES e.
Proof.
  intros Hr e E. destruct (C46_startup_proof _ _ _ _ _ _ _ _ S) as [(_ & _ & _ & _ & _ & _ & _ & F & _) _].
  destruct F as (_ & F & _). apply F in E. unfold is_des in E. cbn [In] in Hr, E.
  destruct Hr as [Hr|[Hr|[]]]; rewrite <- Hr in E; destruct E as [E|[E|[]]]; discriminate E.
Qed.
Lemma accepted_simulation : in_ephemerides_type (c_input c) = "ar" <-> c_simulation c <> None.
Proof. destruct (C46_startup_proof _ _ _ _ _ _ _ _ S) as [(_ & E & _) _]. exact E. Qed.
Lemma accepted_camera : In (arg_survey a) ["rubin_sim"; "RUBIN_SIM"] -> fov_camera_model (c_fov c) = "visits_footprint" -> c_simulation c <> None.
Proof.
  intros Hr E. destruct (C46_startup_proof _ _ _ _ _ _ _ _ S) as [(_ & _ & _ & _ & _ & _ & (_ & _ & F & _) & _) _].
  destruct (F E) as [D _]. unfold des_any_case in D. exfalso. destruct Hr as [Hr|[Hr|[]]]; rewrite <- Hr in D; vm_compute in D; intuition discriminate.
Qed.
End Accepted.

Lemma C79_rubin_proof : forall int_of float_of path_exists lc_methods ca_methods f a c lc ca main seen query aux stats,
  startup int_of float_of path_exists lc_methods ca_methods f a = Ok c -> In (arg_survey a) ["rubin_sim"; "RUBIN_SIM"] ->
  documented_inputs false c main query aux -> incl seen (c_filters c) ->
  models_served c main (concat aux) lc (c_lightcurve c) -> models_served c main (concat aux) ca (c_activity c) ->
  (fst (c_saturation c) = true -> snd (c_saturation c) <> None) ->
  let r := round_columns false lc ca c main seen query aux stats in
  basic_written c r /\ all_written false c main query (concat aux) r /\ list_written false c main query (concat aux) r.
Proof.
  intros int_of float_of pe lm cm f a c lc ca main seen query aux stats S Hr D Hs L1 L2 B r.
  assert (P := accepted_phase _ _ _ _ _ _ _ _ S).
  assert (Vc := accepted_camera _ _ _ _ _ _ _ _ S Hr).
  assert (Le : incl (c_filters c) ["u"; "g"; "r"; "i"; "z"; "y"; "Y"]).
  { eapply accepted_letters; [exact S|]. cbn in *. tauto. }
  assert (F := accepted_fading _ _ _ _ _ _ _ _ S Hr). unfold r.
  split; [|split]; [eapply basic_ok|eapply all_ok|eapply list_ok]; eauto; try discriminate.
Qed.
Lemma C79_des_proof : forall int_of float_of path_exists lc_methods ca_methods f a c lc ca main seen query aux stats,
  startup int_of float_of path_exists lc_methods ca_methods f a = Ok c -> In (arg_survey a) ["DES"; "des"] ->
  documented_inputs true c main query aux -> incl seen (c_filters c) ->
  models_served c main (concat aux) lc (c_lightcurve c) -> models_served c main (concat aux) ca (c_activity c) ->
  (fov_camera_model (c_fov c) = "visits_footprint" -> in_ephemerides_type (c_input c) = "ar") ->
  (fst (c_saturation c) = true -> snd (c_saturation c) <> None) -> x_snr_limit (c_expert c) = None ->
  (l_distance_cut_on (c_linking c) = true -> l_distance_cut (c_linking c) <> None) ->
  (l_motion_cut_on (c_linking c) = true -> l_motion_cut (c_linking c) <> None) ->
  let r := round_columns true lc ca c main seen query aux stats in
  all_written true c main query (concat aux) r /\ list_written true c main query (concat aux) r.
Proof.
  intros int_of float_of pe lm cm f a c lc ca main seen query aux stats S Hr D Hs L1 L2 V B N C1 C2 r.
  assert (P := accepted_phase _ _ _ _ _ _ _ _ S).
  assert (Vc : fov_camera_model (c_fov c) = "visits_footprint" -> c_simulation c <> None).
  { intro Ev. apply (accepted_simulation _ _ _ _ _ _ _ _ S). auto. }
  assert (Le : incl (c_filters c) ["u"; "g"; "r"; "i"; "z"; "y"; "Y"]).
  { eapply accepted_letters; [exact S|]. cbn in *. tauto. }
  assert (Sw := accepted_des _ _ _ _ _ _ _ _ S Hr). assert (Ns := accepted_ssp _ _ _ _ _ _ _ _ S Hr). unfold r.
  split; [eapply all_ok|eapply list_ok]; eauto; try discriminate.
Qed.
Lemma C79_des_basic_refuted_proof : forall int_of float_of path_exists lc_methods ca_methods f a c lc ca main seen query aux stats,
  startup int_of float_of path_exists lc_methods ca_methods f a = Ok c -> In (arg_survey a) ["DES"; "des"] ->
  documented_inputs true c main query aux -> incl seen (c_filters c) ->
  models_served c main (concat aux) lc (c_lightcurve c) -> models_served c main (concat aux) ca (c_activity c) ->
  (fov_camera_model (c_fov c) = "visits_footprint" -> in_ephemerides_type (c_input c) = "ar") ->
  (fst (c_saturation c) = true -> snd (c_saturation c) <> None) -> x_snr_limit (c_expert c) = None ->
  (l_distance_cut_on (c_linking c) = true -> l_distance_cut (c_linking c) <> None) ->
  (l_motion_cut_on (c_linking c) = true -> l_motion_cut (c_linking c) <> None) ->
  o_columns (c_output c) = Keyword "basic" ->
  round_columns true lc ca c main seen query aux stats = Err KeyError.
Proof.
  intros int_of float_of pe lm cm f a c lc ca main seen query aux stats S Hr D Hs L1 L2 V B N C1 C2 Ho.
  assert (P := accepted_phase _ _ _ _ _ _ _ _ S).
  assert (Vc : fov_camera_model (c_fov c) = "visits_footprint" -> c_simulation c <> None).
  { intro Ev. apply (accepted_simulation _ _ _ _ _ _ _ _ S). auto. }
  assert (Le : incl (c_filters c) ["u"; "g"; "r"; "i"; "z"; "y"; "Y"]).
  { eapply accepted_letters; [exact S|]. cbn in *. tauto. }
  assert (Sw := accepted_des _ _ _ _ _ _ _ _ S Hr). assert (Ns := accepted_ssp _ _ _ _ _ _ _ _ S Hr).
  eapply basic_fails; eauto; try discriminate.
Qed.
Lemma C79_des_snr_refuted_proof : forall int_of float_of path_exists lc_methods ca_methods f a c lc ca main seen query aux stats,
  startup int_of float_of path_exists lc_methods ca_methods f a = Ok c -> In (arg_survey a) ["DES"; "des"] ->
  documented_inputs true c main query aux -> incl seen (c_filters c) ->
  models_served c main (concat aux) lc (c_lightcurve c) -> models_served c main (concat aux) ca (c_activity c) ->
  (fov_camera_model (c_fov c) = "visits_footprint" -> in_ephemerides_type (c_input c) = "ar") ->
  x_snr_limit (c_expert c) <> None ->
  round_columns true lc ca c main seen query aux stats = Err KeyError.
Proof.
  intros int_of float_of pe lm cm f a c lc ca main seen query aux stats S Hr D Hs L1 L2 V N.
  assert (P := accepted_phase _ _ _ _ _ _ _ _ S).
  assert (Vc : fov_camera_model (c_fov c) = "visits_footprint" -> c_simulation c <> None).
  { intro Ev. apply (accepted_simulation _ _ _ _ _ _ _ _ S). auto. }
  assert (Le : incl (c_filters c) ["u"; "g"; "r"; "i"; "z"; "y"; "Y"]).
  { eapply accepted_letters; [exact S|]. cbn in *. tauto. }
  assert (Sw := accepted_des _ _ _ _ _ _ _ _ S Hr).
  eapply snr_fails; eauto; try discriminate.
Qed.
Lemma C79_bright_refuted_proof : forall int_of float_of path_exists lc_methods ca_methods f a c lc ca main seen query aux stats,
  startup int_of float_of path_exists lc_methods ca_methods f a = Ok c -> In (arg_survey a) ["rubin_sim"; "RUBIN_SIM"] ->
  documented_inputs false c main query aux -> incl seen (c_filters c) ->
  models_served c main (concat aux) lc (c_lightcurve c) -> models_served c main (concat aux) ca (c_activity c) ->
  c_saturation c = (true, None) ->
  round_columns false lc ca c main seen query aux stats = Err SysExit.
Proof.
  intros int_of float_of pe lm cm f a c lc ca main seen query aux stats S Hr D Hs L1 L2 B.
  assert (P := accepted_phase _ _ _ _ _ _ _ _ S).
  assert (Vc := accepted_camera _ _ _ _ _ _ _ _ S Hr).
  assert (Le : incl (c_filters c) ["u"; "g"; "r"; "i"; "z"; "y"; "Y"]).
  { eapply accepted_letters; [exact S|]. cbn in *. tauto. }
  assert (F := accepted_fading _ _ _ _ _ _ _ _ S Hr).
  eapply bright_fails; eauto; try discriminate.
Qed.
Lemma C79_cut_refuted_proof : forall int_of float_of path_exists lc_methods ca_methods f a c lc ca main seen query aux stats,
  startup int_of float_of path_exists lc_methods ca_methods f a = Ok c -> In (arg_survey a) ["DES"; "des"] ->
  documented_inputs true c main query aux -> incl seen (c_filters c) ->
  models_served c main (concat aux) lc (c_lightcurve c) -> models_served c main (concat aux) ca (c_activity c) ->
  (fov_camera_model (c_fov c) = "visits_footprint" -> in_ephemerides_type (c_input c) = "ar") ->
  (fst (c_saturation c) = true -> snd (c_saturation c) <> None) -> x_snr_limit (c_expert c) = None ->
  l_distance_cut_on (c_linking c) = true -> l_distance_cut (c_linking c) = None ->
  round_columns true lc ca c main seen query aux stats = Err TypeError.
Proof.
  intros int_of float_of pe lm cm f a c lc ca main seen query aux stats S Hr D Hs L1 L2 V B N C1 C2.
  assert (P := accepted_phase _ _ _ _ _ _ _ _ S).
  assert (Vc : fov_camera_model (c_fov c) = "visits_footprint" -> c_simulation c <> None).
  { intro Ev. apply (accepted_simulation _ _ _ _ _ _ _ _ S). auto. }
  assert (Le : incl (c_filters c) ["u"; "g"; "r"; "i"; "z"; "y"; "Y"]).
  { eapply accepted_letters; [exact S|]. cbn in *. tauto. }
  assert (Sw := accepted_des _ _ _ _ _ _ _ _ S Hr).
  eapply cut_fails; eauto; try discriminate.
Qed.
(** A visits database cannot be used with an external ephemeris. *)
Lemma C79_visits_refuted_proof : forall int_of float_of path_exists lc_methods ca_methods f a c lc ca main seen query aux stats,
  startup int_of float_of path_exists lc_methods ca_methods f a = Ok c -> In (arg_survey a) ["DES"; "des"] ->
  documented_inputs true c main query aux -> incl seen (c_filters c) ->
  models_served c main (concat aux) lc (c_lightcurve c) -> models_served c main (concat aux) ca (c_activity c) ->
  fov_camera_model (c_fov c) = "visits_footprint" -> in_ephemerides_type (c_input c) = "external" ->
  round_columns true lc ca c main seen query aux stats = Err TypeError.
Proof.
  intros int_of float_of pe lm cm f a c lc ca main seen query aux stats S Hr D Hs L1 L2 V X.
  assert (P := accepted_phase _ _ _ _ _ _ _ _ S).
  assert (Le : incl (c_filters c) ["u"; "g"; "r"; "i"; "z"; "y"; "Y"]).
  { eapply accepted_letters; [exact S|]. cbn in *. tauto. }
  assert (Sw := accepted_des _ _ _ _ _ _ _ _ S Hr).
  assert (Z : c_simulation c = None).
  { destruct (c_simulation c) eqn:E; auto. pose proof (proj2 (accepted_simulation _ _ _ _ _ _ _ _ S)) as A. rewrite E, X in A.
    discriminate A. discriminate. }
  eapply visits_fails; eauto; try discriminate.
Qed.
Lemma C79_index_refuted_proof : forall int_of float_of path_exists lc_methods ca_methods f a c lc ca main seen query aux stats l,
  startup int_of float_of path_exists lc_methods ca_methods f a = Ok c -> In (arg_survey a) ["rubin_sim"; "RUBIN_SIM"] ->
  documented_inputs false c main query aux -> incl seen (c_filters c) ->
  models_served c main (concat aux) lc (c_lightcurve c) -> models_served c main (concat aux) ca (c_activity c) ->
  (fst (c_saturation c) = true -> snd (c_saturation c) <> None) ->
  o_columns (c_output c) = Columns l -> o_format (c_output c) = "sqlite3" ->
  (forall x, In x l -> catalogue false c main query (concat aux) x) -> (exists x, In x ["ObjID"; "fieldMJD_TAI"; "optFilter"] /\ ~ In x l) ->
  round_columns false lc ca c main seen query aux stats = Err OperationalError.
Proof.
  intros int_of float_of pe lm cm f a c lc ca main seen query aux stats l S Hr D Hs L1 L2 B Ho Hf Hl Hx.
  assert (P := accepted_phase _ _ _ _ _ _ _ _ S).
  assert (Vc := accepted_camera _ _ _ _ _ _ _ _ S Hr).
  assert (Le : incl (c_filters c) ["u"; "g"; "r"; "i"; "z"; "y"; "Y"]).
  { eapply accepted_letters; [exact S|]. cbn in *. tauto. }
  assert (F := accepted_fading _ _ _ _ _ _ _ _ S Hr).
  eapply index_fails; eauto; try discriminate.
Qed.
(** The names of the documentation. *)
Lemma C79_models_proof : forall int_of float_of path_exists lc_methods ca_methods f a c lc ca main seen query aux stats des n y,
  startup int_of float_of path_exists lc_methods ca_methods f a = Ok c ->
  In (arg_survey a) (if des : bool then ["DES"; "des"] else ["rubin_sim"; "RUBIN_SIM"]) ->
  documented_inputs des c main query aux -> incl seen (c_filters c) -> n <> "" ->
  c_lightcurve c = Some n /\ In y (lc n) \/ c_activity c = Some n /\ In y (ca n) ->
  ~ In y (concat aux) -> ~ In y query -> ~ In y ("q" :: reserved des) -> ~ In y (phase_columns (c_phase_function c)) ->
  round_columns des lc ca c main seen query aux stats = Err ValueError.
Proof.
  intros int_of float_of pe lm cm f a c lc ca main seen query aux stats des n y S Hr D Hs Nn Hm NA NQ NR NP.
  assert (P := accepted_phase _ _ _ _ _ _ _ _ S).
  assert (Le : incl (c_filters c) ["u"; "g"; "r"; "i"; "z"; "y"; "Y"]).
  { eapply accepted_letters; [exact S|]. clear - Hr. destruct des; cbn in *; tauto. }
  eapply model_missing; try eassumption.
Qed.
Lemma C79_names_refuted_proof : forall des c main query A x, In x misnamed -> ~ In x query -> ~ In x A ->
  ~ catalogue des c main query A x.
Proof.
  intros des c main query A x Hx Nq Na C. unfold misnamed in Hx. unfold catalogue, input_kept in C.
  assert (N : ~ In x ephemeris_names /\ ~ In x computed_names /\ ~ In x uncertainty_names /\ ~ In x linking_names
     /\ ~ In x ["fieldJD_TDB"; "optFilter"; "Delta_m"; "detectorID"; "limMag_perChip"; "q"] /\ ~ In x ["G1"; "G2"; "GS"; "G12"; "S"]).
  { repeat split; rewrite <- member_in; cbn in Hx; intuition (subst; discriminate). }
  destruct N as (N1 & N2 & N3 & N4 & N5 & N6).
  assert (P : incl (phase_columns (c_phase_function c)) ["G1"; "G2"; "GS"; "G12"; "S"]).
  { intros y Hy. clear - Hy. unfold phase_columns in Hy.
    repeat match type of Hy with In _ (if ?s then _ else _) => destruct s end; cbn in *; tauto. }
  cbn in N5. destruct C as [C|[(_ & ->)|[(C & _)|[(C & _)|[->|[C|[(_ & C)|[(_ & C)|[(_ & ->)|[(_ & ->)|[(_ & ->)|[(_ & _ & C)|(_ & _ & ->)]]]]]]]]]]]]; tauto || (apply P in C; tauto).
Qed.
Lemma C79_names_proof : forall c main query aux x, documented_inputs false c main query aux ->
  incl (c_filters c) ["u"; "g"; "r"; "i"; "z"; "y"; "Y"] -> In (c_phase_function c) ["HG"; "HG1G2"; "HG12"; "linear"; "none"] ->
  in_ephemerides_type (c_input c) <> "external" -> In x full_names -> ~ In x misnamed -> catalogue false c main query (concat aux) x.
Proof.
  intros c main query aux x D L P E Hx N. unfold catalogue.
  assert (Q := doc_query _ _ _ _ _ D).
  assert (F : forallb (fun x => member x (misnamed ++ ephemeris_names ++ computed_names ++ uncertainty_names
     ++ ["fieldJD_TDB"; "optFilter"; "epochMJD_TDB"; "FORMAT"]
     ++ without ("observationId" :: "filter" :: "observationStartMJD_TAI" :: "observationMidpointMJD_TAI" :: pointing_helpers) (documented_query false))%list) full_names = true)
    by reflexivity.
  apply members_in in F. apply F in Hx. rewrite !in_app_iff in Hx.
  destruct Hx as [Hx|[Hx|[Hx|[Hx|[Hx|Hx]]]]]; [contradiction|tauto|tauto|tauto| |].
  - destruct Hx as [<-|[<-|[Hx|[Hx|[]]]]]; [tauto|tauto| |]; do 2 right; left; unfold input_kept;
      (assert (Pl : plain c main x) by (apply plainb_plain; auto; subst; reflexivity)); destruct Pl as (P1 & P2 & _);
      split; auto; apply (doc_orbits _ _ _ _ _ D); subst; cbn; auto.
  - apply without_in in Hx. do 3 right. left. destruct Hx as [H1 H2]. split; auto.
Qed.

Lemma C79_example_refuted_proof : forall header filters filesep, In header example_headers ->
  PPGetMainFilterAndColourOffsets (header ++ String "010" "") filters filesep = Err SysExit.
Proof. intros h fs sp H. cbn [In example_headers] in H. unfold example_headers in H. cbn [In] in H. destruct H as [<-|[<-|[]]]; reflexivity. Qed.

Lemma C79_one_filter_refuted_proof : forall int_of float_of path_exists lc_methods ca_methods, reads_decimals int_of float_of ->
  forall a lc ca stats, arg_survey a = "rubin_sim" -> arg_visits a = None ->
  exists c, startup int_of float_of path_exists lc_methods ca_methods (revalued "observing_filters" "r" demo) a = Ok c
  /\ c_filters c = ["r"] /\ c_phase_function c = "HG"
  /\ round_columns false lc ca c "r" ["r"] (documented_query false) [orbit_columns; ["ObjID"; "H_r"; "GSr"]] stats = Err KeyError.
Proof.
  intros int_of float_of pe lm cm [Ri Rf] a lc ca stats Ha Hv.
  assert (ri : forall s z, In (s, z) [("20000", 20000); ("5000", 5000); ("1", 1); ("6", 6); ("2", 2); ("3", 3); ("15", 15)]%Z -> cast_as_int int_of s = Ok z).
  { intros s z H. unfold cast_as_int. rewrite (Ri s z H). reflexivity. }
  assert (rf : forall s q, In (s, q) [("2.06", 206#100); ("1.3", 13#10); ("0.2", 2#10); ("16.0", 16); ("0.9", 9#10); ("1.75", 175#100);
        ("2.", 2); ("0.1", 1#10); ("1.", 1); ("0.95", 95#100); ("0.5", 5#10); ("0.0625", 625#10000); ("0.95529", 95529#100000)]%Q -> cast_as_float float_of s = Ok (Fin q)).
  { intros s q H. unfold cast_as_float. rewrite (Rf s q H). reflexivity. }
  unfold startup. rewrite Ha, Hv. cbv -[cast_as_int cast_as_float arg_ephemeris arg_complex round_columns].
  rewrite ?(ri "5000" 5000%Z), ?(ri "1" 1%Z), ?(ri "6" 6%Z), ?(ri "2" 2%Z), ?(ri "3" 3%Z), ?(ri "15" 15%Z),
    ?(rf "2.06" (206#100)%Q), ?(rf "0.2" (2#10)%Q), ?(rf "16.0" 16%Q), ?(rf "2." 2%Q), ?(rf "0.1" (1#10)%Q), ?(rf "1." 1%Q),
    ?(rf "0.95" (95#100)%Q), ?(rf "0.5" (5#10)%Q), ?(rf "0.0625" (625#10000)%Q) by (cbn; tauto).
  cbv -[arg_ephemeris arg_complex round_columns]. eexists. split; [reflexivity|]. split; [reflexivity|]. split; [reflexivity|].
  vm_compute. reflexivity.
Qed.

(** A check for concrete files with the documented query. *)
Fixpoint pairs_apart (l : list (list string)) : bool :=
  match l with
  | [] => true
  | a :: r => forallb (fun b => forallb (fun x => String.eqb x "ObjID" || negb (member x b)) a) r && pairs_apart r
  end.
Lemma pairs_apart_spec : forall l, pairs_apart l = true -> ForallOrdPairs (fun a b => forall x, In x a -> In x b -> x = "ObjID") l.
Proof.
  induction l as [|a r IH]; cbn [pairs_apart]; intro E; constructor; apply andb_prop in E; destruct E as [E1 E2]; auto.
  apply Forall_forall. intros b Hb x Ha Hx. rewrite forallb_forall in E1. specialize (E1 b Hb). rewrite forallb_forall in E1.
  specialize (E1 x Ha). apply orb_prop in E1. destruct E1 as [E1|E1]; [apply String.eqb_eq; auto|].
  rewrite negb_true_iff, member_out in E1. contradiction.
Qed.
Lemma documented_check : forall des c main aux,
  forallb (member "ObjID") aux && pairs_apart aux && forallb (fun x => negb (member x (concat aux))) (documented_query des)
  && forallb (fun x => String.eqb x "ObjID" || negb (member x (reserved des))) (concat aux)
  && forallb (fun x => member x (concat aux)) ["FORMAT"; "epochMJD_TDB"] && member main (c_filters c) && member ("H_" ++ main) (concat aux)
  && forallb (fun f => String.eqb f main || member (f ++ "-" ++ main) (concat aux)) (c_filters c)
  && forallb (fun x => member x (concat aux)) (phase_columns (c_phase_function c)) = true ->
  documented_inputs des c main (documented_query des) aux.
Proof.
  intros des c main aux E. repeat (apply andb_prop in E; let E' := fresh "E" in destruct E as [E E']).
  constructor.
  - apply incl_refl.
  - auto.
  - intros ->. discriminate.
  - intros a Ha. rewrite forallb_forall in E. apply member_in. auto.
  - apply pairs_apart_spec. auto.
  - intros x Hx. rewrite forallb_forall in E6. apply E6 in Hx. apply member_out. rewrite negb_true_iff in Hx. auto.
  - intros x Hx. rewrite forallb_forall in E5. apply E5 in Hx. apply orb_prop in Hx. destruct Hx as [Hx|Hx]; [left; apply String.eqb_eq; auto|].
    right. apply member_out. rewrite negb_true_iff in Hx. auto.
  - apply members_in. auto.
  - apply member_in. auto.
  - apply member_in. auto.
  - intros _ g Hg N. rewrite forallb_forall in E1. apply E1 in Hg. apply orb_prop in Hg. destruct Hg as [Hg|Hg]; [apply String.eqb_eq in Hg; contradiction|].
    apply member_in. auto.
  - left. apply members_in. auto.
Qed.
