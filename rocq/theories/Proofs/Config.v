From Coq Require Import ZArith QArith String Ascii List Bool Arith Lia Lqa.
From Verif Require Import Base.Prelude Base.Num Model.Csv Model.Config Spec.Config.
Import ListNotations.
Open Scope string_scope.
Open Scope result_scope.

Lemma member_In : forall x l, member x l = true <-> In x l.
Proof.
  intros x l. unfold member. rewrite existsb_exists. split.
  - intros (y & H & E). apply String.eqb_eq in E. subst; auto.
  - intros H. exists x. split; auto. apply String.eqb_refl.
Qed.
Lemma member_not : forall x l, member x l = false <-> ~ In x l.
Proof. intros. rewrite <- member_In. destruct (member x l); intuition congruence. Qed.

Lemma check_list_ok : forall v l u, check_value_in_list v l = Ok u -> In v l.
Proof. unfold check_value_in_list. intros v l u H. destruct (member v l) eqn:E; [apply member_In; auto|discriminate]. Qed.
Lemma exit_if_ok : forall b u, exit_if b = Ok u -> b = false.
Proof. intros [] u H; [discriminate|reflexivity]. Qed.
Lemma exists_ok : forall v x, check_key_exists v = Ok x -> v = Some x.
Proof. intros [y|] x H; cbn in H; congruence. Qed.
Lemma doesnt_exist_ok : forall v x, check_key_doesnt_exist v = Ok x -> v = None.
Proof. intros [y|] x H; cbn in H; congruence. Qed.

Lemma lower_des : forall s, lower s = "des" -> des_any_case s.
Proof.
  assert (A : forall c x, lower_char c = x ->
            In x ["d"; "e"; "s"]%char -> c = x \/ c = ascii_of_nat (nat_of_ascii x - 32)).
  { intros c x H I. cbn in I.
    destruct I as [<-|[<-|[<-|[]]]]; destruct c as [[] [] [] [] [] [] [] []]; vm_compute in H; try discriminate H; vm_compute; auto. }
  intros s H. destruct s as [|a [|b [|c [|d r]]]]; cbn in H; try discriminate.
  assert (Ha : lower_char a = "d"%char) by congruence.
  assert (Hb : lower_char b = "e"%char) by congruence.
  assert (Hc : lower_char c = "s"%char) by congruence.
  apply A in Ha; [|cbn; auto]. apply A in Hb; [|cbn; auto]. apply A in Hc; [|cbn; auto].
  destruct Ha as [-> | ->], Hb as [-> | ->], Hc as [-> | ->]; vm_compute; tauto.
Qed.
Lemma des_lower : forall s, des_any_case s -> lower s = "des".
Proof. intros s H. cbn in H. repeat destruct H as [<-|H]; try reflexivity. contradiction. Qed.

Lemma not_lt_le : forall a b, a <> NaN -> nltb b a = false -> b = NaN \/ num_le a b.
Proof.
  intros a b Ha H. destruct b as [| |q|] eqn:E; [left; reflexivity| | |]; right;
    (destruct (num_le_total a b ltac:(congruence) ltac:(congruence)) as [L|L]; [subst; auto|
     apply nltb_lt in L; subst; congruence]).
Qed.
Lemma not_le_lt : forall a b, b <> NaN -> nleb a b = false -> a = NaN \/ num_lt b a.
Proof.
  intros a b Hb H. destruct a as [| |q|] eqn:E; [left; reflexivity| | |]; right;
    (destruct (num_le_total a b ltac:(congruence) ltac:(congruence)) as [L|L]; [|subst; auto];
     apply nleb_le in L; subst; congruence).
Qed.
Lemma within_intro : forall lo hi x, lo <> NaN -> hi <> NaN -> nltb x lo = false -> nltb hi x = false -> within lo hi x.
Proof.
  intros lo hi x Hl Hh H1 H2. destruct (not_lt_le _ _ Hl H1) as [|L]; [left; auto|].
  destruct x; [left; reflexivity| | |]; right; split; auto;
  match goal with |- num_le ?a ?b => destruct (num_le_total a b ltac:(congruence) ltac:(congruence)) as [M|M]; auto;
    apply nltb_lt in M; congruence end.
Qed.

Lemma half_open : forall x, nleb x zero = false -> nltb half x = false ->
  x = NaN \/ (num_lt (Fin 0) x /\ num_le x (Fin (1#2))).
Proof.
  intros x H1 H2. destruct (not_le_lt x zero ltac:(discriminate) H1) as [|L]; [left; auto|]. right. split; [exact L|].
  assert (N : x <> NaN) by (apply num_lt_not_nan in L; tauto).
  destruct (num_le_total x (Fin (1#2)) N ltac:(discriminate)) as [M|M]; auto.
  apply nltb_lt in M. unfold half in H2. congruence.
Qed.

Ltac step H :=
  match type of H with
  | rbind ?r _ = Ok _ =>
    let E := fresh "E" in
    destruct r eqn:E; cbn [rbind] in H; [|discriminate H]
  | rmap _ ?r = Ok _ =>
    let E := fresh "E" in
    destruct r eqn:E; cbn [rmap] in H; [|discriminate H]
  end.
Ltac tidy :=
  repeat match goal with
  | H : exit_if _ = Ok _ |- _ => apply exit_if_ok in H
  | H : check_value_in_list _ _ = Ok _ |- _ => apply check_list_ok in H
  | H : check_key_exists _ = Ok _ |- _ => apply exists_ok in H
  | H : check_key_doesnt_exist _ = Ok _ |- _ => apply doesnt_exist_ok in H
  | H : _ || _ = false |- _ => apply orb_false_iff in H; destruct H
  end.

Section Config.
Variable int_of : string -> option Z.
Variable float_of : string -> option num.
Variable path_exists : string -> bool.
Variables lc_methods ca_methods : list string.

Lemma input_sound : forall s i, inputConfigs int_of s = Ok i -> input_ok i.
Proof.
  intros s i H. unfold inputConfigs in H. repeat step H. tidy.
  injection H as <-. repeat split; auto.
Qed.

Lemma simulation_sound : forall s e r, simulationConfigs int_of float_of s e = Ok r ->
  (e = Some "ar" <-> r <> None)
  /\ (r = None -> forall k, In k ["ar_ang_fov"; "ar_fov_buffer"; "ar_picket"; "ar_obs_code"; "ar_healpix_order"] -> lacks s k).
Proof.
  intros s e r H. unfold simulationConfigs in H. do 3 step H. tidy.
  destruct (String.eqb_spec a0 "ar") as [->|N].
  - repeat step H. injection H as <-. split; [|discriminate]. split; [discriminate|auto].
  - repeat step H. tidy. injection H as <-. split.
    + split; [intros X; congruence|congruence].
    + intros _ k K. cbn in K. repeat destruct K as [<-|K]; try assumption. contradiction.
Qed.

Lemma filters_sound : forall s survey l, filtersConfigs s survey = Ok l -> filters_ok survey l.
Proof.
  intros s survey l H. unfold filtersConfigs in H. repeat step H. injection H as <-.
  unfold check_for_correct_filters in E1. step E1.
  assert (F : forall L, negb (forallb (fun f => member f L) (map strip (split_comma a0))) = false ->
              incl (map strip (split_comma a0)) L).
  { intros L B x X. apply negb_false_iff in B. rewrite forallb_forall in B. apply member_In, B, X. }
  split; intros S; apply member_In in S; rewrite S in *; tidy; auto.
Qed.

Lemma saturation_sound : forall s fl b o, saturationConfigs float_of s fl = Ok (b, o) -> saturation_ok fl o.
Proof.
  intros s fl b o H l ->. unfold saturationConfigs in H. step H.
  destruct (key s "bright_limit"); [|discriminate]. step H.
  destruct a0 as [|x [|y r]].
  - destruct (_ =? _)%nat eqn:L; [|discriminate]. apply Nat.eqb_eq in L. injection H as <- <-. auto.
  - injection H as <- <-. apply repeat_length.
  - destruct (_ =? _)%nat eqn:L; [|discriminate]. apply Nat.eqb_eq in L. injection H as <- <-. auto.
Qed.

Lemma fov_sound : forall s survey v, fovConfigs float_of path_exists s survey = Ok v -> fov_ok path_exists survey s v.
Proof.
  intros s survey v H. unfold fovConfigs in H. do 3 step H. tidy. unfold fov_ok, lacks.
  destruct (String.eqb_spec a0 "footprint") as [->|N1].
  { unfold camera_footprint in H. repeat step H. tidy. injection H as <-. cbn. repeat split; auto; try discriminate.
    intros p P. rewrite P in E2. destruct (path_exists p); [auto|discriminate]. }
  destruct (String.eqb_spec a0 "visits_footprint") as [->|N2].
  { unfold camera_visits_footprint in H. repeat step H. tidy. injection H as <-. cbn.
    split; [auto|]. split; [discriminate|]. split; [|discriminate]. intros _. repeat split; auto.
    - apply lower_des. destruct E2 as [<-|[]]. reflexivity.
    - eauto. }
  destruct (String.eqb_spec a0 "circle") as [->|N3].
  { unfold camera_circle in H. repeat step H. tidy. injection H as <-. cbn.
    split; [auto|]. split; [discriminate|]. split; [discriminate|]. intros _. repeat split; auto.
    - destruct a0, a2; try (left; discriminate); try (right; discriminate); discriminate E4.
    - intros x ->. unfold optional in E2. destruct (key s "fill_factor"); [|discriminate]. step E2. step E6. step E6.
      injection E2 as ->. injection E6 as ->. tidy. apply within_intro; auto; discriminate.
    - intros x ->. unfold optional in E3. destruct (key s "circle_radius"); [|discriminate]. step E3. step E6. step E6.
      injection E3 as ->. injection E6 as ->. tidy. apply not_lt_le; auto; discriminate. }
  injection H as <-. cbn in *. split; [auto|]. repeat split; intros; contradiction.
Qed.

Lemma fading_sound : forall s survey f, fadingfunctionConfigs float_of s survey = Ok f -> fading_ok survey s f.
Proof.
  intros s survey f H. unfold fadingfunctionConfigs in H. step H.
  destruct (member survey ["DES"; "des"]) eqn:D.
  - apply member_In in D. unfold fading_DES in H. repeat step H. tidy. injection H as ->.
    split; [|split; [|split]]; try (intros; exact D); try (intros; contradiction).
    + intros w p ->. exfalso. destruct a1; [|discriminate]. destruct (key s "des_transient_efficency"); [|discriminate].
      step E2. discriminate.
    + intros _. repeat split; auto. eexists; eauto.
  - apply member_not in D. unfold fading_other in H.
    assert (F : forall e, f = FadingDES e -> is_des survey).
    { intros e ->. exfalso. destruct (key s "fading_function_width"), (key s "fading_function_peak_efficiency"); try discriminate.
      repeat step H. discriminate. }
    split; [|split; [exact F|split]].
    + intros w p ->. destruct (key s "fading_function_width"), (key s "fading_function_peak_efficiency"); try discriminate.
      repeat step H. tidy. injection H as <- <-. split; [exact D|]. split.
      * apply half_open; auto.
      * apply within_intro; auto; discriminate.
    + intros X; contradiction.
    + intros _. destruct (key s "fading_function_width") eqn:W, (key s "fading_function_peak_efficiency") eqn:P; try discriminate.
      * left. intros k [<-|[<-|[]]]; eexists; eauto.
      * right. intros k [<-|[<-|[]]]; assumption.
Qed.

Lemma ssp_sound : forall e n sep t k w g p, validate_ssp int_of float_of e n sep t k w g = Ok p -> ssp_ok p.
Proof.
  intros e n sep t k w g p H. unfold validate_ssp in H. repeat step H. tidy. injection H as <-.
  repeat match goal with
  | H : (_ <? _)%Z = false |- _ => apply Z.ltb_ge in H
  | H : (_ <=? _)%Z = false |- _ => apply Z.leb_gt in H
  end.
  unfold ssp_ok; cbn.
  assert (Z0 : zero <> NaN) by discriminate.
  split; [apply within_intro; auto; discriminate|]. split; [lia|]. split; [apply not_lt_le; auto|].
  split; [|split; [apply not_lt_le; auto|split; [lia|split; [lia|apply within_intro; auto; discriminate]]]].
  intros q N ->. apply andb_false_iff in E7. destruct E7 as [X|X]; [apply Z.ltb_ge in X; lia|].
  cbn in X, E8. apply qltb_false in E8. apply Qle_lteq in E8. destruct E8 as [L|L]; auto.
  exfalso. symmetry in L. apply Qeq_bool_iff in L. congruence.
Qed.

Lemma cut_sound : forall s flag up lo b o, cut float_of s flag up lo = Ok (b, o) ->
  all_or_none s [lo; up] /\ (o <> None -> b = true).
Proof.
  intros s flag up lo b o H. unfold cut in H.
  destruct (key s up) eqn:U, (key s lo) eqn:L; cbn in H; try discriminate.
  - repeat step H. injection H as <- <-. split; auto. left. intros k [<-|[<-|[]]]; eexists; eauto.
  - injection H as <- <-. split; [|intros X; contradiction]. right. intros k [<-|[<-|[]]]; auto.
Qed.

Lemma linking_sound : forall s survey l, linkingfilterConfigs int_of float_of s survey = Ok l -> linking_ok survey s l.
Proof.
  intros s survey l H. unfold linkingfilterConfigs in H. repeat step H. tidy. injection H as <-. unfold linking_ok; cbn [l_ssp l_distance_cut l_distance_cut_on l_motion_cut l_motion_cut_on].
  destruct a3 as [db dc], a4 as [mb mc]. apply cut_sound in E3, E4. cbn [fst snd] in *.
  assert (A : (forall p, a0 = Some p -> ssp_ok p /\ ~ des_any_case survey) /\ all_or_none s ssp_key_names
              /\ (a0 <> None <-> forall k, In k ssp_key_names -> has s k)).
  { unfold linking_ssp in E0. unfold all_or_none, ssp_key_names, has, lacks. clear - E0.
    destruct (key s "ssp_detection_efficiency") eqn:K1, (key s "ssp_number_observations") eqn:K2,
      (key s "ssp_separation_threshold") eqn:K3, (key s "ssp_maximum_time") eqn:K4, (key s "ssp_number_tracklets") eqn:K5,
      (key s "ssp_track_window") eqn:K6, (key s "ssp_night_start_utc") eqn:K7; try discriminate E0.
    - destruct (String.eqb_spec (lower survey) "des") as [D|D]; [discriminate|]. step E0. injection E0 as <-.
      assert (P : forall k, In k ["ssp_separation_threshold"; "ssp_number_observations"; "ssp_number_tracklets";
        "ssp_track_window"; "ssp_detection_efficiency"; "ssp_maximum_time"; "ssp_night_start_utc"] -> exists v, key s k = Some v).
      { intros k K. cbn in K. repeat destruct K as [<-|K]; eauto. contradiction. }
      split; [|split; [left; exact P|split; [intros _; exact P|discriminate]]].
      intros p X. injection X as <-. split; [eapply ssp_sound; eauto|]. intros X. apply des_lower in X. contradiction.
    - injection E0 as <-. split; [discriminate|]. split.
      + right. intros k K. cbn in K. repeat destruct K as [<-|K]; auto. contradiction.
      + split; [intros X; contradiction|]. intros X. destruct (X "ssp_track_window" ltac:(cbn; auto)) as [v V]. congruence. }
  destruct A as (A1 & A2 & A3), E3 as (B1 & B2), E4 as (C1 & C2).
  split; [exact A1|]. split; [exact A2|]. split; [exact A3|]. split; [exact B1|]. split; [exact C1|]. split; [exact B2|]. split; [exact C2|].
  intros X. apply lower_des. apply andb_false_iff in E5. destruct E5 as [Y|Y].
  - apply orb_false_iff in Y. destruct Y, X; congruence.
  - apply negb_false_iff in Y. apply member_In in Y. destruct Y as [Y|[]]; auto.
Qed.

Lemma output_sound : forall s o, outputConfigs int_of s = Ok o -> output_ok o.
Proof.
  intros s o H. unfold outputConfigs in H. repeat step H. tidy. injection H as <-. unfold output_ok; cbn.
  split; [auto|]. split.
  - intros k ->. destruct (existsb _ _); [discriminate|]. step E3. injection E3 as <-. tidy. auto.
  - intros z [->| ->]; [apply Z.ltb_ge in E6|apply Z.ltb_ge in E7]; assumption.
Qed.

Lemma model_sound : forall v l r m, model_or_none v l = Ok r -> r = Some m -> m <> "none" /\ In m l.
Proof.
  intros v l r m H ->. unfold model_or_none in H. destruct v as [x|]; [|discriminate].
  destruct (String.eqb_spec x "none"); [discriminate|]. destruct (member x l) eqn:M; [|discriminate].
  injection H as <-. split; auto. apply member_In; auto.
Qed.

Lemma limit_sound : forall v r x, limit float_of v = Ok r -> r = Some x -> not_negative x.
Proof.
  intros v r x H ->. unfold limit, optional in H. destruct v; [|discriminate]. step H. injection H as ->. step E. step E. tidy.
  injection E as ->. apply not_lt_le; auto; discriminate.
Qed.

Lemma lsst_des : forall v, is_lsst v -> is_des v -> False.
Proof. intros v H K. cbn in H, K. destruct K as [<-|[<-|[]]]; repeat destruct H as [H|H]; try discriminate; contradiction. Qed.

Lemma expert_sound : forall s survey cam x, expertConfigs float_of s survey cam = Ok x -> expert_ok survey x.
Proof.
  intros s survey cam x H. unfold expertConfigs in H.
  step H. step H. step H. step H. step H. step H.
  assert (Q : (forall v, a0 = Some v \/ a1 = Some v -> not_negative v) /\ (a0 = None \/ a1 = None)).
  { split.
    - intros v [V|V]; (eapply limit_sound; [|exact V]; eassumption).
    - destruct a0, a1; auto. discriminate. }
  destruct Q as (Q1 & Q2). unfold expert_ok.
  destruct (member survey ["rubin_sim"; "RUBIN_SIM"; "LSST"; "lsst"]) eqn:L.
  { apply member_In in L. do 3 step H.
    assert (Ok {| x_snr_limit := a0; x_mag_limit := a1; x_default_snr_cut := a3; x_brute_force := a4;
                  x_randomization_on := Some a5; x_vignetting_on := Some a6; x_trailing_losses_on := Some a7 |} = Ok x) as H'.
    { clear - H. repeat match type of H with context [match ?y with _ => _ end] => destruct y; try discriminate H; try exact H end. }
    injection H' as <-. cbn. split; [exact Q1|]. split; [exact Q2|]. split; [intros D; exfalso; eapply lsst_des; eauto|].
    intros _. repeat split; discriminate. }
  apply member_not in L.
  destruct (member survey ["DES"; "des"]) eqn:D.
  { do 3 step H. destruct (a5 || a6 || a7) eqn:B; [discriminate|]. tidy. injection H as <-. cbn.
    split; [exact Q1|]. split; [exact Q2|]. split; [intros _; repeat split; congruence|intros X; contradiction]. }
  apply member_not in D.
  assert (exists y, x = {| x_snr_limit := a0; x_mag_limit := a1; x_default_snr_cut := a3; x_brute_force := a4;
                  x_randomization_on := None; x_vignetting_on := y; x_trailing_losses_on := None |}) as (y & ->).
  { clear - H. destruct cam as [c|]; [|injection H as <-; eauto].
    repeat match type of H with
    | Ok _ = Ok _ => injection H as <-; eauto
    | (_ <- _ ;; _) = _ => step H
    | context [match ?y with _ => _ end] => destruct y; try discriminate H
    end. }
  cbn. split; [exact Q1|]. split; [exact Q2|]. split; intros X; contradiction.
Qed.

Lemma accepted_consistent : forall f survey c,
  read_configs int_of float_of path_exists lc_methods ca_methods f survey = Ok c ->
  consistent path_exists lc_methods ca_methods survey f c.
Proof.
  intros f survey c H. unfold read_configs in H.
  step H. step H. step H. step H. step H. step H. step H. step H. step H. step H. step H. step H. injection H as <-.
  unfold consistent; cbn [c_input c_simulation c_filters c_saturation c_phase_function c_fov c_fading c_linking c_output c_lightcurve c_activity c_expert].
  split; [eapply input_sound; eauto|].
  assert (S : (in_ephemerides_type a = "ar" <-> a0 <> None) /\ (a0 = None -> forall k,
    In k ["ar_ang_fov"; "ar_fov_buffer"; "ar_picket"; "ar_obs_code"; "ar_healpix_order"] -> lacks (section_or_empty f "SIMULATION") k)).
  { unfold section_or_empty. destruct (find_section f "SIMULATION"); [|discriminate]. apply simulation_sound in E0.
    destruct E0 as (E01 & E02). split; [|exact E02]. rewrite <- E01. split; congruence. }
  destruct S as (S1 & S2). split; [exact S1|]. split; [exact S2|].
  split; [eapply filters_sound; eauto|]. split; [destruct a2; eapply saturation_sound; eauto|].
  split. { unfold phasecurvesConfigs in E3. repeat step E3. injection E3 as <-. tidy. auto. }
  split; [eapply fov_sound; eauto|]. split; [eapply fading_sound; eauto|]. split; [eapply linking_sound; eauto|].
  split; [eapply output_sound; eauto|].
  split. { intros m M. unfold lightcurveConfigs in E8. step E8. eapply model_sound; eauto. }
  split. { intros m M. unfold activityConfigs in E9. step E9. eapply model_sound; eauto. }
  eapply expert_sound; eauto.
Qed.

Lemma startup_consistent : forall f a c,
  startup int_of float_of path_exists lc_methods ca_methods f a = Ok c ->
  consistent path_exists lc_methods ca_methods (arg_survey a) f c /\ arguments_ok c a.
Proof.
  intros f a c H. unfold startup in H. repeat step H. injection H as ->. tidy. split; [eapply accepted_consistent; eauto|].
  unfold arguments_ok. split; [|split; [|split]].
  - intros T. rewrite T in E0. destruct (arg_ephemeris a); [discriminate|discriminate E0].
  - intros m N [M|M]; rewrite M in *; unfold truthy in *; (destruct m; [contradiction|]); destruct (arg_complex a); discriminate.
  - destruct (arg_visits a), (fov_visits_query (c_fov c)); try discriminate; split; congruence.
  - intros V. apply andb_false_iff in E3. destruct E3 as [X|X].
    + apply negb_false_iff, String.eqb_eq in X. exact X.
    + destruct (arg_visits a); [discriminate|contradiction].
Qed.
End Config.

Lemma C46_accepted_proof : forall int_of float_of path_exists lc_methods ca_methods f survey c,
  read_configs int_of float_of path_exists lc_methods ca_methods f survey = Ok c ->
  consistent path_exists lc_methods ca_methods survey f c.
Proof. exact accepted_consistent. Qed.
Lemma C46_startup_proof : forall int_of float_of path_exists lc_methods ca_methods f a c,
  startup int_of float_of path_exists lc_methods ca_methods f a = Ok c ->
  consistent path_exists lc_methods ca_methods (arg_survey a) f c /\ arguments_ok c a.
Proof. exact startup_consistent. Qed.
