From Coq Require Import ZArith QArith String Ascii List Bool Arith Lia Permutation.
From Verif Require Import Base.Prelude Base.Num Model.Csv Model.Config Spec.Config Spec.ConfigValues Proofs.Config Proofs.ConfigValues.
Import ListNotations.
Open Scope string_scope.
Open Scope result_scope.

Lemma key_In : forall s k v, NoDup (map fst s) -> (key s k = Some v <-> In (k, v) s).
Proof.
  induction s as [|[k' v'] s IH]; cbn; intros k v N; [split; [discriminate|intros []]|].
  inversion N as [|? ? N1 N2]; subst. destruct (String.eqb_spec k' k) as [->|D].
  - split; [intros H; injection H as ->; auto|]. intros [H|H]; [congruence|]. exfalso. apply N1.
    apply (in_map fst) in H. exact H.
  - rewrite IH by auto. split; auto. intros [H|H]; [congruence|auto].
Qed.
Lemma key_perm : forall s t k, Permutation s t -> NoDup (map fst s) -> key s k = key t k.
Proof.
  intros s t k P N. assert (N' : NoDup (map fst t)) by (eapply Permutation_NoDup; [apply Permutation_map; exact P|exact N]).
  destruct (key s k) as [v|] eqn:S.
  - symmetry. apply key_In; auto. apply (Permutation_in _ P). apply key_In; auto.
  - destruct (key t k) as [v|] eqn:T; auto. exfalso. apply key_In in T; auto.
    apply (Permutation_in _ (Permutation_sym P)) in T. apply key_In in T; auto. congruence.
Qed.
Lemma known_perm : forall s t l, Permutation s t -> known_keys s l = known_keys t l.
Proof.
  intros s t l P. unfold known_keys.
  assert (E : forall a b : section, Permutation a b -> forallb (fun kv => member (fst kv) l) a = true ->
              forallb (fun kv => member (fst kv) l) b = true).
  { intros a b Q F. rewrite forallb_forall in *. intros x X. apply F. apply (Permutation_in _ (Permutation_sym Q)). exact X. }
  destruct (forallb _ s) eqn:A.
  - rewrite (E _ _ P A). reflexivity.
  - destruct (forallb _ t) eqn:B; auto. rewrite (E _ _ (Permutation_sym P) B) in A. discriminate.
Qed.
(** Interchangeable sections. *)
Definition same_section (s t : section) : Prop := (forall k, key s k = key t k) /\ (forall l, known_keys s l = known_keys t l).
Lemma same_refl : forall s, same_section s s.
Proof. split; auto. Qed.

Lemma find_section_In : forall f n s, NoDup (map fst f) -> (find_section f n = Some s <-> In (n, s) f).
Proof.
  induction f as [|[k' v'] s IH]; cbn; intros k v N; [split; [discriminate|intros []]|].
  inversion N as [|? ? N1 N2]; subst. destruct (String.eqb_spec k' k) as [->|D].
  - split; [intros H; injection H as ->; auto|]. intros [H|H]; [congruence|]. exfalso. apply N1.
    apply (in_map fst) in H. exact H.
  - rewrite IH by auto. split; auto. intros [H|H]; [congruence|auto].
Qed.
Lemma same_find : forall f g n, same_file f g ->
  match find_section f n, find_section g n with
  | Some s, Some t => same_section s t
  | None, None => True
  | _, _ => False
  end.
Proof.
  intros f g n (Nf & Ng & H1 & H2). destruct (find_section f n) as [s|] eqn:F.
  - apply find_section_In in F; auto. destruct (H1 _ _ F) as (t & T & P & N).
    apply find_section_In in T; auto. rewrite T. split; intros; [apply key_perm|apply known_perm]; auto.
  - destruct (find_section g n) as [t|] eqn:G; auto. apply find_section_In in G; auto.
    assert (I := H2 n (in_map fst _ _ G)). apply in_map_iff in I. destruct I as ([n' s] & E & I). cbn in E. subst n'.
    apply find_section_In in I; auto. congruence.
Qed.
Lemma same_sections : forall f g n, same_file f g -> same_section (section_or_empty f n) (section_or_empty g n).
Proof.
  intros f g n H. unfold section_or_empty. assert (S := same_find f g n H).
  destruct (find_section f n), (find_section g n); try contradiction; auto using same_refl.
Qed.

Section Order.
Variable int_of : string -> option Z.
Variable float_of : string -> option num.
Variable path_exists : string -> bool.
Variables lc_methods ca_methods : list string.
Variables s t : section.
Hypothesis K : forall k, key s k = key t k.
Hypothesis L : forall l, known_keys s l = known_keys t l.

Lemma input_order : inputConfigs int_of s = inputConfigs int_of t.
Proof. unfold inputConfigs. rewrite L, !K. reflexivity. Qed.
Lemma simulation_order : forall e, simulationConfigs int_of float_of s e = simulationConfigs int_of float_of t e.
Proof. intros. unfold simulationConfigs. rewrite L, !K. reflexivity. Qed.
Lemma filters_order : forall v, filtersConfigs s v = filtersConfigs t v.
Proof. intros. unfold filtersConfigs. rewrite L, !K. reflexivity. Qed.
Lemma saturation_order : forall fl, saturationConfigs float_of s fl = saturationConfigs float_of t fl.
Proof. intros. unfold saturationConfigs. rewrite L, !K. reflexivity. Qed.
Lemma phase_order : phasecurvesConfigs s = phasecurvesConfigs t.
Proof. unfold phasecurvesConfigs. rewrite L, !K. reflexivity. Qed.
Lemma fov_order : forall v, fovConfigs float_of path_exists s v = fovConfigs float_of path_exists t v.
Proof.
  intros. unfold fovConfigs, camera_footprint, camera_visits_footprint, camera_circle. rewrite L, !K. reflexivity.
Qed.
Lemma fading_order : forall v, fadingfunctionConfigs float_of s v = fadingfunctionConfigs float_of t v.
Proof. intros. unfold fadingfunctionConfigs, fading_DES, fading_other. rewrite L, !K. reflexivity. Qed.
Lemma linking_order : forall v, linkingfilterConfigs int_of float_of s v = linkingfilterConfigs int_of float_of t v.
Proof. intros. unfold linkingfilterConfigs, linking_ssp, cut. rewrite L, !K. reflexivity. Qed.
Lemma output_order : outputConfigs int_of s = outputConfigs int_of t.
Proof. unfold outputConfigs. rewrite L, !K. reflexivity. Qed.
Lemma lightcurve_order : lightcurveConfigs lc_methods s = lightcurveConfigs lc_methods t.
Proof. unfold lightcurveConfigs. rewrite L, !K. reflexivity. Qed.
Lemma activity_order : activityConfigs ca_methods s = activityConfigs ca_methods t.
Proof. unfold activityConfigs. rewrite L, !K. reflexivity. Qed.
Lemma expert_order : forall v c, expertConfigs float_of s v c = expertConfigs float_of t v c.
Proof. intros. unfold expertConfigs. rewrite L, !K. reflexivity. Qed.
End Order.

Lemma rbind_ext : forall A B (r : result A) (f g : A -> result B), (forall x, f x = g x) -> (x <- r ;; f x) = (x <- r ;; g x).
Proof. intros A B [x|e] f g H; cbn; auto. Qed.

Lemma order_irrelevant : forall int_of float_of path_exists lc_methods ca_methods f g survey,
  same_file f g ->
  read_configs int_of float_of path_exists lc_methods ca_methods f survey
  = read_configs int_of float_of path_exists lc_methods ca_methods g survey.
Proof.
  intros int_of float_of path_exists lc_methods ca_methods f g survey H. unfold read_configs.
  assert (S := fun n => same_sections f g n H). assert (F := fun n => same_find f g n H).
  rewrite (input_order int_of _ _ (proj1 (S "INPUT")) (proj2 (S "INPUT"))). apply rbind_ext. intros i.
  assert (SIM : match find_section f "SIMULATION" with
     | Some s => simulationConfigs int_of float_of s (Some (in_ephemerides_type i)) | None => simulationConfigs int_of float_of [] None end
   = match find_section g "SIMULATION" with
     | Some s => simulationConfigs int_of float_of s (Some (in_ephemerides_type i)) | None => simulationConfigs int_of float_of [] None end).
  { specialize (F "SIMULATION"). destruct (find_section f "SIMULATION"), (find_section g "SIMULATION"); try contradiction; auto.
    destruct F. apply simulation_order; auto. }
  rewrite SIM. apply rbind_ext. intros sim.
  rewrite (filters_order _ _ (proj1 (S "FILTERS")) (proj2 (S "FILTERS"))). apply rbind_ext. intros fl.
  rewrite (saturation_order float_of _ _ (proj1 (S "SATURATION")) (proj2 (S "SATURATION"))). apply rbind_ext. intros sat.
  rewrite (phase_order _ _ (proj1 (S "PHASECURVES")) (proj2 (S "PHASECURVES"))). apply rbind_ext. intros ph.
  rewrite (fov_order float_of path_exists _ _ (proj1 (S "FOV")) (proj2 (S "FOV"))). apply rbind_ext. intros fo.
  rewrite (fading_order float_of _ _ (proj1 (S "FADINGFUNCTION")) (proj2 (S "FADINGFUNCTION"))). apply rbind_ext. intros fa.
  rewrite (linking_order int_of float_of _ _ (proj1 (S "LINKINGFILTER")) (proj2 (S "LINKINGFILTER"))). apply rbind_ext. intros li.
  rewrite (output_order int_of _ _ (proj1 (S "OUTPUT")) (proj2 (S "OUTPUT"))). apply rbind_ext. intros ou.
  rewrite (lightcurve_order lc_methods _ _ (proj1 (S "LIGHTCURVE")) (proj2 (S "LIGHTCURVE"))). apply rbind_ext. intros lc.
  rewrite (activity_order ca_methods _ _ (proj1 (S "ACTIVITY")) (proj2 (S "ACTIVITY"))). apply rbind_ext. intros ac.
  assert (X : match find_section f "EXPERT" with Some _ => Some (fov_camera_model fo) | None => None end
            = match find_section g "EXPERT" with Some _ => Some (fov_camera_model fo) | None => None end).
  { specialize (F "EXPERT"). destruct (find_section f "EXPERT"), (find_section g "EXPERT"); try contradiction; auto. }
  rewrite X, (expert_order float_of _ _ (proj1 (S "EXPERT")) (proj2 (S "EXPERT"))). apply rbind_ext. reflexivity.
Qed.

Lemma known_only : forall s l u, known_keys s l = Ok u -> only s l.
Proof.
  intros s l u H k v I. unfold known_keys in H. destruct (forallb _ s) eqn:F; [|discriminate].
  rewrite forallb_forall in F. apply member_In. exact (F _ I).
Qed.
Lemma documented_only : forall int_of float_of path_exists lc_methods ca_methods f survey c,
  read_configs int_of float_of path_exists lc_methods ca_methods f survey = Ok c -> only_documented f.
Proof.
  intros int_of float_of path_exists lc_methods ca_methods f survey c H n keys I s F.
  assert (SE : section_or_empty f n = s) by (unfold section_or_empty; rewrite F; reflexivity).
  unfold read_configs in H.
  step H. step H. step H. step H. step H. step H. step H. step H. step H. step H. step H. step H. clear H.
  unfold documented in I.
  repeat (destruct I as [I|I]; [injection I as <- <-; rewrite ?SE in *; rewrite ?F in *|]); [..|destruct I];
  clear SE.
  - unfold inputConfigs in E. step E. eapply known_only; eauto.
  - unfold simulationConfigs in E0. step E0. eapply known_only; eauto.
  - unfold filtersConfigs in E1. step E1. eapply known_only; eauto.
  - unfold saturationConfigs in E2. step E2. eapply known_only; eauto.
  - unfold phasecurvesConfigs in E3. step E3. eapply known_only; eauto.
  - unfold fovConfigs in E4. step E4. eapply known_only; eauto.
  - unfold fadingfunctionConfigs in E5. step E5. eapply known_only; eauto.
  - unfold linkingfilterConfigs in E6. step E6. eapply known_only; eauto.
  - unfold outputConfigs in E7. step E7. eapply known_only; eauto.
  - unfold lightcurveConfigs in E8. step E8. eapply known_only; eauto.
  - unfold activityConfigs in E9. step E9. eapply known_only; eauto.
  - unfold expertConfigs in E10. step E10. eapply known_only; eauto.
Qed.

Lemma C77_values_proof : forall int_of float_of path_exists lc_methods ca_methods f survey c,
  read_configs int_of float_of path_exists lc_methods ca_methods f survey = Ok c ->
  file_said int_of float_of f survey c.
Proof. exact said_file. Qed.
Lemma C77_documented_proof : forall int_of float_of path_exists lc_methods ca_methods f survey c,
  read_configs int_of float_of path_exists lc_methods ca_methods f survey = Ok c -> only_documented f.
Proof. exact documented_only. Qed.
Lemma C77_order_proof : forall int_of float_of path_exists lc_methods ca_methods f g survey,
  same_file f g ->
  read_configs int_of float_of path_exists lc_methods ca_methods f survey
  = read_configs int_of float_of path_exists lc_methods ca_methods g survey.
Proof. exact order_irrelevant. Qed.
Lemma C77_spelling_proof : forall v b, cast_as_bool v = Ok b <-> spelled v b.
Proof. exact cast_as_bool_spelled. Qed.
