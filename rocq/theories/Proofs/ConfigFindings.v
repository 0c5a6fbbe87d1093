From Coq Require Import ZArith QArith String Ascii List Bool Arith Lia.
From Verif Require Import Base.Prelude Base.Num Model.Csv Model.Config Spec.Config Proofs.Config.
Import ListNotations.
Open Scope string_scope.
Open Scope result_scope.

Lemma le_not_lt : forall a b, num_le a b -> nltb b a = false.
Proof. intros a b H. destruct (nltb b a) eqn:E; auto. apply nltb_lt in E. exfalso. eapply num_le_not_lt; eauto. Qed.
Lemma within_elim : forall lo hi x, within lo hi x -> nltb x lo = false /\ nltb hi x = false.
Proof.
  intros lo hi x [->|[H1 H2]].
  - split; [reflexivity|]. destruct hi; reflexivity.
  - split; apply le_not_lt; auto.
Qed.
Lemma not_negative_elim : forall x, not_negative x -> nltb x zero = false.
Proof. intros x [->|H]; [reflexivity|]. apply le_not_lt, H. Qed.

(** The linking parameters are accepted exactly when they parse and meet the
    documented constraints. *)
Lemma C46_ssp_complete_proof : forall int_of float_of s survey e n sep t k w g p,
  key s "ssp_detection_efficiency" = Some e -> key s "ssp_number_observations" = Some n ->
  key s "ssp_separation_threshold" = Some sep -> key s "ssp_maximum_time" = Some t ->
  key s "ssp_number_tracklets" = Some k -> key s "ssp_track_window" = Some w -> key s "ssp_night_start_utc" = Some g ->
  ~ des_any_case survey ->
  (linking_ssp int_of float_of s survey = Ok (Some p) <->
   float_of e = Some (ssp_detection_efficiency p) /\ int_of n = Some (ssp_number_observations p)
   /\ float_of sep = Some (ssp_separation_threshold p) /\ float_of t = Some (ssp_maximum_time p)
   /\ int_of k = Some (ssp_number_tracklets p) /\ int_of w = Some (ssp_track_window p)
   /\ float_of g = Some (ssp_night_start_utc p) /\ ssp_ok p).
Proof.
  intros int_of float_of s survey e n sep t k w g p K1 K2 K3 K4 K5 K6 K7 D.
  unfold linking_ssp. rewrite K1, K2, K3, K4, K5, K6, K7.
  destruct (String.eqb_spec (lower survey) "des") as [X|_]; [apply lower_des in X; contradiction|]. split.
  - intros H. step H. injection H as ->. pose proof (ssp_sound _ _ _ _ _ _ _ _ _ _ E) as S.
    unfold validate_ssp in E. repeat step E. injection E as <-. cbn. unfold cast_as_float, cast_as_int in *.
    repeat match goal with H : match ?o with Some _ => _ | None => _ end = Ok _ |- _ => destruct o; [|discriminate H]; injection H as -> end.
    repeat split; auto; apply S.
  - intros (H1 & H2 & H3 & H4 & H5 & H6 & H7 & S). unfold validate_ssp, cast_as_float, cast_as_int.
    rewrite H1, H2, H3, H4, H5, H6, H7. cbn [rbind].
    destruct p as [pe pn ps pt pk pw pg]. unfold ssp_ok in S.
    cbn [ssp_detection_efficiency ssp_number_observations ssp_separation_threshold ssp_maximum_time ssp_number_tracklets ssp_track_window ssp_night_start_utc] in S |- *.
    destruct S as (S1 & S2 & S3 & S4 & S5 & S6 & S7 & S8).
    apply within_elim in S1, S8. apply not_negative_elim in S3, S5. destruct S1 as (S1 & S1'), S8 as (S8 & S8').
    replace (pn <? 1)%Z with false by (symmetry; apply Z.ltb_ge; lia). cbn [exit_if rbind].
    replace ((1 <? pn)%Z && neqb ps zero) with false.
    2:{ symmetry. destruct (1 <? pn)%Z eqn:N; [|reflexivity]. apply Z.ltb_lt in N. cbn [andb].
        destruct ps as [| |q|]; try reflexivity. specialize (S4 q N eq_refl). cbn.
        destruct (Qeq_bool q 0) eqn:Q; auto. apply Qeq_bool_iff in Q. rewrite Q in S4. exfalso. exact (Qlt_irrefl _ S4). }
    cbn [exit_if rbind]. rewrite S3. cbn [exit_if rbind].
    replace (pk <? 1)%Z with false by (symmetry; apply Z.ltb_ge; lia). cbn [exit_if rbind].
    replace (pw <=? 0)%Z with false by (symmetry; apply Z.leb_gt; lia). cbn [exit_if rbind].
    unfold one, zero in *. rewrite S1, S1'. cbn [orb exit_if rbind]. rewrite S5. cbn [exit_if rbind].
    rewrite S8, S8'. cbn [orb exit_if rbind]. reflexivity.
Qed.

(** The fading function outside DES, likewise. *)
Lemma C46_fading_complete_proof : forall float_of s survey a b w p,
  only s ["fading_function_on"; "fading_function_width"; "fading_function_peak_efficiency"; "des_transient_efficency"] ->
  key s "fading_function_width" = Some a -> key s "fading_function_peak_efficiency" = Some b ->
  ~ is_des survey ->
  (fadingfunctionConfigs float_of s survey = Ok (Fading w p) <->
   float_of a = Some w /\ float_of b = Some p
   /\ (w = NaN \/ (num_lt (Fin 0) w /\ num_le w (Fin (1#2)))) /\ within (Fin 0) (Fin 1) p).
Proof.
  intros float_of s survey a b w p O A B D. split.
  - intros H. pose proof (fading_sound _ _ _ _ H) as S. unfold fadingfunctionConfigs in H. step H.
    destruct (member survey ["DES"; "des"]) eqn:M; [apply member_In in M; contradiction|].
    unfold fading_other in H. rewrite A, B in H. repeat step H. unfold cast_as_float in *.
    repeat match goal with H : match ?o with Some _ => _ | None => _ end = Ok _ |- _ => destruct o; [|discriminate H]; injection H as -> end.
    injection H as -> ->. destruct S as (S & _). destruct (S w p eq_refl) as (_ & S1 & S2). auto.
  - intros (HA & HB & W & P). unfold fadingfunctionConfigs, known_keys.
    replace (forallb _ s) with true.
    2:{ symmetry. apply forallb_forall. intros [x v] X. apply member_In. exact (O x v X). }
    cbn [rbind]. destruct (member survey ["DES"; "des"]) eqn:M; [apply member_In in M; contradiction|].
    unfold fading_other. rewrite A, B. unfold cast_as_float. rewrite HA, HB. cbn [rbind].
    apply within_elim in P. destruct P as (P1 & P2). unfold zero, half, one.
    replace (nleb w (Fin 0)) with false.
    2:{ symmetry. destruct W as [->|[W _]]; [reflexivity|]. destruct (nleb w (Fin 0)) eqn:X; auto.
        apply nleb_le in X. exfalso. eapply num_le_not_lt; eauto. }
    replace (nltb (Fin (1#2)) w) with false.
    2:{ symmetry. destruct W as [->|[_ W]]; [reflexivity|]. apply le_not_lt, W. }
    cbn [orb exit_if rbind]. rewrite P1, P2. reflexivity.
Qed.

(** * What validation lets through *)

Lemma C46_nan_refuted_proof : forall int_of float_of survey,
  float_of "nan" = Some NaN -> int_of "1" = Some 1%Z -> ~ des_any_case survey ->
  (exists s, fadingfunctionConfigs float_of s survey = Ok (Fading NaN NaN))
  /\ (exists s l p, linkingfilterConfigs int_of float_of s survey = Ok l /\ l_ssp l = Some p
        /\ ssp_detection_efficiency p = NaN /\ ssp_separation_threshold p = NaN /\ ssp_maximum_time p = NaN)
  /\ (exists s x, expertConfigs float_of s survey None = Ok x /\ x_snr_limit x = Some NaN).
Proof.
  intros int_of float_of survey HN H1 D.
  assert (D' : ~ is_des survey) by (intros [<-|[<-|[]]]; apply D; cbn; tauto).
  split; [|split].
  - exists [("fading_function_width", "nan"); ("fading_function_peak_efficiency", "nan")].
    eapply C46_fading_complete_proof; try reflexivity; auto.
    + intros k v [E|[E|[]]]; injection E as <- <-; cbn; auto.
    + repeat split; auto; left; reflexivity.
  - exists [("ssp_detection_efficiency", "nan"); ("ssp_number_observations", "1"); ("ssp_separation_threshold", "nan");
            ("ssp_maximum_time", "nan"); ("ssp_number_tracklets", "1"); ("ssp_track_window", "1"); ("ssp_night_start_utc", "nan")].
    set (p := {| ssp_detection_efficiency := NaN; ssp_number_observations := 1; ssp_separation_threshold := NaN;
                 ssp_maximum_time := NaN; ssp_number_tracklets := 1; ssp_track_window := 1; ssp_night_start_utc := NaN |}).
    assert (L : forall s, s = [("ssp_detection_efficiency", "nan"); ("ssp_number_observations", "1"); ("ssp_separation_threshold", "nan");
            ("ssp_maximum_time", "nan"); ("ssp_number_tracklets", "1"); ("ssp_track_window", "1"); ("ssp_night_start_utc", "nan")] ->
            linking_ssp int_of float_of s survey = Ok (Some p)).
    { intros s ->. eapply C46_ssp_complete_proof; try reflexivity; auto.
      unfold p, ssp_ok, within, not_negative; cbn. repeat split; auto; try lia. }
    unfold linkingfilterConfigs. rewrite L by reflexivity. do 2 eexists. cbn. repeat split.
  - exists [("snr_limit", "nan")]. unfold expertConfigs, limit, optional, cast_as_float. cbn [known_keys].
    cbn -[member]. rewrite HN. cbn -[member]. 
    destruct (member survey ["rubin_sim"; _; _; _]); [eexists; split; reflexivity|].
    destruct (member survey ["DES"; "des"]); eexists; split; reflexivity.
Qed.

(** Documented: less than 0.5. *)
Lemma C46_half_width_refuted_proof : forall float_of survey,
  float_of "0.5" = Some (Fin (1#2)) -> float_of "1.0" = Some (Fin 1) -> ~ is_des survey ->
  fadingfunctionConfigs float_of [("fading_function_width", "0.5"); ("fading_function_peak_efficiency", "1.0")] survey
  = Ok (Fading (Fin (1#2)) (Fin 1)).
Proof.
  intros float_of survey H1 H2 D. eapply C46_fading_complete_proof; try reflexivity; auto.
  - intros k v [E|[E|[]]]; injection E as <- <-; cbn; auto.
  - repeat split; auto.
    + right. split; constructor; [reflexivity|discriminate].
    + right. split; constructor; discriminate.
Qed.

Lemma C46_des_efficiency_refuted_proof : forall float_of x,
  float_of "x" = Some x ->
  fadingfunctionConfigs float_of [("fading_function_on", "True"); ("des_transient_efficency", "x")] "DES" = Ok (FadingDES x).
Proof. intros float_of x H. unfold fadingfunctionConfigs, fading_DES, cast_as_float. cbn. rewrite H. reflexivity. Qed.

(** A switch in the file is taken as on whatever it says, and without limits. *)
Lemma C46_switch_refuted_proof : forall int_of float_of v filters,
  v <> "" ->
  saturationConfigs float_of [("bright_limit_on", v)] filters = Ok (true, None)
  /\ exists l, linkingfilterConfigs int_of float_of [("distance_cut_on", v); ("motion_cut_on", v)] "DES" = Ok l
       /\ l_distance_cut_on l = true /\ l_distance_cut l = None /\ l_motion_cut_on l = true /\ l_motion_cut l = None.
Proof.
  intros int_of float_of v filters N. split.
  - unfold saturationConfigs. cbn. destruct v; [contradiction|reflexivity].
  - unfold linkingfilterConfigs, cut. cbn -[truthy].
    replace (truthy (Some v)) with true by (destruct v; [contradiction|reflexivity]). cbn. eexists. repeat split.
Qed.

(** Cut bounds in the wrong order. *)
Lemma C46_cut_order_refuted_proof : forall int_of float_of,
  float_of "9" = Some (Fin 9) -> float_of "-1" = Some (Fin (-1)) ->
  exists l, linkingfilterConfigs int_of float_of [("distance_cut_lower", "9"); ("distance_cut_upper", "-1")] "DES" = Ok l
            /\ l_distance_cut l = Some (Fin 9, Fin (-1)).
Proof.
  intros int_of float_of H1 H2. unfold linkingfilterConfigs, cut, cast_as_float. cbn. rewrite H2, H1. cbn. eexists. repeat split.
Qed.

Lemma C14_config_refuted_proof : forall int_of c z q,
  int_of c = Some z -> exists s i, inputConfigs int_of s = Ok i /\ in_size_serial_chunk i = z /\ in_pointing_sql_query i = q.
Proof.
  intros int_of c z q H.
  exists [("ephemerides_type", "ar"); ("eph_format", "csv"); ("size_serial_chunk", c); ("aux_format", "csv"); ("pointing_sql_query", q)].
  unfold inputConfigs, cast_as_int. cbn. rewrite H. cbn. eexists. repeat split.
Qed.

(** * C47 *)

Lemma validated_all : forall s l us, validated_urls s l = Ok us -> Forall2 (fun d u => validated_url s d = Ok u) l us.
Proof.
  intros s l. induction l as [|d l IH]; intros us H; cbn in H.
  - injection H as <-. constructor.
  - step H. step H. injection H as <-. constructor; auto.
Qed.

(** The URL attribute of a file is empty exactly when the user changed the name
    and left the URL; otherwise it is the URL in use. *)
Lemma C47_attribute_proof : forall s u us fs,
  auxiliaryConfigs s = Ok (u, us, fs) ->
  Forall2 (fun d url =>
    (url = None <-> name_of s d <> df_name d /\ url_of s d = df_url d)
    /\ (url <> None -> url = Some (url_of s d))
    /\ (name_of s d = df_name d -> url = Some (df_url d))) datafiles us.
Proof.
  intros s u us fs H. unfold auxiliaryConfigs in H. step H. step H.
  assert (HU : us = a0) by congruence. clear H. subst us.
  apply validated_all in E0. clear E. induction E0 as [|d url l us V F IH]; constructor; auto. clear IH F.
  unfold validated_url in V.
  destruct (String.eqb_spec (name_of s d) (df_name d)) as [A|A], (String.eqb_spec (url_of s d) (df_url d)) as [B|B]; cbn in V;
    try discriminate; injection V as <-; repeat split; intros; try congruence; try tauto; intuition congruence.
Qed.

(** A URL without a name is rejected. *)
Lemma C47_url_alone_proof : forall s d,
  In d datafiles -> key s (df_attr d) = None -> url_of s d <> df_url d ->
  forall r, auxiliaryConfigs s <> Ok r.
Proof.
  intros s d I K N [[u us] fs] H. apply C47_attribute_proof in H.
  assert (G : exists url, (name_of s d = df_name d -> url = Some (df_url d)) /\ (url <> None -> url = Some (url_of s d))).
  { clear - H I. induction H as [|d' url l us (_ & H2 & H3) F IH]; [contradiction|]. destruct I as [<-|I]; eauto. }
  destruct G as (url & G1 & G2). unfold name_of, given in G1. rewrite K in G1. specialize (G1 eq_refl). subst url.
  specialize (G2 ltac:(discriminate)). congruence.
Qed.

Lemma url_for_last : forall A (f g : A -> string) l d,
  NoDup (map f l) -> In d l -> url_for (map (fun x => (f x, g x)) l) (f d) = Some (g d).
Proof.
  intros A f g l d. induction l as [|x l IH]; intros N I; [contradiction|]. cbn. inversion N as [|y m Hy Hm]; subst.
  destruct I as [->|I].
  - assert (Z : url_for (map (fun x => (f x, g x)) l) (f d) = None).
    { clear - Hy. induction l as [|x l IH]; cbn; auto. rewrite IH by (intro; apply Hy; right; auto).
      destruct (String.eqb_spec (f x) (f d)) as [E|]; auto. exfalso. apply Hy. left. auto. }
    rewrite Z, String.eqb_refl. reflexivity.
  - rewrite IH; auto.
Qed.

(** With distinct file names, the name of every file is looked up at the URL in
    use for that file: the user's, if given, ... *)
Lemma C47_lookup_proof : forall s u us fs d,
  auxiliaryConfigs s = Ok (u, us, fs) -> NoDup fs -> In d datafiles ->
  In (name_of s d) fs
  /\ url_for u (name_of s d) = Some (match key s (df_attr d ++ "_url") with Some v => v | None => df_url d end).
Proof.
  intros s u us fs d H N I. unfold auxiliaryConfigs in H. step H. step H.
  assert (HU : u = urls s) by congruence. assert (HF : fs = map (name_of s) datafiles) by congruence. clear H. subst u fs.
  split; [apply in_map, I|]. unfold urls. change (match key s (df_attr d ++ "_url") with Some v => v | None => df_url d end) with (url_of s d).
  apply (url_for_last _ (name_of s) (url_of s)); auto.
Qed.

(** ... but also the default one when only the name was changed. *)
Lemma C47_refuted_proof : forall d name,
  In d datafiles -> ~ In name (map df_name datafiles) ->
  exists u us fs, auxiliaryConfigs [(df_attr d, name)] = Ok (u, us, fs)
    /\ In name fs /\ url_for u name = Some (df_url d).
Proof.
  intros d name I N.
  assert (NE : Forall (fun n => String.eqb name n = false) (map df_name datafiles)).
  { apply Forall_forall. intros n X. apply String.eqb_neq. intros ->. contradiction. }
  assert (NE' : Forall (fun n => String.eqb n name = false) (map df_name datafiles)).
  { eapply Forall_impl; [|exact NE]. intros n X. rewrite String.eqb_sym. exact X. }
  unfold datafiles in NE, NE'. cbn [map df_name] in NE, NE'.
  repeat match goal with H : Forall _ (_ :: _) |- _ => inversion H; clear H; subst end.
  unfold datafiles in I. cbn [In] in I.
  unfold auxiliaryConfigs, urls, datafiles, known_keys, validated_urls, validated_url, name_of, url_of, given.
  repeat destruct I as [<-|I]; [..|contradiction]; 
    cbn -[String.eqb]; cbn [String.eqb Ascii.eqb Bool.eqb];
    repeat match goal with H : String.eqb ?a ?b = false |- context [String.eqb ?a ?b] => rewrite H end;
    cbn; do 3 eexists; (split; [reflexivity|]); (split; [cbn; tauto|]); cbn [url_for];
    repeat match goal with H : String.eqb ?a ?b = false |- context [String.eqb ?a ?b] => rewrite H end;
    rewrite String.eqb_refl; reflexivity.
Qed.
