From Coq Require Import ZArith QArith String Ascii List Bool Arith Lia Permutation.
From Verif Require Import Base.Prelude Base.Num Model.Csv Model.Config Spec.Config Spec.ConfigValues Proofs.Config.
Import ListNotations.
Open Scope string_scope.
Open Scope result_scope.

(** ** Trimming *)
Fixpoint drop_front (p : ascii -> bool) (s : string) : string :=
  match s with String c r => if p c then drop_front p r else s | EmptyString => EmptyString end.
Lemma lstrip_drop : forall s, lstrip s = drop_front py_space s.
Proof. induction s as [|c s IH]; cbn; auto. destruct (py_space c); auto. Qed.
Lemma lstrip_blanks_drop : forall s, lstrip_blanks s = drop_front (fun c => Ascii.eqb c " ") s.
Proof. induction s as [|c s IH]; cbn [lstrip_blanks drop_front]; auto. destruct (Ascii.eqb c " "); auto. Qed.
Lemma app_nil : forall s, s ++ "" = s.
Proof. induction s as [|c s IH]; cbn; congruence. Qed.
Lemma app_assoc_s : forall a b c : string, (a ++ b) ++ c = a ++ (b ++ c).
Proof. induction a as [|x a IH]; cbn; intros; congruence. Qed.
Lemma rev_acc : forall s a, string_rev s a = string_rev s "" ++ a.
Proof.
  induction s as [|c s IH]; cbn; intros a; auto. rewrite IH, (IH (String c "")), app_assoc_s. reflexivity.
Qed.
Lemma rev_app : forall a b, string_rev (a ++ b) "" = string_rev b "" ++ string_rev a "".
Proof.
  induction a as [|c a IH]; cbn; intros b; [symmetry; apply app_nil|].
  rewrite rev_acc, IH, app_assoc_s, <- (rev_acc a). reflexivity.
Qed.
Lemma rev_rev : forall s, string_rev (string_rev s "") "" = s.
Proof. induction s as [|c s IH]; cbn; auto. rewrite (rev_acc s (String c "")), rev_app, IH. reflexivity. Qed.
Lemma chars_app : forall a b, list_ascii_of_string (a ++ b) = (list_ascii_of_string a ++ list_ascii_of_string b)%list.
Proof. induction a as [|c a IH]; cbn; intros; congruence. Qed.
Lemma chars_rev : forall s c, In c (list_ascii_of_string (string_rev s "")) <-> In c (list_ascii_of_string s).
Proof.
  induction s as [|x s IH]; cbn; intros c; [reflexivity|]. rewrite rev_acc, chars_app, in_app_iff, IH. cbn. tauto.
Qed.
Lemma drop_spec : forall p s, exists a, s = a ++ drop_front p s /\ all_chars p a
  /\ (forall c r, drop_front p s = String c r -> p c = false).
Proof.
  intros p. induction s as [|c s (a & E & A & F)].
  - exists "". repeat split; try discriminate. intros c [].
  - cbn. destruct (p c) eqn:P.
    + exists (String c a). cbn. rewrite <- E. repeat split; auto. intros x [<-|X]; auto.
    + exists "". cbn. repeat split; auto; [intros x []|]. intros x r X. injection X as <- <-. auto.
Qed.
Definition trim (p : ascii -> bool) (s : string) : string :=
  string_rev (drop_front p (string_rev (drop_front p s) "")) "".
Lemma strip_trim : forall s, strip s = trim py_space s.
Proof. intros. unfold strip, trim. rewrite !lstrip_drop. reflexivity. Qed.
Lemma strip_blanks_trim : forall s, strip_blanks s = trim (fun c => Ascii.eqb c " ") s.
Proof. intros. unfold strip_blanks, trim. rewrite !lstrip_blanks_drop. reflexivity. Qed.

Lemma trim_spec : forall p s, trimmed p s (trim p s).
Proof.
  intros p s. unfold trim. destruct (drop_spec p s) as (a & E & A & F).
  set (t := drop_front p s) in *.
  destruct (drop_spec p (string_rev t "")) as (b & E2 & B & G).
  set (u := drop_front p (string_rev t "")) in *.
  assert (T : t = string_rev u "" ++ string_rev b "").
  { rewrite <- (rev_rev t), E2, rev_app. reflexivity. }
  exists a, (string_rev b ""). split; [rewrite <- T; exact E|]. split; [exact A|]. split.
  { intros c C. apply B. apply chars_rev. exact C. }
  split.
  - intros c r W. apply (F c (r ++ string_rev b "")). rewrite T, W. reflexivity.
  - intros r c W. apply (G c (string_rev r "")). rewrite <- (rev_rev u), W, rev_app. reflexivity.
Qed.

Lemma app_inv_head : forall a b c : string, a ++ b = a ++ c -> b = c.
Proof. induction a as [|x a IH]; cbn; intros b c H; auto. injection H; auto. Qed.
(** A prefix of white space followed by a string that is empty or starts with
    something else is the longest such prefix. *)
Lemma front_unique : forall p a w a' w', a ++ w = a' ++ w' -> all_chars p a -> all_chars p a' ->
  (forall c r, w = String c r -> p c = false) -> (forall c r, w' = String c r -> p c = false) -> w = w'.
Proof.
  intros p. induction a as [|c a IH]; intros w a' w' E A A' W W'; destruct a' as [|c' a']; cbn in E.
  - exact E.
  - exfalso. specialize (W c' (a' ++ w') E). specialize (A' c' (or_introl eq_refl)). congruence.
  - exfalso. specialize (W' c (a ++ w) (eq_sym E)). specialize (A c (or_introl eq_refl)). congruence.
  - injection E as -> E. apply (IH w a' w'); auto; intros x X; [apply A|apply A']; right; exact X.
Qed.
Lemma trimmed_unique : forall p s v w, trimmed p s v -> trimmed p s w -> v = w.
Proof.
  intros p s v w (a & b & E & A & B & F & L) (a' & b' & E' & A' & B' & F' & L').
  destruct v as [|c v].
  { destruct w as [|d w]; [reflexivity|]. exfalso.
    assert (N : forall x, In x (list_ascii_of_string s) -> p x = true).
    { intros x X. rewrite E, !chars_app, !in_app_iff in X. destruct X as [X|[[]|X]]; auto. }
    assert (p d = true) as D.
    { apply N. rewrite E', !chars_app, !in_app_iff. right. left. left. reflexivity. }
    rewrite (F' d w eq_refl) in D. discriminate. }
  destruct w as [|d w].
  { exfalso.
    assert (N : forall x, In x (list_ascii_of_string s) -> p x = true).
    { intros x X. rewrite E', !chars_app, !in_app_iff in X. destruct X as [X|[[]|X]]; auto. }
    assert (p c = true) as D.
    { apply N. rewrite E, !chars_app, !in_app_iff. right. left. left. reflexivity. }
    rewrite (F c v eq_refl) in D. discriminate. }
  assert (M : String c v ++ b = String d w ++ b').
  { eapply (front_unique p a _ a'); [congruence|exact A|exact A'| |]; cbn; intros x r X; injection X as <- _;
    [eapply F|eapply F']; reflexivity. }
  assert (R : string_rev b "" ++ string_rev (String c v) "" = string_rev b' "" ++ string_rev (String d w) "").
  { rewrite <- !rev_app, M. reflexivity. }
  apply (front_unique p) in R.
  - rewrite <- (rev_rev (String c v)), R, rev_rev. reflexivity.
  - intros x X. apply B. apply chars_rev. exact X.
  - intros x X. apply B'. apply chars_rev. exact X.
  - intros x r X. apply (L (string_rev r "") x). rewrite <- (rev_rev (String c v)), X. cbn. rewrite rev_acc. reflexivity.
  - intros x r X. apply (L' (string_rev r "") x). rewrite <- (rev_rev (String d w)), X. cbn. rewrite rev_acc. reflexivity.
Qed.

(** ** Commas *)
Lemma split_nonempty : forall p s, split_on p s <> [].
Proof. intros p s. induction s as [|c s IH]; cbn; [discriminate|]. destruct (p c); [discriminate|]. destruct (split_on p s); discriminate. Qed.
Lemma split_comma_spec : forall s, comma_list s (split_comma s).
Proof.
  unfold comma_list, split_comma. intros s. split; [apply split_nonempty|].
  induction s as [|c s (IH & N)]; [split; [reflexivity|]; intros x [<-|[]]; auto|].
  cbn [split_on]. destruct (Ascii.eqb_spec c ",") as [->|D].
  - split.
    + cbn. assert (K := split_nonempty (fun c => (c =? ",")%char) s).
      destruct (split_on (fun c => (c =? ",")%char) s) eqn:Z; [contradiction|]. rewrite IH at 1. reflexivity.
    + intros x [<-|X]; [intros []|auto].
  - assert (K := split_nonempty (fun c => (c =? ",")%char) s).
    destruct (split_on (fun c => (c =? ",")%char) s) as [|w ws] eqn:Z; [contradiction|]. split.
    + rewrite IH at 1. destruct ws; reflexivity.
    + intros x [<-|X]; [|apply N; right; exact X]. cbn. intros [X|X]; [congruence|].
      apply (N w (or_introl eq_refl)). exact X.
Qed.
Lemma split_no_comma : forall x, ~ In ","%char (list_ascii_of_string x) -> split_comma x = [x].
Proof.
  unfold split_comma. induction x as [|c x IH]; cbn; intros N; auto.
  destruct (Ascii.eqb_spec c ",") as [->|D]; [exfalso; apply N; auto|]. rewrite IH; auto.
Qed.
Lemma split_app_comma : forall x s, ~ In ","%char (list_ascii_of_string x) ->
  split_comma (x ++ "," ++ s) = x :: split_comma s.
Proof.
  unfold split_comma. induction x as [|c x IH]; intros s N; [reflexivity|].
  cbn [append split_on]. destruct (Ascii.eqb_spec c ",") as [->|D]; [exfalso; apply N; left; auto|].
  specialize (IH s ltac:(intros X; apply N; right; exact X)). cbn [append] in IH |- *. rewrite IH. reflexivity.
Qed.
Lemma comma_list_unique : forall v l, comma_list v l -> split_comma v = l.
Proof.
  intros v l (N & E & C). subst v. induction l as [|x l IH]; [contradiction|].
  destruct l as [|y l].
  - cbn [String.concat]. apply split_no_comma. apply C. left; auto.
  - change (String.concat "," (x :: y :: l)) with (x ++ "," ++ String.concat "," (y :: l)).
    rewrite split_app_comma by (apply C; left; auto). f_equal. apply IH; [discriminate|]. intros z Z. apply C. right; auto.
Qed.

Lemma cast_as_bool_spelled : forall v b, cast_as_bool v = Ok b <-> spelled v b.
Proof.
  intros v b. unfold cast_as_bool, spelled. split.
  - intros H. exists (strip v). split; [rewrite strip_trim; apply trim_spec|].
    destruct (member (strip v) ["true"; "1"; "yes"; "y"; "True"]) eqn:T; [injection H as <-; apply member_In; auto|].
    destruct (member (strip v) ["false"; "0"; "no"; "n"; "False"]) eqn:F; [injection H as <-; apply member_In; auto|discriminate].
  - intros (w & T & I). rewrite strip_trim, (trimmed_unique _ _ _ _ (trim_spec py_space v) T). destruct b.
    + apply member_In in I. rewrite I. reflexivity.
    + assert (member w ["true"; "1"; "yes"; "y"; "True"] = false) as ->.
      { apply member_not. cbn in I |- *. intuition congruence. }
      apply member_In in I. rewrite I. reflexivity.
Qed.
Lemma switch_spec : forall s k d b, cast_as_bool_or_set_default (key s k) d = Ok b <-> switch s k d b.
Proof.
  intros s k d b. unfold switch, cast_as_bool_or_set_default. destruct (key s k); [apply cast_as_bool_spelled|].
  split; congruence.
Qed.
Lemma Forall2_map_l : forall A B (R : A -> B -> Prop) f, (forall x, R x (f x)) -> forall l, Forall2 R l (map f l).
Proof. intros A B R f H. induction l; cbn; constructor; auto. Qed.

Lemma cast_float_ok : forall float_of v x, cast_as_float float_of v = Ok x -> float_of v = Some x.
Proof. unfold cast_as_float. intros f v x H. destruct (f v); congruence. Qed.
Lemma cast_int_ok : forall int_of v x, cast_as_int int_of v = Ok x -> int_of v = Some x.
Proof. unfold cast_as_int. intros f v x H. destruct (f v); congruence. Qed.
Ltac tidy2 := tidy; repeat match goal with
  | H : cast_as_float _ _ = Ok _ |- _ => apply cast_float_ok in H
  | H : cast_as_int _ _ = Ok _ |- _ => apply cast_int_ok in H
  | H : cast_as_bool_or_set_default (key _ _) _ = Ok _ |- _ => apply switch_spec in H
  | H : cast_as_bool _ = Ok _ |- _ => apply cast_as_bool_spelled in H
  end.
Lemma optional_ok : forall A (R : string -> A -> Prop) cast s k o, (forall v x, cast v = Ok x -> R v x) ->
  optional cast (key s k) = Ok o -> maybe R s k o.
Proof.
  intros A R cast s k o HR H. unfold optional in H. unfold maybe. destruct (key s k) as [v|].
  - step H. injection H as <-. auto.
  - injection H as <-. exact I.
Qed.
Lemma key_refl : forall s k, maybe as_given s k (key s k).
Proof. intros s k. unfold maybe, as_given. destruct (key s k); auto. Qed.

Section Said.
Variable int_of : string -> option Z.
Variable float_of : string -> option num.
Variable path_exists : string -> bool.
Variables lc_methods ca_methods : list string.

Ltac got := eexists; split; [eassumption|]; first [reflexivity|eassumption].

Lemma said_input : forall s i, inputConfigs int_of s = Ok i -> input_said int_of s i.
Proof.
  intros s i H. unfold inputConfigs in H. repeat step H. tidy2. injection H as <-.
  repeat split; got.
Qed.
Lemma said_simulation : forall s e r, simulationConfigs int_of float_of s e = Ok r -> simulation_said int_of float_of s r.
Proof.
  intros s e r H a ->. unfold simulationConfigs in H. do 3 step H.
  destruct (String.eqb a1 "ar").
  - repeat step H. injection H as <-. cbn. tidy2.
    repeat split; try got.
    unfold lacks. destruct (key s "ar_n_sub_intervals") eqn:K; [left|right; split; congruence].
    tidy2. eexists; split; eauto.
  - repeat step H. discriminate.
Qed.
Lemma trims_map : forall p l, Forall2 (trimmed p) l (map (trim p) l).
Proof. intros. apply Forall2_map_l. intros. apply trim_spec. Qed.
Lemma said_filters : forall s survey l, filtersConfigs s survey = Ok l -> filters_said s l.
Proof.
  intros s survey l H. unfold filtersConfigs in H. repeat step H. injection H as <-. tidy2.
  eexists; split; [eassumption|]. eexists; split; [apply split_comma_spec|].
  rewrite (map_ext _ _ strip_trim). apply trims_map.
Qed.
Lemma floats_ok : forall l xs, floats float_of l = Ok xs ->
  Forall2 (fun t x => exists w, trimmed py_space t w /\ float_of w = Some x) l xs.
Proof.
  induction l as [|t l IH]; cbn; intros xs H; [injection H as <-; constructor|].
  repeat step H. injection H as <-. tidy2. constructor; auto. exists (strip t). split; [rewrite strip_trim; apply trim_spec|auto].
Qed.
Lemma repeat_map : forall A (x : A) B (l : list B), repeat x (length l) = map (fun _ => x) l.
Proof. induction l; cbn; congruence. Qed.
Lemma said_saturation : forall s fl r, saturationConfigs float_of s fl = Ok r -> saturation_said float_of s fl r.
Proof.
  intros s fl r H. unfold saturationConfigs in H. step H. unfold saturation_said.
  destruct (key s "bright_limit") as [v|].
  - step H. apply floats_ok in E0.
    assert (K : forall l, l = a0 \/ (exists x, a0 = [x] /\ l = map (fun _ => x) fl) -> r = (true, Some l) ->
      match snd r with Some l => fst r = true /\ exists raw xs, comma_list v raw
        /\ Forall2 (fun t x => exists w, trimmed py_space t w /\ float_of w = Some x) raw xs
        /\ (xs = l \/ exists x, xs = [x] /\ l = map (fun _ => x) fl) | None => False end).
    { intros l L ->. cbn. split; [reflexivity|]. exists (split_comma v), a0. split; [apply split_comma_spec|]. split; [exact E0|].
      destruct L as [->|L]; auto. }
    destruct a0 as [|x [|y q]].
    + destruct (_ =? _)%nat; [|discriminate]. injection H as <-. eapply K; eauto.
    + injection H as <-. rewrite repeat_map in *. eapply K; [|reflexivity]. right; eauto.
    + destruct (_ =? _)%nat; [|discriminate]. injection H as <-. eapply K; eauto.
  - injection H as <-. exact I.
Qed.
Lemma said_fov : forall s survey v, fovConfigs float_of path_exists s survey = Ok v -> fov_said float_of s v.
Proof.
  intros s survey v H. unfold fovConfigs in H. do 3 step H. tidy2. unfold fov_said.
  destruct (String.eqb_spec a0 "footprint") as [->|N1].
  { unfold camera_footprint in H. repeat step H. tidy2. injection H as <-. cbn.
    split; [got|]. split; [apply key_refl|]. split; [unfold maybe; rewrite E4; exact I|]. split; [discriminate|]. intros _.
    eapply optional_ok; [|exact E3]. intros; tidy2; auto. }
  destruct (String.eqb_spec a0 "visits_footprint") as [->|N2].
  { unfold camera_visits_footprint in H. repeat step H. tidy2. injection H as <-. cbn.
    split; [got|]. split; [apply key_refl|]. split; [unfold maybe; rewrite E3; reflexivity|]. split; discriminate. }
  destruct (String.eqb_spec a0 "circle") as [->|N3].
  { unfold camera_circle in H. repeat step H. tidy2. injection H as <-. cbn.
    split; [got|]. split; [apply key_refl|]. split; [apply key_refl|]. split; [intros _; split|discriminate].
    - eapply optional_ok; [|exact E2]. cbn. intros w x X. step X. step X. injection X as <-. tidy2. auto.
    - eapply optional_ok; [|exact E3]. cbn. intros w x X. step X. step X. injection X as <-. tidy2. auto. }
  injection H as <-. cbn. split; [got|]. split; [apply key_refl|]. split; [apply key_refl|]. split; intros; contradiction.
Qed.
Lemma said_fading : forall s survey f, fadingfunctionConfigs float_of s survey = Ok f -> fading_said float_of s f.
Proof.
  intros s survey f H. unfold fadingfunctionConfigs in H. step H.
  destruct (member survey ["DES"; "des"]).
  - unfold fading_DES in H. repeat step H. tidy2. injection H as <-.
    destruct a1.
    + destruct (key s "des_transient_efficency") eqn:K.
      * step E2. injection E2 as <-. tidy2. cbn. split; [got|]. left. got.
      * injection E2 as <-. cbn. split; [got|]. right. split; auto.
    + injection E2 as <-. cbn. left. got.
  - unfold fading_other in H.
    destruct (key s "fading_function_width") eqn:W, (key s "fading_function_peak_efficiency") eqn:P; try discriminate.
    + repeat step H. tidy2. injection H as <-. cbn. split; got.
    + injection H as <-. cbn. right. split; assumption.
Qed.
Lemma said_cut : forall s flag up lo r, cut float_of s flag up lo = Ok r -> cut_said float_of s lo up (snd r).
Proof.
  intros s flag up lo r H. unfold cut in H. unfold cut_said, lacks.
  destruct (key s up) eqn:U, (key s lo) eqn:L; cbn in H; try discriminate.
  - repeat step H. tidy2. injection H as <-. cbn. split; got.
  - injection H as <-. cbn. auto.
Qed.
Lemma said_linking : forall s survey l, linkingfilterConfigs int_of float_of s survey = Ok l -> linking_said int_of float_of s l.
Proof.
  intros s survey l H. unfold linkingfilterConfigs in H. repeat step H. apply said_cut in E3, E4. injection H as <-.
  unfold linking_said; cbn [l_ssp l_drop_unlinked l_distance_cut l_motion_cut].
  split; [|split; [apply switch_spec; exact E1|split; assumption]].
  intros p ->. unfold linking_ssp in E0. unfold ssp_said.
  destruct (key s "ssp_detection_efficiency") eqn:K1, (key s "ssp_number_observations") eqn:K2,
      (key s "ssp_separation_threshold") eqn:K3, (key s "ssp_maximum_time") eqn:K4, (key s "ssp_number_tracklets") eqn:K5,
      (key s "ssp_track_window") eqn:K6, (key s "ssp_night_start_utc") eqn:K7; try discriminate E0.
  destruct (String.eqb (lower survey) "des"); [discriminate|]. step E0. injection E0 as <-.
  unfold validate_ssp in E6. clear E3 E4 E5. repeat step E6. injection E6 as <-. cbn [ssp_detection_efficiency ssp_number_observations ssp_separation_threshold ssp_maximum_time ssp_number_tracklets ssp_track_window ssp_night_start_utc].
  tidy2. repeat split; got.
Qed.
Lemma has_comma : forall v, existsb (Ascii.eqb ",") (list_ascii_of_string v) = true <-> In ","%char (list_ascii_of_string v).
Proof.
  intros v. rewrite existsb_exists. split.
  - intros (x & X & E). apply Ascii.eqb_eq in E. congruence.
  - intros X. eexists; split; [exact X|]. reflexivity.
Qed.
Lemma said_output : forall s o, outputConfigs int_of s = Ok o -> output_said int_of s o.
Proof.
  intros s o H. unfold outputConfigs in H. repeat step H. tidy2. injection H as <-. unfold output_said; cbn [o_format o_columns o_position_decimals o_magnitude_decimals].
  split; [got|]. split; [|split].
  - eexists; split; [eassumption|]. destruct (existsb _ _) eqn:X.
    + injection E3 as <-. split; [apply has_comma; auto|]. eexists; split; [apply split_comma_spec|].
      rewrite (map_ext _ _ strip_blanks_trim). apply trims_map.
    + step E3. injection E3 as <-. split; auto. intros Y. apply has_comma in Y. congruence.
  - eapply optional_ok; [|exact E4]. intros; tidy2; auto.
  - eapply optional_ok; [|exact E5]. intros; tidy2; auto.
Qed.
Lemma said_model : forall s k l r, model_or_none (key s k) l = Ok r -> model_said s k r.
Proof.
  intros s k l r H. unfold model_or_none in H. unfold model_said. destruct (key s k); [|congruence].
  destruct (String.eqb s0 "none"); [congruence|]. destruct (member s0 l); congruence.
Qed.
Lemma said_expert : forall s survey cam x, expertConfigs float_of s survey cam = Ok x -> expert_said float_of s survey x.
Proof.
  intros s survey cam x H. unfold expertConfigs in H.
  step H. step H. step H. step H. step H. step H.
  assert (L0 : maybe (float_said float_of) s "snr_limit" a0).
  { eapply optional_ok; [|exact E0]. cbn. intros w y X. step X. step X. injection X as <-. tidy2. auto. }
  assert (L1 : maybe (float_said float_of) s "mag_limit" a1).
  { eapply optional_ok; [|exact E1]. cbn. intros w y X. step X. step X. injection X as <-. tidy2. auto. }
  apply switch_spec in E3, E4. unfold expert_said.
  destruct (member survey ["rubin_sim"; "RUBIN_SIM"; "LSST"; "lsst"]) eqn:L.
  { apply member_In in L. do 3 step H.
    assert (Ok {| x_snr_limit := a0; x_mag_limit := a1; x_default_snr_cut := a3; x_brute_force := a4;
                  x_randomization_on := Some a5; x_vignetting_on := Some a6; x_trailing_losses_on := Some a7 |} = Ok x) as H'.
    { clear - H. repeat match type of H with context [match ?y with _ => _ end] => destruct y; try discriminate H; try exact H end. }
    injection H' as <-. cbn [x_snr_limit x_mag_limit x_default_snr_cut x_brute_force x_randomization_on x_vignetting_on x_trailing_losses_on].
    repeat (split; [assumption|]). intros d [[_ ->]|[D _]]; [|exfalso; eapply lsst_des; eauto].
    apply switch_spec in E5, E6, E7. exists a5, a6, a7. repeat split; assumption. }
  apply member_not in L.
  destruct (member survey ["DES"; "des"]) eqn:D.
  { do 3 step H. destruct (a5 || a6 || a7) eqn:B; [discriminate|]. injection H as <-.
    cbn [x_snr_limit x_mag_limit x_default_snr_cut x_brute_force x_randomization_on x_vignetting_on x_trailing_losses_on].
    repeat (split; [assumption|]). intros d [[X _]|[_ ->]]; [contradiction|].
    apply switch_spec in E5, E6, E7. exists a5, a6, a7. repeat split; assumption. }
  apply member_not in D.
  assert (exists y, x = {| x_snr_limit := a0; x_mag_limit := a1; x_default_snr_cut := a3; x_brute_force := a4;
                  x_randomization_on := None; x_vignetting_on := y; x_trailing_losses_on := None |}) as (y & ->).
  { clear - H. destruct cam as [c|]; [|injection H as <-; eauto].
    repeat match type of H with
    | Ok _ = Ok _ => injection H as <-; eauto
    | (_ <- _ ;; _) = _ => step H
    | context [match ?y with _ => _ end] => destruct y; try discriminate H
    end. }
  cbn [x_snr_limit x_mag_limit x_default_snr_cut x_brute_force].
  repeat (split; [assumption|]). intros d [[X _]|[X _]]; contradiction.
Qed.

Lemma said_file : forall f survey c,
  read_configs int_of float_of path_exists lc_methods ca_methods f survey = Ok c -> file_said int_of float_of f survey c.
Proof.
  intros f survey c H. unfold read_configs in H.
  step H. step H. step H. step H. step H. step H. step H. step H. step H. step H. step H. step H. injection H as <-.
  unfold file_said; cbn [c_input c_simulation c_filters c_saturation c_phase_function c_fov c_fading c_linking c_output c_lightcurve c_activity c_expert].
  split; [apply said_input; auto|].
  split. { unfold section_or_empty. destruct (find_section f "SIMULATION"); eapply said_simulation; eauto. }
  split; [eapply said_filters; eauto|]. split; [apply said_saturation; auto|].
  split. { unfold phasecurvesConfigs in E3. repeat step E3. injection E3 as <-. tidy2. got. }
  split; [eapply said_fov; eauto|]. split; [eapply said_fading; eauto|]. split; [eapply said_linking; eauto|].
  split; [eapply said_output; eauto|].
  split. { unfold lightcurveConfigs in E8. step E8. eapply said_model; eauto. }
  split. { unfold activityConfigs in E9. step E9. eapply said_model; eauto. }
  eapply said_expert; eauto.
Qed.
End Said.
