(** Proofs about the configuration written to the log (C88). *)
From Coq Require Import ZArith QArith String Ascii List Bool Lia.
From Verif Require Import Base.Prelude Base.Num Model.Config Model.Columns Model.Footprint Model.Log Spec.Log Spec.Config Proofs.Config.
Import ListNotations.
Open Scope string_scope.

(** ** Two messages with heads that differ somewhere are different *)
Fixpoint clash (a b : string) : bool :=
  match a, b with String x a', String y b' => negb (Ascii.eqb x y) || clash a' b' | _, _ => false end.
Lemma clash_neq : forall a b s t, clash a b = true -> a ++ s <> b ++ t.
Proof.
  induction a as [|x a IH]; intros [|y b] s t H E; try discriminate. cbn in *. injection E as -> E.
  rewrite Ascii.eqb_refl in H. cbn in H. exact (IH _ _ _ H E).
Qed.
Lemma append_inv : forall h s t, h ++ s = h ++ t -> s = t.
Proof. induction h as [|c h IH]; intros s t E; [exact E|]. cbn in E. injection E as E. auto. Qed.

(** ** Statements that finish and what they log *)
Definition got (r : result (list message)) : list message := match r with Ok l => l | Err _ => [] end.
Definition runs (r : result (list message)) : Prop := r = Ok (got r).
Definition pick (h : string) (r : result (list message)) : list message := filter (fun m => String.eqb (fst m) h) (got r).

Lemma runs_note : forall s, runs (note s). Proof. reflexivity. Qed.
Lemma runs_silent : runs silent. Proof. reflexivity. Qed.
Lemma runs_info : forall s t, runs (info s (Some t)). Proof. reflexivity. Qed.
Lemma runs_block : forall ls, Forall runs ls -> runs (block ls).
Proof.
  induction 1 as [|r ls R _ IH]; [reflexivity|].
  unfold runs in *. change (block (r :: ls)) with (both r (block ls)). rewrite R, IH. reflexivity.
Qed.
Lemma block_runs : forall ls l, block ls = Ok l -> Forall runs ls /\ l = flat_map got ls.
Proof.
  induction ls as [|r ls IH]; intros l E; [injection E as <-; auto|].
  change (block (r :: ls)) with (both r (block ls)) in E. unfold both in E.
  destruct r as [x|]; [|discriminate]. cbn in E. destruct (block ls) as [y|] eqn:B; [|discriminate]. cbn in E. injection E as <-.
  destruct (IH _ eq_refl) as [F ->]. split; [constructor; [reflexivity|exact F]|reflexivity].
Qed.
Lemma pick_block : forall h ls, Forall runs ls -> pick h (block ls) = flat_map (pick h) ls.
Proof.
  intros h ls F. pose proof (runs_block _ F) as R. apply block_runs in R. destruct R as [_ R].
  unfold pick at 1. rewrite R. clear. induction ls as [|r ls IH]; [reflexivity|].
  cbn [flat_map]. etransitivity; [apply filter_app|]. f_equal. exact IH.
Qed.
Lemma pick_note_no : forall h s, String.eqb s h = false -> pick h (note s) = [].
Proof. intros h s E. unfold pick. cbn. rewrite E. reflexivity. Qed.
Lemma pick_note : forall h, pick h (note h) = [(h, "")].
Proof. intro h. unfold pick. cbn. rewrite String.eqb_refl. reflexivity. Qed.
Lemma pick_info_no : forall h s t, String.eqb s h = false -> pick h (info s t) = [].
Proof. intros h s [t|] E; unfold pick; cbn; [rewrite E|]; reflexivity. Qed.
Lemma pick_info : forall h t, pick h (info h (Some t)) = [(h, t)].
Proof. intros h t. unfold pick. cbn. rewrite String.eqb_refl. reflexivity. Qed.
Lemma pick_silent : forall h, pick h silent = []. Proof. reflexivity. Qed.
Lemma In_pick : forall h t l, In (h, t) l <-> In (h, t) (filter (fun m : message => String.eqb (fst m) h) l).
Proof. intros h t l. rewrite filter_In. cbn. rewrite String.eqb_refl. tauto. Qed.

(** ** The whole log *)
Lemma truthy_some : forall o, truthy o = true -> exists s, o = Some s.
Proof. intros [[|c s]|] H; try discriminate. eauto. Qed.
Lemma runs_truthy : forall h o r, runs r -> runs (if truthy o then info h o else r).
Proof. intros h [[|c s]|] r R; cbn; auto. reflexivity. Qed.
Lemma runs_on_off : forall b x y, runs (on_off b x y). Proof. reflexivity. Qed.

Ltac runs_tac :=
  repeat match goal with
  | |- runs (block _) => apply runs_block
  | |- Forall _ _ => constructor
  | |- runs (note _) => reflexivity
  | |- runs silent => reflexivity
  | |- runs (info _ (Some _)) => reflexivity
  | |- runs (on_off _ _ _) => reflexivity
  | |- runs (if truthy ?o then info _ ?o else _) => apply runs_truthy
  | |- runs (if ?b then _ else _) => destruct b eqn:?
  | |- runs (match ?x with _ => _ end) => destruct x eqn:?
  | H : truthy ?o = true |- runs (info _ ?o) => let E := fresh in destruct (truthy_some _ H) as [? E]; rewrite E; reflexivity
  end.

Section Log.
Variables (str_num : option num -> string) (str_int : option Z -> string) (str_nums : option (list num) -> string).
Variable str_aux : string -> string.

Lemma runs_fov : forall v a, (fov_camera_model v = "visits_footprint" -> g_visits a <> None) -> runs (log_fov str_num v a).
Proof.
  intros v a H. unfold log_fov. runs_tac.
  apply String.eqb_eq in Heqb1. specialize (H Heqb1). destruct (g_visits a); [reflexivity|congruence].
Qed.
Lemma runs_limits : forall c, runs (log_limits str_num str_nums c).
Proof. intro c. unfold log_limits. runs_tac. Qed.
Lemma runs_linking : forall l, runs (log_linking str_num str_int l).
Proof. intro l. unfold log_linking. runs_tac. Qed.
Lemma runs_auxiliary : runs (log_auxiliary str_aux).
Proof. unfold log_auxiliary. runs_tac. Qed.
Lemma runs_simulation : forall c, runs (log_simulation str_num str_int c).
Proof. intro c. unfold log_simulation. cbv zeta. runs_tac. Qed.
Lemma runs_output : forall c a, runs (log_output str_int c a).
Proof. intros c a. unfold log_output. runs_tac. Qed.

Lemma print_runs : forall c main colours a, (fov_camera_model (c_fov c) = "visits_footprint" -> g_visits a <> None) ->
  runs (PrintConfigsToLog str_num str_int str_nums str_aux c main colours a).
Proof.
  intros c main colours a H. unfold PrintConfigsToLog. cbv zeta.
  apply runs_block.
  repeat match goal with |- Forall _ (_ :: _) => constructor | |- Forall _ [] => constructor end;
  first [ apply runs_fov; exact H | apply runs_limits | apply runs_linking | apply runs_auxiliary | apply runs_simulation
        | apply runs_output | solve [runs_tac] ].
Qed.
Lemma print_fails : forall c main colours a, fov_camera_model (c_fov c) = "visits_footprint" -> g_visits a = None ->
  forall l, PrintConfigsToLog str_num str_int str_nums str_aux c main colours a <> Ok l.
Proof.
  intros c main colours a E V l P. unfold PrintConfigsToLog in P. apply block_runs in P. destruct P as [F _].
  rewrite Forall_forall in F. specialize (F (log_fov str_num (c_fov c) a)).
  assert (I : runs (log_fov str_num (c_fov c) a)) by (apply F; cbn; intuition).
  unfold log_fov in I. rewrite E, V in I. discriminate I.
Qed.
End Log.

(** ** The heads that occur *)
Definition fov_heads : list string := [
  "Footprint is modelled after the actual camera footprint.";
  "Loading camera footprint from ";
  "Loading default LSST footprint LSST_detector_corners_100123.csv";
  "Loading default DES footprint DES_ccd_corners.csv";
  "The footprint edge threshold is ";
  "Default footprint edge threshold used (10px or 2 arcseconds).";
  "Footprint is circular.";
  "The code will approximate chip gaps using filling factor: ";
  "A circular footprint will be applied with radius: ";
  "Footprint is the actual camera footprint for each observation.";
  "Camera footprint is turned OFF."].
Definition limits_heads : list string := [
  "The upper saturation limit(s) is/are: ";
  "Saturation limit is turned OFF.";
  "The lower SNR limit is: ";
  "SNR limit is turned OFF.";
  "Default SNR cut is ON. All observations with SNR < 2.0 will be removed.";
  "The magnitude limit is: ";
  "Magnitude limit is turned OFF.";
  "The detection efficiency fading function is OFF.";
  "The detection efficiency fading function is ON.";
  "The width parameter of the fading function has been set to: ";
  "The peak efficiency of the fading function has been set to: "].
Definition linking_heads : list string := [
  "Solar System Processing linking filter is turned OFF.";
  "Solar System Processing linking filter is turned ON.";
  "For SSP linking...";
  "...the fractional detection efficiency is: ";
  "...the minimum required number of observations in a tracklet is: ";
  "...the minimum required number of tracklets to form a track is: ";
  "...the maximum window of time in days of tracklets to be contained in to form a track is: ";
  "...the minimum angular separation between observations in arcseconds is: ";
  "...the maximum temporal separation between subsequent observations in a tracklet in days is: ";
  "...the time in UTC at which it is noon at the observatory location (in standard time) is ";
  "Unlinked objects will not be dropped."].
Definition auxiliary_heads : list string := [
  "The auxiliary files used for emphemris generation...";
  "...the leap second file is: ";
  "...the historical Earth orientation specification file is: ";
  "...the prediction of the Earth's future orientation file is: ";
  "...the orientation information and physical constants for other bodies file is: ";
  "...the Earth's position for ephemerides file is: ";
  "...the regularly updated specification of the Earth's orientation file is: ";
  "...the observatory position information and Minor Planet Center (MPC) observatory codes file is: ";
  "...the ephemerides for solar-system planets from JPL's Horizon system file is: ";
  "...the ephemerides for solar-system small bodies from JPL's Horizon system file is: ";
  "...the meta kernal file is : "].
Definition simulation_heads : list string := [
  "ASSIST+REBOUND Simulation is turned ON.";
  "For ASSIST+REBOUND...";
  "...the field's angular FOV is: ";
  "...the buffer around the FOV is: ";
  "...the picket interval is: ";
  "...the observatory code is: ";
  "...the healpix order is: ";
  "...the number of sub-intervals is: ";
  "ASSIST+REBOUND Simulation is turned OFF."].
Definition output_heads : list string := [
  "A lightcurve model is being applied.";
  "The lightcurve model is: ";
  "No lightcurve model is being applied.";
  "Output files will be saved in path: ";
  "Output files will be saved as format: ";
  "In the output, positions will be rounded to ";
  "In the output, positions will not be rounded";
  "In the output, magnitudes will be rounded to ";
  "In the output, magnitudes will not be rounded";
  "The output columns are set to: "].
Definition main_heads : list string := [
  "The config file used is located at ";
  "The physical parameters file used is located at ";
  "The orbits file used is located at ";
  "The ephemerides file used is located at ";
  "The output ephemerides file is located ";
  "The survey selected is: ";
  "Cometary activity set to: ";
  "No cometary activity selected.";
  "Format of ephemerides file is: ";
  "Format of auxiliary files is: ";
  "Pointing database path is: ";
  "Pointing database required query is: ";
  "The number of objects processed in a single chunk is: ";
  "The main filter in which H is defined is ";
  "The filters included in the post-processing results are ";
  "Thus, the colour indices included in the simulation are ";
  "The apparent brightness is calculated using the following phase function model: ";
  "Computation of trailing losses is switched ON.";
  "Computation of trailing losses is switched OFF.";
  "Randomization of position and magnitude around uncertainties is switched ON.";
  "Randomization of position and magnitude around uncertainties is switched OFF.";
  "Vignetting is switched ON.";
  "Vignetting is switched OFF."].
Definition all_heads : list string := (main_heads ++ fov_heads ++ limits_heads ++ linking_heads ++ auxiliary_heads ++ simulation_heads ++ output_heads)%list.
Lemma heads_clash : forallb (fun h => forallb (fun k => String.eqb h k || clash h k) all_heads) all_heads = true.
Proof. vm_compute. reflexivity. Qed.

Definition known (hs : list string) (r : result (list message)) : Prop := forall m, In m (got r) -> member (fst m) hs = true.
Lemma known_note : forall hs s, member s hs = true -> known hs (note s).
Proof. intros hs s H m [<-|[]]. exact H. Qed.
Lemma known_info : forall hs s t, member s hs = true -> known hs (info s t).
Proof. intros hs s [t|] H m; cbn; [intros [<-|[]]; exact H|intros []]. Qed.
Lemma known_silent : forall hs, known hs silent. Proof. intros hs m []. Qed.
Lemma known_on_off : forall hs b x y, member x hs = true -> member y hs = true -> known hs (on_off b x y).
Proof. intros hs [|] x y Hx Hy m [<-|[]]; auto. Qed.
Lemma known_block : forall hs ls, Forall (known hs) ls -> known hs (block ls).
Proof.
  intros hs ls F m I. destruct (block ls) as [l|] eqn:B; [|destruct I].
  apply block_runs in B. destruct B as [_ ->]. cbn [got] in I. apply in_flat_map in I. destruct I as [r [Hr I]].
  rewrite Forall_forall in F. exact (F r Hr m I).
Qed.
Lemma known_incl : forall hs ks r, incl hs ks -> known hs r -> known ks r.
Proof.
  intros hs ks r I K m Hm. specialize (K m Hm). unfold member in *. apply existsb_exists in K. apply existsb_exists.
  destruct K as [x [Hx E]]. exists x. auto.
Qed.
Lemma pick_none : forall hs h r, known hs r -> member h hs = false -> pick h r = [].
Proof.
  intros hs h r K N. unfold pick. unfold known in K. revert K. induction (got r) as [|m l IH]; intro K; [reflexivity|].
  cbn [filter]. destruct (String.eqb (fst m) h) eqn:E.
  - apply String.eqb_eq in E. specialize (K m (or_introl eq_refl)). congruence.
  - apply IH. intros x Hx. apply K. right. exact Hx.
Qed.

Ltac known_tac :=
  repeat match goal with
  | |- known _ (block _) => apply known_block
  | |- Forall _ _ => constructor
  | |- known _ (note _) => apply known_note; vm_compute; reflexivity
  | |- known _ silent => apply known_silent
  | |- known _ (info _ _) => apply known_info; vm_compute; reflexivity
  | |- known _ (on_off _ _ _) => apply known_on_off; vm_compute; reflexivity
  | |- known _ (if ?b then _ else _) => destruct b
  | |- known _ (match ?x with _ => _ end) => destruct x
  end.

Section Heads.
Variables (str_num : option num -> string) (str_int : option Z -> string) (str_nums : option (list num) -> string).
Variable str_aux : string -> string.
Lemma known_fov : forall v a, known fov_heads (log_fov str_num v a). Proof. intros. unfold log_fov. known_tac. Qed.
Lemma known_limits : forall c, known limits_heads (log_limits str_num str_nums c). Proof. intros. unfold log_limits. cbv zeta. known_tac. Qed.
Lemma known_linking : forall l, known linking_heads (log_linking str_num str_int l). Proof. intros. unfold log_linking. known_tac. Qed.
Lemma known_auxiliary : known auxiliary_heads (log_auxiliary str_aux). Proof. unfold log_auxiliary. known_tac. Qed.
Lemma known_simulation : forall c, known simulation_heads (log_simulation str_num str_int c). Proof. intros. unfold log_simulation. cbv zeta. known_tac. Qed.
Lemma known_output : forall c a, known output_heads (log_output str_int c a). Proof. intros. unfold log_output. known_tac. Qed.
Lemma known_print : forall c main colours a, known all_heads (PrintConfigsToLog str_num str_int str_nums str_aux c main colours a).
Proof.
  intros. unfold PrintConfigsToLog. cbv zeta. apply known_block.
  assert (I : forall hs, forallb (fun h => member h all_heads) hs = true -> incl hs all_heads).
  { intros hs H x Hx. rewrite forallb_forall in H. specialize (H x Hx). unfold member in H. apply existsb_exists in H.
    destruct H as [y [Hy E]]. apply String.eqb_eq in E. subst. exact Hy. }
  repeat match goal with |- Forall _ (_ :: _) => constructor | |- Forall _ [] => constructor end;
  first [ eapply known_incl; [|apply known_fov]; apply I; vm_compute; reflexivity
        | eapply known_incl; [|apply known_limits]; apply I; vm_compute; reflexivity
        | eapply known_incl; [|apply known_linking]; apply I; vm_compute; reflexivity
        | eapply known_incl; [|apply known_auxiliary]; apply I; vm_compute; reflexivity
        | eapply known_incl; [|apply known_simulation]; apply I; vm_compute; reflexivity
        | eapply known_incl; [|apply known_output]; apply I; vm_compute; reflexivity
        | solve [known_tac] ].
Qed.
End Heads.

(** A line of the log comes from the statement with its head. *)
Lemma says_In : forall l h t, (forall m, In m l -> member (fst m) all_heads = true) -> member h all_heads = true ->
  (In (h ++ t) (map (fun m : message => fst m ++ snd m) l) <-> In (h, t) l).
Proof.
  intros l h t K Hh. rewrite in_map_iff. split.
  - intros [[k s] [E I]]. cbn in E. assert (Hk := K _ I). cbn [fst] in Hk.
    assert (C := heads_clash). rewrite forallb_forall in C.
    unfold member in Hh, Hk. apply existsb_exists in Hh. apply existsb_exists in Hk.
    destruct Hh as [h' [Ih Eh]]. destruct Hk as [k' [Ik Ek]]. apply String.eqb_eq in Eh. apply String.eqb_eq in Ek. subst h' k'.
    specialize (C k Ik). rewrite forallb_forall in C. specialize (C h Ih). apply orb_true_iff in C. destruct C as [C|C].
    + apply String.eqb_eq in C. subst k. apply append_inv in E. subst s. exact I.
    + exfalso. exact (clash_neq _ _ _ _ C E).
  - intro I. exists (h, t). auto.
Qed.

(** ** What is logged with a given head *)
Lemma pick_if : forall h (b : bool) x y, pick h (if b then x else y) = if b then pick h x else pick h y.
Proof. intros h [|] x y; reflexivity. Qed.
Lemma pick_on_off : forall h b x y, pick h (on_off b x y) = if b then pick h (note x) else pick h (note y).
Proof. intros h [|] x y; reflexivity. Qed.
Lemma if_same : forall A (b : bool) (x : A), (if b then x else x) = x.
Proof. intros A [|] x; reflexivity. Qed.

Definition avoid (h : string) (r : result (list message)) : Prop := pick h r = [].
Lemma avoid_flat : forall h ls, Forall (avoid h) ls -> flat_map (pick h) ls = [].
Proof. intros h ls F. induction F as [|r ls K _ IH]; [reflexivity|]. cbn [flat_map]. rewrite K, IH. reflexivity. Qed.
Lemma avoid_block : forall h ls, Forall (avoid h) ls -> avoid h (block ls).
Proof.
  intros h ls F. unfold avoid, pick. destruct (block ls) as [l|] eqn:B; [|reflexivity].
  pose proof (block_runs _ _ B) as [R _]. pose proof (pick_block h ls R) as P. unfold pick at 1 in P. rewrite B in P.
  rewrite P. apply avoid_flat. exact F.
Qed.
Lemma avoid_on_off : forall h b x y, String.eqb x h = false -> String.eqb y h = false -> avoid h (on_off b x y).
Proof. intros h [|] x y X Y; apply pick_note_no; assumption. Qed.
Lemma only : forall h n items r, nth_error items n = Some r -> Forall (avoid h) (firstn n items) -> Forall (avoid h) (skipn (S n) items) ->
  flat_map (pick h) items = pick h r.
Proof.
  induction n as [|n IH]; intros [|x items] r N F1 F2; try discriminate.
  - injection N as ->. cbn [flat_map]. rewrite avoid_flat by exact F2. apply app_nil_r.
  - cbn [nth_error firstn] in *. inversion F1 as [|? ? A F1']; subst. cbn [flat_map]. rewrite A. apply IH; auto.
Qed.
Ltac avoid_tac :=
  repeat match goal with
  | |- avoid _ (block _) => apply avoid_block
  | |- Forall _ _ => constructor
  | |- avoid _ (note _) => apply pick_note_no; vm_compute; reflexivity
  | |- avoid _ silent => reflexivity
  | |- avoid _ (info _ _) => apply pick_info_no; vm_compute; reflexivity
  | |- avoid _ (on_off _ _ _) => apply avoid_on_off; vm_compute; reflexivity
  | |- avoid _ (if ?b then _ else _) => destruct b
  | |- avoid _ (match ?x with _ => _ end) => destruct x
  end.
Ltac at_item n := erewrite (only _ n); [|reflexivity|cbn [firstn]; avoid_tac|cbn [skipn]; avoid_tac].

Section Lines.
Variables (str_num : option num -> string) (str_int : option Z -> string) (str_nums : option (list num) -> string).
Variable str_aux : string -> string.
Variables (c : configs) (main : string) (colours : list string) (a : logged_args) (l : list message).
Hypothesis L : PrintConfigsToLog str_num str_int str_nums str_aux c main colours a = Ok l.

Lemma visits_given : fov_camera_model (c_fov c) = "visits_footprint" -> exists v, g_visits a = Some v.
Proof.
  intro E. destruct (g_visits a) as [v|] eqn:V; [eauto|]. exfalso. exact (print_fails _ _ _ _ _ _ _ _ E V _ L).
Qed.

Lemma line : forall h t, member h all_heads = true ->
  (In (h ++ t) (map (fun m : message => fst m ++ snd m) l) <->
   In (h, t) (pick h (PrintConfigsToLog str_num str_int str_nums str_aux c main colours a))).
Proof.
  intros h t H. rewrite says_In; [|intros m Hm|exact H].
  - rewrite L. unfold pick. cbn [got]. apply In_pick.
  - apply (known_print str_num str_int str_nums str_aux c main colours a). rewrite L. exact Hm.
Qed.

Definition main_items : list (result (list message)) := [
    info "The config file used is located at " (Some (g_configfile a));
    info "The physical parameters file used is located at " (Some (g_paramsinput a));
    info "The orbits file used is located at " (Some (g_orbinfile a));
    (if truthy (g_input_ephemeris a) then info "The ephemerides file used is located at " (g_input_ephemeris a) else silent);
    (if truthy (g_output_ephemeris a) then info "The output ephemerides file is located " (g_output_ephemeris a) else silent);
    info "The survey selected is: " (Some (g_survey a));
    (match c_activity c with
     | Some m => if String.eqb m "comet" then info "Cometary activity set to: " (Some m) else silent
     | None => note "No cometary activity selected." end);
    info "Format of ephemerides file is: " (Some (in_eph_format (c_input c)));
    info "Format of auxiliary files is: " (Some (in_aux_format (c_input c)));
    info "Pointing database path is: " (Some (g_pointing a));
    info "Pointing database required query is: " (Some (in_pointing_sql_query (c_input c)));
    info "The number of objects processed in a single chunk is: " (Some (str_int (Some (in_size_serial_chunk (c_input c)))));
    info "The main filter in which H is defined is " (Some main);
    info "The filters included in the post-processing results are " (Some (String.concat " " (c_filters c)));
    (match colours with
     | [] => silent
     | _ => info "Thus, the colour indices included in the simulation are " (Some (String.concat " " colours)) end);
    info "The apparent brightness is calculated using the following phase function model: " (Some (c_phase_function c));
    on_off (is_on (x_trailing_losses_on (c_expert c))) "Computation of trailing losses is switched ON." "Computation of trailing losses is switched OFF.";
    on_off (is_on (x_randomization_on (c_expert c))) "Randomization of position and magnitude around uncertainties is switched ON."
      "Randomization of position and magnitude around uncertainties is switched OFF.";
    on_off (is_on (x_vignetting_on (c_expert c))) "Vignetting is switched ON." "Vignetting is switched OFF."].
Lemma known_main : Forall (known main_heads) main_items.
Proof. unfold main_items. repeat (constructor; [solve [known_tac]|]). constructor. Qed.
Lemma flat_none : forall h ls, Forall (known main_heads) ls -> member h main_heads = false -> flat_map (pick h) ls = [].
Proof.
  intros h ls F N. induction F as [|r ls K _ IH]; [reflexivity|]. cbn [flat_map]. rewrite (pick_none _ _ _ K N), IH. reflexivity.
Qed.
Lemma parts : forall h, pick h (PrintConfigsToLog str_num str_int str_nums str_aux c main colours a) =
  (flat_map (pick h) main_items ++ pick h (log_fov str_num (c_fov c) a) ++ pick h (log_limits str_num str_nums c)
   ++ pick h (log_linking str_num str_int (c_linking c)) ++ pick h (log_auxiliary str_aux)
   ++ pick h (log_simulation str_num str_int c) ++ pick h (log_output str_int c a))%list.
Proof.
  intro h.
  assert (E : PrintConfigsToLog str_num str_int str_nums str_aux c main colours a = block (main_items ++ [log_fov str_num (c_fov c) a;
    log_limits str_num str_nums c; log_linking str_num str_int (c_linking c); log_auxiliary str_aux;
    log_simulation str_num str_int c; log_output str_int c a])) by reflexivity.
  rewrite E, pick_block.
  - rewrite flat_map_app. cbn [flat_map]. rewrite app_nil_r. reflexivity.
  - pose proof L as L'. rewrite E in L'. apply block_runs in L'. exact (proj1 L').
Qed.

Lemma no_fov : forall h, member h fov_heads = false -> pick h (log_fov str_num (c_fov c) a) = [].
Proof. intros h. apply pick_none. apply known_fov. Qed.
Lemma no_limits : forall h, member h limits_heads = false -> pick h (log_limits str_num str_nums c) = [].
Proof. intros h. apply pick_none. apply known_limits. Qed.
Lemma no_linking : forall h, member h linking_heads = false -> pick h (log_linking str_num str_int (c_linking c)) = [].
Proof. intros h. apply pick_none. apply known_linking. Qed.
Lemma no_auxiliary : forall h, member h auxiliary_heads = false -> pick h (log_auxiliary str_aux) = [].
Proof. intros h. apply pick_none. apply known_auxiliary. Qed.
Lemma no_simulation : forall h, member h simulation_heads = false -> pick h (log_simulation str_num str_int c) = [].
Proof. intros h. apply pick_none. apply known_simulation. Qed.
Lemma no_output : forall h, member h output_heads = false -> pick h (log_output str_int c a) = [].
Proof. intros h. apply pick_none. apply known_output. Qed.
Lemma no_main : forall h, member h main_heads = false -> flat_map (pick h) main_items = [].
Proof. intros h. apply flat_none. apply known_main. Qed.
Ltac sections := repeat match goal with
  | |- context [pick ?h (log_fov _ _ _)] => rewrite (no_fov h) by (vm_compute; reflexivity)
  | |- context [pick ?h (log_limits _ _ _)] => rewrite (no_limits h) by (vm_compute; reflexivity)
  | |- context [pick ?h (log_linking _ _ _)] => rewrite (no_linking h) by (vm_compute; reflexivity)
  | |- context [pick ?h (log_auxiliary _)] => rewrite (no_auxiliary h) by (vm_compute; reflexivity)
  | |- context [pick ?h (log_simulation _ _ _)] => rewrite (no_simulation h) by (vm_compute; reflexivity)
  | |- context [pick ?h (log_output _ _ _)] => rewrite (no_output h) by (vm_compute; reflexivity)
  | |- context [flat_map (pick ?h) main_items] => rewrite (no_main h) by (vm_compute; reflexivity)
  end; cbn [app]; rewrite ?app_nil_r; cbn [app].
Lemma in_note : forall h t, In (h, t) (pick h (note h)) <-> t = "".
Proof. intros h t. rewrite pick_note. cbn [In]. split; [intros [E|[]]; congruence|intros ->; auto]. Qed.
Lemma in_info : forall h t u, In (h, t) (pick h (info h (Some u))) <-> t = u.
Proof. intros h t u. rewrite pick_info. cbn [In]. split; [intros [E|[]]; congruence|intros ->; auto]. Qed.
Lemma in_avoid : forall h t r, avoid h r -> (In (h, t) (pick h r) <-> False).
Proof. intros h t r ->. reflexivity. Qed.
Ltac start := unfold says;
  match goal with
  | |- In (?h ++ ?t) _ <-> _ => rewrite (line h t) by (vm_compute; reflexivity)
  | |- In ?h (map ?f l) <-> _ => change (In h (map f l)) with (In (h ++ "") (map f l)); rewrite (line h "") by (vm_compute; reflexivity)
  end; rewrite parts; sections.
Ltac conds := repeat match goal with
  | |- context [pick _ (if ?b then _ else _)] => destruct b eqn:?
  | |- context [pick _ (match ?x with _ => _ end)] => destruct x eqn:?
  | |- context [pick _ (on_off ?b _ _)] => unfold on_off; destruct b eqn:? end.
Ltac item := first [rewrite in_avoid by (solve [avoid_tac]) | rewrite in_note | rewrite in_info].
Ltac facts := repeat match goal with
  | H : String.eqb ?x ?y = true |- _ => apply String.eqb_eq in H
  | H : String.eqb ?x ?y = false |- _ => apply String.eqb_neq in H
  | H : negb _ = true |- _ => apply negb_true_iff in H
  | H : negb _ = false |- _ => apply negb_false_iff in H
  | H : Z.eqb _ _ = true |- _ => apply Z.eqb_eq in H
  | H : Z.eqb _ _ = false |- _ => apply Z.eqb_neq in H end.
Ltac given := match goal with
  | H : truthy ?o = true |- context [pick _ (info _ ?o)] => destruct o as [[|? ?]|] eqn:?; try discriminate H
  | H : String.eqb (fov_camera_model (c_fov c)) "visits_footprint" = true |- _ =>
      let V := fresh "V" in destruct (visits_given (proj1 (String.eqb_eq _ _) H)) as [? V]; rewrite ?V
  end.
Lemma nonzero_true : forall o, nonzero o = true -> exists x, o = Some x /\ is_zero x = false.
Proof. intros [[| |q|]|] H; try discriminate H; eexists; split; try reflexivity. cbn in *. apply negb_true_iff. exact H. Qed.
Lemma nonzero_false : forall o x, nonzero o = false -> o = Some x -> is_zero x = true.
Proof. intros o [| |q|] H ->; try discriminate H. cbn in *. apply negb_false_iff. exact H. Qed.
Ltac split_values := unfold nonzero_int, is_on in *; repeat match goal with
  | H : nonzero ?o = true |- _ => let x := fresh in let E := fresh in let Z := fresh in destruct (nonzero_true _ H) as [x [E Z]]; clear H; rewrite ?E in *
  | H : nonzero ?o = false |- _ => let E := fresh in assert (E := fun x => nonzero_false o x H); clear H
  | H : match ?x with _ => _ end = _ |- _ => destruct x eqn:?; try discriminate H
  | H : truthy ?o = true |- _ => destruct o as [[|? ?]|] eqn:?; try discriminate H; clear H
  | H : truthy ?o = false |- _ => destruct o as [[|? ?]|] eqn:?; try discriminate H; clear H end.
Ltac logic := first [solve [intuition congruence] | solve [firstorder congruence]
  | split; intros; repeat match goal with H : exists _, _ |- _ => destruct H | H : _ /\ _ |- _ => destruct H | H : _ \/ _ |- _ => destruct H end;
    subst; try (exfalso; congruence); try contradiction; try (match goal with Z : forall x, _ = Some x -> is_zero x = true, E : _ = Some _ |- _ => specialize (Z _ E); congruence end); try (match goal with Z : forall x, Some _ = Some x -> is_zero x = true |- _ => specialize (Z _ eq_refl); congruence end); eauto 8 ].
Ltac values := repeat match goal with
  | H : c_simulation c = Some _ |- context [c_simulation c] => rewrite H
  | H : o_columns (c_output c) = _ |- context [o_columns (c_output c)] => rewrite H
  end; cbn [option_map].
Ltac solve_line n :=
  values; conds; try given;
  first [ item
        | rewrite pick_block by runs_tac; at_item n; conds; try given; first [item | idtac] ];
  facts; split_values; facts; logic.

Lemma inputs_0 : forall t, says l ("The config file used is located at " ++ t) <-> t = g_configfile a.
Proof.
  intros. start. unfold main_items.
  at_item 0%nat.
  solve_line 0%nat.
Qed.
Lemma inputs_1 : forall t, says l ("The physical parameters file used is located at " ++ t) <-> t = g_paramsinput a.
Proof.
  intros. start. unfold main_items.
  at_item 1%nat.
  solve_line 1%nat.
Qed.
Lemma inputs_2 : forall t, says l ("The orbits file used is located at " ++ t) <-> t = g_orbinfile a.
Proof.
  intros. start. unfold main_items.
  at_item 2%nat.
  solve_line 2%nat.
Qed.
Lemma inputs_3 : forall t, says l ("The ephemerides file used is located at " ++ t) <-> g_input_ephemeris a = Some t /\ t <> "".
Proof.
  intros. start. unfold main_items.
  at_item 3%nat.
  solve_line 3%nat.
Qed.
Lemma inputs_4 : forall t, says l ("The output ephemerides file is located " ++ t) <-> g_output_ephemeris a = Some t /\ t <> "".
Proof.
  intros. start. unfold main_items.
  at_item 4%nat.
  solve_line 4%nat.
Qed.
Lemma inputs_5 : forall t, says l ("The survey selected is: " ++ t) <-> t = g_survey a.
Proof.
  intros. start. unfold main_items.
  at_item 5%nat.
  solve_line 5%nat.
Qed.
Lemma inputs_6 : forall t, says l ("Format of ephemerides file is: " ++ t) <-> t = in_eph_format (c_input c).
Proof.
  intros. start. unfold main_items.
  at_item 7%nat.
  solve_line 7%nat.
Qed.
Lemma inputs_7 : forall t, says l ("Format of auxiliary files is: " ++ t) <-> t = in_aux_format (c_input c).
Proof.
  intros. start. unfold main_items.
  at_item 8%nat.
  solve_line 8%nat.
Qed.
Lemma inputs_8 : forall t, says l ("Pointing database path is: " ++ t) <-> t = g_pointing a.
Proof.
  intros. start. unfold main_items.
  at_item 9%nat.
  solve_line 9%nat.
Qed.
Lemma inputs_9 : forall t, says l ("Pointing database required query is: " ++ t) <-> t = in_pointing_sql_query (c_input c).
Proof.
  intros. start. unfold main_items.
  at_item 10%nat.
  solve_line 10%nat.
Qed.
Lemma inputs_10 : forall t, says l ("The number of objects processed in a single chunk is: " ++ t) <-> t = str_int (Some (in_size_serial_chunk (c_input c))).
Proof.
  intros. start. unfold main_items.
  at_item 11%nat.
  solve_line 11%nat.
Qed.
Lemma inputs_11 : forall t, says l ("The main filter in which H is defined is " ++ t) <-> t = main.
Proof.
  intros. start. unfold main_items.
  at_item 12%nat.
  solve_line 12%nat.
Qed.
Lemma inputs_12 : forall t, says l ("The filters included in the post-processing results are " ++ t) <-> t = String.concat " " (c_filters c).
Proof.
  intros. start. unfold main_items.
  at_item 13%nat.
  solve_line 13%nat.
Qed.
Lemma inputs_13 : forall t, says l ("Thus, the colour indices included in the simulation are " ++ t) <-> colours <> [] /\ t = String.concat " " colours.
Proof.
  intros. start. unfold main_items.
  at_item 14%nat.
  solve_line 14%nat.
Qed.
Lemma inputs_14 : forall t, says l ("The apparent brightness is calculated using the following phase function model: " ++ t) <-> t = c_phase_function c.
Proof.
  intros. start. unfold main_items.
  at_item 15%nat.
  solve_line 15%nat.
Qed.
Lemma inputs_15 : says l "No cometary activity selected." <-> c_activity c = None.
Proof.
  intros. start. unfold main_items.
  at_item 6%nat.
  solve_line 6%nat.
Qed.
Lemma switches_0 : says l "Computation of trailing losses is switched ON." <-> x_trailing_losses_on (c_expert c) = Some true.
Proof.
  intros. start. unfold main_items.
  at_item 16%nat.
  solve_line 16%nat.
Qed.
Lemma switches_1 : says l "Computation of trailing losses is switched OFF." <-> x_trailing_losses_on (c_expert c) <> Some true.
Proof.
  intros. start. unfold main_items.
  at_item 16%nat.
  solve_line 16%nat.
Qed.
Lemma switches_2 : says l "Randomization of position and magnitude around uncertainties is switched ON." <-> x_randomization_on (c_expert c) = Some true.
Proof.
  intros. start. unfold main_items.
  at_item 17%nat.
  solve_line 17%nat.
Qed.
Lemma switches_3 : says l "Randomization of position and magnitude around uncertainties is switched OFF." <-> x_randomization_on (c_expert c) <> Some true.
Proof.
  intros. start. unfold main_items.
  at_item 17%nat.
  solve_line 17%nat.
Qed.
Lemma switches_4 : says l "Vignetting is switched ON." <-> x_vignetting_on (c_expert c) = Some true.
Proof.
  intros. start. unfold main_items.
  at_item 18%nat.
  solve_line 18%nat.
Qed.
Lemma switches_5 : says l "Vignetting is switched OFF." <-> x_vignetting_on (c_expert c) <> Some true.
Proof.
  intros. start. unfold main_items.
  at_item 18%nat.
  solve_line 18%nat.
Qed.
Lemma camera_0 : says l "Footprint is modelled after the actual camera footprint." <-> fov_camera_model (c_fov c) = "footprint".
Proof.
  intros. start. unfold log_fov.
  solve_line 0%nat.
Qed.
Lemma camera_1 : says l "Footprint is circular." <-> fov_camera_model (c_fov c) = "circle".
Proof.
  intros. start. unfold log_fov.
  solve_line 0%nat.
Qed.
Lemma camera_2 : says l "Footprint is the actual camera footprint for each observation." <-> fov_camera_model (c_fov c) = "visits_footprint".
Proof.
  intros. start. unfold log_fov.
  solve_line 0%nat.
Qed.
Lemma camera_3 : says l "Camera footprint is turned OFF." <-> ~ In (fov_camera_model (c_fov c)) ["footprint"; "circle"; "visits_footprint"].
Proof.
  intros. start. unfold log_fov.
  solve_line 0%nat.
Qed.
Lemma camera_4 : forall t, says l ("Loading camera footprint from " ++ t) <->
       (fov_camera_model (c_fov c) = "footprint" /\ fov_footprint_path (c_fov c) = Some t /\ t <> "") \/ (fov_camera_model (c_fov c) = "visits_footprint" /\ g_visits a = Some t).
Proof.
  intros. start. unfold log_fov.
  solve_line 1%nat.
Qed.
Lemma camera_5 : forall t, says l ("The footprint edge threshold is " ++ t) <-> fov_camera_model (c_fov c) = "footprint"
       /\ exists x, fov_footprint_edge_threshold (c_fov c) = Some x /\ is_zero x = false /\ t = str_num (Some x) ++ " arcseconds".
Proof.
  intros. start. unfold log_fov.
  solve_line 2%nat.
Qed.
Lemma camera_6 : forall t, says l ("The code will approximate chip gaps using filling factor: " ++ t) <-> fov_camera_model (c_fov c) = "circle"
       /\ exists x, fov_fill_factor (c_fov c) = Some x /\ is_zero x = false /\ t = str_num (Some x).
Proof.
  intros. start. unfold log_fov.
  solve_line 1%nat.
Qed.
Lemma limits_0 : forall t, says l ("The upper saturation limit(s) is/are: " ++ t) <-> fst (c_saturation c) = true /\ t = str_nums (snd (c_saturation c)).
Proof.
  intros. start. unfold log_limits; cbv zeta; rewrite pick_block by runs_tac.
  at_item 0%nat.
  solve_line 0%nat.
Qed.
Lemma limits_1 : says l "Saturation limit is turned OFF." <-> fst (c_saturation c) = false.
Proof.
  intros. start. unfold log_limits; cbv zeta; rewrite pick_block by runs_tac.
  at_item 0%nat.
  solve_line 0%nat.
Qed.
Lemma limits_2 : forall t, says l ("The lower SNR limit is: " ++ t) <-> exists x, x_snr_limit (c_expert c) = Some x /\ t = str_num (Some x).
Proof.
  intros. start. unfold log_limits; cbv zeta; rewrite pick_block by runs_tac.
  at_item 1%nat.
  solve_line 1%nat.
Qed.
Lemma limits_3 : says l "SNR limit is turned OFF." <-> x_snr_limit (c_expert c) = None.
Proof.
  intros. start. unfold log_limits; cbv zeta; rewrite pick_block by runs_tac.
  at_item 1%nat.
  solve_line 1%nat.
Qed.
Lemma limits_4 : forall t, says l ("The magnitude limit is: " ++ t) <-> exists x, x_mag_limit (c_expert c) = Some x /\ t = str_num (Some x).
Proof.
  intros. start. unfold log_limits; cbv zeta; rewrite pick_block by runs_tac.
  at_item 3%nat.
  solve_line 3%nat.
Qed.
Lemma limits_5 : says l "Magnitude limit is turned OFF." <-> x_mag_limit (c_expert c) = None.
Proof.
  intros. start. unfold log_limits; cbv zeta; rewrite pick_block by runs_tac.
  at_item 3%nat.
  solve_line 3%nat.
Qed.
Lemma limits_6 : says l "Default SNR cut is ON. All observations with SNR < 2.0 will be removed." <-> x_default_snr_cut (c_expert c) = true.
Proof.
  intros. start. unfold log_limits; cbv zeta; rewrite pick_block by runs_tac.
  at_item 2%nat.
  solve_line 2%nat.
Qed.
Lemma limits_7 : says l "The detection efficiency fading function is OFF." <-> c_fading c = FadingOff.
Proof.
  intros. start. unfold log_limits; cbv zeta; rewrite pick_block by runs_tac.
  at_item 4%nat.
  solve_line 4%nat.
Qed.
Lemma limits_8 : says l "The detection efficiency fading function is ON." <-> c_fading c <> FadingOff.
Proof.
  intros. start. unfold log_limits; cbv zeta; rewrite pick_block by runs_tac.
  at_item 4%nat.
  solve_line 0%nat.
Qed.
Lemma limits_9 : forall w p, c_fading c = Fading w p -> forall t, says l ("The width parameter of the fading function has been set to: " ++ t) <-> t = str_num (Some w).
Proof.
  intros. start. unfold log_limits; cbv zeta; rewrite pick_block by runs_tac.
  at_item 4%nat.
  solve_line 1%nat.
Qed.
Lemma limits_10 : forall w p, c_fading c = Fading w p -> forall t, says l ("The peak efficiency of the fading function has been set to: " ++ t) <-> t = str_num (Some p).
Proof.
  intros. start. unfold log_limits; cbv zeta; rewrite pick_block by runs_tac.
  at_item 4%nat.
  solve_line 2%nat.
Qed.
Lemma linking_0 : says l "Solar System Processing linking filter is turned OFF." <-> l_ssp (c_linking c) = None.
Proof.
  intros. start. unfold log_linking.
  solve_line 0%nat.
Qed.
Lemma linking_1 : says l "Solar System Processing linking filter is turned ON." <-> l_ssp (c_linking c) <> None.
Proof.
  intros. start. unfold log_linking.
  solve_line 0%nat.
Qed.
Lemma linking_2 : forall t, says l ("...the fractional detection efficiency is: " ++ t) <-> exists p, l_ssp (c_linking c) = Some p /\ t = str_num (Some (ssp_detection_efficiency p)).
Proof.
  intros. start. unfold log_linking.
  solve_line 2%nat.
Qed.
Lemma linking_3 : forall t, says l ("...the minimum required number of observations in a tracklet is: " ++ t) <-> exists p, l_ssp (c_linking c) = Some p /\ t = str_int (Some (ssp_number_observations p)).
Proof.
  intros. start. unfold log_linking.
  solve_line 3%nat.
Qed.
Lemma linking_4 : forall t, says l ("...the minimum required number of tracklets to form a track is: " ++ t) <-> exists p, l_ssp (c_linking c) = Some p /\ t = str_int (Some (ssp_number_tracklets p)).
Proof.
  intros. start. unfold log_linking.
  solve_line 4%nat.
Qed.
Lemma linking_5 : forall t, says l ("...the maximum window of time in days of tracklets to be contained in to form a track is: " ++ t) <-> exists p, l_ssp (c_linking c) = Some p /\ t = str_int (Some (ssp_track_window p)).
Proof.
  intros. start. unfold log_linking.
  solve_line 5%nat.
Qed.
Lemma linking_6 : forall t, says l ("...the minimum angular separation between observations in arcseconds is: " ++ t) <-> exists p, l_ssp (c_linking c) = Some p /\ t = str_num (Some (ssp_separation_threshold p)).
Proof.
  intros. start. unfold log_linking.
  solve_line 6%nat.
Qed.
Lemma linking_7 : forall t, says l ("...the maximum temporal separation between subsequent observations in a tracklet in days is: " ++ t) <-> exists p, l_ssp (c_linking c) = Some p /\ t = str_num (Some (ssp_maximum_time p)).
Proof.
  intros. start. unfold log_linking.
  solve_line 7%nat.
Qed.
Lemma linking_8 : forall t, says l ("...the time in UTC at which it is noon at the observatory location (in standard time) is " ++ t) <-> exists p, l_ssp (c_linking c) = Some p /\ t = str_num (Some (ssp_night_start_utc p)).
Proof.
  intros. start. unfold log_linking.
  solve_line 8%nat.
Qed.
Lemma linking_9 : says l "Unlinked objects will not be dropped." <-> l_ssp (c_linking c) <> None /\ l_drop_unlinked (c_linking c) = false.
Proof.
  intros. start. unfold log_linking.
  solve_line 9%nat.
Qed.
Lemma auxiliary_0 : forall t, says l ("...the leap second file is: " ++ t) <-> t = str_aux "leap_seconds".
Proof.
  intros. start. unfold log_auxiliary.
  solve_line 1%nat.
Qed.
Lemma auxiliary_1 : forall t, says l ("...the historical Earth orientation specification file is: " ++ t) <-> t = str_aux "earth_historical".
Proof.
  intros. start. unfold log_auxiliary.
  solve_line 2%nat.
Qed.
Lemma auxiliary_2 : forall t, says l ("...the prediction of the Earth's future orientation file is: " ++ t) <-> t = str_aux "earth_predict".
Proof.
  intros. start. unfold log_auxiliary.
  solve_line 3%nat.
Qed.
Lemma auxiliary_3 : forall t, says l ("...the orientation information and physical constants for other bodies file is: " ++ t) <-> t = str_aux "orientation_constants".
Proof.
  intros. start. unfold log_auxiliary.
  solve_line 4%nat.
Qed.
Lemma auxiliary_4 : forall t, says l ("...the Earth's position for ephemerides file is: " ++ t) <-> t = str_aux "planet_ephemeris".
Proof.
  intros. start. unfold log_auxiliary.
  solve_line 5%nat.
Qed.
Lemma auxiliary_5 : forall t, says l ("...the regularly updated specification of the Earth's orientation file is: " ++ t) <-> t = str_aux "earth_high_precision".
Proof.
  intros. start. unfold log_auxiliary.
  solve_line 6%nat.
Qed.
Lemma auxiliary_6 : forall t, says l ("...the observatory position information and Minor Planet Center (MPC) observatory codes file is: " ++ t) <-> t = str_aux "observatory_codes" ++ " and compressed file is: " ++ str_aux "observatory_codes_compressed".
Proof.
  intros. start. unfold log_auxiliary.
  solve_line 7%nat.
Qed.
Lemma auxiliary_7 : forall t, says l ("...the ephemerides for solar-system planets from JPL's Horizon system file is: " ++ t) <-> t = str_aux "jpl_planets".
Proof.
  intros. start. unfold log_auxiliary.
  solve_line 8%nat.
Qed.
Lemma auxiliary_8 : forall t, says l ("...the ephemerides for solar-system small bodies from JPL's Horizon system file is: " ++ t) <-> t = str_aux "jpl_small_bodies".
Proof.
  intros. start. unfold log_auxiliary.
  solve_line 9%nat.
Qed.
Lemma auxiliary_9 : forall t, says l ("...the meta kernal file is : " ++ t) <-> t = str_aux "meta_kernel".
Proof.
  intros. start. unfold log_auxiliary.
  solve_line 10%nat.
Qed.
Lemma generator_0 : says l "ASSIST+REBOUND Simulation is turned ON." <-> in_ephemerides_type (c_input c) = "ar".
Proof.
  intros. start. unfold log_simulation; cbv zeta.
  solve_line 0%nat.
Qed.
Lemma generator_1 : says l "ASSIST+REBOUND Simulation is turned OFF." <-> in_ephemerides_type (c_input c) <> "ar".
Proof.
  intros. start. unfold log_simulation; cbv zeta.
  solve_line 0%nat.
Qed.
Lemma generator_2 : forall s, in_ephemerides_type (c_input c) = "ar" -> c_simulation c = Some s -> forall t, says l ("...the field's angular FOV is: " ++ t) <-> t = str_num (Some (ar_ang_fov s)).
Proof.
  intros. start. unfold log_simulation; cbv zeta.
  solve_line 2%nat.
Qed.
Lemma generator_3 : forall s, in_ephemerides_type (c_input c) = "ar" -> c_simulation c = Some s -> forall t, says l ("...the buffer around the FOV is: " ++ t) <-> t = str_num (Some (ar_fov_buffer s)).
Proof.
  intros. start. unfold log_simulation; cbv zeta.
  solve_line 3%nat.
Qed.
Lemma generator_4 : forall s, in_ephemerides_type (c_input c) = "ar" -> c_simulation c = Some s -> forall t, says l ("...the picket interval is: " ++ t) <-> t = str_int (Some (ar_picket s)).
Proof.
  intros. start. unfold log_simulation; cbv zeta.
  solve_line 4%nat.
Qed.
Lemma generator_5 : forall s, in_ephemerides_type (c_input c) = "ar" -> c_simulation c = Some s -> forall t, says l ("...the healpix order is: " ++ t) <-> t = str_int (Some (ar_healpix_order s)).
Proof.
  intros. start. unfold log_simulation; cbv zeta.
  solve_line 6%nat.
Qed.
Lemma generator_6 : forall s, in_ephemerides_type (c_input c) = "ar" -> c_simulation c = Some s -> forall t, says l ("...the number of sub-intervals is: " ++ t) <-> t = str_int (Some (ar_n_sub_intervals s)).
Proof.
  intros. start. unfold log_simulation; cbv zeta.
  solve_line 7%nat.
Qed.
Lemma generator_7 : forall s, in_ephemerides_type (c_input c) = "ar" -> c_simulation c = Some s -> forall t, says l ("...the observatory code is: " ++ t) <-> t = ar_obs_code s.
Proof.
  intros. start. unfold log_simulation; cbv zeta.
  solve_line 5%nat.
Qed.
Lemma output_0 : forall t, says l ("The lightcurve model is: " ++ t) <-> c_lightcurve c = Some t /\ t <> "".
Proof.
  intros. start. unfold log_output; rewrite pick_block by runs_tac.
  at_item 0%nat.
  solve_line 1%nat.
Qed.
Lemma output_1 : says l "No lightcurve model is being applied." <-> c_lightcurve c = None \/ c_lightcurve c = Some "".
Proof.
  intros. start. unfold log_output; rewrite pick_block by runs_tac.
  at_item 0%nat.
  solve_line 0%nat.
Qed.
Lemma output_2 : forall t, says l ("Output files will be saved in path: " ++ t) <-> t = g_outpath a ++ " with filestem " ++ g_outfilestem a.
Proof.
  intros. start. unfold log_output; rewrite pick_block by runs_tac.
  at_item 1%nat.
  solve_line 1%nat.
Qed.
Lemma output_3 : forall t, says l ("Output files will be saved as format: " ++ t) <-> t = o_format (c_output c).
Proof.
  intros. start. unfold log_output; rewrite pick_block by runs_tac.
  at_item 2%nat.
  solve_line 2%nat.
Qed.
Lemma output_4 : forall t, says l ("In the output, positions will be rounded to " ++ t) <->
       exists n, o_position_decimals (c_output c) = Some n /\ n <> 0%Z /\ t = str_int (Some n) ++ " decimal places.".
Proof.
  intros. start. unfold log_output; rewrite pick_block by runs_tac.
  at_item 3%nat.
  solve_line 3%nat.
Qed.
Lemma output_5 : says l "In the output, positions will not be rounded" <-> o_position_decimals (c_output c) = None \/ o_position_decimals (c_output c) = Some 0%Z.
Proof.
  intros. start. unfold log_output; rewrite pick_block by runs_tac.
  at_item 3%nat.
  solve_line 3%nat.
Qed.
Lemma output_6 : forall t, says l ("In the output, magnitudes will be rounded to " ++ t) <->
       exists n, o_magnitude_decimals (c_output c) = Some n /\ n <> 0%Z /\ t = str_int (Some n) ++ " decimal places.".
Proof.
  intros. start. unfold log_output; rewrite pick_block by runs_tac.
  at_item 4%nat.
  solve_line 4%nat.
Qed.
Lemma output_7 : says l "In the output, magnitudes will not be rounded" <-> o_magnitude_decimals (c_output c) = None \/ o_magnitude_decimals (c_output c) = Some 0%Z.
Proof.
  intros. start. unfold log_output; rewrite pick_block by runs_tac.
  at_item 4%nat.
  solve_line 4%nat.
Qed.
Lemma output_8 : forall k, o_columns (c_output c) = Keyword k -> forall t, says l ("The output columns are set to: " ++ t) <-> t = k.
Proof.
  intros. start. unfold log_output; rewrite pick_block by runs_tac.
  at_item 5%nat.
  solve_line 5%nat.
Qed.
Lemma output_9 : forall k, o_columns (c_output c) = Columns k -> forall t, says l ("The output columns are set to: " ++ t) <-> t = String.concat " " k.
Proof.
  intros. start. unfold log_output; rewrite pick_block by runs_tac.
  at_item 5%nat.
  solve_line 5%nat.
Qed.
Lemma line_default : says l "Default footprint edge threshold used (10px or 2 arcseconds)." <-> fov_camera_model (c_fov c) = "footprint" /\ forall x, fov_footprint_edge_threshold (c_fov c) = Some x -> is_zero x = true.
Proof.
  intros. start. unfold log_fov.
  solve_line 2%nat.
Qed.
Lemma line_radius : forall t, says l ("A circular footprint will be applied with radius: " ++ t) <-> fov_camera_model (c_fov c) = "circle" /\ (forall x, fov_fill_factor (c_fov c) = Some x -> is_zero x = true)
  /\ exists x, fov_circle_radius (c_fov c) = Some x /\ is_zero x = false /\ t = str_num (Some x).
Proof.
  intros. start. unfold log_fov.
  solve_line 1%nat.
Qed.
Lemma line_comet : forall t, says l ("Cometary activity set to: " ++ t) <-> c_activity c = Some "comet" /\ t = "comet".
Proof.
  intros. start. unfold main_items. at_item 6%nat.
  solve_line 0%nat.
Qed.
End Lines.

(** ** The theorems *)
Lemma C88_inputs_proof : forall str_num str_int str_nums str_aux c main colours a l,
  PrintConfigsToLog str_num str_int str_nums str_aux c main colours a = Ok l ->
  (forall t, says l ("The config file used is located at " ++ t) <-> t = g_configfile a)
  /\ (forall t, says l ("The physical parameters file used is located at " ++ t) <-> t = g_paramsinput a)
  /\ (forall t, says l ("The orbits file used is located at " ++ t) <-> t = g_orbinfile a)
  /\ (forall t, says l ("The ephemerides file used is located at " ++ t) <-> g_input_ephemeris a = Some t /\ t <> "")
  /\ (forall t, says l ("The output ephemerides file is located " ++ t) <-> g_output_ephemeris a = Some t /\ t <> "")
  /\ (forall t, says l ("The survey selected is: " ++ t) <-> t = g_survey a)
  /\ (forall t, says l ("Format of ephemerides file is: " ++ t) <-> t = in_eph_format (c_input c))
  /\ (forall t, says l ("Format of auxiliary files is: " ++ t) <-> t = in_aux_format (c_input c))
  /\ (forall t, says l ("Pointing database path is: " ++ t) <-> t = g_pointing a)
  /\ (forall t, says l ("Pointing database required query is: " ++ t) <-> t = in_pointing_sql_query (c_input c))
  /\ (forall t, says l ("The number of objects processed in a single chunk is: " ++ t) <-> t = str_int (Some (in_size_serial_chunk (c_input c))))
  /\ (forall t, says l ("The main filter in which H is defined is " ++ t) <-> t = main)
  /\ (forall t, says l ("The filters included in the post-processing results are " ++ t) <-> t = String.concat " " (c_filters c))
  /\ (forall t, says l ("Thus, the colour indices included in the simulation are " ++ t) <-> colours <> [] /\ t = String.concat " " colours)
  /\ (forall t, says l ("The apparent brightness is calculated using the following phase function model: " ++ t) <-> t = c_phase_function c)
  /\ (says l "No cometary activity selected." <-> c_activity c = None).
Proof.
  intros until l. intro L. repeat match goal with |- _ /\ _ => split end.
  - exact (inputs_0 _ _ _ _ _ _ _ _ _ L).
  - exact (inputs_1 _ _ _ _ _ _ _ _ _ L).
  - exact (inputs_2 _ _ _ _ _ _ _ _ _ L).
  - exact (inputs_3 _ _ _ _ _ _ _ _ _ L).
  - exact (inputs_4 _ _ _ _ _ _ _ _ _ L).
  - exact (inputs_5 _ _ _ _ _ _ _ _ _ L).
  - exact (inputs_6 _ _ _ _ _ _ _ _ _ L).
  - exact (inputs_7 _ _ _ _ _ _ _ _ _ L).
  - exact (inputs_8 _ _ _ _ _ _ _ _ _ L).
  - exact (inputs_9 _ _ _ _ _ _ _ _ _ L).
  - exact (inputs_10 _ _ _ _ _ _ _ _ _ L).
  - exact (inputs_11 _ _ _ _ _ _ _ _ _ L).
  - exact (inputs_12 _ _ _ _ _ _ _ _ _ L).
  - exact (inputs_13 _ _ _ _ _ _ _ _ _ L).
  - exact (inputs_14 _ _ _ _ _ _ _ _ _ L).
  - exact (inputs_15 _ _ _ _ _ _ _ _ _ L).
Qed.
Lemma C88_switches_proof : forall str_num str_int str_nums str_aux c main colours a l,
  PrintConfigsToLog str_num str_int str_nums str_aux c main colours a = Ok l ->
  (says l "Computation of trailing losses is switched ON." <-> x_trailing_losses_on (c_expert c) = Some true)
  /\ (says l "Computation of trailing losses is switched OFF." <-> x_trailing_losses_on (c_expert c) <> Some true)
  /\ (says l "Randomization of position and magnitude around uncertainties is switched ON." <-> x_randomization_on (c_expert c) = Some true)
  /\ (says l "Randomization of position and magnitude around uncertainties is switched OFF." <-> x_randomization_on (c_expert c) <> Some true)
  /\ (says l "Vignetting is switched ON." <-> x_vignetting_on (c_expert c) = Some true)
  /\ (says l "Vignetting is switched OFF." <-> x_vignetting_on (c_expert c) <> Some true).
Proof.
  intros until l. intro L. repeat match goal with |- _ /\ _ => split end.
  - exact (switches_0 _ _ _ _ _ _ _ _ _ L).
  - exact (switches_1 _ _ _ _ _ _ _ _ _ L).
  - exact (switches_2 _ _ _ _ _ _ _ _ _ L).
  - exact (switches_3 _ _ _ _ _ _ _ _ _ L).
  - exact (switches_4 _ _ _ _ _ _ _ _ _ L).
  - exact (switches_5 _ _ _ _ _ _ _ _ _ L).
Qed.
Lemma C88_camera_proof : forall str_num str_int str_nums str_aux c main colours a l,
  PrintConfigsToLog str_num str_int str_nums str_aux c main colours a = Ok l ->
  (says l "Footprint is modelled after the actual camera footprint." <-> fov_camera_model (c_fov c) = "footprint")
  /\ (says l "Footprint is circular." <-> fov_camera_model (c_fov c) = "circle")
  /\ (says l "Footprint is the actual camera footprint for each observation." <-> fov_camera_model (c_fov c) = "visits_footprint")
  /\ (says l "Camera footprint is turned OFF." <-> ~ In (fov_camera_model (c_fov c)) ["footprint"; "circle"; "visits_footprint"])
  /\ (forall t, says l ("Loading camera footprint from " ++ t) <->
       (fov_camera_model (c_fov c) = "footprint" /\ fov_footprint_path (c_fov c) = Some t /\ t <> "") \/ (fov_camera_model (c_fov c) = "visits_footprint" /\ g_visits a = Some t))
  /\ (forall t, says l ("The footprint edge threshold is " ++ t) <-> fov_camera_model (c_fov c) = "footprint"
       /\ exists x, fov_footprint_edge_threshold (c_fov c) = Some x /\ is_zero x = false /\ t = str_num (Some x) ++ " arcseconds")
  /\ (forall t, says l ("The code will approximate chip gaps using filling factor: " ++ t) <-> fov_camera_model (c_fov c) = "circle"
       /\ exists x, fov_fill_factor (c_fov c) = Some x /\ is_zero x = false /\ t = str_num (Some x)).
Proof.
  intros until l. intro L. repeat match goal with |- _ /\ _ => split end.
  - exact (camera_0 _ _ _ _ _ _ _ _ _ L).
  - exact (camera_1 _ _ _ _ _ _ _ _ _ L).
  - exact (camera_2 _ _ _ _ _ _ _ _ _ L).
  - exact (camera_3 _ _ _ _ _ _ _ _ _ L).
  - exact (camera_4 _ _ _ _ _ _ _ _ _ L).
  - exact (camera_5 _ _ _ _ _ _ _ _ _ L).
  - exact (camera_6 _ _ _ _ _ _ _ _ _ L).
Qed.
Lemma C88_limits_proof : forall str_num str_int str_nums str_aux c main colours a l,
  PrintConfigsToLog str_num str_int str_nums str_aux c main colours a = Ok l ->
  (forall t, says l ("The upper saturation limit(s) is/are: " ++ t) <-> fst (c_saturation c) = true /\ t = str_nums (snd (c_saturation c)))
  /\ (says l "Saturation limit is turned OFF." <-> fst (c_saturation c) = false)
  /\ (forall t, says l ("The lower SNR limit is: " ++ t) <-> exists x, x_snr_limit (c_expert c) = Some x /\ t = str_num (Some x))
  /\ (says l "SNR limit is turned OFF." <-> x_snr_limit (c_expert c) = None)
  /\ (forall t, says l ("The magnitude limit is: " ++ t) <-> exists x, x_mag_limit (c_expert c) = Some x /\ t = str_num (Some x))
  /\ (says l "Magnitude limit is turned OFF." <-> x_mag_limit (c_expert c) = None)
  /\ (says l "Default SNR cut is ON. All observations with SNR < 2.0 will be removed." <-> x_default_snr_cut (c_expert c) = true)
  /\ (says l "The detection efficiency fading function is OFF." <-> c_fading c = FadingOff)
  /\ (says l "The detection efficiency fading function is ON." <-> c_fading c <> FadingOff)
  /\ (forall w p, c_fading c = Fading w p -> forall t, says l ("The width parameter of the fading function has been set to: " ++ t) <-> t = str_num (Some w))
  /\ (forall w p, c_fading c = Fading w p -> forall t, says l ("The peak efficiency of the fading function has been set to: " ++ t) <-> t = str_num (Some p)).
Proof.
  intros until l. intro L. repeat match goal with |- _ /\ _ => split end.
  - exact (limits_0 _ _ _ _ _ _ _ _ _ L).
  - exact (limits_1 _ _ _ _ _ _ _ _ _ L).
  - exact (limits_2 _ _ _ _ _ _ _ _ _ L).
  - exact (limits_3 _ _ _ _ _ _ _ _ _ L).
  - exact (limits_4 _ _ _ _ _ _ _ _ _ L).
  - exact (limits_5 _ _ _ _ _ _ _ _ _ L).
  - exact (limits_6 _ _ _ _ _ _ _ _ _ L).
  - exact (limits_7 _ _ _ _ _ _ _ _ _ L).
  - exact (limits_8 _ _ _ _ _ _ _ _ _ L).
  - exact (limits_9 _ _ _ _ _ _ _ _ _ L).
  - exact (limits_10 _ _ _ _ _ _ _ _ _ L).
Qed.
Lemma C88_linking_proof : forall str_num str_int str_nums str_aux c main colours a l,
  PrintConfigsToLog str_num str_int str_nums str_aux c main colours a = Ok l ->
  (says l "Solar System Processing linking filter is turned OFF." <-> l_ssp (c_linking c) = None)
  /\ (says l "Solar System Processing linking filter is turned ON." <-> l_ssp (c_linking c) <> None)
  /\ (forall t, says l ("...the fractional detection efficiency is: " ++ t) <-> exists p, l_ssp (c_linking c) = Some p /\ t = str_num (Some (ssp_detection_efficiency p)))
  /\ (forall t, says l ("...the minimum required number of observations in a tracklet is: " ++ t) <-> exists p, l_ssp (c_linking c) = Some p /\ t = str_int (Some (ssp_number_observations p)))
  /\ (forall t, says l ("...the minimum required number of tracklets to form a track is: " ++ t) <-> exists p, l_ssp (c_linking c) = Some p /\ t = str_int (Some (ssp_number_tracklets p)))
  /\ (forall t, says l ("...the maximum window of time in days of tracklets to be contained in to form a track is: " ++ t) <-> exists p, l_ssp (c_linking c) = Some p /\ t = str_int (Some (ssp_track_window p)))
  /\ (forall t, says l ("...the minimum angular separation between observations in arcseconds is: " ++ t) <-> exists p, l_ssp (c_linking c) = Some p /\ t = str_num (Some (ssp_separation_threshold p)))
  /\ (forall t, says l ("...the maximum temporal separation between subsequent observations in a tracklet in days is: " ++ t) <-> exists p, l_ssp (c_linking c) = Some p /\ t = str_num (Some (ssp_maximum_time p)))
  /\ (forall t, says l ("...the time in UTC at which it is noon at the observatory location (in standard time) is " ++ t) <-> exists p, l_ssp (c_linking c) = Some p /\ t = str_num (Some (ssp_night_start_utc p)))
  /\ (says l "Unlinked objects will not be dropped." <-> l_ssp (c_linking c) <> None /\ l_drop_unlinked (c_linking c) = false).
Proof.
  intros until l. intro L. repeat match goal with |- _ /\ _ => split end.
  - exact (linking_0 _ _ _ _ _ _ _ _ _ L).
  - exact (linking_1 _ _ _ _ _ _ _ _ _ L).
  - exact (linking_2 _ _ _ _ _ _ _ _ _ L).
  - exact (linking_3 _ _ _ _ _ _ _ _ _ L).
  - exact (linking_4 _ _ _ _ _ _ _ _ _ L).
  - exact (linking_5 _ _ _ _ _ _ _ _ _ L).
  - exact (linking_6 _ _ _ _ _ _ _ _ _ L).
  - exact (linking_7 _ _ _ _ _ _ _ _ _ L).
  - exact (linking_8 _ _ _ _ _ _ _ _ _ L).
  - exact (linking_9 _ _ _ _ _ _ _ _ _ L).
Qed.
Lemma C88_auxiliary_proof : forall str_num str_int str_nums str_aux c main colours a l,
  PrintConfigsToLog str_num str_int str_nums str_aux c main colours a = Ok l ->
  (forall t, says l ("...the leap second file is: " ++ t) <-> t = str_aux "leap_seconds")
  /\ (forall t, says l ("...the historical Earth orientation specification file is: " ++ t) <-> t = str_aux "earth_historical")
  /\ (forall t, says l ("...the prediction of the Earth's future orientation file is: " ++ t) <-> t = str_aux "earth_predict")
  /\ (forall t, says l ("...the orientation information and physical constants for other bodies file is: " ++ t) <-> t = str_aux "orientation_constants")
  /\ (forall t, says l ("...the Earth's position for ephemerides file is: " ++ t) <-> t = str_aux "planet_ephemeris")
  /\ (forall t, says l ("...the regularly updated specification of the Earth's orientation file is: " ++ t) <-> t = str_aux "earth_high_precision")
  /\ (forall t, says l ("...the observatory position information and Minor Planet Center (MPC) observatory codes file is: " ++ t) <-> t = str_aux "observatory_codes" ++ " and compressed file is: " ++ str_aux "observatory_codes_compressed")
  /\ (forall t, says l ("...the ephemerides for solar-system planets from JPL's Horizon system file is: " ++ t) <-> t = str_aux "jpl_planets")
  /\ (forall t, says l ("...the ephemerides for solar-system small bodies from JPL's Horizon system file is: " ++ t) <-> t = str_aux "jpl_small_bodies")
  /\ (forall t, says l ("...the meta kernal file is : " ++ t) <-> t = str_aux "meta_kernel").
Proof.
  intros until l. intro L. repeat match goal with |- _ /\ _ => split end.
  - exact (auxiliary_0 _ _ _ _ _ _ _ _ _ L).
  - exact (auxiliary_1 _ _ _ _ _ _ _ _ _ L).
  - exact (auxiliary_2 _ _ _ _ _ _ _ _ _ L).
  - exact (auxiliary_3 _ _ _ _ _ _ _ _ _ L).
  - exact (auxiliary_4 _ _ _ _ _ _ _ _ _ L).
  - exact (auxiliary_5 _ _ _ _ _ _ _ _ _ L).
  - exact (auxiliary_6 _ _ _ _ _ _ _ _ _ L).
  - exact (auxiliary_7 _ _ _ _ _ _ _ _ _ L).
  - exact (auxiliary_8 _ _ _ _ _ _ _ _ _ L).
  - exact (auxiliary_9 _ _ _ _ _ _ _ _ _ L).
Qed.
Lemma C88_generator_proof : forall str_num str_int str_nums str_aux c main colours a l,
  PrintConfigsToLog str_num str_int str_nums str_aux c main colours a = Ok l ->
  (says l "ASSIST+REBOUND Simulation is turned ON." <-> in_ephemerides_type (c_input c) = "ar")
  /\ (says l "ASSIST+REBOUND Simulation is turned OFF." <-> in_ephemerides_type (c_input c) <> "ar")
  /\ (forall s, in_ephemerides_type (c_input c) = "ar" -> c_simulation c = Some s -> forall t, says l ("...the field's angular FOV is: " ++ t) <-> t = str_num (Some (ar_ang_fov s)))
  /\ (forall s, in_ephemerides_type (c_input c) = "ar" -> c_simulation c = Some s -> forall t, says l ("...the buffer around the FOV is: " ++ t) <-> t = str_num (Some (ar_fov_buffer s)))
  /\ (forall s, in_ephemerides_type (c_input c) = "ar" -> c_simulation c = Some s -> forall t, says l ("...the picket interval is: " ++ t) <-> t = str_int (Some (ar_picket s)))
  /\ (forall s, in_ephemerides_type (c_input c) = "ar" -> c_simulation c = Some s -> forall t, says l ("...the healpix order is: " ++ t) <-> t = str_int (Some (ar_healpix_order s)))
  /\ (forall s, in_ephemerides_type (c_input c) = "ar" -> c_simulation c = Some s -> forall t, says l ("...the number of sub-intervals is: " ++ t) <-> t = str_int (Some (ar_n_sub_intervals s)))
  /\ (forall s, in_ephemerides_type (c_input c) = "ar" -> c_simulation c = Some s -> forall t, says l ("...the observatory code is: " ++ t) <-> t = ar_obs_code s).
Proof.
  intros until l. intro L. repeat match goal with |- _ /\ _ => split end.
  - exact (generator_0 _ _ _ _ _ _ _ _ _ L).
  - exact (generator_1 _ _ _ _ _ _ _ _ _ L).
  - exact (generator_2 _ _ _ _ _ _ _ _ _ L).
  - exact (generator_3 _ _ _ _ _ _ _ _ _ L).
  - exact (generator_4 _ _ _ _ _ _ _ _ _ L).
  - exact (generator_5 _ _ _ _ _ _ _ _ _ L).
  - exact (generator_6 _ _ _ _ _ _ _ _ _ L).
  - exact (generator_7 _ _ _ _ _ _ _ _ _ L).
Qed.
Lemma C88_output_proof : forall str_num str_int str_nums str_aux c main colours a l,
  PrintConfigsToLog str_num str_int str_nums str_aux c main colours a = Ok l ->
  (forall t, says l ("The lightcurve model is: " ++ t) <-> c_lightcurve c = Some t /\ t <> "")
  /\ (says l "No lightcurve model is being applied." <-> c_lightcurve c = None \/ c_lightcurve c = Some "")
  /\ (forall t, says l ("Output files will be saved in path: " ++ t) <-> t = g_outpath a ++ " with filestem " ++ g_outfilestem a)
  /\ (forall t, says l ("Output files will be saved as format: " ++ t) <-> t = o_format (c_output c))
  /\ (forall t, says l ("In the output, positions will be rounded to " ++ t) <->
       exists n, o_position_decimals (c_output c) = Some n /\ n <> 0%Z /\ t = str_int (Some n) ++ " decimal places.")
  /\ (says l "In the output, positions will not be rounded" <-> o_position_decimals (c_output c) = None \/ o_position_decimals (c_output c) = Some 0%Z)
  /\ (forall t, says l ("In the output, magnitudes will be rounded to " ++ t) <->
       exists n, o_magnitude_decimals (c_output c) = Some n /\ n <> 0%Z /\ t = str_int (Some n) ++ " decimal places.")
  /\ (says l "In the output, magnitudes will not be rounded" <-> o_magnitude_decimals (c_output c) = None \/ o_magnitude_decimals (c_output c) = Some 0%Z)
  /\ (forall k, o_columns (c_output c) = Keyword k -> forall t, says l ("The output columns are set to: " ++ t) <-> t = k)
  /\ (forall k, o_columns (c_output c) = Columns k -> forall t, says l ("The output columns are set to: " ++ t) <-> t = String.concat " " k).
Proof.
  intros until l. intro L. repeat match goal with |- _ /\ _ => split end.
  - exact (output_0 _ _ _ _ _ _ _ _ _ L).
  - exact (output_1 _ _ _ _ _ _ _ _ _ L).
  - exact (output_2 _ _ _ _ _ _ _ _ _ L).
  - exact (output_3 _ _ _ _ _ _ _ _ _ L).
  - exact (output_4 _ _ _ _ _ _ _ _ _ L).
  - exact (output_5 _ _ _ _ _ _ _ _ _ L).
  - exact (output_6 _ _ _ _ _ _ _ _ _ L).
  - exact (output_7 _ _ _ _ _ _ _ _ _ L).
  - exact (output_8 _ _ _ _ _ _ _ _ _ L).
  - exact (output_9 _ _ _ _ _ _ _ _ _ L).
Qed.

Lemma C88_finishes_proof : forall int_of float_of path_exists lc_methods ca_methods f args c,
  startup int_of float_of path_exists lc_methods ca_methods f args = Ok c ->
  forall str_num str_int str_nums str_aux main colours a, g_visits a = arg_visits args ->
  exists l, PrintConfigsToLog str_num str_int str_nums str_aux c main colours a = Ok l.
Proof.
  intros int_of float_of path_exists lc_methods ca_methods f args c S str_num str_int str_nums str_aux main colours a V.
  destruct (C46_startup_proof _ _ _ _ _ _ _ _ S) as [(_ & _ & _ & _ & _ & _ & (_ & _ & F & _) & _) (_ & _ & Q & _)].
  eexists. apply print_runs. intro E. destruct (F E) as (_ & [q Hq] & _). rewrite V. apply Q. congruence.
Qed.

(** The log speaks of a margin where the camera filter has none. *)
Lemma C88_threshold_refuted_proof : forall str_num str_int str_nums str_aux c main colours a l,
  PrintConfigsToLog str_num str_int str_nums str_aux c main colours a = Ok l ->
  fov_camera_model (c_fov c) = "footprint" -> fov_footprint_edge_threshold (c_fov c) = None ->
  says l "Default footprint edge threshold used (10px or 2 arcseconds)."
  /\ forall eps d p, on_detector eps None d p = on_area eps d p.
Proof.
  intros until l. intros L M E. split.
  - apply (line_default _ _ _ _ _ _ _ _ _ L). split; [exact M|]. intros x Hx. congruence.
  - intros. unfold on_detector, off_edges. apply andb_true_r.
Qed.
(** An activity model is logged only if it is called "comet". *)
Lemma C88_activity_refuted_proof : forall str_num str_int str_nums str_aux c main colours a l m,
  PrintConfigsToLog str_num str_int str_nums str_aux c main colours a = Ok l -> c_activity c = Some m -> m <> "comet" ->
  ~ says l "No cometary activity selected." /\ forall t, ~ says l ("Cometary activity set to: " ++ t).
Proof.
  intros until m. intros L E N. split.
  - intro H. apply (proj1 (inputs_15 _ _ _ _ _ _ _ _ _ L)) in H. congruence.
  - intros t H. apply (proj1 (line_comet _ _ _ _ _ _ _ _ _ L t)) in H. destruct H. congruence.
Qed.
(** With a fill factor the radius, which is applied too, is not logged. *)
Lemma C88_radius_refuted_proof : forall str_num str_int str_nums str_aux c main colours a l x,
  PrintConfigsToLog str_num str_int str_nums str_aux c main colours a = Ok l ->
  fov_fill_factor (c_fov c) = Some x -> is_zero x = false ->
  forall t, ~ says l ("A circular footprint will be applied with radius: " ++ t).
Proof.
  intros until x. intros L E Z t H. apply (proj1 (line_radius _ _ _ _ _ _ _ _ _ L t)) in H. destruct H as (_ & H & _). specialize (H _ E). congruence.
Qed.
(** The cuts of the Dark Energy Survey and the limit of its fading function leave no trace in the log. *)
Lemma C88_des_refuted_proof : forall str_num str_int str_nums str_aux c main colours a e e' disc dist dist_cut mot mot_cut,
  c_fading c = FadingDES e -> 
  PrintConfigsToLog str_num str_int str_nums str_aux
    {| c_input := c_input c; c_simulation := c_simulation c; c_filters := c_filters c; c_saturation := c_saturation c;
       c_phase_function := c_phase_function c; c_fov := c_fov c; c_fading := FadingDES e';
       c_linking := {| l_ssp := l_ssp (c_linking c); l_drop_unlinked := l_drop_unlinked (c_linking c); l_des_discovery_on := disc;
                       l_distance_cut_on := dist; l_distance_cut := dist_cut; l_motion_cut_on := mot; l_motion_cut := mot_cut |};
       c_output := c_output c; c_lightcurve := c_lightcurve c; c_activity := c_activity c; c_expert := c_expert c |} main colours a
  = PrintConfigsToLog str_num str_int str_nums str_aux c main colours a.
Proof. intros. unfold PrintConfigsToLog, log_limits. cbn [c_fading c_linking c_input c_fov c_expert]. rewrite H. reflexivity. Qed.
