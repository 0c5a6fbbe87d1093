(** Proofs about choosing columns, filter headers and faint-object culling. *)
From Coq Require Import String Ascii List Arith ZArith Bool Reals Lra Lia.
From Verif Require Import Base.Prelude Model.Csv Model.Sphere Model.Photometry Model.Colours Spec.Colours Proofs.Photometry Proofs.Magnitudes Proofs.Colours.
Import ListNotations.
Open Scope string_scope.

(** ** C29: when colours can be applied *)
Lemma forallb_mem : forall l cols, forallb (fun c => mem c cols) l = true <-> (forall x, In x l -> In x cols).
Proof.
  intros l cols. rewrite forallb_forall. split; intros H x Hx; [apply mem_In; auto|apply mem_In; auto].
Qed.
Lemma in_per_filter : forall ps obsf p f, In p ps -> In f obsf -> In (p ++ f) (per_filter ps obsf).
Proof. intros ps obsf p f Hp Hf. unfold per_filter. apply in_flat_map. exists p. split; auto. apply in_map; auto. Qed.

Lemma C29_succeeds_proof : forall function ps observing_filters main t,
  phase_parameters function = Some ps ->
  In ("H_" ++ main) (columns t) ->
  (forall r, In r (recs t) -> In (optFilter r) observing_filters /\
     (optFilter r = main \/ In (optFilter r ++ "-" ++ main) (columns t))) ->
  ((forall p, In p ps -> In p (columns t)) \/
   (forall p f, In p ps -> In f observing_filters -> In (p ++ f) (columns t))) ->
  exists t', PPApplyColourOffsets function observing_filters main t = Ok t'.
Proof.
  intros function ps obsf main t Hp HH Hr Hps. unfold PPApplyColourOffsets.
  rewrite (proj2 (mem_In _ _) HH). cbn [negb].
  set (t1 := assign "H_original" (fun r => cell r ("H_" ++ main)) t).
  set (t2 := assign (main ++ "-" ++ main) (fun _ => 0%R) t1).
  assert (Cin : forall x, In x (columns t) -> In x (columns t2)).
  { intros x Hx. subst t2 t1. rewrite !columns_assign. auto. }
  assert (Fin : forall f, In f (map optFilter (recs t2)) -> In f obsf /\ (f = main \/ In (f ++ "-" ++ main) (columns t))).
  { intros f Hf. subst t2 t1. rewrite !assign_recs, !map_map in Hf. apply in_map_iff in Hf. destruct Hf as [r [<- Hf]]. apply (Hr r Hf). }
  destruct (unique_spec (map optFilter (recs t2)) []) as [Un Uin].
  destruct (apply_filters_ok ("H_" ++ main) main (unique [] (map optFilter (recs t2))) t2) as [t3 E3].
  { intros f Hf. apply Uin in Hf. destruct Hf as [Hf _]. apply Fin in Hf. destruct Hf as [_ [->|Hf]]; [|auto].
    subst t2. apply columns_assign. auto. }
  rewrite E3. cbn [rbind].
  destruct (apply_filters_rows _ _ _ _ _ Un E3) as [C3 [R3 _]].
  assert (Fin3 : forall r, In r (recs t3) -> In (optFilter r) obsf).
  { intros r Hr3. rewrite R3 in Hr3. apply in_map_iff in Hr3. destruct Hr3 as [r0 [<- Hr3]].
    assert (E : optFilter (shifted ("H_" ++ main) main (unique [] (map optFilter (recs t2))) r0) = optFilter r0).
    { unfold shifted. destruct (mem _ _); reflexivity. }
    rewrite E. apply Fin. apply in_map; auto. }
  assert (E4 : exists t4, choose_parameters ("H_" ++ main) function obsf t3 = Ok t4).
  { unfold choose_parameters. rewrite Hp. destruct ps as [|p ps]; [eauto|].
    destruct (forallb _ (("H_" ++ main) :: p :: ps)) eqn:Ea; [eauto|].
    destruct Hps as [Hps|Hps].
    - exfalso. assert (forallb (fun c => mem c (columns t3)) (("H_" ++ main) :: p :: ps) = true); [|congruence].
      apply forallb_mem. rewrite C3. intros x [<-|Hx]; auto.
    - replace (forallb (fun c => mem c (columns t3)) (("H_" ++ main) :: per_filter (p :: ps) obsf)) with true.
      2:{ symmetry. apply forallb_mem. rewrite C3. intros x [<-|Hx]; auto. unfold per_filter in Hx. apply in_flat_map in Hx.
          destruct Hx as [q [Hq Hx]]. apply in_map_iff in Hx. destruct Hx as [f [<- Hf]]. auto. }
      replace (forallb (fun r => forallb (fun p0 => mem (p0 ++ optFilter r) (columns t3)) (p :: ps)) (recs t3)) with true; [eauto|].
      symmetry. apply forallb_forall. intros r Hr3. apply forallb_forall. intros q Hq. apply mem_In. rewrite C3. auto. }
  destruct E4 as [t4 E4]. rewrite E4. cbn [rbind]. eauto.
Qed.

(** Per-filter phase parameters are allowed by docs/inputs.rst but are not
    looked for when a single filter is observed. *)
Definition one_filter_table : obs_table :=
  {| columns := ["ObjID"; "H_r"; "GSr"]; recs := [{| optFilter := "r"; cell := fun _ => 0%R |}] |}.
Definition two_filter_table : obs_table :=
  {| columns := ["ObjID"; "H_r"; "g-r"; "GSr"; "GSg"]; recs := [{| optFilter := "r"; cell := fun _ => 0%R |}] |}.
Lemma C29_single_refuted_proof :
  (exists function ps main t, phase_parameters function = Some ps /\ In ("H_" ++ main) (columns t) /\
     (forall r, In r (recs t) -> optFilter r = main) /\
     (forall p, In p ps -> In (p ++ main) (columns t)) /\
     phase_inputs function [main] main t = Err KeyError) /\
  (forall main t, phase_inputs "none" [main] main t = Err KeyError <-> ~ In ("H_" ++ main) (columns t)).
Proof.
  split.
  - exists "HG", ["GS"], "r", one_filter_table. split; [reflexivity|]. split; [cbn; auto|]. split; [intros r [<-|[]]; reflexivity|].
    split; [intros p [<-|[]]; cbn; auto|reflexivity].
  - intros main t. unfold phase_inputs. cbn [List.length Nat.ltb Nat.leb]. destruct (mem ("H_" ++ main) (columns t)) eqn:E; cbn [rbind].
    + apply mem_In in E. split; [discriminate|tauto].
    + apply mem_false in E. tauto.
Qed.

(** ** C48 *)
Lemma substring_split : forall n s p, substring n (String.length p) s = p -> (n + String.length p <= String.length s)%nat ->
  exists a b, s = a ++ p ++ b /\ String.length a = n.
Proof.
  induction n as [|n IH]; intros s p H HL.
  - exists "". assert (G : forall p s, substring 0 (String.length p) s = p -> exists b, s = p ++ b).
    { clear. induction p as [|c p IHp]; intros s H; [exists s; reflexivity|]. destruct s as [|d s]; cbn in H; [discriminate|].
      injection H as -> H. destruct (IHp s H) as [b ->]. exists b. reflexivity. }
    destruct (G p s H) as [b ->]. exists b. split; reflexivity.
  - destruct s as [|d s].
    + cbn in HL. lia.
    + cbn [substring] in H. cbn in HL. destruct (IH s p H ltac:(lia)) as [a [b [-> E]]]. exists (String d a), b. split; [reflexivity|cbn; lia].
Qed.
Lemma substring_app : forall a p b, substring (String.length a) (String.length p) (a ++ p ++ b) = p.
Proof.
  induction a as [|c a IH]; intros p b; cbn [String.length String.append].
  - induction p as [|d p IHp]; cbn; [destruct b; reflexivity|]. f_equal. exact IHp.
  - cbn [substring]. apply IH.
Qed.
Lemma append_length : forall a b, String.length (a ++ b) = (String.length a + String.length b)%nat.
Proof. induction a as [|c a IH]; intro b; cbn; auto. Qed.
Lemma get_app : forall a c b, get (String.length a) (a ++ String c b) = Some c.
Proof. induction a as [|d a IH]; intros c b; cbn; auto. Qed.
Lemma get_split : forall n s c, get n s = Some c -> exists a b, s = a ++ String c b /\ String.length a = n.
Proof.
  induction n as [|n IH]; intros [|d s] c H; cbn in H; try discriminate.
  - injection H as ->. exists "", s. auto.
  - destruct (IH s c H) as [a [b [-> E]]]. exists (String d a), b. cbn. auto.
Qed.
Lemma app_length_inj : forall a a' b b', a ++ b = a' ++ b' -> String.length a = String.length a' -> a = a' /\ b = b'.
Proof.
  induction a as [|c a IH]; intros [|c' a'] b b' H HL; cbn in HL; try discriminate; [auto|]. cbn in H. injection H as -> H.
  destruct (IH a' b b' H ltac:(lia)) as [-> ->]. auto.
Qed.
Lemma append_assoc_s : forall a b c : string, (a ++ b) ++ c = a ++ b ++ c.
Proof. induction a as [|d a IH]; intros; cbn; [reflexivity|]. now rewrite IH. Qed.

Lemma index_first : forall header, match index 0 "H_" header with
  | None => forall a b, header <> a ++ "H_" ++ b
  | Some n => exists pre rest, first_H header pre rest /\ String.length pre = n end.
Proof.
  intro header. destruct (index 0 "H_" header) as [n|] eqn:E.
  - pose proof (index_correct1 _ _ _ _ E) as H1.
    assert (HL : (n + 2 <= String.length header)%nat).
    { clear E. revert n H1. induction header as [|c h IH]; intros n H1; [destruct n; discriminate|].
      destruct n; cbn in H1 |- *; [|specialize (IH n H1); lia]. destruct h; [discriminate|]. cbn. lia. }
    destruct (substring_split n header "H_" H1) as [a [b [-> E1]]]; [exact HL|].
    exists a, b. split; auto. split; auto. intros a' b' Hab. destruct (le_lt_dec (String.length a) (String.length a')); auto. exfalso.
    pose proof (index_correct2 _ _ _ _ E) as H2. rewrite E1 in *. apply (H2 (String.length a')); [lia|lia|]. rewrite Hab. apply (substring_app a' "H_" b').
  - intros a b ->. pose proof (index_correct3 0 (String.length a) "H_" (a ++ "H_" ++ b) E) as H3.
    apply H3; [discriminate|lia|apply (substring_app a "H_" b)].
Qed.

Lemma C48_spec_proof : forall header observing_filters filesep main offsets,
  PPGetMainFilterAndColourOffsets header observing_filters filesep = Ok (main, offsets) <->
  exists pre c post names, first_H header pre (String c post) /\ main = String c EmptyString /\
    In main observing_filters /\ header_names filesep header = Some names /\ (2 <= List.length names)%nat /\
    ((exists f, observing_filters = [f] /\ offsets = None) \/
     (exists f rest, observing_filters = f :: rest /\ rest <> [] /\
        offsets = Some (map (fun x => x ++ "-" ++ main) rest) /\
        forall x, In x rest -> In (x ++ "-" ++ main) names)).
Proof.
  intros header obsf sep main offsets. unfold PPGetMainFilterAndColourOffsets.
  pose proof (index_first header) as HI. fold (header_names sep header). split.
  - destruct (index 0 "H_" header) as [n|]; [|discriminate]. destruct HI as [pre [rest [Hf <-]]].
    destruct (get (String.length pre + 2) header) as [c|] eqn:Eg; [|discriminate].
    assert (Hr : exists post, rest = String c post).
    { destruct Hf as [-> _]. apply get_split in Eg. destruct Eg as [a [b [E EL]]].
      assert (E' : (pre ++ "H_") ++ rest = a ++ String c b) by (rewrite append_assoc_s; exact E).
      destruct (app_length_inj _ _ _ _ E') as [_ ->]; [rewrite append_length; cbn; lia|eauto]. }
    destruct Hr as [post ->].
    destruct (negb (mem (String c "") obsf)) eqn:Em; [discriminate|]. apply negb_false_iff, mem_In in Em.
    cbv zeta. fold (header_names sep header). destruct (header_names sep header) as [names|] eqn:En; [|discriminate].
    destruct (Nat.leb (List.length names) 1) eqn:El; [discriminate|]. apply Nat.leb_gt in El. intro H.
    exists pre, c, post, names. split; auto. destruct obsf as [|f [|g rest]]; [destruct Em| |].
    + apply Ok_inj in H. injection H as <- <-. split; auto. split; auto. split; auto. split; [lia|]. left. eauto.
    + destruct (forallb _ _) eqn:Ea in H; [|discriminate]. apply Ok_inj in H. injection H as <- <-.
      split; auto. split; auto. split; auto. split; [lia|]. right. exists f, (g :: rest). split; auto. split; [discriminate|]. split; auto.
      intros x Hx. rewrite forallb_mem in Ea. apply Ea. apply in_map_iff. exists x. auto.
  - intros [pre [c [post [names [Hf [-> [Hin [En [El Ho]]]]]]]]].
    destruct (index 0 "H_" header) as [n|].
    2:{ exfalso. destruct Hf as [Hf _]. eapply HI, Hf. }
    destruct HI as [pre' [rest' [Hf' <-]]].
    assert (EL : String.length pre' = String.length pre).
    { destruct Hf as [F1 F2]. destruct Hf' as [F1' F2']. apply Nat.le_antisymm; eauto. }
    rewrite EL. destruct Hf as [F1 F2].
    replace (get (String.length pre + 2) header) with (Some c).
    2:{ rewrite F1. change ("H_" ++ String c post) with ("H_" ++ (String c post)). rewrite <- append_assoc_s.
        replace (String.length pre + 2)%nat with (String.length (pre ++ "H_")) by (rewrite append_length; reflexivity).
        symmetry. apply get_app. }
    rewrite (proj2 (mem_In _ _) Hin). cbn [negb]. cbv zeta. fold (header_names sep header). rewrite En.
    replace (Nat.leb (List.length names) 1) with false by (symmetry; apply Nat.leb_gt; lia).
    destruct Ho as [[f [-> ->]]|[f [rest [-> [Hne [-> Ha]]]]]]; [reflexivity|].
    destruct rest as [|g rest]; [contradiction|].
    replace (forallb (fun x => mem x names) (map (fun x => x ++ "-" ++ String c "") (g :: rest))) with true; [reflexivity|].
    symmetry. apply forallb_mem. intros x Hx. apply in_map_iff in Hx. destruct Hx as [y [<- Hy]]. auto.
Qed.

Definition newline : string := String (ascii_of_nat 10) EmptyString.
Lemma C48_order_refuted_proof : exists header main colours observing_filters observing_filters',
  (forall f, In f observing_filters <-> In f observing_filters') /\
  PPGetMainFilterAndColourOffsets header observing_filters "csv" = Ok (main, Some colours) /\
  PPGetMainFilterAndColourOffsets header observing_filters' "csv" = Err SysExit.
Proof.
  exists ("ObjID,H_r,g-r" ++ newline), "r", ["g-r"], ["r"; "g"], ["g"; "r"].
  split; [intro f; cbn; tauto|]. split; vm_compute; reflexivity.
Qed.

(** ** C31 *)
Open Scope R_scope.

Lemma max_five_sigma_from : forall ps f m0, match fold_left (fun m p => if String.eqb (fst p) f then match m with None => Some (snd p) | Some x => Some (Rmax x (snd p)) end else m) ps m0 with
  | None => m0 = None /\ forall p, In p ps -> fst p <> f
  | Some d => (m0 = Some d \/ In (f, d) ps) /\ (forall x, m0 = Some x -> x <= d) /\ (forall x, In (f, x) ps -> x <= d) end.
Proof.
  induction ps as [|[g y] ps IH]; intros f m0; cbn [fold_left fst snd].
  - destruct m0 as [d|]; [|split; auto; intros ? []]. split; auto. split; [intros x E; injection E as ->; lra|intros ? []].
  - destruct (String.eqb_spec g f) as [->|Hne].
    + specialize (IH f (match m0 with None => Some y | Some x => Some (Rmax x y) end)).
      destruct (fold_left _ _ _) as [d|].
      * destruct IH as [I1 [I2 I3]]. destruct m0 as [x|].
        -- assert (HM : Rmax x y <= d) by (apply I2; auto). pose proof (Rmax_l x y). pose proof (Rmax_r x y). split; [|split].
           ++ destruct I1 as [E|?]; [|right; cbn; auto]. injection E as E. unfold Rmax in E. destruct (Rle_dec x y); subst; cbn; auto.
           ++ intros z E. injection E as <-. lra.
           ++ intros z [E|Hz]; [injection E as <-; lra|auto].
        -- assert (HM : y <= d) by (apply I2; auto). split; [|split].
           ++ destruct I1 as [E|?]; [injection E as ->|]; right; cbn; auto.
           ++ discriminate.
           ++ intros z [E|Hz]; [injection E as <-; lra|auto].
      * destruct IH as [I1 _]. destruct m0; discriminate.
    + specialize (IH f m0). destruct (fold_left _ _ _) as [d|].
      * destruct IH as [I1 [I2 I3]]. split; [|split]; auto.
        -- destruct I1; [auto|right; cbn; auto].
        -- intros x [E|Hx]; [injection E as E _; contradiction|auto].
      * destruct IH as [I1 I2]. split; auto. intros p [<-|Hp]; auto.
Qed.
Lemma max_five_sigma_spec : forall ps f, match max_five_sigma ps f with
  | None => forall x, ~ In (f, x) ps | Some d => deepest ps f d end.
Proof.
  intros ps f. pose proof (max_five_sigma_from ps f None) as H. unfold max_five_sigma. destruct (fold_left _ _ _) as [d|].
  - destruct H as [[?|H1] [_ H3]]; [discriminate|]. split; auto.
  - destruct H as [_ H]. intros x Hx. apply (H _ Hx). reflexivity.
Qed.

Lemma mem_id : forall x l, mem x l = false <-> ~ In x l.
Proof. apply mem_false. Qed.

Lemma same_id : forall (l : list aux) a b, NoDup (map a_id l) -> In a l -> In b l -> a_id a = a_id b -> a = b.
Proof.
  induction l as [|x l IH]; intros a b Hn Ha Hb E; [destruct Ha|]. cbn in Hn. inversion Hn as [|? ? Hx Hl]; subst.
  destruct Ha as [->|Ha], Hb as [->|Hb]; auto.
  - exfalso. apply Hx. rewrite E. apply in_map; auto.
  - exfalso. apply Hx. rewrite <- E. apply in_map; auto.
Qed.

Lemma too_faint_spec : forall main lc ca ps f o shift act d, allowance lc ca shift act -> max_five_sigma ps f = Some d ->
  (too_faint main lc ca ps f o = true <-> d + 2 < act (estimate main f o shift)).
Proof.
  intros main lc ca ps f o shift act d [Hl Hc] Hd. unfold too_faint, brightest. rewrite Hd.
  assert (EH : (if String.eqb f main then a_H o else a_H o + a_colour o f) = H_in main f o).
  { unfold H_in. destruct (String.eqb f main); ring. }
  rewrite EH. cbv zeta. set (m := H_in main f o + 5 * log10 (a_q o) + 5 * log10 (a_q o - 1)).
  assert (E1 : (match lc with None => Ok m | Some c => match lc_maxBrightness c with None => Err AttributeError | Some d => Ok (m + d) end end) = Ok (estimate main f o shift)).
  { unfold estimate. fold m. destruct lc as [c|]; [rewrite Hl; reflexivity|]. subst shift. f_equal. ring. }
  rewrite E1. cbn [rbind]. destruct ca as [c|].
  - rewrite Hc. destruct (Rlt_dec _ _); split; intro; auto; try discriminate; contradiction.
  - subst act. destruct (Rlt_dec _ _); split; intro; auto; try discriminate; contradiction.
Qed.
Lemma allowance_ok : forall lc ca shift act, allowance lc ca shift act -> classes_ok lc ca = true.
Proof.
  intros lc ca shift act [Hl Hc]. unfold classes_ok. destruct lc; [rewrite Hl|]; (destruct ca; [rewrite Hc|]; reflexivity).
Qed.

(** Exactly which objects stay. *)
Lemma C31_exact_proof : forall main observing_filters lc ca ps l shift act,
  NoDup (map a_id l) -> allowance lc ca shift act -> (forall f, In f observing_filters -> exists d, deepest ps f d) ->
  exists p, PPFaintObjectCullingFilter main observing_filters lc ca ps l = Ok (filter p l) /\
  forall o, In o l -> (p o = false <-> 2 <= a_q o /\
    forall f d, In f observing_filters -> deepest ps f d -> d + 2 < act (estimate main f o shift)).
Proof.
  intros main obsf lc ca ps l shift act Hn Ha Hd. unfold PPFaintObjectCullingFilter.
  rewrite (allowance_ok _ _ _ _ Ha). cbn [negb andb].
  assert (HD : forall f, In f obsf -> exists d, max_five_sigma ps f = Some d).
  { intros f Hf. destruct (Hd f Hf) as [d [H1 _]]. pose proof (max_five_sigma_spec ps f) as HS. destruct (max_five_sigma ps f); eauto. destruct (HS _ H1). }
  replace (forallb _ obsf) with true.
  2:{ symmetry. apply forallb_forall. intros f Hf. destruct (HD f Hf) as [d ->]. reflexivity. }
  cbn [negb]. eexists. split; [reflexivity|]. intros o Ho. cbn beta. rewrite negb_false_iff, mem_In.
  assert (Uniq : forall d d' f, deepest ps f d -> deepest ps f d' -> d = d').
  { intros d d' f [A1 A2] [B1 B2]. apply Rle_antisym; auto. }
  split.
  - intro Hi. apply in_map_iff in Hi. destruct Hi as [o' [Eo Hi]]. apply filter_In in Hi. destruct Hi as [Hi Hf].
    apply filter_In in Hi. destruct Hi as [Hi Hq]. assert (o' = o) by (eapply same_id; eauto). subst o'. split.
    + destruct (Rle_dec 2 (a_q o)); [auto|discriminate].
    + intros f d Hfi Hdf. rewrite forallb_forall in Hf. specialize (Hf f Hfi). destruct (HD f Hfi) as [d' Ed'].
      apply (too_faint_spec main lc ca ps f o shift act d' Ha Ed') in Hf.
      pose proof (max_five_sigma_spec ps f) as HS. rewrite Ed' in HS. rewrite (Uniq d d' f); auto.
  - intros [Hq Hf]. apply in_map_iff. exists o. split; auto. apply filter_In. split.
    + apply filter_In. split; auto. destruct (Rle_dec 2 (a_q o)); [auto|contradiction].
    + apply forallb_forall. intros f Hfi. destruct (HD f Hfi) as [d Ed]. apply (too_faint_spec main lc ca ps f o shift act d Ha Ed).
      apply Hf; auto. pose proof (max_five_sigma_spec ps f) as HS. rewrite Ed in HS. exact HS.
Qed.

Lemma log10_09 : -0.3 <= 5 * log10 0.9.
Proof.
  assert (H : 0.001 <= 0.9 ^ 50) by (cbn [pow]; lra).
  assert (E : forall n, log10 (0.9 ^ n) = INR n * log10 0.9).
  { intro n. unfold log10. rewrite <- Rpower_pow by lra. unfold Rpower. rewrite ln_exp. unfold Rdiv. ring. }
  assert (E3 : log10 0.001 = -3).
  { replace 0.001 with (Rpower 10 (- (3))); [rewrite log10_Rpower; lra|].
    rewrite Rpower_Ropp. replace 3 with (INR 3) by (cbn; lra). rewrite Rpower_pow by lra. cbn [pow]. field_simplify; lra. }
  pose proof (log10_le 0.001 (0.9 ^ 50) ltac:(lra) H) as HL. rewrite E, E3 in HL.
  replace (INR 50) with 50 in HL by (cbn; lra). lra.
Qed.

(** A culled object is out of reach of every visit in an observed filter. *)
Lemma C31_unobservable_proof : forall main observing_filters lc ps l l' shift,
  NoDup (map a_id l) -> allowance lc None shift (fun m => m) ->
  PPFaintObjectCullingFilter main observing_filters lc None ps l = Ok l' ->
  forall o, In o l -> ~ In o l' ->
  2 <= a_q o /\
  forall f depth sbpy function S alpha range_km sun_km red m variation,
    In f observing_filters -> In (f, depth) ps ->
    reduced_mag sbpy function S (H_in main f o) alpha = Ok red -> H_in main f o <= red ->
    apparent sbpy function S (H_in main f o) alpha range_km sun_km = Ok m ->
    shift <= variation ->
    a_q o * AU_KM <= sun_km -> sun_km - 1.1 * AU_KM <= range_km ->
    depth + 1.7 < m + variation.
Proof.
  intros main obsf lc ps l l' shift Hn Ha H o Ho Hno.
  assert (Hd : forall f, In f obsf -> exists d, deepest ps f d).
  { intros f Hf. unfold PPFaintObjectCullingFilter in H. rewrite (allowance_ok _ _ _ _ Ha) in H. cbn [negb andb] in H.
    destruct (forallb _ obsf) eqn:Ef in H; [|discriminate]. rewrite forallb_forall in Ef. specialize (Ef f Hf).
    pose proof (max_five_sigma_spec ps f) as HS. destruct (max_five_sigma ps f) as [d|]; [eauto|discriminate]. }
  destruct (C31_exact_proof main obsf lc None ps l shift _ Hn Ha Hd) as [p [E Hp]].
  rewrite E in H. apply Ok_inj in H. subst l'.
  assert (Hpo : p o = false) by (destruct (p o) eqn:Ep; auto; exfalso; apply Hno, filter_In; auto).
  apply Hp in Hpo; auto. destruct Hpo as [Hq Hfaint]. split; auto.
  intros f depth sbpy fn S alpha range sun red m v Hf Hin Hred Hge Happ Hv Hsun Hran.
  destruct (Hd f Hf) as [d Hdd]. specialize (Hfaint f d Hf Hdd). destruct Hdd as [_ Hdd]. specialize (Hdd depth Hin).
  unfold apparent in Happ. rewrite Hred in Happ. cbn [rmap rbind] in Happ. apply Ok_inj in Happ. subst m.
  unfold estimate in Hfaint.
  assert (AUp : 0 < AU_KM) by (unfold AU_KM; lra).
  assert (L1 : log10 (a_q o) <= log10 (sun / AU_KM)).
  { apply log10_le; [lra|]. apply Rmult_le_reg_r with AU_KM; [lra|]. replace (sun / AU_KM * AU_KM) with sun by (field; lra). lra. }
  assert (L2 : log10 (0.9 * (a_q o - 1)) <= log10 (range / AU_KM)).
  { apply log10_le; [lra|]. apply Rmult_le_reg_r with AU_KM; [lra|]. replace (range / AU_KM * AU_KM) with range by (field; lra). nra. }
  rewrite log10_mult in L2 by lra. pose proof log10_09. lra.
Qed.

(** An observed filter without a visit stops the run. *)
Lemma C31_absent_filter_proof : forall main observing_filters lc ca ps l f,
  classes_ok lc ca = true -> In f observing_filters -> (forall x, ~ In (f, x) ps) ->
  PPFaintObjectCullingFilter main observing_filters lc ca ps l = Err KeyError.
Proof.
  intros main obsf lc ca ps l f Hc Hf Hno. unfold PPFaintObjectCullingFilter. rewrite Hc. cbn [negb andb].
  replace (forallb _ obsf) with false; [reflexivity|]. symmetry.
  destruct (forallb _ obsf) eqn:E; auto. rewrite forallb_forall in E. specialize (E f Hf).
  pose proof (max_five_sigma_spec ps f) as HS. destruct (max_five_sigma ps f) as [d|]; [|discriminate]. destruct HS as [HS _]. destruct (Hno _ HS).
Qed.

(** ** C69: the built-in models cannot be used with culling *)
Lemma C69_culling_refuted_proof : forall main observing_filters lc ca ps l, observing_filters <> [] ->
  lc = Some IdentityLightCurve \/ ca = Some IdentityCometaryActivity ->
  PPFaintObjectCullingFilter main observing_filters lc ca ps l = Err AttributeError.
Proof.
  intros main obsf lc ca ps l Ho H. unfold PPFaintObjectCullingFilter.
  assert (E : classes_ok lc ca = false).
  { destruct H as [-> | ->]; unfold classes_ok; cbn; [reflexivity|]. apply andb_false_r. }
  rewrite E. destruct obsf; [contradiction|]. reflexivity.
Qed.
