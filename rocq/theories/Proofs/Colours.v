(** Proofs about colours and culling. *)
From Coq Require Import String Ascii List ZArith Bool Reals Lra Lia.
From Verif Require Import Base.Prelude Model.Csv Model.Sphere Model.Photometry Model.Colours Proofs.Photometry Proofs.Magnitudes.
Import ListNotations.
Open Scope string_scope.

Lemma mem_In : forall x l, mem x l = true <-> In x l.
Proof.
  intros x l. unfold mem. rewrite existsb_exists. split.
  - intros [y [Hy E]]. apply String.eqb_eq in E. subst. auto.
  - intro H. exists x. split; auto. apply String.eqb_refl.
Qed.
Lemma mem_false : forall x l, mem x l = false <-> ~ In x l.
Proof. intros x l. rewrite <- mem_In. destruct (mem x l); split; intro; auto; try discriminate. exfalso. auto. Qed.

(** ** Unique filters *)
Lemma unique_spec : forall l seen, NoDup (unique seen l) /\ (forall x, In x (unique seen l) <-> In x l /\ ~ In x seen).
Proof.
  induction l as [|y l IH]; intro seen; cbn [unique].
  - split; [constructor|]. intro x. cbn. tauto.
  - destruct (mem y seen) eqn:E.
    + apply mem_In in E. destruct (IH seen) as [H1 H2]. split; auto. intro x. rewrite H2. cbn. split; [tauto|].
      intros [[->|?] ?]; tauto.
    + apply mem_false in E. destruct (IH (y :: seen)) as [H1 H2]. split.
      * constructor; auto. rewrite H2. cbn. tauto.
      * intro x. cbn [In]. rewrite H2. cbn. split.
        -- intros [->|[? ?]]; tauto.
        -- intros [[->|?] ?]; auto. destruct (string_dec y x); [auto|right; tauto].
Qed.

(** ** C29 *)
Section Loop.
Variables (H_col main : string).
Definition shifted (fs : list string) (r : obs) : obs :=
  if mem (optFilter r) fs then set_cell H_col (cell r H_col + cell r (optFilter r ++ "-" ++ main))%R r else r.
Lemma apply_filters_rows : forall fs t t', NoDup fs -> apply_filters H_col main fs t = Ok t' ->
  columns t' = columns t /\ recs t' = map (shifted fs) (recs t) /\
  (forall f, In f fs -> In (f ++ "-" ++ main) (columns t)).
Proof.
  induction fs as [|f fs IH]; intros t t' Hn H; cbn [apply_filters] in H.
  - injection H as <-. split; auto. split; [|intros ? []]. symmetry. apply map_id.
  - destruct (mem _ _) eqn:E; [|discriminate]. inversion Hn as [|? ? Hf Hfs]; subst. apply IH in H; auto. cbn [columns recs] in H.
    destruct H as [H1 [H2 H3]]. split; auto. split.
    + rewrite H2, map_map. apply map_ext. intro r. unfold shifted at 2. cbn [mem existsb].
      destruct (String.eqb_spec (optFilter r) f) as [<-|Hne]; cbn [orb].
      * unfold shifted. cbn [set_cell optFilter]. destruct (mem (optFilter r) fs) eqn:E2; auto. exfalso. apply Hf, mem_In; auto.
      * reflexivity.
    + intros g [<-|Hg]; [apply mem_In; auto|apply H3; auto].
Qed.
Lemma apply_filters_ok : forall fs t, (forall f, In f fs -> In (f ++ "-" ++ main) (columns t)) ->
  exists t', apply_filters H_col main fs t = Ok t'.
Proof.
  induction fs as [|f fs IH]; intros t H; cbn [apply_filters]; [eauto|].
  rewrite (proj2 (mem_In _ _) (H f (or_introl eq_refl))). apply IH. intros g Hg. apply H. right; auto.
Qed.
End Loop.

Lemma columns_assign : forall c f t x, In x (columns (assign c f t)) <-> In x (columns t) \/ x = c.
Proof.
  intros c f t x. unfold assign. cbn [columns]. destruct (mem c (columns t)) eqn:E.
  - apply mem_In in E. split; [auto|]. intros [?| ->]; auto.
  - rewrite in_app_iff. cbn. split; intros [?|?]; try tauto; auto. destruct H; [subst; auto|tauto].
Qed.

Lemma one_char : forall s, String.length s = 1%nat -> exists c, s = String c EmptyString.
Proof. intros [|c [|d s]] H; try discriminate. eauto. Qed.

Definition own_offset (main : string) (r : obs) : R :=
  if String.eqb (optFilter r) main then 0%R else cell r (optFilter r ++ "-" ++ main).

Lemma phase_params_cases : forall f ps, phase_parameters f = Some ps ->
  ps = ["G1"; "G2"] \/ ps = ["GS"] \/ ps = ["G12"] \/ ps = ["S"] \/ ps = [].
Proof.
  intros f ps. unfold phase_parameters. repeat (destruct (String.eqb f _); [intro H; injection H as <-; tauto|]). discriminate.
Qed.

Lemma set_cell_other : forall c v r k, k <> c -> cell (set_cell c v r) k = cell r k.
Proof. intros. unfold set_cell; cbn [cell]. apply String.eqb_neq in H. rewrite H. reflexivity. Qed.
Lemma set_cell_same : forall c v r, cell (set_cell c v r) c = v.
Proof. intros. unfold set_cell; cbn [cell]. rewrite String.eqb_refl. reflexivity. Qed.

(** Rows after the loop. *)
Definition after_loop (main : string) (r : obs) : obs :=
  let r1 := set_cell "H_original" (cell r ("H_" ++ main)) r in
  let r2 := set_cell (main ++ "-" ++ main) 0%R r1 in
  set_cell ("H_" ++ main) (cell r2 ("H_" ++ main) + cell r2 (optFilter r2 ++ "-" ++ main))%R r2.

Lemma after_loop_cells : forall m r, String.length m = 1%nat -> String.length (optFilter r) = 1%nat ->
  optFilter (after_loop m r) = optFilter r /\
  cell (after_loop m r) ("H_" ++ m) = (cell r ("H_" ++ m) + own_offset m r)%R /\
  cell (after_loop m r) "H_original" = cell r ("H_" ++ m) /\
  (forall c, c <> "H_" ++ m -> c <> "H_original" -> c <> m ++ "-" ++ m -> cell (after_loop m r) c = cell r c).
Proof.
  intros m r Hm Hf. destruct (one_char m Hm) as [c ->]. destruct (one_char (optFilter r) Hf) as [d Ed].
  assert (A1 : "H_" ++ String c "" <> String c "" ++ "-" ++ String c "") by (intro E; inversion E).
  assert (A2 : "H_" ++ String c "" <> "H_original") by (intro E; inversion E).
  assert (A3 : forall x, x <> "H_original" -> x <> String c "" ++ "-" ++ String c "" ->
     cell (set_cell (String c "" ++ "-" ++ String c "") 0%R (set_cell "H_original" (cell r ("H_" ++ String c "")) r)) x = cell r x)
    by (intros; rewrite !set_cell_other; auto).
  unfold after_loop. cbv zeta. split; [reflexivity|]. split; [|split].
  - rewrite set_cell_same, A3 by auto. f_equal. cbn [set_cell optFilter]. unfold own_offset. rewrite Ed.
    destruct (String.eqb_spec (String d "") (String c "")) as [E|E].
    + rewrite E. apply set_cell_same.
    + rewrite A3; [reflexivity|intro E'; inversion E'|intro E'; injection E' as ->; auto].
  - rewrite set_cell_other by auto. rewrite set_cell_other by (intro E; inversion E). apply set_cell_same.
  - intros k H1 H2 H3. rewrite set_cell_other, A3 by auto. reflexivity.
Qed.

(** Assigning the parameters one after the other. *)
Lemma fold_assign : forall ps t, NoDup ps ->
  (forall p q r, In p ps -> In q ps -> In r (recs t) -> q <> p ++ optFilter r) ->
  let t' := fold_left (fun u p => assign p (fun r => cell r (p ++ optFilter r)) u) ps t in
  (forall x, In x (columns t') <-> In x (columns t) \/ In x ps) /\
  Forall2 (fun r r' => optFilter r' = optFilter r /\ (forall k, ~ In k ps -> cell r' k = cell r k) /\
     (forall p, In p ps -> cell r' p = cell r (p ++ optFilter r))) (recs t) (recs t').
Proof.
  induction ps as [|p ps IH]; intros t Hn Hd; cbn [fold_left].
  - split; [intro; cbn; tauto|]. clear Hd. induction (recs t) as [|r l IHl]; constructor; auto.
    split; auto. split; auto. intros ? [].
  - inversion Hn as [|? ? Hp Hps]; subst.
    specialize (IH (assign p (fun r => cell r (p ++ optFilter r)) t) Hps).
    assert (Hd' : forall p0 q r, In p0 ps -> In q ps -> In r (recs (assign p (fun r => cell r (p ++ optFilter r)) t)) -> q <> p0 ++ optFilter r).
    { intros p0 q r H1 H2 H3. cbn [assign recs] in H3. apply in_map_iff in H3. destruct H3 as [r0 [<- H3]]. cbn [set_cell optFilter].
      apply Hd; cbn; auto. }
    specialize (IH Hd'). cbv zeta in IH. destruct IH as [IH1 IH2]. split.
    + intro x. rewrite IH1, columns_assign. cbn. split; [intros [[?| ->]|?]; auto|intros [?|[?|?]]; subst; auto].
    + cbn [assign recs] in IH2.
      assert (Hd0 : forall q r, In q (p :: ps) -> In r (recs t) -> p <> q ++ optFilter r).
      { intros q r Hq Hr. apply Hd; cbn; auto. }
      revert IH2. generalize (recs (fold_left (fun u p0 => assign p0 (fun r => cell r (p0 ++ optFilter r)) u) ps (assign p (fun r => cell r (p ++ optFilter r)) t))).
      clear Hd Hd' IH1. revert Hd0. induction (recs t) as [|r l IHl]; intros Hd0 l' IH2; cbn [map] in IH2; inversion IH2 as [|? r' ? l'' Hr Hl]; subst; constructor.
      * destruct Hr as [E1 [E2 E3]]. cbn [set_cell optFilter] in E1, E3. split; auto. split.
        -- intros k Hk. rewrite E2 by (intro; apply Hk; cbn; auto). apply set_cell_other. intro; subst; apply Hk; cbn; auto.
        -- intros q [<-|Hq].
           ++ rewrite E2 by auto. apply set_cell_same.
           ++ rewrite E3 by auto. change (cell (set_cell p (cell r (p ++ optFilter r)) r) (q ++ optFilter r) = cell r (q ++ optFilter r)).
              apply set_cell_other. apply not_eq_sym, Hd0; cbn; auto.
      * apply IHl; auto. intros q0 r0 Hq0 Hr0. apply Hd0; cbn; auto.
Qed.

Lemma param_not_suffixed : forall f ps p q x, phase_parameters f = Some ps -> In p ps -> In q ps -> String.length x = 1%nat -> q <> p ++ x.
Proof.
  intros f ps p q x Hp Hpi Hq Hx E. destruct (one_char x Hx) as [c ->].
  destruct (phase_params_cases _ _ Hp) as [Ec|[Ec|[Ec|[Ec|Ec]]]]; subst ps; cbn in Hpi, Hq;
    repeat match goal with H : _ \/ _ |- _ => destruct H | H : False |- _ => destruct H end; subst; cbn in E; discriminate.
Qed.
Lemma params_nodup : forall f ps, phase_parameters f = Some ps -> NoDup ps.
Proof.
  intros f ps Hp. destruct (phase_params_cases _ _ Hp) as [Ec|[Ec|[Ec|[Ec|Ec]]]]; subst ps; repeat constructor; cbn; intuition discriminate.
Qed.

(** What choosing parameters does to the rows. *)
Lemma choose_rows : forall H_col f obsf t t' ps, phase_parameters f = Some ps -> In H_col (columns t) ->
  Forall (fun r => String.length (optFilter r) = 1%nat) (recs t) -> Forall (fun x => String.length x = 1%nat) obsf ->
  choose_parameters H_col f obsf t = Ok t' ->
  Forall2 (fun r r' => optFilter r' = optFilter r /\
     (forall k, ~ In k ps -> cell r' k = cell r k) /\
     (forall p, In p ps -> cell r' p = if forallb (fun c => mem c (columns t)) ps then cell r p else cell r (p ++ optFilter r)))
    (recs t) (recs t') /\
   (forall p, In p ps -> In p (columns t')) /\
   (forall c, In c (columns t) -> ~ In c (per_filter ps obsf) -> In c (columns t')).
Proof.
  intros H_col f obsf t t' ps Hp HH Hr1 Ho H. unfold choose_parameters in H. rewrite Hp in H.
  assert (HHc : mem H_col (columns t) = true) by (apply mem_In; auto).
  assert (Same : forall b : bool, (b = true \/ ps = []) -> Forall2 (fun r r' => optFilter r' = optFilter r /\
     (forall k, ~ In k ps -> cell r' k = cell r k) /\
     (forall p, In p ps -> cell r' p = if b then cell r p else cell r (p ++ optFilter r))) (recs t) (recs t)).
  { intros b Hb. clear -Hb. induction (recs t); constructor; auto. split; auto. split; auto.
    intros p Hpi. destruct Hb as [-> | ->]; auto. destruct Hpi. }
  destruct ps as [|p0 ps0].
  - injection H as <-. split; [apply Same; auto|]. split; [intros ? []|auto].
  - set (ps := p0 :: ps0) in *. cbn [forallb] in H. rewrite HHc in H. cbn [andb] in H.
    change (mem p0 (columns t) && forallb (fun c => mem c (columns t)) ps0)%bool with (forallb (fun c => mem c (columns t)) ps) in H.
    destruct (forallb (fun c => mem c (columns t)) ps) eqn:Eall.
    + injection H as <-. split; [apply (Same true); auto|]. split; auto.
      intros p Hpin. apply mem_In. rewrite forallb_forall in Eall. apply Eall; auto.
    + destruct (forallb _ (per_filter ps obsf)) eqn:Eper; [|discriminate].
      destruct (forallb _ (recs t)) eqn:Erow; [|discriminate].
      apply Ok_inj in H. subst t'.
      destruct (fold_assign ps t (params_nodup _ _ Hp)) as [F1 F2].
      { intros p q r H1 H2 H3. rewrite Forall_forall in Hr1. eapply param_not_suffixed; eauto. }
      split; [exact F2|]. split.
      * intros p Hpi. cbn [drop_columns columns]. apply filter_In. rewrite F1. split; auto.
        apply negb_true_iff, mem_false. unfold per_filter. rewrite in_flat_map. intros [q [Hq Hin]]. apply in_map_iff in Hin.
        destruct Hin as [x [E Hx]]. rewrite Forall_forall in Ho. symmetry in E. revert E. eapply param_not_suffixed; eauto.
      * intros c Hc Hnc. cbn [drop_columns columns]. apply filter_In. rewrite F1. split; auto.
        apply negb_true_iff, mem_false. auto.
Qed.

Lemma assign_recs : forall c f t, recs (assign c f t) = map (fun r => set_cell c (f r) r) (recs t).
Proof. reflexivity. Qed.

Lemma Forall2_map_l : forall A B C (P : A -> B -> Prop) (f : C -> A) l l', Forall2 P (map f l) l' -> Forall2 (fun a b => P (f a) b) l l'.
Proof. induction l as [|a l IH]; intros l' H; inversion H; subst; constructor; auto. Qed.
Lemma Forall2_map_r : forall A B C (P : A -> C -> Prop) (f : B -> C) l l', Forall2 (fun a b => P a (f b)) l l' -> Forall2 P l (map f l').
Proof. induction l as [|a l IH]; intros l' H; inversion H; subst; constructor; auto. Qed.
Lemma Forall2_impl_in : forall A B (P Q : A -> B -> Prop) l l', Forall2 P l l' -> (forall a b, In a l -> P a b -> Q a b) -> Forall2 Q l l'.
Proof. induction 1; intro HI; constructor; auto. apply HI; cbn; auto. apply IHForall2. intros; apply HI; cbn; auto. Qed.

Lemma in_params_head : forall f ps p, phase_parameters f = Some ps -> In p ps ->
  p = "G1" \/ p = "G2" \/ p = "GS" \/ p = "G12" \/ p = "S".
Proof.
  intros f ps p Hp Hpi. destruct (phase_params_cases _ _ Hp) as [Ec|[Ec|[Ec|[Ec|Ec]]]]; subst ps; cbn in Hpi; intuition.
Qed.
Lemma param_ne : forall f ps p m, phase_parameters f = Some ps -> In p ps -> String.length m = 1%nat ->
  p <> "H_" ++ m /\ p <> "H_original" /\ p <> "H_filter" /\ p <> m ++ "-" ++ m /\
  (forall x, String.length x = 1%nat -> p ++ x <> "H_" ++ m /\ p ++ x <> "H_original" /\ p ++ x <> "H_filter" /\ p ++ x <> m ++ "-" ++ m).
Proof.
  intros f ps p m Hp Hpi Hm. destruct (one_char m Hm) as [c ->].
  pose proof (in_params_head _ _ _ Hp Hpi) as Hc.
  assert (G : forall x, String.length x = 1%nat -> p ++ x <> "H_" ++ String c "" /\ p ++ x <> "H_original" /\ p ++ x <> "H_filter" /\ p ++ x <> String c "" ++ "-" ++ String c "").
  { intros x Hx. destruct (one_char x Hx) as [d ->].
    destruct Hc as [->|[->|[->|[->| ->]]]]; cbn; repeat split; intro E; inversion E. }
  destruct Hc as [->|[->|[->|[->| ->]]]]; (split; [|split; [|split; [|split; [|exact G]]]]); cbn; intro E; inversion E.
Qed.

Lemma C29_rows_proof : forall function observing_filters main t t',
  String.length main = 1%nat -> Forall (fun r => String.length (optFilter r) = 1%nat) (recs t) ->
  Forall (fun x => String.length x = 1%nat) observing_filters ->
  PPApplyColourOffsets function observing_filters main t = Ok t' ->
  exists ps, phase_parameters function = Some ps /\
  (In "H_filter" (columns t') /\ In ("H_" ++ main) (columns t') /\ forall p, In p ps -> In p (columns t')) /\
  Forall2 (fun r r' => optFilter r' = optFilter r /\
     cell r' "H_filter" = (cell r ("H_" ++ main) + if String.eqb (optFilter r) main then 0 else cell r (optFilter r ++ "-" ++ main))%R /\
     cell r' ("H_" ++ main) = cell r ("H_" ++ main) /\
     ((forall p, In p ps -> In p (columns t)) -> forall p, In p ps -> cell r' p = cell r p) /\
     (~ (forall p, In p ps -> In p (columns t)) -> forall p, In p ps -> cell r' p = cell r (p ++ optFilter r)))
   (recs t) (recs t').
Proof.
  intros function obsf main t t' Hm Hf Ho H. unfold PPApplyColourOffsets in H.
  destruct (mem ("H_" ++ main) (columns t)) eqn:EH; [|discriminate]. cbn [negb] in H. apply mem_In in EH.
  set (t1 := assign "H_original" (fun r => cell r ("H_" ++ main)) t) in *.
  set (t2 := assign (main ++ "-" ++ main) (fun _ => 0%R) t1) in *.
  destruct (apply_filters ("H_" ++ main) main (unique [] (map optFilter (recs t2))) t2) as [t3|e] eqn:E3; [|discriminate]. cbn [rbind] in H.
  destruct (unique_spec (map optFilter (recs t2)) []) as [Un Uin].
  destruct (apply_filters_rows _ _ _ _ _ Un E3) as [C3 [R3 _]].
  assert (Uall : forall r, In r (recs t) -> In (optFilter r) (unique [] (map optFilter (recs t2)))).
  { intros r Hr. apply Uin. split; [|intros []]. subst t2 t1. rewrite !assign_recs, !map_map. apply in_map_iff. exists r. split; auto. }
  assert (R3' : recs t3 = map (after_loop main) (recs t)).
  { rewrite R3. revert Uall. generalize (unique [] (map optFilter (recs t2))). intros U Uall.
    subst t2 t1. rewrite !assign_recs, !map_map. apply map_ext_in. intros r Hr.
    unfold shifted. rewrite (proj2 (mem_In _ _)); [reflexivity|]. exact (Uall r Hr). }
  assert (Cin : forall x, In x (columns t3) <-> In x (columns t) \/ x = "H_original" \/ x = main ++ "-" ++ main).
  { intro x. rewrite C3. subst t2 t1. rewrite !columns_assign. tauto. }
  destruct (choose_parameters ("H_" ++ main) function obsf t3) as [t4|e] eqn:E4; [|discriminate]. cbn [rbind] in H.
  apply Ok_inj in H. subst t'.
  destruct (phase_parameters function) as [ps|] eqn:Ep; [|unfold choose_parameters in E4; rewrite Ep in E4; discriminate].
  exists ps. split; auto.
  assert (Hf3 : Forall (fun r => String.length (optFilter r) = 1%nat) (recs t3)).
  { rewrite R3'. apply Forall_forall. intros r Hr. apply in_map_iff in Hr. destruct Hr as [r0 [<- Hr]].
    rewrite Forall_forall in Hf. rewrite (proj1 (after_loop_cells main r0 Hm (Hf r0 Hr))). auto. }
  destruct (choose_rows _ _ _ _ _ _ Ep (proj2 (Cin _) (or_introl EH)) Hf3 Ho E4) as [F2 [Pin Cold]].
  destruct (one_char main Hm) as [c Ec].
  assert (NP : forall x, (exists b, x = String "H" b) -> ~ In x (per_filter ps obsf)).
  { intros x [b ->] Hx. unfold per_filter in Hx. apply in_flat_map in Hx. destruct Hx as [p [Hpi Hx]]. apply in_map_iff in Hx.
    destruct Hx as [y [E _]]. destruct (in_params_head _ _ _ Ep Hpi) as [->|[->|[->|[->| ->]]]]; discriminate. }
  assert (NO : forall x, obsolete main x = true -> exists a, x = String a ("-" ++ main)).
  { intros [|a x] Hx; [discriminate|]. cbn in Hx. apply String.eqb_eq in Hx. subst x. eauto. }
  split; [split; [|split]|].
  - cbn [rename_H drop_columns columns]. apply in_map_iff. exists ("H_" ++ main). split; [unfold renamed; rewrite String.eqb_refl; reflexivity|].
    apply filter_In. split; [apply Cold; [apply Cin; auto|apply NP; eexists; reflexivity]|].
    apply negb_true_iff. reflexivity.
  - cbn [rename_H drop_columns columns]. apply in_map_iff. exists "H_original". split.
    + unfold renamed. replace (String.eqb "H_original" ("H_" ++ main)) with false; [reflexivity|]. symmetry. apply String.eqb_neq. subst main. intro E. inversion E.
    + apply filter_In. split; [apply Cold; [apply Cin; auto|apply NP; eexists; reflexivity]|].
      apply negb_true_iff. reflexivity.
  - intros p Hpi. destruct (param_ne _ _ _ main Ep Hpi Hm) as [N1 [N2 [N3 [N4 _]]]].
    cbn [rename_H drop_columns columns]. apply in_map_iff. exists p. split.
    + unfold renamed. apply String.eqb_neq in N1, N2. rewrite N1, N2. reflexivity.
    + apply filter_In. split; [apply Pin; auto|]. apply negb_true_iff. destruct (obsolete main p) eqn:E; auto. apply NO in E. destruct E as [a E].
      subst main. destruct (in_params_head _ _ _ Ep Hpi) as [->|[->|[->|[->| ->]]]]; inversion E.
  - cbn [rename_H drop_columns recs]. apply Forall2_map_r. rewrite R3' in F2. apply Forall2_map_l in F2.
    eapply Forall2_impl_in; [exact F2|]. intros r r' Hr [G1 [G2 G3]]. cbn [optFilter cell].
    rewrite Forall_forall in Hf. destruct (after_loop_cells main r Hm (Hf r Hr)) as [A1 [A2 [A3 A4]]].
    assert (NHm : ~ In ("H_" ++ main) ps) by (intro Hi; destruct (param_ne _ _ _ main Ep Hi Hm); congruence).
    assert (NHo : ~ In "H_original" ps) by (intro Hi; destruct (param_ne _ _ _ main Ep Hi Hm) as [_ [? _]]; congruence).
    split; [congruence|]. split; [change (String.eqb "H_filter" "H_filter") with true; cbv iota; rewrite G2 by auto; exact A2|]. split.
    + replace (String.eqb ("H_" ++ main) "H_filter") with false; [|symmetry; apply String.eqb_neq; subst main; intro E; inversion E].
      rewrite String.eqb_refl, G2 by auto. exact A3.
    + assert (Eqp : forall p, In p ps -> (if String.eqb p "H_filter" then cell r' ("H_" ++ main) else if String.eqb p ("H_" ++ main) then cell r' "H_original" else cell r' p) = cell r' p).
      { intros p Hpi. destruct (param_ne _ _ _ main Ep Hpi Hm) as [N1 [_ [N3 _]]]. apply String.eqb_neq in N1, N3. rewrite N1, N3. reflexivity. }
      assert (Eall : forallb (fun c => mem c (columns t3)) ps = true <-> (forall p, In p ps -> In p (columns t))).
      { rewrite forallb_forall. split; intros HA p Hpi.
        - specialize (HA p Hpi). apply mem_In, Cin in HA. destruct (param_ne _ _ _ main Ep Hpi Hm) as [_ [N2 [_ [N4 _]]]]. destruct HA as [?|[?|?]]; congruence || auto.
        - apply mem_In, Cin. auto. }
      split; intros HA p Hpi; rewrite Eqp, G3 by auto.
      * rewrite (proj2 Eall HA). destruct (param_ne _ _ _ main Ep Hpi Hm) as [N1 [N2 [_ [N4 _]]]]. apply A4; auto.
      * destruct (forallb (fun c => mem c (columns t3)) ps); [exfalso; apply HA, Eall; auto|].
        rewrite A1. destruct (param_ne _ _ _ main Ep Hpi Hm) as [_ [_ [_ [_ N]]]]. destruct (N (optFilter r) (Hf r Hr)) as [N1 [N2 [_ N4]]]. apply A4; auto.
Qed.
