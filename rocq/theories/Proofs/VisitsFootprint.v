(** Proofs about the footprint taken from a table of CCDs per visit. *)
From Coq Require Import String List Arith Bool QArith Lia Permutation.
From Verif Require Import Base.Prelude Base.Frame Base.Sort Model.VisitsFootprint.
Import ListNotations.
Open Scope nat_scope.

Lemma unwrap_ext : forall b g h o,
  (forall r, (exists x, In x g /\ o_field_ra x = r) <-> (exists x, In x h /\ o_field_ra x = r)) -> unwrap b g o = unwrap b h o.
Proof.
  intros b g h o H. unfold unwrap.
  assert (E : forall p : Q -> bool, existsb (fun x => p (o_field_ra x)) g = existsb (fun x => p (o_field_ra x)) h).
  { intro p. apply eq_true_iff_eq. rewrite !existsb_exists. split; intros [x [Hx Hp]].
    - destruct (proj1 (H _) (ex_intro _ x (conj Hx eq_refl))) as [y [Hy E]]. exists y. rewrite E. auto.
    - destruct (proj2 (H _) (ex_intro _ x (conj Hx eq_refl))) as [y [Hy E]]. exists y. rewrite E. auto. }
  rewrite (E (fun r => Qltb 360 (r + b)%Q)), (E (fun r => Qltb (r - b)%Q 0)). reflexivity.
Qed.

Lemma candidates_mono : forall n rows p ps i, In p ps -> In i (candidates n rows [p]) -> In i (candidates n rows ps).
Proof.
  intros n rows p ps i Hp. unfold candidates. destruct (1 <? length rows); auto. rewrite !nodup_In, !in_flat_map.
  intros [q [[<-|[]] Hi]]. exists p. auto.
Qed.

Lemma first_ccd_spec : forall rows cand p,
  (forall i j c d, nth_error rows i = Some c -> nth_error rows j = Some d -> contains c p = true -> contains d p = true -> i = j) ->
  (forall i c, nth_error rows i = Some c -> contains c p = true -> In i cand) ->
  forall c, first_ccd rows cand p = Some c <-> exists i, nth_error rows i = Some c /\ contains c p = true.
Proof.
  intros rows cand p U C c. unfold first_ccd.
  set (l := filter (fun c => contains c p) _).
  assert (L : forall x, In x l <-> exists i, In i cand /\ nth_error rows i = Some x /\ contains x p = true).
  { intro x. unfold l. rewrite filter_In, in_flat_map. split.
    - intros [[i [Hi Hx]] Hc]. exists i. destruct (nth_error rows i) as [y|] eqn:E; cbn in Hx; [|destruct Hx].
      destruct Hx as [<-|[]]. auto.
    - intros [i [Hi [Hx Hc]]]. split; auto. exists i. rewrite Hx. split; auto. left; auto. }
  clearbody l. split.
  - destruct l as [|x l]; intro E; inversion E; subst. destruct (proj1 (L c) (or_introl eq_refl)) as [i [_ H]]. exists i. exact H.
  - intros [i [Hi Hc]]. destruct l as [|x l].
    + destruct (proj2 (L c)). exists i. repeat split; auto. eapply C; eauto.
    + destruct (proj1 (L x) (or_introl eq_refl)) as [j [_ [Hj Hx]]]. f_equal.
      assert (j = i) by (apply (U j i x c); auto). subst j. congruence.
Qed.

(** Detection depends on the observation alone when CCDs do not overlap and each
    point's own candidates include the CCD it is on. *)
Lemma C74_own_proof : forall (set_order : list nat -> list nat) query buffer num (f : frame vobs) lab id lim,
  (forall l, Permutation (set_order l) l) ->
  (forall a b x y, In (a, x) f -> In (b, y) f -> o_field x = o_field y -> o_field_ra x = o_field_ra y) ->
  (forall a o i j c d, In (a, o) f -> nth_error (query (o_field o)) i = Some c -> nth_error (query (o_field o)) j = Some d ->
     contains c (unwrap buffer [o] o) = true -> contains d (unwrap buffer [o] o) = true -> i = j) ->
  (forall a o i c, In (a, o) f -> nth_error (query (o_field o)) i = Some c -> contains c (unwrap buffer [o] o) = true ->
     In i (candidates num (query (o_field o)) [unwrap buffer [o] o])) ->
  In (lab, (id, lim)) (PPVisitsFootprint set_order query buffer num f) <->
  exists o i c, In (lab, o) f /\ nth_error (query (o_field o)) i = Some c /\ contains c (unwrap buffer [o] o) = true /\ c_id c = id /\ c_lim c = lim.
Proof.
  intros so query buffer num f lab id lim P F U C. unfold PPVisitsFootprint. rewrite in_flat_map.
  set (G := fun x => filter (fun r : nat * vobs => String.eqb (o_field (snd r)) x) f).
  assert (W : forall a o, In (a, o) f -> unwrap buffer (map snd (G (o_field o))) o = unwrap buffer [o] o).
  { intros a o Ho. apply unwrap_ext. intro r. split.
    - intros [y [Hy <-]]. apply in_map_iff in Hy. destruct Hy as [[b z] [E Hz]]. cbn in E. subst z. apply filter_In in Hz. destruct Hz as [Hz E].
      cbn in E. apply String.eqb_eq in E. exists o. split; [left; auto|]. eapply F; eauto.
    - intros [y [[<-|[]] <-]]. exists o. split; auto. apply in_map_iff. exists (a, o). split; auto. apply filter_In. split; auto. cbn. apply String.eqb_refl. }
  assert (K : forall a o, In (a, o) f -> forall c,
    first_ccd (query (o_field o)) (so (candidates num (query (o_field o)) (map (unwrap buffer (map snd (G (o_field o)))) (map snd (G (o_field o)))))) (unwrap buffer [o] o) = Some c
    <-> exists i, nth_error (query (o_field o)) i = Some c /\ contains c (unwrap buffer [o] o) = true).
  { intros a o Ho. apply first_ccd_spec.
    - intros i j c d. eapply U; eauto.
    - intros i c Hi Hc. eapply Permutation_in; [apply Permutation_sym, P|]. apply candidates_mono with (p := unwrap buffer [o] o); [|eapply C; eauto].
      rewrite <- (W a o Ho). apply in_map, in_map_iff. exists (a, o). split; auto. apply filter_In. split; auto. cbn. apply String.eqb_refl. }
  split.
  - intros [x [_ H]]. fold (G x) in H. unfold one_group in H. destruct (query x) as [|c0 rows] eqn:Q; [destruct H|]. rewrite <- Q in H.
    apply in_flat_map in H. destruct H as [[a o] [Hg H]]. cbn [fst snd] in H.
    pose proof Hg as Hg'. apply filter_In in Hg'. destruct Hg' as [Ho E]. cbn in E. apply String.eqb_eq in E. subst x.
    rewrite (W a o Ho) in H. destruct (first_ccd _ _ _) as [c|] eqn:E; [|destruct H]. destruct H as [H|[]]. inversion H; subst.
    apply (K lab o Ho) in E. destruct E as [i [Hi Hc]]. exists o, i, c. auto.
  - intros [o [i [c [Ho [Hi [Hc [<- <-]]]]]]]. exists (o_field o). split.
    + apply nodup_In. apply in_map_iff. exists (lab, o). auto.
    + fold (G (o_field o)). unfold one_group. destruct (query (o_field o)) as [|c0 rows] eqn:Q; [destruct i; discriminate|]. rewrite <- Q in *.
      apply in_flat_map. exists (lab, o). split; [apply filter_In; split; auto; cbn; apply String.eqb_refl|]. cbn [fst snd].
      rewrite (W lab o Ho). assert (E := proj2 (K lab o Ho c) (ex_intro _ i (conj Hi Hc))). rewrite E. left; reflexivity.
Qed.

(** Labels that are positions select the rows they came from. *)
Lemma iloc_all_ok : forall A (f : frame A) l, (forall i d, In (i, d) l -> i < length f) ->
  exists g, iloc_all f l = Ok g /\ forall lab r d, In (lab, (r, d)) g <-> exists i, In (i, d) l /\ nth_error f i = Some (lab, r).
Proof.
  intros A f l. induction l as [|[i d] l IH]; intro H.
  - exists []. split; [reflexivity|]. intros. split; [intros []|intros [i [[] _]]].
  - destruct IH as [g [E S]]; [intros; eapply H; right; eauto|].
    assert (Hi : i < length f) by (apply (H i d); left; auto). destruct (nth_error f i) as [[b x]|] eqn:N; [|apply nth_error_None in N; lia].
    exists ((b, (x, d)) :: g). split; [cbn [iloc_all]; rewrite N, E; reflexivity|]. intros lab r e. cbn [In]. rewrite S. split.
    + intros [X|[j [Hj Hn]]]; [inversion X; subst; exists i; auto|exists j; auto].
    + intros [j [[X|Hj] Hn]]; [inversion X; subst; rewrite N in Hn; inversion Hn; subst; auto|right; exists j; auto].
Qed.
Lemma visits_in : forall so query buffer num f lab d, In (lab, d) (PPVisitsFootprint so query buffer num f) -> exists o, In (lab, o) f.
Proof.
  intros so query buffer num f lab d H. unfold PPVisitsFootprint in H. apply in_flat_map in H. destruct H as [x [_ H]]. unfold one_group in H.
  destruct (query x) as [|c0 rows]; [destruct H|]. apply in_flat_map in H. destruct H as [[a o] [Hg H]]. apply filter_In in Hg. destruct Hg as [Ho _].
  destruct (first_ccd _ _ _); [|destruct H]. destruct H as [H|[]]. inversion H; subst. exists o. exact Ho.
Qed.
Lemma C74_rows_proof : forall so query buffer num (f : frame vobs), map fst f = seq 0 (length f) ->
  exists g, visits_filter so query buffer num f = Ok g /\
  forall lab o d, In (lab, (o, d)) g <-> In (lab, o) f /\ In (lab, d) (PPVisitsFootprint so query buffer num f).
Proof.
  intros so query buffer num f L.
  assert (N : forall i lab o, nth_error f i = Some (lab, o) -> lab = i).
  { intros i lab o H. assert (i < length f) by (apply nth_error_Some; congruence). apply (map_nth_error fst) in H. rewrite L in H. cbn in H.
    apply nth_error_nth with (d := 0) in H. rewrite seq_nth in H; auto. }
  destruct (iloc_all_ok vobs f (PPVisitsFootprint so query buffer num f)) as [g [E S]].
  { intros i d H. apply visits_in in H. destruct H as [o H]. apply (in_map fst) in H. rewrite L in H. apply in_seq in H. cbn in H. lia. }
  unfold visits_filter. rewrite E. eexists. split; [reflexivity|]. intros lab o d.
  match goal with |- In _ ?s <-> _ => assert (X : In (lab, (o, d)) s <-> In (lab, (o, d)) g) by (split; apply Permutation_in; [|apply Permutation_sym]; apply sort_by_perm) end.
  rewrite X, S. split.
  - intros [i [Hi Hn]]. rewrite (N _ _ _ Hn). rewrite (N _ _ _ Hn) in Hn. split; auto. eapply nth_error_In; eauto.
  - intros [Ho Hd]. apply In_nth_error in Ho. destruct Ho as [i Hi]. exists i. rewrite (N _ _ _ Hi) in Hd. auto.
Qed.

(** ** A large CCD with two small ones beside it *)
Definition box (id : nat) (x0 y0 x1 y1 : Q) : ccd :=
  {| c_center := ((x0 + x1) / 2, (y0 + y1) / 2)%Q; c_ll := (x0, y0); c_lr := (x1, y0); c_ur := (x1, y1); c_ul := (x0, y1); c_id := id; c_lim := 24 |}.
Definition mixed_camera (_ : string) : list ccd := [box 1 10 10 20 20; box 2 (201#10) 17 (206#10) 18].
Definition near_edge : vobs := {| o_field := "v"; o_ra := 199#10; o_dec := 35#2; o_field_ra := 15 |}.
Definition companion : vobs := {| o_field := "v"; o_ra := 11; o_dec := 11; o_field_ra := 15 |}.

Lemma C74_company_refuted_proof : exists query (o p : vobs), o_field o = o_field p /\
  PPVisitsFootprint (fun l => l) query (3#2) 3 [(0, o)] = [] /\
  exists id lim, In (0, (id, lim)) (PPVisitsFootprint (fun l => l) query (3#2) 3 [(0, o); (1, p)]).
Proof.
  exists mixed_camera, near_edge, companion. split; [reflexivity|]. split; [vm_compute; reflexivity|]. exists 1, 24%Q. vm_compute. left. reflexivity.
Qed.

Lemma C74_labels_refuted_proof : exists query (o p : vobs) d, o <> p /\
  PPVisitsFootprint (fun l => l) query (3#2) 3 [(1, o); (0, p)] = [(1, d)] /\
  visits_filter (fun l => l) query (3#2) 3 [(1, o); (0, p)] = Ok [(0, (p, d))].
Proof.
  exists mixed_camera, companion, {| o_field := "v"; o_ra := 50; o_dec := 50; o_field_ra := 15 |}, (1, 24%Q).
  split; [discriminate|]. split; vm_compute; reflexivity.
Qed.
