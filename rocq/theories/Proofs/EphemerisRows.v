(** Proofs about the rows of the ephemeris. *)
From Coq Require Import String List Arith ZArith Bool Reals Lra Lia Permutation.
From Verif Require Import Base.Prelude Model.Sphere Model.Ephemeris Model.Randomize Spec.Sphere Spec.Ephemeris Proofs.Sphere Proofs.Sky Proofs.Photometry Proofs.Colours Proofs.Ephemeris.
Import ListNotations.
Open Scope R_scope.

(** ** Registered pixels *)
Lemma register_one : forall k l (d : Z -> list string) q x,
  In x (fold_left (fun d pix => fun q => if Z.eqb q pix then (d q ++ [k])%list else d q) l d q) <-> In x (d q) \/ (x = k /\ In q l).
Proof.
  intro k. induction l as [|p l IH]; intros d q x; cbn [fold_left].
  - cbn. tauto.
  - rewrite IH. destruct (Z.eqb_spec q p) as [->|Hne].
    + rewrite in_app_iff. cbn. split; [intros [[?|[?|[]]]|[? ?]]; auto|intros [?|[? [?|?]]]; auto].
    + cbn. split; [intros [?|[? ?]]; auto|intros [?|[? [?|?]]]; auto; congruence].
Qed.

Section P.
Variables (trajectory : string -> R -> vec * vec) (jd_ref : R) (observatory : R -> vec) (vec2pix : vec -> Z) (nbrs : Z -> list Z)
  (n_sub : nat) (interval : R) (sims : list string).
Notation node := (at_node trajectory jd_ref observatory vec2pix nbrs n_sub interval sims).
Notation update := (update_pickets trajectory jd_ref observatory vec2pix nbrs n_sub interval sims).
Notation par := (parabola trajectory jd_ref observatory interval).

Lemma in_pixels_of : forall t0 k q,
  In q (pixels_of vec2pix nbrs n_sub (t0 - interval) t0 (t0 + interval) (seen trajectory jd_ref observatory k (t0 - interval))
     (seen trajectory jd_ref observatory k t0) (seen trajectory jd_ref observatory k (t0 + interval))) <->
  exists t, In t (linspace (t0 - interval) (t0 + interval) n_sub) /\ In q (nbrs (vec2pix (par t0 k t))).
Proof.
  intros t0 k q. unfold pixels_of. rewrite nodup_In, in_flat_map. split.
  - intros [p [Hp Hq]]. rewrite nodup_In in Hp. apply in_map_iff in Hp. destruct Hp as [v [<- Hv]]. apply in_map_iff in Hv.
    destruct Hv as [t [<- Ht]]. exists t. split; auto.
  - intros [t [Ht Hq]]. eexists. split; [|exact Hq]. rewrite nodup_In. apply in_map_iff. eexists. split; [reflexivity|].
    apply in_map_iff. exists t. auto.
Qed.

Lemma in_traversed : forall t0 q k, In k (p_pixels (node t0) q) <->
  In k sims /\ exists t, In t (linspace (t0 - interval) (t0 + interval) n_sub) /\ In q (nbrs (vec2pix (par t0 k t))).
Proof.
  intros t0 q k. cbn [at_node make p_pixels]. unfold compute_pixel_traversed.
  assert (G : forall ks d, incl ks sims -> In k (fold_left (fun d k =>
    match dict_get (get_all_object_unit_vectors trajectory jd_ref sims (observatory (t0 - interval)) (t0 - interval)) k,
          dict_get (get_all_object_unit_vectors trajectory jd_ref sims (observatory t0) t0) k,
          dict_get (get_all_object_unit_vectors trajectory jd_ref sims (observatory (t0 + interval)) (t0 + interval)) k with
    | Ok vm, Ok v0, Ok vp =>
        fold_left (fun d pix => fun q => if Z.eqb q pix then (d q ++ [k])%list else d q) (pixels_of vec2pix nbrs n_sub (t0 - interval) t0 (t0 + interval) vm v0 vp) d
    | _, _, _ => d
    end) ks d q) <-> In k (d q) \/ (In k ks /\ exists t, In t (linspace (t0 - interval) (t0 + interval) n_sub) /\ In q (nbrs (vec2pix (par t0 k t))))).
  { induction ks as [|x ks IH]; intros d Hi; cbn [fold_left]; [cbn; tauto|].
    rewrite !dirs_get by (apply Hi; cbn; auto).
    rewrite IH by (intros y Hy; apply Hi; right; auto). rewrite register_one.
    change (rho_hat trajectory jd_ref x (observatory (t0 - interval)) (t0 - interval)) with (seen trajectory jd_ref observatory x (t0 - interval)).
    change (rho_hat trajectory jd_ref x (observatory t0) t0) with (seen trajectory jd_ref observatory x t0).
    change (rho_hat trajectory jd_ref x (observatory (t0 + interval)) (t0 + interval)) with (seen trajectory jd_ref observatory x (t0 + interval)).
    rewrite in_pixels_of. cbn [In]. split.
    - intros [[?|[-> ?]]|[? ?]]; auto.
    - intros [?|[[->|?] ?]]; auto. }
  rewrite G by apply incl_refl. cbn. tauto.
Qed.

Variable set_order : list string -> list string.
Variable disc : R -> R -> R -> list Z.
Hypothesis Horder : set_listing set_order.
Notation desig := (get_designations trajectory jd_ref observatory vec2pix nbrs n_sub interval sims set_order disc).

Lemma linspace_in : forall a b n t, In t (linspace a b n) <-> exists i, (i < n)%nat /\ t = a + (b - a) * (INR i / (INR n - 1)).
Proof.
  intros a b [|[|m]] t; unfold linspace.
  - split; [intros []|]. intros [i [H _]]. inversion H.
  - split.
    + intros [<-|[]]. exists O. split; [auto|]. cbn. unfold Rdiv. ring.
    + intros [i [H ->]]. left. assert (i = O) as -> by lia. cbn. unfold Rdiv. ring.
  - rewrite in_map_iff. assert (E : INR (S (S m)) - 1 = INR (S m)) by (rewrite (S_INR (S m)); ring). split.
    + intros [i [<- H]]. apply in_seq in H. exists i. split; [lia|]. rewrite E. unfold Rdiv. ring.
    + intros [i [H ->]]. exists i. split; [rewrite E; unfold Rdiv; ring|]. apply in_seq. lia.
Qed.
Lemma desig_at : forall t ra dec fov t0 t0', update t (node t0) = node t0' ->
  fst (desig t ra dec fov (node t0)) = node t0' /\ NoDup (snd (desig t ra dec fov (node t0))) /\
  forall k, In k (snd (desig t ra dec fov (node t0))) <-> In k sims /\ registered trajectory jd_ref observatory vec2pix nbrs n_sub interval t0' (disc ra dec fov) k.
Proof.
  intros t ra dec fov t0 t0' E. unfold get_designations. cbn [fst snd]. rewrite E. split; auto.
  set (l := nodup string_dec _). pose proof (Horder l) as HP. split.
  - eapply Permutation_NoDup; [exact HP|]. apply NoDup_nodup.
  - intro k. split.
    + intro H. apply (Permutation_in k (Permutation_sym HP)) in H. subst l. rewrite nodup_In, in_flat_map in H.
      destruct H as [p [Hp Hk]]. apply in_traversed in Hk. destruct Hk as [Hk [u [Hu Hq]]]. split; auto.
      apply linspace_in in Hu. destruct Hu as [i [Hi ->]]. exists i, p. split; auto. split; auto.
      replace (t0' - interval + 2 * interval * (INR i / (INR n_sub - 1))) with (t0' - interval + (t0' + interval - (t0' - interval)) * (INR i / (INR n_sub - 1))) by ring. exact Hq.
    + intros [Hk [i [p [Hu [Hp Hq]]]]]. apply (Permutation_in k HP). subst l. rewrite nodup_In, in_flat_map. exists p. split; auto.
      apply in_traversed. split; auto. exists (t0' - interval + 2 * interval * (INR i / (INR n_sub - 1))). split; auto.
      apply linspace_in. exists i. split; auto. ring.
Qed.

Lemma update_near : forall t t0, Rabs (t - t0) <= interval / 2 -> update t (node t0) = node t0.
Proof.
  intros t t0 H. unfold update_pickets. cbn [at_node make p_t0]. destruct (Rlt_dec _ _) as [H1|H1]; [lra|reflexivity].
Qed.
Lemma node_regular : forall t0, p_tm (node t0) = p_t0 (node t0) - interval /\ p_tp (node t0) = p_t0 (node t0) + interval.
Proof. intro; split; reflexivity. Qed.

(** The two tests of an object against a visit. *)
Definition accepted (limit : R) (v : visit) (ti : R) (k : string) : Prop :=
  let u := par ti k (v_jd v) in let rho := precise trajectory jd_ref k v in
  degrees_between (scale (/ norm u) u) (v_dir v) < limit /\ degrees_between (scale (/ norm rho) rho) (v_dir v) < limit.

Definition block (fov buffer : R) (v : visit) (ti : R) (ds : list string) : list ephem_row :=
  flat_map (fun p => one_object trajectory jd_ref (fov + buffer) v (fst p) (snd p)) (map (fun k => (k, par ti k (v_jd v))) ds).

Lemma in_block : forall fov buffer v ti ds r, In r (block fov buffer v ti ds) <->
  In (e_obj r) ds /\ e_visit r = v /\ e_rho r = precise trajectory jd_ref (e_obj r) v /\ accepted (fov + buffer) v ti (e_obj r).
Proof.
  intros fov buffer v ti ds r. unfold block. rewrite in_flat_map. unfold accepted. split.
  - intros [p [Hp Hr]]. apply in_map_iff in Hp. destruct Hp as [k [<- Hk]]. cbn [fst snd] in Hr. unfold one_object in Hr.
    destruct (Rlt_dec _ _) as [H1|]; [|destruct Hr]. destruct (Rlt_dec _ _) as [H2|]; [|destruct Hr].
    destruct Hr as [<-|[]]. cbn [e_obj e_visit e_rho]. auto.
  - intros [Hk [Hv [Hr [H1 H2]]]]. exists (e_obj r, par ti (e_obj r) (v_jd v)). split; [apply in_map_iff; exists (e_obj r); auto|].
    cbn [fst snd]. unfold one_object. destruct (Rlt_dec _ _) as [P1|N]; [|contradiction]. destruct (Rlt_dec _ _) as [P2|N]; [|contradiction].
    left. destruct r; cbn in *; subst; reflexivity.
Qed.
Lemma block_nodup : forall fov buffer v ti ds, NoDup ds -> NoDup (map e_obj (block fov buffer v ti ds)).
Proof.
  intros fov buffer v ti ds. induction ds as [|k ds IH]; intro Hn; [constructor|]. inversion Hn as [|? ? Hk Hd]; subst.
  unfold block. cbn [map flat_map fst snd]. rewrite map_app. fold (block fov buffer v ti ds).
  unfold one_object. destruct (Rlt_dec _ _) as [Q1|Q1]; [|apply IH; auto]. destruct (Rlt_dec _ _) as [Q2|Q2]; [|apply IH; auto].
  cbn [map app e_obj]. constructor; [|apply IH; auto]. intro Hi. apply in_map_iff in Hi. destruct Hi as [r1 [E Hr1]].
  apply in_block in Hr1. destruct Hr1 as [Hr1 _]. rewrite E in Hr1. contradiction.
Qed.

Variables (fov buffer : R).
Notation loop := (visits_loop trajectory jd_ref observatory vec2pix nbrs n_sub interval sims set_order disc fov buffer).

(** One visit: which nodes are used, and the rows it gives. *)
Lemma step : forall t0 v vs, 0 < interval ->
  exists tc ti ds, (exists m : Z, tc = t0 + IZR m * interval) /\ (exists m : Z, ti = t0 + IZR m * interval) /\
   Rabs (v_jd v - ti) <= interval / 2 /\ (forall u, u <= v_jd v -> Rabs (u - t0) <= interval / 2 -> tc = ti) /\
   NoDup ds /\ (forall k, In k ds <-> In k sims /\ registered trajectory jd_ref observatory vec2pix nbrs n_sub interval tc (disc (v_ra v) (v_dec v) fov) k) /\
   ds = snd (desig (v_jd v) (v_ra v) (v_dec v) fov (node t0)) /\ update (v_jd v) (update (v_jd v) (node t0)) = node ti /\
   loop (node t0) (v :: vs) = rmap (app (block fov buffer v ti ds)) (loop (node ti) vs).
Proof.
  intros t0 v vs Hi. destruct (update_at trajectory jd_ref observatory vec2pix nbrs n_sub interval sims (v_jd v) t0) as [m1 E1].
  set (tc := t0 + IZR m1 * interval) in *.
  destruct (update_at trajectory jd_ref observatory vec2pix nbrs n_sub interval sims (v_jd v) tc) as [m2 E2].
  set (ti := tc + IZR m2 * interval) in *.
  destruct (desig_at (v_jd v) (v_ra v) (v_dec v) fov t0 tc E1) as [D1 [D2 D3]].
  pose proof (C39_interpolate_proof' trajectory jd_ref observatory vec2pix nbrs n_sub interval sims (v_jd v) (node t0) Hi (node_regular t0)) as [_ Hc].
  rewrite E1, E2 in Hc. change (Rabs (v_jd v - ti) <= interval / 2) in Hc.
  exists tc, ti, (snd (desig (v_jd v) (v_ra v) (v_dec v) fov (node t0))).
  split; [exists m1; reflexivity|]. split; [exists (m1 + m2)%Z; subst ti tc; rewrite plus_IZR; ring|]. split; [exact Hc|]. split.
  { intros u Hu Hn. pose proof (update_forward trajectory jd_ref observatory vec2pix nbrs n_sub interval sims (v_jd v) (node t0) u Hi (node_regular t0) Hn Hu) as Hf.
    rewrite E1 in Hf. change (Rabs (v_jd v - tc) <= interval / 2) in Hf. pose proof (update_near _ _ Hf) as E3. rewrite E2 in E3.
    apply (f_equal p_t0) in E3. cbn in E3. auto. }
  split; [exact D2|]. split; [exact D3|]. split; [reflexivity|]. split; [rewrite E1; exact E2|].
  cbn [visits_loop]. destruct (desig (v_jd v) (v_ra v) (v_dec v) fov (node t0)) as [s ds] eqn:Ed. cbn [fst snd] in D1, D2, D3 |- *. subst s.
  unfold interpolate_unit_vectors. rewrite E2.
  rewrite (interpolate_all_ok trajectory jd_ref observatory sims interval) by (try apply at_node_coherent; intros k Hk; apply D3, Hk).
  cbn [rbind]. reflexivity.
Qed.

Lemma loop_rows : forall vs t0, 0 < interval ->
  exists blocks, loop (node t0) vs = Ok (concat blocks) /\
  Forall2 (fun v b => exists tc ti, (exists m : Z, tc = t0 + IZR m * interval) /\ (exists m : Z, ti = t0 + IZR m * interval) /\
     Rabs (v_jd v - ti) <= interval / 2 /\
     (forall u, sorted_times (u :: map v_jd vs) -> Rabs (u - t0) <= interval / 2 -> tc = ti) /\
     NoDup (map e_obj b) /\
     forall r, In r b <-> e_visit r = v /\ e_rho r = precise trajectory jd_ref (e_obj r) v /\ In (e_obj r) sims /\
       registered trajectory jd_ref observatory vec2pix nbrs n_sub interval tc (disc (v_ra v) (v_dec v) fov) (e_obj r) /\
       accepted (fov + buffer) v ti (e_obj r)) vs blocks.
Proof.
  induction vs as [|v vs IH]; intros t0 Hi.
  - exists []. split; [reflexivity|constructor].
  - destruct (step t0 v vs Hi) as [tc [ti [ds [[m1 Hm1] [[m2 Hm2] [Hn [Hs [Hd [Hk [_ [_ E]]]]]]]]]]]. destruct (IH ti Hi) as [bs [Eb HF]].
    rewrite E, Eb. exists (block fov buffer v ti ds :: bs). split; [reflexivity|]. constructor.
    + exists tc, ti. split; [eauto|]. split; [eauto|]. split; auto. split.
      { intros u Hso Hu. cbn [map] in Hso. destruct Hso as [Hso _]. eapply Hs; eauto. }
      split; [apply block_nodup; auto|]. intro r. rewrite in_block, Hk. tauto.
    + clear -HF Hm2 Hn. assert (G : forall l l', Forall2 (fun v b => exists tc ti0, (exists m : Z, tc = ti + IZR m * interval) /\ (exists m : Z, ti0 = ti + IZR m * interval) /\
        Rabs (v_jd v - ti0) <= interval / 2 /\ (forall u, sorted_times (u :: map v_jd vs) -> Rabs (u - ti) <= interval / 2 -> tc = ti0) /\
        NoDup (map e_obj b) /\ forall r, In r b <-> e_visit r = v /\ e_rho r = precise trajectory jd_ref (e_obj r) v /\ In (e_obj r) sims /\
        registered trajectory jd_ref observatory vec2pix nbrs n_sub interval tc (disc (v_ra v) (v_dec v) fov) (e_obj r) /\
        accepted (fov + buffer) v ti0 (e_obj r)) l l' ->
        Forall2 (fun v0 b => exists tc ti0, (exists m : Z, tc = t0 + IZR m * interval) /\ (exists m : Z, ti0 = t0 + IZR m * interval) /\
        Rabs (v_jd v0 - ti0) <= interval / 2 /\ (forall u, sorted_times (u :: map v_jd (v :: vs)) -> Rabs (u - t0) <= interval / 2 -> tc = ti0) /\
        NoDup (map e_obj b) /\ forall r, In r b <-> e_visit r = v0 /\ e_rho r = precise trajectory jd_ref (e_obj r) v0 /\ In (e_obj r) sims /\
        registered trajectory jd_ref observatory vec2pix nbrs n_sub interval tc (disc (v_ra v0) (v_dec v0) fov) (e_obj r) /\
        accepted (fov + buffer) v0 ti0 (e_obj r)) l l').
      { induction 1 as [|x b l l' Hx Hl IHl]; constructor; auto.
        destruct Hx as [tc [ti0 [[a Ha] [[c Hc] [H1 [H2 H3]]]]]]. exists tc, ti0.
        split; [exists (m2 + a)%Z; rewrite plus_IZR, Ha, Hm2; ring|]. split; [exists (m2 + c)%Z; rewrite plus_IZR, Hc, Hm2; ring|]. split; auto. split; auto.
        intros u Hso Hu. apply (H2 (v_jd v)); auto. destruct Hso as [_ Hso]. exact Hso. }
      apply G, HF.
Qed.
End P.

Lemma C41_rows_proof : forall trajectory jd_ref observatory vec2pix nbrs n_sub interval sims set_order disc fov buffer v0 vs,
  0 < interval -> set_listing set_order ->
  exists blocks, ephemeris_rows trajectory jd_ref observatory vec2pix nbrs n_sub interval sims set_order disc fov buffer (v0 :: vs) = Ok (concat blocks) /\
  Forall2 (fun v b => exists tc ti,
     (exists m : Z, tc = v_jd v0 + IZR m * interval) /\ (exists m : Z, ti = v_jd v0 + IZR m * interval) /\
     Rabs (v_jd v - ti) <= interval / 2 /\ (sorted_times (map v_jd (v0 :: vs)) -> tc = ti) /\
     NoDup (map e_obj b) /\
     forall r, In r b <-> e_visit r = v /\ e_rho r = precise trajectory jd_ref (e_obj r) v /\ In (e_obj r) sims /\
       registered trajectory jd_ref observatory vec2pix nbrs n_sub interval tc (disc (v_ra v) (v_dec v) fov) (e_obj r) /\
       let u := parabola trajectory jd_ref observatory interval ti (e_obj r) (v_jd v) in
       degrees_between (scale (/ norm u) u) (v_dir v) < fov + buffer /\
       degrees_between (scale (/ norm (e_rho r)) (e_rho r)) (v_dir v) < fov + buffer) (v0 :: vs) blocks.
Proof.
  intros trajectory jd_ref observatory vec2pix nbrs n_sub interval sims set_order disc fov buffer v0 vs Hi Ho.
  destruct (loop_rows trajectory jd_ref observatory vec2pix nbrs n_sub interval sims set_order disc Ho fov buffer (v0 :: vs) (v_jd v0) Hi) as [bs [E HF]].
  exists bs. split; [exact E|]. eapply Forall2_impl_in; [exact HF|]. intros v b _ Hv.
  destruct Hv as [tc [ti [H1 [H2 [H3 [H4 [H5 H6]]]]]]]. exists tc, ti. split; auto. split; auto. split; auto. split.
  - intro Hs. apply (H4 (v_jd v0)); [|replace (v_jd v0 - v_jd v0) with 0 by ring; rewrite Rabs_R0; lra].
    cbn [map] in Hs |- *. split; [lra|exact Hs].
  - split; auto. intro r. rewrite H6. unfold accepted. cbv zeta. split.
    + intros [A [B [C [D [F G]]]]]. rewrite B. auto 8.
    + intros [A [B [C [D [F G]]]]]. rewrite B in G. auto 8.
Qed.

Lemma C41_empty_proof : forall trajectory jd_ref observatory vec2pix nbrs n_sub interval sims set_order disc fov buffer,
  ephemeris_rows trajectory jd_ref observatory vec2pix nbrs n_sub interval sims set_order disc fov buffer [] = Err IndexError.
Proof. reflexivity. Qed.

(** The tests compare true angles. *)
Lemma C41_angle_proof : forall w d, w <> V3 0 0 0 -> unit d -> angle_between (scale (/ norm w) w) d (degrees_between (scale (/ norm w) w) d).
Proof.
  intros w d Hw Hd. pose proof (scaled_unit w Hw) as Hu. pose proof (dot_unit_bound _ _ Hu Hd) as HB.
  unfold angle_between, degrees_between. set (u := scale (/ norm w) w) in *. pose proof PI_RGT_0 as HP.
  pose proof (acos_bound (dot u d)) as HA. split.
  - split; apply Rmult_le_reg_r with PI; try lra; replace (acos (dot u d) * 180 / PI * PI) with (acos (dot u d) * 180) by (field; lra); nra.
  - replace (acos (dot u d) * 180 / PI * PI / 180) with (acos (dot u d)) by (field; lra). rewrite cos_acos by lra. reflexivity.
Qed.

(** Only the neighbours of the pixels an object passes are registered: a disc
    inside the object's own pixel misses it. *)
Lemma C41_own_pixel_refuted_proof : forall trajectory jd_ref observatory vec2pix nbrs n_sub interval sims set_order disc t ra dec fov k p,
  0 < interval -> set_listing set_order -> In k sims -> ~ In p (nbrs p) ->
  (forall u, vec2pix (parabola trajectory jd_ref observatory interval t k u) = p) -> disc ra dec fov = [p] ->
  ~ In k (snd (get_designations trajectory jd_ref observatory vec2pix nbrs n_sub interval sims set_order disc t ra dec fov
     (init trajectory jd_ref observatory vec2pix nbrs n_sub interval sims t))).
Proof.
  intros trajectory jd_ref observatory vec2pix nbrs n_sub interval sims set_order disc t ra dec fov k p Hi Ho Hk Hp Hv Hd Hin.
  rewrite start_at in Hin.
  assert (Hn : Rabs (t - t) <= interval / 2) by (replace (t - t) with 0 by ring; rewrite Rabs_R0; lra).
  destruct (desig_at trajectory jd_ref observatory vec2pix nbrs n_sub interval sims set_order disc Ho t ra dec fov t t
    (update_near trajectory jd_ref observatory vec2pix nbrs n_sub interval sims t t Hn)) as [_ [_ H]].
  apply H in Hin. destruct Hin as [_ [u [q [_ [Hq Hr]]]]]. rewrite Hd in Hq. destruct Hq as [<-|[]]. rewrite Hv in Hr. contradiction.
Qed.

(** ** C70: the order of the rows *)
Lemma Permutation_concat_map : forall A (l l' : list (list A)), Forall2 (@Permutation A) l l' -> Permutation (concat l) (concat l').
Proof. induction 1; cbn; auto. apply Permutation_app; auto. Qed.

Lemma C70_same_rows_proof : forall trajectory jd_ref observatory vec2pix nbrs n_sub interval sims order1 order2 disc fov buffer v0 vs,
  0 < interval -> set_listing order1 -> set_listing order2 ->
  exists rows1 rows2,
   ephemeris_rows trajectory jd_ref observatory vec2pix nbrs n_sub interval sims order1 disc fov buffer (v0 :: vs) = Ok rows1 /\
   ephemeris_rows trajectory jd_ref observatory vec2pix nbrs n_sub interval sims order2 disc fov buffer (v0 :: vs) = Ok rows2 /\
   Permutation rows1 rows2.
Proof.
  intros trajectory jd_ref observatory vec2pix nbrs n_sub interval sims order1 order2 disc fov buffer v0 vs Hi H1 H2.
  unfold ephemeris_rows. rewrite start_at.
  generalize (v0 :: vs) at 1 2 as l. intro l. generalize (v_jd v0) as t0. clear v0 vs. induction l as [|v l IH]; intro t0.
  - exists [], []. split; [reflexivity|]. split; [reflexivity|constructor].
  - destruct (step trajectory jd_ref observatory vec2pix nbrs n_sub interval sims order1 disc H1 fov buffer t0 v l Hi) as [tc [ti [ds [_ [_ [Hn [_ [_ [_ [Ed [Eu E]]]]]]]]]]].
    destruct (step trajectory jd_ref observatory vec2pix nbrs n_sub interval sims order2 disc H2 fov buffer t0 v l Hi) as [tc' [ti' [ds' [_ [_ [Hn' [_ [_ [_ [Ed' [Eu' E']]]]]]]]]]].
    rewrite Eu in Eu'. apply (f_equal p_t0) in Eu'. cbn in Eu'. subst ti'.
    destruct (IH ti) as [r1 [r2 [E1 [E2 HP]]]]. rewrite E, E', E1, E2. do 2 eexists. split; [reflexivity|]. split; [reflexivity|].
    apply Permutation_app; auto. unfold block. apply Permutation_flat_map, Permutation_map.
    rewrite Ed, Ed'. unfold get_designations. cbn [snd]. eapply Permutation_trans; [apply Permutation_sym, H1|apply H2].
Qed.

(** Two objects in one visit: two listings of the set of designations give two
    orders of the rows, and the random numbers of a row go with its place. *)
Definition still (k : string) (t : R) : vec * vec := (V3 1 0 0, V3 0 0 0).
Definition one_visit : visit := {| v_field := "f"; v_jd := 0; v_ra := 0; v_dec := 0; v_dir := V3 1 0 0; v_obs := V3 0 0 0 |}.
Definition two_rows (order : list string -> list string) : result (list ephem_row) :=
  ephemeris_rows still 0 (fun _ => V3 0 0 0) (fun _ => 0%Z) (fun _ => [0%Z]) 3 1 ["a"; "b"]%string order (fun _ _ _ => [0%Z]) 200 1 [one_visit].
Definition as_meas (r : ephem_row) : meas :=
  {| m_ra := 0; m_dec := 0; m_trailed := None; m_psf := None; m_ra_true := None; m_dec_true := None; m_trailed_true := 20; m_psf_true := 20;
     m_sig_trailed := 1; m_sig_psf := 1; m_sig_ast := 0; m_snr := 5 |}.
(** Measured magnitudes with the names of their objects. *)
Definition measured (s1 : nat -> R) (rows : list ephem_row) : list (string * option R) :=
  combine (map e_obj rows) (map m_trailed (randomizeAstrometryAndPhotometry s1 (fun _ => 0) (fun _ => V3 0 0 0) false false (map as_meas rows))).

Lemma degrees_small : forall a b, degrees_between a b < 200 + 1.
Proof.
  intros a b. unfold degrees_between. pose proof PI_RGT_0 as HP. pose proof (acos_bound (dot a b)) as HA.
  apply Rle_lt_trans with 180; [|lra]. apply Rmult_le_reg_r with PI; [lra|].
  replace (acos (dot a b) * 180 / PI * PI) with (acos (dot a b) * 180) by (field; lra). nra.
Qed.

Lemma two_rows_order : forall order, set_listing order -> exists rho, two_rows order
  = Ok (map (fun k => {| e_obj := k; e_visit := one_visit; e_rho := rho |}) (order ["a"; "b"]%string)).
Proof.
  intros order Ho. unfold two_rows, ephemeris_rows. rewrite start_at.
  destruct (step still 0 (fun _ => V3 0 0 0) (fun _ => 0%Z) (fun _ => [0%Z]) 3 1 ["a"; "b"]%string order (fun _ _ _ => [0%Z]) Ho 200 1 0 one_visit [] ltac:(lra))
    as [tc [ti [ds [_ [_ [_ [_ [_ [_ [Ed [_ E]]]]]]]]]]].
  cbn [one_visit v_jd] in E |- *. rewrite E. cbn [visits_loop rmap].
  assert (Eds : ds = order ["a"; "b"]%string).
  { rewrite Ed. unfold get_designations. cbn [snd one_visit v_jd v_ra v_dec].
    rewrite update_near by (replace (0 - 0) with 0 by ring; rewrite Rabs_R0; lra). reflexivity. }
  rewrite Eds. exists (precise still 0 "a" one_visit). f_equal. rewrite app_nil_r. unfold block.
  clear Eds Ed E. induction (order ["a"; "b"]%string) as [|k l IH]; [reflexivity|]. cbn [map flat_map fst snd]. rewrite IH. clear IH.
  unfold one_object. destruct (Rlt_dec _ _) as [P1|N1]; [|destruct N1; apply degrees_small].
  destruct (Rlt_dec _ _) as [P2|N2]; [|destruct N2; apply degrees_small]. reflexivity.
Qed.

Lemma C70_order_refuted_proof : exists order1 order2 rows1 rows2 (s1 : nat -> R),
  set_listing order1 /\ set_listing order2 /\ two_rows order1 = Ok rows1 /\ two_rows order2 = Ok rows2 /\
  In ("a"%string, Some 20) (measured s1 rows1) /\ ~ In ("a"%string, Some 20) (measured s1 rows2).
Proof.
  assert (O1 : set_listing (fun l => l)) by (intro l; apply Permutation_refl).
  assert (O2 : set_listing (@rev string)) by (intro l; apply Permutation_rev).
  destruct (two_rows_order _ O1) as [rho1 E1]. destruct (two_rows_order _ O2) as [rho2 E2].
  exists (fun l => l), (@rev string). do 2 eexists. exists (fun i => INR i).
  split; [exact O1|]. split; [exact O2|]. split; [exact E1|]. split; [exact E2|].
  cbn. unfold measured. cbn. unfold randomizePhotometry. split.
  - left. do 2 f_equal. lra.
  - intros [E|[E|[]]]; [discriminate|]. injection E as E. lra.
Qed.
