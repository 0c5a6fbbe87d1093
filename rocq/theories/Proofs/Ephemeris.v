(** Proofs about interpolation and the ephemeris loop. *)
From Coq Require Import String List Arith ZArith Bool Reals Lra Lia Permutation.
From Verif Require Import Base.Prelude Model.Sphere Model.Ephemeris Spec.Ephemeris Proofs.Photometry.
Import ListNotations.
Open Scope R_scope.

(** ** C38 *)
Lemma C38_weights_proof : forall t0 t1 t2, t0 <> t1 -> t0 <> t2 -> t1 <> t2 ->
  (forall t a b c, lagrange3 t0 t1 t2 t = (a, b, c) -> a + b + c = 1) /\
  lagrange3 t0 t1 t2 t0 = (1, 0, 0) /\ lagrange3 t0 t1 t2 t1 = (0, 1, 0) /\ lagrange3 t0 t1 t2 t2 = (0, 0, 1).
Proof.
  intros t0 t1 t2 H1 H2 H3. unfold lagrange3. split; [|split; [|split]].
  - intros t a b c E. injection E as <- <- <-. field. repeat split; lra.
  - repeat apply f_equal2; try apply f_equal; field; repeat split; lra.
  - repeat apply f_equal2; try apply f_equal; field; repeat split; lra.
  - repeat apply f_equal2; try apply f_equal; field; repeat split; lra.
Qed.
Lemma quadratic_exact : forall f t0 t1 t2 t a b c, quadratic f -> t0 <> t1 -> t0 <> t2 -> t1 <> t2 ->
  lagrange3 t0 t1 t2 t = (a, b, c) -> a * f t0 + b * f t1 + c * f t2 = f t.
Proof.
  intros f t0 t1 t2 t a b c [p [q [r Hf]]] H1 H2 H3 E. rewrite !Hf. unfold lagrange3 in E. injection E as <- <- <-. field. repeat split; lra.
Qed.
Lemma C38_quadratic_proof : forall f t0 t1 t2 t, quadratic_motion f -> t0 <> t1 -> t0 <> t2 -> t1 <> t2 ->
  combine3 (lagrange3 t0 t1 t2 t) (f t0) (f t1) (f t2) = f t.
Proof.
  intros f t0 t1 t2 t [Hx [Hy Hz]] H1 H2 H3. destruct (lagrange3 t0 t1 t2 t) as [[a b] c] eqn:E.
  unfold combine3, vadd, scale. cbn [vx vy vz].
  pose proof (quadratic_exact _ _ _ _ _ _ _ _ Hx H1 H2 H3 E) as Ex. pose proof (quadratic_exact _ _ _ _ _ _ _ _ Hy H1 H2 H3 E) as Ey.
  pose proof (quadratic_exact _ _ _ _ _ _ _ _ Hz H1 H2 H3 E) as Ez. cbn beta in *. destruct (f t) as [x y z]. cbn [vx vy vz] in *. congruence.
Qed.
(** Errors of the nodes are not amplified by more than a quarter. *)
Lemma C38_stable_proof : forall d t0 t a b c, 0 < d -> Rabs (t - t0) <= d / 2 ->
  lagrange3 (t0 - d) t0 (t0 + d) t = (a, b, c) -> Rabs a + Rabs b + Rabs c <= 5 / 4.
Proof.
  intros d t0 t a b c Hd Ht E.
  assert (Hx : exists x, t = t0 + x * d /\ - (1/2) <= x <= 1/2).
  { exists ((t - t0) / d). split; [field; lra|].
    assert (Hb : - (d / 2) <= t - t0 <= d / 2).
    { split; [|eapply Rle_trans; [apply Rle_abs|auto]]. rewrite Rabs_minus_sym in Ht.
      pose proof (Rle_abs (t0 - t)). lra. }
    split; apply Rmult_le_reg_r with d; try lra; replace ((t - t0) / d * d) with (t - t0) by (field; lra); lra. }
  destruct Hx as [x [-> Hx]]. unfold lagrange3 in E. injection E as Ea Eb Ec.
  replace ((t0 + x * d - t0) * (t0 + x * d - (t0 + d)) / ((t0 - d - t0) * (t0 - d - (t0 + d)))) with (x * (x - 1) / 2) in Ea by (field; lra).
  replace ((t0 + x * d - (t0 - d)) * (t0 + x * d - (t0 + d)) / ((t0 - (t0 - d)) * (t0 - (t0 + d)))) with (1 - x * x) in Eb by (field; lra).
  replace ((t0 + x * d - (t0 - d)) * (t0 + x * d - t0) / ((t0 + d - (t0 - d)) * (t0 + d - t0))) with (x * (x + 1) / 2) in Ec by (field; lra).
  subst a b c. rewrite (Rabs_right (1 - x * x)) by nra.
  destruct (Rle_dec 0 x).
  - rewrite (Rabs_left1 (x * (x - 1) / 2)) by nra. rewrite (Rabs_right (x * (x + 1) / 2)) by nra. nra.
  - rewrite (Rabs_right (x * (x - 1) / 2)) by nra. rewrite (Rabs_left1 (x * (x + 1) / 2)) by nra. nra.
Qed.

(** ** Rounding *)
Lemma Int_part_spec : forall x, IZR (Int_part x) <= x < IZR (Int_part x) + 1.
Proof. intro x. pose proof (base_Int_part x). lra. Qed.
Lemma py_round_near : forall x, Rabs (x - IZR (py_round x)) <= 1 / 2.
Proof.
  intro x. unfold py_round. pose proof (Int_part_spec (x + 1/2)) as H. set (n := Int_part (x + 1/2)) in *.
  destruct (Req_EM_T (x + 1/2) (IZR n)) as [E|E].
  - destruct (Z.even n); [|rewrite minus_IZR]; apply Rabs_le; lra.
  - apply Rabs_le; lra.
Qed.

Section P.
Variables (trajectory : string -> R -> vec * vec) (jd_ref : R) (observatory : R -> vec) (vec2pix : vec -> Z) (nbrs : Z -> list Z)
  (n_sub : nat) (interval : R) (sims : list string).
Notation update := (update_pickets trajectory jd_ref observatory vec2pix nbrs n_sub interval sims).
Notation start := (init trajectory jd_ref observatory vec2pix nbrs n_sub interval sims).
Notation regular s := (p_tm s = p_t0 s - interval /\ p_tp s = p_t0 s + interval).
Notation dirs := (get_all_object_unit_vectors trajectory jd_ref sims).

(** The whole cached state is a function of the central node. *)
Definition at_node (t0 : R) : pixdict :=
  make vec2pix nbrs n_sub sims (t0 - interval) t0 (t0 + interval) (observatory (t0 - interval)) (observatory t0) (observatory (t0 + interval))
    (dirs (observatory (t0 - interval)) (t0 - interval)) (dirs (observatory t0) t0) (dirs (observatory (t0 + interval)) (t0 + interval)).
Lemma start_at : forall t, start t = at_node t.
Proof. reflexivity. Qed.
Lemma update_at : forall t t0, exists m : Z, update t (at_node t0) = at_node (t0 + IZR m * interval).
Proof.
  intros t t0. unfold update_pickets. cbn [at_node make p_t0 p_tm p_tp p_rm p_r0 p_rp p_dm p_d0 p_dp].
  destruct (Rlt_dec _ _) as [H1|H1].
  - destruct (Rle_dec (Rabs _) _) as [H2|H2].
    + destruct (Rle_dec t _) as [H3|H3].
      * exists (-1)%Z. unfold at_node. replace (t0 + -1 * interval) with (t0 - interval) by ring.
        replace (t0 - interval + interval) with t0 by ring. reflexivity.
      * exists 1%Z. unfold at_node. replace (t0 + 1 * interval) with (t0 + interval) by ring.
        replace (t0 + interval - interval) with t0 by ring. reflexivity.
    + eexists. unfold at_node. reflexivity.
  - exists 0%Z. unfold at_node. replace (t0 + 0 * interval) with t0 by ring. reflexivity.
Qed.

Lemma abs_cases : forall a b, 0 <= b -> (Rabs a <= b <-> - b <= a <= b).
Proof.
  intros a b Hb. split; intro H.
  - split; [|eapply Rle_trans; [apply Rle_abs|auto]]. pose proof (Rle_abs (-a)). rewrite Rabs_Ropp in H0. lra.
  - apply Rabs_le. lra.
Qed.

(** Where one update leads. *)
Lemma update_cases : forall t s, 0 < interval -> regular s ->
  let s' := update t s in
  regular s' /\
  ((- (1/2) * interval <= t - p_t0 s <= 1/2 * interval /\ s' = s) \/
   (- (3/2) * interval <= t - p_t0 s <= - interval /\ p_t0 s' = p_t0 s - interval) \/
   (- interval < t - p_t0 s < - (1/2) * interval /\ p_t0 s' = p_t0 s + interval) \/
   (1/2 * interval < t - p_t0 s <= 3/2 * interval /\ p_t0 s' = p_t0 s + interval) \/
   (Rabs (t - p_t0 s) > 3/2 * interval /\ Rabs (t - p_t0 s') <= 1/2 * interval)).
Proof.
  intros t s Hi [Hm Hp] s'. subst s'. unfold update_pickets.
  destruct (Rlt_dec _ _) as [H1|H1].
  - destruct (Rle_dec (Rabs _) _) as [H2|H2].
    + apply abs_cases in H2; [|lra]. destruct (Rle_dec t _) as [H3|H3]; cbn [make p_t0 p_tm p_tp].
      * split; [split; [auto|rewrite Hm; lra]|]. right; left. lra.
      * split; [split; [rewrite Hp; lra|auto]|].
        assert (N : ~ (- (1/2 * interval) <= t - p_t0 s <= 1/2 * interval)) by (rewrite <- abs_cases by lra; lra).
        destruct (Rlt_dec (t - p_t0 s) (- (1/2) * interval)); [right; right; left|right; right; right; left]; lra.
    + cbn [make p_t0 p_tm p_tp]. split; [split; auto|]. right; right; right; right. split; [lra|].
      pose proof (py_round_near ((t - p_t0 s) / interval)) as HR. set (n := py_round _) in *.
      apply abs_cases in HR; [|lra]. apply abs_cases; [lra|].
      assert (E : t - (p_t0 s + IZR n * interval) = ((t - p_t0 s) / interval - IZR n) * interval) by (field; lra).
      rewrite E. split; nra.
  - split; [auto|]. left. split; auto. apply Rnot_lt_le in H1. apply abs_cases in H1; lra.
Qed.

Lemma C39_interpolate_proof' : forall t s, 0 < interval -> regular s ->
  regular (update t (update t s)) /\ Rabs (t - p_t0 (update t (update t s))) <= interval / 2.
Proof.
  intros t s Hi Hr. destruct (update_cases t s Hi Hr) as [R1 C1]. set (s1 := update t s) in *.
  destruct (update_cases t s1 Hi R1) as [R2 C2]. set (s2 := update t s1) in *. split; auto.
  apply abs_cases; [lra|].
  destruct C1 as [[B1 E1]|[[B1 E1]|[[B1 E1]|[[B1 E1]|[B1 E1]]]]].
  - destruct C2 as [[B2 E2]|[[B2 E2]|[[B2 E2]|[[B2 E2]|[B2 E2]]]]]; rewrite ?E1, ?E2 in *; try lra.
    exfalso. assert (Rabs (t - p_t0 s) <= 1/2 * interval) by (apply abs_cases; lra). lra.
  - destruct C2 as [[B2 E2]|[[B2 E2]|[[B2 E2]|[[B2 E2]|[B2 E2]]]]]; rewrite ?E2 in *; rewrite ?E1 in *; try lra.
    exfalso. assert (Rabs (t - (p_t0 s - interval)) <= 1/2 * interval) by (apply abs_cases; lra). lra.
  - destruct C2 as [[B2 E2]|[[B2 E2]|[[B2 E2]|[[B2 E2]|[B2 E2]]]]]; rewrite ?E2 in *; rewrite ?E1 in *; try lra.
    apply abs_cases in E2; lra.
  - destruct C2 as [[B2 E2]|[[B2 E2]|[[B2 E2]|[[B2 E2]|[B2 E2]]]]]; rewrite ?E2 in *; rewrite ?E1 in *; try lra.
    exfalso. assert (Rabs (t - (p_t0 s + interval)) <= 1/2 * interval) by (apply abs_cases; lra). lra.
  - apply abs_cases in E1; [|lra]. destruct C2 as [[B2 E2]|[[B2 E2]|[[B2 E2]|[[B2 E2]|[B2 E2]]]]]; try lra.
    + rewrite E2. lra.
    + apply abs_cases in E2; lra.
Qed.

Lemma fold_regular : forall ts s, 0 < interval -> regular s -> regular (fold_left (fun s t => update t s) ts s).
Proof. induction ts as [|t ts IH]; intros s Hi Hr; cbn; auto. apply IH; auto. apply update_cases; auto. Qed.
Lemma start_regular : forall t, regular (start t).
Proof. intro t. split; reflexivity. Qed.

(** Requests in time order: one update suffices. *)
Lemma update_forward : forall t s u, 0 < interval -> regular s -> Rabs (u - p_t0 s) <= interval / 2 -> u <= t ->
  Rabs (t - p_t0 (update t s)) <= interval / 2.
Proof.
  intros t s u Hi Hr Hu Hut. apply abs_cases in Hu; [|lra]. apply abs_cases; [lra|].
  destruct (update_cases t s Hi Hr) as [R1 [[B1 E1]|[[B1 E1]|[[B1 E1]|[[B1 E1]|[B1 E1]]]]]]; try rewrite E1; try lra.
  apply abs_cases in E1; lra.
Qed.
End P.

Lemma C39_interpolate_proof : forall trajectory jd_ref observatory vec2pix nbrs n_sub interval sims first earlier t,
  0 < interval ->
  let update := update_pickets trajectory jd_ref observatory vec2pix nbrs n_sub interval sims in
  let s := fold_left (fun s u => update u s) earlier (init trajectory jd_ref observatory vec2pix nbrs n_sub interval sims first) in
  Rabs (t - p_t0 (update t (update t s))) <= interval / 2.
Proof.
  intros trajectory jd_ref observatory vec2pix nbrs n_sub interval sims first earlier t Hi update s.
  apply C39_interpolate_proof'; auto. apply fold_regular; auto; apply start_regular.
Qed.

Lemma sorted_app : forall l a, sorted_times (a :: l) -> forall b, In b l -> a <= b.
Proof.
  induction l as [|x l IH]; intros a H b Hb; [destruct Hb|]. destruct H as [H1 H2]. destruct Hb as [->|Hb]; auto.
  apply Rle_trans with x; auto.
Qed.
Lemma C39_sorted_proof : forall trajectory jd_ref observatory vec2pix nbrs n_sub interval sims first earlier t,
  0 < interval -> sorted_times (first :: earlier ++ [t])%list ->
  let update := update_pickets trajectory jd_ref observatory vec2pix nbrs n_sub interval sims in
  let s := fold_left (fun s u => update u s) earlier (init trajectory jd_ref observatory vec2pix nbrs n_sub interval sims first) in
  Rabs (t - p_t0 (update t s)) <= interval / 2.
Proof.
  intros trajectory jd_ref observatory vec2pix nbrs n_sub interval sims first earlier t Hi Hs update s.
  assert (G : forall l s u, (let s0 := s in p_tm s0 = p_t0 s0 - interval /\ p_tp s0 = p_t0 s0 + interval) -> Rabs (u - p_t0 s) <= interval / 2 ->
     sorted_times (u :: l ++ [t])%list -> Rabs (t - p_t0 (update t (fold_left (fun s u => update u s) l s))) <= interval / 2).
  { induction l as [|x l IH]; intros s0 u Hr Hu Hso.
    - cbn. destruct Hso as [Hso _]. eapply update_forward; eauto.
    - cbn [fold_left]. destruct Hso as [H1 H2]. apply (IH (update x s0) x); auto.
      + apply update_cases; auto.
      + eapply update_forward; eauto. }
  apply (G earlier _ first); auto; try apply start_regular.
  cbn. replace (first - first) with 0 by ring. rewrite Rabs_R0. lra.
Qed.

(** Going back by a little more than half an interval moves the window
    forward, away from the requested time. *)
Lemma C39_backward_refuted_proof : forall trajectory jd_ref observatory vec2pix nbrs n_sub interval sims first t,
  0 < interval -> first - interval < t < first - interval / 2 ->
  let s := update_pickets trajectory jd_ref observatory vec2pix nbrs n_sub interval sims t
             (init trajectory jd_ref observatory vec2pix nbrs n_sub interval sims first) in
  t < p_tm s /\ Rabs (t - p_t0 s) > 3 / 2 * interval.
Proof.
  intros trajectory jd_ref observatory vec2pix nbrs n_sub interval sims first t Hi Ht s.
  assert (C := update_cases trajectory jd_ref observatory vec2pix nbrs n_sub interval sims t (init trajectory jd_ref observatory vec2pix nbrs n_sub interval sims first) Hi
    (start_regular _ _ _ _ _ _ _ _ _)). fold s in C. destruct C as [[Rm Rp] C]. cbn [init make p_t0] in C.
  assert (E : p_t0 s = first + interval).
  { destruct C as [[B1 E1]|[[B1 E1]|[[B1 E1]|[[B1 E1]|[B1 E1]]]]]; try lra.
    exfalso. assert (Rabs (t - first) <= 3/2 * interval) by (apply abs_cases; lra). lra. }
  rewrite Rm, E. split; [lra|]. rewrite Rabs_left by lra. lra.
Qed.

(** ** C40 *)
Lemma dirs_get : forall trajectory jd_ref sims r t k, In k sims ->
  dict_get (get_all_object_unit_vectors trajectory jd_ref sims r t) k = Ok (rho_hat trajectory jd_ref k r t).
Proof.
  intros trajectory jd_ref sims r t k. unfold get_all_object_unit_vectors. induction sims as [|x l IH]; intro H; [destruct H|].
  cbn [map dict_get]. destruct (String.eqb_spec x k) as [->|Hne]; [reflexivity|]. apply IH. destruct H; [contradiction|auto].
Qed.

Lemma at_node_fold : forall trajectory jd_ref observatory vec2pix nbrs n_sub interval sims l first,
  exists m : Z, fold_left (fun s u => update_pickets trajectory jd_ref observatory vec2pix nbrs n_sub interval sims u s) l
     (at_node trajectory jd_ref observatory vec2pix nbrs n_sub interval sims first)
   = at_node trajectory jd_ref observatory vec2pix nbrs n_sub interval sims (first + IZR m * interval).
Proof.
  intros trajectory jd_ref observatory vec2pix nbrs n_sub interval sims. induction l as [|t l IH]; intro first.
  - exists 0%Z. cbn. f_equal. ring.
  - cbn [fold_left]. destruct (update_at trajectory jd_ref observatory vec2pix nbrs n_sub interval sims t first) as [m ->].
    destruct (IH (first + IZR m * interval)) as [m' ->]. exists (m + m')%Z. rewrite plus_IZR. f_equal. ring.
Qed.
Lemma at_node_coherent : forall trajectory jd_ref observatory vec2pix nbrs n_sub interval sims t0,
  coherent trajectory jd_ref observatory sims interval (at_node trajectory jd_ref observatory vec2pix nbrs n_sub interval sims t0).
Proof.
  intros. split; [reflexivity|]. split; [reflexivity|]. intros k Hk. cbn [at_node make p_dm p_d0 p_dp p_tm p_t0 p_tp].
  rewrite !dirs_get by auto. split; [|split]; reflexivity.
Qed.
Lemma C40_coherent_proof : forall trajectory jd_ref observatory vec2pix nbrs n_sub interval sims first requests,
  let update := update_pickets trajectory jd_ref observatory vec2pix nbrs n_sub interval sims in
  let s := fold_left (fun s u => update u s) requests (init trajectory jd_ref observatory vec2pix nbrs n_sub interval sims first) in
  coherent trajectory jd_ref observatory sims interval s /\
  exists m : Z, p_t0 s = first + IZR m * interval.
Proof.
  intros trajectory jd_ref observatory vec2pix nbrs n_sub interval sims first requests update s.
  destruct (at_node_fold trajectory jd_ref observatory vec2pix nbrs n_sub interval sims requests first) as [m E].
  subst s update. rewrite start_at, E. split; [apply at_node_coherent|]. exists m. reflexivity.
Qed.

Lemma interpolate_all_ok : forall trajectory jd_ref observatory sims interval s w ds,
  coherent trajectory jd_ref observatory sims interval s -> (forall k, In k ds -> In k sims) ->
  interpolate_all w s ds = Ok (map (fun k => (k, combine3 w (seen trajectory jd_ref observatory k (p_tm s))
     (seen trajectory jd_ref observatory k (p_t0 s)) (seen trajectory jd_ref observatory k (p_tp s)))) ds).
Proof.
  intros trajectory jd_ref observatory sims interval s w ds Hc. induction ds as [|k ds IH]; intro Hin; cbn [interpolate_all map]; [reflexivity|].
  destruct Hc as [H1 [H2 H3]]. destruct (H3 k (Hin k (or_introl eq_refl))) as [E1 [E2 E3]]. rewrite E1, E2, E3. cbn [rbind].
  rewrite IH by (intros; apply Hin; right; auto). reflexivity.
Qed.

Lemma C40_interpolated_proof : forall trajectory jd_ref observatory vec2pix nbrs n_sub interval sims first requests desigs t,
  0 < interval -> (forall k, In k desigs -> In k sims) ->
  let update := update_pickets trajectory jd_ref observatory vec2pix nbrs n_sub interval sims in
  let s := fold_left (fun s u => update u s) (requests ++ [t])%list (init trajectory jd_ref observatory vec2pix nbrs n_sub interval sims first) in
  exists t0, Rabs (t - t0) <= interval / 2 /\
   snd (interpolate_unit_vectors trajectory jd_ref observatory vec2pix nbrs n_sub interval sims desigs t s)
   = Ok (map (fun k => (k, parabola trajectory jd_ref observatory interval t0 k t)) desigs) /\
   (forall k, quadratic_motion (seen trajectory jd_ref observatory k) ->
      parabola trajectory jd_ref observatory interval t0 k t = seen trajectory jd_ref observatory k t).
Proof.
  intros trajectory jd_ref observatory vec2pix nbrs n_sub interval sims first requests desigs t Hi Hin update s.
  unfold interpolate_unit_vectors. cbn [snd]. fold update. subst s. rewrite fold_left_app. cbn [fold_left].
  pose proof (C39_interpolate_proof trajectory jd_ref observatory vec2pix nbrs n_sub interval sims first requests t Hi) as Hc. cbv zeta in Hc. fold update in Hc.
  set (s := fold_left (fun s u => update u s) requests _) in *.
  destruct (at_node_fold trajectory jd_ref observatory vec2pix nbrs n_sub interval sims (requests ++ [t; t]) first) as [m E].
  rewrite fold_left_app in E. cbn [fold_left] in E. change (update t (update t s) = at_node trajectory jd_ref observatory vec2pix nbrs n_sub interval sims (first + IZR m * interval)) in E.
  change (Rabs (t - p_t0 (update t (update t s))) <= interval / 2) in Hc.
  rewrite E in *. exists (first + IZR m * interval). split; [exact Hc|]. split.
  - rewrite (interpolate_all_ok trajectory jd_ref observatory sims interval) by (auto; apply at_node_coherent). reflexivity.
  - intros k Hq. unfold parabola. apply C38_quadratic_proof; auto; lra.
Qed.
