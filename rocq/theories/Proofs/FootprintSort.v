(** Sorting the corners of a detector by angle recovers its outline. *)
From Coq Require Import String List Arith Bool Reals Lra Lia Permutation Sorting.Sorted.
From Verif Require Import Base.Prelude Base.Frame Model.Sphere Model.Footprint Spec.Footprint Proofs.Sphere Proofs.Footprint.
Import ListNotations.
Open Scope R_scope.

(** ** The sort *)
Section SortReal.
Context {A : Type} (key : A -> R).
Lemma insert_real_perm : forall x l, Permutation (insert_real key x l) (x :: l).
Proof.
  intros x l. induction l as [|y l IH]; cbn; auto. destruct (Rle_dec _ _); auto.
  eapply Permutation_trans; [apply perm_skip, IH|apply perm_swap].
Qed.
Lemma sort_real_perm : forall l, Permutation (sort_real key l) l.
Proof. induction l as [|x l IH]; cbn; auto. eapply Permutation_trans; [apply insert_real_perm|]. apply perm_skip, IH. Qed.
Definition le_key (a b : A) := key a <= key b.
Lemma insert_real_sorted : forall x l, StronglySorted le_key l -> StronglySorted le_key (insert_real key x l).
Proof.
  intros x l. induction l as [|y l IH]; intro H; cbn; [repeat constructor|]. inversion H as [|? ? H1 H2]; subst.
  destruct (Rle_dec (key x) (key y)) as [L|L].
  - constructor; auto. constructor; auto. eapply Forall_impl; [|exact H2]. unfold le_key. intros a Ha. lra.
  - constructor; auto. apply Forall_forall. intros z Hz. apply (Permutation_in z (insert_real_perm x l)) in Hz.
    destruct Hz as [<-|Hz]; [unfold le_key; lra|]. rewrite Forall_forall in H2. auto.
Qed.
Lemma sort_real_sorted : forall l, StronglySorted le_key (sort_real key l).
Proof. induction l as [|x l IH]; cbn; [constructor|]. apply insert_real_sorted, IH. Qed.
Lemma sorted_unique : forall l m, StronglySorted (fun a b => key a < key b) l -> StronglySorted le_key m -> Permutation m l -> m = l.
Proof.
  induction l as [|x l IH]; intros m Hl Hm HP.
  - apply Permutation_sym, Permutation_nil in HP. exact HP.
  - inversion Hl as [|? ? H1 H2]; subst. destruct m as [|y m]; [apply Permutation_nil in HP; discriminate|].
    inversion Hm as [|? ? G1 G2]; subst. rewrite Forall_forall in H2, G2.
    assert (E : y = x).
    { assert (Hy : In y (x :: l)) by (eapply Permutation_in; [exact HP|left; auto]).
      assert (Hx : In x (y :: m)) by (eapply Permutation_in; [apply Permutation_sym, HP|left; auto]).
      destruct Hy as [Hy|Hy]; [auto|]. destruct Hx as [Hx|Hx]; [auto|]. specialize (H2 y Hy). specialize (G2 x Hx). unfold le_key in G2. lra. }
    subst y. f_equal. apply IH; auto. eapply Permutation_cons_inv; exact HP.
Qed.
End SortReal.

(** ** Rotations of an outline *)
Lemma edges_rot1 : forall v l, Permutation (edges (v :: l)) (edges (l ++ [v])).
Proof.
  intros v [|w l]; [apply Permutation_refl|]. change (Permutation ((v, w) :: combine (w :: l) (l ++ [v])) (combine ((w :: l) ++ [v]) ((l ++ [v]) ++ [w])))%list.
  rewrite (combine_app _ _ (w :: l) [v] (l ++ [v]) [w]) by (rewrite app_length; cbn; lia).
  cbn [combine]. apply Permutation_cons_append.
Qed.
Lemma edges_rot : forall l1 l2, Permutation (edges (l1 ++ l2)) (edges (l2 ++ l1)).
Proof.
  induction l1 as [|v l1 IH]; intro l2; cbn [app].
  - rewrite app_nil_r. apply Permutation_refl.
  - eapply Permutation_trans; [apply edges_rot1|]. rewrite <- app_assoc. eapply Permutation_trans; [apply IH|].
    rewrite <- app_assoc. apply Permutation_refl.
Qed.

Lemma mean_perm : forall l m, Permutation l m -> mean_point l = mean_point m.
Proof. intros l m H. unfold mean_point. rewrite (sum_f_perm _ fst _ _ H), (sum_f_perm _ snd _ _ H), (Permutation_length H). reflexivity. Qed.
Lemma mean_side_sum : forall l a b, l <> [] -> INR (length l) * side a b (mean_point l) = sum_f (side a b) l.
Proof.
  intros l a b Hl. assert (Hn : 0 < INR (length l)) by (apply lt_0_INR; destruct l; [contradiction|cbn; lia]).
  unfold side, mean_point. cbn [fst snd].
  rewrite (sum_f_ext _ (fun p => (fst b - fst a) * (snd p - snd a) - (snd b - snd a) * (fst p - fst a))
     (fun p => ((fst b - fst a) * snd p + (snd a - snd b) * fst p) + ((snd b - snd a) * fst a - (fst b - fst a) * snd a))) by (intros; ring).
  rewrite sum_f_plus, sum_f_plus, !sum_f_scal, sum_f_const. field. lra.
Qed.

Lemma third : forall (l : list pt) a b, (3 <= length l)%nat -> NoDup l -> exists c, In c l /\ c <> a /\ c <> b.
Proof.
  intros [|x [|y [|z l]]] a b H Hn; cbn in H; try lia.
  inversion Hn as [|? ? N1 N2]; subst. inversion N2 as [|? ? N3 N4]; subst.
  assert (D : forall u v : pt, {u = v} + {u <> v}) by (intros [u1 u2] [v1 v2]; destruct (Req_EM_T u1 v1), (Req_EM_T u2 v2); [left; congruence|right; congruence..]).
  destruct (D x a) as [->|Xa]; [|destruct (D x b) as [->|Xb]; [|exists x; cbn; auto]].
  - destruct (D y b) as [->|Yb].
    + exists z. split; [cbn; auto|]. split; intro E; subst; [apply N1; cbn; auto|apply N3; cbn; auto].
    + exists y. split; [cbn; auto|]. split; [intro E; subst; apply N1; cbn; auto|auto].
  - destruct (D y a) as [->|Ya].
    + exists z. split; [cbn; auto|]. split; intro E; subst; [apply N3; cbn; auto|apply N1; cbn; auto].
    + exists y. split; [cbn; auto|]. split; [auto|intro E; subst; apply N1; cbn; auto].
Qed.

Lemma side_self : forall a b, side a b a = 0 /\ side a b b = 0.
Proof. intros. unfold side. split; ring. Qed.
Lemma pt_dec : forall u v : pt, {u = v} + {u <> v}.
Proof. intros [u1 u2] [v1 v2]. destruct (Req_EM_T u1 v1), (Req_EM_T u2 v2); [left; congruence|right; congruence..]. Qed.

Lemma strict_weak : forall l a b c, strictly_convex l -> follows l a b -> In c l -> 0 <= side a b c.
Proof.
  intros l a b c [_ [_ H]] Hf Hc. destruct (side_self a b) as [S1 S2].
  destruct (pt_dec c a) as [->|Ha]; [lra|]. destruct (pt_dec c b) as [->|Hb]; [lra|]. left. apply H; auto.
Qed.
Lemma strict_convex : forall l, strictly_convex l -> convex l.
Proof.
  intros l H. split; [intros; apply strict_weak with l; auto|]. destruct H as [H1 [H2 H3]].
  destruct l as [|v l]; [cbn in H1; lia|].
  assert (Hf : follows (v :: l) (nth 0 (v :: l) (0,0)) (nth (1 mod length (v :: l)) (v :: l) (0,0))) by (exists 0%nat; cbn [length]; repeat split; lia).
  destruct (third (v :: l) _ _ H1 H2 : exists c, In c (v :: l) /\ c <> nth 0 (v :: l) (0,0) /\ c <> nth (1 mod length (v :: l)) (v :: l) (0,0)) as [c [Hc [Ca Cb]]].
  do 2 eexists. exists c. split; [exact Hf|]. split; auto.
Qed.
Lemma center_inside : forall l a b, strictly_convex l -> follows l a b -> 0 < side a b (mean_point l).
Proof.
  intros l a b H Hf. pose proof H as [H1 [H2 H3]]. assert (Hl : l <> []) by (intros ->; cbn in H1; lia).
  pose proof (mean_side_sum l a b Hl) as E. destruct (third l a b H1 H2) as [c [Hc [Ca Cb]]].
  pose proof (sum_f_term _ (side a b) l c (fun x Hx => strict_weak l a b x H Hf Hx) Hc) as T. specialize (H3 a b c Hf Hc Ca Cb).
  assert (Hn : 0 < INR (length l)) by (apply lt_0_INR; lia).
  destruct (Rlt_dec 0 (side a b (mean_point l))) as [|N]; auto. exfalso. nra.
Qed.
Lemma follows_unique : forall l a b b', NoDup l -> follows l a b -> follows l a b' -> b = b'.
Proof.
  intros l a b b' Hn [i [Hi [E1 E2]]] [j [Hj [F1 F2]]]. assert (i = j) by (apply (proj1 (NoDup_nth l (0,0)) Hn); auto; congruence). subst j. congruence.
Qed.

(** ** Angles *)
Section Angles.
Variable c : pt.
Definition theta (v : pt) : R := arctan2 (snd v - snd c) (fst v - fst c).

Lemma sin_pos_iff_diff : forall x, - 2 * PI < x < 2 * PI -> 0 < sin x -> 0 < x < PI \/ - 2 * PI < x < - PI.
Proof.
  intros x H Hs. destruct (Rle_dec x 0) as [H0|H0].
  - right. split; [lra|]. destruct (Rlt_dec x (- PI)) as [|N]; auto. exfalso.
    assert (0 <= sin (- x)) by (apply sin_ge_0; lra). rewrite sin_neg in H1. lra.
  - left. split; [lra|]. destruct (Rlt_dec x PI) as [|N]; auto. exfalso.
    assert (sin x <= 0) by (apply sin_le_0; lra). lra.
Qed.

Lemma edge_angle : forall a b, a <> c -> b <> c -> 0 < side a b c ->
  theta a < theta b \/ (snd b < snd c <= snd a /\ theta b < theta a).
Proof.
  intros a b Ha Hb Hs.
  assert (P : forall v, v <> c -> 0 < (fst v - fst c) * (fst v - fst c) + (snd v - snd c) * (snd v - snd c)).
  { intros [x y] Hv. destruct c as [cx cy]. cbn [fst snd]. pose proof (Rle_0_sqr (x - cx)) as Q1. pose proof (Rle_0_sqr (y - cy)) as Q2. unfold Rsqr in *.
    destruct (Req_dec (x - cx) 0) as [E1|E1].
    - destruct (Req_dec (y - cy) 0) as [E2|E2]; [exfalso; apply Hv; f_equal; lra|]. pose proof (Rsqr_pos_lt _ E2). unfold Rsqr in *. lra.
    - pose proof (Rsqr_pos_lt _ E1). unfold Rsqr in *. lra. }
  destruct (arctan2_spec _ _ (P a Ha)) as [Ca [Sa Ba]]. destruct (arctan2_spec _ _ (P b Hb)) as [Cb [Sb Bb]].
  fold (theta a) in *. fold (theta b) in *. pose proof (P a Ha) as Pa. pose proof (P b Hb) as Pb.
  set (ra := sqrt _) in Ca, Sa. set (rb := sqrt _) in Cb, Sb.
  assert (Ra : 0 < ra) by (apply sqrt_lt_R0; auto). assert (Rb : 0 < rb) by (apply sqrt_lt_R0; auto).
  assert (Sd : sin (theta b - theta a) = side a b c / (ra * rb)).
  { rewrite sin_minus, Ca, Sa, Cb, Sb. unfold side. field. lra. }
  assert (Sp : 0 < sin (theta b - theta a)).
  { rewrite Sd. apply Rdiv_lt_0_compat; auto. apply Rmult_lt_0_compat; auto. }
  pose proof PI_RGT_0. destruct (sin_pos_iff_diff (theta b - theta a) ltac:(lra) Sp) as [D|D]; [left; lra|right].
  assert (Ya : snd a - snd c = ra * sin (theta a)) by (rewrite Sa; field; lra).
  assert (Yb : snd b - snd c = rb * sin (theta b)) by (rewrite Sb; field; lra).
  assert (0 <= sin (theta a)) by (apply sin_ge_0; lra).
  assert (0 < sin (- theta b)) by (apply sin_gt_0; lra). rewrite sin_neg in H1. split; [|lra]. split; nra.
Qed.
End Angles.

(** Only one edge of a strictly convex outline goes down through a level. *)
Lemma one_descent : forall l y a b a' b', strictly_convex l -> follows l a b -> follows l a' b' ->
  snd b < y <= snd a -> snd b' < y <= snd a' -> a = a' /\ b = b'.
Proof.
  intros l y a b a' b' H F F' D D'.
  assert (K : forall a b a' b', follows l a b -> follows l a' b' -> snd b < y <= snd a -> snd b' < y <= snd a' ->
     let t' := (snd a' - y) / (snd a' - snd b') in let x' := fst a' + t' * (fst b' - fst a') in
     0 <= t' < 1 /\ side a b (x', y) = (1 - t') * side a b a' + t' * side a b b' /\ 0 <= side a b (x', y)).
  { clear a b a' b' F F' D D'. intros a b a' b' F F' D D' t' x'.
    assert (T : 0 <= t' < 1).
    { unfold t'. split; [apply Rmult_le_pos; [lra|left; apply Rinv_0_lt_compat; lra]|].
      apply Rmult_lt_reg_r with (snd a' - snd b'); [lra|]. replace ((snd a' - y) / (snd a' - snd b') * (snd a' - snd b')) with (snd a' - y) by (field; lra). lra. }
    assert (Ey : y = snd a' + t' * (snd b' - snd a')) by (unfold t'; field; lra).
    assert (E : side a b (x', y) = (1 - t') * side a b a' + t' * side a b b').
    { unfold side, x'. cbn [fst snd]. clearbody t'. rewrite Ey. ring. }
    split; auto. split; auto. rewrite E. destruct (follows_in _ _ _ F') as [I1 I2].
    pose proof (strict_weak l a b a' H F I1). pose proof (strict_weak l a b b' H F I2).
    apply Rplus_le_le_0_compat; apply Rmult_le_pos; lra. }
  pose proof (K a b a b F F D D) as [T [E _]]. pose proof (K a' b' a' b' F' F' D' D') as [T' [E' _]].
  pose proof (K a b a' b' F F' D D') as [_ [G P]]. pose proof (K a' b' a b F' F D' D) as [_ [_ P']]. cbn zeta in *.
  set (x := fst a + (snd a - y) / (snd a - snd b) * (fst b - fst a)) in *. set (x' := fst a' + (snd a' - y) / (snd a' - snd b') * (fst b' - fst a')) in *.
  destruct (side_self a b) as [Z1 Z2]. destruct (side_self a' b') as [Z1' Z2']. rewrite Z1, Z2 in E. rewrite Z1', Z2' in E'.
  assert (Hx : x = x').
  { rewrite (side_affine a b (x', y) (x, y)) in P. rewrite (side_affine a' b' (x, y) (x', y)) in P'. cbn [fst snd] in P, P'.
    rewrite E in P. rewrite E' in P'. clearbody x x'. clear - P P' D D'. assert (0 <= (snd a - snd b) * (x' - x)) by lra. assert (0 <= (snd a' - snd b') * (x - x')) by lra.
    apply Rle_antisym.
    - apply Rnot_lt_le. intro L. nra.
    - apply Rnot_lt_le. intro L. nra. }
  assert (Z : side a b a' = 0).
  { rewrite <- Hx in G. rewrite E in G. destruct (follows_in _ _ _ F') as [I1 I2].
    pose proof (strict_weak l a b a' H F I1). pose proof (strict_weak l a b b' H F I2). set (t' := (snd a' - y) / (snd a' - snd b')) in *. clearbody t'.
    clear - G T' H0 H1. assert (0 <= t' * side a b b') by (apply Rmult_le_pos; lra). assert (0 <= (1 - t') * side a b a') by (apply Rmult_le_pos; lra).
    assert (Q : (1 - t') * side a b a' = 0) by lra. apply Rmult_integral in Q. destruct Q; lra. }
  assert (Ea : a' = a).
  { destruct (follows_in _ _ _ F') as [I1 I2]. destruct (pt_dec a' a) as [|N]; auto. destruct (pt_dec a' b) as [->|N2]; [lra|].
    destruct H as [_ [_ H]]. specialize (H a b a' F I1 N N2). lra. }
  subst a'. split; auto. destruct H as [_ [Hn _]]. apply follows_unique with l a; auto.
Qed.

Lemma locally_sorted : forall (key : pt -> R) l, (forall j, (S j < length l)%nat -> key (nth j l (0,0)) < key (nth (S j) l (0,0))) ->
  StronglySorted (fun a b => key a < key b) l.
Proof.
  intros key l H. apply Sorted_StronglySorted; [intros x y z; lra|]. induction l as [|x l IH]; [constructor|]. constructor.
  - apply IH. intros j Hj. apply (H (S j)). cbn. lia.
  - destruct l as [|y l]; [constructor|]. constructor. apply (H 0%nat). cbn. lia.
Qed.

Lemma turned_sorted : forall l, strictly_convex l ->
  exists l1 l2, l = (l1 ++ l2)%list /\ StronglySorted (fun a b => theta (mean_point l) a < theta (mean_point l) b) (l2 ++ l1).
Proof.
  intros l H. set (c := mean_point l). pose proof H as [H1 [Hn _]].
  assert (Hne : forall a b, follows l a b -> a <> c /\ b <> c).
  { intros a b F. pose proof (center_inside l a b H F) as P. fold c in P. destruct (side_self a b). split; intros ->; lra. }
  assert (Hang : forall a b, follows l a b -> theta c a < theta c b \/ (snd b < snd c <= snd a /\ theta c b < theta c a)).
  { intros a b F. destruct (Hne a b F). apply edge_angle; auto. apply center_inside; auto. }
  (* some edge descends *)
  assert (Hex : exists a b, follows l a b /\ snd b < snd c <= snd a).
  { destruct (Classical_Prop.classic (exists a b, follows l a b /\ snd b < snd c <= snd a)) as [|N]; auto. exfalso.
    assert (Z : sum_f (fun e : pt * pt => theta c (snd e) - theta c (fst e)) (edges l) = 0).
    { rewrite (sum_f_ext _ _ (fun e => theta c (snd e) + (-1) * theta c (fst e))) by (intros; ring).
      rewrite sum_f_plus, sum_f_scal. rewrite <- (sum_f_map _ _ snd (theta c)), <- (sum_f_map _ _ fst (theta c)), edges_fst, (sum_f_perm _ _ _ _ (edges_snd l)). ring. }
    assert (P : forall e, In e (edges l) -> 0 < theta c (snd e) - theta c (fst e)).
    { intros [a b] He. apply follows_edges in He. destruct (Hang a b He) as [L|[D _]]; [cbn; lra|]. exfalso. apply N. exists a, b. auto. }
    destruct (edges l) as [|e es] eqn:Ee; [apply (f_equal (@length _)) in Ee; rewrite edges_length in Ee; cbn in Ee; lia|].
    pose proof (sum_f_term _ (fun e : pt * pt => theta c (snd e) - theta c (fst e)) (e :: es) e (fun x Hx => Rlt_le _ _ (P x Hx)) (or_introl eq_refl)).
    specialize (P e (or_introl eq_refl)). cbn beta in *. lra. }
  destruct Hex as [a [b [F D]]]. pose proof F as [i [Hi [Ea Eb]]].
  exists (firstn (S i) l), (skipn (S i) l). split; [symmetry; apply firstn_skipn|].
  assert (El : (firstn (S i) l ++ skipn (S i) l)%list = l) by apply firstn_skipn.
  assert (HP : Permutation (skipn (S i) l ++ firstn (S i) l) l) by (rewrite <- El at 3; apply Permutation_app_comm).
  assert (HE : Permutation (edges (skipn (S i) l ++ firstn (S i) l)) (edges l)).
  { rewrite <- El at 3. apply edges_rot. }
  set (l' := (skipn (S i) l ++ firstn (S i) l)%list) in *.
  assert (Hlen : length l' = length l) by (apply Permutation_length; auto).
  assert (Hn' : NoDup l') by (eapply Permutation_NoDup; [apply Permutation_sym, HP|auto]).
  assert (Hlast : nth (length l - 1) l' (0,0) = a).
  { unfold l'. rewrite app_nth2 by (rewrite skipn_length; lia). rewrite skipn_length. replace (length l - 1 - (length l - S i))%nat with i by lia.
    rewrite <- Ea. rewrite <- El at 2. rewrite app_nth1; [reflexivity|]. rewrite firstn_length. lia. }
  apply locally_sorted. intros j Hj.
  assert (Fj : follows l (nth j l' (0,0)) (nth (S j) l' (0,0))).
  { apply follows_edges. eapply Permutation_in; [exact HE|]. replace (nth j l' (0, 0), nth (S j) l' (0, 0)) with (nth j (edges l') ((0,0),(0,0))).
    - apply nth_In. rewrite edges_length. lia.
    - rewrite edges_nth by lia. rewrite Nat.mod_small by lia. reflexivity. }
  destruct (Hang _ _ Fj) as [L|[D' _]]; auto. exfalso.
  destruct (one_descent l (snd c) _ _ _ _ H F Fj D D') as [E _]. rewrite <- Hlast in E.
  assert ((length l - 1)%nat = j) by (apply (proj1 (NoDup_nth l' (0,0)) Hn'); auto; lia). lia.
Qed.

Lemma rotation_sorted : forall l, strictly_convex l ->
  exists l', StronglySorted (fun a b => theta (mean_point l) a < theta (mean_point l) b) l' /\ Permutation l' l /\ Permutation (edges l') (edges l).
Proof.
  intros l H. destruct (turned_sorted l H) as (l1 & l2 & E & S). exists (l2 ++ l1)%list. split; [exact S|].
  split; rewrite E; [apply Permutation_app_comm|apply edges_rot].
Qed.

Lemma C36_sorted_proof : forall points l, strictly_convex l -> Permutation (map project points) l ->
  let d := sortCorners (make_detector points) in
  convex (d_corners d) /\ d_center d = mean_point (d_corners d) /\
  (forall a b, follows (d_corners d) a b <-> follows l a b) /\ Permutation (d_corners d) l.
Proof.
  intros points l H HP d. destruct (rotation_sorted l H) as [l' [Hs [HP' HE]]].
  assert (Ec : mean_point (map project points) = mean_point l) by (apply mean_perm; auto).
  assert (Ed : d_corners d = l').
  { unfold d, sortCorners, make_detector. cbn [d_corners d_center]. rewrite Ec. apply (sorted_unique (theta (mean_point l))); auto.
    - apply sort_real_sorted.
    - eapply Permutation_trans; [apply sort_real_perm|]. eapply Permutation_trans; [exact HP|]. apply Permutation_sym; auto. }
  assert (Hf : forall a b, follows l' a b <-> follows l a b).
  { intros a b. rewrite !follows_edges. split; apply Permutation_in; [|apply Permutation_sym]; exact HE. }
  rewrite Ed. split; [|split; [|split]]; auto.
  - destruct (strict_convex l H) as [C1 [a [b [x [C2 [C3 C4]]]]]]. split.
    + intros u v w Hu Hw. apply C1; [apply Hf; auto|]. eapply Permutation_in; [exact HP'|auto].
    + exists a, b, x. split; [apply Hf; auto|]. split; auto. eapply Permutation_in; [apply Permutation_sym, HP'|auto].
  - unfold d, sortCorners, make_detector. cbn [d_center]. rewrite Ec. symmetry. apply mean_perm; auto.
Qed.

(** A detector made from its corners in any order accepts the points inside its
    outline, and no point outside by more than the tolerance. *)
Lemma C36_outline_proof : forall eps points l p, 0 <= eps -> strictly_convex l -> Permutation (map project points) l ->
  let d := sortCorners (make_detector points) in
  (inside l p -> on_detector eps None d p = true) /\
  (on_detector eps None d p = true -> forall a b, follows l a b -> - eps <= side a b p).
Proof.
  intros eps points l p He H HP d. destruct (C36_sorted_proof points l H HP) as [Hc [Em [Hf _]]]. fold d in Hc, Em, Hf.
  assert (Ed : d = {| d_corners := d_corners d; d_center := mean_point (d_corners d) |}) by (rewrite <- Em; destruct d; reflexivity).
  destruct (C36_inside_proof eps (d_corners d) p He Hc) as [A B]. cbn zeta in A, B. rewrite <- Ed in A, B. split.
  - intro Hi. apply A. intros a b Hab. apply Hi, Hf, Hab.
  - intros Ho a b Hab. apply B; auto. apply Hf, Hab.
Qed.
