(** Proofs about the camera footprint. *)
From Coq Require Import String List Arith Bool Reals Lra Lia Permutation.
From Verif Require Import Base.Prelude Base.Frame Model.Sphere Model.Footprint Spec.Footprint.
Import ListNotations.
Open Scope R_scope.

(** ** Sums *)
Lemma sum_f_cons : forall A (f : A -> R) a l, sum_f f (a :: l) = f a + sum_f f l.
Proof. reflexivity. Qed.
Lemma sum_f_nil : forall A (f : A -> R), sum_f f [] = 0.
Proof. reflexivity. Qed.
Lemma sum_f_perm : forall A (f : A -> R) l m, Permutation l m -> sum_f f l = sum_f f m.
Proof. intros A f l m H. induction H; rewrite ?sum_f_cons; lra. Qed.
Lemma sum_f_map : forall A B (g : A -> B) (f : B -> R) l, sum_f f (map g l) = sum_f (fun a => f (g a)) l.
Proof. induction l as [|a l IH]; cbn [map]; rewrite ?sum_f_cons; [reflexivity|]. rewrite IH. reflexivity. Qed.
Lemma sum_f_ext : forall A (f g : A -> R) l, (forall a, In a l -> f a = g a) -> sum_f f l = sum_f g l.
Proof. induction l as [|a l IH]; intro H; [reflexivity|]. rewrite !sum_f_cons. rewrite IH by (intros; apply H; right; auto). rewrite H by (left; auto). reflexivity. Qed.
Lemma sum_f_plus : forall A (f g : A -> R) l, sum_f (fun a => f a + g a) l = sum_f f l + sum_f g l.
Proof. induction l as [|a l IH]; rewrite ?sum_f_nil, ?sum_f_cons; lra. Qed.
Lemma sum_f_scal : forall A (f : A -> R) k l, sum_f (fun a => k * f a) l = k * sum_f f l.
Proof. induction l as [|a l IH]; rewrite ?sum_f_nil, ?sum_f_cons; lra. Qed.
Lemma sum_f_const : forall A k (l : list A), sum_f (fun _ => k) l = INR (length l) * k.
Proof. induction l as [|a l IH]; [rewrite sum_f_nil; cbn; lra|]. cbn [length]. rewrite S_INR, sum_f_cons, IH. lra. Qed.
Lemma sum_f_nonneg : forall A (f : A -> R) l, (forall a, In a l -> 0 <= f a) -> 0 <= sum_f f l.
Proof. induction l as [|a l IH]; intro H; rewrite ?sum_f_nil, ?sum_f_cons; [lra|]. assert (0 <= f a) by (apply H; left; auto). assert (0 <= sum_f f l) by (apply IH; intros; apply H; right; auto). lra. Qed.
Lemma sum_f_term : forall A (f : A -> R) l a, (forall a, In a l -> 0 <= f a) -> In a l -> f a <= sum_f f l.
Proof.
  induction l as [|b l IH]; intros a H Ha; [destruct Ha|]. assert (0 <= f b) by (apply H; left; auto).
  assert (0 <= sum_f f l) by (apply sum_f_nonneg; intros; apply H; right; auto). rewrite sum_f_cons.
  destruct Ha as [<-|Ha]; [lra|]. assert (f a <= sum_f f l) by (apply IH; auto; intros; apply H; right; auto). lra.
Qed.
Lemma sum_f_zero : forall A (f : A -> R) l, (forall a, In a l -> 0 <= f a) -> sum_f f l = 0 -> forall a, In a l -> f a = 0.
Proof. intros A f l H E a Ha. pose proof (sum_f_term _ f l a H Ha). pose proof (H a Ha). lra. Qed.

(** ** Edges *)
Lemma combine_app : forall A B (a a' : list A) (b b' : list B), length a = length b -> combine (a ++ a') (b ++ b') = (combine a b ++ combine a' b')%list.
Proof. induction a as [|x a IH]; intros a' [|y b] b' H; cbn in *; try discriminate; auto. rewrite IH by lia. reflexivity. Qed.
Lemma combine_swap : forall A B (a : list A) (b : list B), map (fun e => (snd e, fst e)) (combine a b) = combine b a.
Proof. induction a as [|x a IH]; intros [|y b]; cbn; auto. rewrite IH. reflexivity. Qed.

Lemma edges_rolled : forall l d, Permutation (combine l (rolled d l)) (map (fun e => (snd e, fst e)) (edges l)).
Proof.
  intros [|v l] d; [constructor|]. destruct (exists_last (l := v :: l)) as [i [z E]]; [discriminate|].
  unfold rolled, edges. rewrite E, last_last, removelast_last. rewrite combine_swap.
  assert (L : length i = length l) by (apply (f_equal (@length _)) in E; rewrite app_length in E; cbn in E; lia).
  rewrite (combine_app _ _ l [v] i [z]) by lia. rewrite <- E. cbn [combine].
  apply Permutation_cons_append.
Qed.
Lemma map_fst_combine : forall A B (a : list A) (b : list B), length a = length b -> map fst (combine a b) = a.
Proof. induction a as [|x a IH]; intros [|y b] H; cbn in *; try discriminate; auto. rewrite IH by lia. reflexivity. Qed.
Lemma map_snd_combine : forall A B (a : list A) (b : list B), length a = length b -> map snd (combine a b) = b.
Proof. induction a as [|x a IH]; intros [|y b] H; cbn in *; try discriminate; auto. rewrite IH by lia. reflexivity. Qed.
Lemma edges_fst : forall l, map fst (edges l) = l.
Proof. intros [|v l]; [reflexivity|]. unfold edges. apply map_fst_combine. rewrite app_length. cbn. lia. Qed.
Lemma edges_snd : forall l, Permutation (map snd (edges l)) l.
Proof.
  intros [|v l]; [constructor|]. unfold edges. rewrite map_snd_combine by (rewrite app_length; cbn; lia).
  apply Permutation_sym, Permutation_cons_append.
Qed.

Lemma nth_combine : forall A B (a : list A) (b : list B) n da db, length a = length b -> nth n (combine a b) (da, db) = (nth n a da, nth n b db).
Proof. induction a as [|x a IH]; intros [|y b] [|n] da db H; cbn in *; try discriminate; auto. Qed.

Lemma edges_length : forall l, length (edges l) = length l.
Proof. intro l. rewrite <- (map_length fst (edges l)), edges_fst. reflexivity. Qed.
Lemma edges_nth : forall l i, (i < length l)%nat -> nth i (edges l) ((0,0),(0,0)) = (nth i l (0,0), nth (S i mod length l) l (0,0)).
Proof.
  intros [|v l] i H; [cbn in H; lia|]. unfold edges. rewrite nth_combine by (rewrite app_length; cbn; lia). f_equal.
  cbn [length] in *. destruct (Nat.eq_dec i (length l)) as [->|Hne].
  - rewrite Nat.mod_same by lia. rewrite app_nth2, Nat.sub_diag by lia. reflexivity.
  - rewrite Nat.mod_small by lia. rewrite app_nth1 by lia. reflexivity.
Qed.
Lemma follows_edges : forall l a b, follows l a b <-> In (a, b) (edges l).
Proof.
  intros l a b. split.
  - intros [i [Hi [<- <-]]]. rewrite <- (edges_nth l i Hi). apply nth_In. rewrite edges_length. exact Hi.
  - intro H. apply (In_nth _ _ ((0,0),(0,0))) in H. destruct H as [i [Hi E]]. rewrite edges_length in Hi. exists i. split; auto.
    rewrite edges_nth in E by auto. injection E as -> ->. auto.
Qed.
Lemma follows_in : forall l a b, follows l a b -> In a l /\ In b l.
Proof.
  intros l a b [i [Hi [<- <-]]]. split; apply nth_In; auto. apply Nat.mod_upper_bound. lia.
Qed.

(** ** The area test *)
Definition sd (p : pt) (e : pt * pt) : R := side (fst e) (snd e) p.

Lemma area_edges : forall c l, area_about c l = 1 / 2 * sum_f (fun e => Rabs (sd c e)) (edges l).
Proof.
  intros c l. unfold area_about. f_equal. set (g := fun v : pt => (fst v - fst c, snd v - snd c)).
  assert (Er : rolled (0, 0) (map g l) = map g (rolled (fst c, snd c) l)).
  { destruct l as [|v l]; [reflexivity|]. cbn [rolled map]. change (g v :: map g l) with (map g (v :: l)).
    destruct (exists_last (l := v :: l)) as [i [z E]]; [discriminate|]. rewrite E, map_app. cbn [map]. rewrite !last_last, !removelast_last. reflexivity. }
  rewrite Er.
  assert (Ec : forall A B C D (f : A -> B) (h : C -> D) a b, combine (map f a) (map h b) = map (fun e => (f (fst e), h (snd e))) (combine a b)).
  { induction a as [|x a IH]; intros [|y b]; cbn; auto. rewrite IH. reflexivity. }
  rewrite Ec, sum_f_map. rewrite (sum_f_perm _ _ _ _ (edges_rolled l (fst c, snd c))), sum_f_map.
  apply sum_f_ext. intros [[ax ay] [bx by_]] _. unfold sd, side, g. cbn. rewrite <- Rabs_Ropp. f_equal. ring.
Qed.
(** The signed sum does not depend on the point. *)
Lemma side_affine : forall a b p q, side a b p = side a b q + ((fst b - fst a) * (snd p - snd q) - (snd b - snd a) * (fst p - fst q)).
Proof. intros. unfold side. ring. Qed.
Lemma signed_const : forall l p q, sum_f (sd p) (edges l) = sum_f (sd q) (edges l).
Proof.
  intros l p q.
  rewrite (sum_f_ext _ (sd p) (fun e => sd q e + ((snd p - snd q) * (fst (snd e) - fst (fst e)) + (fst q - fst p) * (snd (snd e) - snd (fst e))))).
  2:{ intros e _. unfold sd. rewrite (side_affine _ _ p q). ring. }
  rewrite sum_f_plus, sum_f_plus, !sum_f_scal.
  assert (Z : forall f : pt -> R, sum_f (fun e : pt * pt => f (snd e) - f (fst e)) (edges l) = 0).
  { intro f. rewrite (sum_f_ext _ _ (fun e => f (snd e) + (-1) * f (fst e))) by (intros; ring).
    rewrite sum_f_plus, sum_f_scal. rewrite <- (sum_f_map _ _ snd f), <- (sum_f_map _ _ fst f), edges_fst, (sum_f_perm _ _ _ _ (edges_snd l)). ring. }
  rewrite (Z fst), (Z snd). ring.
Qed.

Lemma mean_side : forall l a b, l <> [] -> (forall c, In c l -> 0 <= side a b c) -> 0 <= side a b (mean_point l).
Proof.
  intros l a b Hl H. assert (Hn : 0 < INR (length l)) by (apply lt_0_INR; destruct l; [contradiction|cbn; lia]).
  assert (E : INR (length l) * side a b (mean_point l) = sum_f (side a b) l).
  { unfold side, mean_point. cbn [fst snd].
    rewrite (sum_f_ext _ (fun p => (fst b - fst a) * (snd p - snd a) - (snd b - snd a) * (fst p - fst a))
       (fun p => ((fst b - fst a) * snd p + (snd a - snd b) * fst p) + ((snd b - snd a) * fst a - (fst b - fst a) * snd a))) by (intros; ring).
    rewrite sum_f_plus, sum_f_plus, !sum_f_scal, sum_f_const. field. lra. }
  pose proof (sum_f_nonneg _ (side a b) l H). nra.
Qed.

Lemma abs_split : forall x, Rabs x = x + 2 * Rmax 0 (- x).
Proof. intro x. unfold Rmax, Rabs. destruct (Rcase_abs x), (Rle_dec 0 (-x)); lra. Qed.

Lemma area_excess : forall l p, l <> [] -> (forall a b c, follows l a b -> In c l -> 0 <= side a b c) ->
  area_about p l - area_about (mean_point l) l = sum_f (fun e => Rmax 0 (- sd p e)) (edges l).
Proof.
  intros l p Hl H. rewrite !area_edges.
  rewrite (sum_f_ext _ (fun e => Rabs (sd (mean_point l) e)) (sd (mean_point l)) (edges l)).
  2:{ intros [a b] He. apply Rabs_pos_eq. apply mean_side; auto. intros c Hc. apply H; auto. apply follows_edges; auto. }
  rewrite (sum_f_ext _ (fun e => Rabs (sd p e)) (fun e => sd p e + 2 * Rmax 0 (- sd p e)) (edges l)) by (intros; apply abs_split).
  rewrite sum_f_plus, sum_f_scal, (signed_const l p (mean_point l)). lra.
Qed.

Lemma max_f_spec : forall A (f : A -> R) l a, (forall x, In x (a :: l) -> f x <= max_f f a l) .
Proof.
  induction l as [|b l IH]; intros a x Hx; cbn.
  - destruct Hx as [<-|[]]. lra.
  - destruct Hx as [<-|Hx]; [apply Rmax_l|]. eapply Rle_trans; [apply (IH b x Hx)|apply Rmax_r].
Qed.

Lemma sd_zero_all : forall l p, (forall e, In e (edges l) -> sd p e = 0) -> forall q, sum_f (sd q) (edges l) = 0.
Proof.
  intros l p H q. rewrite (signed_const l q p). rewrite (sum_f_ext _ _ (fun _ => 0)) by exact H. rewrite sum_f_const. ring.
Qed.

(** Points that all lie on one side of [p] cannot turn around it. *)
Lemma no_turn : forall l p (u : pt), (forall v, In v l -> 0 < (fst v - fst p) * fst u + (snd v - snd p) * snd u) ->
  (forall e, In e (edges l) -> 0 <= sd p e) -> forall e, In e (edges l) -> sd p e = 0.
Proof.
  intros l p u Hu Hs.
  set (al := fun v : pt => (fst v - fst p) * fst u + (snd v - snd p) * snd u).
  set (be := fun v : pt => (snd v - snd p) * fst u - (fst v - fst p) * snd u).
  set (s := fun v => be v / al v).
  assert (Hin : forall e, In e (edges l) -> In (fst e) l /\ In (snd e) l).
  { intros [a b] He. apply follows_edges in He. apply follows_in in He. exact He. }
  assert (Huu : forall v, In v l -> 0 < fst u * fst u + snd u * snd u).
  { intros v Hv. specialize (Hu v Hv). destruct (Req_dec (fst u) 0) as [E1|E1]; [|nra]. destruct (Req_dec (snd u) 0) as [E2|E2]; [|nra].
    rewrite E1, E2 in Hu. lra. }
  (* the slope does not decrease along an edge *)
  assert (Hc : forall e, In e (edges l) -> (fst u * fst u + snd u * snd u) * sd p e = al (fst e) * al (snd e) * (s (snd e) - s (fst e))).
  { intros e He. destruct (Hin e He) as [H1 H2]. pose proof (Hu _ H1). pose proof (Hu _ H2). unfold s.
    replace (al (fst e) * al (snd e) * (be (snd e) / al (snd e) - be (fst e) / al (fst e))) with (al (fst e) * be (snd e) - al (snd e) * be (fst e)) by (field; split; unfold al in *; lra).
    unfold sd, side, al, be. ring. }
  assert (Hn : forall e, In e (edges l) -> 0 <= s (snd e) - s (fst e)).
  { intros e He. destruct (Hin e He) as [H1 H2]. pose proof (Hu _ H1). pose proof (Hu _ H2). pose proof (Hc e He) as E. pose proof (Hs e He). pose proof (Huu _ H1).
    assert (0 <= al (fst e) * al (snd e) * (s (snd e) - s (fst e))) by (rewrite <- E; apply Rmult_le_pos; lra).
    assert (0 < al (fst e) * al (snd e)) by (apply Rmult_lt_0_compat; unfold al; lra). nra. }
  assert (Z : sum_f (fun e : pt * pt => s (snd e) - s (fst e)) (edges l) = 0).
  { rewrite (sum_f_ext _ _ (fun e => s (snd e) + (-1) * s (fst e))) by (intros; ring).
    rewrite sum_f_plus, sum_f_scal. rewrite <- (sum_f_map _ _ snd s), <- (sum_f_map _ _ fst s), edges_fst, (sum_f_perm _ _ _ _ (edges_snd l)). ring. }
  intros e He. pose proof (sum_f_zero _ _ _ Hn Z e He) as E. pose proof (Hc e He) as F. rewrite E in F. destruct (Hin e He) as [H1 _].
  pose proof (Huu _ H1). nra.
Qed.

Lemma cauchy2 : forall a b c d, (a * c + b * d) * (a * c + b * d) <= (a * a + b * b) * (c * c + d * d).
Proof. intros. pose proof (Rle_0_sqr (a * d - b * c)). unfold Rsqr in *. nra. Qed.

Lemma inside_circle : forall v l p, convex (v :: l) -> inside (v :: l) p ->
  dist2 p (mean_point (v :: l)) <= max_f (fun c => dist2 c (mean_point (v :: l))) v l.
Proof.
  intros v l p [Hc [a [b [c [Hab [Hcin Hpos]]]]]] Hi. set (m := mean_point (v :: l)). set (r2 := max_f _ v l).
  destruct (Rle_dec (dist2 p m) r2) as [H|H]; [exact H|exfalso]. apply Rnot_le_lt in H.
  assert (Hr : forall x, In x (v :: l) -> dist2 x m <= r2) by (intros; apply (max_f_spec _ (fun c => dist2 c m)); auto).
  assert (Hz : forall e, In e (edges (v :: l)) -> sd p e = 0).
  { apply (no_turn _ p (fst m - fst p, snd m - snd p)).
    - intros x Hx. specialize (Hr x Hx). cbn [fst snd].
      pose proof (cauchy2 (fst x - fst m) (snd x - snd m) (fst p - fst m) (snd p - snd m)) as C.
      change ((fst x - fst m) * (fst x - fst m) + (snd x - snd m) * (snd x - snd m)) with (dist2 x m) in C.
      change ((fst p - fst m) * (fst p - fst m) + (snd p - snd m) * (snd p - snd m)) with (dist2 p m) in C.
      set (k := (fst x - fst m) * (fst p - fst m) + (snd x - snd m) * (snd p - snd m)) in *.
      replace ((fst x - fst p) * (fst m - fst p) + (snd x - snd p) * (snd m - snd p)) with (dist2 p m - k) by (unfold k, dist2; ring).
      assert (0 <= dist2 x m) by (unfold dist2; apply Rplus_le_le_0_compat; apply Rle_0_sqr). set (D := dist2 p m) in *. set (X := dist2 x m) in *. clearbody k D X.
      assert (K2 : k * k < D * D) by (apply Rle_lt_trans with (X * D); [exact C|apply Rmult_lt_compat_r; lra]).
      destruct (Rlt_dec k D); [lra|]. exfalso. assert (D * D <= k * k) by (apply Rmult_le_compat; lra). lra.
    - intros [x y] He. apply Hi. apply follows_edges; auto. }
  pose proof (sd_zero_all _ p Hz c) as Z.
  assert (T : sd c (a, b) <= sum_f (sd c) (edges (v :: l))).
  { apply sum_f_term; [|apply follows_edges; auto]. intros [x y] He. apply Hc; auto. apply follows_edges; auto. }
  unfold sd in T at 1. cbn [fst snd] in T. lra.
Qed.

Definition outlined (l : list pt) (d : detector) : Prop := d_corners d = l /\ d_center d = mean_point l.

Lemma Rleb_true : forall a b, Rleb a b = true <-> a <= b.
Proof. intros a b. unfold Rleb. destruct (Rle_dec a b); split; intro; auto; try discriminate; contradiction. Qed.
Lemma Rltb_true : forall a b, Rltb a b = true <-> a < b.
Proof. intros a b. unfold Rltb. destruct (Rlt_dec a b); split; intro; auto; try discriminate; contradiction. Qed.

Lemma on_area_inside : forall eps l p, 0 <= eps -> convex l -> inside l p ->
  on_area eps {| d_corners := l; d_center := mean_point l |} p = true.
Proof.
  intros eps l p He Hc Hi. unfold on_area. cbn [d_corners d_center]. destruct l as [|v l].
  - destruct Hc as [_ [a [b [c [_ [[] _]]]]]].
  - apply andb_true_iff. split; apply Rleb_true; [apply inside_circle; auto|].
    unfold segmentedArea, trueArea. cbn [d_corners d_center]. rewrite area_excess; [|discriminate|apply Hc].
    rewrite (sum_f_ext _ _ (fun _ => 0)).
    + rewrite sum_f_const, Rmult_0_r, Rabs_R0. exact He.
    + intros [a b] Hab. apply Rmax_left. assert (0 <= sd p (a, b)) by (apply Hi, follows_edges; auto). lra.
Qed.
Lemma on_area_outside : forall eps l p, convex l -> on_area eps {| d_corners := l; d_center := mean_point l |} p = true ->
  forall a b, follows l a b -> - eps <= side a b p.
Proof.
  intros eps l p Hc H a b Hab. unfold on_area in H. cbn [d_corners d_center] in H. destruct l as [|v l]; [discriminate|].
  apply andb_true_iff in H. destruct H as [_ H]. apply Rleb_true in H. unfold segmentedArea, trueArea in H. cbn [d_corners d_center] in H.
  rewrite area_excess in H; [|discriminate|apply Hc].
  assert (P : forall e, In e (edges (v :: l)) -> 0 <= Rmax 0 (- sd p e)) by (intros; apply Rmax_l).
  pose proof (sum_f_term _ _ _ (a, b) P (proj1 (follows_edges _ _ _) Hab)) as T.
  pose proof (Rle_abs (sum_f (fun e => Rmax 0 (- sd p e)) (edges (v :: l)))). pose proof (Rmax_r 0 (- sd p (a, b))). unfold sd in *. cbn [fst snd] in *. lra.
Qed.

(** ** Distances *)
Lemma distance_sqrt : forall p x y, distance p (x, y) = sqrt ((fst p - x) * (fst p - x) + (snd p - y) * (snd p - y)).
Proof. reflexivity. Qed.
Lemma C36_distance_proof : forall p a b,
  (exists q, on_segment a b q /\ distToSegment p a b = distance p q) /\
  (forall q, on_segment a b q -> distToSegment p a b <= distance p q).
Proof.
  intros [px py] [x0 y0] [x1 y1]. unfold distToSegment. set (L := (x1 - x0) * (x1 - x0) + (y1 - y0) * (y1 - y0)).
  destruct (Req_EM_T L 0) as [E|E].
  - assert (x1 = x0 /\ y1 = y0) as [-> ->] by (pose proof (Rle_0_sqr (x1 - x0)); pose proof (Rle_0_sqr (y1 - y0)); unfold L, Rsqr in *;
      split; apply Rminus_diag_uniq; apply Rsqr_eq_0; unfold Rsqr; lra). split.
    + exists (x0, y0). split; [|reflexivity]. exists 0. split; [lra|]. cbn. f_equal; ring.
    + intros q [t [Ht ->]]. unfold distance. cbn [fst snd]. apply sqrt_le_1_alt. right. ring.
  - assert (HL : 0 < L) by (pose proof (Rle_0_sqr (x1 - x0)); pose proof (Rle_0_sqr (y1 - y0)); unfold L, Rsqr in *; lra). set (t := ((px - x0) * (x1 - x0) + (py - y0) * (y1 - y0)) / L).
    assert (Et : (px - x0) * (x1 - x0) + (py - y0) * (y1 - y0) = t * L) by (unfold t; field; lra).
    set (t1 := if Rlt_dec t 0 then 0 else t). set (t2 := if Rlt_dec 1 t1 then 1 else t1).
    assert (H : 0 <= t2 <= 1 /\ forall u, 0 <= u <= 1 -> (t2 - t) * (t2 - t) <= (u - t) * (u - t)).
    { clear E Et HL. clearbody t. clear L. unfold t2, t1. destruct (Rlt_dec t 0) as [H1|H1].
      - destruct (Rlt_dec 1 0) as [H2|H2]; [lra|]. split; [lra|]. intros u Hu. assert (0 <= u * (u - 2 * t)) by (apply Rmult_le_pos; lra). lra.
      - destruct (Rlt_dec 1 t) as [H2|H2]; (split; [lra|]); intros u Hu.
        + assert (0 <= (1 - u) * (2 * t - u - 1)) by (apply Rmult_le_pos; lra). lra.
        + assert (0 <= (u - t) * (u - t)) by apply Rle_0_sqr. lra. }
    clearbody t2. clear t1. destruct H as [H0 H]. split.
    + exists (x0 + t2 * (x1 - x0), y0 + t2 * (y1 - y0)). split; [exists t2; auto|].
      unfold distance. cbn [fst snd]. f_equal. ring.
    + intros q [u [Hu ->]]. unfold distance. cbn [fst snd]. apply sqrt_le_1_alt.
      assert (F : forall w, (px - (x0 + w * (x1 - x0))) * (px - (x0 + w * (x1 - x0))) + (py - (y0 + w * (y1 - y0))) * (py - (y0 + w * (y1 - y0)))
         = (px - x0) * (px - x0) + (py - y0) * (py - y0) - t * t * L + L * ((w - t) * (w - t))).
      { intro w. replace ((px - (x0 + w * (x1 - x0))) * (px - (x0 + w * (x1 - x0))) + (py - (y0 + w * (y1 - y0))) * (py - (y0 + w * (y1 - y0))))
          with ((px - x0) * (px - x0) + (py - y0) * (py - y0) - 2 * w * ((px - x0) * (x1 - x0) + (py - y0) * (y1 - y0)) + w * w * L) by (unfold L; ring).
        rewrite Et. ring. }
      replace (x0 + (x1 - x0) * t2) with (x0 + t2 * (x1 - x0)) by ring. replace (y0 + (y1 - y0) * t2) with (y0 + t2 * (y1 - y0)) by ring.
      rewrite !F. specialize (H u Hu). apply Rplus_le_compat_l, Rmult_le_compat_l; lra.
Qed.

Lemma off_edges_spec : forall a d p, off_edges (Some a) d p = true <->
  forall x y q, follows (d_corners d) x y -> on_segment x y q -> a / 3600 * PI / 180 < distance p q.
Proof.
  intros a d p. unfold off_edges. rewrite forallb_forall. split.
  - intros H x y q Hf Hq. apply follows_edges in Hf. specialize (H _ Hf). apply Rltb_true in H. cbn [fst snd] in H.
    destruct (C36_distance_proof p x y) as [_ D]. specialize (D q Hq). unfold deg2rad in H. lra.
  - intros H [x y] He. apply Rltb_true. cbn [fst snd]. destruct (C36_distance_proof p x y) as [[q [Hq ->]] _].
    apply (H x y q); auto. apply follows_edges; auto.
Qed.

Lemma C36_inside_proof : forall eps l p, 0 <= eps -> convex l ->
  let d := {| d_corners := l; d_center := mean_point l |} in
  (inside l p -> on_detector eps None d p = true) /\
  (on_detector eps None d p = true -> forall a b, follows l a b -> - eps <= side a b p).
Proof.
  intros eps l p He Hc d. unfold on_detector, off_edges. rewrite andb_true_r. split.
  - intro Hi. apply on_area_inside; auto.
  - apply on_area_outside; auto.
Qed.

Lemma C36_edge_proof : forall eps d arcsec p,
  on_detector eps (Some arcsec) d p = true <->
  on_detector eps None d p = true /\
  forall a b q, follows (d_corners d) a b -> on_segment a b q -> arcsec / 3600 * PI / 180 < distance p q.
Proof.
  intros eps d arcsec p. rewrite <- off_edges_spec. unfold on_detector. cbn [off_edges]. rewrite andb_true_r. apply andb_true_iff.
Qed.
