(** The footprint filter on tables, and the projection to the focal plane. *)
From Coq Require Import String List Arith Bool Reals Lra Lia Permutation Sorting.Sorted.
From Verif Require Import Base.Prelude Base.Frame Model.Sphere Model.Footprint Spec.Sphere Spec.Footprint Proofs.Sphere Proofs.Sky Proofs.Footprint Proofs.FootprintSort.
Import ListNotations.
Open Scope R_scope.

(** ** Rows *)
Lemma insert_label_perm : forall A (x : nat * A) l, Permutation (insert_label x l) (x :: l).
Proof.
  intros A x l. induction l as [|y l IH]; cbn [insert_label]; auto. destruct (_ <=? _)%nat; auto.
  eapply Permutation_trans; [apply perm_skip, IH|apply perm_swap].
Qed.
Lemma sort_index_perm : forall A (f : frame A), Permutation (sort_index f) f.
Proof. intros A. induction f as [|x f IH]; cbn; auto. eapply Permutation_trans; [apply insert_label_perm|]. apply perm_skip, IH. Qed.
Lemma insert_label_sorted : forall A (x : nat * A) l, StronglySorted (fun a b => (fst a <= fst b)%nat) l ->
  StronglySorted (fun a b => (fst a <= fst b)%nat) (insert_label x l).
Proof.
  intros A x l. induction l as [|y l IH]; intro H; cbn [insert_label]; [repeat constructor|]. inversion H as [|? ? H1 H2]; subst.
  destruct (Nat.leb_spec (fst x) (fst y)) as [L|L].
  - constructor; auto. constructor; auto. eapply Forall_impl; [|exact H2]. intros a Ha. cbn in *. lia.
  - constructor; auto. apply Forall_forall. intros z Hz. apply (Permutation_in z (insert_label_perm A x l)) in Hz.
    destruct Hz as [<-|Hz]; [lia|]. rewrite Forall_forall in H2. auto.
Qed.
Lemma sort_index_sorted : forall A (f : frame A), StronglySorted (fun a b => (fst a <= fst b)%nat) (sort_index f).
Proof. intros A. induction f as [|x l IH]; cbn; [constructor|]. apply insert_label_sorted, IH. Qed.
Lemma labels_unique : forall A (l m : list (nat * A)), StronglySorted (fun a b => (fst a < fst b)%nat) l ->
  StronglySorted (fun a b => (fst a <= fst b)%nat) m -> Permutation m l -> m = l.
Proof.
  intro A. induction l as [|x l IH]; intros m Hl Hm HP.
  - apply Permutation_sym, Permutation_nil in HP. exact HP.
  - inversion Hl as [|? ? H1 H2]; subst. destruct m as [|y m]; [apply Permutation_nil in HP; discriminate|].
    inversion Hm as [|? ? G1 G2]; subst. rewrite Forall_forall in H2, G2.
    assert (E : y = x).
    { assert (Hy : In y (x :: l)) by (eapply Permutation_in; [exact HP|left; auto]).
      assert (Hx : In x (y :: m)) by (eapply Permutation_in; [apply Permutation_sym, HP|left; auto]).
      destruct Hy as [Hy|Hy]; [auto|]. destruct Hx as [Hx|Hx]; [auto|]. specialize (H2 y Hy). specialize (G2 x Hx). lia. }
    subst y. f_equal. apply IH; auto. eapply Permutation_cons_inv; exact HP.
Qed.

Lemma flat_map_map : forall A B C (f : B -> list C) (g : A -> B) l, flat_map f (map g l) = flat_map (fun a => f (g a)) l.
Proof. induction l as [|a l IH]; cbn; [reflexivity|]. rewrite IH. reflexivity. Qed.
Lemma flat_map_single : forall A B (g : A -> B) l, flat_map (fun a => [g a]) l = map g l.
Proof. induction l as [|a l IH]; cbn; [reflexivity|]. rewrite IH. reflexivity. Qed.
Lemma flat_map_filter : forall A B (p : A -> bool) (g : A -> B) l, map g (filter p l) = flat_map (fun a => if p a then [g a] else []) l.
Proof. induction l as [|a l IH]; cbn; [reflexivity|]. destruct (p a); cbn; rewrite IH; reflexivity. Qed.
Lemma Permutation_flat_map_app : forall A B (f g : A -> list B) l, Permutation (flat_map (fun a => f a ++ g a)%list l) (flat_map f l ++ flat_map g l).
Proof.
  induction l as [|a l IH]; cbn; [constructor|]. rewrite <- !app_assoc. apply Permutation_app_head.
  eapply Permutation_trans; [apply Permutation_app_head, IH|]. rewrite !app_assoc. apply Permutation_app_tail, Permutation_app_comm.
Qed.
Lemma flat_map_nil : forall A B (l : list A), flat_map (fun _ => @nil B) l = [].
Proof. induction l; cbn; auto. Qed.
(** Two nested traversals can be exchanged. *)
Lemma exchange : forall A B C (f : A -> B -> list C) l m,
  Permutation (flat_map (fun a => flat_map (fun b => f a b) m) l) (flat_map (fun b => flat_map (fun a => f a b) l) m).
Proof.
  intros A B C f l m. induction m as [|b m IH]; cbn.
  - rewrite flat_map_nil. constructor.
  - eapply Permutation_trans; [apply Permutation_flat_map_app|]. apply Permutation_app_head, IH.
Qed.

Definition on_k (edge_thresh : option R) (p : pt) (q : nat * detector) : bool := on_detector (/ 10 ^ 11) edge_thresh (snd q) p.

Lemma pick_nth : forall A C (f : frame A) (focal : A -> pt) (g : nat -> pt -> bool) (h : nat * A -> list C) k,
  flat_map (fun i => match nth_error f (i - k) with Some r => h r | None => [] end)
    (map fst (filter (fun q : nat * pt => g (fst q) (snd q)) (combine (seq k (length f)) (map (fun r => focal (snd r)) f))))
  = flat_map (fun q : nat * (nat * A) => if g (fst q) (focal (snd (snd q))) then h (snd q) else []) (combine (seq k (length f)) f).
Proof.
  intros A C f focal g h.
  assert (G : forall (rest f : frame A) k pre, f = (pre ++ rest)%list -> 
     flat_map (fun i => match nth_error f (i - k) with Some r => h r | None => [] end)
      (map fst (filter (fun q : nat * pt => g (fst q) (snd q)) (combine (seq (k + length pre) (length rest)) (map (fun r => focal (snd r)) rest))))
     = flat_map (fun q : nat * (nat * A) => if g (fst q) (focal (snd (snd q))) then h (snd q) else []) (combine (seq (k + length pre) (length rest)) rest)).
  { induction rest as [|r rest IH]; intros f0 k pre E; [reflexivity|]. cbn [length seq map combine filter fst snd flat_map].
    assert (E' : f0 = ((pre ++ [r]) ++ rest)%list) by (rewrite <- app_assoc; exact E).
    specialize (IH f0 k (pre ++ [r])%list E'). rewrite app_length in IH. cbn [length] in IH. rewrite Nat.add_1_r, Nat.add_succ_r in IH.
    destruct (g (k + length pre)%nat (focal (snd r))); cbn [map flat_map fst].
    - rewrite IH. f_equal. replace (k + length pre - k)%nat with (length pre) by lia. rewrite E, nth_error_app2, Nat.sub_diag by lia. reflexivity.
    - rewrite IH. reflexivity. }
  intro k. specialize (G f f k [] eq_refl). rewrite Nat.add_0_r in G. exact G.
Qed.
Lemma combine_snd : forall A B C (h : B -> list C) (a : list A) (b : list B), length a = length b -> flat_map (fun q => h (snd q)) (combine a b) = flat_map h b.
Proof. induction a as [|x a IH]; intros [|y b] H; cbn in *; try discriminate; auto. rewrite IH by lia. reflexivity. Qed.

Lemma applied : forall A (focal : A -> pt) thr dets (f : frame A),
  Permutation (footprint_filter focal thr dets f)
    (flat_map (fun r => map (fun q => (fst r, (snd r, fst q))) (filter (on_k thr (focal (snd r))) (combine (seq 0 (length dets)) dets))) f).
Proof.
  intros A focal thr dets f. unfold footprint_filter. eapply Permutation_trans; [apply sort_index_perm|].
  unfold applyFootprint. rewrite <- flat_map_concat_map.
  assert (E : forall B C D (g : B -> list C) (h : C -> list D) l, flat_map h (flat_map g l) = flat_map (fun b => flat_map h (g b)) l).
  { induction l as [|b l IH]; cbn; [reflexivity|]. rewrite flat_map_app, IH. reflexivity. }
  rewrite E.
  rewrite (flat_map_ext _ (fun q : nat * detector => flat_map (fun r : nat * A => if on_k thr (focal (snd r)) q then [(fst r, (snd r, fst q))] else []) f)).
  2:{ intros [k d]. cbn [fst snd]. rewrite flat_map_map. cbn [fst snd]. unfold ison. rewrite map_length.
      rewrite (flat_map_ext _ (fun i => match nth_error f (i - 0) with Some r => [(fst r, (snd r, k))] | None => [] end)) by (intro i; rewrite Nat.sub_0_r; reflexivity).
      rewrite (pick_nth A _ f focal (fun _ p => on_detector (/ 10 ^ 11) thr d p) (fun r => [(fst r, (snd r, k))]) 0).
      apply (combine_snd _ _ _ (fun r : nat * A => if on_k thr (focal (snd r)) (k, d) then [(fst r, (snd r, k))] else [])). apply seq_length. }
  eapply Permutation_trans; [apply exchange|]. erewrite flat_map_ext; [apply Permutation_refl|].
  intros [lab r]. cbn [fst snd]. rewrite flat_map_filter. reflexivity.
Qed.

Lemma in_numbered : forall A (l : list A) k i x, In (i, x) (combine (seq k (length l)) l) <-> (k <= i)%nat /\ nth_error l (i - k) = Some x.
Proof.
  induction l as [|y l IH]; intros k i x; cbn [length seq combine].
  - cbn. split; [tauto|]. intros [_ H]. destruct (i - k)%nat; discriminate.
  - cbn [In]. rewrite IH. split.
    + intros [E|[H1 H2]]; [injection E as -> ->; rewrite Nat.sub_diag; auto|]. split; [lia|]. replace (i - k)%nat with (S (i - S k)) by lia. exact H2.
    + intros [H1 H2]. destruct (Nat.eq_dec i k) as [->|N]; [left; rewrite Nat.sub_diag in H2; cbn in H2; congruence|right].
      split; [lia|]. replace (i - k)%nat with (S (i - S k)) in H2 by lia. exact H2.
Qed.

Lemma C71_rows_proof : forall A (focal : A -> R * R) thr dets (f : frame A) lab r k,
  In (lab, (r, k)) (footprint_filter focal thr dets f) <->
  In (lab, r) f /\ exists d, nth_error dets k = Some d /\ on_detector (/ 10 ^ 11) thr d (focal r) = true.
Proof.
  intros A focal thr dets f lab r k.
  transitivity (In (lab, (r, k)) (flat_map (fun r => map (fun q => (fst r, (snd r, fst q))) (filter (on_k thr (focal (snd r))) (combine (seq 0 (length dets)) dets))) f)).
  - split; apply Permutation_in; [|apply Permutation_sym]; apply applied.
  - rewrite in_flat_map. split.
    + intros [[l x] [Hx H]]. cbn [fst snd] in H. apply in_map_iff in H. destruct H as [[i d] [E H]]. injection E as -> -> <-.
      apply filter_In in H. destruct H as [H1 H2]. apply in_numbered in H1. rewrite Nat.sub_0_r in H1. split; auto. exists d. split; [apply H1|exact H2].
    + intros [Hf [d [H1 H2]]]. exists (lab, r). split; auto. cbn [fst snd]. apply in_map_iff. exists (k, d). split; auto. apply filter_In. split; auto.
      apply in_numbered. rewrite Nat.sub_0_r. split; [lia|auto].
Qed.

(** With detectors that do not share a point, and rows labelled in order, the
    result is the rows on a detector, in order, each once. *)
Lemma C71_once_proof : forall A (focal : A -> R * R) thr dets (f : frame A),
  StronglySorted (fun a b => (fst a < fst b)%nat) f ->
  (forall lab r i j d e, In (lab, r) f -> nth_error dets i = Some d -> nth_error dets j = Some e ->
     on_detector (/ 10 ^ 11) thr d (focal r) = true -> on_detector (/ 10 ^ 11) thr e (focal r) = true -> i = j) ->
  map (fun x => (fst x, fst (snd x))) (footprint_filter focal thr dets f)
  = filter (fun r => existsb (fun d => on_detector (/ 10 ^ 11) thr d (focal (snd r))) dets) f.
Proof.
  intros A focal thr dets f Hs Hd. apply labels_unique.
  - clear Hd. induction Hs as [|r f Hs IH HF]; cbn [filter]; [constructor|]. destruct (existsb _ _); auto. constructor; auto.
    rewrite Forall_forall in *. intros x Hx. apply filter_In in Hx. apply HF, Hx.
  - unfold footprint_filter. assert (G : forall l : frame (A * nat), StronglySorted (fun a b => (fst a <= fst b)%nat) l -> StronglySorted (fun a b => (fst a <= fst b)%nat) (map (fun x => (fst x, fst (snd x))) l)).
    { induction 1 as [|x l Hl IH HF]; cbn; constructor; auto. rewrite Forall_forall in *. intros y Hy. apply in_map_iff in Hy.
      destruct Hy as [z [<- Hz]]. cbn. apply HF, Hz. }
    apply G, sort_index_sorted.
  - eapply Permutation_trans; [apply Permutation_map, applied|]. clear Hs. induction f as [|[lab r] f IH]; [constructor|].
    cbn [flat_map filter fst snd]. rewrite map_app, map_map. cbn [fst snd].
    assert (IH' := IH (fun l x i j d e H => Hd l x i j d e (or_intror H))). clear IH.
    assert (C : map (fun _ : nat * detector => (lab, r)) (filter (on_k thr (focal r)) (combine (seq 0 (length dets)) dets))
      = if existsb (fun d => on_detector (/ 10 ^ 11) thr d (focal r)) dets then [(lab, r)] else []).
    { specialize (Hd lab r). assert (Hd' := fun i j d e => Hd i j d e (or_introl eq_refl)). clear Hd IH'.
      assert (N : NoDup (filter (on_k thr (focal r)) (combine (seq 0 (length dets)) dets))).
      { apply NoDup_filter. assert (G : forall (l : list detector) k, NoDup (combine (seq k (length l)) l)).
        { induction l as [|x l IHl]; intro k; cbn; constructor; auto. intro H. apply in_numbered in H. lia. }
        apply G. }
      destruct (existsb _ dets) eqn:E.
      - apply existsb_exists in E. destruct E as [d [Hin Hon]]. apply In_nth_error in Hin. destruct Hin as [i Hi].
        assert (Hall : forall q, In q (filter (on_k thr (focal r)) (combine (seq 0 (length dets)) dets)) -> q = (i, d)).
        { intros [j e] H. apply filter_In in H. destruct H as [H1 H2]. apply in_numbered in H1. rewrite Nat.sub_0_r in H1. destruct H1 as [_ H1].
          assert (i = j) by (apply (Hd' i j d e); auto). subst j. rewrite Hi in H1. injection H1 as ->. reflexivity. }
        assert (Hmem : In (i, d) (filter (on_k thr (focal r)) (combine (seq 0 (length dets)) dets))).
        { apply filter_In. split; auto. apply in_numbered. rewrite Nat.sub_0_r. split; [lia|auto]. }
        destruct (filter _ _) as [|q1 [|q2 rest]] eqn:Ef; [destruct Hmem|reflexivity|exfalso].
        inversion N as [|? ? N1 N2]; subst. apply N1. rewrite (Hall q1) by (left; auto). rewrite (Hall q2) by (right; left; auto). left; auto.
      - assert (Hnone : forall q, ~ In q (filter (on_k thr (focal r)) (combine (seq 0 (length dets)) dets))).
        { intros [j e] H. apply filter_In in H. destruct H as [H1 H2]. apply in_numbered in H1. destruct H1 as [_ H1]. apply nth_error_In in H1.
          assert (existsb (fun d => on_detector (/ 10 ^ 11) thr d (focal r)) dets = true) by (apply existsb_exists; exists e; auto). congruence. }
        destruct (filter _ _) as [|q rest]; [reflexivity|]. exfalso. apply (Hnone q). left; auto. }
    rewrite C. destruct (existsb _ dets); cbn [app]; [apply perm_skip|]; exact IH'.
Qed.

(** ** Squares *)
Definition square (x y s : R) : list (R * R) := [(x, y); (x + s, y); (x + s, y + s); (x, y + s)].
Definition square_detector (x y s : R) : detector := {| d_corners := square x y s; d_center := mean_point (square x y s) |}.
Lemma square_strict : forall x y s, 0 < s -> strictly_convex (square x y s).
Proof.
  intros x y s Hs. split; [cbn; lia|]. split.
  - repeat constructor; cbn; intuition; match goal with H : (_, _) = (_, _) |- _ => injection H; intros; lra end.
  - intros a b c F Hc. apply follows_edges in F. cbn in F. cbn in Hc.
    assert (Hss : 0 < s * s) by nra.
    destruct F as [F|[F|[F|[F|[]]]]]; injection F as <- <-; destruct Hc as [<-|[<-|[<-|[<-|[]]]]]; intros Na Nb; try (exfalso; apply Na; reflexivity); try (exfalso; apply Nb; reflexivity);
      unfold side; cbn [fst snd]; ring_simplify; try nra; lra.
Qed.
Lemma square_inside : forall x y s px py, 0 < s -> x <= px <= x + s -> y <= py <= y + s -> inside (square x y s) (px, py).
Proof.
  intros x y s px py Hs Hx Hy a b F. apply follows_edges in F. cbn in F.
  destruct F as [F|[F|[F|[F|[]]]]]; injection F as <- <-; unfold side; cbn [fst snd].
  - replace ((x + s - x) * (py - y) - (y - y) * (px - x)) with (s * (py - y)) by ring. apply Rmult_le_pos; lra.
  - replace ((x + s - (x + s)) * (py - y) - (y + s - y) * (px - (x + s))) with (s * (x + s - px)) by ring. apply Rmult_le_pos; lra.
  - replace ((x - (x + s)) * (py - (y + s)) - (y + s - (y + s)) * (px - (x + s))) with (s * (y + s - py)) by ring. apply Rmult_le_pos; lra.
  - replace ((x - x) * (py - (y + s)) - (y - (y + s)) * (px - x)) with (s * (px - x)) by ring. apply Rmult_le_pos; lra.
Qed.
Lemma eps_pos : 0 <= / 10 ^ 11.
Proof. left. apply Rinv_0_lt_compat. apply pow_lt. lra. Qed.
Lemma square_on : forall x y s px py, 0 < s -> x <= px <= x + s -> y <= py <= y + s ->
  on_detector (/ 10 ^ 11) None (square_detector x y s) (px, py) = true.
Proof. intros. apply C36_inside_proof; [apply eps_pos|apply strict_convex, square_strict; auto|apply square_inside; auto]. Qed.

Lemma C71_overlap_refuted_proof : exists (dets : list detector) (f : frame (R * R)) (r : R * R),
  f = [(0%nat, r)] /\ Permutation (footprint_filter (fun r => r) None dets f) [(0%nat, (r, 0%nat)); (0%nat, (r, 1%nat))].
Proof.
  exists [square_detector 0 0 1; square_detector 0 0 2], [(0%nat, (1/2, 1/2))], (1/2, 1/2). split; [reflexivity|].
  eapply Permutation_trans; [apply applied|]. cbn [flat_map length seq combine filter fst snd].
  unfold on_k. cbn [fst snd]. rewrite !square_on by lra. cbn. apply Permutation_refl.
Qed.

(** ** The projection *)
Lemma field_basis : forall ra dec, 0 < cos dec ->
  let f := V3 (cos ra * cos dec) (sin ra * cos dec) (sin dec) in
  let fx := V3 (- vy f) (vx f) 0 in let fy := np_cross f fx in
  scale (/ norm fx) fx = V3 (- sin ra) (cos ra) 0 /\
  scale (/ norm fy) fy = V3 (- cos ra * sin dec) (- sin ra * sin dec) (cos dec).
Proof.
  intros ra dec Hc f fx fy. pose proof (sc1 ra) as E1. pose proof (sc1 dec) as E2.
  assert (N1 : norm fx = cos dec).
  { unfold norm, dot, fx, f. cbn [vx vy vz]. replace (- (sin ra * cos dec) * - (sin ra * cos dec) + cos ra * cos dec * (cos ra * cos dec) + 0 * 0)
      with ((cos ra * cos ra + sin ra * sin ra) * (cos dec * cos dec)) by ring. rewrite E1, Rmult_1_l. apply sqrt_square. lra. }
  assert (Ey : fy = scale (cos dec) (V3 (- cos ra * sin dec) (- sin ra * sin dec) (cos dec))).
  { unfold fy, np_cross, fx, f, scale. cbn [vx vy vz]. f_equal; try ring.
    replace (cos ra * cos dec * (cos ra * cos dec) - sin ra * cos dec * - (sin ra * cos dec)) with ((cos ra * cos ra + sin ra * sin ra) * (cos dec * cos dec)) by ring.
    rewrite E1. ring. }
  assert (N2 : norm fy = cos dec).
  { rewrite Ey. unfold norm, dot, scale. cbn [vx vy vz].
    replace (cos dec * (- cos ra * sin dec) * (cos dec * (- cos ra * sin dec)) + cos dec * (- sin ra * sin dec) * (cos dec * (- sin ra * sin dec)) + cos dec * cos dec * (cos dec * cos dec))
      with (cos dec * cos dec * ((cos ra * cos ra + sin ra * sin ra) * (sin dec * sin dec) + cos dec * cos dec)) by ring.
    rewrite E1. replace (1 * (sin dec * sin dec) + cos dec * cos dec) with 1 by lra. rewrite Rmult_1_r. apply sqrt_square. lra. }
  rewrite N1, N2, Ey. split; unfold scale, fx, f; cbn [vx vy vz]; f_equal; field; lra.
Qed.

Lemma radians_unit : forall ra dec, unit (radians_dir ra dec).
Proof.
  intros ra dec. unfold unit, radians_dir. cbn [vx vy vz]. pose proof (sc1 ra). pose proof (sc1 dec).
  replace (cos ra * cos dec * (cos ra * cos dec) + sin ra * cos dec * (sin ra * cos dec) + sin dec * sin dec)
    with ((cos ra * cos ra + sin ra * sin ra) * (cos dec * cos dec) + sin dec * sin dec) by ring. rewrite H. lra.
Qed.

Lemma expand : forall fra fdec w, dot (radians_dir fra fdec) w = 1 ->
  let east := V3 (- sin fra) (cos fra) 0 in
  let north := V3 (- cos fra * sin fdec) (- sin fra * sin fdec) (cos fdec) in
  vadd (radians_dir fra fdec) (vadd (scale (dot (vsub w (radians_dir fra fdec)) east) east) (scale (dot (vsub w (radians_dir fra fdec)) north) north)) = w.
Proof.
  intros fra fdec [a b d] E east north. pose proof (sc1 fra) as S1. pose proof (sc1 fdec) as S2.
  unfold dot, radians_dir in E. cbn [vx vy vz] in E. unfold vadd, vsub, scale, dot, radians_dir, east, north. cbn [vx vy vz].
  set (C := cos fra) in *. set (S := sin fra) in *. set (c := cos fdec) in *. set (s := sin fdec) in *. clearbody C S c s.
  assert (S1' : C * C = 1 - S * S) by lra. assert (S2' : c * c = 1 - s * s) by lra.
  assert (X : (a - C * c) * - S + (b - S * c) * C + (d - s) * 0 = - S * a + C * b) by ring.
  assert (Y : (a - C * c) * (- C * s) + (b - S * c) * (- S * s) + (d - s) * c = - C * s * a - S * s * b + c * d).
  { replace ((a - C * c) * (- C * s) + (b - S * c) * (- S * s) + (d - s) * c) with (- C * s * a - S * s * b + c * d + c * s * (C * C + S * S) - s * c) by ring. rewrite S1. ring. }
  rewrite X, Y. f_equal.
  - replace (C * c) with (C * c * (C * c * a + S * c * b + s * d)) by (rewrite E; ring).
    replace (C * c * (C * c * a + S * c * b + s * d) + ((- S * a + C * b) * - S + (- C * s * a - S * s * b + c * d) * (- C * s)))
      with (a * (C * C * (c * c + s * s) + S * S) + b * (S * C) * ((c * c + s * s) - 1)) by ring. rewrite S2. replace (C * C * 1 + S * S) with 1 by lra. ring.
  - replace (S * c) with (S * c * (C * c * a + S * c * b + s * d)) at 1 by (rewrite E; ring).
    replace (S * c * (C * c * a + S * c * b + s * d) + ((- S * a + C * b) * C + (- C * s * a - S * s * b + c * d) * (- S * s)))
      with (b * (S * S * (c * c + s * s) + C * C) + a * (S * C) * ((c * c + s * s) - 1)) by ring. rewrite S2. replace (S * S * 1 + C * C) with 1 by lra. ring.
  - replace s with (s * (C * c * a + S * c * b + s * d)) at 1 by (rewrite E; ring).
    replace (s * (C * c * a + S * c * b + s * d) + ((- S * a + C * b) * 0 + (- C * s * a - S * s * b + c * d) * c))
      with (d * (c * c + s * s)) by ring. rewrite S2. ring.
Qed.

(** The point is found again: its direction is along field + x east + y north. *)
Lemma C72_direction_proof : forall ra dec fra fdec x y, - (PI / 2) < fdec < PI / 2 ->
  0 < dot (radians_dir fra fdec) (radians_dir ra dec) ->
  radec_to_tangent_plane ra dec fra fdec = (x, y) ->
  let east := V3 (- sin fra) (cos fra) 0 in
  let north := V3 (- cos fra * sin fdec) (- sin fra * sin fdec) (cos fdec) in
  along (vadd (radians_dir fra fdec) (vadd (scale x east) (scale y north))) (radians_dir ra dec).
Proof.
  intros ra dec fra fdec x y Hf Hd E east north. assert (Hc : 0 < cos fdec) by (apply cos_gt_0; lra).
  pose proof (field_basis fra fdec Hc) as [B1 B2]. cbn zeta in B1, B2.
  unfold radec_to_tangent_plane in E. rewrite B1, B2 in E. fold (radians_dir ra dec) in E. fold (radians_dir fra fdec) in E.
  fold east in E. fold north in E.
  set (k := 1 / dot (radians_dir fra fdec) (radians_dir ra dec)) in E.
  assert (Hk : 0 < k) by (unfold k; apply Rdiv_lt_0_compat; lra).
  exists k. split; [exact Hk|].
  assert (Ek : dot (radians_dir fra fdec) (scale k (radians_dir ra dec)) = 1).
  { unfold k. unfold dot at 1. cbn [scale vx vy vz]. replace (vx (radians_dir fra fdec) * (1 / dot (radians_dir fra fdec) (radians_dir ra dec) * vx (radians_dir ra dec)) +
       vy (radians_dir fra fdec) * (1 / dot (radians_dir fra fdec) (radians_dir ra dec) * vy (radians_dir ra dec)) +
       vz (radians_dir fra fdec) * (1 / dot (radians_dir fra fdec) (radians_dir ra dec) * vz (radians_dir ra dec)))
      with (dot (radians_dir fra fdec) (radians_dir ra dec) / dot (radians_dir fra fdec) (radians_dir ra dec)) by (unfold dot at 1; field; lra). field. lra. }
  injection E as <- <-. change (V3 (k * vx (radians_dir ra dec)) (k * vy (radians_dir ra dec)) (k * vz (radians_dir ra dec))) with (scale k (radians_dir ra dec)).
  generalize (scale k (radians_dir ra dec)) Ek. intros w E3. clear - E3. unfold east, north. apply expand; exact E3.
Qed.

(** Seen from the field centre, the distance on the plane is the tangent of the
    angle on the sky. *)
Lemma C72_angle_proof : forall ra dec fra fdec x y theta, - (PI / 2) < fdec < PI / 2 -> 0 <= theta < PI / 2 ->
  dot (radians_dir fra fdec) (radians_dir ra dec) = cos theta ->
  forall rot, radec_to_focal_plane ra dec fra fdec rot = (x, y) -> sqrt (x * x + y * y) = tan theta.
Proof.
  intros ra dec fra fdec x y theta Hf Ht Hd rot E. assert (Hc : 0 < cos theta) by (apply cos_gt_0; lra).
  unfold radec_to_focal_plane in E. destruct (radec_to_tangent_plane ra dec fra fdec) as [x0 y0] eqn:E0.
  destruct (C72_direction_proof ra dec fra fdec x0 y0 Hf ltac:(rewrite Hd; exact Hc) E0) as [k [Hk Ek]].
  injection E as <- <-.
  assert (R2 : (x0 * cos rot - y0 * sin rot) * (x0 * cos rot - y0 * sin rot) + (x0 * sin rot + y0 * cos rot) * (x0 * sin rot + y0 * cos rot) = x0 * x0 + y0 * y0).
  { pose proof (sc1 rot) as S. replace ((x0 * cos rot - y0 * sin rot) * (x0 * cos rot - y0 * sin rot) + (x0 * sin rot + y0 * cos rot) * (x0 * sin rot + y0 * cos rot))
      with ((x0 * x0 + y0 * y0) * (cos rot * cos rot + sin rot * sin rot)) by ring. rewrite S. ring. }
  rewrite R2. pose proof (sc1 fra) as S1. pose proof (sc1 fdec) as S2.
  set (w := vadd _ _) in Ek.
  assert (Q1 : dot (radians_dir fra fdec) w = 1).
  { unfold w, dot, radians_dir, vadd, scale. cbn [vx vy vz]. set (C := cos fra) in *. set (S := sin fra) in *. set (c := cos fdec) in *. set (s := sin fdec) in *.
    replace (C * c * (C * c + (x0 * - S + y0 * (- C * s))) + S * c * (S * c + (x0 * C + y0 * (- S * s))) + s * (s + (x0 * 0 + y0 * c)))
      with ((C * C + S * S) * (c * c) + s * s + y0 * (c * s) * (1 - (C * C + S * S))) by ring. rewrite S1. lra. }
  assert (Q2 : dot w w = 1 + x0 * x0 + y0 * y0).
  { unfold w, dot, radians_dir, vadd, scale. cbn [vx vy vz]. set (C := cos fra) in *. set (S := sin fra) in *. set (c := cos fdec) in *. set (s := sin fdec) in *.
    replace ((C * c + (x0 * - S + y0 * (- C * s))) * (C * c + (x0 * - S + y0 * (- C * s))) + (S * c + (x0 * C + y0 * (- S * s))) * (S * c + (x0 * C + y0 * (- S * s))) +
       (s + (x0 * 0 + y0 * c)) * (s + (x0 * 0 + y0 * c)))
      with ((C * C + S * S) * (c * c + y0 * y0 * (s * s) + x0 * x0) + s * s + y0 * y0 * (c * c) + 2 * y0 * (c * s) * (1 - (C * C + S * S))) by ring. rewrite S1.
    replace (1 * (c * c + y0 * y0 * (s * s) + x0 * x0) + s * s + y0 * y0 * (c * c) + 2 * y0 * (c * s) * (1 - 1)) with ((c * c + s * s) * (1 + y0 * y0) + x0 * x0) by ring. rewrite S2. ring. }
  assert (Q3 : k * cos theta = 1).
  { rewrite <- Hd, <- Q1, Ek. unfold dot. cbn [vx vy vz]. ring. }
  assert (Q4 : dot w w = k * k).
  { rewrite Ek. pose proof (radians_unit ra dec) as U. unfold unit in U. unfold dot. cbn [vx vy vz].
    replace (k * vx (radians_dir ra dec) * (k * vx (radians_dir ra dec)) + k * vy (radians_dir ra dec) * (k * vy (radians_dir ra dec)) + k * vz (radians_dir ra dec) * (k * vz (radians_dir ra dec)))
      with (k * k * (vx (radians_dir ra dec) * vx (radians_dir ra dec) + vy (radians_dir ra dec) * vy (radians_dir ra dec) + vz (radians_dir ra dec) * vz (radians_dir ra dec))) by ring. rewrite U. ring. }
  assert (Ek' : k = / cos theta) by (apply Rmult_eq_reg_r with (cos theta); [rewrite Q3; field; lra|lra]).
  replace (x0 * x0 + y0 * y0) with (tan theta * tan theta).
  - apply sqrt_square. unfold tan. apply Rmult_le_pos; [apply sin_ge_0; pose proof PI_RGT_0; lra|left; apply Rinv_0_lt_compat; auto].
  - assert (x0 * x0 + y0 * y0 = k * k - 1) by lra. rewrite H, Ek'. unfold tan. pose proof (sc1 theta) as ST.
    replace (/ cos theta * / cos theta - 1) with ((1 - cos theta * cos theta) / (cos theta * cos theta)) by (field; lra).
    replace (1 - cos theta * cos theta) with (sin theta * sin theta) by lra. field. lra.
Qed.

(** The corners of the detectors go through the same projection. *)
Lemma C72_corners_proof : forall ra dec, project (ra, dec) = radec_to_tangent_plane ra dec 0 0.
Proof.
  intros ra dec. unfold radec_to_tangent_plane. rewrite cos_0, sin_0.
  pose proof (field_basis 0 0 ltac:(rewrite cos_0; lra)) as [B1 B2]. cbn zeta in B1, B2. rewrite cos_0, sin_0 in B1, B2. rewrite B1, B2.
  unfold project, dot, vsub, scale. cbn [vx vy vz]. f_equal; unfold Rdiv; ring_simplify; try (f_equal; f_equal; ring).
Qed.

(** The opposite point of the sky has the same coordinates. *)
Lemma C72_antipode_refuted_proof : forall ra dec fra fdec rot,
  radec_to_focal_plane (ra + PI) (- dec) fra fdec rot = radec_to_focal_plane ra dec fra fdec rot.
Proof.
  intros ra dec fra fdec rot. unfold radec_to_focal_plane.
  replace (radec_to_tangent_plane (ra + PI) (- dec) fra fdec) with (radec_to_tangent_plane ra dec fra fdec); [reflexivity|].
  unfold radec_to_tangent_plane. rewrite neg_cos, neg_sin, cos_neg, sin_neg.
  set (f := V3 (cos fra * cos fdec) (sin fra * cos fdec) (sin fdec)).
  assert (E : scale (1 / dot f (V3 (- cos ra * cos dec) (- sin ra * cos dec) (- sin dec))) (V3 (- cos ra * cos dec) (- sin ra * cos dec) (- sin dec))
    = scale (1 / dot f (V3 (cos ra * cos dec) (sin ra * cos dec) (sin dec))) (V3 (cos ra * cos dec) (sin ra * cos dec) (sin dec))).
  { set (D := dot f (V3 (cos ra * cos dec) (sin ra * cos dec) (sin dec))).
    replace (dot f (V3 (- cos ra * cos dec) (- sin ra * cos dec) (- sin dec))) with (- D) by (unfold D, dot; cbn [vx vy vz]; ring).
    unfold Rdiv. rewrite Rinv_opp. unfold scale. cbn [vx vy vz]. f_equal; ring. }
  rewrite E. reflexivity.
Qed.

(** ** Unused options of the detector class *)
Lemma C73_degrees_refuted_proof : forall points, make_detector_units "degrees" points = Err AttributeError /\
  make_detector_units "deg" points = make_detector_units "radians" points.
Proof. intro points. split; reflexivity. Qed.
Lemma C73_rotate_refuted_proof : exists l, l <> [] /\ d_corners (rotateDetector 0 {| d_corners := l; d_center := mean_point l |}) <> l.
Proof.
  exists [(PI / 3, 0)]. split; [discriminate|]. unfold rotateDetector. cbn [d_corners make_detector map fst snd]. rewrite cos_0, sin_0. intro E.
  unfold project in E. replace (PI / 3 * 1 - 0 * 0) with (PI / 3) in E by ring. replace (PI / 3 * 0 + 0 * 1) with 0 in E by ring. rewrite cos_0, Rmult_1_r, Rmult_1_r in E.
  injection E as E _. change (tan (PI / 3) = PI / 3) in E. rewrite tan_PI3 in E. pose proof PI_4. assert (S : sqrt 3 <= 4 / 3) by lra.
  assert (0 <= sqrt 3) by apply sqrt_pos. assert (sqrt 3 * sqrt 3 = 3) by (apply sqrt_sqrt; lra).
  assert (sqrt 3 * sqrt 3 <= 4 / 3 * (4 / 3)) by (apply Rmult_le_compat; lra). lra.
Qed.
