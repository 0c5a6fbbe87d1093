(** The detectors made from a file of corners. *)
From Coq Require Import String List Arith Bool Reals Lra Lia Permutation Sorting.Sorted.
From Verif Require Import Base.Prelude Base.Frame Model.Sphere Model.Footprint Spec.Footprint Proofs.Sphere Proofs.Footprint
  Proofs.FootprintSort.
Import ListNotations.
Open Scope R_scope.

(** The distinct names, each where it first appears. *)
Fixpoint firsts (l : list string) : list string :=
  match l with [] => [] | x :: l' => x :: filter (fun y => negb (String.eqb x y)) (firsts l') end.
Lemma firsts_eq : forall l, fold_right (fun x r => x :: filter (fun y => negb (String.eqb x y)) r) [] l = firsts l.
Proof. induction l; cbn; [reflexivity|rewrite IHl; reflexivity]. Qed.
Lemma firsts_in : forall l n, In n (firsts l) <-> In n l.
Proof.
  induction l as [|x l IH]; intro n; cbn; [reflexivity|]. rewrite filter_In, IH. destruct (String.eqb_spec x n); cbn; intuition.
Qed.
Lemma firsts_nodup : forall l, NoDup (firsts l).
Proof.
  induction l as [|x l IH]; cbn; constructor; [|apply NoDup_filter; auto]. rewrite filter_In, String.eqb_refl. cbn. intuition.
Qed.
Lemma filter_all : forall A (f : A -> bool) l, (forall x, In x l -> f x = true) -> filter f l = l.
Proof. induction l as [|x l IH]; cbn; intro H; [reflexivity|]. rewrite H by auto. rewrite IH; auto. Qed.
(** A name that is new is put behind all names before it. *)
Lemma firsts_app : forall a b, firsts (a ++ b) = firsts a ++ filter (fun y => negb (existsb (String.eqb y) a)) (firsts b).
Proof.
  induction a as [|x a IH]; intro b; cbn [app firsts existsb].
  - rewrite filter_all; auto.
  - rewrite IH, filter_app. cbn [app]. f_equal. f_equal. clear IH. induction (firsts b) as [|y l IH]; cbn; [reflexivity|].
    rewrite String.eqb_sym. destruct (existsb (String.eqb y) a) eqn:E; cbn [negb].
    + rewrite orb_true_r. cbn. exact IH.
    + rewrite orb_false_r. cbn [filter]. rewrite (String.eqb_sym x y). destruct (String.eqb y x); cbn [negb]; rewrite IH; reflexivity.
Qed.
Lemma firsts_length : forall l, length (firsts l) = length (nodup string_dec l).
Proof.
  intro l. apply Nat.le_antisymm; apply NoDup_incl_length; try apply NoDup_nodup; try apply firsts_nodup; intros x Hx.
  - apply nodup_In. apply (proj1 (firsts_in l x)); auto.
  - apply (proj2 (firsts_in l x)). apply (proj1 (nodup_In string_dec l x)); auto.
Qed.
Lemma firsts_position : forall pre n post, ~ In n pre -> nth_error (firsts (pre ++ n :: post)) (length (nodup string_dec pre)) = Some n.
Proof.
  intros pre n post H. rewrite firsts_app, <- firsts_length, nth_error_app2, Nat.sub_diag by lia. cbn [firsts filter].
  replace (existsb (String.eqb n) pre) with false; [reflexivity|]. symmetry. apply not_true_iff_false. intro E. apply existsb_exists in E.
  destruct E as [x [Hx E]]. apply String.eqb_eq in E. subst. auto.
Qed.

(** The corners that the file gives for a name. *)
Definition rows_of (n : string) (file : list (string * pt)) : list pt :=
  map snd (filter (fun r => String.eqb (fst r) n) file).
Lemma rows_of_in : forall n file p, In p (rows_of n file) <-> In (n, p) file.
Proof.
  intros n file p. unfold rows_of. rewrite in_map_iff. split.
  - intros [[m q] [<- H]]. apply filter_In in H. destruct H as [H E]. apply String.eqb_eq in E. cbn in *. subst. auto.
  - intro H. exists (n, p). split; auto. apply filter_In. split; auto. apply String.eqb_refl.
Qed.
Lemma rows_of_perm : forall n file file', Permutation file file' -> Permutation (rows_of n file) (rows_of n file').
Proof.
  intros n file file' H. unfold rows_of. apply Permutation_map. induction H; cbn; auto.
  - destruct (String.eqb _ _); auto.
  - destruct (String.eqb (fst y) n), (String.eqb (fst x) n); auto. apply perm_swap.
  - eapply Permutation_trans; eauto.
Qed.

Lemma C87_names_proof : forall file,
  let names := map fst (make_footprint file) in
  NoDup names /\ (forall n, In n names <-> In n (map fst file)) /\
  forall pre n post, map fst file = pre ++ n :: post -> ~ In n pre -> nth_error names (length (nodup string_dec pre)) = Some n.
Proof.
  intros file names.
  assert (E : names = firsts (map fst file)).
  { unfold names, make_footprint. rewrite firsts_eq, map_map. cbn [fst]. apply map_id. }
  rewrite E. split; [apply firsts_nodup|]. split; [intro n; apply firsts_in|].
  intros pre n post Ef H. rewrite Ef. apply firsts_position; auto.
Qed.

Lemma make_footprint_in : forall file n d,
  In (n, d) (make_footprint file) <-> In n (map fst file) /\ d = sortCorners (make_detector (rows_of n file)).
Proof.
  intros file n d. unfold make_footprint. rewrite firsts_eq, in_map_iff. split.
  - intros [m [E H]]. injection E as <- <-. split; [apply firsts_in; auto|reflexivity].
  - intros [H ->]. exists n. split; [reflexivity|apply firsts_in; auto].
Qed.

Lemma C87_corners_proof : forall file n d, In (n, d) (make_footprint file) ->
  Permutation (d_corners d) (map project (map snd (filter (fun r => String.eqb (fst r) n) file))) /\
  forall eps p l, 0 <= eps -> strictly_convex l ->
    Permutation (map project (map snd (filter (fun r => String.eqb (fst r) n) file))) l ->
    (inside l p -> on_detector eps None d p = true) /\
    (on_detector eps None d p = true -> forall a b, follows l a b -> - eps <= side a b p).
Proof.
  intros file n d H. apply make_footprint_in in H. destruct H as [_ ->]. split; [|intros; eapply C36_outline_proof; eauto].
  unfold sortCorners, make_detector. cbn [d_corners]. apply sort_real_perm.
Qed.

Lemma C87_order_proof : forall file file', Permutation file file' ->
  (forall n, In n (map fst file) -> exists l, strictly_convex l /\
     Permutation (map project (map snd (filter (fun r => String.eqb (fst r) n) file))) l) ->
  forall n d, In (n, d) (make_footprint file) <-> In (n, d) (make_footprint file').
Proof.
  intros file file' HP HC n d. rewrite !make_footprint_in.
  assert (Hn : In n (map fst file) <-> In n (map fst file')).
  { split; apply Permutation_in; [|apply Permutation_sym]; apply Permutation_map; auto. }
  rewrite <- Hn. split; intros [H ->]; (split; [auto|]); destruct (HC n H) as [l [Hl Pl]]; fold (rows_of n file) in Pl.
  all: pose proof (rows_of_perm n _ _ HP) as PR; destruct (rotation_sorted l Hl) as [l' [Hs [HP' _]]].
  all: assert (Ec : mean_point (map project (rows_of n file)) = mean_point l) by (apply mean_perm; auto).
  all: assert (Ec' : mean_point (map project (rows_of n file')) = mean_point l)
    by (rewrite <- Ec; apply mean_perm, Permutation_map, Permutation_sym; auto).
  all: unfold sortCorners, make_detector; cbn [d_corners d_center]; rewrite Ec, Ec'; f_equal.
  all: assert (E1 : forall pts, Permutation (map project pts) l ->
      sort_real (fun v => arctan2 (snd v - snd (mean_point l)) (fst v - fst (mean_point l))) (map project pts) = l').
  1,3: intros pts Pp; apply (sorted_unique (theta (mean_point l))); auto; [apply sort_real_sorted|];
    eapply Permutation_trans; [apply sort_real_perm|]; eapply Permutation_trans; [exact Pp|apply Permutation_sym; auto].
  all: rewrite !E1; auto; eapply Permutation_trans; [apply Permutation_map, Permutation_sym; exact PR|exact Pl].
Qed.

(** The direction that is projected to a given point. *)
Definition towards (x y : R) : pt := (atan x, atan (y * cos (atan x))).
Lemma project_towards : forall x y, project (towards x y) = (x, y).
Proof.
  intros x y. unfold project, towards. set (a := atan x). set (b := atan (y * cos a)).
  assert (Ca : 0 < cos a) by (apply cos_gt_0; unfold a; destruct (atan_bound x); lra).
  assert (Cb : 0 < cos b) by (apply cos_gt_0; unfold b; destruct (atan_bound (y * cos a)); lra).
  assert (Ta : sin a = x * cos a). { pose proof (tan_atan x) as T. fold a in T. unfold tan in T. rewrite <- T. field. lra. }
  assert (Tb : sin b = y * cos a * cos b).
  { pose proof (tan_atan (y * cos a)) as T. fold b in T. unfold tan in T. rewrite <- T. field. lra. }
  f_equal; [rewrite Ta|rewrite Tb]; field; lra.
Qed.
