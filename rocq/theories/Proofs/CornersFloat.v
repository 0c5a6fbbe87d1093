(** Sorting the corners of a detector by computed angles (C117). *)
From Coq Require Import List Arith Reals ZArith Bool Lra Lia Psatz Permutation Sorting.Sorted.
From Flocq Require Import Core.
From Verif Require Import Base.Prelude Model.LinkingFloat Model.Rounding Model.FadingFloat Model.UncertaintyFloat Model.SeparationFloat Model.Sphere Model.Footprint Model.FootprintFloat
  Spec.Rounding Spec.Sphere Spec.Footprint Spec.SeparationFloat Spec.FootprintFloat
  Proofs.Sphere Proofs.LinkingFloat Proofs.Rounding Proofs.FadingFloat Proofs.AngleFloat Proofs.UncertaintyFloat Proofs.UncertaintyClose Proofs.MagnitudeFloat Proofs.Footprint Proofs.FootprintSort Proofs.SeparationFloat Proofs.FootprintFloat Proofs.DetectorFloat.
Import ListNotations.
Open Scope R_scope.
Local Notation u := Proofs.UncertaintyClose.u.

(** ** Sorted lists *)
Lemma sorted_app : forall A (P : A -> A -> Prop) l m, StronglySorted P (l ++ m) -> StronglySorted P l /\ StronglySorted P m /\ forall a b, In a l -> In b m -> P a b.
Proof.
  intros A P l m. induction l as [|x l IH]; cbn; intro H; [split; [constructor|split; [exact H|intros a b []]]|].
  inversion H as [|? ? H1 H2]; subst. destruct (IH H1) as (S1 & S2 & C). rewrite Forall_forall in H2. split; [constructor; [exact S1|apply Forall_forall; intros y Y; apply H2, in_app_iff; auto]|].
  split; [exact S2|]. intros a b [<-|I] J; [apply H2, in_app_iff; auto|apply C; assumption].
Qed.
Lemma app_sorted : forall A (P : A -> A -> Prop) l m, StronglySorted P l -> StronglySorted P m -> (forall a b, In a l -> In b m -> P a b) -> StronglySorted P (l ++ m).
Proof.
  intros A P l m H M C. induction H as [|x l H IH F]; cbn; [exact M|]. constructor; [apply IH; intros a b I J; apply C; [right; exact I|exact J]|].
  apply Forall_app. split; [exact F|apply Forall_forall; intros y Y; apply C; [left; reflexivity|exact Y]].
Qed.
Lemma sorted_map : forall A (P Q : A -> A -> Prop) l, StronglySorted P l -> (forall a b, In a l -> In b l -> P a b -> Q a b) -> StronglySorted Q l.
Proof.
  intros A P Q l H. induction H as [|x l H IH F]; intro K; [constructor|]. constructor; [apply IH; intros a b I J; apply K; right; assumption|].
  rewrite Forall_forall in *. intros y Y. apply K; [left; reflexivity|right; exact Y|apply F, Y].
Qed.
Lemma sorted_next : forall (key : pt -> R) l j, StronglySorted (fun a b => key a < key b) l -> (S j < length l)%nat -> key (nth j l (0, 0)) < key (nth (S j) l (0, 0)).
Proof.
  intros key l j H. revert j. induction H as [|x l H IH F]; intros j L; [cbn in L; lia|]. destruct j as [|j]; cbn [nth].
  - rewrite Forall_forall in F. apply F. apply nth_In. cbn in L. lia.
  - apply IH. cbn in L. lia.
Qed.
Lemma sorted_split : forall A (key : A -> R) l t, StronglySorted (fun a b => key a < key b) l -> exists a b, l = (a ++ b)%list /\ (forall x, In x a -> key x <= t) /\ (forall x, In x b -> t < key x).
Proof.
  intros A key l t H. induction H as [|x l H (a & b & -> & IA & IB) F]; [exists [], []; split; [reflexivity|split; intros x []]|].
  destruct (Rle_dec (key x) t) as [L|L].
  - exists (x :: a), b. split; [reflexivity|]. split; [intros y [<-|Y]; auto|exact IB].
  - exists [], (x :: a ++ b)%list. split; [reflexivity|]. split; [intros y []|]. rewrite Forall_forall in F. intros y [<-|Y]; [lra|]. specialize (F y Y). lra.
Qed.

(** ** Angles of vectors *)
Definition ang (p : pt) : R := arctan2 (snd p) (fst p).
Definition dot (p q : pt) : R := fst p * fst q + snd p * snd q.
Definition cross (p q : pt) : R := fst p * snd q - snd p * fst q.
Definition norm (p : pt) : R := sqrt (dot p p).
Lemma ang_spec : forall p, 0 < dot p p -> 0 < norm p /\ fst p = norm p * cos (ang p) /\ snd p = norm p * sin (ang p) /\ - PI < ang p <= PI.
Proof.
  intros [x y] H. unfold ang, norm, dot in *. cbn [fst snd] in *. destruct (arctan2_spec x y H) as (A & B & D). assert (N : 0 < sqrt (x * x + y * y)) by (apply sqrt_lt_R0; exact H).
  split; [exact N|]. rewrite A, B. split; [field; lra|]. split; [field; lra|exact D].
Qed.
Lemma cross_ang : forall p q, 0 < dot p p -> 0 < dot q q -> cross p q = norm p * norm q * sin (ang q - ang p) /\ dot p q = norm p * norm q * cos (ang q - ang p).
Proof.
  intros p q P Q. destruct (ang_spec p P) as (NP & XP & YP & _). destruct (ang_spec q Q) as (NQ & XQ & YQ & _). unfold cross, dot.
  assert (E1 : fst p * snd q - snd p * fst q = (norm p * cos (ang p)) * (norm q * sin (ang q)) - (norm p * sin (ang p)) * (norm q * cos (ang q))) by congruence.
  assert (E2 : fst p * fst q + snd p * snd q = (norm p * cos (ang p)) * (norm q * cos (ang q)) + (norm p * sin (ang p)) * (norm q * sin (ang q))) by congruence.
  rewrite E1, E2, sin_minus, cos_minus. split; ring.
Qed.
Lemma sin_positive : forall x, - 1 < x < PI + 1 -> 0 < sin x -> 0 < x < PI.
Proof.
  intros x X S. assert (P := PI2_1). split.
  - destruct (Rlt_dec 0 x) as [L|L]; [exact L|]. assert (0 <= sin (- x)) by (apply sin_ge_0; lra). rewrite sin_neg in *. lra.
  - destruct (Rlt_dec x PI) as [L|L]; [exact L|]. assert (sin x <= 0) by (apply sin_le_0; lra). lra.
Qed.
Lemma half_turn : forall x, 0 < x <= 2 * PI -> 0 < sin x -> x < PI.
Proof. intros x X S. destruct (Rlt_dec x PI) as [L|L]; [exact L|]. assert (sin x <= 0) by (apply sin_le_0; lra). lra. Qed.
Lemma full_turn : forall x, - (2 * PI + 1) < x < 2 * PI + 1 -> cos x = 1 -> x = - (2 * PI) \/ x = 0 \/ x = 2 * PI.
Proof.
  intros x X E. assert (P := PI2_1).
  assert (Z : forall y, - (2 * PI) < y < 2 * PI -> cos y = 1 -> y = 0).
  { intros y Y E'. replace y with (2 * (y / 2)) in E' by field. rewrite cos_2a_sin in E'. assert (Q : sin (y / 2) * sin (y / 2) = 0) by lra.
    apply Rmult_integral in Q. assert (S0 : sin (y / 2) = 0) by tauto. clear Q.
    destruct (Rlt_dec 0 y) as [L|L]; [assert (0 < sin (y / 2)) by (apply sin_gt_0; lra); lra|].
    destruct (Rlt_dec y 0) as [M|M]; [|lra]. assert (0 < sin (- (y / 2))) by (apply sin_gt_0; lra). rewrite sin_neg in *. lra. }
  destruct (Rlt_dec x (2 * PI)) as [L|L].
  - destruct (Rlt_dec (- (2 * PI)) x) as [M|M]; [right; left; apply Z; [lra|exact E]|].
    left. assert (x + 2 * PI = 0); [|lra]. apply Z; [lra|]. rewrite cos_plus, cos_2PI, sin_2PI. lra.
  - right. right. assert (x - 2 * PI = 0); [|lra]. apply Z; [lra|]. rewrite cos_minus, cos_2PI, sin_2PI. lra.
Qed.

Section Turning.
(** Vectors [v], in order of their angles, and vectors [w] near them. *)
Variables v w : pt -> pt.
Variable l : list pt.
Hypothesis VPOS : forall a, In a l -> 0 < dot (v a) (v a).
Hypothesis WPOS : forall a, In a l -> 0 < dot (w a) (w a).
Hypothesis CLOSE : forall a, In a l -> 0 < dot (v a) (w a) /\ Rabs (cross (v a) (w a)) <= dot (v a) (w a) / 10.
Hypothesis VEDGE : forall a b, follows l a b -> 0 < cross (v a) (v b).
Hypothesis WEDGE : forall a b, follows l a b -> 0 < cross (w a) (w b).
Hypothesis SORTED : StronglySorted (fun a b => ang (v a) < ang (v b)) l.
Definition lean (a : pt) : R := ang (dot (v a) (w a), cross (v a) (w a)).
Lemma lean_spec : forall a, In a l -> Rabs (lean a) <= / 2 /\ cos (lean a) = cos (ang (w a) - ang (v a)) /\ sin (lean a) = sin (ang (w a) - ang (v a)).
Proof.
  intros a I. destruct (CLOSE a I) as (D & X). destruct (cross_ang (v a) (w a) (VPOS a I) (WPOS a I)) as (CR & DO).
  destruct (ang_spec (v a) (VPOS a I)) as (NV & _). destruct (ang_spec (w a) (WPOS a I)) as (NW & _).
  set (q := (dot (v a) (w a), cross (v a) (w a))). assert (Q : 0 < dot q q) by (unfold dot at 1, q; cbn [fst snd]; apply Rplus_lt_le_0_compat; [apply Rmult_lt_0_compat; exact D|apply Rle_0_sqr]).
  destruct (ang_spec q Q) as (NQ & XQ & YQ & B). change (ang q) with (lean a) in XQ, YQ, B. change (fst q) with (dot (v a) (w a)) in XQ. change (snd q) with (cross (v a) (w a)) in YQ. set (e := lean a) in *. set (k := ang (w a) - ang (v a)) in *.
  assert (VP := VPOS a I). assert (WP := WPOS a I).
  assert (N : norm q = norm (v a) * norm (w a)).
  { unfold norm. rewrite <- sqrt_mult by lra. f_equal. unfold dot, cross, q. cbn [fst snd]. unfold dot, cross. ring. }
  assert (NN : 0 < norm (v a) * norm (w a)) by (apply Rmult_lt_0_compat; assumption).
  rewrite N in XQ, YQ. set (n := norm (v a) * norm (w a)) in *.
  assert (CE : cos e = cos k) by (apply (Rmult_eq_reg_l n); [rewrite <- XQ; exact DO|lra]). assert (SE : sin e = sin k) by (apply (Rmult_eq_reg_l n); [rewrite <- YQ; exact CR|lra]).
  split; [|split; assumption].
  assert (C0 : 0 < cos e) by (apply (Rmult_lt_reg_l n); lra).
  assert (S0 : Rabs (sin e) <= cos e / 10). { apply (Rmult_le_reg_l n); [exact NN|]. replace (n * Rabs (sin e)) with (Rabs (cross (v a) (w a))) by (rewrite YQ, Rabs_mult, (Rabs_right n) by lra; reflexivity). apply Rle_trans with (1 := X). rewrite XQ. right. field. }
  assert (C1 := COS_bound e). assert (P := PI2_1). assert (H := PI_4).
  assert (SH := sin_above (/ 2) ltac:(lra)).
  apply Rabs_le. apply Rabs_le_inv in S0.
  assert (LOW : forall z, - PI <= z <= PI -> 0 < cos z -> - (PI / 2) < z < PI / 2).
  { intros z Z CZ. split.
    - destruct (Rlt_dec (- (PI / 2)) z) as [L|L]; [exact L|]. assert (0 <= - cos (- z)) by (rewrite <- cos_neg, Ropp_involutive; assert (Q2 := cos_le_0 (- z) ltac:(lra) ltac:(lra)); rewrite cos_neg in Q2; lra). rewrite cos_neg in *. lra.
    - destruct (Rlt_dec z (PI / 2)) as [L|L]; [exact L|]. assert (Q2 := cos_le_0 z ltac:(lra) ltac:(lra)). lra. }
  destruct (LOW e ltac:(lra) C0) as (E1 & E2). split.
  - destruct (Rle_dec (- / 2) e) as [L|L]; [exact L|]. assert (M := sin_increasing_1 (/ 2) (- e) ltac:(lra) ltac:(lra) ltac:(lra) ltac:(lra) ltac:(lra)). rewrite sin_neg in M. lra.
  - destruct (Rle_dec e (/ 2)) as [L|L]; [exact L|]. assert (M := sin_increasing_1 (/ 2) e ltac:(lra) ltac:(lra) ltac:(lra) ltac:(lra) ltac:(lra)). lra.
Qed.
Definition kappa (a : pt) : R := ang (v a) + lean a.
Lemma kappa_turns : forall a, In a l -> ang (w a) - kappa a = - (2 * PI) \/ ang (w a) - kappa a = 0 \/ ang (w a) - kappa a = 2 * PI.
Proof.
  intros a I. destruct (lean_spec a I) as (B & CE & SE). apply Rabs_le_inv in B. destruct (ang_spec (v a) (VPOS a I)) as (_ & _ & _ & VB). destruct (ang_spec (w a) (WPOS a I)) as (_ & _ & _ & WB).
  apply full_turn; unfold kappa; [lra|]. replace (ang (w a) - (ang (v a) + lean a)) with (ang (w a) - ang (v a) - lean a) by ring. rewrite cos_minus, <- CE, <- SE.
  assert (T := sin2_cos2 (lean a)). unfold Rsqr in T. lra.
Qed.
Lemma kappa_sin : forall a b, In a l -> In b l -> sin (kappa b - kappa a) = sin (ang (w b) - ang (w a)).
Proof.
  intros a b I J.
  assert (K : forall c, In c l -> sin (kappa c) = sin (ang (w c)) /\ cos (kappa c) = cos (ang (w c))).
  { intros c M. destruct (kappa_turns c M) as [E|[E|E]]; [replace (ang (w c)) with (kappa c - 2 * PI) by lra|replace (ang (w c)) with (kappa c) by lra|replace (ang (w c)) with (kappa c + 2 * PI) by lra].
    - rewrite sin_minus, cos_minus, cos_2PI, sin_2PI. split; ring.
    - split; reflexivity.
    - rewrite sin_plus, cos_plus, cos_2PI, sin_2PI. split; ring. }
  destruct (K a I) as (A1 & A2). destruct (K b J) as (B1 & B2). rewrite !sin_minus, A1, A2, B1, B2. reflexivity.
Qed.
Lemma kappa_edge : forall a b t, follows l a b -> t = 0 \/ t = 2 * PI -> 0 < ang (v b) - ang (v a) + t <= 2 * PI -> 0 < kappa b - kappa a + t.
Proof.
  intros a b t F T D. destruct (follows_in _ _ _ F) as (I & J).
  assert (ST : forall x, sin (x + t) = sin x) by (intro x; destruct T as [-> | ->]; [f_equal; ring|rewrite sin_plus, cos_2PI, sin_2PI; ring]).
  assert (V := VEDGE a b F). assert (W := WEDGE a b F).
  destruct (cross_ang (v a) (v b) (VPOS a I) (VPOS b J)) as (CV & _). destruct (cross_ang (w a) (w b) (WPOS a I) (WPOS b J)) as (CW & _).
  assert (PV : 0 < norm (v a) * norm (v b)) by (apply Rmult_lt_0_compat; apply ang_spec; auto). assert (PW : 0 < norm (w a) * norm (w b)) by (apply Rmult_lt_0_compat; apply ang_spec; auto).
  assert (SV : 0 < sin (ang (v b) - ang (v a))) by (apply (Rmult_lt_reg_l (norm (v a) * norm (v b))); lra).
  assert (SW : 0 < sin (ang (w b) - ang (w a))) by (apply (Rmult_lt_reg_l (norm (w a) * norm (w b))); lra).
  assert (H := half_turn _ D ltac:(rewrite ST; exact SV)). destruct (lean_spec a I) as (LA & _). destruct (lean_spec b J) as (LB & _). apply Rabs_le_inv in LA, LB.
  destruct (sin_positive (kappa b - kappa a + t)); [unfold kappa; lra|rewrite ST, (kappa_sin a b I J); exact SW|assumption].
Qed.
Lemma turning : exists a b, l = (a ++ b)%list /\ StronglySorted (fun x y => ang (w x) < ang (w y)) (b ++ a).
Proof.
  destruct l as [|f l'] eqn:EL; [exists [], []; split; [reflexivity|constructor]|]. rewrite <- EL in *. set (n := length l).
  assert (NP : (0 < n)%nat) by (unfold n; rewrite EL; cbn; lia).
  assert (FO : forall j, (S j < n)%nat -> follows l (nth j l (0, 0)) (nth (S j) l (0, 0))).
  { intros j J. exists j. split; [unfold n in J; lia|]. split; [reflexivity|]. rewrite Nat.mod_small by exact J. reflexivity. }
  assert (SK : StronglySorted (fun a b => kappa a < kappa b) l).
  { apply locally_sorted. intros j J. assert (F := FO j J). assert (N := sorted_next (fun a => ang (v a)) l j SORTED J). cbn beta in N. destruct (follows_in _ _ _ F) as (IA & IB).
    destruct (ang_spec _ (VPOS _ IA)) as (_ & _ & _ & BA). destruct (ang_spec _ (VPOS _ IB)) as (_ & _ & _ & BB). assert (K := kappa_edge _ _ 0 F ltac:(left; reflexivity) ltac:(lra)). lra. }
  set (z := nth (n - 1) l (0, 0)).
  assert (FC : follows l z f). { exists (n - 1)%nat. split; [unfold n in *; lia|]. split; [reflexivity|]. fold n. replace (S (n - 1)) with n by lia. rewrite Nat.mod_same by lia. rewrite EL. reflexivity. }
  destruct (follows_in _ _ _ FC) as (IZ & IF).
  assert (TOP : kappa z < kappa f + 2 * PI).
  { destruct (ang_spec _ (VPOS _ IZ)) as (_ & _ & _ & BZ). destruct (ang_spec _ (VPOS _ IF)) as (_ & _ & _ & BF).
    assert (LE : ang (v f) <= ang (v z)).
    { assert (S2 := SORTED). rewrite EL in S2. apply StronglySorted_inv in S2. destruct S2 as (_ & H2). rewrite Forall_forall in H2. assert (IZ' := IZ). rewrite EL in IZ'. destruct IZ' as [<-|IZ']; [lra|]. left. apply H2. exact IZ'. }
    assert (K := kappa_edge z f (2 * PI) FC ltac:(right; reflexivity) ltac:(lra)). lra. }
  assert (FIRST : forall x, In x l -> kappa f <= kappa x).
  { intros x X. rewrite EL in X, SK. apply StronglySorted_inv in SK. destruct SK as (_ & H2). rewrite Forall_forall in H2. destruct X as [<-|X]; [lra|left; apply H2; exact X]. }
  assert (LAST : forall x, In x l -> kappa x <= kappa z).
  { intros x X. assert (E : l = (removelast l ++ [last l (0, 0)])%list) by (apply app_removelast_last; rewrite EL; discriminate).
    assert (EZ : last l (0, 0) = z). { unfold z. rewrite E at 2. rewrite app_nth2; [replace (n - 1 - length (removelast l))%nat with 0%nat; [reflexivity|]|]; apply (f_equal (@length pt)) in E; rewrite app_length in E; cbn [length] in E; unfold n; lia. }
    rewrite EZ in E. rewrite E in X, SK. apply sorted_app in SK. destruct SK as (_ & _ & K). apply in_app_iff in X. destruct X as [X|[<-|[]]]; [left; apply K; [exact X|left; reflexivity]|lra]. }
  assert (WB : forall x, In x l -> - PI < ang (w x) <= PI) by (intros x X; apply (ang_spec (w x) (WPOS x X))).
  assert (PP := PI_RGT_0).
  assert (GO : forall a b t, l = (a ++ b)%list -> (forall x, In x a -> ang (w x) = kappa x + t) -> (forall x, In x b -> ang (w x) = kappa x + t - 2 * PI) -> StronglySorted (fun x y => ang (w x) < ang (w y)) (b ++ a)).
  { intros a b t E KA KB. assert (SK' := SK). rewrite E in SK'. apply sorted_app in SK'. destruct SK' as (SA & SB & _). apply app_sorted.
    - apply (sorted_map _ _ _ _ SB). intros x y X Y L. rewrite (KB x X), (KB y Y). lra.
    - apply (sorted_map _ _ _ _ SA). intros x y X Y L. rewrite (KA x X), (KA y Y). lra.
    - intros x y X Y. rewrite (KB x X), (KA y Y). assert (L1 := LAST x ltac:(rewrite E; apply in_app_iff; auto)). assert (L2 := FIRST y ltac:(rewrite E; apply in_app_iff; auto)). lra. }
  destruct (Rle_dec (kappa f) (- PI)) as [L|L].
  - destruct (sorted_split _ kappa l (- PI) SK) as (a & b & E & KA & KB). exists a, b. split; [exact E|]. apply (GO a b (2 * PI) E).
    + intros x X. assert (I : In x l) by (rewrite E; apply in_app_iff; auto). specialize (KA x X). specialize (WB x I). destruct (kappa_turns x I) as [T|[T|T]]; lra.
    + intros x X. assert (I : In x l) by (rewrite E; apply in_app_iff; auto). specialize (KB x X). specialize (WB x I). specialize (LAST x I). destruct (kappa_turns x I) as [T|[T|T]]; lra.
  - destruct (sorted_split _ kappa l PI SK) as (a & b & E & KA & KB). exists a, b. split; [exact E|]. apply (GO a b 0 E).
    + intros x X. assert (I : In x l) by (rewrite E; apply in_app_iff; auto). specialize (KA x X). specialize (WB x I). specialize (FIRST x I). destruct (kappa_turns x I) as [T|[T|T]]; lra.
    + intros x X. assert (I : In x l) by (rewrite E; apply in_app_iff; auto). specialize (KB x X). specialize (WB x I). destruct (kappa_turns x I) as [T|[T|T]]; lra.
Qed.
End Turning.

(** ** The sort *)
Definition val (c : cell) : R := match c with Real x => x | _ => 0 end.
Lemma sort_cells_real : forall key l, (forall q, In q l -> key q = Real (val (key q))) -> sort_cells key l = sort_real (fun q => val (key q)) l.
Proof.
  intros key l H. unfold sort_cells, sort_real. induction l as [|x l IH]; [reflexivity|]. cbn [fold_right]. rewrite IH by (intros q I; apply H; right; exact I).
  assert (X := H x ltac:(left; reflexivity)). fold (sort_real (fun q => val (key q)) l). assert (M : forall q, In q (sort_real (fun q => val (key q)) l) -> key q = Real (val (key q))).
  { intros q I. apply H. right. apply (Permutation_in q (sort_real_perm (fun q => val (key q)) l)). exact I. }
  revert M. generalize (sort_real (fun q => val (key q)) l). intro m. induction m as [|y m IM]; intro M; [reflexivity|]. cbn [insert_cell insert_real].
  rewrite (M y ltac:(left; reflexivity)) at 1. rewrite X at 1. cbn [at_least]. destruct (Rle_dec _ _); [reflexivity|]. f_equal. apply IM. intros q I. apply M. right. exact I.
Qed.

(** ** Outlines *)
Lemma follows_map : forall (f : pt -> pt) l a b, follows l a b -> follows (map f l) (f a) (f b).
Proof.
  intros f l a b (i & L & <- & <-). exists i. rewrite map_length. split; [exact L|]. assert (M : (S i mod length l < length l)%nat) by (apply Nat.mod_upper_bound; lia).
  split; rewrite (nth_indep _ (0, 0) (f (0, 0))) by (rewrite map_length; assumption); apply map_nth.
Qed.
Lemma follows_rot : forall l m a b, follows (l ++ m) a b -> follows (m ++ l) a b.
Proof. intros l m a b F. apply follows_edges. apply (Permutation_in _ (edges_rot l m)). apply follows_edges. exact F. Qed.
Lemma sound_rot : forall l m, sound_detector (l ++ m) -> sound_detector (m ++ l).
Proof.
  intros l m (L & B & (CX & a & b & c & F & I & P) & E). rewrite map_app in *. assert (PM : forall A (x : A) k n, In x (k ++ n) -> In x (n ++ k)) by (intros A x k n J; apply in_app_iff in J; apply in_app_iff; tauto).
  split; [rewrite app_length in *; lia|]. split; [intros x J; apply B, PM, J|]. rewrite map_app. split; [split|].
  - intros x y z G J. apply CX; [apply follows_rot; exact G|apply PM; exact J].
  - exists a, b, c. split; [apply follows_rot; exact F|]. split; [apply PM; exact I|exact P].
  - intros x y G. apply E. apply follows_rot. exact G.
Qed.
Lemma centre_mean : forall l, centre_of l = mean_point l.
Proof. intro l. unfold centre_of, mean_point. rewrite !sum_fold. reflexivity. Qed.
Lemma sorted_unmap : forall A B (f : A -> B) (P : B -> B -> Prop) l, StronglySorted P (map f l) <-> StronglySorted (fun a b => P (f a) (f b)) l.
Proof.
  intros A B f P l. induction l as [|x l (IH1 & IH2)]; [split; constructor|]. cbn [map]. split; intro H; apply StronglySorted_inv in H; destruct H as (H & F); constructor; auto.
  - rewrite Forall_forall in *. intros y Y. apply F, in_map, Y.
  - rewrite Forall_forall in *. intros y Y. apply in_map_iff in Y. destruct Y as (z & <- & Z). apply F, Z.
Qed.
Lemma vector_norms : forall p q, dot p q * dot p q + cross p q * cross p q = dot p p * dot q q.
Proof. intros p q. unfold dot, cross. ring. Qed.
Lemma norm_bounds : forall p q, Rabs (dot p q) <= norm p * norm q /\ Rabs (cross p q) <= norm p * norm q.
Proof.
  intros p q. assert (V := vector_norms p q). assert (P0' : forall r, 0 <= dot r r) by (intro r; unfold dot; apply Rplus_le_le_0_compat; apply Rle_0_sqr).
  unfold norm. rewrite <- sqrt_mult by apply P0'. assert (D := Rle_0_sqr (dot p q)). assert (X := Rle_0_sqr (cross p q)). unfold Rsqr in D, X.
  split; rewrite <- sqrt_Rsqr_abs; apply sqrt_le_1_alt; unfold Rsqr; lra.
Qed.
Lemma norm_upto : forall p e, 0 <= e -> Rabs (fst p) <= e -> Rabs (snd p) <= e -> norm p <= 3 / 2 * e.
Proof.
  intros p e E X Y. unfold norm. rewrite <- (sqrt_square (3 / 2 * e)) by lra. apply sqrt_le_1_alt. unfold dot.
  assert (A : forall x, Rabs x <= e -> x * x <= e * e) by (intros x H; apply Rabs_le_inv in H; nra). assert (A1 := A _ X). assert (A2 := A _ Y). nra.
Qed.
Lemma norm_square : forall p, norm p * norm p = dot p p.
Proof. intro p. apply sqrt_sqrt. unfold dot. apply Rplus_le_le_0_compat; apply Rle_0_sqr. Qed.

Section Corners.
Variables SI CO : cell -> cell.
Variable AT : cell -> cell -> cell.
Hypothesis HS : accurate_sin SI.
Hypothesis HC : accurate_cos CO.
Hypothesis HA : accurate_arctan2 AT.
Variable corners : list (R * R).
Hypothesis FIRM : firm_detector corners.
Variable centre : pt_f.
Let outline := map corner_position corners.
Let m := mean_point outline.
Hypothesis CENTRE : pt_near centre m 3.3.
Hypothesis MEAN : Rabs (fst m) <= 12 / 100 /\ Rabs (snd m) <= 12 / 100.
Let f (c : pt) : pt_f := project_f SI CO (cells c).
Let v (c : pt) : pt := (fst (corner_position c) - fst m, snd (corner_position c) - snd m).
Let w (c : pt) : pt := (val (minus (fst (f c)) (fst centre)), val (minus (snd (f c)) (snd centre))).
Let e (c : pt) : pt := (fst (w c) - fst (v c), snd (w c) - snd (v c)).
Lemma w_real : forall c, In c corners -> minus (fst (f c)) (fst centre) = Real (fst (w c)) /\ minus (snd (f c)) (snd centre) = Real (snd (w c)) /\ binary64 (fst (w c)) /\ binary64 (snd (w c))
  /\ Rabs (fst (e c)) <= 6 * u /\ Rabs (snd (e c)) <= 6 * u /\ Rabs (fst (v c)) <= 24 / 100 /\ Rabs (snd (v c)) <= 24 / 100.
Proof.
  intros c I. destruct FIRM as ((_ & B & _) & _). destruct (B c I) as (B1 & L1 & B2 & L2). destruct (corner_near SI CO c HS HC B1 B2 L1 L2) as ((N1 & N2) & V1 & V2).
  fold (cells c) in N1, N2. fold (f c) in N1, N2. destruct CENTRE as (C1 & C2). destruct MEAN as (M1 & M2). apply Rabs_le_inv in V1, V2, M1, M2.
  assert (D1 : Rabs (fst (v c)) <= 24 / 100) by (unfold v; cbn [fst snd]; apply Rabs_le; lra). assert (D2 : Rabs (snd (v c)) <= 24 / 100) by (unfold v; cbn [fst snd]; apply Rabs_le; lra).
  assert (Q1 : near 1 (minus (fst (f c)) (fst centre)) (fst (v c)) 6) by (apply (near_minus 1 _ _ _ _ 2 3.3 (24 / 100)); first [exact one_ok|assumption|lra]).
  assert (Q2 : near 1 (minus (snd (f c)) (snd centre)) (snd (v c)) 6) by (apply (near_minus 1 _ _ _ _ 2 3.3 (24 / 100)); first [exact one_ok|assumption|lra]).
  assert (R1 := b64_minus (fst (f c)) (fst centre)). assert (R2 := b64_minus (snd (f c)) (snd centre)).
  unfold e, w. cbn [fst snd]. destruct Q1 as (x & E1 & X). destruct Q2 as (y & E2 & Y). rewrite (Rmult_1_l x) in E1. rewrite (Rmult_1_l y) in E2. rewrite E1 in *. rewrite E2 in *. cbn [b64 val] in *. split; [reflexivity|]. split; [reflexivity|]. split; [exact R1|]. split; [exact R2|]. split; [exact X|]. split; [exact Y|]. split; assumption.
Qed.
Lemma edge_v : forall a b, follows corners a b -> / 10 ^ 12 <= cross (v a) (v b).
Proof.
  intros a b F. destruct FIRM as ((_ & _ & _ & L) & _ & IN). assert (G := follows_map corner_position corners a b F). rewrite centre_mean in IN. change (mean_point (map corner_position corners)) with m in IN.
  specialize (IN _ _ G). specialize (L _ _ G). replace (cross (v a) (v b)) with (side (corner_position a) (corner_position b) m) by (unfold cross, v, side; cbn [fst snd]; ring). lra.
Qed.
Lemma prev : forall b, In b corners -> exists c, follows corners b c.
Proof.
  intros b I. destruct (In_nth _ _ (0, 0) I) as (i & L & E). exists (nth (S i mod length corners) corners (0, 0)), i. split; [exact L|]. split; [exact E|reflexivity].
Qed.
Lemma v_norm : forall a, In a corners -> / 10 ^ 12 <= norm (v a) <= 36 / 100.
Proof.
  assert (UP : forall a, In a corners -> norm (v a) <= 36 / 100). { intros a I. destruct (w_real a I) as (_ & _ & _ & _ & _ & _ & X & Y). assert (N := norm_upto (v a) (24 / 100) ltac:(lra) X Y). lra. }
  intros a I. split; [|apply UP; exact I]. destruct (prev a I) as (b & F). assert (X := edge_v a b F). destruct (norm_bounds (v a) (v b)) as (_ & N). apply Rabs_le_inv in N.
  assert (B := UP b (proj2 (follows_in _ _ _ F))). assert (NA : 0 <= norm (v a)) by apply sqrt_pos. assert (NB : 0 <= norm (v b)) by apply sqrt_pos. nra.
Qed.
Lemma e_norm : forall a, In a corners -> norm (e a) <= 9 * u.
Proof. intros a I. assert (U := u_pos). destruct (w_real a I) as (_ & _ & _ & _ & X & Y & _). assert (N := norm_upto (e a) (6 * u) ltac:(lra) X Y). lra. Qed.
Lemma w_edge : forall a b, follows corners a b -> / 2 / 10 ^ 12 <= cross (w a) (w b).
Proof.
  intros a b F. destruct (follows_in _ _ _ F) as (I & J). assert (X := edge_v a b F).
  replace (cross (w a) (w b)) with (cross (v a) (v b) + cross (v a) (e b) + cross (e a) (v b) + cross (e a) (e b)) by (unfold cross, e; cbn [fst snd]; ring).
  destruct (v_norm a I) as (_ & VA). destruct (v_norm b J) as (_ & VB). assert (EA := e_norm a I). assert (EB := e_norm b J). assert (U := u_pos). assert (U9 : 9 * u <= 9 / 10 ^ 15) by (unfold u; lra).
  assert (P : forall p q s t, norm p <= s -> norm q <= t -> Rabs (cross p q) <= s * t). { intros p q s t A B. apply Rle_trans with (1 := proj2 (norm_bounds p q)). apply Rmult_le_compat; try apply sqrt_pos; assumption. }
  assert (T1 := P (v a) (e b) _ _ VA EB). assert (T2 := P (e a) (v b) _ _ EA VB). assert (T3 := P (e a) (e b) _ (9 / 10 ^ 15) EA ltac:(lra)). apply Rabs_le_inv in T1, T2, T3. lra.
Qed.
Lemma w_size : forall a, In a corners -> 0 < dot (v a) (v a) /\ 0 < dot (w a) (w a) /\ norm (w a) <= 40 / 100 /\ 0 < dot (v a) (w a) /\ Rabs (cross (v a) (w a)) <= dot (v a) (w a) / 10.
Proof.
  intros a I. destruct (v_norm a I) as (V1 & V2). assert (E := e_norm a I). assert (U := u_pos). assert (U9 : 9 * u <= 9 / 10 ^ 15) by (unfold u; lra). assert (NE : 0 <= norm (e a)) by apply sqrt_pos.
  assert (DV : dot (v a) (v a) = norm (v a) * norm (v a)) by (symmetry; apply norm_square). destruct (norm_bounds (v a) (e a)) as (N1 & N2).
  assert (EV : norm (e a) <= norm (v a) / 50) by lra.
  assert (PV : 0 < norm (v a) * norm (v a)) by (apply Rmult_lt_0_compat; lra). assert (LE : norm (v a) * norm (e a) <= norm (v a) * norm (v a) / 50) by (apply Rle_trans with (norm (v a) * (norm (v a) / 50)); [apply Rmult_le_compat_l; lra|lra]).
  assert (W1 : dot (v a) (w a) = dot (v a) (v a) + dot (v a) (e a)) by (unfold dot, e; cbn [fst snd]; ring). assert (W2 : cross (v a) (w a) = cross (v a) (e a)) by (unfold cross, e; cbn [fst snd]; ring).
  apply Rabs_le_inv in N1. split; [lra|].
  assert (DW : 0 < dot (v a) (w a)) by lra.
  split. { assert (VN := vector_norms (v a) (w a)). assert (X := Rle_0_sqr (cross (v a) (w a))). unfold Rsqr in X. assert (Y : 0 < dot (v a) (w a) * dot (v a) (w a)) by (apply Rmult_lt_0_compat; exact DW).
    assert (Z : 0 <= dot (w a) (w a)) by (unfold dot; apply Rplus_le_le_0_compat; apply Rle_0_sqr). destruct (Rle_lt_or_eq_dec _ _ Z) as [Q|Q]; [exact Q|]. rewrite <- Q in VN. lra. }
  split. { destruct (w_real a I) as (_ & _ & _ & _ & X & Y & X' & Y'). apply Rle_trans with (3 / 2 * (25 / 100)); [|lra].
    apply norm_upto; [lra| |]; [replace (fst (w a)) with (fst (v a) + fst (e a)) by (unfold e; cbn [fst snd]; ring)|replace (snd (w a)) with (snd (v a) + snd (e a)) by (unfold e; cbn [fst snd]; ring)]; apply Rle_trans with (1 := Rabs_triang _ _); lra. }
  split; [exact DW|]. rewrite W2. apply Rle_trans with (1 := N2). lra.
Qed.
(** The corners, sorted by the computed angles, are the corners in order around the detector. *)
Let key (q : pt_f) : cell := AT (minus (snd q) (snd centre)) (minus (fst q) (fst centre)).
Lemma key_real : forall c, In c corners -> key (f c) = Real (val (key (f c))) /\ Rabs (val (key (f c)) - ang (w c)) <= 4 * u.
Proof.
  intros c I. destruct (w_real c I) as (E1 & E2 & B1 & B2 & _). destruct (w_size c I) as (_ & P & _). destruct (ang_spec (w c) P) as (N & X & Y & R).
  unfold key. rewrite E1, E2. destruct (HA (snd (w c)) (fst (w c)) (ang (w c)) B2 B1) as (t & -> & H). { split; [exact R|]. exists (norm (w c)). auto. }
  cbn [val]. split; [reflexivity|]. apply Rle_trans with (1 := H). assert (P4 := PI_4). assert (A : Rabs (ang (w c)) <= 4) by (apply Rabs_le; lra). replace (/ 2 ^ 50) with u by (unfold u; lra). assert (U := u_pos). rewrite Rmult_comm. apply Rmult_le_compat_r; lra.
Qed.
Lemma corners_sorted : exists a b a' b', corners = (a ++ b)%list /\ (b ++ a = a' ++ b')%list /\
  forall points, Permutation points corners -> sort_cells key (map f points) = map f (b' ++ a').
Proof.
  destruct FIRM as (_ & SC & _). destruct (turned_sorted outline SC) as (l1 & l2 & E & S1). fold m in S1.
  assert (E' := E). unfold outline in E'. apply map_eq_app in E'. destruct E' as (a & b & EC & <- & <-). rewrite <- map_app in S1. apply (proj1 (sorted_unmap _ _ corner_position (fun p q => theta m p < theta m q) _)) in S1.
  assert (IN : forall x, In x (b ++ a) <-> In x corners) by (intro x; rewrite EC, !in_app_iff; tauto).
  assert (FO : forall x y, follows (b ++ a) x y -> follows corners x y) by (intros x y F; rewrite EC; apply follows_rot; exact F).
  destruct (turning v w (b ++ a)) as (a' & b' & E2 & S2).
  - intros x X. apply w_size. apply IN. exact X.
  - intros x X. apply w_size. apply IN. exact X.
  - intros x X. apply w_size. apply IN. exact X.
  - intros x y F. assert (X := edge_v x y (FO x y F)). lra.
  - intros x y F. assert (X := w_edge x y (FO x y F)). lra.
  - exact S1.
  - exists a, b, a', b'. split; [exact EC|]. split; [exact E2|]. intros points P.
    assert (PM : Permutation points (b' ++ a')). { apply Permutation_trans with (1 := P). rewrite EC. apply Permutation_trans with (1 := Permutation_app_comm a b). rewrite E2. apply Permutation_app_comm. }
    assert (FM : forall x y, follows (b' ++ a') x y -> follows corners x y) by (intros x y F; apply FO; rewrite E2; apply follows_rot; exact F).
    rewrite sort_cells_real by (intros q I; apply in_map_iff in I; destruct I as (c & <- & I); apply key_real; apply (Permutation_in c P); exact I).
    apply (sorted_unique (fun q => val (key q))); [|apply sort_real_sorted|apply Permutation_trans with (1 := sort_real_perm _ _); apply Permutation_map; exact PM].
    apply (proj2 (sorted_unmap _ _ f (fun q q' => val (key q) < val (key q')) _)). apply (locally_sorted (fun c => val (key (f c)))). intros j J.
    assert (N := sorted_next (fun c => ang (w c)) _ j S2 J). cbn beta in N. set (x := nth j _ _) in *. set (y := nth (S j) _ _) in *.
    assert (F : follows (b' ++ a') x y). { exists j. split; [lia|]. split; [reflexivity|]. rewrite Nat.mod_small by exact J. reflexivity. }
    apply FM in F. destruct (follows_in _ _ _ F) as (IX & IY). assert (W := w_edge x y F). destruct (w_size x IX) as (_ & PX & NX & _). destruct (w_size y IY) as (_ & PY & NY & _).
    destruct (cross_ang (w x) (w y) PX PY) as (CR & _). destruct (ang_spec _ PX) as (QX & _). destruct (ang_spec _ PY) as (QY & _).
    destruct (key_real x IX) as (_ & KX). destruct (key_real y IY) as (_ & KY). apply Rabs_le_inv in KX, KY. assert (U := u_pos). assert (U8 : 8 * u <= / 10 ^ 14) by (unfold u; lra).
    set (d := ang (w y) - ang (w x)) in *. assert (D : 0 < d) by (unfold d; lra). assert (SD : sin d < d) by (apply sin_lt_x; exact D).
    assert (NN : 0 < norm (w x) * norm (w y) <= 16 / 100). { split; [apply Rmult_lt_0_compat; assumption|]. apply Rle_trans with (40 / 100 * (40 / 100)); [apply Rmult_le_compat; lra|lra]. }
    assert (G : / 2 / 10 ^ 12 < d). { set (n := norm (w x) * norm (w y)) in *. assert (n * sin d <= n * d) by (apply Rmult_le_compat_l; lra). assert (n * d <= 16 / 100 * d) by (apply Rmult_le_compat_r; lra). lra. }
    unfold d in G. lra.
Qed.
End Corners.

Lemma camera_any : forall S C A sum rows points corners, accurate_sin S -> accurate_cos C -> accurate_arctan2 A -> accurate_sum sum -> firm_detector corners -> Permutation points corners ->
  exists turned_corners, sound_detector turned_corners /\ (forall a b, follows (map corner_position turned_corners) a b <-> follows (map corner_position corners) a b) /\
    pt_near (snd (make_detector_f S C sum (map cells points))) (mean_point (map corner_position turned_corners)) 3.3 /\
    sortCorners_f A (make_detector_f S C sum (map cells points)) = (fst (make_detector_f S C rows (map cells turned_corners)), snd (make_detector_f S C sum (map cells points))).
Proof.
  intros S C A sum rows points corners HS HC HA HSUM FIRM P. assert (SOUND := proj1 FIRM). destruct (sound_plain _ SOUND) as (PL & PB & PN).
  assert (PLAIN : plain points). { split; [rewrite (Permutation_length P); exact PL|]. split; [intros c I; apply PB; apply (Permutation_in c P); exact I|]. intros ->. apply Permutation_nil in P. auto. }
  destruct (centre_near0 S C sum HS HC HSUM points PLAIN) as (N & M1 & M2).
  assert (EM : mean_point (map corner_position points) = mean_point (map corner_position corners)) by (apply mean_perm, Permutation_map, P). rewrite EM in *.
  set (centre := snd (make_detector_f S C sum (map cells points))) in *.
  destruct (corners_sorted S C A HS HC HA corners FIRM centre N (conj M1 M2)) as (a & b & a' & b' & EC & E2 & SORT).
  exists (b' ++ a')%list.
  assert (PM : Permutation (b' ++ a') corners). { rewrite EC. apply Permutation_trans with (1 := Permutation_app_comm b' a'). rewrite <- E2. apply Permutation_app_comm. }
  split; [|split; [|split]].
  - apply sound_rot. rewrite <- E2. apply sound_rot. rewrite <- EC. exact SOUND.
  - intros x y. rewrite map_app. split; intro F.
    + apply follows_rot in F. rewrite <- map_app, <- E2, map_app in F. apply follows_rot in F. rewrite <- map_app, <- EC in F. exact F.
    + apply follows_rot. rewrite <- map_app, <- E2, map_app. apply follows_rot. rewrite <- map_app, <- EC. exact F.
  - rewrite (mean_perm _ _ (Permutation_map corner_position PM)). exact N.
  - unfold sortCorners_f. fold centre. f_equal. unfold make_detector_f. cbn [fst]. rewrite !map_map. apply SORT. exact P.
Qed.
Lemma C117_camera_proof : forall S C A sum rows field rot p d points corners, accurate_sin S -> accurate_cos C -> accurate_arctan2 A -> accurate_sum sum -> accurate_sum rows ->
  position field -> position p -> Rabs (snd field) <= 89 -> binary64 rot -> Rabs rot <= 360 -> distance_between field p d -> d <= 60 ->
  firm_detector corners -> Permutation points corners ->
  let outline := map corner_position corners in
  let place := focal_position field rot p in
  let detector := sortCorners_f A (make_detector_f S C sum (map (fun c => (Real (fst c), Real (snd c))) points)) in
  let on limit := on_detector_f sum rows limit detector (focal_plane_of_f S C (Real (fst p)) (Real (snd p)) (Real (fst field)) (Real (snd field)) (Real rot)) in
  (inside_by (2 / 10 ^ 10) outline place -> on None = true) /\ (on None = true -> hardly_outside (3 / 10 ^ 11) outline place) /\
  (forall a, 0 <= a <= 3600 ->
    (inside_by (a / 3600 * PI / 180 + 2 / 10 ^ 10) outline place -> on (Some (Real a)) = true) /\
    (on (Some (Real a)) = true -> hardly_outside (3 / 10 ^ 11) outline place /\ off_edges_by (a / 3600 * PI / 180 - 2 / 10 ^ 10) outline place)).
Proof.
  intros S C A sum rows field rot p d points corners HS HC HA HSUM HROWS PF PP POLE BR LR DB D60 FIRM PERM outline place detector on.
  destruct (camera_any S C A sum sum points corners HS HC HA HSUM FIRM PERM) as (tc & SOUND & FO & N & E).
  assert (Q := source_any S C sum rows field rot p d tc _ HS HC HSUM HROWS PF PP POLE BR LR DB D60 SOUND N). cbv zeta in Q. rewrite <- E in Q. fold place in Q.
  change (map cells points) with (map (fun c => (Real (fst c), Real (snd c))) points) in Q. fold detector in Q. destruct Q as (Q1 & Q2 & Q3).
  assert (I1 : forall k, inside_by k outline place -> inside_by k (map corner_position tc) place) by (intros k H x y F; apply H, FO, F).
  assert (I2 : forall k, hardly_outside k (map corner_position tc) place -> hardly_outside k outline place) by (intros k H x y F; apply H, FO, F).
  assert (I3 : forall k, off_edges_by k (map corner_position tc) place -> off_edges_by k outline place) by (intros k H x y q F; apply H, FO, F).
  split; [intro H; apply Q1, I1, H|]. split; [intro H; apply I2, Q2, H|]. intros a LA. destruct (Q3 a LA) as (Q4 & Q5). split; [intro H; apply Q4, I1, H|]. intro H. destruct (Q5 H) as (H1 & H2). split; [apply I2, H1|apply I3, H2].
Qed.

(** ** A case *)
Definition exact_arctan2 (y x : cell) : cell := match y, x with Real b, Real a => Real (arctan2 b a) | _, _ => Nan end.
Lemma angle_unique : forall x y a, angle_of x y a -> arctan2 y x = a.
Proof.
  intros x y a (R & r & P & -> & ->). assert (T := sin2_cos2 a). unfold Rsqr in T.
  assert (Q : dot (r * cos a, r * sin a) (r * cos a, r * sin a) = r * r) by (unfold dot; cbn [fst snd]; replace (r * cos a * (r * cos a) + r * sin a * (r * sin a)) with (r * r * (sin a * sin a + cos a * cos a)) by ring; rewrite T; ring).
  assert (RR : 0 < r * r) by (apply Rmult_lt_0_compat; exact P). destruct (ang_spec (r * cos a, r * sin a) ltac:(lra)) as (_ & X & Y & B). unfold norm in X, Y. rewrite Q, sqrt_square in X, Y by lra. cbn [fst snd] in X, Y.
  unfold ang in *. cbn [fst snd] in *. set (t := arctan2 _ _) in *. assert (CE : cos t = cos a) by (apply (Rmult_eq_reg_l r); lra). assert (SE : sin t = sin a) by (apply (Rmult_eq_reg_l r); lra).
  assert (P1 := PI2_1). destruct (full_turn (t - a)) as [E|[E|E]]; [lra| |lra|lra|lra]. rewrite cos_minus, CE, SE. lra.
Qed.
Lemma exact_arctan2_accurate : accurate_arctan2 exact_arctan2.
Proof.
  intros y x a _ _ A. exists a. cbn [exact_arctan2]. rewrite (angle_unique x y a A). split; [reflexivity|]. rewrite Rminus_eq_0, Rabs_R0. apply Rmult_le_pos; [left; apply Rinv_0_lt_compat, pow_lt; lra|apply Rabs_pos].
Qed.
Lemma square_firm : firm_detector square.
Proof.
  destruct square_sizes as (W & H). assert (WH : 0 < half_width * half_height) by (apply Rmult_lt_0_compat; lra). split; [exact square_sound|]. split; [split; [|split]|].
  - rewrite map_length. cbn. lia.
  - rewrite square_outline. assert (N : forall a b c d : R, a <> c \/ b <> d -> (a, b) <> (c, d)) by (intros a b c d [K|K] E; injection E; intros; contradiction).
    repeat constructor; cbn [In]; intro K; repeat (destruct K as [K|K]; [revert K; apply N; first [left; lra|right; lra]|]); exact K.
  - intros a b c F I A B. rewrite square_outline in I. destruct (square_edges a b F) as [E|[E|[E|E]]]; injection E as -> ->; cbn in I; repeat (destruct I as [<-|I]; [first [contradiction|unfold side; cbn [fst snd]; lra]|]); destruct I.
  - intros a b F. assert (L := square_lengths a b F). assert (Z : centre_of (map corner_position square) = (0, 0)). { rewrite square_outline. unfold centre_of. cbn [map fold_right fst snd]. f_equal; unfold Rdiv; ring. }
    rewrite Z. destruct (square_edges a b F) as [E|[E|[E|E]]]; injection E as -> ->; destruct L as [-> | ->]; unfold side; cbn [fst snd]; nra.
Qed.
