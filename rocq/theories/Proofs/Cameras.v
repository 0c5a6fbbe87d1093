(** Proofs about the cameras that come with the package (C118). *)
From Coq Require Import String List Arith Reals ZArith Bool Lra Lia Psatz Permutation.
From Flocq Require Import Core.
From Verif Require Import Base.Prelude Base.Frame Model.LinkingFloat Model.Rounding Model.FadingFloat Model.UncertaintyFloat Model.SeparationFloat Model.Sphere Model.Footprint Model.FootprintFloat Model.Cameras Model.Shipped
  Spec.Rounding Spec.Sphere Spec.Footprint Spec.SeparationFloat Spec.FootprintFloat Spec.Cameras
  Proofs.Sphere Proofs.Rounding Proofs.AngleFloat Proofs.UncertaintyFloat Proofs.Footprint Proofs.FootprintSort Proofs.FootprintFile Proofs.FootprintRows Proofs.SeparationFloat Proofs.FootprintFloat Proofs.DetectorFloat Proofs.CornersFloat Proofs.CameraFloat.
Import ListNotations.
Open Scope R_scope.

(** ** Small angles *)
Lemma sin_small : forall x, Rabs x <= / 10 -> Rabs (sin x - x) <= Rabs x * (x * x) / 6.
Proof.
  assert (P : forall x, 0 <= x <= / 10 -> Rabs (sin x - x) <= x * (x * x) / 6).
  { intros x X. destruct (pre_sin_bound x 0 ltac:(lra) ltac:(lra)) as (L & _). unfold sin_approx, sin_term in L. cbn in L. assert (U : sin x <= x) by (destruct (Req_dec x 0) as [->|N]; [rewrite sin_0; lra|left; apply sin_lt_x; lra]).
    apply Rabs_le. lra. }
  intros x X. destruct (Rle_dec 0 x) as [H|H].
  - rewrite (Rabs_right x) in * by lra. apply P. lra.
  - rewrite (Rabs_left x) in * by lra. assert (Q := P (- x) ltac:(lra)). rewrite sin_neg in Q. replace (- sin x - - x) with (- (sin x - x)) in Q by ring. rewrite Rabs_Ropp in Q. lra.
Qed.
Lemma cos_small : forall x, 1 - x * x / 2 <= cos x <= 1.
Proof.
  intro x. split; [|apply COS_bound]. replace x with (2 * (x / 2)) at 3 by field. rewrite cos_2a_sin. assert (S := sin_close (x / 2) 0). rewrite sin_0, !Rminus_0_r in S.
  assert (Q : sin (x / 2) * sin (x / 2) <= x / 2 * (x / 2)). { rewrite <- (Rabs_Rabsolu (sin (x / 2))) in S. assert (A := Rsqr_le_abs_1 (sin (x / 2)) (x / 2)). unfold Rsqr in A. apply A. rewrite Rabs_Rabsolu in S. exact S. } lra.
Qed.
Lemma corner_flat : forall c, Rabs (fst c) <= 32 / 1000 -> Rabs (snd c) <= 32 / 1000 -> Rabs (fst (corner_position c) - fst c) <= 4 / 10 ^ 5 /\ Rabs (snd (corner_position c) - snd c) <= 4 / 10 ^ 5.
Proof.
  intros [a d] A D. cbn [fst snd] in *. assert (SA := sin_small a ltac:(lra)). assert (SD := sin_small d ltac:(lra)). assert (CA := cos_small a). assert (CD := cos_small d).
  assert (A0 := Rabs_pos a). assert (D0 := Rabs_pos d).
  assert (AA : a * a <= 1024 / 10 ^ 6) by (rewrite <- (Rabs_right (a * a)) by (apply Rle_ge, Rle_0_sqr); rewrite Rabs_mult; nra). assert (DD : d * d <= 1024 / 10 ^ 6) by (rewrite <- (Rabs_right (d * d)) by (apply Rle_ge, Rle_0_sqr); rewrite Rabs_mult; nra).
  assert (AA0 := Rle_0_sqr a). assert (DD0 := Rle_0_sqr d). unfold Rsqr in AA0, DD0.
  assert (SA' : Rabs (sin a - a) <= 6 / 10 ^ 6) by nra. assert (SD' : Rabs (sin d - d) <= 6 / 10 ^ 6) by nra.
  unfold corner_position, gnomonic. cbn [fst snd]. rewrite Rminus_0_r, sin_0, cos_0. set (ca := cos a) in *. set (cd := cos d) in *. set (sa := sin a) in *. set (sd := sin d) in *.
  assert (CC : 998 / 1000 <= cd * ca) by nra. assert (CC1 : cd * ca <= 1) by nra. assert (CC2 : 1 - cd * ca <= 1024 / 10 ^ 6) by nra.
  assert (DIV : forall x y, 998 / 1000 <= y -> Rabs x <= 39 / 10 ^ 6 -> Rabs (x / y) <= 4 / 10 ^ 5).
  { intros x y Y X. unfold Rdiv. rewrite Rabs_mult. assert (I : 0 < / y <= 1002005 / 10 ^ 6). { split; [apply Rinv_0_lt_compat; lra|]. replace (1002005 / 10 ^ 6) with (/ (10 ^ 6 / 1002005)) by (field; lra). apply Rinv_le_contravar; lra. }
    rewrite (Rabs_right (/ y)) by lra. apply Rle_trans with (39 / 10 ^ 6 * (1002005 / 10 ^ 6)); [apply Rmult_le_compat; try apply Rabs_pos; lra|lra]. }
  split.
  - replace (cd * sa / (0 * sd + 1 * cd * ca) - a) with ((sa - a * ca) / ca) by (field; split; nra). apply DIV; [lra|].
    replace (sa - a * ca) with ((sa - a) + a * (1 - ca)) by ring. apply Rle_trans with (1 := Rabs_triang _ _). rewrite Rabs_mult, (Rabs_right (1 - ca)) by lra. assert (Rabs a * (1 - ca) <= 32 / 1000 * (512 / 10 ^ 6)) by (apply Rmult_le_compat; lra). lra.
  - replace ((1 * sd - 0 * cd * ca) / (0 * sd + 1 * cd * ca) - d) with ((sd - d * (cd * ca)) / (cd * ca)) by (field; split; nra). apply DIV; [lra|].
    replace (sd - d * (cd * ca)) with ((sd - d) + d * (1 - cd * ca)) by ring. apply Rle_trans with (1 := Rabs_triang _ _). rewrite Rabs_mult, (Rabs_right (1 - cd * ca)) by lra. assert (Rabs d * (1 - cd * ca) <= 32 / 1000 * (1024 / 10 ^ 6)) by (apply Rmult_le_compat; lra). lra.
Qed.

(** ** Detectors of four corners *)
Lemma side_moved : forall a b c a' b' c' d, 0 <= d <= / 1000 -> (forall p q, In (p, q) [(a, a'); (b, b'); (c, c')] -> Rabs (fst p - fst q) <= d /\ Rabs (snd p - snd q) <= d) ->
  (forall p q, In (p, q) [(a', b'); (a', c')] -> Rabs (fst q - fst p) <= 4 / 1000 /\ Rabs (snd q - snd p) <= 4 / 1000) ->
  Rabs (side a b c - side a' b' c') <= 4 * (4 / 1000 * (2 * d)) + 2 * (2 * d * (2 * d)).
Proof.
  intros a b c a' b' c' d D M L. destruct (M a a' ltac:(cbn; auto)) as (A1 & A2). destruct (M b b' ltac:(cbn; auto)) as (B1 & B2). destruct (M c c' ltac:(cbn; auto)) as (C1 & C2).
  destruct (L a' b' ltac:(cbn; auto)) as (L1 & L2). destruct (L a' c' ltac:(cbn; auto)) as (L3 & L4). unfold side.
  apply Rabs_le_inv in A1, A2, B1, B2, C1, C2.
  set (x1 := fst b' - fst a') in *. set (y1 := snd b' - snd a') in *. set (x2 := fst c' - fst a') in *. set (y2 := snd c' - snd a') in *.
  set (e1 := fst b - fst a - x1). set (f1 := snd b - snd a - y1). set (e2 := fst c - fst a - x2). set (f2 := snd c - snd a - y2).
  assert (E1 : Rabs e1 <= 2 * d) by (unfold e1, x1; apply Rabs_le; lra). assert (F1 : Rabs f1 <= 2 * d) by (unfold f1, y1; apply Rabs_le; lra).
  assert (E2 : Rabs e2 <= 2 * d) by (unfold e2, x2; apply Rabs_le; lra). assert (F2 : Rabs f2 <= 2 * d) by (unfold f2, y2; apply Rabs_le; lra).
  replace ((fst b - fst a) * (snd c - snd a) - (snd b - snd a) * (fst c - fst a) - (x1 * y2 - y1 * x2)) with ((x1 * f2 + e1 * y2) + - (y1 * e2 + f1 * x2) + (e1 * f2 + - (f1 * e2))) by (unfold e1, f1, e2, f2; ring).
  assert (T : forall x y s t, Rabs x <= s -> Rabs y <= t -> Rabs (x * y) <= s * t) by (intros x y s t X Y; rewrite Rabs_mult; apply Rmult_le_compat; try apply Rabs_pos; assumption).
  assert (T1 := T _ _ _ _ L1 F2). assert (T2 := T _ _ _ _ E1 L4). assert (T3 := T _ _ _ _ L2 E2). assert (T4 := T _ _ _ _ F1 L3). assert (T5 := T _ _ _ _ E1 F2). assert (T6 := T _ _ _ _ F1 E2).
  apply Rabs_le_inv in T1, T2, T3, T4, T5, T6. apply Rabs_le. lra.
Qed.
Definition quad (p1 p2 p3 p4 : R * R) : Prop :=
  13 / 10 ^ 6 <= side p1 p2 p3 /\ 13 / 10 ^ 6 <= side p2 p3 p4 /\ 13 / 10 ^ 6 <= side p3 p4 p1 /\ 13 / 10 ^ 6 <= side p4 p1 p2.
Lemma quad_edges : forall p1 p2 p3 p4 a b, follows [p1; p2; p3; p4] a b -> (a, b) = (p1, p2) \/ (a, b) = (p2, p3) \/ (a, b) = (p3, p4) \/ (a, b) = (p4, p1).
Proof. intros p1 p2 p3 p4 a b F. apply follows_edges in F. cbn in F. intuition congruence. Qed.
Lemma quad_convex : forall p1 p2 p3 p4, quad p1 p2 p3 p4 -> strictly_convex [p1; p2; p3; p4].
Proof.
  intros p1 p2 p3 p4 (Q1 & Q2 & Q3 & Q4). split; [cbn; lia|]. split.
  - assert (Z1 : forall a b, side a a b = 0) by (intros; unfold side; ring). assert (Z2 : forall a b, side a b a = 0) by (intros; unfold side; ring). assert (Z3 : forall a b, side a b b = 0) by (intros; unfold side; ring).
    repeat constructor; cbn [In]; intro K; repeat (destruct K as [<-|K]; [rewrite ?Z1, ?Z2, ?Z3 in *; lra|]); exact K.
  - intros a b c F I A B. assert (R1 : forall x y z, side x y z = side y z x) by (intros; unfold side; ring).
    destruct (quad_edges _ _ _ _ _ _ F) as [E|[E|[E|E]]]; injection E as -> ->; cbn in I; destruct I as [<-|[<-|[<-|[<-|[]]]]]; try contradiction; first [lra|rewrite R1; lra|rewrite R1, R1; lra].
Qed.
(** A point hardly outside is at most about as far from the origin as the furthest corner. *)
Lemma quad_radius : forall p1 p2 p3 p4 rho p, quad p1 p2 p3 p4 -> 0 <= rho <= / 10 -> (forall q, In q [p1; p2; p3; p4] -> norm q <= rho) -> hardly_outside (3 / 10 ^ 11) [p1; p2; p3; p4] p -> norm p <= rho + / 10 ^ 5.
Proof.
  intros p1 p2 p3 p4 rho p (Q1 & Q2 & Q3 & Q4) R0 FAR H.
  assert (E : forall a b, In (a, b) [(p1, p2); (p2, p3); (p3, p4); (p4, p1)] -> - (3 / 10 ^ 11) <= side a b p) by (intros a b I; apply H, follows_edges; exact I).
  assert (NP : 0 <= norm p) by apply sqrt_pos.
  assert (T : forall a b c, 13 / 10 ^ 6 <= side a b c -> norm a <= rho -> norm b <= rho -> norm c <= rho -> - (3 / 10 ^ 11) <= side a b p -> - (3 / 10 ^ 11) <= side b c p -> - (3 / 10 ^ 11) <= side c a p -> norm p <= rho + / 10 ^ 5).
  { intros a b c K A B C S1 S2 S3.
    assert (I : side a b c * (rho * norm p - norm p * norm p) = side b c p * (rho * norm p - dot p a) + side c a p * (rho * norm p - dot p b) + side a b p * (rho * norm p - dot p c)) by (rewrite norm_square; unfold side, dot; ring).
    assert (G : forall q s, norm q <= rho -> - (3 / 10 ^ 11) <= s -> - (3 / 10 ^ 11 * (2 * (rho * norm p))) <= s * (rho * norm p - dot p q)).
    { intros q s N L. destruct (norm_bounds p q) as (DQ & _). apply Rabs_le_inv in DQ. assert (NQ : 0 <= norm q) by apply sqrt_pos. assert (norm p * norm q <= norm p * rho) by (apply Rmult_le_compat_l; lra).
      assert (W : 0 <= rho * norm p - dot p q <= 2 * (rho * norm p)) by lra. assert (0 <= (s + 3 / 10 ^ 11) * (rho * norm p - dot p q)) by (apply Rmult_le_pos; lra). nra. }
    assert (G1 := G a _ A S2). assert (G2 := G b _ B S3). assert (G3 := G c _ C S1).
    destruct (Rle_dec (norm p) (rho + / 10 ^ 5)) as [L|L]; [exact L|]. exfalso. assert (D : / 10 ^ 5 < norm p - rho) by lra. assert (PP : 0 < norm p) by lra.
    assert (V : side a b c * (norm p * (norm p - rho)) <= 9 / 10 ^ 11 * (2 * (rho * norm p))) by nra.
    assert (V1 : 13 / 10 ^ 6 * (norm p * / 10 ^ 5) <= side a b c * (norm p * (norm p - rho))) by (apply Rmult_le_compat; [lra|apply Rmult_le_pos; lra|exact K|apply Rmult_le_compat_l; lra]).
    assert (V2 : rho * norm p <= / 10 * norm p) by (apply Rmult_le_compat_r; lra). lra. }
  destruct (Rle_dec 0 (side p3 p1 p)) as [L|L].
  - apply (T p1 p2 p3 Q1); try (apply FAR; cbn; solve [auto 6]); try (apply E; cbn; solve [auto 6]). lra.
  - apply (T p3 p4 p1 Q3); try (apply FAR; cbn; solve [auto 6]); try (apply E; cbn; solve [auto 6]). replace (side p1 p3 p) with (- side p3 p1 p) by (unfold side; ring). lra.
Qed.
Lemma quad_firm : forall c1 c2 c3 c4, (forall c, In c [c1; c2; c3; c4] -> binary64 (fst c) /\ Rabs (fst c) <= / 10 /\ binary64 (snd c) /\ Rabs (snd c) <= / 10) ->
  quad (corner_position c1) (corner_position c2) (corner_position c3) (corner_position c4) ->
  (forall a b, follows [corner_position c1; corner_position c2; corner_position c3; corner_position c4] a b -> / 1000 <= distance a b <= / 100) -> firm_detector [c1; c2; c3; c4].
Proof.
  intros c1 c2 c3 c4 B Q E. assert (SC := quad_convex _ _ _ _ Q). split; [|split].
  - split; [cbn; lia|]. split; [exact B|]. split; [apply strict_convex; exact SC|]. intros a b F. apply (E a b F).
  - exact SC.
  - rewrite centre_mean. cbn [map]. set (l := [corner_position c1; _; _; _]) in *. intros a b F. assert (M := mean_side_sum l a b ltac:(discriminate)). destruct (E a b F) as (_ & L). destruct Q as (Q1 & Q2 & Q3 & Q4).
    assert (R1 : forall x y z, side x y z = side y z x) by (intros; unfold side; ring). set (p1 := corner_position c1) in *. set (p2 := corner_position c2) in *. set (p3 := corner_position c3) in *. set (p4 := corner_position c4) in *.
    assert (SF : forall f : pt -> R, sum_f f l = f p1 + f p2 + f p3 + f p4) by (intro f; unfold l, sum_f; cbn; ring). rewrite SF in M. replace (INR (length l)) with 4 in M by (unfold l; cbn; ring).
    assert (C1 := R1 p4 p1 p2). assert (C2 := R1 p1 p2 p3). assert (C3 := R1 p2 p3 p4). assert (C4 := R1 p3 p4 p1). assert (C1' := R1 p1 p2 p4). assert (C2' := R1 p2 p3 p1). assert (C3' := R1 p3 p4 p2). assert (C4' := R1 p4 p1 p3).
    destruct (quad_edges _ _ _ _ _ _ F) as [K|[K|[K|K]]]; injection K as -> ->.
    + destruct (side_self p1 p2). lra.
    + destruct (side_self p2 p3). lra.
    + destruct (side_self p3 p4). lra.
    + destruct (side_self p4 p1). lra.
Qed.

(** ** The file of the LSST camera *)
Definition zside (a b c : Z * Z) : Z := ((fst b - fst a) * (snd c - snd a) - (snd b - snd a) * (fst c - fst a))%Z.
Definition zclose (a b : Z * Z) : bool := ((Z.abs (fst a - fst b) <=? 40000000000000000) && (Z.abs (snd a - snd b) <=? 40000000000000000))%Z%bool.
Definition zlong (a b : Z * Z) : bool := ((38000000000000000 <=? Z.abs (fst a - fst b)) || (38000000000000000 <=? Z.abs (snd a - snd b)))%Z%bool.
Definition zsmall (a : Z * Z) : bool := ((Z.abs (fst a) <=? 310000000000000000) && (Z.abs (snd a) <=? 310000000000000000) && (fst a * fst a + snd a * snd a <=? 127734760000000000000000000000000000))%Z%bool.
Definition quad_ok (l : list (Z * Z)) : bool :=
  match l with
  | [a; b; c; d] => forallb zsmall l && forallb (fun p => forallb (zclose p) l) l && zlong a b && zlong b c && zlong c d && zlong d a &&
      forallb (fun t => (1500000000000000000000000000000000 <=? t)%Z) [zside a b c; zside b c d; zside c d a; zside d a b]
  | _ => false
  end.
Definition zcorners (n : string) : list (Z * Z) := map snd (filter (fun r => String.eqb (fst r) n) lsst_corners).
Lemma lsst_checked : forallb (fun n => quad_ok (zcorners n)) (map fst lsst_corners) = true.
Proof. vm_compute. reflexivity. Qed.
(** Boxes parallel to the axes around two detectors are [1.3 * 10^-4] apart. *)
Definition zapart (l l' : list (Z * Z)) : bool :=
  (forallb (fun p => forallb (fun q => (fst p + 1300000000000000 <=? fst q)%Z) l') l || forallb (fun p => forallb (fun q => (fst q + 1300000000000000 <=? fst p)%Z) l') l ||
   forallb (fun p => forallb (fun q => (snd p + 1300000000000000 <=? snd q)%Z) l') l || forallb (fun p => forallb (fun q => (snd q + 1300000000000000 <=? snd p)%Z) l') l)%bool.
Lemma lsst_apart_checked : (let t := map (fun n => (n, zcorners n)) (nodup string_dec (map fst lsst_corners)) in
  forallb (fun a => forallb (fun b => String.eqb (fst a) (fst b) || zapart (snd a) (snd b)) t) t)%bool = true.
Proof. vm_compute. reflexivity. Qed.
Definition tor (z : Z * Z) : R * R := (IZR (fst z) / 10 ^ 19, IZR (snd z) / 10 ^ 19).
Definition near (z : Z * Z) (r : R * R) : Prop := read_from (fst (tor z)) (fst r) /\ read_from (snd (tor z)) (snd r).
Lemma z_abs_le : forall z k, (Z.abs z <= k)%Z -> Rabs (IZR z) <= IZR k.
Proof. intros z k H. rewrite <- abs_IZR. apply IZR_le. exact H. Qed.
Lemma z_abs_ge : forall z k, (k <= Z.abs z)%Z -> IZR k <= Rabs (IZR z).
Proof. intros z k H. rewrite <- abs_IZR. apply IZR_le. exact H. Qed.
Lemma per19 : forall x k, Rabs x <= k -> Rabs (x / 10 ^ 19) <= k / 10 ^ 19.
Proof. intros x k H. unfold Rdiv. rewrite Rabs_mult, (Rabs_right (/ 10 ^ 19)) by lra. apply Rmult_le_compat_r; lra. Qed.
Lemma per19_ge : forall x k, k <= Rabs x -> k / 10 ^ 19 <= Rabs (x / 10 ^ 19).
Proof. intros x k H. unfold Rdiv. rewrite Rabs_mult, (Rabs_right (/ 10 ^ 19)) by lra. apply Rmult_le_compat_r; lra. Qed.
Lemma small_spec : forall z, zsmall z = true -> Rabs (fst (tor z)) <= 31 / 1000 /\ Rabs (snd (tor z)) <= 31 / 1000 /\ norm (tor z) <= 3574 / 10 ^ 5.
Proof.
  intros z H. unfold zsmall in H. rewrite !andb_true_iff, !Z.leb_le in H. destruct H as ((A & B) & N). apply z_abs_le, per19 in A, B. unfold tor. cbn [fst snd]. split; [lra|]. split; [lra|].
  unfold norm, dot. cbn [fst snd]. rewrite <- (sqrt_square (3574 / 10 ^ 5)) by lra. apply sqrt_le_1_alt. apply IZR_le in N. rewrite plus_IZR, !mult_IZR in N. lra.
Qed.
Lemma near_small : forall z r, zsmall z = true -> near z r -> (binary64 (fst r) /\ Rabs (fst r) <= / 10 /\ binary64 (snd r) /\ Rabs (snd r) <= / 10) /\
  Rabs (fst (corner_position r) - fst (tor z)) <= 41 / 10 ^ 6 /\ Rabs (snd (corner_position r) - snd (tor z)) <= 41 / 10 ^ 6.
Proof.
  intros z r H ((BX & X) & (BY & Y)). destruct (small_spec z H) as (A & B & _). set (x := fst (tor z)) in *. set (y := snd (tor z)) in *. assert (X' : Rabs (fst r - x) <= / 10 ^ 12) by lra. assert (Y' : Rabs (snd r - y) <= / 10 ^ 12) by lra.
  apply Rabs_le_inv in A, B. assert (X2 := Rabs_le_inv _ _ X'). assert (Y2 := Rabs_le_inv _ _ Y'). assert (L1 : Rabs (fst r) <= 32 / 1000) by (apply Rabs_le; lra). assert (L2 : Rabs (snd r) <= 32 / 1000) by (apply Rabs_le; lra).
  split; [split; [exact BX|split; [lra|split; [exact BY|lra]]]|]. destruct (corner_flat r L1 L2) as (F1 & F2). apply Rabs_le_inv in F1, F2. split; apply Rabs_le; lra.
Qed.
Lemma close_spec : forall a b, zclose a b = true -> Rabs (fst (tor a) - fst (tor b)) <= 4 / 1000 /\ Rabs (snd (tor a) - snd (tor b)) <= 4 / 1000.
Proof.
  intros a b H. unfold zclose in H. rewrite andb_true_iff, !Z.leb_le in H. destruct H as (A & B). apply z_abs_le, per19 in A, B. rewrite minus_IZR in A, B. unfold tor. cbn [fst snd]. rewrite <- !Rdiv_minus_distr. split; lra.
Qed.
Lemma side_spec : forall a b c, (1500000000000000000000000000000000 <= zside a b c)%Z -> 15 / 10 ^ 6 <= side (tor a) (tor b) (tor c).
Proof.
  intros a b c H. apply IZR_le in H. unfold zside in H. rewrite minus_IZR, !mult_IZR, !minus_IZR in H. unfold side, tor. cbn [fst snd].
  match goal with |- _ <= ?e => replace e with (((IZR (fst b) - IZR (fst a)) * (IZR (snd c) - IZR (snd a)) - (IZR (snd b) - IZR (snd a)) * (IZR (fst c) - IZR (fst a))) / 10 ^ 38) by (field; lra) end. lra.
Qed.
Lemma apart_lengths : forall (a b : R * R) m, Rabs (fst a - fst b) <= m -> Rabs (snd a - snd b) <= m -> (38 / 10 ^ 4 - 82 / 10 ^ 6 <= Rabs (fst a - fst b) \/ 38 / 10 ^ 4 - 82 / 10 ^ 6 <= Rabs (snd a - snd b)) -> m <= 41 / 10 ^ 4 ->
  / 1000 <= distance a b <= / 100.
Proof.
  intros [x1 y1] [x2 y2] m A B L M. cbn [fst snd] in *. unfold distance. cbn [fst snd]. assert (A0 := Rabs_pos (x1 - x2)). assert (B0 := Rabs_pos (y1 - y2)).
  assert (SX : (x1 - x2) * (x1 - x2) = Rabs (x1 - x2) * Rabs (x1 - x2)) by (rewrite <- Rabs_mult, Rabs_right; [reflexivity|apply Rle_ge, Rle_0_sqr]). assert (SY : (y1 - y2) * (y1 - y2) = Rabs (y1 - y2) * Rabs (y1 - y2)) by (rewrite <- Rabs_mult, Rabs_right; [reflexivity|apply Rle_ge, Rle_0_sqr]).
  set (p := Rabs (x1 - x2)) in *. set (q := Rabs (y1 - y2)) in *.
  match goal with |- _ <= sqrt ?e <= _ => replace e with (p * p + q * q) by (rewrite <- SX, <- SY; ring) end. split.
  - rewrite <- (sqrt_square (/ 1000)) by lra. apply sqrt_le_1_alt. destruct L; nra.
  - rewrite <- (sqrt_square (/ 100)) by lra. apply sqrt_le_1_alt. nra.
Qed.
Lemma quad_read : forall z1 z2 z3 z4 r1 r2 r3 r4, quad_ok [z1; z2; z3; z4] = true -> near z1 r1 -> near z2 r2 -> near z3 r3 -> near z4 r4 ->
  quad (corner_position r1) (corner_position r2) (corner_position r3) (corner_position r4) /\ firm_detector [r1; r2; r3; r4].
Proof.
  intros z1 z2 z3 z4 r1 r2 r3 r4 H N1 N2 N3 N4. unfold quad_ok in H. rewrite !andb_true_iff in H. destruct H as ((((((SM & CL) & L1) & L2) & L3) & L4) & SD). rewrite forallb_forall in SM, CL, SD.
  assert (NR : forall z r, In (z, r) [(z1, r1); (z2, r2); (z3, r3); (z4, r4)] -> near z r /\ In z [z1; z2; z3; z4]) by (intros z r I; cbn in I; destruct I as [I|[I|[I|[I|[]]]]]; injection I as <- <-; split; try assumption; cbn; auto).
  assert (MV : forall z r, In (z, r) [(z1, r1); (z2, r2); (z3, r3); (z4, r4)] -> Rabs (fst (corner_position r) - fst (tor z)) <= 41 / 10 ^ 6 /\ Rabs (snd (corner_position r) - snd (tor z)) <= 41 / 10 ^ 6) by (intros z r I; destruct (NR z r I) as (N & J); apply (near_small z r (SM z J) N)).
  assert (CS : forall a b, In a [z1; z2; z3; z4] -> In b [z1; z2; z3; z4] -> Rabs (fst (tor b) - fst (tor a)) <= 4 / 1000 /\ Rabs (snd (tor b) - snd (tor a)) <= 4 / 1000) by (intros a b I J; specialize (CL b J); cbv beta in CL; rewrite forallb_forall in CL; apply close_spec, CL; exact I).
  assert (SS : forall a b c ra rb rc, In (a, ra) [(z1, r1); (z2, r2); (z3, r3); (z4, r4)] -> In (b, rb) [(z1, r1); (z2, r2); (z3, r3); (z4, r4)] -> In (c, rc) [(z1, r1); (z2, r2); (z3, r3); (z4, r4)] ->
    In (zside a b c) [zside z1 z2 z3; zside z2 z3 z4; zside z3 z4 z1; zside z4 z1 z2] -> 13 / 10 ^ 6 <= side (corner_position ra) (corner_position rb) (corner_position rc)).
  { intros a b c ra rb rc IA IB IC I. apply SD in I. apply Z.leb_le, side_spec in I.
    assert (M := side_moved (corner_position ra) (corner_position rb) (corner_position rc) (tor a) (tor b) (tor c) (41 / 10 ^ 6) ltac:(lra)).
    assert (M' : Rabs (side (corner_position ra) (corner_position rb) (corner_position rc) - side (tor a) (tor b) (tor c)) <= 4 * (4 / 1000 * (2 * (41 / 10 ^ 6))) + 2 * (2 * (41 / 10 ^ 6) * (2 * (41 / 10 ^ 6)))).
    { apply M; clear M.
      - intros p q J. cbn in J. destruct J as [J|[J|[J|[]]]]; injection J as <- <-; apply MV; assumption.
      - intros p q J. cbn in J. destruct J as [J|[J|[]]]; injection J as <- <-; apply CS; first [apply (NR _ _ IA)|apply (NR _ _ IB)|apply (NR _ _ IC)]. }
    apply Rabs_le_inv in M'. lra. }
  assert (LL : forall a b ra rb, In (a, ra) [(z1, r1); (z2, r2); (z3, r3); (z4, r4)] -> In (b, rb) [(z1, r1); (z2, r2); (z3, r3); (z4, r4)] -> zlong a b = true -> / 1000 <= distance (corner_position ra) (corner_position rb) <= / 100).
  { intros a b ra rb IA IB L. destruct (MV _ _ IA) as (A1 & A2). destruct (MV _ _ IB) as (B1 & B2). destruct (CS b a (proj2 (NR _ _ IB)) (proj2 (NR _ _ IA))) as (C1 & C2). apply Rabs_le_inv in A1, A2, B1, B2.
    assert (T1 : Rabs (fst (corner_position ra) - fst (corner_position rb)) <= 41 / 10 ^ 4) by (apply Rabs_le_inv in C1; apply Rabs_le; lra).
    assert (T2 : Rabs (snd (corner_position ra) - snd (corner_position rb)) <= 41 / 10 ^ 4) by (apply Rabs_le_inv in C2; apply Rabs_le; lra).
    apply (apart_lengths _ _ _ T1 T2); [|lra]. unfold zlong in L. rewrite orb_true_iff, !Z.leb_le in L. destruct L as [L|L]; [left|right]; apply z_abs_ge, per19_ge in L; rewrite minus_IZR, Rdiv_minus_distr in L.
    - change (IZR (fst a) / 10 ^ 19) with (fst (tor a)) in L. change (IZR (fst b) / 10 ^ 19) with (fst (tor b)) in L.
      assert (D : Rabs (fst (tor a) - fst (tor b)) <= Rabs (fst (corner_position ra) - fst (corner_position rb)) + 82 / 10 ^ 6) by (replace (fst (tor a) - fst (tor b)) with ((fst (corner_position ra) - fst (corner_position rb)) + ((fst (tor a) - fst (corner_position ra)) + (fst (corner_position rb) - fst (tor b)))) by ring; apply Rle_trans with (1 := Rabs_triang _ _); apply Rplus_le_compat_l, Rabs_le; lra). lra.
    - change (IZR (snd a) / 10 ^ 19) with (snd (tor a)) in L. change (IZR (snd b) / 10 ^ 19) with (snd (tor b)) in L.
      assert (D : Rabs (snd (tor a) - snd (tor b)) <= Rabs (snd (corner_position ra) - snd (corner_position rb)) + 82 / 10 ^ 6) by (replace (snd (tor a) - snd (tor b)) with ((snd (corner_position ra) - snd (corner_position rb)) + ((snd (tor a) - snd (corner_position ra)) + (snd (corner_position rb) - snd (tor b)))) by ring; apply Rle_trans with (1 := Rabs_triang _ _); apply Rplus_le_compat_l, Rabs_le; lra). lra. }
  assert (I1 : In (z1, r1) [(z1, r1); (z2, r2); (z3, r3); (z4, r4)]) by (cbn; auto). assert (I2 : In (z2, r2) [(z1, r1); (z2, r2); (z3, r3); (z4, r4)]) by (cbn; auto).
  assert (I3 : In (z3, r3) [(z1, r1); (z2, r2); (z3, r3); (z4, r4)]) by (cbn; auto). assert (I4 : In (z4, r4) [(z1, r1); (z2, r2); (z3, r3); (z4, r4)]) by (cbn; auto 6).
  assert (Q : quad (corner_position r1) (corner_position r2) (corner_position r3) (corner_position r4)) by (split; [apply (SS z1 z2 z3); auto; cbn; auto|split; [apply (SS z2 z3 z4); auto; cbn; auto|split; [apply (SS z3 z4 z1); auto; cbn; auto|apply (SS z4 z1 z2); auto; cbn; auto]]]).
  split; [exact Q|]. apply quad_firm; [|exact Q|].
  - intros c I. cbn in I. destruct I as [<-|[<-|[<-|[<-|[]]]]]; [apply (near_small z1)|apply (near_small z2)|apply (near_small z3)|apply (near_small z4)]; try assumption; apply SM; cbn; auto.
  - intros a b F. destruct (quad_edges _ _ _ _ _ _ F) as [K|[K|[K|K]]]; injection K as -> ->; [apply (LL z1 z2)|apply (LL z2 z3)|apply (LL z3 z4)|apply (LL z4 z1)]; assumption.
Qed.

Local Opaque lsst_corners.
Lemma corners_read : forall file n, table_from (in_units 19 lsst_corners) file -> Forall2 near (zcorners n) (corners_of file n).
Proof.
  unfold table_from, in_units, zcorners, corners_of. intros file n. generalize lsst_corners as l. intro l. revert file. induction l as [|[m z] l IH]; intros file H; cbn [map] in H; inversion H as [|? [m' r] ? file' (E & X & Y) T]; subst; [constructor|].
  cbn [fst snd] in *. cbn [filter fst]. subst m'. specialize (IH file' T). destruct (String.eqb m n); [cbn [map]; constructor; [split; assumption|exact IH]|exact IH].
Qed.
Lemma names_read : forall file, table_from (in_units 19 lsst_corners) file -> map fst file = map fst lsst_corners.
Proof.
  unfold table_from, in_units. generalize lsst_corners as l. intro l. induction l as [|[m z] l IH]; intros file H; cbn [map] in H; inversion H as [|? [m' r] ? file' (E & X & Y) T]; subst; [reflexivity|].
  cbn [fst snd map] in *. subst m'. f_equal. apply IH. exact T.
Qed.
Lemma lsst_file : forall survey decimals, builtin_camera survey = Some decimals -> survey <> "des"%string -> decimals = in_units 19 lsst_corners.
Proof.
  unfold builtin_camera. intros survey decimals H N. destruct (orb _ _); [congruence|]. destruct (String.eqb_spec survey "des"); [contradiction|discriminate].
Qed.
(** What is known of a detector of the file. *)
Lemma lsst_quad : forall file n, table_from (in_units 19 lsst_corners) file -> In n (map fst file) ->
  exists z1 z2 z3 z4 r1 r2 r3 r4, zcorners n = [z1; z2; z3; z4] /\ corners_of file n = [r1; r2; r3; r4] /\ near z1 r1 /\ near z2 r2 /\ near z3 r3 /\ near z4 r4 /\ quad_ok [z1; z2; z3; z4] = true.
Proof.
  intros file n T I. assert (K := lsst_checked). rewrite forallb_forall in K. rewrite (names_read file T) in I. specialize (K n I). cbv beta in K. assert (F := corners_read file n T).
  destruct (zcorners n) as [|z1 [|z2 [|z3 [|z4 [|]]]]]; try discriminate K. inversion F as [|? r1 ? ? N1 F1]; subst. inversion F1 as [|? r2 ? ? N2 F2]; subst. inversion F2 as [|? r3 ? ? N3 F3]; subst. inversion F3 as [|? r4 ? ? N4 F4]; subst. inversion F4; subst.
  exists z1, z2, z3, z4, r1, r2, r3, r4. repeat (split; [first [reflexivity|assumption]|]). exact K.
Qed.
Lemma C118_lsst_firm_proof : forall survey decimals file n, builtin_camera survey = Some decimals -> survey <> "des"%string -> table_from decimals file -> In n (map fst file) ->
  length (corners_of file n) = 4%nat /\ firm_detector (corners_of file n).
Proof.
  intros survey decimals file n B N T I. rewrite (lsst_file _ _ B N) in T. destruct (lsst_quad file n T I) as (z1 & z2 & z3 & z4 & r1 & r2 & r3 & r4 & _ & E & N1 & N2 & N3 & N4 & K). rewrite E. split; [reflexivity|]. apply (quad_read z1 z2 z3 z4); assumption.
Qed.

(** ** Where the rows are *)
Lemma norm_moved : forall p q d, Rabs (fst p - fst q) <= d -> Rabs (snd p - snd q) <= d -> 0 <= d -> norm p <= norm q + 3 / 2 * d.
Proof.
  intros p q d X Y D. assert (NP : 0 <= norm p) by apply sqrt_pos. assert (NQ : 0 <= norm q) by apply sqrt_pos. set (e := (fst p - fst q, snd p - snd q)).
  assert (NE : norm e <= 3 / 2 * d) by (apply norm_upto; assumption). assert (NE0 : 0 <= norm e) by apply sqrt_pos. destruct (norm_bounds q e) as (B & _). apply Rabs_le_inv in B.
  assert (S : norm p * norm p = norm q * norm q + 2 * dot q e + norm e * norm e) by (rewrite !norm_square; unfold dot, e; cbn [fst snd]; ring).
  destruct (Rle_dec (norm p) (norm q + 3 / 2 * d)) as [L|L]; [exact L|exfalso]. nra.
Qed.
Lemma turned_norm : forall t p, norm (turned t p) = norm p.
Proof.
  intros t p. unfold norm. f_equal. unfold dot, turned. cbn [fst snd]. assert (S := sin2_cos2 t). unfold Rsqr in S.
  replace ((fst p * cos t - snd p * sin t) * (fst p * cos t - snd p * sin t) + (fst p * sin t + snd p * cos t) * (fst p * sin t + snd p * cos t)) with ((fst p * fst p + snd p * snd p) * (sin t * sin t + cos t * cos t)) by ring. rewrite S. ring.
Qed.
Lemma gnomonic_norm : forall a0 d0 a d, let k := sin d0 * sin d + cos d0 * cos d * cos (a - a0) in k <> 0 -> norm (gnomonic a0 d0 a d) * norm (gnomonic a0 d0 a d) * (k * k) = 1 - k * k.
Proof.
  intros a0 d0 a d k K. rewrite norm_square. unfold dot, gnomonic. fold k. cbn [fst snd].
  replace ((cos d * sin (a - a0) / k * (cos d * sin (a - a0) / k) + (cos d0 * sin d - sin d0 * cos d * cos (a - a0)) / k * ((cos d0 * sin d - sin d0 * cos d * cos (a - a0)) / k)) * (k * k))
    with (cos d * sin (a - a0) * (cos d * sin (a - a0)) + (cos d0 * sin d - sin d0 * cos d * cos (a - a0)) * (cos d0 * sin d - sin d0 * cos d * cos (a - a0))) by (field; exact K).
  unfold k. assert (S0 := sin2_cos2 d0). assert (S1 := sin2_cos2 d). assert (S2 := sin2_cos2 (a - a0)). unfold Rsqr in *. set (s0 := sin d0) in *. set (c0 := cos d0) in *. set (s := sin d) in *. set (c := cos d) in *. set (sa := sin (a - a0)) in *. set (ca := cos (a - a0)) in *.
  replace (c * sa * (c * sa)) with (c * c * (1 - ca * ca)) by (rewrite <- S2; ring). assert (C0 : c0 * c0 = 1 - s0 * s0) by lra. assert (C1 : c * c = 1 - s * s) by lra.
  replace (c * c * (1 - ca * ca) + (c0 * s - s0 * c * ca) * (c0 * s - s0 * c * ca)) with (c * c * (1 - ca * ca) + c0 * c0 * (s * s) - 2 * (c0 * s0 * s * c * ca) + s0 * s0 * (c * c) * (ca * ca)) by ring.
  replace ((s0 * s + c0 * c * ca) * (s0 * s + c0 * c * ca)) with (s0 * s0 * (s * s) + 2 * (c0 * s0 * s * c * ca) + c0 * c0 * (c * c) * (ca * ca)) by ring. rewrite C0, C1. ring.
Qed.
Lemma place_near : forall field rot sky d, distance_between field sky d -> d <= 60 -> norm (focal_position field rot sky) <= 35815 / 10 ^ 6 -> d <= 206 / 100.
Proof.
  intros field rot sky d ((D0 & _) & E) D60 N. unfold focal_position in N. rewrite turned_norm in N. cbn in E.
  set (a0 := fst field * PI / 180) in *. set (d0 := snd field * PI / 180) in *. set (a := fst sky * PI / 180) in *. set (dd := snd sky * PI / 180) in *.
  assert (K := gnomonic_norm a0 d0 a dd). cbv zeta in K.
  assert (EK : sin d0 * sin dd + cos d0 * cos dd * cos (a - a0) = cos (d * PI / 180)) by (rewrite E, cos_minus; ring). rewrite EK in K.
  assert (P := pi_machin). unfold P0 in P. set (t := d * PI / 180) in *. assert (T0 : 0 <= t <= PI / 3) by (unfold t; nra).
  assert (CT : 1 / 2 <= cos t) by (rewrite <- cos_PI3; apply cos_decr_1; lra). specialize (K ltac:(lra)). assert (S := sin2_cos2 t). unfold Rsqr in S. assert (C1 := COS_bound t).
  assert (N0 : 0 <= norm (gnomonic a0 d0 a dd)) by apply sqrt_pos. set (n := norm (gnomonic a0 d0 a dd)) in *.
  assert (NN : n * n <= 12828 / 10 ^ 7) by nra. assert (SS : sin t * sin t <= 12828 / 10 ^ 7) by (assert (cos t * cos t <= 1) by nra; nra).
  destruct (Rle_dec d (206 / 100)) as [L|L]; [exact L|exfalso]. assert (LT : 35953 / 10 ^ 6 <= t) by (unfold t; nra).
  assert (SM := sin_small (35953 / 10 ^ 6)). rewrite Rabs_right in SM by lra. specialize (SM ltac:(lra)). apply Rabs_le_inv in SM. assert (MON : sin (35953 / 10 ^ 6) <= sin t) by (apply sin_incr_1; lra). nra.
Qed.
Lemma lsst_norm : forall file n p, table_from (in_units 19 lsst_corners) file -> In n (map fst file) -> hardly_outside (3 / 10 ^ 11) (map corner_position (corners_of file n)) p -> norm p <= 35815 / 10 ^ 6.
Proof.
  intros file n p T I H. destruct (lsst_quad file n T I) as (z1 & z2 & z3 & z4 & r1 & r2 & r3 & r4 & _ & E & N1 & N2 & N3 & N4 & K). rewrite E in H. cbn [map] in H. destruct (quad_read _ _ _ _ _ _ _ _ K N1 N2 N3 N4) as (Q & _).
  assert (SM : forall z, In z [z1; z2; z3; z4] -> zsmall z = true) by (unfold quad_ok in K; rewrite !andb_true_iff in K; destruct K as ((((((SM & _) & _) & _) & _) & _) & _); rewrite forallb_forall in SM; exact SM).
  assert (FAR : forall z r, In z [z1; z2; z3; z4] -> near z r -> norm (corner_position r) <= 35802 / 10 ^ 6). { intros z r J N. destruct (small_spec z (SM z J)) as (_ & _ & L). destruct (near_small z r (SM z J) N) as (_ & A & B). assert (M := norm_moved _ _ _ A B ltac:(lra)). lra. }
  assert (R := quad_radius _ _ _ _ (35802 / 10 ^ 6) p Q ltac:(lra)). apply Rle_trans with (35802 / 10 ^ 6 + / 10 ^ 5); [|lra]. apply R; [|exact H]. intros q J. cbn in J. destruct J as [<-|[<-|[<-|[<-|[]]]]]; [apply (FAR z1)|apply (FAR z2)|apply (FAR z3)|apply (FAR z4)]; try assumption; cbn; auto.
Qed.
Lemma quad_linear : forall p1 p2 p3 p4 m s t p, quad p1 p2 p3 p4 -> (forall q, In q [p1; p2; p3; p4] -> m - / 10 <= s * fst q + t * snd q <= m) -> hardly_outside (3 / 10 ^ 11) [p1; p2; p3; p4] p -> s * fst p + t * snd p <= m + / 10 ^ 6.
Proof.
  intros p1 p2 p3 p4 m s t p (Q1 & Q2 & Q3 & Q4) FAR H. set (g := fun q : R * R => s * fst q + t * snd q). change (g p <= m + / 10 ^ 6).
  assert (E : forall a b, In (a, b) [(p1, p2); (p2, p3); (p3, p4); (p4, p1)] -> - (3 / 10 ^ 11) <= side a b p) by (intros a b I; apply H, follows_edges; exact I).
  assert (T : forall a b c, 13 / 10 ^ 6 <= side a b c -> m - / 10 <= g a <= m -> m - / 10 <= g b <= m -> m - / 10 <= g c <= m -> - (3 / 10 ^ 11) <= side a b p -> - (3 / 10 ^ 11) <= side b c p -> - (3 / 10 ^ 11) <= side c a p -> g p <= m + / 10 ^ 6).
  { intros a b c K A B C S1 S2 S3.
    assert (I : side a b c * (m - g p) = side b c p * (m - g a) + side c a p * (m - g b) + side a b p * (m - g c)) by (unfold side, g; ring).
    assert (G : forall x y, m - / 10 <= x <= m -> - (3 / 10 ^ 11) <= y -> - (3 / 10 ^ 12) <= y * (m - x)) by (intros x y X Y; assert (0 <= (y + 3 / 10 ^ 11) * (m - x)) by (apply Rmult_le_pos; lra); nra).
    assert (G1 := G _ _ A S2). assert (G2 := G _ _ B S3). assert (G3 := G _ _ C S1).
    destruct (Rle_dec (g p) (m + / 10 ^ 6)) as [L|L]; [exact L|exfalso]. assert (D : / 10 ^ 6 < g p - m) by lra.
    assert (V1 : 13 / 10 ^ 6 * / 10 ^ 6 <= side a b c * (g p - m)) by (apply Rmult_le_compat; lra). lra. }
  destruct (Rle_dec 0 (side p3 p1 p)) as [L|L].
  - apply (T p1 p2 p3 Q1); try (apply FAR; cbn; solve [auto 6]); try (apply E; cbn; solve [auto 6]). lra.
  - apply (T p3 p4 p1 Q3); try (apply FAR; cbn; solve [auto 6]); try (apply E; cbn; solve [auto 6]). replace (side p1 p3 p) with (- side p3 p1 p) by (unfold side; ring). lra.
Qed.
Lemma greatest : forall (g : Z * Z -> R) z l, exists m, In m (z :: l) /\ forall q, In q (z :: l) -> g q <= g m.
Proof.
  intros g z l. revert z. induction l as [|y l IH]; intro z; [exists z; split; [left; reflexivity|intros q [<-|[]]; lra]|].
  destruct (IH y) as (m & I & M). destruct (Rle_dec (g z) (g m)) as [L|L].
  - exists m. split; [right; exact I|]. intros q [<-|J]; [exact L|apply M, J].
  - exists z. split; [left; reflexivity|]. intros q [<-|J]; [lra|specialize (M q J); lra].
Qed.
(** How far along one axis a point of a detector can be. *)
Lemma lsst_reach : forall file n p s t, table_from (in_units 19 lsst_corners) file -> In n (map fst file) -> hardly_outside (3 / 10 ^ 11) (map corner_position (corners_of file n)) p ->
  In (s, t) [(1, 0); (-1, 0); (0, 1); (0, -1)] -> exists z, In z (zcorners n) /\ s * fst p + t * snd p <= s * fst (tor z) + t * snd (tor z) + 42 / 10 ^ 6.
Proof.
  intros file n p s t T I H ST. destruct (lsst_quad file n T I) as (z1 & z2 & z3 & z4 & r1 & r2 & r3 & r4 & EZ & E & N1 & N2 & N3 & N4 & K). rewrite E in H. cbn [map] in H. destruct (quad_read _ _ _ _ _ _ _ _ K N1 N2 N3 N4) as (Q & _).
  assert (SM : forall z, In z [z1; z2; z3; z4] -> zsmall z = true) by (unfold quad_ok in K; rewrite !andb_true_iff in K; destruct K as ((((((SM & _) & _) & _) & _) & _) & _); rewrite forallb_forall in SM; exact SM).
  set (g := fun z => s * fst (tor z) + t * snd (tor z)). destruct (greatest g z1 [z2; z3; z4]) as (m & IM & M). exists m. split; [rewrite EZ; exact IM|].
  assert (L := quad_linear _ _ _ _ (g m + 41 / 10 ^ 6) s t p Q). assert (L' : s * fst p + t * snd p <= g m + 41 / 10 ^ 6 + / 10 ^ 6); [|unfold g in L'; lra]. apply L; [|exact H]. clear L H.
  assert (FAR : forall z r, In z [z1; z2; z3; z4] -> near z r -> g m + 41 / 10 ^ 6 - / 10 <= s * fst (corner_position r) + t * snd (corner_position r) <= g m + 41 / 10 ^ 6).
  { intros z r J N. specialize (M z J). destruct (near_small z r (SM z J) N) as (_ & A & B). destruct (small_spec z (SM z J)) as (X & Y & _). destruct (small_spec m (SM m IM)) as (X' & Y' & _). apply Rabs_le_inv in A, B, X, Y, X', Y'. unfold g in *.
    destruct ST as [ST|[ST|[ST|[ST|[]]]]]; injection ST as <- <-; lra. }
  intros q J. cbn in J. destruct J as [<-|[<-|[<-|[<-|[]]]]]; [apply (FAR z1)|apply (FAR z2)|apply (FAR z3)|apply (FAR z4)]; try assumption; cbn; auto.
Qed.
Lemma lsst_disjoint : forall file n n' p, table_from (in_units 19 lsst_corners) file -> In n (map fst file) -> In n' (map fst file) ->
  hardly_outside (3 / 10 ^ 11) (map corner_position (corners_of file n)) p -> hardly_outside (3 / 10 ^ 11) (map corner_position (corners_of file n')) p -> n = n'.
Proof.
  intros file n n' p T I I' H H'. assert (K := lsst_apart_checked). cbv zeta in K. rewrite forallb_forall in K. assert (NM := names_read file T).
  assert (K1 := K (n, zcorners n)). cbv beta in K1. rewrite forallb_forall in K1. assert (W : forall m, In m (map fst file) -> In (m, zcorners m) (map (fun n => (n, zcorners n)) (nodup string_dec (map fst lsst_corners)))) by (intros m J; apply in_map_iff; exists m; split; [reflexivity|apply nodup_In; rewrite <- NM; exact J]).
  specialize (K1 (W n I) (n', zcorners n') (W n' I')). clear K W. cbn [fst snd] in K1. apply orb_true_iff in K1. destruct K1 as [K1|K1]; [apply String.eqb_eq; exact K1|exfalso].
  assert (R1 := fun s t => lsst_reach file n p s t T I H). assert (R2 := fun s t => lsst_reach file n' p s t T I' H').
  unfold zapart in K1. rewrite !orb_true_iff in K1.
  assert (Z : forall a b, (a + 1300000000000000 <= b)%Z -> IZR a / 10 ^ 19 + 13 / 10 ^ 5 <= IZR b / 10 ^ 19) by (intros a b L; apply IZR_le in L; rewrite plus_IZR in L; lra).
  destruct K1 as [[[K|K]|K]|K]; rewrite forallb_forall in K.
  - destruct (R1 1 0 ltac:(cbn; auto)) as (z & J & L). destruct (R2 (-1) 0 ltac:(cbn; auto)) as (z' & J' & L'). specialize (K z J). cbv beta in K. rewrite forallb_forall in K. specialize (K z' J'). apply Z.leb_le, Z in K. unfold tor in L, L'. cbn [fst snd] in L, L'. lra.
  - destruct (R1 (-1) 0 ltac:(cbn; auto)) as (z & J & L). destruct (R2 1 0 ltac:(cbn; auto)) as (z' & J' & L'). specialize (K z J). cbv beta in K. rewrite forallb_forall in K. specialize (K z' J'). apply Z.leb_le, Z in K. unfold tor in L, L'. cbn [fst snd] in L, L'. lra.
  - destruct (R1 0 1 ltac:(cbn; auto)) as (z & J & L). destruct (R2 0 (-1) ltac:(cbn; auto)) as (z' & J' & L'). specialize (K z J). cbv beta in K. rewrite forallb_forall in K. specialize (K z' J'). apply Z.leb_le, Z in K. unfold tor in L, L'. cbn [fst snd] in L, L'. lra.
  - destruct (R1 0 (-1) ltac:(cbn; auto)) as (z & J & L). destruct (R2 0 1 ltac:(cbn; auto)) as (z' & J' & L'). specialize (K z J). cbv beta in K. rewrite forallb_forall in K. specialize (K z' J'). apply Z.leb_le, Z in K. unfold tor in L, L'. cbn [fst snd] in L, L'. lra.
Qed.

(** ** No row twice *)
Lemma nodup_map_filter : forall A B (g : A -> B) (p : A -> bool) l, NoDup (map g l) -> NoDup (map g (filter p l)).
Proof.
  intros A B g p l. induction l as [|a l IH]; cbn [map filter]; intro H; [exact H|]. inversion H; subst. destruct (p a); [cbn [map]; constructor; [|auto]|auto].
  intro K. apply in_map_iff in K. destruct K as (b & E & K). apply filter_In in K. match goal with N : ~ In (g a) _ |- _ => apply N end. rewrite <- E. apply in_map. apply K.
Qed.
Lemma map_fst_combine : forall A B (l : list A) (l' : list B), length l = length l' -> map fst (combine l l') = l.
Proof. intros A B l. induction l as [|a l IH]; intros [|b l'] H; cbn in *; try discriminate; [reflexivity|]. f_equal. apply IH. lia. Qed.
Lemma nodup_app_intro : forall A (l l' : list A), NoDup l -> NoDup l' -> (forall x, In x l -> ~ In x l') -> NoDup (l ++ l').
Proof.
  intros A l. induction l as [|a l IH]; intros l' H H' D; cbn; [exact H'|]. inversion H; subst. constructor; [rewrite in_app_iff; intros [K|K]; [contradiction|apply (D a (or_introl eq_refl) K)]|].
  apply IH; [assumption|assumption|]. intros x I. apply D. right. exact I.
Qed.
Lemma nodup_map_inj : forall A B (g : A -> B) l, (forall a b, In a l -> In b l -> g a = g b -> a = b) -> NoDup l -> NoDup (map g l).
Proof.
  intros A B g l. induction l as [|a l IH]; intros I H; [constructor|]. inversion H; subst. cbn [map]. constructor.
  - intro K. apply in_map_iff in K. destruct K as (b & E & K). assert (b = a) by (apply I; [right; exact K|left; reflexivity|exact E]). subst. contradiction.
  - apply IH; [intros x y X Y; apply I; right; assumption|assumption].
Qed.
Lemma apply_nodup : forall sum rows thr dets ps, NoDup (applyFootprint_f sum rows thr dets ps).
Proof.
  intros sum rows thr dets ps. unfold applyFootprint_f.
  assert (G : forall n, NoDup (concat (map (fun q => map (fun i => (i, fst q)) (ison_f sum rows thr (snd q) ps)) (combine (seq n (length dets)) dets))) /\
    forall x, In x (concat (map (fun q => map (fun i => (i, fst q)) (ison_f sum rows thr (snd q) ps)) (combine (seq n (length dets)) dets))) -> (n <= snd x)%nat).
  { induction dets as [|d dets IH]; intro n; [split; [constructor|intros x []]|]. cbn [length seq combine map concat fst snd]. destruct (IH (S n)) as (I1 & I2). split.
    - apply nodup_app_intro; [|exact I1|].
      + apply nodup_map_inj; [intros a b _ _ E; congruence|]. unfold ison_f. apply nodup_map_filter. rewrite map_fst_combine; [apply seq_NoDup|apply seq_length].
      + intros x K J. apply I2 in J. apply in_map_iff in K. destruct K as (i & <- & _). cbn [snd] in J. lia.
    - intros x K. apply in_app_iff in K. destruct K as [K|K]; [apply in_map_iff in K; destruct K as (i & <- & _); cbn; lia|apply I2 in K; lia]. }
  apply G.
Qed.
Lemma filter_nodup : forall sum rows A (focal : A -> pt_f) thr dets (f : frame A), NoDup (map fst f) -> NoDup (footprint_filter_f sum rows focal thr dets f).
Proof.
  intros sum rows A focal thr dets f H. unfold footprint_filter_f. apply (Permutation_NoDup (Permutation_sym (sort_index_perm _ _))). assert (N := apply_nodup sum rows thr dets (map (fun r => focal (snd r)) f)).
  induction N as [|x l N ND IH]; cbn [flat_map]; [constructor|]. apply nodup_app_intro; [destruct (nth_error f (fst x)); repeat constructor; intros []|exact IH|].
  intros y I J. destruct (nth_error f (fst x)) as [[lab r]|] eqn:E; [|contradiction I]. destruct I as [<-|[]]. apply in_flat_map in J. destruct J as (z & J & K). destruct (nth_error f (fst z)) as [[lab' r']|] eqn:E'; [|contradiction K]. destruct K as [K|[]]. cbn [fst snd] in K. injection K as -> _ KK.
  apply N. assert (fst x = fst z); [|destruct x, z; cbn [fst snd] in *; subst; exact J].
  apply (proj1 (NoDup_nth_error (map fst f)) H); [apply nth_error_Some; rewrite nth_error_map, E; discriminate|]. rewrite !nth_error_map, E, E'. reflexivity.
Qed.
Lemma lsst_count : length (nodup string_dec (map fst lsst_corners)) = 189%nat.
Proof. vm_compute. reflexivity. Qed.
Lemma C118_lsst_field_proof : forall survey decimals S C AT sum rows file A (f : frame A) (sky field : A -> R * R) (rot : A -> R) limit,
  builtin_camera survey = Some decimals -> survey <> "des"%string -> table_from decimals file ->
  accurate_sin S -> accurate_cos C -> accurate_arctan2 AT -> accurate_sum sum -> accurate_sum rows ->
  (forall lab r, In (lab, r) f -> position (sky r) /\ position (field r) /\ Rabs (snd (field r)) <= 89 /\ binary64 (rot r) /\ Rabs (rot r) <= 360 /\
    exists d, distance_between (field r) (sky r) d /\ d <= 60) ->
  (forall a, limit = Some a -> 0 <= a <= 3600) ->
  let camera := make_footprint_f S C sum AT (map (fun c => (fst c, (Real (fst (snd c)), Real (snd (snd c))))) file) in
  let on_sky r := focal_plane_of_f S C (Real (fst (sky r))) (Real (snd (sky r))) (Real (fst (field r))) (Real (snd (field r))) (Real (rot r)) in
  let kept := footprint_filter_f sum rows on_sky (option_map Real limit) (map snd camera) f in
  let margin := match limit with None => 0 | Some a => a / 3600 * PI / 180 end in
  (forall lab r n, In (lab, r) f -> In n (map fst file) ->
    inside_by (margin + 2 / 10 ^ 10) (map corner_position (corners_of file n)) (focal_position (field r) (rot r) (sky r)) -> exists k, In (lab, (r, k)) kept) /\
  (forall lab r k, In (lab, (r, k)) kept -> In (lab, r) f /\ (k < 189)%nat /\ exists d, distance_between (field r) (sky r) d /\ d <= 206 / 100) /\
  (NoDup (map fst f) -> NoDup (map fst kept)).
Proof.
  intros survey decimals S C AT sum rows file A f sky field rot limit B N T HS HC HA HSUM HROWS ROWS LIMIT camera on_sky kept margin.
  assert (FIRM := fun n => C118_lsst_firm_proof survey decimals file n B N T). rewrite (lsst_file _ _ B N) in T.
  assert (F := C117_filter_proof S C AT sum rows file (corners_of file) A f sky field rot limit HS HC HA HSUM HROWS). cbv zeta in F.
  specialize (F (fun n I => conj (proj2 (FIRM n I)) (Permutation_refl _)) ROWS LIMIT). destruct F as (IN & OUT). fold camera on_sky in IN, OUT. fold kept in IN, OUT. fold margin in IN.
  assert (NAME : forall lab r k, In (lab, (r, k)) kept -> exists pre n post, map fst file = (pre ++ n :: post)%list /\ ~ In n pre /\ k = length (nodup string_dec pre) /\ hardly_outside (3 / 10 ^ 11) (map corner_position (corners_of file n)) (focal_position (field r) (rot r) (sky r)) /\ In n (map fst file)).
  { intros lab r k K. destruct (OUT lab r k K) as (_ & pre & n & post & E & J & L & H & _). exists pre, n, post. repeat (split; [assumption|]). rewrite E. apply in_app_iff. right. left. reflexivity. }
  split; [|split].
  - intros lab r n I J H. assert (D : exists pre post, map fst file = (pre ++ n :: post)%list /\ ~ In n pre).
    { clear - J. induction (map fst file) as [|m l IH]; [contradiction J|]. destruct (string_dec m n) as [->|E]; [exists [], l; split; [reflexivity|intros []]|]. destruct J as [J|J]; [contradiction|]. destruct (IH J) as (pre & post & -> & K). exists (m :: pre), post. split; [reflexivity|]. intros [Q|Q]; contradiction. }
    destruct D as (pre & post & E & K). eexists. apply (IN lab r pre n post I E K H).
  - intros lab r k K. destruct (OUT lab r k K) as (I & _). split; [exact I|]. destruct (NAME lab r k K) as (pre & n & post & E & J & -> & H & M). split.
    + rewrite <- lsst_count, <- (names_read file T), E. apply (NoDup_incl_length (l := n :: nodup string_dec pre)).
      * constructor; [rewrite nodup_In; exact J|apply NoDup_nodup].
      * intros x [<-|X]; apply nodup_In, in_app_iff; [right; left; reflexivity|left; apply nodup_In in X; exact X].
    + destruct (ROWS lab r I) as (_ & _ & _ & _ & _ & d & D & D60). exists d. split; [exact D|]. apply (place_near _ (rot r) _ _ D D60), (lsst_norm file n); assumption.
  - intro ND. apply nodup_map_inj; [|apply filter_nodup; exact ND]. intros [lab [r k]] [lab' [r' k']] K K' E. cbn [fst] in E. subst lab'. destruct (OUT _ _ _ K) as (I & _). destruct (OUT _ _ _ K') as (I' & _).
    assert (r = r') as <-. { clear - ND I I'. induction f as [|[l0 r0] f IH]; [contradiction I|]. cbn [map fst] in ND. inversion ND as [|? ? NI ND']; subst. destruct I as [I|I], I' as [I'|I'].
      - congruence.
      - injection I as -> ->. exfalso. apply NI. apply (in_map fst) in I'. exact I'.
      - injection I' as -> ->. exfalso. apply NI. apply (in_map fst) in I. exact I.
      - apply IH; assumption. }
    destruct (NAME _ _ _ K) as (pre & n & post & E & J & L & H & M). destruct (NAME _ _ _ K') as (pre' & n' & post' & E' & J' & L' & H' & M').
    assert (n = n') as <- by (apply (lsst_disjoint file n n' _ T M M' H H')). do 2 f_equal. rewrite L, L'. do 2 f_equal. rewrite E in E'. clear - E' J J'. revert pre' E' J'. induction pre as [|x pre IH]; intros [|y pre'] E J'; cbn [app] in E; [reflexivity| | |].
    + injection E as -> _. exfalso. apply J'. left. reflexivity.
    + injection E as <- _. exfalso. apply J. left. reflexivity.
    + injection E as -> E. f_equal. apply IH; [intro K; apply J; right; exact K|exact E|intro K; apply J'; right; exact K].
Qed.

(** ** The DES camera and the numbers of the files *)
Definition zcorners_des (n : string) : list (Z * Z) := map snd (filter (fun r => String.eqb (fst r) n) des_corners).
Lemma units_corners : forall k file n, corners_of (in_units k file) n = map (fun z => (IZR (fst z) / 10 ^ k, IZR (snd z) / 10 ^ k)) (map snd (filter (fun r => String.eqb (fst r) n) file)).
Proof.
  intros k file n. unfold corners_of, in_units. induction file as [|[m z] file IH]; [reflexivity|]. cbn [map filter fst snd]. destruct (String.eqb m n); [cbn [map fst snd]; f_equal; exact IH|exact IH].
Qed.
Lemma des_head : exists c rest, des_corners = ("N1"%string, c) :: rest.
Proof. eexists. eexists. unfold des_corners. reflexivity. Qed.
Lemma des_n1 : zcorners_des "N1" = [(-1081100000, -157306000); (-1081100000, -7505060); (-782681000, -7505060); (-782681000, -157306000)]%Z.
Proof. vm_compute. reflexivity. Qed.
Lemma des_small : forallb (fun r => (Z.abs (fst (snd r)) <=? 1100000000) && (Z.abs (snd (snd r)) <=? 1100000000))%Z%bool des_corners = true.
Proof. vm_compute. reflexivity. Qed.
Lemma des_n1_read : corners_of (in_units 9 des_corners) "N1" = map (fun z => (IZR (fst z) / 10 ^ 9, IZR (snd z) / 10 ^ 9)) (zcorners_des "N1").
Proof. apply units_corners. Qed.
Local Opaque des_corners.
Lemma trapezoid_convex : forall x1 x2 y1 y2 y3 y4, x1 < x2 -> y1 < y4 -> y2 < y3 -> strictly_convex [(x1, y1); (x2, y2); (x2, y3); (x1, y4)].
Proof.
  intros x1 x2 y1 y2 y3 y4 X Y1 Y2. split; [cbn; lia|]. assert (E : 0 < (x2 - x1) * (y4 - y1)) by (apply Rmult_lt_0_compat; lra). assert (E' : 0 < (x2 - x1) * (y3 - y2)) by (apply Rmult_lt_0_compat; lra). split.
  - repeat constructor; cbn [In]; intro K; repeat (destruct K as [K|K]; [injection K; intros; subst; lra|]); exact K.
  - intros a b c F I A B. destruct (quad_edges _ _ _ _ _ _ F) as [K|[K|[K|K]]]; injection K as -> ->; cbn in I; destruct I as [<-|[<-|[<-|[<-|[]]]]]; try contradiction; unfold side; cbn [fst snd]; nra.
Qed.
Lemma first_detector : forall n c file, exists rest, make_footprint ((n, c) :: file) = (n, sortCorners (make_detector (corners_of ((n, c) :: file) n))) :: rest.
Proof. intros n c file. eexists. reflexivity. Qed.
Lemma aimed : forall x y, exists ra dec, radec_to_focal_plane ra dec 0 0 0 = (x, y) /\ x = sin ra / cos ra /\ 0 < cos ra /\ 0 < cos dec /\ - (PI / 2) < ra < PI / 2.
Proof.
  intros x y. exists (atan x), (atan (y * cos (atan x))). assert (A := atan_bound x). assert (B := atan_bound (y * cos (atan x))). assert (CA : 0 < cos (atan x)) by (apply cos_gt_0; lra). assert (CB : 0 < cos (atan (y * cos (atan x)))) by (apply cos_gt_0; lra).
  assert (T := tan_atan x). assert (T' := tan_atan (y * cos (atan x))). unfold tan in T, T'.
  split; [|split; [symmetry; exact T|split; [exact CA|split; [exact CB|lra]]]].
  unfold radec_to_focal_plane. rewrite <- C72_corners_proof. unfold project. rewrite cos_0, sin_0. set (b := atan (y * cos (atan x))) in *. set (a := atan x) in *.
  f_equal.
  - rewrite <- T. field. lra.
  - replace (sin b) with (sin b / cos b * cos b) by (field; lra). rewrite T'. field. lra.
Qed.
Lemma C118_des_refuted_proof : exists decimals, builtin_camera "des" = Some decimals /\ (forall n c, In (n, c) decimals -> Rabs (fst c) <= 11 / 10 /\ Rabs (snd c) <= 11 / 10) /\
  exists ra dec d, angle_between (direction 0 0) (direction ra dec) d /\ 45 < d /\
  In (0%nat, ((ra, dec), 0%nat)) (footprint_filter (fun p => radec_to_focal_plane (deg2rad (fst p)) (deg2rad (snd p)) (deg2rad 0) (deg2rad 0) (deg2rad 0)) None (map snd (make_footprint decimals)) [(0%nat, (ra, dec))]).
Proof.
  exists (in_units 9 des_corners). split; [reflexivity|]. split.
  { intros n c I. unfold in_units in I. apply in_map_iff in I. destruct I as ([m z] & E & I). injection E as _ <-. assert (K := des_small). rewrite forallb_forall in K. specialize (K _ I). cbn [fst snd] in *. rewrite andb_true_iff, !Z.leb_le in K. destruct K as (A & B). apply z_abs_le in A, B.
    assert (G : forall x, Rabs x <= 1100000000 -> Rabs (x / 10 ^ 9) <= 11 / 10) by (intros x X; apply Rabs_le_inv in X; apply Rabs_le; lra). split; apply G; assumption. }
  assert (E := des_n1_read). rewrite des_n1 in E. cbn [map fst snd] in E.
  destruct des_head as (c0 & rest & HD). destruct (first_detector "N1" (IZR (fst c0) / 10 ^ 9, IZR (snd c0) / 10 ^ 9) (in_units 9 rest)) as (dets & FD).
  assert (UN : in_units 9 des_corners = ("N1"%string, (IZR (fst c0) / 10 ^ 9, IZR (snd c0) / 10 ^ 9)) :: in_units 9 rest) by (rewrite HD; reflexivity). rewrite <- UN in FD. rewrite E in FD. clear E HD UN.
  set (a1 := -1081100000 / 10 ^ 9) in *. set (a2 := -782681000 / 10 ^ 9) in *. set (d1 := -157306000 / 10 ^ 9) in *. set (d2 := -7505060 / 10 ^ 9) in *.
  assert (P := pi_machin). unfold P0 in P. assert (C1 : 0 < cos a1) by (apply cos_gt_0; unfold a1; lra). assert (C2 : 0 < cos a2) by (apply cos_gt_0; unfold a2; lra). assert (D1 : 0 < cos d1) by (apply cos_gt_0; unfold d1; lra). assert (D2 : 0 < cos d2) by (apply cos_gt_0; unfold d2; lra).
  assert (TA : tan a1 < tan a2) by (apply tan_increasing; unfold a1, a2; lra). assert (TD : tan d1 < tan d2) by (apply tan_increasing; unfold d1, d2; lra).
  set (l := [(tan a1, tan d1 / cos a1); (tan a2, tan d1 / cos a2); (tan a2, tan d2 / cos a2); (tan a1, tan d2 / cos a1)]).
  assert (DIV : forall c, 0 < c -> tan d1 / c < tan d2 / c) by (intros c C; apply Rmult_lt_compat_r; [apply Rinv_0_lt_compat; exact C|exact TD]).
  assert (SC : strictly_convex l) by (apply trapezoid_convex; [exact TA|apply DIV; exact C1|apply DIV; exact C2]).
  assert (PJ : forall a d, 0 < cos a -> 0 < cos d -> project (a, d) = (tan a, tan d / cos a)) by (intros a d A D; unfold project, tan; f_equal; field; lra).
  assert (PERM : Permutation (map project [(a1, d1); (a1, d2); (a2, d2); (a2, d1)]) l).
  { cbn [map]. rewrite !PJ by assumption. unfold l. apply perm_skip. apply Permutation_trans with [(tan a2, tan d1 / cos a2); (tan a1, tan d2 / cos a1); (tan a2, tan d2 / cos a2)]; [|apply perm_skip, perm_swap].
    apply (Permutation_trans (l' := [(tan a1, tan d2 / cos a1); (tan a2, tan d1 / cos a2); (tan a2, tan d2 / cos a2)])); [apply perm_skip, perm_swap|apply perm_swap]. }
  destruct (aimed (fst (mean_point l)) (snd (mean_point l))) as (ra & dec & FP & X & CR & CD & RB). rewrite <- surjective_pairing in FP.
  assert (MX : fst (mean_point l) <= - (5 / 4)).
  { unfold mean_point, l, sum_f. cbn [map fold_right fst snd length INR]. assert (T1 : tan a1 < - sqrt 3) by (rewrite <- tan_PI3, <- tan_neg; apply tan_increasing; unfold a1; lra). assert (T2 : tan a2 < - (78 / 100)).
    { apply Rlt_trans with (tan (- (78 / 100))); [apply tan_increasing; unfold a2; lra|]. rewrite tan_neg. apply Ropp_lt_contravar. unfold tan. assert (C : 0 < cos (78 / 100)) by (apply cos_gt_0; lra). apply (Rmult_lt_reg_r (cos (78 / 100))); [exact C|]. replace (sin (78 / 100) / cos (78 / 100) * cos (78 / 100)) with (sin (78 / 100)) by (field; lra).
      destruct (pre_sin_bound (78 / 100) 0 ltac:(lra) ltac:(lra)) as (L & _). destruct (pre_cos_bound (78 / 100) 0 ltac:(lra) ltac:(lra)) as (_ & U). unfold sin_approx, sin_term in L. unfold cos_approx, cos_term in U. cbn in L, U. lra. }
    assert (S3 : 173 / 100 <= sqrt 3) by (rewrite <- (sqrt_square (173 / 100)) by lra; apply sqrt_le_1_alt; lra). lra. }
  assert (PI0 : PI <> 0) by lra. assert (CONV : forall x, deg2rad (x * 180 / PI) = x) by (intro x; unfold deg2rad; field; exact PI0).
  assert (KEPT : In (0%nat, ((ra * 180 / PI, dec * 180 / PI), 0%nat)) (footprint_filter (fun p => radec_to_focal_plane (deg2rad (fst p)) (deg2rad (snd p)) (deg2rad 0) (deg2rad 0) (deg2rad 0)) None (map snd (make_footprint (in_units 9 des_corners))) [(0%nat, (ra * 180 / PI, dec * 180 / PI))])).
  { apply C71_rows_proof. split; [left; reflexivity|]. rewrite FD. cbn [map snd nth_error]. eexists. split; [reflexivity|]. cbn [fst snd]. rewrite !CONV. replace (deg2rad 0) with 0 by (unfold deg2rad; field). rewrite FP.
    apply (C36_outline_proof (/ 10 ^ 11) _ l (mean_point l) ltac:(lra) SC PERM). intros a b F. left. apply (center_inside l a b SC F). }
  exists (ra * 180 / PI), (dec * 180 / PI). assert (CK : 0 <= cos ra * cos dec <= 1) by (assert (B1 := COS_bound ra); assert (B2 := COS_bound dec); nra).
  assert (AC := acos_bound (cos ra * cos dec)). exists (acos (cos ra * cos dec) * 180 / PI).
  assert (ANG : acos (cos ra * cos dec) * 180 / PI * PI / 180 = acos (cos ra * cos dec)) by (field; exact PI0). split; [|split; [|exact KEPT]].
  - split.
    + split; [apply Rmult_le_pos; [lra|left; apply Rinv_0_lt_compat; lra]|]. apply (Rmult_le_reg_r (PI / 180)); [lra|]. replace (acos (cos ra * cos dec) * 180 / PI * (PI / 180)) with (acos (cos ra * cos dec)) by (field; exact PI0). lra.
    + rewrite ANG, cos_acos by lra. unfold direction. cbn [vx vy vz]. replace (ra * 180 / PI * PI / 180) with ra by (field; exact PI0). replace (dec * 180 / PI * PI / 180) with dec by (field; exact PI0). replace (0 * PI / 180) with 0 by field. rewrite cos_0, sin_0. ring.
  - apply (Rmult_lt_reg_r (PI / 180)); [lra|]. replace (acos (cos ra * cos dec) * 180 / PI * (PI / 180)) with (acos (cos ra * cos dec)) by (field; exact PI0). replace (45 * (PI / 180)) with (PI / 4) by field.
    rewrite <- (acos_cos (PI / 4)) by lra. rewrite cos_PI4. assert (S2 : 0 < sqrt 2) by (apply sqrt_lt_R0; lra). assert (SQ2 : sqrt 2 * sqrt 2 = 2) by (apply sqrt_sqrt; lra).
    assert (CX : cos ra * cos dec < 1 / sqrt 2).
    { assert (S := sin2_cos2 ra). unfold Rsqr in S. assert (SR : sin ra = fst (mean_point l) * cos ra) by (rewrite X; field; lra). rewrite SR in S. set (c := cos ra) in *. set (m := fst (mean_point l)) in *. assert (MM : 25 / 16 <= m * m) by nra. assert (CC : c * c * (1 + 25 / 16) <= 1) by nra.
      assert (B2 := COS_bound dec). apply Rle_lt_trans with c; [nra|]. apply (Rmult_lt_reg_r (sqrt 2)); [exact S2|]. replace (1 / sqrt 2 * sqrt 2) with 1 by (field; lra). nra. }
    destruct (Rlt_dec (acos (1 / sqrt 2)) (acos (cos ra * cos dec))) as [Q|Q]; [exact Q|exfalso]. assert (BQ := acos_bound (1 / sqrt 2)). apply Rnot_lt_le in Q.
    assert (L1 : 1 / sqrt 2 <= 1) by (apply (Rmult_le_reg_r (sqrt 2)); [exact S2|]; replace (1 / sqrt 2 * sqrt 2) with 1 by (field; lra); nra).
    assert (L0 : 0 < 1 / sqrt 2) by (apply Rdiv_lt_0_compat; lra).
    assert (M : cos (acos (1 / sqrt 2)) <= cos (acos (cos ra * cos dec))) by (apply cos_decr_1; lra). rewrite !cos_acos in M by lra. lra.
Qed.
Lemma C118_tangent_refuted_proof : exists decimals n c, builtin_camera "lsst" = Some decimals /\ In (n, c) decimals /\ 2 / 3600 * PI / 180 < distance (project c) c.
Proof.
  exists (in_units 19 lsst_corners), "168"%string, (IZR (-183319990868211460) / 10 ^ 19, IZR 306755022033713270 / 10 ^ 19). split; [reflexivity|]. split.
  { apply (in_map (fun r : string * (Z * Z) => (fst r, (IZR (fst (snd r)) / 10 ^ 19, IZR (snd (snd r)) / 10 ^ 19))) lsst_corners ("168"%string, (-183319990868211460, 306755022033713270)%Z)).
    assert (K : existsb (fun r => String.eqb "168" (fst r) && Z.eqb (-183319990868211460) (fst (snd r)) && Z.eqb 306755022033713270 (snd (snd r)))%bool lsst_corners = true) by (vm_compute; reflexivity).
    apply existsb_exists in K. destruct K as ([n [x y]] & I & K). cbn [fst snd] in K. rewrite !andb_true_iff, String.eqb_eq, !Z.eqb_eq in K. destruct K as ((-> & ->) & ->). exact I. }
  set (a := IZR (-183319990868211460) / 10 ^ 19). set (d := IZR 306755022033713270 / 10 ^ 19). assert (P := pi_machin). unfold P0 in P.
  unfold project. set (z := cos a * cos d). assert (L : 12 / 10 ^ 6 <= sin d / z - d).
  { assert (SD := sin_small d). rewrite (Rabs_right d) in SD by (unfold d; lra). specialize (SD ltac:(unfold d; lra)). apply Rabs_le_inv in SD. assert (CA := cos_small a). assert (CD := cos_small d).
    destruct (pre_cos_bound a 0 ltac:(unfold a; lra) ltac:(unfold a; lra)) as (_ & UA). destruct (pre_cos_bound d 0 ltac:(unfold d; lra) ltac:(unfold d; lra)) as (_ & UD). unfold cos_approx, cos_term in UA, UD. cbn in UA, UD.
    assert (BA : cos a <= 99984 / 10 ^ 5) by (unfold a in *; lra). assert (BD : cos d <= 99953 / 10 ^ 5) by (unfold d in *; lra). assert (PA : 999 / 1000 <= cos a) by (unfold a in *; lra). assert (PD : 999 / 1000 <= cos d) by (unfold d in *; lra).
    assert (Z1 : z <= 99984 / 10 ^ 5 * (99953 / 10 ^ 5)) by (unfold z; apply Rmult_le_compat; lra). assert (Z0 : 99 / 100 <= z) by (unfold z; nra).
    apply (Rmult_le_reg_r z); [lra|]. replace ((sin d / z - d) * z) with (sin d - d * z) by (field; lra). assert (DZ : d * z <= d * (99984 / 10 ^ 5 * (99953 / 10 ^ 5))) by (apply Rmult_le_compat_l; [unfold d; lra|exact Z1]).
    assert (12 / 10 ^ 6 * z <= 12 / 10 ^ 6) by lra. unfold d in *. lra. }
  unfold distance. cbn [fst snd]. apply Rlt_le_trans with (12 / 10 ^ 6); [lra|]. rewrite <- (sqrt_square (12 / 10 ^ 6)) by lra. apply sqrt_le_1_alt. set (q := sin d / z - d) in *. assert (0 <= (sin a * cos d / z - a) * (sin a * cos d / z - a)) by apply Rle_0_sqr. nra.
Qed.

(** ** A file read by rounding every decimal *)
Lemma lsst_not_small : forallb (fun r => (10000000000000000 <=? Z.abs (fst (snd r))) && (10000000000000000 <=? Z.abs (snd (snd r))) && (Z.abs (fst (snd r)) <=? 310000000000000000) && (Z.abs (snd (snd r)) <=? 310000000000000000))%Z%bool lsst_corners = true.
Proof. vm_compute. reflexivity. Qed.
Definition rounded_table (l : list (string * (R * R))) : list (string * (R * R)) := map (fun r => (fst r, (fl (fst (snd r)), fl (snd (snd r))))) l.
Lemma decimal_read : forall z, (10000000000000000 <= Z.abs z)%Z -> (Z.abs z <= 310000000000000000)%Z -> read_from (IZR z / 10 ^ 19) (fl (IZR z / 10 ^ 19)).
Proof.
  intros z L U. apply z_abs_ge, per19_ge in L. apply z_abs_le, per19 in U. set (x := IZR z / 10 ^ 19) in *. assert (E := fl_rel2 x ltac:(lra)). split; [|lra]. apply fl_binary64. assert (T := top_large).
  assert (P : 1 <= 10 ^ 308) by apply pow10_ge_1. apply Rle_lt_trans with 1; [|lra]. replace (fl x) with ((fl x - x) + x) by ring. apply Rle_trans with (1 := Rabs_triang _ _). lra.
Qed.
Lemma rounded_read : table_from (in_units 19 lsst_corners) (rounded_table (in_units 19 lsst_corners)).
Proof.
  assert (K := lsst_not_small). rewrite forallb_forall in K. unfold table_from, rounded_table, in_units. induction lsst_corners as [|[n z] l IH]; [constructor|]. cbn [map fst snd]. constructor; [|apply IH; intros x X; apply K; right; exact X].
  specialize (K _ (or_introl eq_refl)). cbn [fst snd] in *. rewrite !andb_true_iff, !Z.leb_le in K. destruct K as (((K1 & K2) & K3) & K4). split; [reflexivity|]. split; apply decimal_read; assumption.
Qed.
Lemma central : zcorners "94" = [(19348700233431325, -19711469191125790); (19344791204188570, 19771529062389600); (-19440076578457468, 19767688893238680); (-19436168345675954, -19715308066026400)]%Z.
Proof. vm_compute. reflexivity. Qed.
Lemma central_inside : forall file m, table_from (in_units 19 lsst_corners) file -> In "94"%string (map fst file) -> 0 <= m <= / 1000 -> inside_by m (map corner_position (corners_of file "94")) (0, 0).
Proof.
  intros file m T I M. assert (QR := lsst_quad file "94" T I). destruct QR as (z1 & z2 & z3 & z4 & r1 & r2 & r3 & r4 & EZ & E & N1 & N2 & N3 & N4 & K). rewrite E. cbn [map]. rewrite central in EZ. injection EZ as <- <- <- <-.
  destruct (quad_read _ _ _ _ _ _ _ _ K N1 N2 N3 N4) as (_ & ((_ & _ & _ & _) & _)).
  assert (SM : forall z, In z [(19348700233431325, -19711469191125790); (19344791204188570, 19771529062389600); (-19440076578457468, 19767688893238680); (-19436168345675954, -19715308066026400)]%Z -> zsmall z = true) by (unfold quad_ok in K; rewrite !andb_true_iff in K; destruct K as ((((((SM & _) & _) & _) & _) & _) & _); rewrite forallb_forall in SM; exact SM).
  destruct (near_small _ _ (SM _ (or_introl eq_refl)) N1) as (_ & A1 & B1).
  destruct (near_small _ _ (SM _ (or_intror (or_introl eq_refl))) N2) as (_ & A2 & B2).
  destruct (near_small _ _ (SM _ (or_intror (or_intror (or_introl eq_refl)))) N3) as (_ & A3 & B3).
  destruct (near_small _ _ (SM _ (or_intror (or_intror (or_intror (or_introl eq_refl))))) N4) as (_ & A4 & B4).
  clear K SM N1 N2 N3 N4 E T I. unfold tor in A1, B1, A2, B2, A3, B3, A4, B4. cbn [fst snd] in A1, B1, A2, B2, A3, B3, A4, B4. apply Rabs_le_inv in A1, B1, A2, B2, A3, B3, A4, B4.
  assert (G : forall a b, - (3 / 1000) <= fst a <= 3 / 1000 -> - (3 / 1000) <= snd a <= 3 / 1000 -> - (3 / 1000) <= fst b <= 3 / 1000 -> - (3 / 1000) <= snd b <= 3 / 1000 -> 6 / 10 ^ 6 <= side a b (0, 0) -> distance a b <= 6 / 1000 -> m * distance a b <= side a b (0, 0)).
  { intros a b _ _ _ _ S D. assert (D0 : 0 <= distance a b) by apply sqrt_pos. apply Rle_trans with (/ 1000 * (6 / 1000)); [apply Rmult_le_compat; lra|lra]. }
  assert (DD : forall a b : R * R, Rabs (fst a - fst b) <= 41 / 10 ^ 4 -> Rabs (snd a - snd b) <= 41 / 10 ^ 4 -> distance a b <= 6 / 1000).
  { intros a b X Y. unfold distance. rewrite <- (sqrt_square (6 / 1000)) by lra. apply sqrt_le_1_alt. apply Rabs_le_inv in X, Y. nra. }
  set (p1 := corner_position r1) in *. set (p2 := corner_position r2) in *. set (p3 := corner_position r3) in *. set (p4 := corner_position r4) in *. clearbody p1 p2 p3 p4.
  intros a b F. destruct (quad_edges _ _ _ _ _ _ F) as [K|[K|[K|K]]]; injection K as -> ->; clear F; apply G; try (split; lra); try (apply DD; apply Rabs_le; lra); unfold side; cbn [fst snd]; nra.
Qed.

(** ** The field of the shipped configurations *)
Lemma C118_shipped_proof : forall c fov sim, In c [circular_approximation; full_footprint; known_object_prediction; demo] -> In ("FOV"%string, fov) c -> In ("SIMULATION"%string, sim) c ->
  In ("camera_model"%string, "footprint"%string) fov -> In ("ar_ang_fov"%string, "2.06"%string) sim.
Proof.
  intros c fov sim I F S _. cbn [In] in I. destruct I as [<-|[<-|[<-|[<-|[]]]]]; cbn [In] in S; repeat (destruct S as [S|S]; [first [discriminate S|injection S as <-; left; reflexivity]|]); contradiction.
Qed.
