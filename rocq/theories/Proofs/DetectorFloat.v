(** Proofs about detectors in binary64 arithmetic (C117). *)
From Coq Require Import List Arith Reals ZArith Bool Lra Lia Psatz Permutation.
From Flocq Require Import Core.
From Verif Require Import Base.Prelude Model.LinkingFloat Model.Rounding Model.FadingFloat Model.UncertaintyFloat Model.SeparationFloat Model.Footprint Model.FootprintFloat
  Spec.Rounding Spec.Sphere Spec.Footprint Spec.SeparationFloat Spec.FootprintFloat
  Proofs.LinkingFloat Proofs.Rounding Proofs.FadingFloat Proofs.AngleFloat Proofs.UncertaintyFloat Proofs.UncertaintyClose Proofs.MagnitudeFloat Proofs.Footprint Proofs.FootprintSort Proofs.SeparationFloat Proofs.FootprintFloat.
Import ListNotations.
Open Scope R_scope.
Local Notation eta := Proofs.Rounding.eta.
Local Notation u := Proofs.UncertaintyClose.u.
Ltac side := first [assumption|lra|rewrite Rabs_R1; lra|rewrite Rabs_Ropp; assumption|idtac].

Lemma near_same : forall n a b v w e f m Q g, 0 < n -> near n a v e -> near n b w f -> 0 <= e <= 10 ^ 6 -> 0 <= f <= 10 ^ 6 -> / 1000 <= m -> m <= w -> Rabs (v / w) <= Q -> Q <= 1000 ->
  (e + Q * f) * (101 / 100) / m + Q / 8 + / 50 <= g -> g <= 10 ^ 9 -> near 1 (quotient a b) (v / w) g.
Proof.
  intros n a b v w e f m Q g N A B E F M W Q1 Q2 G G'. assert (NN : n / n = 1) by (field; lra). rewrite <- NN. apply (near_quot n n a b v w e f m Q g); try assumption; rewrite NN; [exact one_ok|lra].
Qed.
(** ** Corners *)
Definition pt_near (q : pt_f) (v : R * R) (e : R) : Prop := near 1 (fst q) (fst v) e /\ near 1 (snd q) (snd v) e.
Lemma cos_flat : forall x, Rabs x <= / 10 -> 995 / 1000 <= cos x <= 1.
Proof.
  intros x X. split; [|apply COS_bound]. replace x with (2 * (x / 2)) by field. rewrite cos_2a_sin. assert (S := sin_close (x / 2) 0). rewrite sin_0, !Rminus_0_r in S.
  unfold Rdiv in S. rewrite Rabs_mult, (Rabs_right (/ 2)) in S by lra. fold (x / 2) in S. assert (S' : Rabs (sin (x / 2)) <= / 20) by lra. apply Rabs_le_inv in S'. nra.
Qed.
Lemma sin_flat : forall x, Rabs x <= / 10 -> Rabs (sin x) <= / 10.
Proof. intros x X. assert (S := sin_close x 0). rewrite sin_0, !Rminus_0_r in S. lra. Qed.
Lemma corner_near : forall S C c, accurate_sin S -> accurate_cos C -> binary64 (fst c) -> binary64 (snd c) -> Rabs (fst c) <= / 10 -> Rabs (snd c) <= / 10 ->
  pt_near (project_f S C (Real (fst c), Real (snd c))) (corner_position c) 2 /\ Rabs (fst (corner_position c)) <= 12 / 100 /\ Rabs (snd (corner_position c)) <= 12 / 100.
Proof.
  intros S C [a d] HS HC BA BD LA LD. cbn [fst snd] in *. unfold corner_position, project_f, pt_near. cbn [fst snd].
  assert (U := u_pos). assert (OK1 := one_ok).
  assert (NA : forall x, binary64 x -> Rabs x <= / 10 -> angle_near x x 0). { intros x B L. split; [exact B|]. split; [lra|]. unfold Rminus. rewrite Rplus_opp_r, Rabs_R0. lra. }
  assert (CA := cosine_near C HC _ _ _ (NA a BA LA)). assert (SA := sine_near S HS _ _ _ (NA a BA LA)). assert (CD := cosine_near C HC _ _ _ (NA d BD LD)). assert (SD := sine_near S HS _ _ _ (NA d BD LD)).
  assert (FA := cos_flat a LA). assert (FD := cos_flat d LD). assert (GA := sin_flat a LA). assert (GD := sin_flat d LD).
  assert (AC : Rabs (cos a) <= 1) by (apply Rabs_le; lra). assert (AD : Rabs (cos d) <= 1) by (apply Rabs_le; lra).
  assert (NZ : near 1 (multiply (C (Real a)) (C (Real d))) (cos a * cos d) 2.3) by (apply (near_mult1 1 _ _ (cos a) (cos d) _ _ 1 1) with (2 := CA) (3 := CD); side).
  assert (NX : near 1 (multiply (S (Real a)) (C (Real d))) (sin a * cos d) 1.2) by (apply (near_mult1 1 _ _ (sin a) (cos d) _ _ (/ 10) 1) with (2 := SA) (3 := CD); side).
  assert (Z : 99 / 100 <= cos a * cos d) by nra. assert (Z1 : cos a * cos d <= 1) by nra.
  set (z := cos a * cos d) in *. assert (I : 0 < / z <= 102 / 100). { split; [apply Rinv_0_lt_compat; lra|]. apply Rle_trans with (/ (99 / 100)); [apply Rinv_le_contravar; lra|lra]. }
  assert (QB : forall v, Rabs v <= / 10 -> Rabs (v / z) <= 12 / 100). { intros v V. unfold Rdiv. rewrite Rabs_mult, (Rabs_right (/ z)) by lra. assert (P := Rabs_pos v). nra. }
  assert (VX : Rabs (sin a * cos d) <= / 10). { rewrite Rabs_mult. assert (P := Rabs_pos (sin a)). assert (P' := Rabs_pos (cos d)). nra. }
  assert (QX := QB _ VX). assert (QY := QB _ GD).
  assert (G : gnomonic 0 0 a d = (sin a * cos d / z, sin d / z)).
  { unfold gnomonic. rewrite Rminus_0_r, sin_0, cos_0. replace (0 * sin d + 1 * cos d * cos a) with z by (unfold z; ring). f_equal; unfold Rdiv; ring. }
  rewrite G. cbn [fst snd]. split; [|split; assumption]. split.
  - apply (near_same 1 _ _ _ _ _ _ (99 / 100) (12 / 100) 2) with (2 := NX) (3 := NZ); side.
  - apply (near_same 1 _ _ _ _ _ _ (99 / 100) (12 / 100) 2) with (2 := SD) (3 := NZ); side.
Qed.

(** ** Sums *)
Lemma Forall2_length : forall A B (P : A -> B -> Prop) l m, Forall2 P l m -> length l = length m.
Proof. intros A B P l m F. induction F; cbn; congruence. Qed.
Definition b64 (c : cell) : Prop := match c with Real x => binary64 x | _ => True end.
Lemma b64_finish : forall x, b64 (finish x).
Proof. intro x. unfold finish. destruct (Rlt_dec _ _) as [L|_]; [|exact I]. apply fl_binary64. exact L. Qed.
Lemma b64_0 : binary64 0.
Proof. split; [apply generic_format_0|rewrite Rabs_R0; apply bpow_gt_0]. Qed.
Lemma b64_quotient : forall a b, b64 (quotient a b).
Proof. intros a b. destruct a as [w|x|s|], b as [w'|y|t|]; cbn; try exact I; try apply b64_0. destruct (Req_EM_T y 0); [destruct (Req_EM_T x 0); exact I|apply b64_finish]. Qed.
Lemma b64_plus : forall a b, b64 (plus a b).
Proof. intros a b. destruct a as [w|x|s|], b as [w'|y|t|]; cbn; try exact I; try apply b64_finish. destruct (Bool.eqb s t); exact I. Qed.
Lemma b64_minus : forall a b, b64 (minus a b).
Proof. intros a b. destruct b; cbn [minus]; try exact I; apply b64_plus. Qed.
Lemma b64_absolute : forall a, b64 a -> b64 (absolute a).
Proof. intros a H. destruct a; cbn; try exact I. destruct H as [F L]. split; [apply generic_format_abs; exact F|rewrite Rabs_Rabsolu; exact L]. Qed.
Lemma sum_near : forall S, accurate_sum S -> forall cs vs e B, Forall b64 cs -> Forall2 (fun c v => near 1 c v e /\ Rabs v <= B) cs vs -> (length vs <= 64)%nat -> 0 <= e <= 10 ^ 6 -> 0 <= B <= 5 ->
  exists y, S cs = Real y /\ Rabs (y - fold_right Rplus 0 vs) <= INR (length vs) * ((e + 8 * B + / 10) * u).
Proof.
  intros S HS cs vs e B FB F L E HB. assert (U := u_pos). assert (EU : e * u <= / 10 ^ 5) by (apply Rle_trans with (10 ^ 6 * u); [apply Rmult_le_compat_r; lra|unfold u; lra]).
  assert (X : exists xs, cs = map Real xs /\ length xs = length vs /\ (forall x, In x xs -> binary64 x /\ Rabs x <= 10) /\ Rabs (fold_right Rplus 0 xs - fold_right Rplus 0 vs) <= INR (length vs) * (e * u)
    /\ fold_right Rplus 0 (map Rabs xs) <= INR (length vs) * (B + / 100)).
  { clear L. induction F as [|c v cs vs (N & V) F IH]; [exists []; cbn; split; [reflexivity|]; split; [reflexivity|]; split; [tauto|]; rewrite Rminus_0_r, Rabs_R0; lra|].
    inversion FB as [|? ? FB1 FB2]; subst. destruct (IH FB2) as (xs & -> & LX & BX & SX & AX). destruct N as (y & -> & H). rewrite Rmult_1_l in *. cbn [b64] in FB1. exists (y :: xs). split; [reflexivity|]. cbn [length map fold_right]. rewrite S_INR. split; [lia|].
    assert (YB : Rabs y <= B + / 100). { replace y with ((y - v) + v) by ring. apply Rle_trans with (1 := Rabs_triang _ _). lra. }
    split; [intros x [<-|I]; [split; [exact FB1|lra]|auto]|]. split.
    - replace (y + fold_right Rplus 0 xs - (v + fold_right Rplus 0 vs)) with ((y - v) + (fold_right Rplus 0 xs - fold_right Rplus 0 vs)) by ring. apply Rle_trans with (1 := Rabs_triang _ _). lra.
    - lra. }
  destruct X as (xs & -> & LX & BX & SX & AX). destruct (HS xs ltac:(lia) BX) as (y & EY & HY). exists y. split; [exact EY|].
  replace (y - fold_right Rplus 0 vs) with ((y - fold_right Rplus 0 xs) + (fold_right Rplus 0 xs - fold_right Rplus 0 vs)) by ring. apply Rle_trans with (1 := Rabs_triang _ _).
  assert (N0 : 0 <= INR (length vs)) by apply pos_INR. assert (U8 : / 2 ^ 47 = 8 * u) by (unfold u; lra). rewrite U8 in HY.
  assert (8 * u * fold_right Rplus 0 (map Rabs xs) <= 8 * u * (INR (length vs) * (B + / 100))) by (apply Rmult_le_compat_l; lra).
  assert (0 <= INR (length vs) * u) by (apply Rmult_le_pos; lra). nra.
Qed.
Lemma near_sum : forall S, accurate_sum S -> forall cs vs e B, Forall b64 cs -> Forall2 (fun c v => near 1 c v e /\ Rabs v <= B) cs vs -> (length vs <= 64)%nat -> 0 <= e <= 10 ^ 6 -> 0 <= B <= 5 ->
  near 1 (S cs) (fold_right Rplus 0 vs) (64 * (e + 8 * B + / 10)).
Proof.
  intros S HS cs vs e B FB F L E HB. destruct (sum_near S HS cs vs e B FB F L E HB) as (y & -> & H). exists y. split; [f_equal; ring|]. apply Rle_trans with (1 := H).
  assert (N : INR (length vs) <= 64). { replace 64 with (INR 64) by (cbn; ring). apply le_INR. exact L. }
  rewrite Rmult_assoc. apply Rmult_le_compat_r; [|exact N]. apply Rmult_le_pos; [lra|left; exact u_pos].
Qed.
Lemma mean_near : forall S, accurate_sum S -> forall cs vs, Forall b64 cs -> Forall2 (fun c v => near 1 c v 2 /\ Rabs v <= 12 / 100) cs vs -> (length vs <= 64)%nat -> vs <> [] ->
  near 1 (mean_f S cs) (fold_right Rplus 0 vs / INR (length vs)) 3.3 /\ Rabs (fold_right Rplus 0 vs / INR (length vs)) <= 12 / 100.
Proof.
  intros S HS cs vs FB F L NE. assert (U := u_pos). destruct (sum_near S HS cs vs 2 (12 / 100) FB F L ltac:(lra) ltac:(lra)) as (y & E & H). unfold mean_f. rewrite E, (Forall2_length _ _ _ _ _ F).
  assert (N1 : 1 <= INR (length vs)). { replace 1 with (INR 1) by reflexivity. apply le_INR. destruct vs; [contradiction|cbn; lia]. }
  assert (N2 : INR (length vs) <= 64). { replace 64 with (INR 64) by (cbn; ring). apply le_INR. exact L. }
  set (n := INR (length vs)) in *. set (m := fold_right Rplus 0 vs) in *.
  assert (MB : Rabs m <= n * (12 / 100)).
  { unfold m, n. clear - F. induction F as [|c v cs vs (_ & V) F IH]; [cbn; rewrite Rabs_R0; lra|]. cbn [fold_right length]. rewrite S_INR. apply Rle_trans with (1 := Rabs_triang _ _). lra. }
  assert (MB' : Rabs (m / n) <= 12 / 100). { unfold Rdiv. rewrite Rabs_mult, (Rabs_right (/ n)) by (apply Rle_ge, Rlt_le, Rinv_0_lt_compat; lra). apply (Rmult_le_reg_r n); [lra|]. rewrite Rmult_assoc, Rinv_l by lra. lra. }
  split; [|exact MB'].
  assert (A : near n (Real y) (m / n) 3.1). { exists (y / n). split; [f_equal; field; lra|]. replace (y / n - m / n) with ((y - m) * / n) by (field; lra). rewrite Rabs_mult, (Rabs_right (/ n)) by (apply Rle_ge, Rlt_le, Rinv_0_lt_compat; lra).
    apply (Rmult_le_reg_r n); [lra|]. rewrite Rmult_assoc, Rinv_l by lra. assert (0 <= n * u) by (apply Rmult_le_pos; lra). lra. }
  assert (B : near n (Real n) 1 0). { exists 1. split; [f_equal; ring|]. unfold Rminus. rewrite Rplus_opp_r, Rabs_R0. lra. }
  replace (m / n) with (m / n / 1) by (field; lra). apply (near_same n _ _ _ _ _ _ 1 (12 / 100)) with (2 := A) (3 := B); side. replace (m / n / 1) with (m / n) by (field; lra). side.
Qed.

(** ** Squared distances and areas *)
Lemma dist_near : forall q c vq vc e f V, pt_near q vq e -> pt_near c vc f -> 0 <= e <= 10 -> 0 <= f <= 10 -> Rabs (fst vq - fst vc) <= V -> Rabs (snd vq - snd vc) <= V -> V <= 11 ->
  near 1 (dist2_f q c) (dist2 vq vc) (4 * (e + f + V / 8 + / 50) * V + V * V / 2 + / 5).
Proof.
  intros q c vq vc e f V (Q1 & Q2) (C1 & C2) E F V1 V2 V10. assert (OK1 := one_ok). assert (V0 := Rabs_pos (fst vq - fst vc)). assert (VV : 0 <= V * V <= 121) by nra. unfold dist2_f, dist2, squared. set (h := e + f + V / 8 + / 50).
  assert (D : forall a b v w, near 1 a v e -> near 1 b w f -> Rabs (v - w) <= V -> near 1 (multiply (minus a b) (minus a b)) ((v - w) * (v - w)) (2 * h * V + V * V / 8 + / 20)).
  { intros a b v w A B L. assert (M : near 1 (minus a b) (v - w) h) by (apply (near_minus 1 _ _ _ _ _ _ V) with (2 := A) (3 := B); unfold h; side).
    assert (HV : 0 <= h * V <= 300) by (unfold h; nra).
    apply (near_mult1 1 _ _ _ _ _ _ V V) with (2 := M) (3 := M); side; try (unfold h; lra). }
  assert (D1 := D _ _ _ _ Q1 C1 V1). assert (D2 := D _ _ _ _ Q2 C2 V2). assert (HV : 0 <= h * V <= 300) by (unfold h; nra).
  assert (SQ : forall x, Rabs x <= V -> 0 <= x * x <= V * V). { intros x X. apply Rabs_le_inv in X. nra. }
  assert (S1 := SQ _ V1). assert (S2 := SQ _ V2).
  apply (near_plus 1 _ _ _ _ _ _ (2 * (V * V))) with (2 := D1) (3 := D2); side. rewrite Rabs_right; lra.
Qed.
Lemma max_near : forall (f : R * R -> R) cs l a v e, near 1 a (f v) e -> Forall2 (fun c w => near 1 c (f w) e) cs l -> near 1 (np_max a cs) (max_f f v l) e.
Proof.
  intros f cs l a v e N F. revert a v N. induction F as [|c w cs l NC F IH]; intros a v N; cbn [np_max max_f]; [exact N|].
  destruct (IH _ _ NC) as (y & -> & HY). destruct N as (x & -> & HX). cbn [larger]. exists (Rmax x y). split; [f_equal; rewrite !Rmult_1_l; reflexivity|].
  apply Rabs_le_inv in HX, HY. apply Rabs_le. set (m := max_f f w l) in *. unfold Rmax. destruct (Rle_dec x y), (Rle_dec (f v) m); lra.
Qed.
Lemma rolled_near : forall A B (P : A -> B -> Prop) l m d d', Forall2 P l m -> Forall2 P (rolled d l) (rolled d' m).
Proof.
  intros A B P l m d d' F. destruct F as [|a b l m H F]; [constructor|]. assert (F' : Forall2 P (a :: l) (b :: m)) by (constructor; auto).
  destruct (exists_last (l := a :: l)) as (i & z & E); [discriminate|]. destruct (exists_last (l := b :: m)) as (i' & z' & E'); [discriminate|].
  unfold rolled. rewrite E, E' in *. rewrite !last_last, !removelast_last. assert (L := Forall2_length _ _ _ _ _ F'). rewrite !app_length in L. cbn in L.
  destruct (Forall2_app_inv_l _ _ F') as (x & y & F1 & F2 & EQ). assert (LX := Forall2_length _ _ _ _ _ F1).
  inversion F2 as [|? ? ? ? HZ F3]; subst. inversion F3; subst. apply app_inj_tail in EQ. destruct EQ as [-> ->]. constructor; assumption.
Qed.
Lemma combine_near : forall A B C D (P : A -> B -> Prop) (Q : C -> D -> Prop) l m l' m', Forall2 P l m -> Forall2 Q l' m' ->
  Forall2 (fun x y => P (fst x) (fst y) /\ Q (snd x) (snd y)) (combine l l') (combine m m').
Proof. intros A B C D P Q l m l' m' F. revert l' m'. induction F; intros k k' F'; cbn [combine]; [constructor|]. destruct F'; constructor; cbn; auto. Qed.
Lemma map_near : forall A B C D (P : A -> B -> Prop) (Q : C -> D -> Prop) f g l m, Forall2 P l m -> (forall x y, P x y -> Q (f x) (g y)) -> Forall2 Q (map f l) (map g m).
Proof. intros A B C D P Q f g l m F H. induction F; cbn; constructor; auto. Qed.
Lemma area_near : forall S, accurate_sum S -> forall c vc f cs vs, pt_near c vc f -> 0 <= f <= 4 -> Forall2 (fun q v => pt_near q v 2) cs vs -> (length vs <= 64)%nat ->
  (forall v, In v vs -> Rabs (fst v - fst vc) <= 6 / 10 /\ Rabs (snd v - snd vc) <= 6 / 10) ->
  near 1 (area_about_f S c cs) (area_about vc vs) 700 /\ 0 <= area_about vc vs <= 30.
Proof.
  intros S HS c vc f cs vs (C1 & C2) F0 F L V. assert (OK1 := one_ok).
  set (P := fun (q : pt_f) (v : R * R) => pt_near q v 6.1 /\ Rabs (fst v) <= 6 / 10 /\ Rabs (snd v) <= 6 / 10).
  assert (F1 : Forall2 P (map (fun v => (minus (fst v) (fst c), minus (snd v) (snd c))) cs) (map (fun v => (fst v - fst vc, snd v - snd vc)) vs)).
  { clear L. induction F as [|q v cs vs (N1 & N2) F IH]; cbn [map]; constructor.
    - destruct (V v ltac:(left; reflexivity)) as (V1 & V2). split; [|split; assumption]. split; cbn [fst snd].
      + apply (near_minus 1 _ _ _ _ _ _ (6 / 10)) with (2 := N1) (3 := C1); side.
      + apply (near_minus 1 _ _ _ _ _ _ (6 / 10)) with (2 := N2) (3 := C2); side.
    - apply IH. intros w I. apply V. right. exact I. }
  unfold area_about_f, area_about. set (xy := map (fun v => (minus (fst v) (fst c), minus (snd v) (snd c))) cs) in *. set (xy' := map (fun v => (fst v - fst vc, snd v - snd vc)) vs) in *.
  assert (F2 := combine_near _ _ _ _ _ _ _ _ _ _ F1 (rolled_near _ _ _ _ _ (Nan, Nan) (0, 0) F1)).
  assert (F3 : Forall2 (fun c v => near 1 c v 15 /\ Rabs v <= 72 / 100)
    (map (fun e => absolute (minus (multiply (fst (fst e)) (snd (snd e))) (multiply (snd (fst e)) (fst (snd e))))) (combine xy (rolled (Nan, Nan) xy)))
    (map (fun e => Rabs (fst (fst e) * snd (snd e) - snd (fst e) * fst (snd e))) (combine xy' (rolled (0, 0) xy')))).
  { apply (map_near _ _ _ _ _ _ _ _ _ _ F2). intros [[a1 a2] [b1 b2]] [[v1 v2] [w1 w2]] (((A1 & A2) & VA1 & VA2) & ((B1 & B2) & VB1 & VB2)). cbn [fst snd] in *.
    assert (M : forall x y v w, near 1 x v 6.1 -> near 1 y w 6.1 -> Rabs v <= 6 / 10 -> Rabs w <= 6 / 10 -> near 1 (multiply x y) (v * w) 7.42 /\ Rabs (v * w) <= 36 / 100).
    { intros x y v w N N' L1 L2. split; [apply (near_mult1 1 _ _ _ _ _ _ (6 / 10) (6 / 10)) with (2 := N) (3 := N'); side|]. rewrite Rabs_mult. apply Rle_trans with (6 / 10 * (6 / 10)); [apply Rmult_le_compat; try apply Rabs_pos; assumption|lra]. }
    destruct (M _ _ _ _ A1 B2 VA1 VB2) as (P1 & P2). destruct (M _ _ _ _ A2 B1 VA2 VB1) as (P3 & P4).
    assert (LD : Rabs (v1 * w2 - v2 * w1) <= 72 / 100) by (apply Rabs_le_inv in P2, P4; apply Rabs_le; lra).
    assert (Q' : near 1 (minus (multiply a1 b2) (multiply a2 b1)) (v1 * w2 - v2 * w1) 15) by (apply (near_minus 1 _ _ _ _ _ _ (72 / 100)) with (2 := P1) (3 := P3); side).
    split; [|rewrite Rabs_Rabsolu; exact LD]. destruct Q' as (y & -> & H). cbn [absolute]. exists (Rabs y). split; [f_equal; rewrite !Rmult_1_l; reflexivity|].
    apply Rle_trans with (2 := H). apply Rabs_triang_inv2. }
  set (l := combine xy' (rolled (0, 0) xy')) in *.
  assert (LL : (length l <= 64)%nat). { unfold l. rewrite combine_length. unfold xy'. rewrite map_length. lia. }
  set (g := fun e : R * R * (R * R) => Rabs (fst (fst e) * snd (snd e) - snd (fst e) * fst (snd e))) in *.
  assert (FB : Forall b64 (map (fun e => absolute (minus (multiply (fst (fst e)) (snd (snd e))) (multiply (snd (fst e)) (fst (snd e))))) (combine xy (rolled (Nan, Nan) xy)))).
  { apply Forall_forall. intros c' I. apply in_map_iff in I. destruct I as (e & <- & _). apply b64_absolute, b64_minus. }
  assert (N := near_sum S HS _ _ 15 (72 / 100) FB F3 ltac:(rewrite map_length; exact LL) ltac:(lra) ltac:(lra)).
  assert (SF : fold_right Rplus 0 (map g l) = sum_f g l). { clear. induction l as [|e l IH]; cbn; [reflexivity|]. rewrite IH. reflexivity. }
  assert (B : 0 <= sum_f g l <= 47).
  { rewrite <- SF. assert (B1 : 0 <= fold_right Rplus 0 (map g l) <= INR (length l) * (72 / 100)).
    { set (gl := map g l) in F3. assert (K : forall a, In a l -> 0 <= g a <= 72 / 100).
      { intros a I. split; [apply Rabs_pos|]. assert (I' : In (g a) gl) by (apply in_map; exact I). clear I. clearbody gl. clear - F3 I'. induction F3 as [|? v ? ms (_ & W) F3 IH]; [destruct I'|]. destruct I' as [<-|I']; [apply Rabs_le_inv in W; lra|auto]. }
      clear - K. induction l as [|e l IH]; [cbn; lra|]. cbn [map fold_right length]. rewrite S_INR. assert (K0 := K e ltac:(left; reflexivity)). assert (IH' := IH ltac:(intros a I; apply K; right; exact I)). lra. }
    assert (INR (length l) <= 64). { replace 64 with (INR 64) by (cbn; ring). apply le_INR. exact LL. } lra. }
  rewrite SF in N. split; [|lra].
  apply (near_mult1 1 _ _ _ _ 0 _ (1 / 2) 47) with (3 := N); side; [apply near_self|rewrite Rabs_right; lra|rewrite Rabs_right; lra].
Qed.

(** ** Distances from edges *)
Lemma hyp_above : forall x y X Y e f, Rabs (X - x) <= e -> Rabs (Y - y) <= f -> sqrt (X * X + Y * Y) <= sqrt (x * x + y * y) + (e + f).
Proof.
  intros x y X Y e f HX HY. assert (E := Rabs_pos (X - x)). assert (F := Rabs_pos (Y - y)). set (n := sqrt (x * x + y * y)). assert (N : 0 <= n) by apply sqrt_pos.
  assert (NN : n * n = x * x + y * y) by (apply sqrt_sqrt; nra).
  assert (SQ : forall a, Rabs a * Rabs a = a * a) by (intro a; rewrite <- Rabs_mult; apply Rabs_right; nra).
  assert (XN : Rabs x <= n). { rewrite <- (Rabs_right n) by lra. apply Rsqr_le_abs_0. unfold Rsqr. nra. }
  assert (YN : Rabs y <= n). { rewrite <- (Rabs_right n) by lra. apply Rsqr_le_abs_0. unfold Rsqr. nra. }
  assert (AX : Rabs X <= Rabs x + e). { replace X with (x + (X - x)) by ring. apply Rle_trans with (1 := Rabs_triang _ _). lra. }
  assert (AY : Rabs Y <= Rabs y + f). { replace Y with (y + (Y - y)) by ring. apply Rle_trans with (1 := Rabs_triang _ _). lra. }
  rewrite <- (sqrt_square (n + (e + f))) by lra. apply sqrt_le_1_alt. rewrite <- (SQ X), <- (SQ Y). assert (SX := SQ x). assert (SY := SQ y).
  assert (PX := Rabs_pos x). assert (PY := Rabs_pos y). assert (PX' := Rabs_pos X). assert (PY' := Rabs_pos Y).
  assert (Rabs X * Rabs X <= (Rabs x + e) * (Rabs x + e)) by (apply Rmult_le_compat; lra). assert (Rabs Y * Rabs Y <= (Rabs y + f) * (Rabs y + f)) by (apply Rmult_le_compat; lra).
  assert (Rabs x * e <= n * e) by (apply Rmult_le_compat_r; lra). assert (Rabs y * f <= n * f) by (apply Rmult_le_compat_r; lra). assert (0 <= e * f) by (apply Rmult_le_pos; lra). nra.
Qed.
Lemma hyp_close : forall x y X Y e f, Rabs (X - x) <= e -> Rabs (Y - y) <= f -> Rabs (sqrt (X * X + Y * Y) - sqrt (x * x + y * y)) <= e + f.
Proof.
  intros x y X Y e f HX HY. assert (A := hyp_above x y X Y e f HX HY). rewrite Rabs_minus_sym in HX, HY. assert (B := hyp_above X Y x y e f HX HY). apply Rabs_le. lra.
Qed.
Lemma root_near : forall a b x y, near 1 a x 31000 -> near 1 b y 31000 -> x * x + y * y <= 9 / 10 ->
  exists d, root (plus (multiply a a) (multiply b b)) = Real d /\ 0 <= d /\ Rabs (d - sqrt (x * x + y * y)) <= 62010 * u.
Proof.
  intros a b x y (X & -> & HX) (Y & -> & HY) L. rewrite !Rmult_1_l. assert (U := u_pos). assert (ET := eta_u). assert (UU : u * u <= u / 10 ^ 15) by (unfold u; lra).
  assert (H := hyp_close _ _ _ _ _ _ HX HY). assert (SU : 62000 * u <= / 10 ^ 9) by (unfold u; lra).
  assert (R1 : sqrt (x * x + y * y) <= 95 / 100). { rewrite <- (sqrt_square (95 / 100)) by lra. apply sqrt_le_1_alt. lra. }
  assert (R2 : sqrt (X * X + Y * Y) <= 96 / 100) by (apply Rabs_le_inv in H; lra). assert (R0 := sqrt_pos (X * X + Y * Y)).
  assert (B : X * X + Y * Y <= 1). { rewrite <- (sqrt_sqrt (X * X + Y * Y)) by nra. nra. }
  assert (XB : Rabs X <= 1) by (apply Rabs_le; nra). assert (YB : Rabs Y <= 1) by (apply Rabs_le; nra).
  assert (SELF : forall z, Rabs z <= 1 -> rel 0 0 (Rabs z) (Rabs z)). { intros z Z. apply rel_abs; try lra. unfold Rminus. rewrite Rplus_opp_r, Rabs_R0. lra. }
  destruct (squared_rel 0 0 X X (SELF X XB) ltac:(lra) ltac:(lra)) as (EX & QX). destruct (squared_rel 0 0 Y Y (SELF Y YB) ltac:(lra) ltac:(lra)) as (EY & QY). unfold squared in EX, EY. rewrite EX, EY.
  assert (QS := rel_add _ _ _ _ _ _ _ _ QX QY B ltac:(lra) ltac:(lra)). destruct (rel_fl _ _ _ _ QS ltac:(lra) ltac:(lra)) as (ES & _ & QF).
  cbn [plus]. rewrite ES. assert (Z0 : 0 <= fl (fl (X * X) + fl (Y * Y))) by apply QF. set (z := fl (fl (X * X) + fl (Y * Y))) in *. cbn [root]. unfold rltb. destruct (Rlt_dec z 0) as [N|_]; [lra|].
  assert (RR := root_rel _ _ _ _ QF). assert (RP := sqrt_pos z). assert (SB : sqrt z <= 2). { apply Rabs_le_inv in RR. assert (u <= / 100) by (unfold u; lra). lra. }
  destruct (fl_real (sqrt z)) as (E & _ & _); [rewrite Rabs_right; lra|]. rewrite E. eexists. split; [reflexivity|]. split; [apply fl_ge_float; [apply format_0|exact RP]|].
  assert (F := fl_u (sqrt z)). rewrite (Rabs_right (sqrt z)) in F by lra.
  replace (fl (sqrt z) - sqrt (x * x + y * y)) with ((fl (sqrt z) - sqrt z) + (sqrt z - sqrt (X * X + Y * Y)) + (sqrt (X * X + Y * Y) - sqrt (x * x + y * y))) by ring.
  apply Rle_trans with (1 := Rabs_triang _ _). assert (T := Rabs_triang (fl (sqrt z) - sqrt z) (sqrt z - sqrt (X * X + Y * Y))). assert (u / 8 * sqrt z <= u / 8 * 2) by (apply Rmult_le_compat_l; lra). lra.
Qed.
Lemma near_scaled : forall L c v e f, 0 < L -> near 1 c (L * v) e -> e <= L * f -> near L c v f.
Proof.
  intros L c v e f L0 (y & -> & H) F. assert (U := u_pos). exists (y / L). split; [f_equal; field; lra|]. apply (Rmult_le_reg_l L); [exact L0|]. rewrite <- (Rabs_right L) at 1 by lra. rewrite <- Rabs_mult.
  replace (L * (y / L - v)) with (y - L * v) by (field; lra). apply Rle_trans with (1 := H). replace (L * (f * u)) with (L * f * u) by ring. apply Rmult_le_compat_r; lra.
Qed.
Lemma clamp_near : forall L t v e, / 1000 <= L <= 4 / 10 -> near (1 / L) t v e ->
  near (1 / L) (let t := if exceeds (Real 0) t then Real 0 else t in if exceeds t (Real 1) then Real 1 else t)
    (L * (let t := if Rlt_dec (v / L) 0 then 0 else v / L in if Rlt_dec 1 t then 1 else t)) e.
Proof.
  intros L t v e HL (y & -> & H). assert (I : 0 < / L) by (apply Rinv_0_lt_compat; lra). unfold exceeds. cbn [at_least].
  assert (A : forall w, (w / L < 0 /\ w < 0) \/ (0 <= w / L <= 1 /\ 0 <= w <= L) \/ (1 < w / L /\ L < w)).
  { intro w. assert (E : w = w / L * L) by (field; lra). set (q := w / L) in *. destruct (Rlt_le_dec q 0); [left; split; [assumption|nra]|]. right. destruct (Rle_lt_dec q 1); [left; split; [lra|nra]|right; split; [assumption|nra]]. }
  replace (1 / L * y) with (y / L) by (field; lra).
  assert (EY := A y). assert (EV := A v). apply Rabs_le_inv in H. cbn zeta.
  assert (K : forall z, Real z = Real (1 / L * (L * z))) by (intro z; f_equal; field; lra).
  assert (DONE : forall z w, Rabs (L * z - L * w) <= e * u -> near (1 / L) (Real z) (L * w) e) by (intros z w G; exists (L * z); split; [apply K|exact G]).
  assert (LY : L * (y / L) = y) by (field; lra). assert (LV : L * (v / L) = v) by (field; lra).
  destruct EY as [EY|[EY|EY]], EV as [EV|[EV|EV]]; (destruct (Rlt_dec (v / L) 0); try lra);
  repeat (match goal with |- context [Rle_dec ?a ?b] => destruct (Rle_dec a b) | |- context [Rlt_dec ?a ?b] => destruct (Rlt_dec a b) end; cbn [andb negb at_least]; try lra);
  apply DONE; apply Rabs_le; rewrite ?LY, ?LV, ?Rmult_0_r, ?Rmult_1_r; lra.
Qed.
Lemma segment_near : forall px py a b va vb, pt_near a va 2 -> pt_near b vb 2 -> / 1000 <= distance va vb <= 4 / 10 -> Rabs (fst va) <= 12 / 100 -> Rabs (snd va) <= 12 / 100 ->
  distance (px, py) va <= 7 / 10 ->
  exists d, distToSegment_f (Real px, Real py) a b = Real d /\ Rabs (d - distToSegment (px, py) va vb) <= 62010 * u.
Proof.
  intros px py [a1 a2] [b1 b2] [x0 y0] [x1 y1] (NA1 & NA2) (NB1 & NB2) HL VA1 VA2 HP. assert (OK1 := one_ok). assert (U := u_pos). cbn [fst snd] in *.
  assert (SQ : forall a b, 0 <= a * a + b * b) by (intros a b; nra).
  set (L := distance (x0, y0) (x1, y1)) in *.
  assert (LL : L * L = (x1 - x0) * (x1 - x0) + (y1 - y0) * (y1 - y0)). { unfold L, distance. cbn [fst snd]. rewrite sqrt_sqrt by apply SQ. ring. }
  assert (PP : (px - x0) * (px - x0) + (py - y0) * (py - y0) <= 49 / 100).
  { unfold distance in HP. cbn [fst snd] in HP. rewrite <- (sqrt_sqrt ((px - x0) * (px - x0) + (py - y0) * (py - y0))) by apply SQ. assert (P := sqrt_pos ((px - x0) * (px - x0) + (py - y0) * (py - y0))). nra. }
  assert (ABS : forall a c, 0 <= c -> a * a <= c * c -> Rabs a <= c). { intros a c C H. rewrite <- (Rabs_right c) by lra. apply Rsqr_le_abs_0. exact H. }
  assert (ONE : forall a, 0 <= a * a) by (intro a; nra). assert (Q1 := ONE (px - x0)). assert (Q2 := ONE (py - y0)).
  assert (PX : Rabs (px - x0) <= 7 / 10) by (apply ABS; lra). assert (PY : Rabs (py - y0) <= 7 / 10) by (apply ABS; lra).
  set (ex := (x1 - x0) / L). set (ey := (y1 - y0) / L).
  assert (EX : x1 - x0 = L * ex) by (unfold ex; field; lra). assert (EY : y1 - y0 = L * ey) by (unfold ey; field; lra).
  assert (EE : ex * ex + ey * ey = 1). { apply (Rmult_eq_reg_l (L * L)); [|assert (0 < L * L) by (apply Rmult_lt_0_compat; lra); lra]. rewrite Rmult_1_r. rewrite LL at 2. rewrite EX, EY. ring. }
  assert (Q3 := ONE ex). assert (Q4 := ONE ey). assert (BX : Rabs ex <= 1) by (apply ABS; lra). assert (BY : Rabs ey <= 1) by (apply ABS; lra).
  assert (DB : forall e, Rabs e <= 1 -> Rabs (L * e) <= 4 / 10). { intros e E. rewrite Rabs_mult, (Rabs_right L) by lra. assert (P := Rabs_pos e). nra. }
  assert (DX : near L (minus b1 a1) ex 4100). { apply near_scaled with 4.1; [lra| |lra]. rewrite <- EX. apply (near_minus 1 _ _ _ _ _ _ (4 / 10)) with (2 := NB1) (3 := NA1); side. rewrite EX. auto. }
  assert (DY : near L (minus b2 a2) ey 4100). { apply near_scaled with 4.1; [lra| |lra]. rewrite <- EY. apply (near_minus 1 _ _ _ _ _ _ (4 / 10)) with (2 := NB2) (3 := NA2); side. rewrite EY. auto. }
  assert (QX : near 1 (minus (Real px) a1) (px - x0) 2.2) by (apply (near_minus 1 _ _ _ _ _ _ (7 / 10)) with (2 := near_self px) (3 := NA1); side).
  assert (QY : near 1 (minus (Real py) a2) (py - y0) 2.2) by (apply (near_minus 1 _ _ _ _ _ _ (7 / 10)) with (2 := near_self py) (3 := NA2); side).
  assert (OKL : scale_ok L) by (unfold scale_ok; lra). assert (OKLL : scale_ok (L * L)) by (unfold scale_ok; nra).
  unfold distToSegment_f. set (dx := minus b1 a1) in *. set (dy := minus b2 a2) in *. set (qx := minus (Real px) a1) in *. set (qy := minus (Real py) a2) in *.
  set (v := (px - x0) * ex + (py - y0) * ey).
  assert (VB : Rabs v <= 1). { apply ABS; [lra|]. assert (C := cauchy2 (px - x0) (py - y0) ex ey). fold v in C. rewrite EE in C. lra. }
  assert (NUM : near L (plus (multiply qx dx) (multiply qy dy)) v 5746).
  { assert (M1 : near L (multiply qx dx) ((px - x0) * ex) 2872.4) by (apply (near_mult1 L _ _ _ _ _ _ (7 / 10) 1) with (2 := QX) (3 := DX); side).
    assert (M2 : near L (multiply qy dy) ((py - y0) * ey) 2872.4) by (apply (near_mult1 L _ _ _ _ _ _ (7 / 10) 1) with (2 := QY) (3 := DY); side).
    apply (near_plus L _ _ _ _ _ _ 1) with (2 := M1) (3 := M2); side. }
  assert (LEN : near (L * L) (plus (multiply dx dx) (multiply dy dy)) 1 16401).
  { assert (LLB : L * L <= 1) by nra.
    assert (M1 : near (L * L) (multiply dx dx) (ex * ex) 8200.2) by (apply (near_mult L L _ _ _ _ _ _ 1 1) with (2 := DX) (3 := DX); side).
    assert (M2 : near (L * L) (multiply dy dy) (ey * ey) 8200.2) by (apply (near_mult L L _ _ _ _ _ _ 1 1) with (2 := DY) (3 := DY); side).
    rewrite <- EE. apply (near_plus (L * L) _ _ _ _ _ _ 1) with (2 := M1) (3 := M2); side. rewrite EE, Rabs_R1. lra. }
  set (len := plus (multiply dx dx) (multiply dy dy)) in *. set (num := plus (multiply qx dx) (multiply qy dy)) in *.
  assert (NZ : at_least len (Real 0) && at_least (Real 0) len = false).
  { destruct LEN as (y & -> & H). assert (S : 16401 * u <= / 10) by (unfold u; lra). apply Rabs_le_inv in H. assert (0 < L * L * y) by (apply Rmult_lt_0_compat; nra).
    cbn [at_least]. destruct (Rle_dec (L * L * y) 0); [lra|]. apply andb_false_r. }
  rewrite NZ. assert (IL : 0 < / L <= 1000). { split; [apply Rinv_0_lt_compat; lra|]. apply Rle_trans with (/ (/ 1000)); [apply Rinv_le_contravar; lra|lra]. }
  assert (SC : L / (L * L) = 1 / L) by (field; lra).
  assert (TT : near (1 / L) (quotient num len) v 22500).
  { rewrite <- SC. replace v with (v / 1) by field. apply (near_quot L (L * L) _ _ _ _ _ _ 1 1) with (3 := NUM) (4 := LEN); side; rewrite ?SC; try (unfold scale_ok, Rdiv; lra); try (apply Rmult_lt_0_compat; lra).
    - unfold scale_ok. unfold Rdiv. rewrite Rmult_1_l. apply Rle_trans with 1; [lra|]. rewrite <- Rinv_1. apply Rinv_le_contravar; lra.
    - replace (v / 1) with v by field. exact VB. }
  assert (CL := clamp_near L _ _ _ HL TT). cbn zeta in CL. set (t := quotient num len) in *.
  assert (RT : ((px - x0) * (x1 - x0) + (py - y0) * (y1 - y0)) / ((x1 - x0) * (x1 - x0) + (y1 - y0) * (y1 - y0)) = v / L).
  { rewrite <- LL, EX, EY. unfold v. field. lra. }
  assert (TRUE : distToSegment (px, py) (x0, y0) (x1, y1) = (let s := if Rlt_dec (v / L) 0 then 0 else v / L in let s := if Rlt_dec 1 s then 1 else s in
    sqrt ((px - (x0 + (x1 - x0) * s)) * (px - (x0 + (x1 - x0) * s)) + (py - (y0 + (y1 - y0) * s)) * (py - (y0 + (y1 - y0) * s))))).
  { unfold distToSegment. rewrite RT. destruct (Req_EM_T _ 0) as [N|_]; [rewrite <- LL in N; nra|]. reflexivity. }
  assert (CLOSE : distToSegment (px, py) (x0, y0) (x1, y1) <= 7 / 10).
  { destruct (C36_distance_proof (px, py) (x0, y0) (x1, y1)) as (_ & D). apply Rle_trans with (2 := HP). apply D. exists 0. split; [lra|]. cbn [fst snd]. f_equal; ring. }
  rewrite TRUE in *. cbn zeta in *. set (s := if Rlt_dec 1 _ then 1 else _) in *. set (tc := if exceeds _ (Real 1) then Real 1 else _) in *.
  assert (SB : 0 <= s <= 1) by (unfold s; repeat match goal with |- context [Rlt_dec ?a ?b] => destruct (Rlt_dec a b) end; lra).
  assert (LS : Rabs (L * s) <= 4 / 10) by (rewrite Rabs_right; nra).
  assert (PR : forall d e, near L d e 4100 -> Rabs e <= 1 -> near 1 (multiply d tc) (L * e * s) 24200 /\ Rabs (L * e * s) <= 4 / 10).
  { intros d e N E. replace (L * e * s) with (e * (L * s)) by ring. split.
    - replace 1 with (L * (1 / L)) at 1 by (field; lra). apply (near_mult L (1 / L) _ _ _ _ _ _ 1 (4 / 10)) with (2 := N) (3 := CL); side; replace (L * (1 / L)) with 1 by (field; lra); side.
    - rewrite Rabs_mult. apply Rle_trans with (1 * (4 / 10)); [apply Rmult_le_compat; try apply Rabs_pos; assumption|lra]. }
  assert (RES : forall a0 d e w p0, near 1 a0 w 2 -> near L d e 4100 -> Rabs e <= 1 -> Rabs w <= 12 / 100 -> Rabs (p0 - w) <= 7 / 10 ->
    near 1 (minus (Real p0) (plus a0 (multiply d tc))) (p0 - (w + L * e * s)) 31000).
  { intros a0 d e w p0 N D E W P. destruct (PR d e D E) as (M & B). 
    assert (Q : near 1 (plus a0 (multiply d tc)) (w + L * e * s) 24203) by (apply (near_plus 1 _ _ _ _ _ _ 1) with (2 := N) (3 := M); side; apply Rabs_le_inv in B, W; apply Rabs_le; lra).
    apply (near_minus 1 _ _ _ _ _ _ 2) with (2 := near_self p0) (3 := Q); side. apply Rabs_le_inv in B, W, P. apply Rabs_le. lra. }
  assert (RX := RES _ _ _ _ _ NA1 DX BX VA1 PX). assert (RY := RES _ _ _ _ _ NA2 DY BY VA2 PY). rewrite <- EX in RX. rewrite <- EY in RY.
  destruct (root_near _ _ _ _ RX RY) as (d & E & _ & H); [|exists d; split; assumption].
  match goal with |- ?z <= _ => assert (Z : 0 <= z) by apply SQ; rewrite <- (sqrt_sqrt z) by exact Z; assert (ZP := sqrt_pos z) end. nra.
Qed.

(** ** Detectors *)
Definition cells (c : R * R) : pt_f := (Real (fst c), Real (snd c)).
Lemma sum_fold : forall (f : R * R -> R) l, fold_right Rplus 0 (map f l) = sum_f f l.
Proof. intros f l. induction l as [|e l IH]; cbn; [reflexivity|]. rewrite IH. reflexivity. Qed.
Lemma max_f_le : forall A (f : A -> R) l a b, (forall x, In x (a :: l) -> f x <= b) -> max_f f a l <= b.
Proof. intros A f l. induction l as [|c l IH]; intros a b H; cbn [max_f]; [apply H; left; reflexivity|]. apply Rmax_lub; [apply H; left; reflexivity|]. apply IH. intros x I. apply H. right. exact I. Qed.
Definition radius2 (l : list (R * R)) : R := match l with [] => 0 | v :: l' => max_f (fun c => dist2 c (mean_point l)) v l' end.
Lemma radius_above : forall l v, In v l -> dist2 v (mean_point l) <= radius2 l.
Proof. intros [|w l] v I; [destruct I|]. unfold radius2. apply (max_f_spec _ (fun c => dist2 c (mean_point (w :: l)))). exact I. Qed.
Lemma radius_upto : forall l b, 0 <= b -> (forall v, In v l -> dist2 v (mean_point l) <= b) -> radius2 l <= b.
Proof. intros [|w l] b B H; [exact B|]. apply max_f_le. exact H. Qed.
Lemma radius_inside : forall l p, convex l -> inside l p -> dist2 p (mean_point l) <= radius2 l.
Proof. intros [|v l] p CV I; [destruct CV as (_ & a & b & c & _ & [] & _)|]. apply inside_circle; assumption. Qed.
Lemma radius_cells : forall cs l ctr e, l <> [] -> Forall2 (fun q v => near 1 (dist2_f q ctr) (dist2 v (mean_point l)) e) cs l ->
  near 1 (match cs with [] => Nan | v :: l => np_max (dist2_f v ctr) (map (fun c => dist2_f c ctr) l) end) (radius2 l) e.
Proof.
  intros cs l ctr e NE F. unfold radius2. revert F. generalize (mean_point l). intros m F. destruct F as [|q v cs vs Q F]; [contradiction|]. apply (max_near (fun c => dist2 c m)); [exact Q|].
  clear Q NE. induction F as [|q' v' cs' vs' Q F IH]; cbn [map]; constructor; assumption.
Qed.
Lemma dist2_bound : forall a b x, Rabs (fst a - fst b) <= x -> Rabs (snd a - snd b) <= x -> dist2 a b <= 2 * (x * x).
Proof. intros a b x X Y. unfold dist2. apply Rabs_le_inv in X, Y. nra. Qed.
Lemma dist2_triangle : forall a b c, dist2 a b <= 2 * dist2 a c + 2 * dist2 b c.
Proof. intros a b c. unfold dist2. assert (H := fun x y => Rle_0_sqr (x + y)). unfold Rsqr in H. assert (H1 := H (fst a - fst c) (fst b - fst c)). assert (H2 := H (snd a - snd c) (snd b - snd c)). nra. Qed.
Lemma distance_dist2 : forall a b, distance a b = sqrt (dist2 a b). Proof. reflexivity. Qed.
Lemma dist2_pos : forall a b, 0 <= dist2 a b. Proof. intros a b. unfold dist2. assert (H1 := Rle_0_sqr (fst a - fst b)). assert (H2 := Rle_0_sqr (snd a - snd b)). unfold Rsqr in *. lra. Qed.
Lemma distance_sq : forall a b, distance a b * distance a b = dist2 a b. Proof. intros a b. rewrite distance_dist2. apply sqrt_sqrt, dist2_pos. Qed.
(** Twice the area of a triangle is at most a side times a distance. *)
Lemma side_change : forall a b p q, Rabs (side a b p - side a b q) <= distance a b * distance p q.
Proof.
  intros a b p q. assert (P : 0 <= distance a b * distance p q) by (apply Rmult_le_pos; apply sqrt_pos). rewrite <- (Rabs_right (distance a b * distance p q)) by lra. apply Rsqr_le_abs_0. unfold Rsqr.
  replace (distance a b * distance p q * (distance a b * distance p q)) with (distance a b * distance a b * (distance p q * distance p q)) by ring. rewrite !distance_sq. unfold side, dist2.
  assert (H := cauchy2 (fst b - fst a) (snd b - snd a) (snd p - snd q) (fst q - fst p)).
  replace ((fst b - fst a) * (snd p - snd a) - (snd b - snd a) * (fst p - fst a) - ((fst b - fst a) * (snd q - snd a) - (snd b - snd a) * (fst q - fst a)))
    with ((fst b - fst a) * (snd p - snd q) + (snd b - snd a) * (fst q - fst p)) by ring. apply Rle_trans with (1 := H). right. ring.
Qed.
(** What is needed of corners in any order. *)
Definition plain (corners : list (R * R)) : Prop :=
  (length corners <= 64)%nat /\ (forall c, In c corners -> binary64 (fst c) /\ Rabs (fst c) <= / 10 /\ binary64 (snd c) /\ Rabs (snd c) <= / 10) /\ corners <> [].
Lemma sound_plain : forall corners, sound_detector corners -> plain corners.
Proof. intros l (L & B & (_ & a & b & c & _ & I & _) & _). split; [exact L|]. split; [exact B|]. intros ->. destruct I. Qed.
Section Outline.
Variables S C : cell -> cell.
Variable sum : list cell -> cell.
Hypothesis HS : accurate_sin S.
Hypothesis HC : accurate_cos C.
Hypothesis HSUM : accurate_sum sum.
Variable corners : list (R * R).
Hypothesis SOUND : plain corners.
Let outline := map corner_position corners.
Let det := make_detector_f S C sum (map cells corners).

Lemma corners_near0 : Forall2 (fun q v => pt_near q v 2 /\ Rabs (fst v) <= 12 / 100 /\ Rabs (snd v) <= 12 / 100) (fst det) outline.
Proof.
  destruct SOUND as (_ & B & _). unfold det, outline, make_detector_f. cbn [fst]. rewrite map_map. clear SOUND outline det. revert B. induction corners as [|c l IH]; intro B; cbn [map]; constructor.
  - destruct (B c ltac:(left; reflexivity)) as (B1 & L1 & B2 & L2). apply corner_near; assumption.
  - apply IH. intros c' I. apply B. right. exact I.
Qed.
Lemma outline_bounds0 : forall v, In v outline -> Rabs (fst v) <= 12 / 100 /\ Rabs (snd v) <= 12 / 100.
Proof. assert (F := corners_near0). intros v I. induction F as [|q w cs vs (_ & W) F IH]; [destruct I|]. destruct I as [<-|I]; auto. Qed.
Lemma outline_length : (length outline <= 64)%nat.
Proof. unfold outline. rewrite map_length. apply SOUND. Qed.
Lemma outline_some : outline <> [].
Proof. destruct SOUND as (_ & _ & NE). unfold outline. intro E. apply map_eq_nil in E. contradiction. Qed.
Lemma centre_near0 : pt_near (snd det) (mean_point outline) 3.3 /\ Rabs (fst (mean_point outline)) <= 12 / 100 /\ Rabs (snd (mean_point outline)) <= 12 / 100.
Proof.
  assert (F := corners_near0). assert (L := outline_length). assert (NE := outline_some). unfold det, make_detector_f in *. cbn [fst snd] in *. set (cs := map (project_f S C) _) in *.
  assert (M : forall (f : pt_f -> cell) (g : R * R -> R), (forall q, In q cs -> b64 (f q)) -> (forall q v, pt_near q v 2 -> near 1 (f q) (g v) 2) -> (forall v, In v outline -> Rabs (g v) <= 12 / 100) ->
    near 1 (mean_f sum (map f cs)) (sum_f g outline / INR (length outline)) 3.3 /\ Rabs (sum_f g outline / INR (length outline)) <= 12 / 100).
  { intros f g FB H B. rewrite <- sum_fold, <- (map_length g outline). apply mean_near; [exact HSUM|apply Forall_forall; intros c I; apply in_map_iff in I; destruct I as (q & <- & I); apply FB; exact I| |rewrite map_length; exact L|destruct outline; [contradiction|discriminate]].
    clear - F H B. induction F as [|q v cs vs (N & _) F IH]; cbn; constructor; [split; [apply H; exact N|apply B; left; reflexivity]|apply IH; intros w I; apply B; right; exact I]. }
  assert (PB : forall q, In q cs -> b64 (fst q) /\ b64 (snd q)) by (intros q I; apply in_map_iff in I; destruct I as ([x y] & <- & _); split; apply b64_quotient).
  destruct (M fst fst) as (M1 & M2); [intros q I; apply PB; exact I|intros q v (N & _); exact N|intros v I; apply outline_bounds0; exact I|].
  destruct (M snd snd) as (M3 & M4); [intros q I; apply PB; exact I|intros q v (_ & N); exact N|intros v I; apply outline_bounds0; exact I|].
  unfold mean_point, pt_near. cbn [fst snd]. repeat split; assumption.
Qed.
End Outline.
Section Detector.
Variables S C : cell -> cell.
Variables sum rows : list cell -> cell.
Hypothesis HS : accurate_sin S.
Hypothesis HC : accurate_cos C.
Hypothesis HSUM : accurate_sum sum.
Hypothesis HROWS : accurate_sum rows.
Variable corners : list (R * R).
Hypothesis SOUND : sound_detector corners.
Let outline := map corner_position corners.
(** The centre is a parameter, as it is computed from the corners in the order of the file. *)
Variable centre : pt_f.
Hypothesis CENTRE : pt_near centre (mean_point outline) 3.3.
Let det := (fst (make_detector_f S C sum (map cells corners)), centre).
Lemma corners_near : Forall2 (fun q v => pt_near q v 2 /\ Rabs (fst v) <= 12 / 100 /\ Rabs (snd v) <= 12 / 100) (fst det) outline.
Proof. exact (corners_near0 S C sum HS HC corners (sound_plain corners SOUND)). Qed.
Lemma outline_bounds : forall v, In v outline -> Rabs (fst v) <= 12 / 100 /\ Rabs (snd v) <= 12 / 100.
Proof. exact (outline_bounds0 S C sum HS HC corners (sound_plain corners SOUND)). Qed.
Lemma centre_near : pt_near (snd det) (mean_point outline) 3.3 /\ Rabs (fst (mean_point outline)) <= 12 / 100 /\ Rabs (snd (mean_point outline)) <= 12 / 100.
Proof. split; [exact CENTRE|]. apply (centre_near0 S C sum HS HC HSUM corners (sound_plain corners SOUND)). Qed.
Let m := mean_point outline.
Let r2 := radius2 outline.
Lemma corner_centre : forall v, In v outline -> Rabs (fst v - fst m) <= 24 / 100 /\ Rabs (snd v - snd m) <= 24 / 100.
Proof. intros v I. destruct (outline_bounds v I) as (A & B). destruct centre_near as (_ & X & Y). fold m in X, Y. apply Rabs_le_inv in A, B, X, Y. split; apply Rabs_le; lra. Qed.
Lemma radius_below : r2 <= 1152 / 10000.
Proof. apply radius_upto; [lra|]. intros v I. destruct (corner_centre v I) as (X & Y). apply Rle_trans with (1 := dist2_bound _ _ _ X Y). lra. Qed.
Lemma radius_least : / 4000000 <= r2.
Proof.
  destruct SOUND as (_ & _ & (_ & a & b & c & FO & _) & E). fold outline in FO. assert (D := E _ _ FO). destruct (follows_in _ _ _ FO) as (IA & IB).
  assert (A := radius_above _ _ IA). assert (B := radius_above _ _ IB). fold m in A, B. fold r2 in A, B. assert (T := dist2_triangle a b m). rewrite <- distance_sq in T. nra.
Qed.
Lemma within_circle : forall p, inside_by (/ 10 ^ 10) outline p -> dist2 p m <= r2 - 9 / 10 ^ 14.
Proof.
  intros p I. assert (RL := radius_least). assert (D0 := dist2_pos p m). set (s := sqrt (dist2 p m)). assert (S0 : 0 <= s) by apply sqrt_pos. assert (SS : s * s = dist2 p m) by (apply sqrt_sqrt; exact D0).
  destruct (Req_dec s 0) as [Z|Z]; [rewrite <- SS, Z; lra|]. set (mu := / 10 ^ 10) in *. assert (MU : mu = / 10 ^ 10) by reflexivity. clearbody mu. assert (SP : 0 < s) by lra.
  set (k := 1 + mu / s). set (p' := (fst m + k * (fst p - fst m), snd m + k * (snd p - snd m))).
  assert (DP : dist2 p p' = mu * mu). { replace (dist2 p p') with ((k - 1) * (k - 1) * dist2 p m) by (unfold p', dist2; cbn [fst snd]; ring). rewrite <- SS. unfold k. field. lra. }
  assert (DP' : distance p p' = mu) by (rewrite distance_dist2, DP; apply sqrt_square; lra).
  assert (IN : inside outline p'). { intros a b FO. assert (H := side_change a b p p'). rewrite DP' in H. assert (I' := I a b FO). apply Rabs_le_inv in H. lra. }
  assert (CI : dist2 p' m <= r2).
  { apply radius_inside; [apply SOUND|exact IN]. }
  assert (E : dist2 p' m = (s + mu) * (s + mu)). { replace (dist2 p' m) with (k * k * dist2 p m) by (unfold p', dist2; cbn [fst snd]; ring). rewrite <- SS. unfold k. field. lra. }
  rewrite E in CI. rewrite <- SS. destruct (Rle_lt_dec s (45 / 100000)) as [A|A]; nra.
Qed.
Lemma circle_cells : near 1 (match fst det with [] => Nan | v :: l => np_max (dist2_f v (snd det)) (map (fun c => dist2_f c (snd det)) l) end) r2 6.
Proof.
  assert (F := corners_near). destruct centre_near as (N & _ & _). fold m in N. apply radius_cells; [exact (outline_some corners (sound_plain corners SOUND))|]. fold m. assert (B := corner_centre). revert F B. generalize outline. intros l F B.
  induction F as [|q v cs vs (Q & _) F IH]; constructor.
  - destruct (B v ltac:(left; reflexivity)) as (X & Y). apply near_weak with (1 := dist_near q (snd det) v m 2 3.3 (24 / 100) Q N ltac:(lra) ltac:(lra) X Y ltac:(lra)). lra.
  - apply IH. intros w I. apply B. right. exact I.
Qed.
Lemma point_circle : forall p V, Rabs (fst p - fst m) <= V -> Rabs (snd p - snd m) <= V -> V <= 11 -> near 1 (dist2_f (cells p) (snd det)) (dist2 p m) (4 * (33 / 10 + V / 8 + / 50) * V + V * V / 2 + / 5).
Proof.
  intros p V X Y L. destruct centre_near as (N & _ & _). fold m in N. assert (P : pt_near (cells p) p 0) by (split; apply near_self).
  replace (33 / 10 + V / 8 + / 50) with (0 + 3.3 + V / 8 + / 50) by lra. apply dist_near; try assumption; lra.
Qed.
Lemma abs_of_sq : forall a c, 0 <= c -> a * a <= c * c -> Rabs a <= c.
Proof. intros a c HC' H. rewrite <- (Rabs_right c) by lra. apply Rsqr_le_abs_0. exact H. Qed.
Lemma coords : forall p q x, 0 <= x -> dist2 p q <= x * x -> Rabs (fst p - fst q) <= x /\ Rabs (snd p - snd q) <= x.
Proof. intros p q x X D. unfold dist2 in D. assert (H1 := Rle_0_sqr (fst p - fst q)). assert (H2 := Rle_0_sqr (snd p - snd q)). unfold Rsqr in *. split; apply abs_of_sq; lra. Qed.
Lemma area_test : forall p, dist2 p m <= 1153 / 10000 -> exists y, absolute (minus (area_about_f rows (cells p) (fst det)) (area_about_f sum (snd det) (fst det))) = Real y
  /\ Rabs (y - sum_f (fun e => Rmax 0 (- sd p e)) (edges outline)) <= 1410 * u.
Proof.
  intros p D. assert (F : Forall2 (fun q v => pt_near q v 2) (fst det) outline). { assert (F := corners_near). clear - F. induction F as [|q v cs vs (Q & _) F IH]; constructor; auto. }
  destruct centre_near as (N & _ & _). fold m in N. destruct (coords p m (34 / 100) ltac:(lra) ltac:(lra)) as (X & Y).
  destruct (area_near rows HROWS (cells p) p 0 (fst det) outline) as (A1 & A2); [split; apply near_self|lra|exact F|exact (outline_length corners (sound_plain corners SOUND))| |].
  { intros v I. destruct (corner_centre v I) as (VX & VY). apply Rabs_le_inv in X, Y, VX, VY. split; apply Rabs_le; lra. }
  destruct (area_near sum HSUM (snd det) m 3.3 (fst det) outline) as (B1 & B2); [exact N|lra|exact F|exact (outline_length corners (sound_plain corners SOUND))| |].
  { intros v I. destruct (corner_centre v I) as (VX & VY). split; lra. }
  assert (EX := area_excess outline p (outline_some corners (sound_plain corners SOUND)) (proj1 (proj1 (proj2 (proj2 SOUND))))). fold m in EX.
  assert (Q : near 1 (minus (area_about_f rows (cells p) (fst det)) (area_about_f sum (snd det) (fst det))) (area_about p outline - area_about m outline) 1410).
  { apply (near_minus 1 _ _ _ _ _ _ 60) with (2 := A1) (3 := B1); try apply one_ok; try lra. apply Rabs_le. lra. }
  rewrite EX in Q. destruct Q as (y & -> & H). cbn [absolute]. eexists. split; [reflexivity|]. rewrite Rmult_1_l.
  assert (P : 0 <= sum_f (fun e => Rmax 0 (- sd p e)) (edges outline)) by (apply sum_f_nonneg; intros e _; apply Rmax_l).
  rewrite <- (Rabs_right (sum_f _ _)) at 1 by lra. apply Rle_trans with (2 := H). apply Rabs_triang_inv2.
Qed.
Lemma tolerance : Rabs (fl (/ 10 ^ 11) - / 10 ^ 11) <= u.
Proof. assert (F := fl_u (/ 10 ^ 11)). assert (ET := eta_u). assert (UU : u * u <= u / 10 ^ 15) by (unfold u; lra). assert (U := u_pos). rewrite (Rabs_right (/ 10 ^ 11)) in F by lra. lra. Qed.
Lemma on_area_cells : forall p, on_area_f sum rows det (cells p) =
  at_least (match fst det with [] => Nan | v :: l => np_max (dist2_f v (snd det)) (map (fun c => dist2_f c (snd det)) l) end) (dist2_f (cells p) (snd det))
  && at_least (literal (/ 10 ^ 11)) (absolute (minus (area_about_f rows (cells p) (fst det)) (area_about_f sum (snd det) (fst det)))).
Proof. intro p. unfold on_area_f. destruct (fst det); [|reflexivity]. cbn [at_least]. reflexivity. Qed.
Lemma area_accepts : forall p, inside_by (/ 10 ^ 10) outline p -> on_area_f sum rows det (cells p) = true.
Proof.
  intros p I. assert (U := u_pos). rewrite on_area_cells. assert (W := within_circle p I). assert (RB := radius_below). destruct (coords p m (34 / 100) ltac:(lra) ltac:(lra)) as (X & Y).
  assert (PC := point_circle p _ X Y ltac:(lra)). apply (fun H => near_weak _ _ _ _ 6 H) in PC; [|lra]. destruct PC as (y & -> & HY). destruct circle_cells as (x & -> & HX). rewrite !Rmult_1_l.
  apply Rabs_le_inv in HX, HY. assert (U12 : 12 * u <= / 10 ^ 14 * 2) by (unfold u; lra). cbn [at_least]. destruct (Rle_dec y x) as [_|N]; [|exfalso; lra].
  destruct (area_test p ltac:(lra)) as (z & -> & HZ). unfold literal. cbn [andb at_least].
  assert (Z0 : sum_f (fun e => Rmax 0 (- sd p e)) (edges outline) = 0).
  { rewrite (sum_f_ext _ _ (fun _ => 0)); [rewrite sum_f_const; ring|]. intros [a b] E. apply Rmax_left. unfold sd. cbn [fst snd]. apply follows_edges in E. assert (H := I _ _ E).
    assert (0 <= / 10 ^ 10 * distance a b) by (apply Rmult_le_pos; [lra|apply sqrt_pos]). lra. }
  rewrite Z0, Rminus_0_r in HZ. apply Rabs_le_inv in HZ. assert (T := tolerance). apply Rabs_le_inv in T. assert (U14 : 1411 * u <= / 10 ^ 11) by (unfold u; lra). destruct (Rle_dec z _) as [_|N]; [reflexivity|exfalso; lra].
Qed.
Lemma area_refuses : forall p, Rabs (fst p) <= 10 -> Rabs (snd p) <= 10 -> on_area_f sum rows det (cells p) = true -> hardly_outside (2 / 10 ^ 11) outline p /\ dist2 p m <= 1153 / 10000.
Proof.
  intros p PX PY H. assert (U := u_pos). rewrite on_area_cells in H. apply andb_true_iff in H. destruct H as [H1 H2]. assert (RB := radius_below).
  destruct centre_near as (_ & MX & MY). fold m in MX, MY. apply Rabs_le_inv in PX, PY, MX, MY.
  assert (X : Rabs (fst p - fst m) <= 102 / 10) by (apply Rabs_le; lra). assert (Y : Rabs (snd p - snd m) <= 102 / 10) by (apply Rabs_le; lra).
  assert (PC := point_circle p _ X Y ltac:(lra)). apply (fun H => near_weak _ _ _ _ 300 H) in PC; [|lra]. destruct PC as (y & EY & HY). rewrite EY in H1. destruct circle_cells as (x & EX & HX). rewrite EX, !Rmult_1_l in H1.
  cbn [at_least] in H1. destruct (Rle_dec y x) as [L|]; [|discriminate]. apply Rabs_le_inv in HX, HY. assert (U3 : 306 * u <= / 100000) by (unfold u; lra).
  assert (D : dist2 p m <= 1153 / 10000) by lra. split; [|exact D].
  destruct (area_test p D) as (z & EZ & HZ). rewrite EZ in H2. unfold literal in H2. cbn [at_least] in H2. destruct (Rle_dec z _) as [LZ|]; [|discriminate].
  apply Rabs_le_inv in HZ. assert (T := tolerance). apply Rabs_le_inv in T. assert (U14 : 1411 * u <= / 10 ^ 11) by (unfold u; lra).
  intros a b FO. apply follows_edges in FO. assert (P : forall e, In e (edges outline) -> 0 <= Rmax 0 (- sd p e)) by (intros; apply Rmax_l).
  assert (TM := sum_f_term _ _ _ _ P FO). cbn beta in TM. unfold sd at 1 in TM. cbn [fst snd] in TM. assert (RM := Rmax_r 0 (- side a b p)). lra.
Qed.
(** *** Edges *)
Lemma threshold : forall a, 0 <= a <= 3600 -> exists t, deg2rad_f (quotient (Real a) (Real 3600)) = Real t /\ Rabs (t - a / 3600 * PI / 180) <= u.
Proof.
  intros a A. assert (U := u_pos). assert (ET := eta_u). assert (UU : u * u <= u / 10 ^ 15) by (unfold u; lra). cbn [quotient]. destruct (Req_EM_T 3600 0) as [N|_]; [lra|].
  assert (Q : 0 <= a / 3600 <= 1) by lra. destruct (fl_real (a / 3600)) as (E & B & _); [rewrite Rabs_right; lra|]. rewrite E.
  assert (F := fl_u (a / 3600)). rewrite (Rabs_right (a / 3600)) in F by lra. assert (u / 8 * (a / 3600) <= u / 8 * 1) by (apply Rmult_le_compat_l; lra). assert (F' : Rabs (fl (a / 3600) - a / 3600) <= u / 5) by lra.
  assert (G := Rabs_le_inv _ _ F'). assert (u <= / 100) by (unfold u; lra). assert (K : Rabs (fl (a / 3600)) <= 102 / 100) by (apply Rabs_le; lra).
  destruct (degrees_near _ B ltac:(lra)) as (t & ET' & (_ & _ & H')). exists t. split; [exact ET'|].
  assert (P := pi_machin). unfold P0 in P.
  replace (t - a / 3600 * PI / 180) with ((t - fl (a / 3600) * PI / 180) + (fl (a / 3600) - a / 3600) * (PI / 180)) by field.
  apply Rle_trans with (1 := Rabs_triang _ _). rewrite (Rabs_mult _ (PI / 180)), (Rabs_right (PI / 180)) by lra.
  assert (Rabs (fl (a / 3600) - a / 3600) * (PI / 180) <= u / 5 * (4 / 180)) by (apply Rmult_le_compat; try apply Rabs_pos; lra).
  assert ((Rabs (fl (a / 3600)) / 60 + / 100) * u <= / 10 * u) by (apply Rmult_le_compat_r; lra). lra.
Qed.
Lemma line_segment : forall a b p q, on_segment a b q -> side a b p <= distance a b * distance p q.
Proof.
  intros a b p q (t & _ & ->). set (q := (_, _)). assert (H := side_change a b p q). assert (Z : side a b q = 0) by (unfold side, q; cbn [fst snd]; ring). rewrite Z, Rminus_0_r in H. apply Rabs_le_inv in H. lra.
Qed.
Lemma edges_near : Forall2 (fun e f => (pt_near (fst e) (fst f) 2 /\ Rabs (fst (fst f)) <= 12 / 100 /\ Rabs (snd (fst f)) <= 12 / 100) /\ (pt_near (snd e) (snd f) 2 /\ Rabs (fst (snd f)) <= 12 / 100 /\ Rabs (snd (snd f)) <= 12 / 100)) (edges_f (fst det)) (edges outline).
Proof.
  assert (F := corners_near). revert F. generalize (fst det). generalize outline. intros l cs F. assert (F0 := F). destruct F as [|q v cs l Q F]; [constructor|]. unfold edges_f, edges.
  assert (F1 : Forall2 (fun q v => pt_near q v 2 /\ Rabs (fst v) <= 12 / 100 /\ Rabs (snd v) <= 12 / 100) (cs ++ [q]) (l ++ [v])) by (apply Forall2_app; [exact F|]; constructor; [exact Q|constructor]).
  exact (combine_near _ _ _ _ _ _ _ _ _ _ F0 F1).
Qed.
Lemma segment_dist : forall p a b e, dist2 p m <= 1153 / 10000 -> In (a, b) (edges outline) -> pt_near (fst e) a 2 -> pt_near (snd e) b 2 ->
  exists d, distToSegment_f (cells p) (fst e) (snd e) = Real d /\ Rabs (d - distToSegment p a b) <= 62010 * u.
Proof.
  intros p a b e D I NA NB. apply follows_edges in I. destruct (follows_in _ _ _ I) as (IA & IB). destruct (outline_bounds a IA) as (A1 & A2). destruct (outline_bounds b IB) as (B1 & B2).
  destruct p as [px py]. apply segment_near; try assumption.
  - split; [apply SOUND; exact I|]. rewrite distance_dist2. rewrite <- (sqrt_square (4 / 10)) by lra. apply sqrt_le_1_alt. apply Rabs_le_inv in A1, A2, B1, B2.
    apply Rle_trans with (2 * (24 / 100 * (24 / 100))); [apply dist2_bound; apply Rabs_le; lra|lra].
  - rewrite distance_dist2. rewrite <- (sqrt_square (7 / 10)) by lra. apply sqrt_le_1_alt. assert (T := dist2_triangle (px, py) a m). assert (RA := radius_above _ _ IA). fold m in RA. fold r2 in RA. assert (RB := radius_below). lra.
Qed.
Lemma edges_accept : forall p a, 0 <= a <= 3600 -> inside_by (a / 3600 * PI / 180 + / 10 ^ 10) outline p -> dist2 p m <= 1153 / 10000 -> off_edges_f (Some (Real a)) det (cells p) = true.
Proof.
  intros p a A I D. cbn [off_edges_f]. destruct (threshold a A) as (t & -> & HT). assert (U := u_pos). assert (UB : 62012 * u < / 10 ^ 10) by (unfold u; lra).
  assert (K : forall f e, In f (edges outline) -> pt_near (fst e) (fst f) 2 -> pt_near (snd e) (snd f) 2 -> exceeds (distToSegment_f (cells p) (fst e) (snd e)) (Real t) = true).
  { intros [x y] e IN N1 N2. destruct (segment_dist p x y e D IN N1 N2) as (d & -> & H). destruct (C36_distance_proof p x y) as ((q & ON & E) & _). rewrite E in H.
    apply follows_edges in IN. assert (L := line_segment x y p q ON). assert (I' := I x y IN). assert (LE : / 1000 <= distance x y) by (apply SOUND; exact IN).
    assert (DQ : a / 3600 * PI / 180 + / 10 ^ 10 <= distance p q). { apply (Rmult_le_reg_l (distance x y)); [lra|]. rewrite (Rmult_comm (distance x y)) at 1. lra. }
    apply Rabs_le_inv in H, HT. unfold exceeds. cbn [at_least]. destruct (Rle_dec t d) as [_|N]; [|lra]. destruct (Rle_dec d t) as [N|_]; [lra|reflexivity]. }
  assert (F := edges_near). clear - F K. revert F K. generalize (edges_f (fst det)). generalize (edges outline). intros l cs F K. induction F as [|e f cs l ((N1 & _) & (N2 & _)) F IH]; [reflexivity|].
  cbn [forallb]. rewrite (K f e); [|left; reflexivity|exact N1|exact N2]. apply IH. intros f' e' I. apply K. right. exact I.
Qed.
Lemma edges_refuse : forall p a, 0 <= a <= 3600 -> dist2 p m <= 1153 / 10000 -> off_edges_f (Some (Real a)) det (cells p) = true -> off_edges_by (a / 3600 * PI / 180 - / 10 ^ 10) outline p.
Proof.
  intros p a A D H x y q FO ON. cbn [off_edges_f] in H. destruct (threshold a A) as (t & ET & HT). rewrite ET in H. assert (U := u_pos). assert (UB : 62012 * u < / 10 ^ 10) by (unfold u; lra).
  apply follows_edges in FO. assert (FO' := FO). assert (F := edges_near).
  assert (E : exists e, pt_near (fst e) x 2 /\ pt_near (snd e) y 2 /\ exceeds (distToSegment_f (cells p) (fst e) (snd e)) (Real t) = true).
  { clear - F H FO. revert F H FO. generalize (edges_f (fst det)). generalize (edges outline). intros l cs F H FO. induction F as [|e f cs l ((N1 & _) & (N2 & _)) F IH]; [destruct FO|].
    cbn [forallb] in H. apply andb_true_iff in H. destruct H as [H1 H2]. destruct FO as [-> | FO]; [exists e; auto|auto]. }
  destruct E as (e & N1 & N2 & EX). destruct (segment_dist p x y e D FO' N1 N2) as (d & ED & HD). rewrite ED in EX. unfold exceeds in EX. cbn [at_least] in EX.
  destruct (Rle_dec t d) as [L|]; [|discriminate]. destruct (C36_distance_proof p x y) as (_ & LE). assert (LQ := LE q ON). apply Rabs_le_inv in HD, HT. lra.
Qed.
End Detector.

Lemma inside_weaker : forall a b l p, a <= b -> inside_by b l p -> inside_by a l p.
Proof. intros a b l p L I x y F. apply Rle_trans with (2 := I x y F). apply Rmult_le_compat_r; [apply sqrt_pos|exact L]. Qed.
Lemma detector_any : forall S C sum rows corners centre p, accurate_sin S -> accurate_cos C -> accurate_sum sum -> accurate_sum rows ->
  sound_detector corners -> pt_near centre (mean_point (map corner_position corners)) 3.3 -> Rabs (fst p) <= 10 -> Rabs (snd p) <= 10 ->
  let outline := map corner_position corners in
  let detector := (fst (make_detector_f S C sum (map cells corners)), centre) in
  let on limit := on_detector_f sum rows limit detector (Real (fst p), Real (snd p)) in
  (inside_by (/ 10 ^ 10) outline p -> on None = true) /\ (on None = true -> hardly_outside (2 / 10 ^ 11) outline p) /\
  (forall a, 0 <= a <= 3600 ->
    (inside_by (a / 3600 * PI / 180 + / 10 ^ 10) outline p -> on (Some (Real a)) = true) /\
    (on (Some (Real a)) = true -> hardly_outside (2 / 10 ^ 11) outline p /\ off_edges_by (a / 3600 * PI / 180 - / 10 ^ 10) outline p)).
Proof.
  intros S C sum rows corners centre p HS HC HSUM HROWS SOUND CENTRE PX PY outline detector on. unfold on, on_detector_f. change (Real (fst p), Real (snd p)) with (cells p). cbn [off_edges_f].
  assert (ACC := area_accepts S C sum rows HS HC HSUM HROWS corners SOUND centre CENTRE p). assert (REF := area_refuses S C sum rows HS HC HSUM HROWS corners SOUND centre CENTRE p PX PY). fold outline in ACC, REF.
  split; [intro I; rewrite andb_true_r; apply ACC; exact I|]. split; [intro H; rewrite andb_true_r in H; apply REF; exact H|]. intros a A. assert (P := pi_machin). unfold P0 in P.
  assert (T0 : 0 <= a / 3600 * PI / 180). { unfold Rdiv. apply Rmult_le_pos; [|lra]. apply Rmult_le_pos; [|lra]. lra. } split.
  - intro I. assert (I0 : inside_by (/ 10 ^ 10) outline p) by (apply inside_weaker with (2 := I); lra). apply andb_true_iff. split; [apply ACC; exact I0|].
    apply (edges_accept S C sum HS HC HSUM corners SOUND centre CENTRE p a A I). assert (W := within_circle corners SOUND p I0). assert (RB := radius_below S C sum HS HC HSUM corners SOUND centre CENTRE). lra.
  - intro H. apply andb_true_iff in H. destruct H as [H1 H2]. destruct (REF H1) as (HO & D). split; [exact HO|]. apply (edges_refuse S C sum HS HC HSUM corners SOUND centre CENTRE p a A D H2).
Qed.

Lemma source_any : forall S C sum rows field rot p d corners centre, accurate_sin S -> accurate_cos C -> accurate_sum sum -> accurate_sum rows ->
  position field -> position p -> Rabs (snd field) <= 89 -> binary64 rot -> Rabs rot <= 360 -> distance_between field p d -> d <= 60 -> sound_detector corners -> pt_near centre (mean_point (map corner_position corners)) 3.3 ->
  let outline := map corner_position corners in
  let place := focal_position field rot p in
  let detector := (fst (make_detector_f S C sum (map cells corners)), centre) in
  let on limit := on_detector_f sum rows limit detector (focal_plane_of_f S C (Real (fst p)) (Real (snd p)) (Real (fst field)) (Real (snd field)) (Real rot)) in
  (inside_by (2 / 10 ^ 10) outline place -> on None = true) /\ (on None = true -> hardly_outside (3 / 10 ^ 11) outline place) /\
  (forall a, 0 <= a <= 3600 ->
    (inside_by (a / 3600 * PI / 180 + 2 / 10 ^ 10) outline place -> on (Some (Real a)) = true) /\
    (on (Some (Real a)) = true -> hardly_outside (3 / 10 ^ 11) outline place /\ off_edges_by (a / 3600 * PI / 180 - 2 / 10 ^ 10) outline place)).
Proof.
  intros S C sum rows field rot p d corners centre HS HC HSUM HROWS PF PP POLE BR LR DB D60 SOUND CENTRE outline place detector on.
  destruct (C117_focal_proof S C field rot p d HS HC PF PP POLE BR LR DB D60) as (x & y & E & HX & HY & BX & BY). fold place in HX, HY. unfold on. rewrite E.
  destruct (detector_any S C sum rows corners centre (x, y) HS HC HSUM HROWS SOUND CENTRE ltac:(cbn; lra) ltac:(cbn; lra)) as (A1 & A2 & A3). cbn [fst snd] in *. fold outline in A1, A2, A3. fold detector in A1, A2, A3.
  assert (NEAR : distance place (x, y) <= / 10 ^ 10 / 2).
  { rewrite distance_dist2. rewrite <- (sqrt_square (/ 10 ^ 10 / 2)) by lra. apply sqrt_le_1_alt. rewrite Rabs_minus_sym in HX, HY. apply Rle_trans with (1 := dist2_bound place (x, y) (/ 10 ^ 11) HX HY). lra. }
  assert (SMALL : distance place (x, y) <= 2 / 10 ^ 11).
  { rewrite distance_dist2. rewrite <- (sqrt_square (2 / 10 ^ 11)) by lra. apply sqrt_le_1_alt. rewrite Rabs_minus_sym in HX, HY. apply Rle_trans with (1 := dist2_bound place (x, y) (/ 10 ^ 11) HX HY). lra. }
  assert (MOVE : forall t, inside_by (t + 2 / 10 ^ 10) outline place -> inside_by (t + / 10 ^ 10) outline (x, y)).
  { intros t I a b FO. assert (I' := I a b FO). assert (CH := side_change a b place (x, y)). apply Rabs_le_inv in CH. assert (L0 : 0 <= distance a b) by apply sqrt_pos.
    assert (distance a b * distance place (x, y) <= distance a b * (/ 10 ^ 10 / 2)) by (apply Rmult_le_compat_l; lra). nra. }
  assert (HARD : hardly_outside (2 / 10 ^ 11) outline (x, y) -> hardly_outside (3 / 10 ^ 11) outline place).
  { intros H a b FO. assert (H' := H a b FO). assert (CH := side_change a b place (x, y)). apply Rabs_le_inv in CH.
    assert (LB : distance a b <= 4 / 10).
    { destruct (follows_in _ _ _ FO) as (IA & IB). destruct (outline_bounds S C sum HS HC corners SOUND a IA) as (XA & YA). destruct (outline_bounds S C sum HS HC corners SOUND b IB) as (XB & YB).
      rewrite distance_dist2. rewrite <- (sqrt_square (4 / 10)) by lra. apply sqrt_le_1_alt. apply Rabs_le_inv in XA, YA, XB, YB. apply Rle_trans with (2 * (24 / 100 * (24 / 100))); [apply dist2_bound; apply Rabs_le; lra|lra]. }
    assert (L0 : 0 <= distance a b) by apply sqrt_pos. assert (L1 : 0 <= distance place (x, y)) by apply sqrt_pos. assert (distance a b * distance place (x, y) <= 4 / 10 * (2 / 10 ^ 11)) by (apply Rmult_le_compat; lra). lra. }
  assert (EDGE : forall t, off_edges_by (t - / 10 ^ 10) outline (x, y) -> off_edges_by (t - 2 / 10 ^ 10) outline place).
  { intros t H a b q FO ON. assert (H' := H a b q FO ON). rewrite distance_dist2 in H' |- *. unfold dist2 in *. cbn [fst snd] in *.
    assert (HY2 : Rabs (snd place - snd q - (y - snd q)) <= / 10 ^ 11) by (replace (snd place - snd q - (y - snd q)) with (- (y - snd place)) by ring; rewrite Rabs_Ropp; exact HY).
    assert (HX2 : Rabs (fst place - fst q - (x - fst q)) <= / 10 ^ 11) by (replace (fst place - fst q - (x - fst q)) with (- (x - fst place)) by ring; rewrite Rabs_Ropp; exact HX).
    assert (HC2 := hyp_close _ _ _ _ _ _ HX2 HY2). apply Rabs_le_inv in HC2. lra. }
  split; [intro I; apply A1; replace (/ 10 ^ 10) with (0 + / 10 ^ 10) by ring; apply MOVE; rewrite Rplus_0_l; exact I|]. split; [intro H; apply HARD, A2; exact H|].
  intros a A. destruct (A3 a A) as (B1 & B2). split; [intro I; apply B1, MOVE; exact I|]. intro H. destruct (B2 H) as (H1 & H2). split; [apply HARD; exact H1|apply EDGE; exact H2].
Qed.

Lemma C117_detector_proof : forall S C sum rows corners p, accurate_sin S -> accurate_cos C -> accurate_sum sum -> accurate_sum rows ->
  sound_detector corners -> Rabs (fst p) <= 10 -> Rabs (snd p) <= 10 ->
  let outline := map corner_position corners in
  let detector := make_detector_f S C sum (map (fun c => (Real (fst c), Real (snd c))) corners) in
  let on limit := on_detector_f sum rows limit detector (Real (fst p), Real (snd p)) in
  (inside_by (/ 10 ^ 10) outline p -> on None = true) /\ (on None = true -> hardly_outside (2 / 10 ^ 11) outline p) /\
  (forall a, 0 <= a <= 3600 ->
    (inside_by (a / 3600 * PI / 180 + / 10 ^ 10) outline p -> on (Some (Real a)) = true) /\
    (on (Some (Real a)) = true -> hardly_outside (2 / 10 ^ 11) outline p /\ off_edges_by (a / 3600 * PI / 180 - / 10 ^ 10) outline p)).
Proof.
  intros S C sum rows corners p HS HC HSUM HROWS SOUND PX PY.
  exact (detector_any S C sum rows corners _ p HS HC HSUM HROWS SOUND (proj1 (centre_near0 S C sum HS HC HSUM corners (sound_plain corners SOUND))) PX PY).
Qed.
Lemma C117_source_proof : forall S C sum rows field rot p d corners, accurate_sin S -> accurate_cos C -> accurate_sum sum -> accurate_sum rows ->
  position field -> position p -> Rabs (snd field) <= 89 -> binary64 rot -> Rabs rot <= 360 -> distance_between field p d -> d <= 60 -> sound_detector corners ->
  let outline := map corner_position corners in
  let place := focal_position field rot p in
  let detector := make_detector_f S C sum (map (fun c => (Real (fst c), Real (snd c))) corners) in
  let on limit := on_detector_f sum rows limit detector (focal_plane_of_f S C (Real (fst p)) (Real (snd p)) (Real (fst field)) (Real (snd field)) (Real rot)) in
  (inside_by (2 / 10 ^ 10) outline place -> on None = true) /\ (on None = true -> hardly_outside (3 / 10 ^ 11) outline place) /\
  (forall a, 0 <= a <= 3600 ->
    (inside_by (a / 3600 * PI / 180 + 2 / 10 ^ 10) outline place -> on (Some (Real a)) = true) /\
    (on (Some (Real a)) = true -> hardly_outside (3 / 10 ^ 11) outline place /\ off_edges_by (a / 3600 * PI / 180 - 2 / 10 ^ 10) outline place)).
Proof.
  intros S C sum rows field rot p d corners HS HC HSUM HROWS PF PP POLE BR LR DB D60 SOUND.
  exact (source_any S C sum rows field rot p d corners _ HS HC HSUM HROWS PF PP POLE BR LR DB D60 SOUND (proj1 (centre_near0 S C sum HS HC HSUM corners (sound_plain corners SOUND)))).
Qed.

(** ** Sums and a detector that meet the hypotheses *)
(** Addition one after the other. *)
Definition in_order (l : list cell) : cell := match l with [] => Real 0 | c :: l' => fold_left plus l' c end.
Lemma growth : forall n e, 0 <= e <= / 10 ^ 10 -> (n <= 63)%nat -> (1 + e) ^ n <= 1 + INR n * (64 / 63) * e.
Proof.
  intros n e E. induction n as [|n IH]; intro L; [cbn; lra|]. assert (H := IH ltac:(lia)). assert (N : INR n <= 63) by (replace 63 with (INR 63) by (cbn; ring); apply le_INR; lia). assert (N0 := pos_INR n).
  rewrite S_INR. cbn [pow]. apply Rle_trans with ((1 + e) * (1 + INR n * (64 / 63) * e)); [apply Rmult_le_compat_l; lra|].
  assert (INR n * e <= 63 * / 10 ^ 10) by (apply Rmult_le_compat; lra). assert (0 <= INR n * e) by (apply Rmult_le_pos; lra). nra.
Qed.
Lemma adding : forall l acc e, e = bpow radix2 (-53) -> binary64 acc -> (forall x, In x l -> binary64 x) -> (Rabs acc + fold_right Rplus 0 (map Rabs l)) * (1 + e) ^ length l <= 2000 ->
  exists y, fold_left plus (map Real l) (Real acc) = Real y /\ Rabs (y - (acc + fold_right Rplus 0 l)) <= ((1 + e) ^ length l - 1) * (Rabs acc + fold_right Rplus 0 (map Rabs l)).
Proof.
  induction l as [|x l IH]; intros acc e E BA BL LIM; cbn [map fold_left fold_right length pow] in *.
  - exists acc. split; [reflexivity|]. rewrite Rplus_0_r. unfold Rminus. rewrite Rplus_opp_r, Rabs_R0. lra.
  - assert (BX := BL x ltac:(left; reflexivity)). set (s := fold_right Rplus 0 (map Rabs l)) in *. assert (S0 : 0 <= s). { unfold s. clear. induction l as [|a l IH]; cbn; [lra|]. assert (P := Rabs_pos a). lra. }
    assert (E0 : 0 <= e <= / 1000) by (rewrite E; cbn; lra). assert (G1 : 1 <= (1 + e) ^ length l) by (apply pow_R1_Rle; lra). set (g := (1 + e) ^ length l) in *. assert (PA := Rabs_pos acc). assert (PX := Rabs_pos x).
    destruct (@Flocq.Prop.Plus_error.FLT_plus_error_N_ex radix2 (-1074) 53 eq_refl (fun z => negb (Z.even z)) acc x (proj1 BA) (proj1 BX)) as (eps & EPS & RND).
    change (round radix2 (FLT_exp (-1074) 53) ZnearestE (acc + x)) with (fl (acc + x)) in RND.
    assert (EB : Rabs eps <= e). { apply Rle_trans with (1 := EPS). unfold Flocq.Prop.Relative.u_ro. change (- (53) + 1)%Z with (-52)%Z. rewrite E. cbn. lra. }
    assert (TB : Rabs (acc + x) <= Rabs acc + Rabs x) by apply Rabs_triang.
    assert (AB : (Rabs acc + Rabs x) * (1 + e) <= (Rabs acc + (Rabs x + s)) * ((1 + e) * g)). { apply Rmult_le_compat; try lra. rewrite <- (Rmult_1_r (1 + e)) at 1. apply Rmult_le_compat_l; lra. }
    assert (AL : Rabs (acc + x) <= 2000) by nra.
    destruct (fl_real (acc + x) AL) as (F & BF & _). cbn [plus]. rewrite F.
    assert (NB : Rabs (fl (acc + x)) <= (Rabs acc + Rabs x) * (1 + e)). { rewrite RND, Rabs_mult. apply Rmult_le_compat; try apply Rabs_pos; [exact TB|]. apply Rle_trans with (1 := Rabs_triang _ _). rewrite Rabs_R1. lra. }
    destruct (IH (fl (acc + x)) e E BF ltac:(intros z I; apply BL; right; exact I)) as (y & EY & HY); [fold s; fold g|fold s in HY; fold g in HY].
    { apply Rle_trans with (2 := LIM). replace ((Rabs acc + (Rabs x + s)) * ((1 + e) * g)) with ((Rabs acc + (Rabs x + s)) * (1 + e) * g) by ring. apply Rmult_le_compat_r; [lra|]. nra. }
    exists y. split; [exact EY|]. replace (y - (acc + (x + fold_right Rplus 0 l))) with ((y - (fl (acc + x) + fold_right Rplus 0 l)) + (fl (acc + x) - (acc + x))) by ring.
    apply Rle_trans with (1 := Rabs_triang _ _).
    assert (D : Rabs (fl (acc + x) - (acc + x)) <= (Rabs acc + Rabs x) * e). { rewrite RND. replace ((acc + x) * (1 + eps) - (acc + x)) with ((acc + x) * eps) by ring. rewrite Rabs_mult. apply Rmult_le_compat; try apply Rabs_pos; assumption. }
    assert (M : (g - 1) * (Rabs (fl (acc + x)) + s) <= (g - 1) * ((Rabs acc + Rabs x + s) * (1 + e))) by (apply Rmult_le_compat_l; [lra|nra]).
    replace (((1 + e) * g - 1) * (Rabs acc + (Rabs x + s))) with ((g - 1) * ((Rabs acc + Rabs x + s) * (1 + e)) + (Rabs acc + Rabs x + s) * e) by ring.
    assert ((Rabs acc + Rabs x) * e <= (Rabs acc + Rabs x + s) * e) by (apply Rmult_le_compat_r; lra). lra.
Qed.
Lemma in_order_accurate : accurate_sum in_order.
Proof.
  intros l L B. destruct l as [|x l]; cbn [map in_order fold_right]; [exists 0; split; [reflexivity|]; rewrite Rminus_0_r, Rabs_R0; lra|]. cbn [length] in L. set (e := bpow radix2 (-53)). assert (E53 : e = / 2 ^ 53) by (unfold e; cbn; lra).
  assert (SB : forall k, (forall z, In z k -> Rabs z <= 10) -> 0 <= fold_right Rplus 0 (map Rabs k) <= INR (length k) * 10).
  { clear. induction k as [|a k IH]; intro H; cbn [map fold_right length]; [cbn; lra|]. rewrite S_INR. assert (P := Rabs_pos a). assert (H1 := H a ltac:(left; reflexivity)). assert (H2 := IH ltac:(intros z I; apply H; right; exact I)). lra. }
  assert (T := SB l ltac:(intros z I; apply B; right; exact I)). assert (N : INR (length l) <= 63) by (replace 63 with (INR 63) by (cbn; ring); apply le_INR; lia). assert (N0 := pos_INR (length l)).
  assert (G := growth (length l) e ltac:(lra) ltac:(lia)). assert (X := proj2 (B x ltac:(left; reflexivity))). assert (PX := Rabs_pos x).
  assert (GB : (1 + e) ^ length l - 1 <= / 2 ^ 47). { assert (INR (length l) * (64 / 63) * e <= 64 * e) by (apply Rmult_le_compat_r; lra). lra. }
  assert (G1 : 1 <= (1 + e) ^ length l) by (apply pow_R1_Rle; lra).
  destruct (adding l x e eq_refl (proj1 (B x ltac:(left; reflexivity))) ltac:(intros z I; apply B; right; exact I)) as (y & EY & HY).
  { apply Rle_trans with (650 * 2); [|lra]. apply Rmult_le_compat; lra. }
  exists y. split; [exact EY|]. apply Rle_trans with (1 := HY). apply Rmult_le_compat_r; lra.
Qed.
(** A square detector of a 32nd of a radian. *)
Definition square : list (R * R) := [(- / 64, - / 64); (/ 64, - / 64); (/ 64, / 64); (- / 64, / 64)].
Definition half_width : R := sin (/ 64) / cos (/ 64).
Definition half_height : R := sin (/ 64) / (cos (/ 64) * cos (/ 64)).
Lemma square_outline : map corner_position square = [(- half_width, - half_height); (half_width, - half_height); (half_width, half_height); (- half_width, half_height)].
Proof.
  assert (CP : cos (/ 64) <> 0) by (assert (H := cos_flat (/ 64) ltac:(rewrite Rabs_right; lra)); lra).
  assert (F : forall a d, cos a = cos (/ 64) -> cos d = cos (/ 64) -> corner_position (a, d) = (sin a / cos (/ 64), sin d / (cos (/ 64) * cos (/ 64)))).
  { intros a d A D. unfold corner_position, gnomonic. cbn [fst snd]. rewrite Rminus_0_r, sin_0, cos_0, A, D. f_equal; field; auto. }
  unfold square. cbn [map]. rewrite !F by (try apply cos_neg; reflexivity). rewrite !sin_neg. unfold half_width, half_height. repeat f_equal; field; auto.
Qed.
Lemma square_sizes : / 128 <= half_width /\ half_width <= half_height.
Proof.
  assert (H := cos_flat (/ 64) ltac:(rewrite Rabs_right; lra)). assert (S := sin_above (/ 64) ltac:(lra)). unfold half_width, half_height. set (c := cos (/ 64)) in *. set (s := sin (/ 64)) in *.
  assert (I : 1 <= / c) by (rewrite <- Rinv_1; apply Rinv_le_contravar; lra). split; [unfold Rdiv; nra|]. replace (s / (c * c)) with (s * / c * / c) by (field; lra). unfold Rdiv. assert (0 <= s * / c) by nra. nra.
Qed.
Lemma square_edges : forall a b, follows (map corner_position square) a b ->
  (a, b) = ((- half_width, - half_height), (half_width, - half_height)) \/ (a, b) = ((half_width, - half_height), (half_width, half_height))
  \/ (a, b) = ((half_width, half_height), (- half_width, half_height)) \/ (a, b) = ((- half_width, half_height), (- half_width, - half_height)).
Proof. intros a b F. apply follows_edges in F. rewrite square_outline in F. cbn in F. intuition congruence. Qed.
Lemma square_lengths : forall a b, follows (map corner_position square) a b -> distance a b = 2 * half_width \/ distance a b = 2 * half_height.
Proof.
  intros a b F. destruct square_sizes as (W & H). assert (Q : forall x, 0 <= x -> sqrt (2 * x * (2 * x)) = 2 * x) by (intros x X; apply sqrt_square; lra).
  destruct (square_edges a b F) as [E|[E|[E|E]]]; injection E as -> ->; unfold distance; cbn [fst snd]; [left|right|left|right]; rewrite <- Q by lra; f_equal; ring.
Qed.
Lemma b64_small : forall n, (Z.abs n <= 1)%Z -> binary64 (IZR n * / 64).
Proof.
  intros n N. split; [replace (IZR n * / 64) with (IZR n * bpow radix2 (-6)) by (cbn; lra); apply dyadic; lia|]. assert (T := top_big). assert (A : Rabs (IZR n) <= 1) by (rewrite <- abs_IZR; apply IZR_le; exact N).
  rewrite Rabs_mult, (Rabs_right (/ 64)) by lra. lra.
Qed.
Lemma square_sound : sound_detector square.
Proof.
  destruct square_sizes as (W & H). assert (WH : 0 < half_width * half_height) by (apply Rmult_lt_0_compat; lra).
  assert (B1 := b64_small 1 ltac:(lia)). assert (B2 := b64_small (-1) ltac:(lia)). rewrite Rmult_1_l in B1. replace (-1 * / 64) with (- / 64) in B2 by ring.
  split; [cbn; lia|]. split; [intros c I; cbn in I; repeat (destruct I as [<-|I]; [cbn [fst snd]; rewrite ?Rabs_Ropp, !(Rabs_right (/ 64)) by lra; repeat split; try assumption; try apply B1; try apply B2; lra|]); destruct I|]. split.
  - split.
    + intros a b c F I. rewrite square_outline in I. destruct (square_edges a b F) as [E|[E|[E|E]]]; injection E as -> ->; cbn in I; repeat (destruct I as [<-|I]; [unfold side; cbn [fst snd]; lra|]); destruct I.
    + exists (- half_width, - half_height), (half_width, - half_height), (half_width, half_height). split; [apply follows_edges; rewrite square_outline; left; reflexivity|]. split; [rewrite square_outline; right; right; left; reflexivity|]. unfold side; cbn [fst snd]. lra.
  - intros a b F. destruct (square_lengths a b F) as [-> | ->]; lra.
Qed.
Lemma tan_apart : forall x y, 0 <= y <= x -> x <= / 10 -> (x - y) / 2 <= sin x / cos x - sin y / cos y.
Proof.
  intros x y XY X. assert (CX := cos_flat x ltac:(rewrite Rabs_right; lra)). assert (CY := cos_flat y ltac:(rewrite Rabs_right; lra)).
  replace (sin x / cos x - sin y / cos y) with (sin (x - y) * / (cos x * cos y)) by (rewrite sin_minus; field; lra). assert (S := sin_above (x - y) ltac:(lra)).
  assert (I : 1 <= / (cos x * cos y)) by (rewrite <- Rinv_1; apply Rinv_le_contravar; nra). nra.
Qed.
Lemma flat_position : forall r, focal_position (0, 0) 0 (r, 0) = (sin (r * PI / 180) / cos (r * PI / 180), 0).
Proof.
  intro r. unfold focal_position, turned, gnomonic. cbn [fst snd]. replace (0 * PI / 180) with 0 by field. rewrite Rminus_0_r, sin_0, cos_0.
  replace (0 * 0 + 1 * 1 * cos (r * PI / 180)) with (cos (r * PI / 180)) by ring. f_equal; unfold Rdiv; ring.
Qed.
