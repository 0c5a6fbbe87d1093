(** C42: a root that is outside the bracket. *)
From Coq Require Import Reals ZArith List Bool Lia Lra Psatz.
From Coquelicot Require Import Coquelicot.
From Verif Require Import Base.Prelude Model.Sphere Model.Kepler Spec.Kepler.
Import ListNotations.
Open Scope R_scope.

(** A polynomial with a root between 0 and 2 and another one at -1, on which
    the first step from the middle of the bracket lands. *)
Definition two_rooted (x : R) : value :=
  let y := x - 1 in
  FV (1 + 2 * y + 3 * y ^ 2 + 25 / 8 * y ^ 3 + y ^ 4) (2 + 6 * y + 75 / 8 * y ^ 2 + 4 * y ^ 3) (6 + 75 / 4 * y + 12 * y ^ 2).

Lemma two_rooted_run : forall n xacc, 0 < xacc < 1 -> exists d,
  halley_safe two_rooted xacc 0 2 (S (S n)) = ([0; 2; 1; -1], Ok (true, Some (-1), d)).
Proof.
  intros n xacc Hx. exists (v_fp (two_rooted (-1))). unfold halley_safe.
  assert (F0 : v_f (two_rooted 0) = - (1 / 8)) by (cbn; lra). assert (F2 : v_f (two_rooted 2) = 81 / 8) by (cbn; lra).
  rewrite F0, F2. replace (1 / 2 * (0 + 2)) with 1 by lra. rewrite !Rminus_0_r, (Rabs_right 2) by lra.
  destruct (Rlt_dec 0 (- (1 / 8))); [lra|]. destruct (Rlt_dec (- (1 / 8)) 0); [|lra]. destruct (Rlt_dec (81 / 8) 0); [lra|]. cbn [orb].
  destruct (Req_EM_T (- (1 / 8)) 0); [lra|]. destruct (Req_EM_T (81 / 8) 0); [lra|].
  assert (V1 : two_rooted 1 = FV 1 2 6) by (unfold two_rooted; f_equal; lra). rewrite V1.
  change (S (S n)) with (S (1 + n)). cbn [hloop Nat.add].
  unfold next_guess at 1, must_bisect at 1. cbn [h_rts h_v h_xl h_xh h_dx h_dxold v_f v_fp v_fpp].
  destruct (Rlt_dec 0 (((1 - 2) * 2 - 1) * ((1 - 0) * 2 - 1))) as [H|_]; [lra|].
  destruct (Rlt_dec (Rabs (2 * 2)) (Rabs (2 * 1))) as [H|_]; [rewrite !Rabs_right in H; lra|]. cbn [orb].
  unfold rdiv at 1 2. destruct (Req_EM_T 2 0); [lra|]. cbn [rbind].
  destruct (Req_EM_T (2 * 2 * 2 - 1 * 6) 0); [lra|]. cbn [rbind].
  replace (2 * 1 * 2 / (2 * 2 * 2 - 1 * 6)) with 2 by lra. replace (1 - 2) with (-1) by lra.
  unfold small_step at 1, rdiv at 1. destruct (Req_EM_T (-1) 0); [lra|]. cbn [rbind].
  destruct (Rlt_dec (Rabs (2 / -1)) xacc) as [H|_]; [replace (2 / -1) with (-2) in H by lra; rewrite Rabs_left in H; lra|].
  assert (Vm : v_f (two_rooted (-1)) = 0) by (cbn; lra). assert (Pm : v_fp (two_rooted (-1)) = -9/2) by (cbn; lra).
  rewrite Vm. destruct (Rlt_dec 0 0); [lra|]. cbn [hloop].
  unfold next_guess at 1, must_bisect at 1. cbn [h_rts h_v h_xl h_xh h_dx h_dxold]. rewrite Vm.
  destruct (Rlt_dec 0 (((-1 - -1) * v_fp (two_rooted (-1)) - 0) * ((-1 - 0) * v_fp (two_rooted (-1)) - 0))) as [H|_]; [nra|].
  destruct (Rlt_dec (Rabs (2 * v_fp (two_rooted (-1)))) (Rabs (2 * 0))) as [H|_].
  { rewrite Rmult_0_r, Rabs_R0 in H. pose proof (Rabs_pos (2 * v_fp (two_rooted (-1)))). lra. }
  cbn [orb]. unfold rdiv at 1 2. destruct (Req_EM_T (v_fp (two_rooted (-1))) 0) as [E|_]; [lra|]. cbn [rbind].
  destruct (Req_EM_T (2 * v_fp (two_rooted (-1)) * v_fp (two_rooted (-1)) - 0 * v_fpp (two_rooted (-1))) 0) as [E|_]; [rewrite Pm in E; lra|].
  cbn [rbind].
  replace (2 * 0 * v_fp (two_rooted (-1)) / (2 * v_fp (two_rooted (-1)) * v_fp (two_rooted (-1)) - 0 * v_fpp (two_rooted (-1)))) with 0
    by (rewrite Rmult_0_r, Rmult_0_l; unfold Rdiv; rewrite Rmult_0_l; reflexivity).
  rewrite Rminus_0_r.
  unfold small_step at 1, rdiv at 1. destruct (Req_EM_T (-1) 0); [lra|]. cbn [rbind].
  destruct (Rlt_dec (Rabs (0 / -1)) xacc) as [_|H]; [rewrite ?Rmult_0_l, ?Rminus_0_r; reflexivity|]. exfalso. apply H. replace (0 / -1) with 0 by lra. rewrite Rabs_R0. lra.
Qed.

Lemma C42_root_refuted_proof :
  exists (F : R -> value) x1 x2 root d,
    (forall x, derivable_pt_lim (fun y => v_f (F y)) x (v_fp (F x)) /\ derivable_pt_lim (fun y => v_fp (F y)) x (v_fpp (F x)))
    /\ v_f (F x1) < 0 < v_f (F x2)
    /\ snd (halley_safe F (1 / 100000000000000) x1 x2 100) = Ok (true, Some root, d) /\ ~ between x1 x2 root.
Proof.
  destruct (two_rooted_run 98 (1 / 100000000000000)) as [d E]; [lra|].
  exists two_rooted, 0, 2, (-1), d. split; [|split; [|split]].
  - intros x. cbn [two_rooted v_f v_fp v_fpp]. split; apply is_derive_Reals; auto_derive; auto; cbn; field.
  - cbn. lra.
  - change 100%nat with (S (S 98)). rewrite E. reflexivity.
  - unfold between. rewrite Rmin_left, Rmax_right by lra. lra.
Qed.
