From Coq Require Import String Bool Arith Lia List.
From Verif Require Import Base.Prelude Model.Config Model.Cache Spec.Cache Proofs.Cache Proofs.CacheRun.
Import ListNotations.
Open Scope list_scope.

Lemma default_nodup : NoDup (all_names []).
Proof.
  assert (E : all_names [] = nodup string_dec (all_names [])) by (vm_compute; reflexivity). rewrite E. apply NoDup_nodup.
Qed.

Lemma default_downloads : a_download (aux_of []) =
  [planet_ephemeris []; earth_predict []; earth_historical []; earth_high_precision []; jpl_planets []; jpl_small_bodies [];
   leap_seconds []; codes_gz []; orientation []].
Proof. reflexivity. Qed.

Lemma unpacked_gz : unpacked (codes_gz []) = Some (codes []).
Proof. reflexivity. Qed.
Lemma unpacked_other : forall n, In n (a_download (aux_of [])) -> n <> codes_gz [] -> unpacked n = None.
Proof.
  rewrite default_downloads. intros n H N.
  repeat (destruct H as [<-|H]; [try (vm_compute; reflexivity); congruence|]). destruct H.
Qed.

(** ** A network that answers *)

Lemma download_answers net unzip : answers net -> sound_zip unzip -> forall l w,
  (forall n, In n l -> In n (a_download (aux_of []))) -> sane [] w ->
  let w' := download net unzip (aux_of []) l w in
  sane [] w' /\ (forall n c, n <> codes [] -> w_file w n = Some c -> w_file w' n = Some c)
  /\ (present w (codes []) -> present w' (codes [])) /\ (forall n, In n l -> present w' n) /\ (In (codes_gz []) l -> present w' (codes [])).
Proof.
  intros A Z. induction l as [|n l IH]; intros w I S; cbn [download].
  { split; auto. split; auto. split; auto. split; [intros n []|intros []]. }
  set (w1 := match unpacked n with Some t => fst (fetch_unzip net unzip (aux_of []) n t w) | None => fst (fetch net (aux_of []) n w) end).
  assert (Q : sane [] w1 /\ (forall k c, k <> codes [] -> w_file w k = Some c -> w_file w1 k = Some c)
    /\ (present w (codes []) -> present w1 (codes [])) /\ present w1 n /\ (n = codes_gz [] -> present w1 (codes []))).
  { destruct (string_dec n (codes_gz [])) as [E|N].
    - subst n. destruct (unzip_answers net unzip [] w A Z S default_nodup) as (w' & F & P & G & S' & K).
      assert (W : w1 = w') by (unfold w1; rewrite unpacked_gz, F; reflexivity). rewrite W. auto 10.
    - assert (In n (a_download (aux_of []))) as Hn by (apply I; left; auto).
      unfold w1. rewrite (unpacked_other n Hn N).
      assert (T : In n (map fst (url_table [])) /\ In n (all_names [])).
      { rewrite default_downloads in Hn. unfold all_names. rewrite table_names. unfold kernels. cbn [In app] in *. tauto. }
      destruct (fetch_answers net [] n w A (proj1 T) (proj2 T)) as (w' & b & F & _). rewrite F. cbn [fst].
      pose proof (fetch_keeps _ _ _ _ _ _ F) as K. split.
      + intros c. rewrite (fetch_other _ _ _ _ _ _ _ F) by auto. apply S.
      + split; [intros; apply K; auto|]. split; [apply keeps_present; exact K|]. split; [eapply fetch_present; exact F|]. intros; contradiction. }
  destruct Q as (S1 & K1 & C1 & P1 & G1).
  destruct (IH w1 (fun k H => I k (or_intror H)) S1) as (S2 & K2 & C2 & P2 & G2).
  split; [exact S2|]. split; [intros; apply K2; auto|]. split; [auto|]. split.
  - intros k [<-|H]; [|auto]. destruct (string_dec n (codes [])) as [E|N].
    + rewrite E in *. auto.
    + destruct P1 as [c P1]. exists c. auto.
  - intros [E|H]; auto.
Qed.

Lemma C91_bootstrap_proof : forall net unzip dir w,
  answers net -> sound_zip unzip -> sane [] w ->
  exists w', bootstrap net unzip dir false w = (w', Ok tt)
  /\ (forall n, In n (all_names []) -> present w' n)
  /\ (forall n c, n <> meta_kernel [] -> n <> codes [] -> w_file w n = Some c -> w_file w' n = Some c)
  /\ ((forall n, In n (all_names []) -> present w n) /\ w' = w
      \/ w_file w' (meta_kernel []) = Some (Meta dir (kernels []) true)).
Proof.
  intros net unzip dir w A Z S. unfold bootstrap, andthen. cbv zeta.
  destruct (check_for_existing_files (aux_of []) w) eqn:E.
  - unfold check_for_existing_files in E. rewrite forallb_forall in E.
    assert (P : forall n, In n (all_names []) -> present w n).
    { intros n H. apply exists_file_true, E, aux_files. exact H. }
    exists w. split; [reflexivity|]. auto.
  - destruct (download_answers net unzip A Z (a_download (aux_of [])) w (fun n H => H) S) as (S1 & K1 & C1 & P1 & G1).
    set (w1 := download net unzip (aux_of []) (a_download (aux_of [])) w) in *.
    assert (Pk : forall n, In n (kernels []) -> present w1 n).
    { intros n H. apply P1. rewrite default_downloads. unfold kernels in H. cbn [In] in *. tauto. }
    destruct (build_done net dir [] w1 default_nodup Pk) as (w2 & E2 & M2 & T2 & O2).
    exists w2. split; [exact E2|]. split.
    { intros n H. destruct (string_dec n (meta_kernel [])) as [->|N]; [eexists; exact M2|].
      unfold present. rewrite (O2 n N). change (present w1 n). destruct (string_dec n (codes [])) as [->|Nc].
      - apply G1. rewrite default_downloads. cbn [In]. auto 20.
      - apply P1. rewrite default_downloads. unfold all_names, kernels in H. assert (meta_kernel [] <> n) by congruence. assert (codes [] <> n) by congruence. cbn [In app] in *. tauto. }
    split; [|right; exact M2]. intros n c Nm Nc H. rewrite (O2 n Nm). auto.
Qed.

(** ** Histories *)

Lemma write_names_ok net dir a l : forall done w w', write_names net dir a done l w = (w', Ok tt) ->
  w_file w' (a_meta a) = Some (Meta dir (done ++ l) true).
Proof.
  induction l as [|n l IH]; intros done w w'; cbn [write_names].
  - intros [= <-]. simpl. rewrite String.eqb_refl, app_nil_r. reflexivity.
  - unfold andthen. destruct (fetch net a n w) as [w1 [b|e]]; [|discriminate]. intros H. apply IH in H.
    rewrite <- app_assoc in H. exact H.
Qed.

Lemma bootstrap_ok net unzip dir force w w' : bootstrap net unzip dir force w = (w', Ok tt) ->
  w' = w \/ w_file w' (meta_kernel []) = Some (Meta dir (kernels []) true).
Proof.
  unfold bootstrap, andthen. cbv zeta.
  assert (B : forall v, build_meta_kernel_file net dir (aux_of []) v = (w', Ok tt) ->
    w_file w' (meta_kernel []) = Some (Meta dir (kernels []) true)).
  { intros v H. unfold build_meta_kernel_file in H. apply write_names_ok in H. rewrite aux_meta, aux_kernels in H. exact H. }
  destruct force.
  - destruct (remove_files net (aux_of []) (a_files (aux_of [])) w) as [w1 [[]|e]]; [|discriminate]. unfold give. intros H. right. eapply B; exact H.
  - destruct (check_for_existing_files (aux_of []) w); [unfold give; intros [= <-]; auto|]. intros H. right. eapply B; exact H.
Qed.

Lemma C91_history_proof : forall dir w w' net unzip s w2 p b m c,
  history dir w w' ->
  w_file w (meta_kernel []) = None \/ w_file w (meta_kernel []) = Some (Meta dir (kernels []) true) ->
  meta_kernel s = meta_kernel [] -> kernels s = kernels [] -> NoDup (all_names s) ->
  setup net unzip dir (aux_of s) w' = (w2, Ok (p, b, m, c)) -> m = Meta dir (kernels s) true.
Proof.
  intros dir w w' net unzip s w2 p b m c H G Em Ek ND E.
  assert (G' : w_file w' (meta_kernel []) = None \/ w_file w' (meta_kernel []) = Some (Meta dir (kernels []) true)).
  { clear E. induction H as [w|w net1 unzip1 s1 w1 r w3 E1 E2 ND1 S1 H IH|w net1 unzip1 force w1 w3 B H IH]; auto.
    - apply IH. destruct (setup_spec _ _ _ _ _ _ _ ND1 S1) as (K & N & _). rewrite E1, E2 in N.
      destruct G as [G|G]; [auto|right; apply K; exact G].
    - apply IH. destruct (bootstrap_ok _ _ _ _ _ _ B) as [->|M]; auto. }
  destruct (setup_spec _ _ _ _ _ _ _ ND E) as (K & _ & R). destruct (R _ _ _ _ eq_refl) as (_ & _ & Rm & _ & _ & Rn).
  rewrite Em in *. destruct G' as [G'|G'].
  - apply Rn. exact G'.
  - apply K in G'. rewrite Ek. congruence.
Qed.

(** ** What goes wrong *)

(** A complete cache, and the same with another planetary ephemeris. *)
Definition complete (dir : string) : world := {| w_tried := 0; w_file := fun n =>
  if String.eqb n (meta_kernel []) then Some (Meta dir (kernels []) true)
  else if existsb (String.eqb n) ("de441.bsp"%string :: "MyCodes.json.gz"%string :: all_names []) then Some (Data n) else None |}.

Lemma C91_stale_refuted_proof : forall net unzip dir, exists w s w' p b m c,
  (forall n, In n (all_names s) -> present w n) /\ NoDup (all_names s)
  /\ w_file w (meta_kernel []) = Some (Meta dir (kernels []) true)
  /\ planet_ephemeris s <> planet_ephemeris []
  /\ setup net unzip dir (aux_of s) w = (w', Ok (p, b, m, c)) /\ m = Meta dir (kernels []) true
  /\ ~ In (planet_ephemeris s) (kernels []).
Proof.
  intros. exists (complete dir), [("planet_ephemeris", "de441.bsp")]%string.
  eexists _, _, _, _, _. split.
  { intros n H. unfold present. vm_compute in H. repeat (destruct H as [<-|H]; [eexists; vm_compute; reflexivity|]). destruct H. }
  split.
  { match goal with |- NoDup ?l => assert (E : l = nodup string_dec l) by (vm_compute; reflexivity); rewrite E; apply NoDup_nodup end. }
  split; [reflexivity|]. split; [vm_compute; discriminate|]. split; [vm_compute; reflexivity|]. split; [vm_compute; reflexivity|].
  vm_compute. intuition discriminate.
Qed.

Lemma C91_codes_refuted_proof : forall net unzip dir, exists w s w' p b m,
  (forall n, In n (all_names s) -> present w n) /\ NoDup (all_names s) /\ codes_gz s <> codes_gz []
  /\ setup net unzip dir (aux_of s) w = (w', Ok (p, b, m, Data (codes []))) /\ w_file w (codes []) = Some (Data (codes [])).
Proof.
  intros. exists (complete dir), [("observatory_codes_compressed", "MyCodes.json.gz")]%string.
  eexists _, _, _, _. split.
  { intros n H. unfold present. vm_compute in H. repeat (destruct H as [<-|H]; [eexists; vm_compute; reflexivity|]). destruct H. }
  split.
  { match goal with |- NoDup ?l => assert (E : l = nodup string_dec l) by (vm_compute; reflexivity); rewrite E; apply NoDup_nodup end. }
  split; [vm_compute; discriminate|]. split; vm_compute; reflexivity.
Qed.

(** The empty cache. *)
Definition nothing : world := {| w_file := fun _ => None; w_tried := 0 |}.

Lemma C91_truncated_refuted_proof : forall dir, exists net1 net2 unzip w1 w2 p b names c,
  bootstrap net1 unzip dir false nothing = (w1, Err OSError)
  /\ answers net2 /\ setup net2 unzip dir (aux_of []) w1 = (w2, Ok (p, b, Meta dir names false, c))
  /\ names <> kernels [].
Proof.
  intro dir.
  exists (fun k u => if String.eqb u "https://naif.jpl.nasa.gov/pub/naif/generic_kernels/pck/earth_620120_250826.bpc" then None else Some u).
  exists (fun k u => Some u), (fun d => Some d). eexists _, _, _, _, _, _.
  split; [vm_compute; reflexivity|]. split; [intros k u; eauto|]. split; [vm_compute; reflexivity|]. vm_compute. discriminate.
Qed.

Lemma C91_force_refuted_proof : forall dir, exists w, (forall n, In n (all_names []) -> n <> meta_kernel [] -> present w n)
  /\ forall net unzip, exists w', bootstrap net unzip dir true w = (w', Err ValueError)
       /\ present w (leap_seconds []) /\ w_file w' (leap_seconds []) = None.
Proof.
  intro dir. exists (remove (meta_kernel []) (complete dir)). split.
  { intros n H N. unfold present. vm_compute in H. repeat (destruct H as [<-|H]; [first [eexists; vm_compute; reflexivity|exfalso; apply N; vm_compute; reflexivity]|]). destruct H. }
  intros. eexists. split; [vm_compute; reflexivity|]. split; [eexists; vm_compute; reflexivity|vm_compute; reflexivity].
Qed.

Lemma C91_silent_refuted_proof : forall dir, exists net unzip w', bootstrap net unzip dir false nothing = (w', Ok tt)
  /\ w_file w' (codes []) = None /\ w_file w' (codes_gz []) = None.
Proof.
  intro dir.
  exists (fun k u => if String.eqb u "https://minorplanetcenter.net/Extended_Files/obscodes_extended.json.gz" then None else Some u), (fun d => Some d).
  eexists. split; [vm_compute; reflexivity|]. split; vm_compute; reflexivity.
Qed.
