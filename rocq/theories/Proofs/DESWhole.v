(** C122: the result file of a Dark Energy Survey run without random
    decisions. *)
From Coq Require Import String List Arith ZArith QArith Qabs Bool Lia Sorting.Sorted Sorting.Permutation.
From Verif Require Import Base.Prelude Base.Num Base.Frame Base.Sort Model.Filters Model.Linking Model.Readers
  Model.Driver Model.Pipeline Model.DES Model.DESPipeline Model.Output Model.Library Model.WholeRun
  Spec.Filters Spec.Linking Spec.Readers Spec.Driver Spec.Pipeline Spec.Catalogue Spec.DES Spec.DESPipeline Spec.DESCatalogue Spec.Output Spec.Library
  Proofs.Filters Proofs.Driver Proofs.Pipeline Proofs.Chunking Proofs.DES Proofs.DESPipeline Proofs.Catalogue
  Proofs.Output Proofs.Library Proofs.WholeRun.
Import ListNotations.
Open Scope nat_scope.

(** In a run that ends well every row of the complete table has been in a round. *)
Lemma every_row : forall E R S O (process : S -> list (joined E R) -> result (S * option (list O)))
    (EPH : list (string * E)) ephem (aux0 : nat -> option nat -> result (list (string * R))) others tables T,
  exact_reader EPH ephem -> (forall s n, aux0 s n = Ok (slice s n T)) ->
  Forall2 exact_reader tables others ->
  NoDup (map fst T) -> (forall X, In X tables -> NoDup (map fst X)) ->
  (forall i, In i (map fst T) -> forall X, In X tables -> In i (map fst X)) ->
  forall k rounds s0 tr, 0 < k ->
  run (read_external aux0 ephem others) process rounds (Z.of_nat (length T)) (Z.of_nat k) s0 = (Done, tr) ->
  forall j, In j (map (@join1 E R tables T) (filter (fun e => existsb (String.eqb (fst e)) (map fst T)) EPH)) ->
  exists js' s s' ol, process s js' = Ok (s', ol) /\ In j js'.
Proof.
  intros E R S O process EPH ephem aux0 others tables T He Ha Hoth HT HX Hi k rounds s0 tr Hk Er j Hj.
  destruct (C13_external_proof _ _ _ _ EPH ephem aux0 others tables T _ k He Ha Hoth HT HX Hi Hk _ _ _ _ Er)
    as [blocks [HF [Hcut [Hcat _]]]].
  assert (Hst := trace_steps _ _ _ _ _ _ _ _ _ _ _ Er).
  assert (Hjt : exists b js', In js' (map fst tr) /\ In b blocks /\ ext_block EPH tables b js' /\ In j js').
  { apply in_map_iff in Hj. destruct Hj as [e [<- Hj]]. apply filter_In in Hj. destruct Hj as [He1 He2].
    apply existsb_exists in He2. destruct He2 as [i [He2 He3]]. apply String.eqb_eq in He3. subst i.
    apply in_map_iff in He2. destruct He2 as [r [Hr1 Hr2]]. rewrite <- Hcat in Hr2. apply in_concat in Hr2.
    destruct Hr2 as [b [Hb Hr]].
    assert (G : forall bl cs, Forall2 (ext_block EPH tables) bl cs -> In b bl -> exists js', In js' cs /\ ext_block EPH tables b js').
    { intros bl cs G. induction G as [|x y bl cs Hxy _ IH]; intros []; [subst; exists y; split; [left|]; auto|].
      destruct IH as [js' [? ?]]; auto. exists js'. split; [right|]; auto. }
    destruct (G _ _ HF Hb) as [js' [Hj1 Hj2]]. exists b, js'. split; auto. split; auto. split; auto.
    rewrite (block_rows EPH tables T HT HX b js'); auto.
    - apply in_map. apply filter_In. split; auto. apply existsb_exists. exists (fst e). split; [|apply String.eqb_refl].
      rewrite <- Hr1. apply in_map; auto.
    - intros r' Hr'. rewrite <- Hcat. apply in_concat. eauto. }
  destruct Hjt as (b & js' & Hin & _ & _ & Hj').
  apply in_map_iff in Hin. destruct Hin as [[js'' ol] [<- Hin]]. rewrite Forall_forall in Hst.
  destruct (Hst _ Hin) as (s & s' & Hpr). cbn [fst snd] in *. exists js'', s, s', ol. auto.
Qed.

(** The blocks that are read are part of the complete table. *)
Lemma block_part : forall E R (EPH : list (string * E)) (T : list (string * R)) tables,
  NoDup (map fst T) -> (forall X, In X tables -> NoDup (map fst X)) ->
  forall b js', (forall r, In r b -> In r T) -> ext_block EPH tables b js' ->
  forall j, In j js' -> In j (map (@join1 E R tables T) (filter (fun e => existsb (String.eqb (fst e)) (map fst T)) EPH)).
Proof.
  intros E R EPH T tables HT HX b js' Hb Hx j Hj. rewrite (block_rows EPH tables T HT HX b js' Hb Hx) in Hj.
  apply in_map_iff in Hj. destruct Hj as [e [<- Hj]]. apply in_map. apply filter_In in Hj. destruct Hj as [H1 H2].
  apply filter_In. split; auto. apply existsb_exists in H2. destruct H2 as [i [H2 H3]]. apply existsb_exists.
  exists i. split; auto. apply in_map_iff in H2. destruct H2 as [r [<- H2]]. apply in_map. auto.
Qed.

Section Round.
Context {E P : Type}.
Variable eid : E -> string.
Variable efield : E -> Z.
Variables etime ex ey ez erarate edecrate : E -> Q.
Variable pfield : P -> Z.
Variable pfilt : P -> option string.
Variable pstart : P -> Q.
Variable pointings : list P.
Variable physics : E -> P -> columns.
Variable fsep : obs E P -> num.
Variable prob : obs E P -> num.
Variables fov drop : nat -> num.
Variable dsort : list (obs E P) -> list (obs E P).
Variable cfg : des_settings E P.
Notation proc := (des_process eid efield etime ex ey ez erarate edecrate pfield pfilt pstart pointings physics fsep prob fov drop dsort cfg).
Notation detect := (des_detections efield etime pfield pfilt pstart pointings physics fsep prob fov drop cfg).

Lemma des_timely : forall st js st' ol, proc st js = Ok (st', ol) -> timely efield etime pfield pfilt pstart pointings js.
Proof.
  intros st js st' ol H j p Hj Hp Hf Hn. unfold des_process in H. destruct js as [|j0 js0]; [destruct Hj|].
  set (js := j0 :: js0) in *. clearbody js.
  destruct (des_detections _ _ _ _ _ _ _ _ _ _ _ _ _ _) as [[st1 f]|e] eqn:Ed; cbn [rbind] in H; [|discriminate].
  unfold des_detections in Ed.
  destruct (PPMatchPointing _ _ _ _ _ _ _) as [m|e] eqn:Em in Ed; cbn [rbind] in Ed; [|discriminate].
  apply match_ok in Em. destruct Em as [-> Hc].
  specialize (Hc (j, p)). cbn [fst snd] in Hc. apply Qle_bool_iff. apply Hc.
  apply (in_matched efield etime pfield pfilt pstart). cbn [fst snd]. auto.
Qed.
Lemma des_substantial : substantial proc.
Proof.
  intros s c s' H. unfold des_process in H. destruct c as [|j js]; [discriminate|].
  destruct (des_detections _ _ _ _ _ _ _ _ _ _ _ _ _ _) as [r|e]; [|discriminate]. cbn [rbind] in H.
  destruct (motion_stage _ _ _ _) as [f|e]; [|discriminate]. cbn [rmap rbind] in H.
  destruct (discovery_stage _ _ _ _ _ _ _ _); discriminate.
Qed.
(** Without an SNR limit the detections are those of the shared stages. *)
Lemma detect_shared : s_snr cfg = None -> forall noise gauss st js,
  detect st js = Model.Pipeline.detections efield etime pfield pfilt pstart pointings physics noise fsep prob gauss fov drop (base cfg) st js.
Proof.
  intros N noise gauss st js. unfold des_detections, Model.Pipeline.detections. destruct (PPMatchPointing _ _ _ _ _ _ _) as [m|e]; [|reflexivity]. cbn [rbind].
  assert (Er : forall f0, randomize noise gauss (base cfg) st f0 = (st, f0)) by (intro; unfold randomize; reflexivity). rewrite Er. cbn [fst snd].
  destruct (fov_stage _ _ _ _ _) as [r|e]; [|reflexivity]. cbn [rbind]. unfold des_snr_stage. rewrite N. cbn [rbind]. reflexivity.
Qed.
Lemma des_total : deterministic (base cfg) -> s_snr cfg = None -> limits_fit (base cfg) ->
  forall st js, timely efield etime pfield pfilt pstart pointings js -> exists st' ol, proc st js = Ok (st', ol).
Proof.
  intros det N L st js Ht. unfold des_process. destruct js as [|j js0]; [eauto|]. set (js := j :: js0) in *.
  assert (Hd : exists x, detect st js = Ok x).
  { rewrite (detect_shared N (fun _ _ _ c => c) fov).
    destruct (process_total eid efield etime pfield pfilt pstart pointings physics (fun _ _ _ c => c) fsep prob fov fov drop (fun _ _ => NaN)
      (sort_by (fun o : obs E P => etime (o_eph o))) (fun _ _ => NaN) (fun l => l) (fun _ _ _ => 0%Z) (base cfg) det) with (st := st) (js := js) as (st' & ol & H).
    - intro l. split; [apply sort_by_perm|apply sort_by_sorted].
    - intros c d Hc. cbn in Hc. discriminate.
    - exact Ht.
    - exact L.
    - intros c d Hc. cbn in Hc. discriminate.
    - unfold process in H. unfold js in H at 1. destruct (Model.Pipeline.detections _ _ _ _ _ _ _ _ _ _ _ _ _ _ _ js) as [x|e]; [eauto|discriminate]. }
  destruct Hd as [[st1 f] Hd]. rewrite Hd. cbn [rbind fst snd].
  assert (Hc := des_consistent efield etime pfield pfilt pstart pointings physics fsep prob fov drop cfg _ _ _ _ Hd).
  destruct (motion_rows erarate edecrate fsep prob fov drop cfg (distance_stage eid ex ey ez cfg f)) as (g & Hg & _).
  { apply distance_consistent. exact Hc. }
  rewrite Hg. cbn [rmap rbind]. eauto.
Qed.
End Round.

Lemma des_whole : forall E P R (efield : joined E R -> Z) (etime ex ey ez erarate edecrate : joined E R -> Q)
    (pfield : P -> Z) (pfilt : P -> option string) (pstart : P -> Q) pointings physics fsep prob fov drop dsort
    (cfg : des_settings (joined E R) P)
    (EPH : list (string * E)) ephem (aux0 : nat -> option nat -> result (list (string * R))) others tables T,
  (forall l, Permutation (dsort l) l) -> sane_bounds (s_distance cfg) -> sane_bounds (s_motion cfg) ->
  deterministic (Spec.DESPipeline.requested cfg) ->
  exact_reader EPH ephem -> (forall s n, aux0 s n = Ok (slice s n T)) ->
  Forall2 exact_reader tables others ->
  NoDup (map fst T) -> (forall X, In X tables -> NoDup (map fst X)) ->
  (forall i, In i (map fst T) -> forall X, In X tables -> In i (map fst X)) ->
  exists js D kept,
    complete_table EPH T tables js /\
    detected efield pfield pfilt physics fsep (Spec.DESPipeline.requested cfg) pointings js D /\
    des_catalogued (fun j => fst (fst j)) etime ex ey ez erarate edecrate cfg D kept /\
    forall k rounds s0, 0 < k ->
      let outcome := run (read_external aux0 ephem others)
        (des_process (fun j => fst (fst j)) efield etime ex ey ez erarate edecrate pfield pfilt pstart pointings physics fsep prob
           fov drop dsort cfg) rounds (Z.of_nat (length T)) (Z.of_nat k) s0 in
      (fst outcome = Done ->
         timely efield etime pfield pfilt pstart pointings js /\ Permutation (concat (written (snd outcome))) kept) /\
      (timely efield etime pfield pfilt pstart pointings js -> limits_fit (Spec.DESPipeline.requested cfg) -> s_snr cfg = None ->
         length T <= rounds * k -> fst outcome = Done).
Proof.
  intros E P R efield etime ex ey ez erarate edecrate pfield pfilt pstart pointings physics fsep prob fov drop dsort cfg
    EPH ephem aux0 others tables T Hd Sd Sm det He Ha Hoth HT HX Hi.
  change (Spec.DESPipeline.requested cfg) with (base cfg) in *.
  set (eid := fun j : joined E R => fst (fst j)).
  set (js := map (@join1 E R tables T) (filter (fun e => existsb (String.eqb (fst e)) (map fst T)) EPH)).
  set (D := flat_map (yields efield pfield pfilt pointings physics fsep (base cfg)) js).
  exists js, D, (own eid efield etime ex ey ez erarate edecrate pfield pfilt pointings physics fsep cfg js).
  split; [apply complete_join; auto|]. split; [apply (yields_detected efield pfield pfilt pointings physics (fun _ _ _ c => c) fsep prob (fun _ _ => NaN))|]. split.
  { exists (fun mine => discovered (fun o : obs (joined E R) P => etime (o_eph o)) (fun o => ex (o_eph o)) (fun o => ey (o_eph o)) (fun o => ez (o_eph o)) mine = true).
    split; [intros mine; apply seen_sound; reflexivity|]. split; [intros mine; apply seen_complete|].
    destruct (survivors_spec eid etime ex ey ez erarate edecrate cfg Sd Sm D) as (A1 & A2 & A3).
    eexists. eexists. split; [exact A1|]. split; [exact A2|]. exact A3. }
  intros k rounds s0 Hk. cbv zeta.
  set (proc := des_process eid efield etime ex ey ez erarate edecrate pfield pfilt pstart pointings physics fsep prob fov drop dsort cfg).
  split.
  - match goal with |- context [run ?a ?b ?c ?d ?e ?f] => destruct (run a b c d e f) as [stt tr] eqn:Er end. cbn [fst snd]. intros ->. split.
    + intros j p Hj Hp Hf Hnn.
      destruct (every_row E R _ _ proc EPH ephem aux0 others tables T He Ha Hoth HT HX Hi k rounds s0 tr Hk Er j Hj) as (js' & s & s' & ol & Hpr & Hj').
      eapply des_timely; eauto.
    + apply (chunk_all E R rng (obs (joined E R) P) (fun o => fst (fst (o_eph o)))
        (own eid efield etime ex ey ez erarate edecrate pfield pfilt pointings physics fsep cfg) proc EPH ephem aux0 others tables T)
        with (k := k) (rounds := rounds) (s0 := s0); auto.
      * intros p js0. unshelve eapply (own_only eid); try eassumption; exact (fun _ => 0%Q).
      * intros. eapply process_own; eauto.
  - intros Ht Hb Hs Hrd.
    destruct (loop_total _ _ _ (read_external aux0 ephem others) proc
       (fun js' => forall j, In j js' -> In j js) k _ T Hk) with (rounds := rounds) (s0 := s0) as [tr Htr]; auto.
    + intros s Hs'. destruct (ext_reads E R EPH ephem aux0 others tables T k He Ha Hoth HT HX Hi Hk s Hs') as [c [Hc Hx]].
      exists c. split; auto. eapply block_part; [exact HT|exact HX| |exact Hx]. intros r Hr. unfold slice in Hr.
      rewrite <- (firstn_skipn s T). apply in_or_app. right. rewrite <- (firstn_skipn k (skipn s T)). apply in_or_app. left. exact Hr.
    + intros s c Hc. apply des_total; auto. intros j p Hj. apply Ht; auto.
    + exact (f_equal fst Htr).
Qed.

Lemma C122_csv_proof : forall E P R (efield : joined E R -> Z) (etime ex ey ez erarate edecrate : joined E R -> Q)
    (pfield : P -> Z) (pfilt : P -> option string) (pstart : P -> Q) pointings physics fsep prob fov drop dsort
    (cfg : des_settings (joined E R) P)
    (EPH : list (string * E)) ephem (aux0 : nat -> option nat -> result (list (string * R))) others tables T
    V W norm3 round (missing : V) (stat_of : table V -> list W) cs cell wanted ocfg d0,
  (forall l, Permutation (dsort l) l) -> sane_bounds (s_distance cfg) -> sane_bounds (s_motion cfg) ->
  deterministic (Spec.DESPipeline.requested cfg) ->
  exact_reader EPH ephem -> (forall s n, aux0 s n = Ok (slice s n T)) ->
  Forall2 exact_reader tables others ->
  NoDup (map fst T) -> (forall X, In X tables -> NoDup (map fst X)) ->
  (forall i, In i (map fst T) -> forall X, In X tables -> In i (map fst X)) ->
  available ocfg cs -> clean d0 ->
  exists js D kept,
    complete_table EPH T tables js /\
    detected efield pfield pfilt physics fsep (Spec.DESPipeline.requested cfg) pointings js D /\
    des_catalogued (fun j => fst (fst j)) etime ex ey ez erarate edecrate cfg D kept /\
    forall k rounds s0, 0 < k ->
      let outcome := simulation norm3 round missing stat_of (read_external aux0 ephem others)
        (tabulated cs cell (des_process (fun j => fst (fst j)) efield etime ex ey ez erarate edecrate pfield pfilt pstart pointings physics fsep prob
           fov drop dsort cfg))
        false wanted Csv ocfg rounds (Z.of_nat (length T)) (Z.of_nat k) s0 d0 in
      (fst (snd outcome) = Done ->
         timely efield etime pfield pfilt pstart pointings js /\
         exists out, Permutation out kept /\ d_db (fst outcome) = None /\
           d_csv (fst outcome) = match out with
                                 | [] => None
                                 | _ => Some (Head (requested ocfg cs) :: map Data (rows_shown norm3 round ocfg cs (map cell out)))
                                 end) /\
      (timely efield etime pfield pfilt pstart pointings js -> limits_fit (Spec.DESPipeline.requested cfg) -> s_snr cfg = None ->
         length T <= rounds * k -> fst (snd outcome) = Done).
Proof.
  intros E P R efield etime ex ey ez erarate edecrate pfield pfilt pstart pointings physics fsep prob fov drop dsort cfg
    EPH ephem aux0 others tables T V W norm3 round missing stat_of cs cell wanted ocfg d0 H1 H2 H3 H4 H5 H6 H7 H8 H9 H10 A K.
  destruct (des_whole E P R efield etime ex ey ez erarate edecrate pfield pfilt pstart pointings physics fsep prob fov drop dsort
    cfg EPH ephem aux0 others tables T H1 H2 H3 H4 H5 H6 H7 H8 H9 H10) as (js & D & kept & C & Dd & Dk & M).
  exists js, D, kept. split; [exact C|]. split; [exact Dd|]. split; [exact Dk|]. intros k rounds s0 Hk. specialize (M k rounds s0 Hk). cbv zeta in M |- *.
  destruct M as [M1 M2].
  match type of M1 with context [run ?r ?p _ _ _ _] =>
    destruct (file_csv norm3 round missing stat_of cs cell r p (des_substantial _ _ _ _ _ _ _ _ _ _ _ _ _ _ _ _ _ _ _)
      wanted ocfg rounds (Z.of_nat (length T)) (Z.of_nat k) s0 d0 A K) as (d1 & Ed & Eb & Ec) end.
  lazymatch goal with |- context [fst (snd ?o)] => assert (Eo : o = _) by exact Ed; rewrite Eo end. cbn [fst snd]. split; [|exact M2].
  intros Dn. destruct (M1 Dn) as [Ti Ca]. split; [exact Ti|]. eexists. split; [exact Ca|]. split; [exact Eb|exact Ec].
Qed.

Lemma C122_sqlite_proof : forall E P R (efield : joined E R -> Z) (etime ex ey ez erarate edecrate : joined E R -> Q)
    (pfield : P -> Z) (pfilt : P -> option string) (pstart : P -> Q) pointings physics fsep prob fov drop dsort
    (cfg : des_settings (joined E R) P)
    (EPH : list (string * E)) ephem (aux0 : nat -> option nat -> result (list (string * R))) others tables T
    V W norm3 round (missing : V) (stat_of : table V -> list W) cs cell wanted ocfg d0,
  (forall l, Permutation (dsort l) l) -> sane_bounds (s_distance cfg) -> sane_bounds (s_motion cfg) ->
  deterministic (Spec.DESPipeline.requested cfg) ->
  exact_reader EPH ephem -> (forall s n, aux0 s n = Ok (slice s n T)) ->
  Forall2 exact_reader tables others ->
  NoDup (map fst T) -> (forall X, In X tables -> NoDup (map fst X)) ->
  (forall i, In i (map fst T) -> forall X, In X tables -> In i (map fst X)) ->
  available ocfg cs -> clean d0 ->
  ~ In "level_0"%string (requested ocfg cs) -> (forall c, In c indexed_columns -> In c (requested ocfg cs)) ->
  exists js D kept,
    complete_table EPH T tables js /\
    detected efield pfield pfilt physics fsep (Spec.DESPipeline.requested cfg) pointings js D /\
    des_catalogued (fun j => fst (fst j)) etime ex ey ez erarate edecrate cfg D kept /\
    forall k rounds s0, 0 < k ->
      let outcome := simulation norm3 round missing stat_of (read_external aux0 ephem others)
        (tabulated cs cell (des_process (fun j => fst (fst j)) efield etime ex ey ez erarate edecrate pfield pfilt pstart pointings physics fsep prob
           fov drop dsort cfg))
        false wanted Sqlite3 ocfg rounds (Z.of_nat (length T)) (Z.of_nat k) s0 d0 in
      (fst (snd outcome) = Done ->
         timely efield etime pfield pfilt pstart pointings js /\
         exists out, Permutation out kept /\ d_csv (fst outcome) = None /\
           option_map (@db_table V) (d_db (fst outcome))
           = match out with
             | [] => None
             | _ => Some (requested ocfg cs, rows_shown norm3 round ocfg cs (map cell out))
             end) /\
      (timely efield etime pfield pfilt pstart pointings js -> limits_fit (Spec.DESPipeline.requested cfg) -> s_snr cfg = None ->
         length T <= rounds * k -> fst (snd outcome) = Done).
Proof.
  intros E P R efield etime ex ey ez erarate edecrate pfield pfilt pstart pointings physics fsep prob fov drop dsort cfg
    EPH ephem aux0 others tables T V W norm3 round missing stat_of cs cell wanted ocfg d0 H1 H2 H3 H4 H5 H6 H7 H8 H9 H10 A K NL IX.
  destruct (des_whole E P R efield etime ex ey ez erarate edecrate pfield pfilt pstart pointings physics fsep prob fov drop dsort
    cfg EPH ephem aux0 others tables T H1 H2 H3 H4 H5 H6 H7 H8 H9 H10) as (js & D & kept & C & Dd & Dk & M).
  exists js, D, kept. split; [exact C|]. split; [exact Dd|]. split; [exact Dk|]. intros k rounds s0 Hk. specialize (M k rounds s0 Hk). cbv zeta in M |- *.
  destruct M as [M1 M2].
  match type of M1 with context [run ?r ?p _ _ _ _] =>
    destruct (file_sqlite norm3 round missing stat_of cs cell r p (des_substantial _ _ _ _ _ _ _ _ _ _ _ _ _ _ _ _ _ _ _)
      wanted ocfg rounds (Z.of_nat (length T)) (Z.of_nat k) s0 d0 A K NL IX) as (d1 & Ed & Eb & Ec) end.
  lazymatch goal with |- context [fst (snd ?o)] => assert (Eo : o = _) by exact Ed; rewrite Eo end. cbn [fst snd]. split; [|exact M2].
  intros Dn. destruct (M1 Dn) as [Ti Ca]. split; [exact Ti|]. eexists. split; [exact Ca|]. split; [exact Eb|exact Ec].
Qed.
