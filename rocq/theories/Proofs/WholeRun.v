(** C121: the result file of a run without random decisions. *)
From Coq Require Import String List Arith ZArith QArith Qabs Bool Lia Sorting.Sorted Sorting.Permutation.
From Verif Require Import Base.Prelude Base.Num Base.Frame Model.Filters Model.Linking Model.Readers
  Model.Driver Model.Pipeline Model.Output Model.Library Model.WholeRun
  Spec.Filters Spec.Linking Spec.Readers Spec.Driver Spec.Pipeline Spec.Catalogue Spec.Output Spec.Library
  Proofs.Output Proofs.Library Proofs.Filters Proofs.LinkProps Proofs.Pipeline Proofs.Catalogue.
Import ListNotations.
Open Scope nat_scope.

Lemma loop_tabulated : forall V O S C cs (cell : O -> string -> V) (read : nat -> Z -> result (nat * option C)) process rounds lenf size (st : loop_state S),
  main_loop read (tabulated cs cell process) rounds lenf size st
  = (fst (main_loop read process rounds lenf size st),
     map (fun x => (fst x, option_map (frame_of cs cell) (snd x))) (snd (main_loop read process rounds lenf size st))).
Proof.
  intros V O S C cs cell read process rounds. induction rounds as [|k IH]; intros lenf size st; cbn [main_loop].
  - destruct (endChunk st <? lenf)%Z; reflexivity.
  - destruct (endChunk st <? lenf)%Z; [|reflexivity].
    destruct (read (block_start st) size) as [[n [c|]]|e]; [|reflexivity|reflexivity].
    unfold tabulated at 1. destruct (process (inner st) c) as [[s' o]|e]; cbn [rmap rbind fst snd]; [|reflexivity].
    rewrite IH. cbn [fst snd map]. reflexivity.
Qed.
Lemma written_tabulated : forall V O C cs (cell : O -> string -> V) (tr : list (C * option (list O))),
  written (map (fun x => (fst x, option_map (frame_of cs cell) (snd x))) tr) = map (frame_of cs cell) (written tr).
Proof.
  intros V O C cs cell tr. induction tr as [|[c [l|]] tr IH]; cbn; [reflexivity| |]; unfold written in IH; rewrite IH; reflexivity.
Qed.
Lemma frames_recs : forall V O cs (cell : O -> string -> V) (ls : list (list O)),
  concat (map t_recs (map (frame_of cs cell) ls)) = map cell (concat ls).
Proof. intros V O cs cell ls. induction ls as [|l ls IH]; [reflexivity|]. cbn. rewrite IH, map_app. reflexivity. Qed.

(** Rounds write only if they have something. *)
Definition substantial {S C O} (process : S -> C -> result (S * option (list O))) : Prop :=
  forall s c s', process s c <> Ok (s', Some []).
Lemma written_some : forall S C O (read : nat -> Z -> result (nat * option C)) (process : S -> C -> result (S * option (list O))), substantial process ->
  forall rounds lenf size st, concat (written (snd (main_loop read process rounds lenf size st))) = [] ->
  written (snd (main_loop read process rounds lenf size st)) = [].
Proof.
  intros S C O read process P rounds. induction rounds as [|k IH]; intros lenf size st; cbn [main_loop].
  - destruct (endChunk st <? lenf)%Z; reflexivity.
  - destruct (endChunk st <? lenf)%Z; [|reflexivity].
    destruct (read (block_start st) size) as [[n [c|]]|e]; [|reflexivity|reflexivity].
    destruct (process (inner st) c) as [[s' o]|e] eqn:E; [|reflexivity]. cbn [snd].
    destruct o as [[|x l]|]; [exfalso; exact (P _ _ _ E)|discriminate|]. apply IH.
Qed.

Section F.
Context {V W S C O : Type}.
Variable norm3 : V -> V -> V -> V.
Variable round : nat -> V -> V.
Variable missing : V.
Variable stat_of : table V -> list W.
Variable cs : list string.
Variable cell : O -> string -> V.
Variable read : nat -> Z -> result (nat * option C).
Variable process : S -> C -> result (S * option (list O)).
Hypothesis solid : substantial process.

Lemma frames_named : forall ls, Forall (fun t : table V => t_names t = cs) (map (frame_of cs cell) ls).
Proof. intros ls. apply Forall_forall. intros t Ht. apply in_map_iff in Ht. destruct Ht as (l & <- & _). reflexivity. Qed.

Lemma file_csv : forall w cfg rounds lenf size s d0, available cfg cs -> clean d0 ->
  exists d1,
    simulation norm3 round missing stat_of read (tabulated cs cell process) false w Csv cfg rounds lenf size s d0
      = (d1, (fst (run read process rounds lenf size s), None))
    /\ d_db d1 = None
    /\ d_csv d1 = match concat (written (snd (run read process rounds lenf size s))) with
                  | [] => None
                  | _ => Some (Head (requested cfg cs) :: map Data (rows_shown norm3 round cfg cs (map cell (concat (written (snd (run read process rounds lenf size s)))))))
                  end.
Proof.
  intros w cfg rounds lenf size s d0 A (K1 & K2 & K3).
  assert (N := written_some S C O read process solid rounds lenf size (initial s)).
  unfold simulation, run. rewrite loop_tabulated. destruct (main_loop read process rounds lenf size (initial s)) as [stt tr].
  cbn [fst snd] in *. rewrite written_tabulated. set (ls := written tr) in *.
  destruct (writes_csv_ok V W norm3 round stat_of w cfg cs (map (frame_of cs cell) ls) ([], []) d0 A (frames_named ls)) as [d' E].
  assert (P := outputs_csv norm3 round stat_of w cfg (map (frame_of cs cell) ls) ([], []) d0). rewrite E in *. destruct P as (_ & P1 & P2 & _).
  exists d'. split; [destruct stt; reflexivity|]. split; [congruence|].
  rewrite K1 in P1. apply (C21_csv_proof _ _ _ _ cs) in P1; [|apply frames_named]. rewrite P1, frames_recs.
  destruct (concat ls) as [|x out] eqn:Ec; [rewrite N by reflexivity; reflexivity|].
  destruct ls as [|l ls]; [discriminate|]. cbn [map]. unfold rows_shown. change (cell x :: map cell out) with (map cell (x :: out)). rewrite !map_map. reflexivity.
Qed.

Lemma file_sqlite : forall w cfg rounds lenf size s d0, available cfg cs -> clean d0 ->
  ~ In "level_0"%string (requested cfg cs) -> (forall c, In c indexed_columns -> In c (requested cfg cs)) ->
  exists d1,
    simulation norm3 round missing stat_of read (tabulated cs cell process) false w Sqlite3 cfg rounds lenf size s d0
      = (d1, (fst (run read process rounds lenf size s), None))
    /\ d_csv d1 = None
    /\ option_map (@db_table V) (d_db d1) = match concat (written (snd (run read process rounds lenf size s))) with
                  | [] => None
                  | _ => Some (requested cfg cs, rows_shown norm3 round cfg cs (map cell (concat (written (snd (run read process rounds lenf size s))))))
                  end.
Proof.
  intros w cfg rounds lenf size s d0 A (K1 & K2 & K3) NL IX.
  assert (NL' : forall c, In c (requested cfg cs) -> c <> "level_0"%string) by (intros c Hc ->; contradiction).
  assert (N := written_some S C O read process solid rounds lenf size (initial s)).
  unfold simulation, run. rewrite loop_tabulated. destruct (main_loop read process rounds lenf size (initial s)) as [stt tr].
  cbn [fst snd] in *. rewrite written_tabulated. set (ls := written tr) in *.
  assert (T0 : table_at d0 = None) by (unfold table_at; rewrite K2; reflexivity).
  destruct (sql_succeeds V norm3 round cfg cs (map (frame_of cs cell) ls) None A NL' (frames_named ls) I) as [f Hf].
  assert (P := outputs_sql norm3 round stat_of w cfg (map (frame_of cs cell) ls) ([], []) d0). rewrite T0, Hf in P.
  destruct (outputs _ _ _ _ _ _ _ _ _ _) as [d' [k|e]]; [|discriminate]. destruct P as (-> & P1 & P2 & P3 & _).
  injection P1 as P1. apply (C21_sql_proof _ _ _ _ cs) in Hf; [|apply frames_named|exact NL']. rewrite P1, frames_recs in Hf.
  assert (D : table_at d' = match concat ls with [] => None | _ => Some (requested cfg cs, rows_shown norm3 round cfg cs (map cell (concat ls))) end).
  { rewrite Hf. destruct (concat ls) as [|x out] eqn:Ec; [rewrite N by reflexivity; reflexivity|]. destruct ls as [|l ls]; [discriminate|]. reflexivity. }
  unfold table_at in *. destruct stt.
  - unfold index_output. destruct (d_db d') as [b|] eqn:Eb.
    + specialize (P3 b eq_refl). rewrite K2 in P3. rewrite indexes_fresh; [|exact P3|].
      * cbn [finish]. eexists. split; [reflexivity|]. cbn [d_csv d_db option_map db_table]. split; [congruence|exact D].
      * destruct (concat ls); [discriminate|]. injection D as ->. exact IX.
    + cbn [finish]. exists d'. split; [reflexivity|]. rewrite Eb. split; [congruence|exact D].
  - exists d'. split; [reflexivity|]. split; [congruence|]. destruct (d_db d'); exact D.
  - exists d'. split; [reflexivity|]. split; [congruence|]. destruct (d_db d'); exact D.
Qed.
End F.

Lemma process_substantial : forall E P (eid : E -> string) efield etime (pfield : P -> Z) pfilt pstart pointings physics noise fsep prob
    gauss fov drop lsep tsort ldraws osort lweights cfg,
  substantial (process eid efield etime pfield pfilt pstart pointings physics noise fsep prob
            gauss fov drop lsep tsort ldraws osort lweights cfg).
Proof.
  intros. intros s c s' H. unfold process in H. destruct c as [|j js]; [discriminate|].
  destruct (detections _ _ _ _ _ _ _ _ _ _ _ _ _ _ _ _) as [r|e]; [|discriminate]. cbn [rbind] in H.
  destruct (link_stage _ _ _ _ _ _ _ _ _ _) as [[s1 l]|e]; [|discriminate]. cbn in H. destruct l; discriminate.
Qed.

Lemma C121_csv_proof : forall E P R (efield : joined E R -> Z) (etime : joined E R -> Q) (pfield : P -> Z) (pfilt : P -> option string)
    (pstart : P -> Q) pointings physics noise fsep prob gauss fov drop lsep tsort ldraws osort lweights
    (cfg : settings (joined E R) P)
    (EPH : list (string * E)) ephem (aux0 : nat -> option nat -> result (list (string * R))) others tables T
    V W norm3 round (missing : V) (stat_of : table V -> list W) cs cell wanted ocfg d0,
  deterministic cfg -> sure_linking cfg ldraws lweights ->
  sorter (fun x : obs (joined E R) P * bool * option Z => etime (o_eph (fst (fst x)))) osort ->
  sorter (fun o : obs (joined E R) P => etime (o_eph o)) tsort ->
  exact_reader EPH ephem -> (forall s n, aux0 s n = Ok (slice s n T)) ->
  Forall2 exact_reader tables others ->
  NoDup (map fst T) -> (forall X, In X tables -> NoDup (map fst X)) ->
  (forall i, In i (map fst T) -> forall X, In X tables -> In i (map fst X)) ->
  available ocfg cs -> clean d0 ->
  exists js D,
    complete_table EPH T tables js /\
    detected efield pfield pfilt physics fsep cfg pointings js D /\
    (night_time etime cfg D -> forall k rounds s0, 0 < k ->
       let outcome := simulation norm3 round missing stat_of (read_external aux0 ephem others)
         (tabulated cs cell (process (fun j => fst (fst j)) efield etime pfield pfilt pstart pointings physics noise fsep prob
            gauss fov drop lsep tsort ldraws osort lweights cfg))
         false wanted Csv ocfg rounds (Z.of_nat (length T)) (Z.of_nat k) s0 d0 in
       (fst (snd outcome) = Done ->
          timely efield etime pfield pfilt pstart pointings js /\
          exists out, catalogued (fun j => fst (fst j)) etime lsep tsort cfg D out /\ d_db (fst outcome) = None /\
            d_csv (fst outcome) = match out with
                                  | [] => None
                                  | _ => Some (Head (requested ocfg cs) :: map Data (rows_shown norm3 round ocfg cs (map cell out)))
                                  end) /\
       (timely efield etime pfield pfilt pstart pointings js -> limits_fit cfg ->
          length T <= rounds * k -> fst (snd outcome) = Done)).
Proof.
  intros E P R efield etime pfield pfilt pstart pointings physics noise fsep prob gauss fov drop lsep tsort ldraws osort lweights cfg
    EPH ephem aux0 others tables T V W norm3 round missing stat_of cs cell wanted ocfg d0 H1 H2 H3 H4 H5 H6 H7 H8 H9 H10 A K.
  destruct (C115_catalogue_proof E P R efield etime pfield pfilt pstart pointings physics noise fsep prob gauss fov drop lsep tsort ldraws osort
    lweights cfg EPH ephem aux0 others tables T H1 H2 H3 H4 H5 H6 H7 H8 H9 H10) as (js & D & C & Dd & M).
  exists js, D. split; [exact C|]. split; [exact Dd|]. intros Nt k rounds s0 Hk. specialize (M Nt k rounds s0 Hk). cbv zeta in M |- *.
  destruct M as [M1 M2].
  match type of M1 with context [run ?r ?p _ _ _ _] =>
    destruct (file_csv norm3 round missing stat_of cs cell r p (process_substantial _ _ _ _ _ _ _ _ _ _ _ _ _ _ _ _ _ _ _ _ _ _)
      wanted ocfg rounds (Z.of_nat (length T)) (Z.of_nat k) s0 d0 A K) as (d1 & Ed & Eb & Ec) end.
  lazymatch goal with |- context [fst (snd ?o)] => assert (Eo : o = _) by exact Ed; rewrite Eo end. cbn [fst snd]. split; [|exact M2].
  intros Dn. destruct (M1 Dn) as [Ti Ca]. split; [exact Ti|]. eexists. split; [exact Ca|]. split; [exact Eb|exact Ec].
Qed.

Lemma C121_sqlite_proof : forall E P R (efield : joined E R -> Z) (etime : joined E R -> Q) (pfield : P -> Z) (pfilt : P -> option string)
    (pstart : P -> Q) pointings physics noise fsep prob gauss fov drop lsep tsort ldraws osort lweights
    (cfg : settings (joined E R) P)
    (EPH : list (string * E)) ephem (aux0 : nat -> option nat -> result (list (string * R))) others tables T
    V W norm3 round (missing : V) (stat_of : table V -> list W) cs cell wanted ocfg d0,
  deterministic cfg -> sure_linking cfg ldraws lweights ->
  sorter (fun x : obs (joined E R) P * bool * option Z => etime (o_eph (fst (fst x)))) osort ->
  sorter (fun o : obs (joined E R) P => etime (o_eph o)) tsort ->
  exact_reader EPH ephem -> (forall s n, aux0 s n = Ok (slice s n T)) ->
  Forall2 exact_reader tables others ->
  NoDup (map fst T) -> (forall X, In X tables -> NoDup (map fst X)) ->
  (forall i, In i (map fst T) -> forall X, In X tables -> In i (map fst X)) ->
  available ocfg cs -> clean d0 ->
  ~ In "level_0"%string (requested ocfg cs) -> (forall c, In c indexed_columns -> In c (requested ocfg cs)) ->
  exists js D,
    complete_table EPH T tables js /\
    detected efield pfield pfilt physics fsep cfg pointings js D /\
    (night_time etime cfg D -> forall k rounds s0, 0 < k ->
       let outcome := simulation norm3 round missing stat_of (read_external aux0 ephem others)
         (tabulated cs cell (process (fun j => fst (fst j)) efield etime pfield pfilt pstart pointings physics noise fsep prob
            gauss fov drop lsep tsort ldraws osort lweights cfg))
         false wanted Sqlite3 ocfg rounds (Z.of_nat (length T)) (Z.of_nat k) s0 d0 in
       (fst (snd outcome) = Done ->
          timely efield etime pfield pfilt pstart pointings js /\
          exists out, catalogued (fun j => fst (fst j)) etime lsep tsort cfg D out /\ d_csv (fst outcome) = None /\
            option_map (@db_table V) (d_db (fst outcome))
            = match out with
              | [] => None
              | _ => Some (requested ocfg cs, rows_shown norm3 round ocfg cs (map cell out))
              end) /\
       (timely efield etime pfield pfilt pstart pointings js -> limits_fit cfg ->
          length T <= rounds * k -> fst (snd outcome) = Done)).
Proof.
  intros E P R efield etime pfield pfilt pstart pointings physics noise fsep prob gauss fov drop lsep tsort ldraws osort lweights cfg
    EPH ephem aux0 others tables T V W norm3 round missing stat_of cs cell wanted ocfg d0 H1 H2 H3 H4 H5 H6 H7 H8 H9 H10 A K NL IX.
  destruct (C115_catalogue_proof E P R efield etime pfield pfilt pstart pointings physics noise fsep prob gauss fov drop lsep tsort ldraws osort
    lweights cfg EPH ephem aux0 others tables T H1 H2 H3 H4 H5 H6 H7 H8 H9 H10) as (js & D & C & Dd & M).
  exists js, D. split; [exact C|]. split; [exact Dd|]. intros Nt k rounds s0 Hk. specialize (M Nt k rounds s0 Hk). cbv zeta in M |- *.
  destruct M as [M1 M2].
  match type of M1 with context [run ?r ?p _ _ _ _] =>
    destruct (file_sqlite norm3 round missing stat_of cs cell r p (process_substantial _ _ _ _ _ _ _ _ _ _ _ _ _ _ _ _ _ _ _ _ _ _)
      wanted ocfg rounds (Z.of_nat (length T)) (Z.of_nat k) s0 d0 A K NL IX) as (d1 & Ed & Eb & Ec) end.
  lazymatch goal with |- context [fst (snd ?o)] => assert (Eo : o = _) by exact Ed; rewrite Eo end. cbn [fst snd]. split; [|exact M2].
  intros Dn. destruct (M1 Dn) as [Ti Ca]. split; [exact Ti|]. eexists. split; [exact Ca|]. split; [exact Eb|exact Ec].
Qed.

(** The catalogue is determined up to order. *)
Lemma selected_same : forall A (P Q : A -> Prop), (forall x, P x <-> Q x) -> forall l l1 l2, selected P l l1 -> selected Q l l2 -> l1 = l2.
Proof.
  intros A P Q E l l1 l2 H. revert l2. induction H as [|x l l1 Hx H IH|x l l1 Hx H IH]; intros l2 K; inversion K; subst; auto.
  - f_equal. auto.
  - exfalso. apply E in Hx. contradiction.
  - exfalso. apply Hx. apply E. assumption.
Qed.
Lemma catalogued_same : forall E P (eid : E -> string) etime lsep tsort (cfg : settings E P) D o1 o2,
  catalogued eid etime lsep tsort cfg D o1 -> catalogued eid etime lsep tsort cfg D o2 -> Permutation o1 o2.
Proof.
  intros E P eid etime lsep tsort cfg D o1 o2 H1 H2. unfold catalogued in *. destruct (linking cfg) as [[c u]|].
  - destruct H1 as (d1 & k1 & A1 & B1 & C1). destruct H2 as (d2 & k2 & A2 & B2 & C2).
    assert (Ed : forall i, d1 i = d2 i).
    { intros i. destruct (d1 i) as [x|] eqn:X.
      - apply A1, A2 in X. auto.
      - destruct (d2 i) as [y|] eqn:Y; [|reflexivity]. apply A2, A1 in Y. congruence. }
    assert (Ek : k1 = k2) by (eapply selected_same; [|exact B1|exact B2]; intros o; cbn; rewrite Ed; tauto). subst k2.
    rewrite C1, C2. erewrite map_ext; [reflexivity|]. intros o. cbn. rewrite Ed. reflexivity.
  - rewrite H1, H2. reflexivity.
Qed.

(** Two chunk sizes, two runs: the same lines up to their order. *)
Lemma C121_chunks_proof : forall E P R (efield : joined E R -> Z) (etime : joined E R -> Q) (pfield : P -> Z) (pfilt : P -> option string)
    (pstart : P -> Q) pointings physics noise fsep prob gauss fov drop lsep tsort ldraws osort lweights
    (cfg : settings (joined E R) P)
    (EPH : list (string * E)) ephem (aux0 : nat -> option nat -> result (list (string * R))) others tables T
    V W norm3 round (missing : V) (stat_of : table V -> list W) cs cell ocfg,
  deterministic cfg -> sure_linking cfg ldraws lweights ->
  sorter (fun x : obs (joined E R) P * bool * option Z => etime (o_eph (fst (fst x)))) osort ->
  sorter (fun o : obs (joined E R) P => etime (o_eph o)) tsort ->
  exact_reader EPH ephem -> (forall s n, aux0 s n = Ok (slice s n T)) ->
  Forall2 exact_reader tables others ->
  NoDup (map fst T) -> (forall X, In X tables -> NoDup (map fst X)) ->
  (forall i, In i (map fst T) -> forall X, In X tables -> In i (map fst X)) ->
  available ocfg cs ->
  exists js D,
    complete_table EPH T tables js /\
    detected efield pfield pfilt physics fsep cfg pointings js D /\
    (night_time etime cfg D -> forall wanted wanted' d0 d0' k k' rounds rounds' s0 s0' d1 d1' r r', 0 < k -> 0 < k' -> clean d0 -> clean d0' ->
       simulation norm3 round missing stat_of (read_external aux0 ephem others)
         (tabulated cs cell (process (fun j => fst (fst j)) efield etime pfield pfilt pstart pointings physics noise fsep prob
            gauss fov drop lsep tsort ldraws osort lweights cfg))
         false wanted Csv ocfg rounds (Z.of_nat (length T)) (Z.of_nat k) s0 d0 = (d1, (Done, r)) ->
       simulation norm3 round missing stat_of (read_external aux0 ephem others)
         (tabulated cs cell (process (fun j => fst (fst j)) efield etime pfield pfilt pstart pointings physics noise fsep prob
            gauss fov drop lsep tsort ldraws osort lweights cfg))
         false wanted' Csv ocfg rounds' (Z.of_nat (length T)) (Z.of_nat k') s0' d0' = (d1', (Done, r')) ->
       (d_csv d1 = None /\ d_csv d1' = None)
       \/ exists lines lines', d_csv d1 = Some (Head (requested ocfg cs) :: map Data lines)
            /\ d_csv d1' = Some (Head (requested ocfg cs) :: map Data lines') /\ Permutation lines lines').
Proof.
  intros E P R efield etime pfield pfilt pstart pointings physics noise fsep prob gauss fov drop lsep tsort ldraws osort lweights cfg
    EPH ephem aux0 others tables T V W norm3 round missing stat_of cs cell ocfg H1 H2 H3 H4 H5 H6 H7 H8 H9 H10 A.
  destruct (C115_catalogue_proof E P R efield etime pfield pfilt pstart pointings physics noise fsep prob gauss fov drop lsep tsort ldraws osort
    lweights cfg EPH ephem aux0 others tables T H1 H2 H3 H4 H5 H6 H7 H8 H9 H10) as (js & D & C & Dd & M).
  exists js, D. split; [exact C|]. split; [exact Dd|]. intros Nt w w' d0 d0' k k' rounds rounds' s0 s0' d1 d1' r r' Hk Hk' K K' R1 R2.
  destruct (M Nt k rounds s0 Hk) as [M1 _]. destruct (M Nt k' rounds' s0' Hk') as [M1' _]. cbv zeta in M1, M1'.
  match type of M1 with context [run ?rd ?p _ _ _ _] =>
    destruct (file_csv norm3 round missing stat_of cs cell rd p (process_substantial _ _ _ _ _ _ _ _ _ _ _ _ _ _ _ _ _ _ _ _ _ _)
      w ocfg rounds (Z.of_nat (length T)) (Z.of_nat k) s0 d0 A K) as (e1 & Ed & _ & Ec);
    destruct (file_csv norm3 round missing stat_of cs cell rd p (process_substantial _ _ _ _ _ _ _ _ _ _ _ _ _ _ _ _ _ _ _ _ _ _)
      w' ocfg rounds' (Z.of_nat (length T)) (Z.of_nat k') s0' d0' A K') as (e1' & Ed' & _ & Ec') end.
  pose proof (eq_trans (eq_sym R1) Ed) as Q1. pose proof (eq_trans (eq_sym R2) Ed') as Q2. clear Ed Ed'.
  injection Q1 as <- Dn _. injection Q2 as <- Dn' _.
  destruct (M1 (eq_sym Dn)) as [_ Ca]. destruct (M1' (eq_sym Dn')) as [_ Ca'].
  assert (Pm := catalogued_same _ _ _ _ _ _ _ _ _ _ Ca Ca'). rewrite Ec, Ec'.
  destruct (concat (written (snd (run _ _ rounds _ _ _)))) as [|x l].
  - apply Permutation_nil in Pm. rewrite Pm. auto.
  - destruct (concat (written (snd (run _ _ rounds' _ _ _)))) as [|x' l']; [symmetry in Pm; apply Permutation_nil in Pm; discriminate|].
    right. do 2 eexists. split; [reflexivity|]. split; [reflexivity|]. unfold rows_shown. apply Permutation_map, Permutation_map, Pm.
Qed.
