From Coq Require Import ZArith QArith Qabs String List Bool Lqa Sorting.Sorted Sorting.Permutation.
From Verif Require Import Base.Prelude Base.Sort Model.Pointing Spec.Pointing Proofs.Pointing Model.DES Spec.DES Proofs.DES.
Import ListNotations.
Open Scope string_scope.

(** * C52: reading the pointing table *)

Theorem C52_rubin_partial : forall A filters survey fading columns (table : list (pointing A)),
  In survey ["rubin_sim"; "RUBIN_SIM"] ->
  (exists p f, In p table /\ p_filter p = Some f /\ In f filters) ->
  exists chosen out, PPReadPointingDatabase filters survey fading columns table = Ok out
    /\ selected (fun p => exists f, p_filter p = Some f /\ In f filters) table chosen
    /\ Forall2 (fun p q => (p_mid q == p_start p + p_visit p / 2 / 86400)%Q
         /\ p_id q = p_id p /\ p_filter q = p_filter p /\ p_start q = p_start p /\ p_visit q = p_visit p
         /\ p_exposure q = p_exposure p /\ p_c q = p_c p /\ p_k q = p_k p /\ p_other q = p_other p) chosen out.
Proof. exact C52_rubin_proof. Qed.
Print Assumptions C52_rubin_partial.
Theorem C52_des_partial : forall A filters survey fading columns (table : list (pointing A)) out,
  In survey ["DES"; "des"] ->
  PPReadPointingDatabase filters survey fading columns table = Ok out ->
  exists chosen, selected (fun p => exists f, p_filter p = Some f /\ In f filters) table chosen
    /\ Forall2 (fun p q => p_mid q = p_mid p /\ (p_mid q == p_start q + p_exposure p / 2 / 86400)%Q
         /\ p_id q = p_id p /\ p_filter q = p_filter p /\ p_visit q = p_visit p
         /\ p_exposure q = p_exposure p /\ p_c q = p_c p /\ p_k q = p_k p /\ p_other q = p_other p) chosen out
    /\ (fading = true -> Forall (fun q => p_c q <> None /\ p_k q <> None) out).
Proof. exact C52_des_proof. Qed.
Print Assumptions C52_des_partial.
Theorem C52_stops_partial : forall A filters survey fading columns (table : list (pointing A)),
  (forall p f, In p table -> p_filter p = Some f -> ~ In f filters) \/ ~ In survey ["rubin_sim"; "RUBIN_SIM"; "DES"; "des"] ->
  PPReadPointingDatabase filters survey fading columns table = Err SysExit.
Proof. exact C52_stops_proof. Qed.
Print Assumptions C52_stops_partial.
Theorem C52_des_refuted : forall A filters survey columns (p : pointing A) f,
  In survey ["DES"; "des"] -> p_filter p = Some f -> In f filters -> ~ (p_visit p == p_exposure p)%Q ->
  exists q, PPReadPointingDatabase filters survey false columns [p] = Ok [q]
    /\ ~ (p_mid q == p_start q + p_visit q / 2 / 86400)%Q.
Proof. exact C52_des_refuted_proof. Qed.
Print Assumptions C52_des_refuted.

Definition case_pointing (id : Z) (f : string) (start : Q) : pointing unit :=
  {| p_id := id; p_filter := Some f; p_start := start; p_mid := 0; p_visit := 34; p_exposure := 30;
     p_c := None; p_k := None; p_other := tt |}.
(** Two of three visits are in the filters; the midpoint is 17 s after the start. *)
Example C52_case : exists out,
  PPReadPointingDatabase ["r"; "g"] "rubin_sim" false [] [case_pointing 1 "r" 60000; case_pointing 2 "u" 60001; case_pointing 3 "g" 60002] = Ok out
  /\ map p_id out = [1; 3]%Z /\ Forall (fun p => p_mid p - p_start p == 17 / 86400)%Q out
  /\ PPReadPointingDatabase ["r"; "g"] "LSST" false [] [case_pointing 1 "r" 60000] = Err SysExit
  /\ PPReadPointingDatabase ["r"; "g"] "DES" true ["c"; "k"] [case_pointing 1 "r" 60000] = Err SysExit.
Proof. eexists. split; [reflexivity|]. split; [reflexivity|]. split; [repeat constructor|split; reflexivity]. Qed.

(** * C51: matching observations with pointings *)

Theorem C51_matched_partial : forall O A (field : O -> Z) mjd (obs : list O) (pts : list (pointing A)) out,
  NoDup (map p_id pts) ->
  PPMatchPointingToObservations field mjd obs pts = Ok out ->
  selected (has_pointing field pts) obs (map fst out)
  /\ Forall (fun r => In (snd r) pts /\ p_id (snd r) = field (fst r)
                /\ (Qabs (p_start (snd r) - mjd (fst r)) <= tolerance (mjd (fst r)))%Q) out.
Proof. exact C51_matched_proof. Qed.
Print Assumptions C51_matched_partial.
Theorem C51_stops_partial : forall O A (field : O -> Z) mjd (obs : list O) (pts : list (pointing A)),
  NoDup (map p_id pts) ->
  (PPMatchPointingToObservations field mjd obs pts = Err SysExit <->
   exists o p, In o obs /\ In p pts /\ p_id p = field o /\ p_filter p <> None
     /\ (tolerance (mjd o) < Qabs (p_start p - mjd o))%Q).
Proof. exact C51_stops_proof. Qed.
Print Assumptions C51_stops_partial.
Theorem C51_selected_filters_partial : forall O A (field : O -> Z) mjd (obs : list O) filters survey fading columns
  (table pts : list (pointing A)) out,
  NoDup (map p_id table) ->
  PPReadPointingDatabase filters survey fading columns table = Ok pts ->
  PPMatchPointingToObservations field mjd obs pts = Ok out ->
  selected (fun o => exists p f, In p table /\ p_id p = field o /\ p_filter p = Some f /\ In f filters) obs (map fst out)
  /\ Forall (fun r => exists f, p_filter (snd r) = Some f /\ In f filters) out.
Proof. exact C51_selected_filters_proof. Qed.
Print Assumptions C51_selected_filters_partial.
Theorem C51_mismatch_refuted : forall O A (field : O -> Z) mjd (o : O) (p : pointing A),
  p_id p = field o -> p_filter p <> None -> (50000 <= mjd o)%Q -> (Qabs (p_start p - mjd o) <= 1 # 2)%Q ->
  PPMatchPointingToObservations field mjd [o] [p] = Ok [(o, p)].
Proof. exact C51_mismatch_refuted_proof. Qed.
Print Assumptions C51_mismatch_refuted.
Theorem C51_repeated_refuted : forall O A (field : O -> Z) mjd (o : O) (p q : pointing A),
  p_id p = field o -> p_id q = field o -> p_filter p <> None -> p_filter q <> None ->
  (p_start p == mjd o)%Q -> (p_start q == mjd o)%Q ->
  PPMatchPointingToObservations field mjd [o] [p; q] = Ok [(o, p); (o, q)].
Proof. exact C51_repeated_refuted_proof. Qed.
Print Assumptions C51_repeated_refuted.

(** Observations (FieldID, time): the second has no pointing; a day's difference
    stops the run. *)
Example C51_case :
  let pts := [case_pointing 3 "g" 60002; case_pointing 1 "r" 60000] in
  PPMatchPointingToObservations fst snd [(1%Z, 60000%Q); (2%Z, 60001%Q); (3%Z, 60002%Q); (1%Z, 60000%Q)] pts
  = Ok [((1%Z, 60000%Q), case_pointing 1 "r" 60000); ((3%Z, 60002%Q), case_pointing 3 "g" 60002);
        ((1%Z, 60000%Q), case_pointing 1 "r" 60000)]
  /\ NoDup (map p_id pts)
  /\ PPMatchPointingToObservations fst snd [(1%Z, 60001%Q)] pts = Err SysExit.
Proof.
  cbv zeta. split; [reflexivity|]. split; [|reflexivity]. cbn. repeat constructor; cbn; intuition discriminate.
Qed.

(** * C53: discovery by the Dark Energy Survey *)

Open Scope Q_scope.

Theorem C53_per_object_partial : forall A (objid : A -> string) (time x y z : A -> Q) sort_values obs,
  (forall l, Permutation (sort_values l) l /\ StronglySorted (fun a b => time a <= time b) (sort_values l)) ->
  exists kept : string -> Prop, exists chosen,
    selected (fun r => kept (objid r)) obs chosen
    /\ Permutation (DESDiscoveryFilter objid time x y z sort_values obs) chosen
    /\ StronglySorted (fun a b => time a <= time b) (DESDiscoveryFilter objid time x y z sort_values obs).
Proof. exact C53_per_object_proof. Qed.
Print Assumptions C53_per_object_partial.
Theorem C53_sound_partial : forall A (objid : A -> string) (time x y z : A -> Q) sort_values obs r mine ns w,
  (forall l, Permutation (sort_values l) l) ->
  selected (fun q => objid q = objid r) obs mine -> grouped ns (map time mine) ->
  is_window (map (fun q => x q * x q + y q * y q + z q * z q) mine) w ->
  In r (DESDiscoveryFilter objid time x y z sort_values obs) ->
  (9 <= length ns)%nat \/ ((7 <= length ns)%nat /\ long_arc (map time mine) /\ triplet ns w).
Proof. exact C53_sound_proof. Qed.
Print Assumptions C53_sound_partial.
Theorem C53_complete_partial : forall A (objid : A -> string) (time x y z : A -> Q) sort_values obs r mine ns w,
  (forall l, Permutation (sort_values l) l) ->
  selected (fun q => objid q = objid r) obs mine -> grouped ns (map time mine) ->
  is_window (map (fun q => x q * x q + y q * y q + z q * z q) mine) w ->
  In r obs ->
  (9 <= length ns)%nat \/ ((7 <= length ns)%nat /\ long_arc (map time mine) /\ shortest_triplet ns w) ->
  In r (DESDiscoveryFilter objid time x y z sort_values obs).
Proof. exact C53_complete_proof. Qed.
Print Assumptions C53_complete_partial.
Theorem C53_arc_partial : forall times, compute_arccut times = true <-> long_arc times.
Proof. exact C53_arc_proof. Qed.
Print Assumptions C53_arc_partial.
Theorem C53_missed_refuted : forall (sort_values : list (string * Q) -> list (string * Q)),
  (forall l, Permutation (sort_values l) l) ->
  let obs := map (fun t => ("a"%string, t)) [0; 10; 110; 160; 210; 410; 610] in
  let ns := map (fun t => [t]) [0; 10; 110; 160; 210; 410; 610] in
  let far := fun _ : string * Q => 40 * (1495978707 # 10) in
  let nought := fun _ : string * Q => 0 in
  grouped ns (map snd obs) /\ length ns = 7%nat /\ long_arc (map snd obs) /\ triplet ns 60
  /\ is_window (map (fun q => far q * far q + nought q * nought q + nought q * nought q) obs) 60
  /\ DESDiscoveryFilter fst snd far nought nought sort_values obs = [].
Proof. exact C53_missed_refuted_proof. Qed.
Print Assumptions C53_missed_refuted.

Definition case_far (_ : string * Q) : Q := 40 * (1495978707 # 10).
Definition case_nought (_ : string * Q) : Q := 0.
Definition case_obs : list (string * Q) :=
  ([("b", 5); ("b", 405)] ++ map (fun t => ("a", t)) [610; 0; 50; 1#10; 100; 210; 410; 411])%list.
(** Object a: seven nights, a triplet 50 days apart at the start, a long arc;
    object b: two nights. *)
Example C53_case :
  DESDiscoveryFilter fst snd case_far case_nought case_nought (sort_by snd) case_obs
  = map (fun t => ("a", t)) [0; 1#10; 50; 100; 210; 410; 411; 610]
  /\ grouped [[0; 1#10]; [50]; [100]; [210]; [410]; [411]; [610]] (map snd (filter (fun r => String.eqb (fst r) "a") case_obs))
  /\ shortest_triplet [[0; 1#10]; [50]; [100]; [210]; [410]; [411]; [610]] 60.
Proof.
  split; [vm_compute; reflexivity|]. split.
  - unfold grouped. cbn. split.
    { eapply Permutation_trans; [|apply (sort_by_perm Q (fun t => t))]. vm_compute. reflexivity. }
    split; [repeat constructor; cbv; discriminate|]. split.
    + repeat constructor; try discriminate; intros a b A B; cbn in A, B;
        repeat destruct A as [<-|A]; repeat destruct B as [<-|B]; try contradiction; reflexivity.
    + repeat constructor; intros a b A B; cbn in A, B;
        repeat destruct A as [<-|A]; repeat destruct B as [<-|B]; try contradiction; reflexivity.
  - exists [], [0; 1#10], [50], [100], [[210]; [410]; [411]; [610]], 0, 50, 100. repeat split;
      exfalso; destruct pre as [|? [|? [|? ?]]]; discriminate H.
Qed.
