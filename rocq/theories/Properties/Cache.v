(** The cache of data files. *)
From Coq Require Import String Bool Arith List.
From Verif Require Import Base.Prelude Model.Config Model.Cache Spec.Cache Proofs.Cache Proofs.CacheRun Proofs.CacheBootstrap.
Import ListNotations.
Open Scope list_scope.

(** * C91: the data files of a run *)

Theorem C91_loaded_partial : forall net unzip dir s w w' p b m c,
  NoDup (all_names s) -> setup net unzip dir (aux_of s) w = (w', Ok (p, b, m, c)) ->
  w_file w' (jpl_planets s) = Some p /\ w_file w' (jpl_small_bodies s) = Some b
  /\ w_file w' (codes s) = Some c /\ w_file w' (meta_kernel s) = Some m
  /\ (forall n, In n (kernels s) -> present w' n)
  /\ (w_file w (meta_kernel s) = None -> m = Meta dir (kernels s) true).
Proof. exact C91_loaded_proof. Qed.
Print Assumptions C91_loaded_partial.
Theorem C91_kept_partial : forall net unzip dir s w w' r n c,
  NoDup (all_names s) -> setup net unzip dir (aux_of s) w = (w', r) -> w_file w n = Some c -> w_file w' n = Some c.
Proof. exact C91_kept_proof. Qed.
Print Assumptions C91_kept_partial.
Theorem C91_source_partial : forall net unzip dir s w w' r n c,
  NoDup (all_names s) -> setup net unzip dir (aux_of s) w = (w', r) ->
  w_file w n = None -> w_file w' n = Some c -> n <> meta_kernel s -> n <> codes s ->
  exists k u d, In (n, u) (url_table s) /\ net k u = Some d /\ c = Data d.
Proof. exact C91_source_proof. Qed.
Print Assumptions C91_source_partial.
Theorem C91_offline_partial : forall net unzip dir s w,
  NoDup (all_names s) -> (forall n, In n (needed s) -> present w n) ->
  exists w' x, setup net unzip dir (aux_of s) w = (w', Ok x) /\ w_tried w' = w_tried w
    /\ (forall n, n <> meta_kernel s -> w_file w' n = w_file w n).
Proof. exact C91_offline_proof. Qed.
Print Assumptions C91_offline_partial.
Theorem C91_recovers_partial : forall net unzip dir s w,
  NoDup (all_names s) -> answers net -> sound_zip unzip -> sane s w ->
  exists w' x, setup net unzip dir (aux_of s) w = (w', Ok x).
Proof. exact C91_recovers_proof. Qed.
Print Assumptions C91_recovers_partial.
Theorem C91_bootstrap_partial : forall net unzip dir w,
  answers net -> sound_zip unzip -> sane [] w ->
  exists w', bootstrap net unzip dir false w = (w', Ok tt)
  /\ (forall n, In n (all_names []) -> present w' n)
  /\ (forall n c, n <> meta_kernel [] -> n <> codes [] -> w_file w n = Some c -> w_file w' n = Some c)
  /\ ((forall n, In n (all_names []) -> present w n) /\ w' = w
      \/ w_file w' (meta_kernel []) = Some (Meta dir (kernels []) true)).
Proof. exact C91_bootstrap_proof. Qed.
Print Assumptions C91_bootstrap_partial.
Theorem C91_history_partial : forall dir w w' net unzip s w2 p b m c,
  history dir w w' ->
  w_file w (meta_kernel []) = None \/ w_file w (meta_kernel []) = Some (Meta dir (kernels []) true) ->
  meta_kernel s = meta_kernel [] -> kernels s = kernels [] -> NoDup (all_names s) ->
  setup net unzip dir (aux_of s) w' = (w2, Ok (p, b, m, c)) -> m = Meta dir (kernels s) true.
Proof. exact C91_history_proof. Qed.
Print Assumptions C91_history_partial.

(** The meta kernel of an earlier run is loaded although the configuration names
    another planetary ephemeris. *)
Theorem C91_stale_refuted : forall net unzip dir, exists w s w' p b m c,
  (forall n, In n (all_names s) -> present w n) /\ NoDup (all_names s)
  /\ w_file w (meta_kernel []) = Some (Meta dir (kernels []) true)
  /\ planet_ephemeris s <> planet_ephemeris []
  /\ setup net unzip dir (aux_of s) w = (w', Ok (p, b, m, c)) /\ m = Meta dir (kernels []) true
  /\ ~ In (planet_ephemeris s) (kernels []).
Proof. exact C91_stale_refuted_proof. Qed.
Print Assumptions C91_stale_refuted.
(** The unpacked observatory codes of an earlier run are read although the
    configuration names another compressed file. *)
Theorem C91_codes_refuted : forall net unzip dir, exists w s w' p b m,
  (forall n, In n (all_names s) -> present w n) /\ NoDup (all_names s) /\ codes_gz s <> codes_gz []
  /\ setup net unzip dir (aux_of s) w = (w', Ok (p, b, m, Data (codes []))) /\ w_file w (codes []) = Some (Data (codes [])).
Proof. exact C91_codes_refuted_proof. Qed.
Print Assumptions C91_codes_refuted.
(** A bootstrap that fails leaves an unfinished meta kernel, which a later run
    loads although the network is back. *)
Theorem C91_truncated_refuted : forall dir, exists net1 net2 unzip w1 w2 p b names c,
  bootstrap net1 unzip dir false nothing = (w1, Err OSError)
  /\ answers net2 /\ setup net2 unzip dir (aux_of []) w1 = (w2, Ok (p, b, Meta dir names false, c))
  /\ names <> kernels [].
Proof. exact C91_truncated_refuted_proof. Qed.
Print Assumptions C91_truncated_refuted.
(** [bootstrap --force] fails on a cache that lacks only the meta kernel, after
    removing files. *)
Theorem C91_force_refuted : forall dir, exists w, (forall n, In n (all_names []) -> n <> meta_kernel [] -> present w n)
  /\ forall net unzip, exists w', bootstrap net unzip dir true w = (w', Err ValueError)
       /\ present w (leap_seconds []) /\ w_file w' (leap_seconds []) = None.
Proof. exact C91_force_refuted_proof. Qed.
Print Assumptions C91_force_refuted.
(** [bootstrap] ends normally although a file could not be downloaded. *)
Theorem C91_silent_refuted : forall dir, exists net unzip w', bootstrap net unzip dir false nothing = (w', Ok tt)
  /\ w_file w' (codes []) = None /\ w_file w' (codes_gz []) = None.
Proof. exact C91_silent_refuted_proof. Qed.
Print Assumptions C91_silent_refuted.

(** A run with an empty cache and its own leap seconds, then the same run without
    a network; a bootstrap of an empty cache. *)
Example C91_case : let s := [("leap_seconds", "my.tls"); ("leap_seconds_url", "https://example.org/my.tls")]%string in
  let net := fun (_ : nat) u => Some (u ++ " data")%string in
  let zip := fun d => Some (d ++ " unpacked")%string in
  exists w p b c, setup net zip "/cache" (aux_of s) nothing =
      (w, Ok (p, b, Meta "/cache" ["my.tls"; "earth_620120_250826.bpc"; "earth_2025_250826_2125_predict.bpc"; "pck00010.pck";
                                   "de440s.bsp"; "earth_latest_high_prec.bpc"]%string true, c))
  /\ w_file w "my.tls" = Some (Data "https://example.org/my.tls data")
  /\ w_tried w = 9
  /\ NoDup (all_names s) /\ sane s nothing
  /\ snd (setup (fun _ _ => None) zip "/cache" (aux_of s) w) = snd (setup net zip "/cache" (aux_of s) w)
  /\ snd (setup (fun _ _ => None) zip "/cache" (aux_of s) nothing) = Err OSError
  /\ snd (bootstrap net zip "/cache" false nothing) = Ok tt.
Proof.
  cbv zeta. eexists _, _, _, _. split; [vm_compute; reflexivity|]. split; [vm_compute; reflexivity|].
  split; [vm_compute; reflexivity|]. split.
  { match goal with |- NoDup ?l => assert (E : l = nodup string_dec l) by (vm_compute; reflexivity); rewrite E; apply NoDup_nodup end. }
  split; [intros x; discriminate|]. split; [vm_compute; reflexivity|]. split; vm_compute; reflexivity.
Qed.
