(** * C103: simulations called from Python *)
From Coq Require Import String List Arith ZArith Bool.
From Verif Require Import Base.Prelude Model.Driver Model.Output Model.Library Spec.Output Spec.Library Proofs.Library.
Import ListNotations.
Open Scope list_scope.
Open Scope nat_scope.

Theorem C103_csv_partial : forall V W S C norm3 round (missing : V) (stat_of : table V -> list W)
    (read : nat -> Z -> result (nat * option C)) (process : S -> C -> result (S * option (table V)))
    wanted cfg cs rounds lenf size s d t st d0,
  leaves_columns cs process -> available cfg cs ->
  simulation norm3 round missing stat_of read process true wanted Csv cfg rounds lenf size s d = (d, (Done, Some (t, st))) -> clean d0 ->
  exists d1, simulation norm3 round missing stat_of read process false wanted Csv cfg rounds lenf size s d0 = (d1, (Done, None))
    /\ t_names t = cs
    /\ d_csv d1 = Some (Head (requested cfg cs) :: map Data (rows_shown norm3 round cfg cs (t_recs t)))
    /\ d_db d1 = None /\ d_stats d1 = st /\ (st <> None <-> wanted = true).
Proof. exact C103_csv_proof. Qed.
Print Assumptions C103_csv_partial.
Theorem C103_sqlite_partial : forall V W S C norm3 round (missing : V) (stat_of : table V -> list W)
    (read : nat -> Z -> result (nat * option C)) (process : S -> C -> result (S * option (table V)))
    wanted cfg cs rounds lenf size s d t st d0,
  leaves_columns cs process -> available cfg cs -> ~ In "level_0"%string (requested cfg cs) ->
  (forall c, In c indexed_columns -> In c (requested cfg cs)) -> d_db d = None ->
  simulation norm3 round missing stat_of read process true wanted Sqlite3 cfg rounds lenf size s d = (d, (Done, Some (t, st))) -> clean d0 ->
  exists d1 b, simulation norm3 round missing stat_of read process false wanted Sqlite3 cfg rounds lenf size s d0 = (d1, (Done, None))
    /\ t_names t = cs /\ d_db d1 = Some b
    /\ db_table b = (requested cfg cs, rows_shown norm3 round cfg cs (t_recs t)) /\ db_indexes b = indexed_columns
    /\ d_csv d1 = None /\ d_stats d1 = st /\ (st <> None <-> wanted = true).
Proof. exact C103_sqlite_proof. Qed.
Print Assumptions C103_sqlite_partial.
Theorem C103_complete_partial : forall V W S C norm3 round (missing : V) (stat_of : table V -> list W)
    (read : nat -> Z -> result (nat * option C)) (process : S -> C -> result (S * option (table V)))
    wanted cfg rounds lenf size s d d0 d1,
  simulation norm3 round missing stat_of read process false wanted Csv cfg rounds lenf size s d0 = (d1, (Done, None)) ->
  d_csv d0 = None -> d_csv d1 <> None ->
  exists r, simulation norm3 round missing stat_of read process true wanted Csv cfg rounds lenf size s d = (d, (Done, Some r)).
Proof. exact C103_complete_proof. Qed.
Print Assumptions C103_complete_partial.
Theorem C103_untouched_partial : forall V W S C norm3 round (missing : V) (stat_of : table V -> list W)
    (read : nat -> Z -> result (nat * option C)) (process : S -> C -> result (S * option (table V)))
    wanted fmt cfg rounds lenf size s d, fmt = Csv \/ d_db d = None ->
  fst (simulation norm3 round missing stat_of read process true wanted fmt cfg rounds lenf size s d) = d.
Proof. exact C103_untouched_proof. Qed.
Print Assumptions C103_untouched_partial.
Theorem C103_rounds_partial : forall V W S C norm3 round (missing : V) (stat_of : table V -> list W)
    (read : nat -> Z -> result (nat * option C)) (process : S -> C -> result (S * option (table V)))
    return_only wanted fmt cfg rounds lenf size s d,
  fst (snd (simulation norm3 round missing stat_of read process return_only wanted fmt cfg rounds lenf size s d)) = Done ->
  fst (run read process rounds lenf size s) = Done.
Proof. exact C103_rounds_proof. Qed.
Print Assumptions C103_rounds_partial.
Theorem C103_nothing_refuted : forall V W S C norm3 round (missing : V) (stat_of : table V -> list W)
    (read : nat -> Z -> result (nat * option C)) (process : S -> C -> result (S * option (table V)))
    wanted cfg rounds lenf size s d d0 d1,
  simulation norm3 round missing stat_of read process false wanted Csv cfg rounds lenf size s d0 = (d1, (Done, None)) ->
  d_csv d1 = None ->
  simulation norm3 round missing stat_of read process true wanted Csv cfg rounds lenf size s d = (d, (Stopped ValueError, None)).
Proof. exact C103_nothing_refuted_proof. Qed.
Print Assumptions C103_nothing_refuted.
Theorem C103_database_refuted : forall V W S C norm3 round (missing : V) (stat_of : table V -> list W)
    (read : nat -> Z -> result (nat * option C)) (process : S -> C -> result (S * option (table V)))
    wanted fmt cfg rounds lenf size s d0 d1 return_only wanted' cfg' rounds' s',
  d_db d0 = None ->
  simulation norm3 round missing stat_of read process false wanted Sqlite3 cfg rounds lenf size s d0 = (d1, (Done, None)) -> d_db d1 <> None ->
  fmt = Sqlite3 ->
  fst (snd (simulation norm3 round missing stat_of read process return_only wanted' fmt cfg' rounds' lenf size s' d1)) <> Done.
Proof. exact C103_database_refuted_proof. Qed.
Print Assumptions C103_database_refuted.
Theorem C103_indexed_refuted : forall V W S C norm3 round (missing : V) (stat_of : table V -> list W)
    (read : nat -> Z -> result (nat * option C)) (process : S -> C -> result (S * option (table V)))
    wanted cfg rounds lenf size s d d1 b r,
  d_db d = Some b -> simulation norm3 round missing stat_of read process true wanted Sqlite3 cfg rounds lenf size s d = (d1, (Done, Some r)) ->
  exists b', d_db d1 = Some b' /\ db_table b' = db_table b /\ db_indexes b' = db_indexes b ++ indexed_columns.
Proof. exact C103_indexed_refuted_proof. Qed.
Print Assumptions C103_indexed_refuted.

(** Two rounds that leave a row each, and a run whose rounds leave nothing. *)
Definition case_names : list string :=
  ["ObjID"; "fieldMJD_TAI"; "optFilter"; "Obj_Sun_x_LTC_km"; "Obj_Sun_y_LTC_km"; "Obj_Sun_z_LTC_km"]%string.
Definition case_process (s c : nat) : result (nat * option (table nat)) :=
  Ok (s, if c =? 0 then None else Some {| t_names := case_names; t_recs := [fun n => if String.eqb n "ObjID" then c else 1] |}).
Definition case_read (l : list nat) (k : nat) (z : Z) : result (nat * option nat) := Ok (S k, nth_error l k).
Definition case_cfg : outcfg :=
  {| oc_columns := Columns ["ObjID"; "fieldMJD_TAI"; "optFilter"]%string; oc_pos := None; oc_mag := None; oc_link_col := false |}.
Definition case_disk : disk nat nat := {| d_csv := None; d_db := None; d_stats := None |}.
Definition case_run (l : list nat) (return_only : bool) (fmt : format) (d : disk nat nat) :=
  simulation (fun a _ _ => a) (fun _ v => v) 0 (fun t => map (fun r => r "ObjID"%string) (t_recs t)) (case_read l) case_process
    return_only true fmt case_cfg 5 2 1 0 d.
Example C103_case :
  leaves_columns case_names case_process /\ available case_cfg case_names /\ clean case_disk
  /\ (forall c, In c indexed_columns -> In c (requested case_cfg case_names)) /\ ~ In "level_0"%string (requested case_cfg case_names)
  /\ (forall fmt, exists t, case_run [3; 4] true fmt case_disk = (case_disk, (Done, Some (t, Some [3; 4]))) /\ map (fun r => r "ObjID"%string) (t_recs t) = [3; 4])
  /\ d_csv (fst (case_run [3; 4] false Csv case_disk)) = Some [Head ["ObjID"; "fieldMJD_TAI"; "optFilter"]%string; Data [3; 1; 1]; Data [4; 1; 1]]
  /\ (exists d1, case_run [3; 4] false Sqlite3 case_disk = (d1, (Done, None)) /\ d_db d1 <> None
      /\ snd (case_run [3; 4] true Sqlite3 d1) = (Stopped OperationalError, None))
  /\ case_run [0; 0] false Csv case_disk = (case_disk, (Done, None))
  /\ case_run [0; 0] true Csv case_disk = (case_disk, (Stopped ValueError, None)).
Proof.
  split. { intros s c s' t H. unfold case_process in H. destruct (c =? 0); [discriminate|]. injection H as _ <-. reflexivity. }
  split. { split; [intros c H; cbn in *; tauto|split; [intros c H; right; cbn in *; tauto|cbn; repeat constructor]]. }
  split; [repeat split|]. split; [intros c H; cbn in *; tauto|]. split; [cbn; intuition discriminate|].
  split. { intro fmt. eexists. split; [destruct fmt; reflexivity|reflexivity]. }
  split; [reflexivity|]. split. { eexists. split; [reflexivity|]. split; [discriminate|reflexivity]. }
  split; reflexivity.
Qed.
