From Coq Require Import Ascii String List Arith ZArith QArith Bool Lia Sorting.Permutation Sorting.Sorted.
From Verif Require Import Base.Prelude Base.Num Model.Driver Model.Output Model.Files Spec.Driver Spec.Output Spec.Files
  Proofs.Driver Proofs.Output Proofs.Files.
Import ListNotations.
Open Scope nat_scope.

(** * C21: the output file *)

Theorem C21_csv : forall V norm3 round cfg cs (chunks : list (table V)) f,
  Forall (fun t => t_names t = cs) chunks -> csv_writes norm3 round cfg chunks None = Ok f ->
  f = match chunks with
      | [] => None
      | _ => Some (Head (requested cfg cs)
               :: map (fun r => Data (map (shown norm3 round cfg r) (requested cfg cs))) (concat (map t_recs chunks)))
      end.
Proof. exact C21_csv_proof. Qed.
Print Assumptions C21_csv.
Theorem C21_succeeds : forall V norm3 round cfg (chunks : list (table V)) f,
  Forall (fun t => available cfg (t_names t)) chunks -> exists f', csv_writes norm3 round cfg chunks f = Ok f'.
Proof. exact C21_succeeds_proof. Qed.
Print Assumptions C21_succeeds.
Theorem C21_missing : forall V norm3 round cfg (t : table V) l c f,
  oc_columns cfg = Columns l -> In c l -> ~ In c (t_names t) -> c <> "Obj_Sun_LTC_km"%string ->
  exists e, PPWriteOutput_csv norm3 round cfg t f = Err e.
Proof. exact C21_missing_proof. Qed.
Print Assumptions C21_missing.
Theorem C21_sql : forall V norm3 round cfg cs (chunks : list (table V)) f,
  Forall (fun t => t_names t = cs) chunks ->
  (forall c, In c (requested cfg cs) -> c <> "level_0"%string) ->
  sql_writes norm3 round cfg chunks None = Ok f ->
  f = match chunks with
      | [] => None
      | _ => Some (requested cfg cs, map (fun r => map (shown norm3 round cfg r) (requested cfg cs)) (concat (map t_recs chunks)))
      end.
Proof. exact C21_sql_proof. Qed.
Print Assumptions C21_sql.

Definition o_row (i ra : nat) (c : string) : nat :=
  if String.eqb c "ObjID" then i else if String.eqb c "RA_deg" then ra else 3.
Definition o_names : list string :=
  ["ObjID"; "RA_deg"; "PSFMag"; "Obj_Sun_x_LTC_km"; "Obj_Sun_y_LTC_km"; "Obj_Sun_z_LTC_km"]%string.
Definition o_table (rows : list (nat * nat)) : table nat :=
  {| t_names := o_names; t_recs := map (fun x => o_row (fst x) (snd x)) rows |}.
Definition o_cfg : outcfg :=
  {| oc_columns := Columns ["RA_deg"; "Obj_Sun_LTC_km"; "ObjID"]%string; oc_pos := Some 2; oc_mag := None; oc_link_col := false |}.
Example C21_case :
  available o_cfg o_names /\
  csv_writes (fun a b c => a + b + c) (fun n v => n + v) o_cfg [o_table [(1, 10); (2, 20)]; o_table [(3, 30)]] None
  = Ok (Some [Head ["RA_deg"; "Obj_Sun_LTC_km"; "ObjID"]%string; Data [12; 9; 1]; Data [22; 9; 2]; Data [32; 9; 3]]) /\
  sql_writes (fun a b c => a + b + c) (fun n v => n + v) o_cfg [o_table [(1, 10); (2, 20)]; o_table [(3, 30)]] None
  = Ok (Some (["RA_deg"; "Obj_Sun_LTC_km"; "ObjID"]%string, [[12; 9; 1]; [22; 9; 2]; [32; 9; 3]])).
Proof.
  split; [|split; reflexivity]. split; [intros c H; cbn in H; intuition (subst; cbn; auto 10)|]. split; [|cbn; lia].
  intros c H; cbn in H; intuition (subst; cbn; auto 10).
Qed.

(** * C22: interrupted runs *)

Theorem C22_file : forall V S C norm3 round cfg cs (read : nat -> Z -> result (nat * option C))
    (process : S -> C -> result (S * option (table V))) lenf size s0 k1 k2 f1 f2, k1 <= k2 ->
  let out k := written (snd (run read process k lenf size s0)) in
  Forall (fun t => t_names t = cs) (out k2) ->
  csv_writes norm3 round cfg (out k1) None = Ok f1 ->
  csv_writes norm3 round cfg (out k2) None = Ok f2 ->
  prefix_of (match f1 with Some l => l | None => [] end) (match f2 with Some l => l | None => [] end).
Proof. exact C22_file_proof. Qed.
Print Assumptions C22_file.

Definition o_read (s : nat) (n : Z) : result (nat * option (list (nat * nat))) :=
  Ok (s + Z.to_nat n, Some (firstn (Z.to_nat n) (skipn s [(1, 10); (2, 20); (3, 30)]))).
Definition o_process (s : unit) (c : list (nat * nat)) : result (unit * option (table nat)) := Ok (s, Some (o_table c)).
Example C22_case :
  Forall (fun t => t_names t = o_names) (written (snd (run o_read o_process 5 3 1 tt))) /\
  csv_writes (fun a b c => a + b + c) (fun n v => n + v) o_cfg (written (snd (run o_read o_process 2 3 1 tt))) None
  = Ok (Some [Head ["RA_deg"; "Obj_Sun_LTC_km"; "ObjID"]%string; Data [12; 9; 1]; Data [22; 9; 2]]) /\
  csv_writes (fun a b c => a + b + c) (fun n v => n + v) o_cfg (written (snd (run o_read o_process 5 3 1 tt))) None
  = Ok (Some [Head ["RA_deg"; "Obj_Sun_LTC_km"; "ObjID"]%string; Data [12; 9; 1]; Data [22; 9; 2]; Data [32; 9; 3]]).
Proof. split; [vm_compute; repeat constructor|]. split; vm_compute; reflexivity. Qed.

(** * C23: forced overwrite *)

Theorem C23_refused_partial : forall F stem (d : directory F), plain stem ->
  match warn_or_remove_file (stem ++ txt ".*") false d with
  | Err e => e = SysExit /\ exists n, In n (map fst d) /\ begins (stem ++ txt ".") n
  | Ok d' => d' = d /\ forall n, In n (map fst d) -> ~ begins (stem ++ txt ".") n
  end.
Proof. exact C23_refused_proof. Qed.
Print Assumptions C23_refused_partial.
Theorem C23_forced_partial : forall F stem (d : directory F), plain stem ->
  (forall a b, In a (map fst d) -> In b (map fst d) -> begins (stem ++ txt ".") a -> begins (stem ++ txt ".") b -> a = b) ->
  exists d', warn_or_remove_file (stem ++ txt ".*") true d = Ok d' /\
    selected (fun x => ~ begins (stem ++ txt ".") (fst x)) d d'.
Proof. exact C23_forced_proof. Qed.
Print Assumptions C23_forced_partial.

(** With several files of the stem the old output may survive. *)
Theorem C23_forced_refuted : exists F (d d' : directory F) stem stale,
  plain stem /\ NoDup (map fst d) /\
  warn_or_remove_file (stem ++ txt ".*") true d = Ok d' /\ look_up (stem ++ txt ".csv") d' = Some stale.
Proof. exact C23_forced_refuted_proof. Qed.
Print Assumptions C23_forced_refuted.

(** A stem with pattern characters defeats the protection. *)
Theorem C23_pattern_refuted : exists F (d : directory F) stem,
  In (stem ++ txt ".csv") (map fst d) /\ warn_or_remove_file (stem ++ txt ".*") false d = Ok d.
Proof. exact C23_pattern_refuted_proof. Qed.
Print Assumptions C23_pattern_refuted.

Example C23_case :
  plain (txt "out") /\
  warn_or_remove_file (txt "out.*") true [(txt "in.csv", 1); (txt "out.csv", 2); (txt "out_old.csv", 3)]
  = Ok [(txt "in.csv", 1); (txt "out_old.csv", 3)] /\
  warn_or_remove_file (txt "out.*") false [(txt "in.csv", 1); (txt "out.csv", 2)] = Err SysExit.
Proof. split; [vm_compute; intuition discriminate|]. split; vm_compute; reflexivity. Qed.

(** * C24: statistics *)

Theorem C24_rows_partial : forall A (oid filt : A -> string) mag phase linked date distinct categories mode l,
  (forall ids, NoDup (distinct ids) /\ forall i, In i (distinct ids) <-> In i ids) -> NoDup categories ->
  let st := stats oid filt mag phase linked date distinct categories mode l in
  NoDup (map (fun s => (s_id s, s_filter s)) st) /\
  (forall r, In r l -> In (filt r) categories -> exists s, In s st /\ s_id s = oid r /\ s_filter s = filt r) /\
  (forall s, In s st -> exists g, selected (fun r => oid r = s_id s /\ filt r = s_filter s) l g /\
     s_size s = length g /\
     least (map mag g) (s_mag_min s) /\ greatest (map mag g) (s_mag_max s) /\ median (map mag g) (s_mag_median s) /\
     least (map phase g) (s_phase_min s) /\ greatest (map phase g) (s_phase_max s) /\
     (mode = LinkKeep -> g <> [] -> (s_linked s = Some true <-> forall r, In r g -> linked r = true)) /\
     (mode <> LinkOff -> forall d, s_date s = Some d -> exists r, In r g /\ date r = Some d)).
Proof. exact C24_rows_proof. Qed.
Print Assumptions C24_rows_partial.
Theorem C24_chunks_partial : forall A (oid filt : A -> string) mag phase linked date distinct categories mode (chunks : list (list A)),
  (forall ids, NoDup (distinct ids) /\ forall i, In i (distinct ids) <-> In i ids) -> NoDup categories ->
  ForallOrdPairs (fun a b => forall r s, In r a -> In s b -> oid r <> oid s) chunks ->
  NoDup (map (fun s => (s_id s, s_filter s))
     (concat (map (stats oid filt mag phase linked date distinct categories mode) chunks))).
Proof. exact C24_chunks_proof. Qed.
Print Assumptions C24_chunks_partial.

(** Filters in which an object was never observed get a row too. *)
Theorem C24_empty_rows_refuted : exists categories (l : list (string * string)) s,
  In s (stats fst snd (fun _ => Fin 20) (fun _ => Fin 1) (fun _ => false) (fun _ => None) (nodup string_dec) categories LinkOff l)
  /\ s_size s = 0.
Proof. exact C24_empty_rows_refuted_proof. Qed.
Print Assumptions C24_empty_rows_refuted.

Definition st_obs : list (string * string * Q) :=
  [("a", "r", 20 # 1); ("a", "r", 22 # 1); ("b", "r", 19 # 1); ("a", "g", 18 # 1); ("a", "r", 27 # 1); ("a", "r", 21 # 1)]%string.
Definition st_table : list stat :=
  stats (fun x => fst (fst x)) (fun x => snd (fst x)) (fun x : string * string * Q => Fin (snd x)) (fun _ => Fin 3) (fun _ => true)
    (fun _ => Some 5%Z) (nodup string_dec) ["g"; "r"]%string LinkKeep st_obs.
Example C24_case :
  NoDup ["g"; "r"]%string /\ (forall ids, NoDup (nodup string_dec ids) /\ forall i, In i (nodup string_dec ids) <-> In i ids) /\
  map (fun s => (s_id s, s_filter s, s_size s, s_linked s)) st_table
  = [("b", "g", 0, None); ("b", "r", 1, Some true); ("a", "g", 1, Some true); ("a", "r", 4, Some true)]%string /\
  exists s, In s st_table /\ s_mag_min s = Fin (20 # 1) /\ s_mag_max s = Fin (27 # 1) /\ neqb (s_mag_median s) (Fin (43 # 2)) = true.
Proof.
  split; [repeat constructor; cbn; intuition discriminate|].
  split; [intro ids; split; [apply NoDup_nodup|intro; apply nodup_In]|].
  split; [vm_compute; reflexivity|]. eexists. split; [right; right; right; left; reflexivity|].
  split; [|split]; vm_compute; reflexivity.
Qed.

(** * C49: log checking *)

Theorem C49_last_line_partial : forall lines l,
  (ends completion l -> check_log (lines ++ [l]) = Ok (true, txt " ")) /\
  (~ ends completion l -> check_log (lines ++ [l]) = Ok (false, l)).
Proof. exact C49_last_line_proof. Qed.
Print Assumptions C49_last_line_partial.
Theorem C49_interrupted_partial : forall ms m,
  ~ ends (txt "Sorcha process is completed.") (fst m ++ snd m) ->
  check_log (map log_line (ms ++ [m])) = Ok (false, log_line m).
Proof. exact C49_interrupted_proof. Qed.
Print Assumptions C49_interrupted_partial.
Theorem C49_completed_partial : forall ms stamp,
  check_log (map log_line (ms ++ [(stamp, txt "Sorcha process is completed.")])) = Ok (true, txt " ").
Proof. exact C49_completed_proof. Qed.
Print Assumptions C49_completed_partial.
Theorem C49_all_partial : forall logs, (forall l, In l logs -> l <> []) ->
  exists rs, check_all_logs logs = Ok rs /\
    Forall2 (fun l r => exists pre z, l = pre ++ [z] /\ (fst r = true <-> ends completion z)) logs rs.
Proof. exact C49_all_proof. Qed.
Print Assumptions C49_all_partial.

(** An empty log file stops the whole check. *)
Theorem C49_empty_log_refuted : forall before after,
  (forall l, In l before -> l <> []) -> check_all_logs (before ++ [] :: after) = Err IndexError.
Proof. exact C49_empty_log_refuted_proof. Qed.
Print Assumptions C49_empty_log_refuted.

Example C49_case :
  check_all_logs [map log_line [(txt "12:00 ", txt "Starting"); (txt "12:01 ", txt "Sorcha process is completed.")];
                  map log_line [(txt "12:00 ", txt "Starting")]]
  = Ok [(true, txt " "); (false, txt "12:00 Starting ")].
Proof. vm_compute. reflexivity. Qed.

(** * C50: long kernel paths *)

Theorem C50_split : forall k s, 0 < k -> exists pieces z,
  split_kernel_path k s = intercalate joint (pieces ++ [z]) /\ concat pieces ++ z = s /\
  (forall p, In p pieces -> length p = k) /\ length z < k.
Proof. exact C50_split_proof. Qed.
Print Assumptions C50_split.

Example C50_case : split_kernel_path 3 (txt "/a/b/cde") = txt "/a/+' 'b/c+' 'de".
Proof. vm_compute. reflexivity. Qed.

(** * C54: merging result databases *)

Theorem C54_rows_partial : forall V filename (listing : list (database V)) names,
  (forall p t, In (p, t) listing -> p <> filename -> exists rows, t = Some (names, rows) /\
     forall r, In r rows -> length r = length names) ->
  (exists d, In d listing /\ fst d <> filename) ->
  exists kept, selected (fun d => fst d <> filename) listing kept /\
    create_results_table filename listing
      = Ok (names, concat (map (fun d => match snd d with Some x => snd x | None => [] end) kept)).
Proof. exact C54_rows_proof. Qed.
Print Assumptions C54_rows_partial.

(** Databases with differently ordered columns are merged by position. *)
Theorem C54_columns_refuted : exists (listing : list (database nat)) names rows,
  create_results_table [] listing = Ok (names, rows) /\
  In (txt "b", Some (["Dec"; "RA"]%string, [[2; 1]])) listing /\
  names = ["RA"; "Dec"]%string /\ In [2; 1] rows.
Proof. exact C54_columns_refuted_proof. Qed.
Print Assumptions C54_columns_refuted.

(** The command line tool compares the found files with the wrong path, so an
    output database among the inputs makes it fail. *)
Theorem C54_output_refuted : forall V inputs (out : text) (listing : list (database V)),
  out <> inputs -> create_results_table inputs ((out, None) :: listing) = Err OperationalError.
Proof. exact C54_output_refuted_proof. Qed.
Print Assumptions C54_output_refuted.

Example C54_case :
  create_results_table (txt "out") [(txt "a", Some (["RA"; "Dec"]%string, [[1; 2]; [3; 4]])); (txt "out", None); (txt "b", Some (["RA"; "Dec"]%string, [[5; 6]]))]
  = Ok (["RA"; "Dec"]%string, [[1; 2]; [3; 4]; [5; 6]]).
Proof. vm_compute. reflexivity. Qed.

(** * C58: meta kernel entries *)

Theorem C58_expand : forall cache path, cache <> [] -> ~ occurs (txt "$A") path ->
  replace (txt "$A") cache (build_file_name cache path) = path.
Proof. exact C58_expand_proof. Qed.
Print Assumptions C58_expand.

Example C58_case : build_file_name (txt "/cache") (txt "/cache/de440.bsp") = txt "$A/de440.bsp" /\
  replace (txt "$A") (txt "/cache") (txt "$A/de440.bsp") = txt "/cache/de440.bsp".
Proof. split; vm_compute; reflexivity. Qed.

(** * C59: rounding *)

(** Values are rounded to the configured number of decimals: part of C21,
    where [shown] describes every printed value.  A number of decimals of zero
    is accepted and ignored. *)
Theorem C59_zero_refuted : exists (t : table nat) cfg f,
  oc_pos cfg = Some 0 /\ Forall (fun c => In c (t_names t)) ["RA_deg"; "ObjID"]%string /\
  csv_writes (fun a _ _ => a) (fun _ _ => 0) cfg [t] None = Ok (Some [Head ["RA_deg"; "ObjID"]%string; Data [7; 7]]) /\
  f = PPWriteOutput_csv (fun a _ _ => a) (fun _ _ => 0) {| oc_columns := oc_columns cfg; oc_pos := Some 1; oc_mag := None; oc_link_col := false |} t None
  /\ f = Ok (Some [Head ["RA_deg"; "ObjID"]%string; Data [0; 7]]).
Proof. exact C59_zero_refuted_proof. Qed.
Print Assumptions C59_zero_refuted.
Theorem C59_rounding_partial : forall V norm3 round cfg (t : table V) f r c n,
  PPWriteOutput_csv norm3 round cfg t None = Ok (Some f) -> In r (t_recs t) -> In c (requested cfg (t_names t)) ->
  exists vals k v, In (Data vals) f /\ nth_error (requested cfg (t_names t)) k = Some c /\ nth_error vals k = Some v /\
   (In c position_names -> oc_pos cfg = Some (S n) -> v = round (S n) (raw norm3 r c)) /\
   (In c magnitude_names -> oc_mag cfg = Some (S n) -> v = round (S n) (raw norm3 r c)) /\
   (~ In c position_names -> ~ In c magnitude_names -> v = raw norm3 r c) /\
   (oc_pos cfg = None -> oc_mag cfg = None -> v = raw norm3 r c).
Proof. exact C59_rounding_proof. Qed.
Print Assumptions C59_rounding_partial.

Example C59_case :
  shown (fun a b c => a + b + c) (fun n v => n * 100 + v) o_cfg (o_row 1 10) "RA_deg" = 210 /\
  shown (fun a b c => a + b + c) (fun n v => n * 100 + v) o_cfg (o_row 1 10) "PSFMag" = 3.
Proof. split; reflexivity. Qed.

(** * C60: scope of forced overwriting *)

Theorem C60_scope_partial : forall F stem force (d d' : directory F), plain stem ->
  warn_or_remove_file (stem ++ txt ".*") force d = Ok d' ->
  d' = d \/ exists n, begins (stem ++ txt ".") n /\ selected (fun x => fst x <> n) d d'.
Proof. exact C60_scope_proof. Qed.
Print Assumptions C60_scope_partial.

(** Pattern characters in the stem delete somebody else's file. *)
Theorem C60_scope_refuted : exists F (d d' : directory F) stem n,
  In n (map fst d) /\ ~ begins (stem ++ txt ".") n /\
  warn_or_remove_file (stem ++ txt ".*") true d = Ok d' /\ ~ In n (map fst d').
Proof. exact C60_scope_refuted_proof. Qed.
Print Assumptions C60_scope_refuted.

Example C60_case :
  warn_or_remove_file (txt "out.*") true [(txt "out.py", 1); (txt "out.csv", 2)] = Ok [(txt "out.csv", 2)].
Proof. vm_compute. reflexivity. Qed.

(** * C61: SQLite output *)

Theorem C61_index_partial : forall V norm3 round cfg cs (chunks : list (table V)),
  chunks <> [] -> Forall (fun t => t_names t = cs) chunks ->
  (forall c, In c (requested cfg cs) -> c <> "level_0"%string) ->
  forall f, sql_writes norm3 round cfg chunks None = Ok f ->
  ((exists f', sql_run norm3 round cfg chunks = Ok f') <->
   (In "ObjID" (requested cfg cs) /\ In "fieldMJD_TAI" (requested cfg cs) /\ In "optFilter" (requested cfg cs)))%string.
Proof. exact C61_index_proof. Qed.
Print Assumptions C61_index_partial.
Theorem C61_refuted : exists (t : table nat) cfg f,
  available cfg (t_names t) /\ sql_writes (fun a _ _ => a) (fun _ v => v) cfg [t] None = Ok (Some f) /\
  sql_run (fun a _ _ => a) (fun _ v => v) cfg [t] = Err OperationalError.
Proof. exact C61_refuted_proof. Qed.
Print Assumptions C61_refuted.

Example C61_case :
  sql_run (fun a b c => a + b + c) (fun n v => n + v) {| oc_columns := All; oc_pos := None; oc_mag := None; oc_link_col := false |}
    [{| t_names := o_names ++ ["fieldMJD_TAI"; "optFilter"]%string; t_recs := [fun _ => 1] |}]
  = Ok (Some (o_names ++ ["fieldMJD_TAI"; "optFilter"; "Obj_Sun_LTC_km"]%string, [[1; 1; 1; 1; 1; 1; 1; 1; 3]])).
Proof. reflexivity. Qed.

(** * C62: results and statistics *)

Theorem C62_separate_partial : forall V out stats (chunks : list (table V * table V)) names, out <> stats -> chunks <> [] ->
  Forall (fun t => t_names (fst t) = names) chunks ->
  write_chunks out stats chunks (fun _ => None) out
  = Some (Head names :: map (fun r => Data (map r names)) (concat (map (fun t => t_recs (fst t)) chunks))).
Proof. exact C62_separate_proof. Qed.
Print Assumptions C62_separate_partial.
Theorem C62_same_name_refuted : exists (a b : table nat),
  t_names a = ["ObjID"; "RA_deg"]%string /\ t_names b = ["ObjID"; "optFilter"; "number_obs"]%string /\
  write_chunks "x" "x" [(a, b)] (fun _ => None) "x" = Some [Head ["ObjID"; "RA_deg"]%string; Data [1; 2]; Data [3; 4; 5]].
Proof. exact C62_same_name_refuted_proof. Qed.
Print Assumptions C62_same_name_refuted.

Example C62_case :
  write_chunks "out" "st" [(o_table [(1, 10)], o_table []); (o_table [(2, 20)], o_table [])] (fun _ => None) "out"
  = Some [Head o_names; Data [1; 10; 3; 3; 3; 3]; Data [2; 20; 3; 3; 3; 3]].
Proof. reflexivity. Qed.
