(** The commands init, demo and outputs. *)
From Coq Require Import Ascii String List ZArith Bool.
From Verif Require Import Base.Prelude Model.Files Model.Startup Model.FrontEnds Spec.Files Spec.Startup Spec.FrontEnds
  Proofs.FrontEnds.
Import ListNotations.
Open Scope list_scope.

(** * C92: files of the user *)

Theorem C92_init_kept_partial : forall F int_of (setups : list (text * F)) typed path force fs fs' r,
  proper fs -> init F int_of setups typed path force fs = (fs', r) ->
  forall p n, In (p, n) fs ->
  In (p, n) fs' \/ (force = true /\ exists k x v, int_of typed = Some k /\ chosen k x /\ p = under path x /\ n = File v).
Proof. exact C92_init_kept_proof. Qed.
Print Assumptions C92_init_kept_partial.
Theorem C92_init_written_partial : forall F int_of (setups : list (text * F)) typed path force fs fs' r,
  proper fs -> init F int_of setups typed path force fs = (fs', r) ->
  proper fs' /\ forall p n, In (p, n) fs' ->
  In (p, n) fs \/ exists k x v, int_of typed = Some k /\ chosen k x /\ p = under path x /\ n = File v /\ In (x, v) setups.
Proof. exact C92_init_written_proof. Qed.
Print Assumptions C92_init_written_partial.
Theorem C92_init_done_partial : forall F int_of (setups : list (text * F)) typed path force fs fs' r,
  proper fs -> init F int_of setups typed path force fs = (fs', r) ->
  (r = Ok tt <->
     dir_at fs path /\ exists k, int_of typed = Some k /\ (1 <= k <= 5)%Z
     /\ forall x, chosen k x -> (exists v, In (x, v) setups) /\ ~ dir_at fs (under path x)
                                /\ (file_at fs (under path x) -> force = true))
  /\ (r = Ok tt -> forall k x, int_of typed = Some k -> chosen k x ->
        exists v, In (x, v) setups /\ In (under path x, File v) fs').
Proof. exact C92_init_done_proof. Qed.
Print Assumptions C92_init_done_partial.
Theorem C92_demo_partial : forall F (demos : list (text * F)) path force fs fs' r,
  proper fs -> demo_prepare F demos path force fs = (fs', r) ->
  (forall p n, In (p, n) fs -> In (p, n) fs' \/ (force = true /\ exists x v, demo_file x /\ p = under path x /\ n = File v))
  /\ (forall p n, In (p, n) fs' -> In (p, n) fs
        \/ exists x v, demo_file x /\ p = under path x /\ n = File v /\ In (x, v) demos)
  /\ (r = Ok tt <-> dir_at fs path /\ forall x, demo_file x -> (exists v, In (x, v) demos) /\ ~ dir_at fs (under path x)
                                          /\ (file_at fs (under path x) -> force = true))
  /\ (r = Ok tt -> forall x, demo_file x -> exists v, In (x, v) demos /\ In (under path x, File v) fs').
Proof. exact C92_demo_proof. Qed.
Print Assumptions C92_demo_partial.
Theorem C92_logs_kept_partial : forall F lines_of report_of d outpath force (fs fs' : list (text * node F)) r, proper fs ->
  cmd_outputs_check_logs F lines_of report_of d outpath force fs = (fs', r) ->
  (forall p n, In (p, n) fs -> In (p, n) fs' \/ r = Ok (Saved p) \/ (force = true /\ outpath = Some p))
  /\ (forall p n, In (p, n) fs' -> In (p, n) fs \/ r = Ok (Saved p))
  /\ (force = false -> (forall o, outpath = Some o -> ends (txt ".csv") o) -> forall p n, In (p, n) fs -> In (p, n) fs').
Proof. exact C92_logs_kept_proof. Qed.
Print Assumptions C92_logs_kept_partial.
Theorem C92_logs_report_partial : forall F lines_of report_of d outpath force (fs fs' : list (text * node F)) q, proper fs ->
  cmd_outputs_check_logs F lines_of report_of d outpath force fs = (fs', Ok (Saved q)) ->
  exists o rows, outpath = Some o
    /\ ((ends (txt ".csv") o /\ q = o) \/ (~ ends (txt ".csv") o /\ q = o ++ txt ".csv"))
    /\ In (q, File (report_of rows)) fs' /\ NoDup (map fst rows)
    /\ (forall p x, In (p, x) rows <-> exists c, log_below fs d outpath p c /\ true_row lines_of c x)
    /\ exists p l, In (p, (false, l)) rows.
Proof. exact C92_logs_report_proof. Qed.
Print Assumptions C92_logs_report_partial.
Theorem C92_logs_shown_partial : forall F lines_of report_of d outpath force (fs fs' : list (text * node F)) r, proper fs ->
  cmd_outputs_check_logs F lines_of report_of d outpath force fs = (fs', r) ->
  (forall l, r = Ok (Shown l) -> l <> [] /\ NoDup (map fst l)
     /\ (forall p x, In (p, x) l <-> fst x = false /\ exists c, log_below fs d outpath p c /\ true_row lines_of c x))
  /\ (r = Ok AllGood -> forall p c, log_below fs d outpath p c -> completed (lines_of c)).
Proof. exact C92_logs_shown_proof. Qed.
Print Assumptions C92_logs_shown_partial.
Theorem C92_logs_answer_partial : forall F lines_of report_of d force (fs : list (text * node F)), proper fs ->
  exists r, cmd_outputs_check_logs F lines_of report_of d None force fs = (fs, r)
  /\ ((exists a, r = Ok a) <-> dir_at fs d /\ (exists p c, log_below fs d None p c)
        /\ forall p c, log_below fs d None p c -> lines_of c <> [])
  /\ (r = Ok AllGood <-> dir_at fs d /\ (exists p c, log_below fs d None p c)
        /\ forall p c, log_below fs d None p c -> completed (lines_of c)).
Proof. exact C92_logs_answer_proof. Qed.
Print Assumptions C92_logs_answer_partial.

(** A refused [sorcha init] can leave some of the files behind. *)
Theorem C92_halfway_refuted : exists F int_of (setups : list (text * F)) typed path fs fs' p n,
  proper fs /\ init F int_of setups typed path false fs = (fs', Err SysExit) /\ In (p, n) fs' /\ ~ found fs p.
Proof. exact C92_halfway_refuted_proof. Qed.
Print Assumptions C92_halfway_refuted.
(** [check-logs -o name] overwrites name.csv without --force. *)
Theorem C92_suffix_refuted : exists F lines_of report_of d o (fs fs' : list (text * node F)) p n,
  proper fs /\ cmd_outputs_check_logs F lines_of report_of d (Some o) false fs = (fs', Ok (Saved p))
  /\ In (p, n) fs /\ ~ In (p, n) fs'.
Proof. exact C92_suffix_refuted_proof. Qed.
Print Assumptions C92_suffix_refuted.
(** [check-logs -o name --force] removes the file "name" and writes name.csv. *)
Theorem C92_force_refuted : exists F lines_of report_of d o (fs fs' : list (text * node F)) q,
  proper fs /\ cmd_outputs_check_logs F lines_of report_of d (Some o) true fs = (fs', Ok (Saved q))
  /\ found fs o /\ ~ found fs' o.
Proof. exact C92_force_refuted_proof. Qed.
Print Assumptions C92_force_refuted.
(** [check-logs -o name.csv --force] removes the report although it saves no
    new one. *)
Theorem C92_lost_refuted : exists F lines_of report_of d o (fs fs' : list (text * node F)),
  proper fs /\ cmd_outputs_check_logs F lines_of report_of d (Some o) true fs = (fs', Ok AllGood)
  /\ found fs o /\ ~ found fs' o.
Proof. exact C92_lost_refuted_proof. Qed.
Print Assumptions C92_lost_refuted.

(** All four configurations into a directory; one of them is there and --force is
    given.  Then a report about two logs, one of them in a subdirectory. *)
Example C92_case :
  let setups := [(txt "Rubin_circular_approximation.ini", 1); (txt "Rubin_full_footprint.ini", 2);
                 (txt "Rubin_known_object_prediction.ini", 3); (txt "DES_config_file.ini", 4)]%nat in
  let fs := [(txt "/w", Dir); (txt "/w/Rubin_full_footprint.ini", File 9%nat); (txt "/w/notes", File 8%nat)] in
  proper fs
  /\ init nat (fun _ => Some 5%Z) setups "5" (txt "/w") true fs
     = ([(txt "/w", Dir); (txt "/w/Rubin_full_footprint.ini", File 2%nat); (txt "/w/notes", File 8%nat);
         (txt "/w/Rubin_circular_approximation.ini", File 1%nat); (txt "/w/Rubin_known_object_prediction.ini", File 3%nat);
         (txt "/w/DES_config_file.ini", File 4%nat)], Ok tt)
  /\ init nat (fun _ => Some 2%Z) setups "2" (txt "/w") false fs = (fs, Err SysExit)
  /\ let logs := [(txt "/w", Dir); (txt "/w/b", Dir); (txt "/w/b/t-sorcha.log", File [txt "Started "]);
                  (txt "/w/a-sorcha.log", File [txt "Started "; txt "12:00 Sorcha process is completed. "])] in
     proper logs
     /\ cmd_outputs_check_logs (list text) (fun c => c) (fun rows => map fst rows) (txt "/w") (Some (txt "/w/r.csv")) false logs
        = (logs ++ [(txt "/w/r.csv", File [txt "/w/a-sorcha.log"; txt "/w/b/t-sorcha.log"])], Ok (Saved (txt "/w/r.csv")))
     /\ cmd_outputs_check_logs (list text) (fun c => c) (fun rows => map fst rows) (txt "/w") None false logs
        = (logs, Ok (Shown [(txt "/w/b/t-sorcha.log", (false, txt "Started "))])).
Proof.
  cbv zeta. split; [apply names_nodup; vm_compute; reflexivity|]. split; [vm_compute; reflexivity|].
  split; [vm_compute; reflexivity|]. split; [apply names_nodup; vm_compute; reflexivity|].
  split; vm_compute; reflexivity.
Qed.
