(** Properties of results written to HDF5 files. *)
From Coq Require Import String List Arith Bool Lia.
From Verif Require Import Base.Prelude Model.Output Model.Hdf5Output Spec.Output Proofs.Output Proofs.Hdf5Output.
Import ListNotations.
Open Scope nat_scope.

(** * C97: results in HDF5 files *)

Theorem C97_rows_partial : forall V (text : V -> option string) norm3 round cfg cs (chunks : list (table V)) file how,
  available cfg cs -> In "ObjID"%string (requested cfg cs) -> Forall (fun t => t_names t = cs) chunks ->
  hdf5_writes text norm3 round cfg chunks None = (file, how) ->
  exists done left, chunks = done ++ left /\ (how = Ok tt -> left = []) /\ (how <> Ok tt -> left <> [] /\ how = Err ValueError) /\
    match concat (map t_recs done) with
    | [] => file = None
    | rows => exists h, file = Some h /\ h_names h = requested cfg cs /\
        h_rows h = map (fun r => map (shown norm3 round cfg r) (requested cfg cs)) rows
    end.
Proof. exact C97_rows_proof. Qed.
Print Assumptions C97_rows_partial.
Theorem C97_when_partial : forall V (text : V -> option string) norm3 round cfg cs (pre rest : list (table V)) t,
  available cfg cs -> In "ObjID"%string (requested cfg cs) -> Forall (fun t => t_names t = cs) (pre ++ t :: rest) ->
  (forall u, In u pre -> t_recs u = []) -> t_recs t <> [] ->
  (snd (hdf5_writes text norm3 round cfg (pre ++ t :: rest) None) = Ok tt <->
   forall u r c s, In u rest -> In r (t_recs u) -> In c (requested cfg cs) -> text (shown norm3 round cfg r c) = Some s ->
     String.length s <= 1 \/
     exists r0 s0, In r0 (t_recs t) /\ text (shown norm3 round cfg r0 c) = Some s0 /\ String.length s <= String.length s0).
Proof. exact C97_when_proof. Qed.
Print Assumptions C97_when_partial.
Theorem C97_columns_partial : forall V (text : V -> option string) norm3 round cfg l (t : table V) ts,
  oc_columns cfg = Columns l -> ~ In "ObjID"%string l ->
  exists e, hdf5_writes text norm3 round cfg (t :: ts) None = (None, Err e).
Proof. exact C97_columns_proof. Qed.
Print Assumptions C97_columns_partial.
Theorem C97_longer_refuted : exists (chunks : list (table (nat + string))) cfg,
  available cfg (t_names (demo_table [])) /\
  csv_writes (fun a _ _ => a) (fun _ v => v) cfg chunks None =
    Ok (Some [Head ["ObjID"; "RA_deg"]%string; Data [inr "obj_9"%string; inl 7]; Data [inr "obj_10"%string; inl 7]]) /\
  exists h, hdf5_writes demo_text (fun a _ _ => a) (fun _ v => v) cfg chunks None = (Some h, Err ValueError) /\
    h_rows h = [[inr "obj_9"%string; inl 7]].
Proof. exact C97_longer_refuted_proof. Qed.
Print Assumptions C97_longer_refuted.
Theorem C97_columns_refuted : exists (chunks : list (table (nat + string))) cfg,
  available cfg (t_names (demo_table [])) /\
  csv_writes (fun a _ _ => a) (fun _ v => v) cfg chunks None =
    Ok (Some [Head ["RA_deg"; "Obj_Sun_LTC_km"]%string; Data [inl 7; inl 7]]) /\
  hdf5_writes demo_text (fun a _ _ => a) (fun _ v => v) cfg chunks None = (None, Err KeyError).
Proof. exact C97_columns_refuted_proof. Qed.
Print Assumptions C97_columns_refuted.

(** Four rounds, the first without rows, the last with a shorter identifier: everything is
    in the file. *)
Example C97_case : exists h,
  available (demo_cfg ["ObjID"; "RA_deg"]%string) (t_names (demo_table []))
  /\ hdf5_writes demo_text (fun a _ _ => a) (fun _ v => v) (demo_cfg ["ObjID"; "RA_deg"]%string)
       [demo_table []; demo_table ["obj_1"%string; "obj_10"%string]; demo_table []; demo_table ["obj_2"%string]] None = (Some h, Ok tt)
  /\ h_names h = ["ObjID"; "RA_deg"]%string
  /\ h_rows h = [[inr "obj_1"%string; inl 7]; [inr "obj_10"%string; inl 7]; [inr "obj_2"%string; inl 7]].
Proof.
  eexists. split; [|split; [vm_compute; reflexivity|split; reflexivity]].
  split; [|split]; cbn; [tauto| |lia]. intros c [<-|[<-|[]]]; tauto.
Qed.
