(** A time mismatch stops a round (C51), for both surveys. *)
From Coq Require Import ZArith QArith Qabs String List Bool Lqa.
From Verif Require Import Base.Prelude Base.Num Model.Pipeline Model.DESPipeline Spec.Pointing Proofs.Pipeline.
Import ListNotations.

Lemma mismatch_stops : forall E P (efield : E -> Z) (etime : E -> Q) (pfield : P -> Z) (pfilt : P -> option string) (pstart : P -> Q) pointings js e p,
  In e js -> In p pointings -> efield e = pfield p -> pfilt p <> None -> (tolerance (etime e) < Qabs (pstart p - etime e))%Q ->
  PPMatchPointing efield etime pfield pfilt pstart pointings js = Err SysExit.
Proof.
  intros E P efield etime pfield pfilt pstart pointings js e p He Hp Hf Hn T. unfold PPMatchPointing.
  destruct (forallb _ _) eqn:F; [|reflexivity]. exfalso.
  rewrite forallb_forall in F. rewrite match_rows in F.
  specialize (F (e, p)). cbn [fst snd] in F.
  assert (I : In (e, p) (matched efield pfield pfilt pointings js)) by (apply in_matched; cbn; auto).
  specialize (F I). apply Qle_bool_iff in F. unfold tolerance in T. lra.
Qed.

Lemma C51_round_proof : forall E P (eid : E -> string) (efield : E -> Z) (etime : E -> Q) (pfield : P -> Z) (pfilt : P -> option string)
    (pstart : P -> Q) pointings physics noise fsep prob gauss fov drop lsep tsort ldraws osort lweights (cfg : settings E P) st js e p,
  In e js -> In p pointings -> efield e = pfield p -> pfilt p <> None -> (tolerance (etime e) < Qabs (pstart p - etime e))%Q ->
  process eid efield etime pfield pfilt pstart pointings physics noise fsep prob
    gauss fov drop lsep tsort ldraws osort lweights cfg st js = Err SysExit.
Proof.
  intros. destruct js as [|j js]; [contradiction|]. unfold process, detections.
  erewrite mismatch_stops; eauto.
Qed.

Lemma C51_des_round_proof : forall E P (eid : E -> string) (efield : E -> Z) (etime ex ey ez erarate edecrate : E -> Q)
    (pfield : P -> Z) (pfilt : P -> option string) (pstart : P -> Q) pointings physics fsep prob fov drop dsort (cfg : des_settings E P) st js e p,
  In e js -> In p pointings -> efield e = pfield p -> pfilt p <> None -> (tolerance (etime e) < Qabs (pstart p - etime e))%Q ->
  des_process eid efield etime ex ey ez erarate edecrate pfield pfilt pstart pointings physics fsep prob
       fov drop dsort cfg st js = Err SysExit.
Proof.
  intros. destruct js as [|j js]; [contradiction|]. unfold des_process, des_detections.
  erewrite mismatch_stops; eauto.
Qed.
