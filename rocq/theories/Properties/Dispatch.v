(** Properties of the command [sorcha] itself. *)
From Coq Require Import String List ZArith Bool Lia.
From Verif Require Import Base.Prelude Model.Dispatch Spec.Dispatch Proofs.Dispatch.
Import ListNotations.
Open Scope list_scope.

(** * C98: verbs of the command sorcha *)

Theorem C98_runs_partial : forall P (code : P -> list string -> Z) (path : PATH P) v rest p,
  proper path -> listable path -> first_on path ("sorcha-" ++ v) p ->
  v <> ""%string -> prefix "-" v = false -> (forall l, rest <> "--"%string :: l) ->
  main P code path (v :: rest) =
    Some {| ran := [(p, rest)]; printed_version := false; status := Ok (code p rest mod 256)%Z |}.
Proof. exact C98_runs_proof. Qed.
Print Assumptions C98_runs_partial.
Theorem C98_only_partial : forall P (code : P -> list string -> Z) (path : PATH P) argv s,
  proper path -> main P code path argv = Some s ->
  ran s = [] \/
  exists v rest p, argv = v :: rest /\ first_on path ("sorcha-" ++ v) p /\
    (ran s = [(p, rest)] \/ exists l, rest = "--"%string :: l /\ ran s = [(p, l)]).
Proof. exact C98_only_proof. Qed.
Print Assumptions C98_only_partial.
Theorem C98_unknown_partial : forall P (code : P -> list string -> Z) (path : PATH P) v rest s,
  proper path -> listable path -> ~ has path ("sorcha-" ++ v) -> prefix "-" v = false ->
  main P code path (v :: rest) = Some s -> ran s = [] /\ exists n, status s = Ok n /\ n <> 0%Z.
Proof. exact C98_unknown_proof. Qed.
Print Assumptions C98_unknown_partial.
Theorem C98_version_partial : forall P (code : P -> list string -> Z) (path : PATH P) v,
  proper path -> listable path -> has path ("sorcha-" ++ v) ->
  main P code path ["--version"%string] = Some {| ran := []; printed_version := true; status := Ok 0%Z |}.
Proof. exact C98_version_proof. Qed.
Print Assumptions C98_version_partial.
Theorem C98_unlistable_partial : forall P (code : P -> list string -> Z) (path : PATH P) d argv,
  In (Some d) path -> readable d = false ->
  main P code path argv = Some {| ran := []; printed_version := false; status := Err OSError |}.
Proof. exact C98_unlistable_proof. Qed.
Print Assumptions C98_unlistable_partial.
Theorem C98_unlistable_refuted : exists (path : PATH string) p,
  proper path /\ first_on path "sorcha-run" p /\
  forall code, main string code path ["run"%string] = Some {| ran := []; printed_version := false; status := Err OSError |}.
Proof. exact C98_unlistable_refuted_proof. Qed.
Print Assumptions C98_unlistable_refuted.
Theorem C98_dashes_refuted : exists (path : PATH string) p,
  proper path /\ listable path /\ first_on path "sorcha-run" p /\
  forall code, main string code path ["run"; "--"; "x"]%string =
    Some {| ran := [(p, ["x"%string])]; printed_version := false; status := Ok (code p ["x"%string] mod 256)%Z |}.
Proof. exact C98_dashes_refuted_proof. Qed.
Print Assumptions C98_dashes_refuted.
Theorem C98_killed_refuted : exists (path : PATH string) code,
  proper path /\ listable path /\ code "mine"%string [] = (-9)%Z /\
  main string code path ["run"%string] = Some {| ran := [("mine"%string, [])]; printed_version := false; status := Ok 247%Z |}.
Proof. exact C98_killed_refuted_proof. Qed.
Print Assumptions C98_killed_refuted.

(** The first of two programs sorcha-run, with options of its own. *)
Example C98_case :
  proper demo_path /\ listable demo_path /\ first_on demo_path "sorcha-run" "mine"%string
  /\ main string (fun _ _ => 3%Z) demo_path ["run"; "-c"; "x.ini"; "--version"; "--"]%string
     = Some {| ran := [("mine", ["-c"; "x.ini"; "--version"; "--"])]%string; printed_version := false; status := Ok 3%Z |}
  /\ main string (fun _ _ => 3%Z) demo_path ["lost"]%string = Some {| ran := []; printed_version := false; status := Ok 1%Z |}
  /\ main string (fun _ _ => 3%Z) demo_path ["walk"]%string = Some {| ran := []; printed_version := false; status := Ok 2%Z |}.
Proof.
  split; [apply demo_proper|]. split; [apply demo_listable|]. split; [|repeat split].
  exists (firstn 2 demo_path). do 2 eexists. split; [reflexivity|]. split; [left; reflexivity|].
  intros [d [p [H1 H2]]]. cbn in H1. destruct H1 as [H1|[H1|[]]]; [discriminate|]. injection H1 as <-. cbn in H2. intuition discriminate.
Qed.
