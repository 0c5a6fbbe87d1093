(** The command [sorcha]. *)
From Coq Require Import Ascii String List ZArith Bool Lia.
From Verif Require Import Base.Prelude Model.Dispatch Spec.Dispatch.
Import ListNotations.
Open Scope list_scope.

Lemma substring_all : forall s, substring 0 (String.length s) s = s.
Proof. induction s as [|a s IH]; cbn; [reflexivity|]. rewrite IH. reflexivity. Qed.
Lemma rest_of : forall v, substring 7 (String.length ("sorcha-" ++ v) - 7) ("sorcha-" ++ v) = v.
Proof. intros v. cbn. rewrite Nat.sub_0_r. apply substring_all. Qed.
Lemma prefix_of : forall v, prefix "sorcha-" ("sorcha-" ++ v) = true.
Proof. intros v. cbn. destruct v; reflexivity. Qed.
Lemma prefix_inv : forall s, prefix "sorcha-" s = true -> s = ("sorcha-" ++ substring 7 (String.length s - 7) s)%string.
Proof.
  intros s H. unfold prefix in H.
  do 7 (destruct s as [|? s]; [discriminate H|];
        match type of H with (if ascii_dec ?x ?y then _ else _) = _ => destruct (ascii_dec x y) as [<-|]; [|discriminate H] end).
  cbn. rewrite Nat.sub_0_r, substring_all. reflexivity.
Qed.

Section Main.
Context {P : Type}.
Variable code : P -> list string -> Z.
Implicit Types path : PATH P.

Lemma verbs_in_spec : forall (es : list (string * entry P)) v,
  In v (verbs_in P es) <-> exists e, In (("sorcha-" ++ v)%string, e) es /\ e <> Other.
Proof.
  induction es as [|[n e] es IH]; intros v; cbn [verbs_in].
  - split; [intros []|intros [e [[] _]]].
  - unfold verb_of at 1. cbn [fst snd].
    assert (R : (exists e0, In (("sorcha-" ++ v)%string, e0) ((n, e) :: es) /\ e0 <> Other) <->
                (n = ("sorcha-" ++ v)%string /\ e <> Other) \/ In v (verbs_in P es)).
    { rewrite IH. split.
      - intros [e0 [[Q|Q] N]]; [injection Q as -> ->; left; auto|right; eauto].
      - intros [[-> N]|[e0 [Q N]]]; [exists e; split; [left; auto|auto]|exists e0; split; [right; auto|auto]]. }
    rewrite R. destruct e as [p| |].
    + destruct (prefix "sorcha-" n) eqn:E.
      * cbn [In]. split; (intros [H|H]; [left|right; auto]).
        -- split; [|discriminate]. apply prefix_inv in E. rewrite H in E. exact E.
        -- destruct H as [-> _]. apply rest_of.
      * split; [auto|]. intros [[-> _]|H]; auto. rewrite prefix_of in E. discriminate.
    + destruct (prefix "sorcha-" n) eqn:E.
      * cbn [In]. split; (intros [H|H]; [left|right; auto]).
        -- split; [|discriminate]. apply prefix_inv in E. rewrite H in E. exact E.
        -- destruct H as [-> _]. apply rest_of.
      * split; [auto|]. intros [[-> _]|H]; auto. rewrite prefix_of in E. discriminate.
    + split; [auto|]. intros [[_ N]|H]; auto. congruence.
Qed.

Lemma find_spec : forall path, match find_sorcha_verbs P path with
  | Ok l => listable path /\ forall v, In v l <-> exists d e, In (Some d) path /\ In (("sorcha-" ++ v)%string, e) (entries d) /\ e <> Other
  | Err e => e = OSError /\ ~ listable path
  end.
Proof.
  induction path as [|[d|] ds IH]; cbn [find_sorcha_verbs].
  - split; [intros d []|]. intros v. split; [intros []|intros [d [e [[] _]]]].
  - destruct (readable d) eqn:R.
    + destruct (find_sorcha_verbs P ds) as [l|e]; cbn [rmap].
      * destruct IH as [L IH]. split.
        { intros d' [Q|Q]; [injection Q as <-; auto|apply L; auto]. }
        intros v. rewrite in_app_iff, verbs_in_spec, IH. split.
        -- intros [[e [H N]]|[d' [e [H [H' N]]]]]; [exists d, e|exists d', e]; cbn; auto.
        -- intros [d' [e [[Q|Q] [H' N]]]]; [injection Q as <-; left; eauto|right; eauto].
      * destruct IH as [-> N]. split; auto. intros L. apply N. intros d' H. apply L. right. auto.
    + split; auto. intros L. rewrite L in R; [discriminate|left; auto].
  - destruct (find_sorcha_verbs P ds) as [l|e].
    + destruct IH as [L IH]. split.
      { intros d' [Q|Q]; [discriminate|apply L; auto]. }
      intros v. rewrite IH. split; intros [d' [e [Q H]]]; exists d', e; cbn in *; intuition congruence.
    + destruct IH as [-> N]. split; auto. intros L. apply N. intros d' H. apply L. right. auto.
Qed.

Lemma find_entry : forall (es : list (string * entry P)) n e, NoDup (map fst es) ->
  (find (fun x => String.eqb (fst x) n) es = Some (n, e) <-> In (n, e) es).
Proof.
  induction es as [|[m f] es IH]; intros n e N; cbn [find fst]; [split; [discriminate|intros []]|].
  inversion N as [|? ? N1 N2]; subst. destruct (String.eqb_spec m n) as [->|D].
  - split; [intros H; injection H as ->; left; auto|]. intros [H|H]; [congruence|].
    exfalso. apply N1. apply (in_map fst) in H. exact H.
  - rewrite (IH n e N2). split; [right; auto|]. intros [H|H]; [congruence|auto].
Qed.

Lemma program_in_spec : forall d n p, NoDup (map fst (entries d)) ->
  (program_in P n d = Some p <-> In (n, Program p) (entries d)).
Proof.
  intros d n p N. unfold program_in. rewrite <- (find_entry _ n (Program p) N).
  destruct (find _ _) as [[m e]|] eqn:F; [|split; discriminate].
  apply find_some in F. destruct F as [_ F]. apply String.eqb_eq in F. cbn in F. subst m.
  destruct e; split; intros H; try discriminate; congruence.
Qed.

Lemma which_spec : forall path n, proper path ->
  match which P n path with Some p => first_on path n p | None => ~ has path n end.
Proof.
  intros path n. induction path as [|[d|] ds IH]; intros N; cbn [which].
  - intros [d [p [[] _]]].
  - assert (N' : proper ds) by (intros d' H; apply N; right; auto). specialize (IH N').
    assert (Nd := N d (or_introl eq_refl)).
    destruct (program_in P n d) as [p|] eqn:E.
    + apply program_in_spec in E; auto. exists [], d, ds. repeat split; auto. intros [d' [p' [[] _]]].
    + assert (No : forall p, ~ In (n, Program p) (entries d)).
      { intros p H. apply program_in_spec in H; auto. congruence. }
      destruct (which P n ds) as [p|].
      * destruct IH as [b [d' [a [-> [H1 H2]]]]]. exists (Some d :: b), d', a. split; [reflexivity|]. split; auto.
        intros [d0 [p0 [[Q|Q] H0]]]; [injection Q as <-; apply (No p0); auto|apply H2; exists d0, p0; auto].
      * intros [d0 [p0 [[Q|Q] H0]]]; [injection Q as <-; apply (No p0); auto|apply IH; exists d0, p0; auto].
  - assert (N' : proper ds) by (intros d' H; apply N; right; auto). specialize (IH N').
    destruct (which P n ds) as [p|].
    + destruct IH as [b [d' [a [-> [H1 H2]]]]]. exists (None :: b), d', a. split; [reflexivity|]. split; auto.
      intros [d0 [p0 [[Q|Q] H0]]]; [discriminate|apply H2; exists d0, p0; auto].
    + intros [d0 [p0 [[Q|Q] H0]]]; [discriminate|apply IH; exists d0, p0; auto].
Qed.

Lemma first_has : forall path n p, first_on path n p -> has path n.
Proof. intros path n p [b [d [a [-> [H _]]]]]. exists d, p. split; auto. apply in_or_app. right. left. auto. Qed.

Lemma in_entries : forall path d n e e', proper path -> In (Some d) path -> In (n, e) (entries d) -> In (n, e') (entries d) -> e = e'.
Proof.
  intros path d n e e' N H H1 H2. specialize (N d H). apply (find_entry _ n e N) in H1. apply (find_entry _ n e' N) in H2. congruence.
Qed.

Lemma first_unique : forall path n p p', proper path -> first_on path n p -> first_on path n p' -> p = p'.
Proof.
  induction path as [|o ds IH]; intros n p p' N [b [d [a [E [H1 H2]]]]] [b' [d' [a' [E' [H1' H2']]]]].
  { destruct b; discriminate. }
  assert (N' : proper ds) by (intros x H; apply N; right; auto).
  destruct b as [|x b], b' as [|x' b']; cbn in E, E'.
  - assert (Q : Some d = Some d') by congruence. injection Q as <-.
    assert (M : In (Some d) (o :: ds)) by (left; congruence).
    assert (Q := in_entries _ d n _ _ N M H1 H1'). congruence.
  - exfalso. apply H2'. exists d, p. split; auto. left. congruence.
  - exfalso. apply H2. exists d', p'. split; auto. left. congruence.
  - assert (D : ds = b ++ Some d :: a) by congruence. assert (D' : ds = b' ++ Some d' :: a') by congruence.
    apply (IH n); auto.
    + exists b, d, a. repeat split; auto. intros [d0 [p0 [H H0]]]. apply H2. exists d0, p0. split; auto. right. auto.
    + exists b', d', a'. repeat split; auto. intros [d0 [p0 [H H0]]]. apply H2'. exists d0, p0. split; auto. right. auto.
Qed.
End Main.

Lemma known_spec : forall v l, existsb (String.eqb v) l = true <-> In v l.
Proof.
  intros v l. rewrite existsb_exists. split; [intros [x [H E]]; apply String.eqb_eq in E; congruence|].
  intros H. exists v. split; auto. apply String.eqb_refl.
Qed.
Lemma no_version : forall v, prefix "-" v = false -> String.eqb v "--version" = false.
Proof. intros v H. destruct (String.eqb_spec v "--version") as [->|]; [discriminate|reflexivity]. Qed.

(** A verb with a program runs the first one on PATH, once, with the arguments
    as they are, and the status is that of the program. *)
Lemma C98_runs_proof : forall P (code : P -> list string -> Z) (path : PATH P) v rest p,
  proper path -> listable path -> first_on path ("sorcha-" ++ v) p ->
  v <> ""%string -> prefix "-" v = false -> (forall l, rest <> "--"%string :: l) ->
  main P code path (v :: rest) =
    Some {| ran := [(p, rest)]; printed_version := false; status := Ok (code p rest mod 256)%Z |}.
Proof.
  intros P code path v rest p N L F Hv Hd Hr. unfold main. assert (S := find_spec path).
  destruct (find_sorcha_verbs P path) as [l|e]; [|tauto]. destruct S as [_ S].
  assert (I : In v l).
  { apply S. destruct (first_has _ _ _ F) as [d [q [H1 H2]]]. exists d, (Program q). repeat split; auto. discriminate. }
  destruct l as [|x l]; [destruct I|]. unfold parse_args. rewrite (no_version v Hd). unfold dash. rewrite Hd.
  rewrite (proj2 (known_spec v (x :: l)) I).
  assert (E : without_dashes rest = rest).
  { destruct rest as [|a r]; [reflexivity|]. cbn. destruct (String.eqb_spec a "--") as [->|]; [destruct (Hr r); reflexivity|reflexivity]. }
  rewrite E. destruct (String.eqb_spec v ""); [congruence|].
  assert (W := which_spec path ("sorcha-" ++ v) N). destruct (which P _ path) as [q|].
  - rewrite (first_unique _ _ _ _ N F W). reflexivity.
  - destruct W. eapply first_has; eauto.
Qed.

(** Whatever the command line, no program runs except that of the verb. *)
Lemma C98_only_proof : forall P (code : P -> list string -> Z) (path : PATH P) argv s,
  proper path -> main P code path argv = Some s ->
  ran s = [] \/
  exists v rest p, argv = v :: rest /\ first_on path ("sorcha-" ++ v) p /\
    (ran s = [(p, rest)] \/ exists l, rest = "--"%string :: l /\ ran s = [(p, l)]).
Proof.
  intros P code path argv s N H. unfold main in H.
  destruct (find_sorcha_verbs P path) as [[|x l]|e]; [injection H as <-; left; reflexivity| |injection H as <-; left; reflexivity].
  unfold parse_args in H. destruct argv as [|a rest]; [injection H as <-; left; reflexivity|].
  destruct (String.eqb_spec a "--version").
  { destruct rest as [|v r]; [injection H as <-; left; reflexivity|]. destruct (dash v); [discriminate|].
    destruct (existsb _ _); injection H as <-; left; reflexivity. }
  destruct (dash a); [discriminate|]. destruct (existsb _ _); [|injection H as <-; left; reflexivity].
  destruct (String.eqb a ""); [injection H as <-; left; reflexivity|].
  assert (W := which_spec path ("sorcha-" ++ a) N). destruct (which P _ path) as [p|]; [|injection H as <-; left; reflexivity].
  injection H as <-. right. exists a, rest, p. split; auto. split; auto. cbn [ran exits].
  destruct rest as [|b r]; [left; reflexivity|]. cbn [without_dashes]. destruct (String.eqb_spec b "--") as [->|]; [right; eauto|left; reflexivity].
Qed.

(** A verb without a program: nothing runs and the status is not zero. *)
Lemma C98_unknown_proof : forall P (code : P -> list string -> Z) (path : PATH P) v rest s,
  proper path -> listable path -> ~ has path ("sorcha-" ++ v) -> prefix "-" v = false ->
  main P code path (v :: rest) = Some s -> ran s = [] /\ exists n, status s = Ok n /\ n <> 0%Z.
Proof.
  intros P code path v rest s N L Hn Hd H. unfold main in H. assert (S := find_spec path).
  destruct (find_sorcha_verbs P path) as [[|x l]|e]; [injection H as <-; split; [reflexivity|]; exists 1%Z; split; [reflexivity|lia]| |tauto].
  unfold parse_args in H. rewrite (no_version v Hd) in H. unfold dash in H. rewrite Hd in H.
  destruct (existsb _ _); [|injection H as <-; split; [reflexivity|]; exists 2%Z; split; [reflexivity|lia]].
  destruct (String.eqb v ""); [injection H as <-; split; [reflexivity|]; exists 1%Z; split; [reflexivity|lia]|].
  assert (W := which_spec path ("sorcha-" ++ v) N). destruct (which P _ path) as [p|].
  - destruct Hn. eapply first_has; eauto.
  - injection H as <-; split; [reflexivity|]; exists 1%Z; split; [reflexivity|lia].
Qed.

(** The version: printed, and nothing runs, if there is any verb. *)
Lemma C98_version_proof : forall P (code : P -> list string -> Z) (path : PATH P) v,
  proper path -> listable path -> has path ("sorcha-" ++ v) ->
  main P code path ["--version"%string] = Some {| ran := []; printed_version := true; status := Ok 0%Z |}.
Proof.
  intros P code path v N L [d [p [H1 H2]]]. unfold main. assert (S := find_spec path).
  destruct (find_sorcha_verbs P path) as [l|e]; [|tauto]. destruct S as [_ S].
  assert (I : In v l) by (apply S; exists d, (Program p); repeat split; auto; discriminate).
  destruct l as [|x l]; [destruct I|]. reflexivity.
Qed.

(** A directory of PATH that cannot be listed stops every command. *)
Lemma C98_unlistable_proof : forall P (code : P -> list string -> Z) (path : PATH P) d argv,
  In (Some d) path -> readable d = false ->
  main P code path argv = Some {| ran := []; printed_version := false; status := Err OSError |}.
Proof.
  intros P code path d argv H1 H2. unfold main. assert (S := find_spec path).
  destruct (find_sorcha_verbs P path) as [l|e].
  - destruct S as [L _]. rewrite (L d H1) in H2. discriminate.
  - destruct S as [-> _]. reflexivity.
Qed.

(** A PATH for the examples: two programs called sorcha-run, one for init. *)
Definition demo_path : PATH string :=
  [None;
   Some {| readable := true; entries := [("ls", Program "ls"); ("sorcha-run", Other); ("sorcha-lost", Folder)]%string |};
   Some {| readable := true; entries := [("sorcha-run", Program "mine"); ("sorcha", Program "this")]%string |};
   Some {| readable := true; entries := [("sorcha-init", Program "init"); ("sorcha-run", Program "other")]%string |}].
Lemma demo_proper : proper demo_path.
Proof.
  intros d H. cbn in H. destruct H as [H|[H|[H|[H|[]]]]]; try discriminate; injection H as <-; cbn;
  repeat constructor; cbn; intuition discriminate.
Qed.
Lemma demo_listable : listable demo_path.
Proof. intros d H. cbn in H. destruct H as [H|[H|[H|[H|[]]]]]; try discriminate; injection H as <-; reflexivity. Qed.

(** The clause that fails: sorcha-run is there and can be run, but another
    directory of PATH cannot be listed. *)
Lemma C98_unlistable_refuted_proof : exists (path : PATH string) p,
  proper path /\ first_on path "sorcha-run" p /\
  forall code, main string code path ["run"%string] = Some {| ran := []; printed_version := false; status := Err OSError |}.
Proof.
  exists (demo_path ++ [Some {| readable := false; entries := [] |}]), "mine"%string. split; [|split].
  - intros d H. apply in_app_or in H. destruct H as [H|[H|[]]]; [apply demo_proper; auto|]. injection H as <-. constructor.
  - exists (firstn 2 demo_path). do 2 eexists. split; [reflexivity|]. split; [left; reflexivity|].
    intros [d [p [H1 H2]]]. cbn in H1. destruct H1 as [H1|[H1|[]]]; [discriminate|]. injection H1 as <-. cbn in H2. intuition discriminate.
  - intros code. reflexivity.
Qed.
(** Two dashes directly after the verb are not passed on. *)
Lemma C98_dashes_refuted_proof : exists (path : PATH string) p,
  proper path /\ listable path /\ first_on path "sorcha-run" p /\
  forall code, main string code path ["run"; "--"; "x"]%string =
    Some {| ran := [(p, ["x"%string])]; printed_version := false; status := Ok (code p ["x"%string] mod 256)%Z |}.
Proof.
  exists demo_path, "mine"%string. split; [apply demo_proper|]. split; [apply demo_listable|]. split.
  - exists (firstn 2 demo_path). do 2 eexists. split; [reflexivity|]. split; [left; reflexivity|].
    intros [d [p [H1 H2]]]. cbn in H1. destruct H1 as [H1|[H1|[]]]; [discriminate|]. injection H1 as <-. cbn in H2. intuition discriminate.
  - intros code. reflexivity.
Qed.
(** A program that is killed by a signal: the status is neither that which a
    shell reports nor the return code. *)
Lemma C98_killed_refuted_proof : exists (path : PATH string) code,
  proper path /\ listable path /\ code "mine"%string [] = (-9)%Z /\
  main string code path ["run"%string] = Some {| ran := [("mine"%string, [])]; printed_version := false; status := Ok 247%Z |}.
Proof.
  exists demo_path, (fun _ _ => (-9)%Z). split; [apply demo_proper|]. split; [apply demo_listable|]. split; reflexivity.
Qed.
