(** Proofs about the commands init, demo and outputs. *)
From Coq Require Import Ascii String List Arith ZArith Bool Lia Permutation.
From Verif Require Import Base.Prelude Model.Files Model.Startup Model.FrontEnds Spec.Files Spec.Startup Spec.FrontEnds
  Proofs.Files Proofs.Startup.
Import ListNotations.
Open Scope list_scope.

(** ** Copying *)
Lemma join_under : forall d x, join d x = under d x.
Proof. reflexivity. Qed.
Lemma under_inj : forall d x y, under d x = under d y -> x = y.
Proof. intros d x y H. apply (join_inj d). exact H. Qed.
Lemma joinpath_in : forall F n (l : list (text * F)) v, joinpath F n l = Some v -> In (n, v) l.
Proof.
  intros F n l v H. unfold joinpath in H. destruct (find _ l) as [[m w]|] eqn:E; [|discriminate].
  apply find_some in E as [I E]. cbn in E. apply text_eqb_eq in E. cbn in H. inversion H; subst. auto.
Qed.
Lemma joinpath_some : forall F n (l : list (text * F)), (exists v, In (n, v) l) <-> joinpath F n l <> None.
Proof.
  intros F n l. split.
  - intros [v I]. unfold joinpath. destruct (find _ l) as [x|] eqn:E; [discriminate|].
    apply (find_none _ _ E) in I. cbn in I.
    assert (T : text_eqb n n = true) by (apply text_eqb_eq; reflexivity). congruence.
  - intro H. destruct (joinpath F n l) as [v|] eqn:E; [|congruence]. exists v. apply joinpath_in; auto.
Qed.

Section Copy.
Variable F : Type.
Variable pkg : list (text * F).

Lemma copy_one : forall n loc (fs fs' : list (text * node F)) r, proper fs -> shutil_copy F pkg n loc fs = (fs', r) ->
  (exists e, r = Err e /\ fs' = fs /\ (~ (exists v, In (n, v) pkg) \/ dir_at fs (under loc n)))
  \/ (exists v, r = Ok tt /\ In (n, v) pkg /\ ~ dir_at fs (under loc n) /\ fs' = write_file F (under loc n) v fs).
Proof.
  intros n loc fs fs' r N H. unfold shutil_copy in H. rewrite join_under in H. destruct (joinpath F n pkg) as [v|] eqn:E.
  - destruct (is_dir F (under loc n) fs) eqn:D; inversion H; subst.
    + left. exists OSError. split; [auto|split; [auto|]]. right. apply is_dir_at in D; auto.
    + right. exists v. split; [auto|split; [apply joinpath_in; auto|split; [|auto]]].
      rewrite <- is_dir_at by auto. congruence.
  - inversion H; subst. left. exists OSError. split; [auto|split; [auto|]]. left. rewrite joinpath_some. congruence.
Qed.

Lemma copy_spec : forall loc force names (fs fs' : list (text * node F)) r, proper fs -> NoDup names ->
  copy_each F pkg loc force names fs = (fs', r) ->
  proper fs'
  /\ (forall p, ~ (exists x, In x names /\ p = under loc x) -> forall n, In (p, n) fs <-> In (p, n) fs')
  /\ (forall p n, In (p, n) fs -> In (p, n) fs'
        \/ (force = true /\ exists x v, In x names /\ p = under loc x /\ n = File v))
  /\ (forall p n, In (p, n) fs' -> In (p, n) fs
        \/ exists x v, In x names /\ p = under loc x /\ n = File v /\ In (x, v) pkg)
  /\ (r = Ok tt -> forall x, In x names -> exists v, In (x, v) pkg /\ In (under loc x, File v) fs')
  /\ (r = Ok tt <-> forall x, In x names ->
        (exists v, In (x, v) pkg) /\ ~ dir_at fs (under loc x) /\ (file_at fs (under loc x) -> force = true)).
Proof.
  intros loc force. induction names as [|x names IH]; intros fs fs' r N D H.
  - cbn in H. inversion H; subst. split; [auto|]. split; [tauto|]. split; [auto|]. split; [auto|].
    split; [intros _ ? []|]. split; [intros _ ? []|auto].
  - inversion D as [|? ? D1 D2]; subst. cbn [copy_each] in H. rewrite join_under in H.
    unfold next at 1 in H. unfold check in H.
    destruct (negb (negb force && is_file F (under loc x) fs)) eqn:C; cbn match in H.
    2:{ apply negb_false_iff, andb_true_iff in C as [C1 C2]. apply negb_true_iff in C1. subst force.
        apply is_file_at in C2; auto. inversion H; subst.
        split; [auto|]. split; [tauto|]. split; [auto|]. split; [auto|]. split; [discriminate|].
        split; [discriminate|]. intro Z. destruct (Z x) as (_ & _ & Z3); [left; auto|]. apply Z3 in C2. discriminate. }
    assert (C' : file_at fs (under loc x) -> force = true).
    { intro A. apply is_file_at in A; auto. rewrite A in C. destruct force; auto. }
    clear C. unfold next in H. destruct (shutil_copy F pkg x loc fs) as [fs1 r1] eqn:E.
    apply copy_one in E; auto. destruct E as [(e & -> & -> & B)|(v & -> & V & ND & ->)].
    + inversion H; subst. split; [auto|]. split; [tauto|]. split; [auto|]. split; [auto|]. split; [discriminate|].
      split; [discriminate|]. intro Z. destruct (Z x) as (Z1 & Z2 & _); [left; auto|]. tauto.
    + assert (N1 : proper (write_file F (under loc x) v fs)) by (apply write_nodup; auto).
      apply IH in H; auto. destruct H as (P1 & P2 & P3 & P4 & P5 & P6).
      assert (W : forall q n, In (q, n) (write_file F (under loc x) v fs) <->
                    (q = under loc x /\ n = File v) \/ (q <> under loc x /\ In (q, n) fs))
        by (intros; apply write_in; auto).
      split; [auto|]. split; [|split; [|split; [|split]]].
      * intros p Q n. rewrite <- P2.
        -- rewrite W. split; [|intros [[-> _]|[_ I]]; auto].
           ++ intro I. right. split; auto. intros ->. apply Q. exists x. split; [left|]; auto.
           ++ exfalso. apply Q. exists x. split; [left|]; auto.
        -- intros (y & Y & ->). apply Q. exists y. split; [right|]; auto.
      * intros p n I. destruct (list_eq_dec ascii_dec p (under loc x)) as [->|Q].
        -- destruct n as [c|]; [|exfalso; apply ND; auto]. right. split; [apply C'; exists c; auto|].
           exists x, c. split; [left|]; auto.
        -- assert (I' : In (p, n) (write_file F (under loc x) v fs)) by (apply W; auto).
           apply P3 in I' as [J|(J & y & w & Y & A & B)]; auto. right. split; auto. exists y, w. split; [right|]; auto.
      * intros p n I. apply P4 in I as [I|(y & w & Y & A & B & G)].
        -- apply W in I as [[-> ->]|[_ I]]; auto. right. exists x, v. split; [left|]; auto.
        -- right. exists y, w. split; [right|]; auto.
      * intros -> y [<-|Y]; [|apply P5; auto]. exists v. split; auto. apply P2; [|apply W; auto].
        intros (y & Y & A). apply under_inj in A. subst y. auto.
      * rewrite P6. split.
        -- intros Z y [<-|Y]; [split; [eauto|auto]|]. destruct (Z y Y) as (Z1 & Z2 & Z3).
           assert (NE : under loc y <> under loc x) by (intro A; apply under_inj in A; subst y; auto).
           split; [auto|split].
           ++ intro A. apply Z2. apply W. right. auto.
           ++ intros [w A]. apply Z3. exists w. apply W. right. auto.
        -- intros Z y Y. destruct (Z y) as (Z1 & Z2 & Z3); [right; auto|].
           assert (NE : under loc y <> under loc x) by (intro A; apply under_inj in A; subst y; auto).
           split; [auto|split].
           ++ intro A. apply Z2. apply W in A as [[A _]|[_ A]]; [congruence|auto].
           ++ intros [w A]. apply Z3. exists w. apply W in A as [[A _]|[_ A]]; [congruence|auto].
Qed.
End Copy.

(** ** init and demo *)
Lemma names_nodup : forall l : list text, NoDup l <-> l = nodup (list_eq_dec ascii_dec) l.
Proof. intro l. split; intro H; [symmetry; apply nodup_fixed_point; auto|rewrite H; apply NoDup_nodup]. Qed.

(** What is asked for with a number. *)
Lemma selection : forall int_of typed, 
  (exists n names, int_of typed = Some n /\ (1 <= n <= 5)%Z /\ NoDup names /\ (forall x, In x names <-> chosen n x)
     /\ forall which, parse_file_selection int_of typed = Ok which -> config_locations which = Ok names)
     /\ (exists which, parse_file_selection int_of typed = Ok which)
  \/ (parse_file_selection int_of typed = Err SysExit /\ forall n, int_of typed = Some n -> ~ (1 <= n <= 5)%Z).
Proof.
  intros int_of typed. unfold parse_file_selection. destruct (int_of typed) as [n|]; [|right; split; [auto|discriminate]].
  assert (D : (1 <= n <= 5)%Z \/ ~ (1 <= n <= 5)%Z) by lia. destruct D as [D|D].
  - left. assert (C : n = 1%Z \/ n = 2%Z \/ n = 3%Z \/ n = 4%Z \/ n = 5%Z) by lia.
    destruct C as [C|[C|[C|[C|C]]]]; subst n.
    1: split; [exists 1%Z, [txt "Rubin_circular_approximation.ini"]|].
    3: split; [exists 2%Z, [txt "Rubin_full_footprint.ini"]|].
    5: split; [exists 3%Z, [txt "Rubin_known_object_prediction.ini"]|].
    7: split; [exists 4%Z, [txt "DES_config_file.ini"]|].
    9: split; [exists 5%Z, [txt "Rubin_circular_approximation.ini"; txt "Rubin_full_footprint.ini";
                            txt "Rubin_known_object_prediction.ini"; txt "DES_config_file.ini"]|].
    all: try (eexists; reflexivity).
    all: split; [reflexivity|]; split; [lia|]; split; [apply names_nodup; vm_compute; reflexivity|]; split;
      [|cbn [existsb]; intros which H; vm_compute in H; inversion H; vm_compute; reflexivity].
    all: intro x; unfold chosen; cbn [In]; intuition (try lia; auto).
  - right. split; [|intros m E; inversion E; subst; auto].
    replace (existsb (Z.eqb n) [1; 2; 3; 4; 5]%Z) with false; [reflexivity|].
    symmetry. apply not_true_is_false. intro T. apply existsb_exists in T as (z & I & E). apply Z.eqb_eq in E. subst z.
    cbn in I. lia.
Qed.

Lemma find_directory : forall F p (fs fs' : list (text * node F)) r, proper fs -> FindDirectoryOrExit F p fs = (fs', r) ->
  fs' = fs /\ ((r = Ok tt /\ dir_at fs p) \/ (r = Err SysExit /\ ~ dir_at fs p)).
Proof.
  intros F p fs fs' r N H. unfold FindDirectoryOrExit, check in H. destruct (is_dir F p fs) eqn:E; inversion H; subst; split; auto.
  - left. split; auto. apply is_dir_at; auto.
  - right. split; auto. rewrite <- is_dir_at by auto. congruence.
Qed.

Lemma init_cases : forall F int_of (setups : list (text * F)) typed path force fs fs' r,
  proper fs -> init F int_of setups typed path force fs = (fs', r) ->
  (r <> Ok tt /\ fs' = fs /\ ~ (dir_at fs path /\ exists k, int_of typed = Some k /\ (1 <= k <= 5)%Z))
  \/ (exists k names, int_of typed = Some k /\ (1 <= k <= 5)%Z /\ dir_at fs path /\ NoDup names
        /\ (forall x, In x names <-> chosen k x) /\ copy_each F setups path force names fs = (fs', r)).
Proof.
  intros F int_of setups typed path force fs fs' r N H. unfold init in H. destruct (selection int_of typed) as [[S [w W]]|[S1 S2]].
  - destruct S as (k & names & K & R & D & C & L). rewrite W in H. specialize (L w W). unfold copy_demo_configs in H.
    unfold next in H. destruct (FindDirectoryOrExit F path fs) as [fs1 r1] eqn:E. apply find_directory in E; auto.
    destruct E as [-> [[-> E]|[-> E]]].
    + rewrite L in H. right. exists k, names. repeat split; auto; try lia; apply C.
    + inversion H; subst. left. split; [discriminate|split; [auto|tauto]].
  - rewrite S1 in H. cbn in H. inversion H; subst. left. split; [discriminate|split; [auto|]].
    intros (_ & k & K1 & K2). apply (S2 k); auto.
Qed.

Lemma C92_init_kept_proof : forall F int_of (setups : list (text * F)) typed path force fs fs' r,
  proper fs -> init F int_of setups typed path force fs = (fs', r) ->
  forall p n, In (p, n) fs ->
  In (p, n) fs' \/ (force = true /\ exists k x v, int_of typed = Some k /\ chosen k x /\ p = under path x /\ n = File v).
Proof.
  intros F int_of setups typed path force fs fs' r N H p n I. apply init_cases in H as [(_ & -> & _)|H]; auto.
  destruct H as (k & names & K & R & E & D & C & H). apply copy_spec in H as (_ & _ & H & _); auto.
  apply H in I as [I|(Fo & x & v & A & B & G)]; auto. right. split; auto. exists k, x, v. rewrite <- C. auto.
Qed.
Lemma C92_init_written_proof : forall F int_of (setups : list (text * F)) typed path force fs fs' r,
  proper fs -> init F int_of setups typed path force fs = (fs', r) ->
  proper fs' /\ forall p n, In (p, n) fs' ->
  In (p, n) fs \/ exists k x v, int_of typed = Some k /\ chosen k x /\ p = under path x /\ n = File v /\ In (x, v) setups.
Proof.
  intros F int_of setups typed path force fs fs' r N H. apply init_cases in H as [(_ & -> & _)|H]; auto.
  destruct H as (k & names & K & R & E & D & C & H). apply copy_spec in H as (N' & _ & _ & H & _); auto. split; auto.
  intros p n I. apply H in I as [I|(x & v & A & B & G & J)]; auto. right. exists k, x, v. rewrite <- C. auto.
Qed.
Lemma C92_init_done_proof : forall F int_of (setups : list (text * F)) typed path force fs fs' r,
  proper fs -> init F int_of setups typed path force fs = (fs', r) ->
  (r = Ok tt <->
     dir_at fs path /\ exists k, int_of typed = Some k /\ (1 <= k <= 5)%Z
     /\ forall x, chosen k x -> (exists v, In (x, v) setups) /\ ~ dir_at fs (under path x)
                                /\ (file_at fs (under path x) -> force = true))
  /\ (r = Ok tt -> forall k x, int_of typed = Some k -> chosen k x ->
        exists v, In (x, v) setups /\ In (under path x, File v) fs').
Proof.
  intros F int_of setups typed path force fs fs' r N H. apply init_cases in H as [(R & -> & Q)|H]; auto.
  - split; [|tauto]. split; [tauto|]. intros (A & k & K & R' & _). exfalso. apply Q. eauto.
  - destruct H as (k & names & K & R & E & D & C & H). apply copy_spec in H as (_ & _ & _ & _ & H1 & H2); auto. split.
    + rewrite H2. split.
      * intro Z. split; auto. exists k. split; [auto|split; [auto|]]. intros x X. apply Z, C, X.
      * intros (_ & k' & K' & _ & Z). rewrite K in K'. inversion K'; subst k'. intros x X. apply Z, C, X.
    + intros O k' x K' X. rewrite K in K'. inversion K'; subst k'. apply H1; auto. apply C; auto.
Qed.

Lemma C92_demo_proof : forall F (demos : list (text * F)) path force fs fs' r,
  proper fs -> demo_prepare F demos path force fs = (fs', r) ->
  (forall p n, In (p, n) fs -> In (p, n) fs' \/ (force = true /\ exists x v, demo_file x /\ p = under path x /\ n = File v))
  /\ (forall p n, In (p, n) fs' -> In (p, n) fs
        \/ exists x v, demo_file x /\ p = under path x /\ n = File v /\ In (x, v) demos)
  /\ (r = Ok tt <-> dir_at fs path /\ forall x, demo_file x -> (exists v, In (x, v) demos) /\ ~ dir_at fs (under path x)
                                          /\ (file_at fs (under path x) -> force = true))
  /\ (r = Ok tt -> forall x, demo_file x -> exists v, In (x, v) demos /\ In (under path x, File v) fs').
Proof.
  intros F demos path force fs fs' r N H. unfold demo_prepare, next in H.
  destruct (FindDirectoryOrExit F path fs) as [fs1 r1] eqn:E. apply find_directory in E; auto.
  destruct E as [-> [[-> E]|[-> E]]].
  - apply copy_spec in H; [|auto|apply names_nodup; vm_compute; reflexivity].
    destruct H as (_ & _ & H1 & H2 & H3 & H4).
    split; [auto|split; [auto|split; [|auto]]]. rewrite H4. unfold demo_file. tauto.
  - inversion H; subst. split; [auto|split; [auto|split; [|discriminate]]]. split; [discriminate|tauto].
Qed.

(** The four files come one after the other: a refusal can leave some of them
    behind. *)
Lemma C92_halfway_refuted_proof : exists F int_of (setups : list (text * F)) typed path fs fs' p n,
  proper fs /\ init F int_of setups typed path false fs = (fs', Err SysExit) /\ In (p, n) fs' /\ ~ found fs p.
Proof.
  exists nat, (fun _ => Some 5%Z),
    [(txt "Rubin_circular_approximation.ini", 1); (txt "Rubin_full_footprint.ini", 2);
     (txt "Rubin_known_object_prediction.ini", 3); (txt "DES_config_file.ini", 4)]%nat, "5"%string, (txt "/w"),
    [(txt "/w", Dir); (txt "/w/DES_config_file.ini", File 9%nat)],
    (fst (init nat (fun _ => Some 5%Z)
    [(txt "Rubin_circular_approximation.ini", 1); (txt "Rubin_full_footprint.ini", 2);
     (txt "Rubin_known_object_prediction.ini", 3); (txt "DES_config_file.ini", 4)]%nat "5"%string (txt "/w") false
    [(txt "/w", Dir); (txt "/w/DES_config_file.ini", File 9%nat)])),
    (txt "/w/Rubin_full_footprint.ini"), (File 2%nat).
  split; [apply names_nodup; vm_compute; reflexivity|]. split; [vm_compute; reflexivity|].
  split; [vm_compute; auto|]. rewrite <- found_exists. vm_compute. discriminate.
Qed.

(** ** check-logs *)
Lemma no_slash : forall l, existsb (Ascii.eqb slash) l = false <-> ~ In slash l.
Proof.
  intro l. split.
  - intros H I. apply not_true_iff_false in H. apply H. apply existsb_exists. exists slash. split; [auto|apply Ascii.eqb_refl].
  - intro H. apply not_true_is_false. intro T. apply existsb_exists in T as (z & Z & E). apply Ascii.eqb_eq in E. subst z. auto.
Qed.
Lemma basename_spec : forall p, ~ In slash (basename p) /\ (p = basename p \/ exists q, p = q ++ [slash] ++ basename p).
Proof.
  induction p as [|c p [IH1 IH2]]; cbn [basename].
  - split; [intros []|left; reflexivity].
  - destruct (existsb (Ascii.eqb slash) p) eqn:E.
    + split; auto. right. destruct IH2 as [IH2|[q IH2]].
      * rewrite IH2 in E. apply no_slash in IH1. congruence.
      * exists (c :: q). rewrite IH2 at 1. reflexivity.
    + apply no_slash in E. destruct (Ascii.eqb c slash) eqn:X.
      * apply Ascii.eqb_eq in X. subst c. split; auto. right. exists []. reflexivity.
      * split; [|left; reflexivity]. intros [I|I]; [subst c; rewrite Ascii.eqb_refl in X; discriminate|auto].
Qed.
Lemma suffix_split : forall (a b c d : text), a ++ b = c ++ d -> length b <= length d -> exists e, d = e ++ b.
Proof.
  intros a b c. revert a. induction c as [|x c IH]; intros a d H L.
  - exists a. symmetry. exact H.
  - destruct a as [|y a]; cbn in H.
    + subst b. cbn in L. rewrite app_length in L. lia.
    + inversion H. eapply IH; eauto.
Qed.
Lemma ends_basename : forall s p, ~ In slash s -> (ends s (basename p) <-> ends s p).
Proof.
  intros s p S. destruct (basename_spec p) as [B1 B2]. destruct B2 as [B2|[q B2]]; [rewrite <- B2; tauto|]. split.
  - intros [e E]. exists (q ++ [slash] ++ e). rewrite B2, E, <- !app_assoc. reflexivity.
  - intros [e E]. destruct (le_lt_dec (length s) (length (basename p))) as [L|L].
    + assert (X : e ++ s = (q ++ [slash]) ++ basename p) by (rewrite <- E, <- app_assoc; exact B2).
      apply suffix_split in X as [f X]; auto. exists f. exact X.
    + exfalso. assert (X : q ++ ([slash] ++ basename p) = e ++ s) by (rewrite <- E; symmetry; exact B2).
      apply suffix_split in X as [f X]; [|cbn; lia]. apply S. rewrite X. apply in_or_app. right. left. reflexivity.
Qed.
Lemma ends_with_ends : forall s t, ends_with s t = true <-> ends s t.
Proof.
  intros s t. unfold ends_with. rewrite andb_true_iff, text_eqb_eq, last_chars_ends, Nat.leb_le. split; [tauto|].
  intros [e E]. split; [exists e; auto|]. rewrite E, app_length. lia.
Qed.
Lemma insert_perm : forall F x (l : list (text * F)), Permutation (insert_text F x l) (x :: l).
Proof.
  intros F x. induction l as [|y l IH]; cbn [insert_text]; [constructor; constructor|].
  destruct (text_leb (fst x) (fst y)); [apply Permutation_refl|].
  eapply perm_trans; [apply perm_skip, IH|apply perm_swap].
Qed.
Lemma sorted_perm : forall F (l : list (text * F)), Permutation (sorted_text F l) l.
Proof.
  intros F l. unfold sorted_text. induction l as [|x l IH]; cbn [fold_right]; [constructor|].
  eapply perm_trans; [apply insert_perm|apply perm_skip, IH].
Qed.
Lemma find_all_spec : forall F d (fs : list (text * node F)), proper fs ->
  NoDup (map fst (find_all_log_files F d fs))
  /\ forall p c, In (p, c) (find_all_log_files F d fs) <-> In (p, File c) fs /\ (exists x, p = under d x) /\ ends (txt "sorcha.log") p.
Proof.
  intros F d fs N. unfold find_all_log_files.
  set (f := fun x : text * node F => _). 
  assert (I : forall x p c, In (p, c) (f x) <-> x = (p, File c) /\ (exists y, p = under d y) /\ ends (txt "sorcha.log") p).
  { intros [q n] p c. unfold f. cbn [fst snd]. destruct n as [c'|].
    2:{ split; [intros []|intros [E _]; discriminate]. }
    destruct (after (join d []) q) as [y|] eqn:A.
    - apply after_spec in A. destruct (ends_with (txt "sorcha.log") (basename q)) eqn:E.
      + apply ends_with_ends in E. rewrite ends_basename in E by (vm_compute; intuition discriminate).
        cbn [In]. split.
        * intros [H|[]]. inversion H; subst p c'. split; [auto|split; [|auto]]. exists y. rewrite A. unfold join, under.
          rewrite <- app_assoc. reflexivity.
        * intros (H & _). inversion H. left. auto.
      + split; [intros []|]. intros (H & _ & X). inversion H; subst q. exfalso.
        rewrite <- (ends_basename (txt "sorcha.log")) in X by (vm_compute; intuition discriminate).
        apply ends_with_ends in X. congruence.
    - split; [intros []|]. intros (H & [y Y] & _). inversion H; subst q. exfalso.
      assert (Z : after (join d []) p = Some y) by (apply after_spec; rewrite Y; unfold join, under; rewrite <- app_assoc; reflexivity).
      congruence. }
  assert (S1 : forall x, length (f x) <= 1).
  { intros [q n]. unfold f. cbn [fst snd]. destruct n; cbn; auto. destruct (after (join d []) q); cbn; auto.
    destruct (ends_with _ _); cbn; auto. }
  split.
  - eapply Permutation_NoDup; [apply Permutation_sym, Permutation_map, sorted_perm|].
    unfold proper in N. induction fs as [|x fs IH]; cbn [flat_map map]; [constructor|].
    inversion N as [|? ? N1 N2]; subst. rewrite map_app.
    assert (J : forall q, In q (map fst (f x)) -> q = fst x).
    { intros q Q. apply in_map_iff in Q as ([p c] & <- & Q). apply I in Q as (-> & _). reflexivity. }
    assert (L : forall q, In q (map fst (flat_map f fs)) -> In q (map fst fs)).
    { intros q Q. apply in_map_iff in Q as ([p c] & <- & Q). apply in_flat_map in Q as (y & Y & Q). apply I in Q as (-> & _).
      apply (in_map fst) in Y. exact Y. }
    destruct (f x) as [|z [|z' l]] eqn:E; cbn [map app].
    + apply IH; auto.
    + constructor; [|apply IH; auto]. intro Q. apply L in Q. apply N1. rewrite <- (J (fst z)); [auto|left; reflexivity].
    + specialize (S1 x). rewrite E in S1. cbn in S1. lia.
  - intros p c. split.
    + intro H. apply (Permutation_in _ (sorted_perm F _)) in H. apply in_flat_map in H as (x & X & H).
      apply I in H as (-> & H). auto.
    + intros (H & R). apply (Permutation_in _ (Permutation_sym (sorted_perm F _))).
      apply in_flat_map. exists (p, File c). split; auto. apply I. auto.
Qed.

Section Rows.
Variable F : Type.
Variable lines_of : F -> list text.

Lemma row_true : forall c r, check_log (lines_of c) = Ok r <-> true_row lines_of c r.
Proof.
  intros c r. unfold true_row, completed. destruct (lines_of c) as [|a t] eqn:E using rev_ind.
  - split; [discriminate|]. intros [((b & l & H & _) & _)|(b & l & H & _)]; destruct b; discriminate.
  - clear IHt. assert (D : ends completion a \/ ~ ends completion a).
    { destruct (text_eqb (last_chars (length completion) a) completion) eqn:X.
      - left. apply last_chars_ends. apply text_eqb_eq in X. exact X.
      - right. intro Y. apply last_chars_ends in Y. rewrite Y in X.
        assert (T : text_eqb completion completion = true) by (apply text_eqb_eq; reflexivity). congruence. }
    destruct (C49_last_line_proof t a) as [L1 L2]. destruct D as [D|D].
    + rewrite (L1 D). split.
      * intro H. inversion H. left. split; auto. exists t, a. auto.
      * intros [(_ & ->)|(b & l & H & X & _)]; auto. apply app_inj_tail in H as [_ <-]. contradiction.
    + rewrite (L2 D). split.
      * intro H. inversion H. right. exists t, a. auto.
      * intros [((b & l & H & X) & _)|(b & l & H & X & ->)]; apply app_inj_tail in H as [_ <-]; [contradiction|auto].
Qed.
Lemma row_fun : forall c r r', true_row lines_of c r -> true_row lines_of c r' -> r = r'.
Proof. intros c r r' H H'. apply row_true in H, H'. congruence. Qed.

Lemma all_rows : forall (logs : list (text * F)) rs, check_all_logs (map (fun x => lines_of (snd x)) logs) = Ok rs ->
  map fst (combine (map fst logs) rs) = map fst logs
  /\ forall p r, In (p, r) (combine (map fst logs) rs) <-> exists c, In (p, c) logs /\ true_row lines_of c r.
Proof.
  induction logs as [|[q d] logs IH]; intros rs H; cbn [map check_all_logs] in H.
  - inversion H; subst. split; [reflexivity|]. intros p r. split; [intros []|intros (c & [] & _)].
  - cbn [snd] in H. destruct (check_log (lines_of d)) as [z|] eqn:E; [|discriminate]. cbn [rbind] in H.
    destruct (check_all_logs (map (fun x => lines_of (snd x)) logs)) as [zs|] eqn:Es; [|discriminate].
    cbn [rbind] in H. inversion H; subst rs. destruct (IH zs eq_refl) as [A B]. apply row_true in E.
    cbn [map fst combine]. split; [f_equal; exact A|]. intros p r. cbn [In]. split.
    + intros [I|I]; [inversion I; subst; exists d; auto|]. apply B in I as (c & I & T). exists c. auto.
    + intros (c & [I|I] & T); [|right; apply B; eauto]. inversion I; subst. left. f_equal. eapply row_fun; eauto.
Qed.
Lemma all_rows_ok : forall (logs : list (text * F)), (exists rs, check_all_logs (map (fun x => lines_of (snd x)) logs) = Ok rs) <->
  forall p c, In (p, c) logs -> lines_of c <> [].
Proof.
  induction logs as [|[q d] logs IH]; cbn [map check_all_logs snd].
  - split; [intros _ ? ? []|eauto].
  - split.
    + intros [rs H]. destruct (check_log (lines_of d)) as [z|] eqn:E; [|discriminate]. cbn [rbind] in H.
      destruct (check_all_logs (map (fun x => lines_of (snd x)) logs)) as [zs|] eqn:Es; [|discriminate].
      intros p c [I|I].
      * inversion I; subst. intro X. rewrite X in E. discriminate.
      * apply (proj1 IH) with (p := p); eauto.
    + intro H. destruct (proj2 IH) as [zs Z]; [intros p c I; apply (H p); right; auto|]. rewrite Z.
      destruct (lines_of d) as [|a t] eqn:E using rev_ind; [exfalso; apply (H q d); [left; auto|auto]|].
      unfold check_log. rewrite rev_app_distr. cbn [rev app]. destruct (text_eqb _ _); cbn [rbind]; eauto.
Qed.
End Rows.

Lemma nodup_fst_fun : forall A B (l : list (A * B)) a b b', NoDup (map fst l) -> In (a, b) l -> In (a, b') l -> b = b'.
Proof.
  induction l as [|[x y] l IH]; intros a b b' N I J; cbn in *; [contradiction|]. inversion N as [|? ? N1 N2]; subst.
  destruct I as [I|I], J as [J|J].
  - congruence.
  - inversion I; subst. exfalso. apply N1. apply (in_map fst) in J. exact J.
  - inversion J; subst. exfalso. apply N1. apply (in_map fst) in I. exact I.
  - eapply IH; eauto.
Qed.

Section Logs.
Variable F : Type.
Variable lines_of : F -> list text.
Variable report_of : list (text * (bool * text)) -> F.

(** What the second part of the command does. *)
Lemma check_spec : forall d output (fs fs' : list (text * node F)) r, proper fs ->
  check_output_logs F lines_of report_of d output fs = (fs', r) ->
  (fs' = fs /\ exists e, r = Err e)
  \/ (fs' = fs /\ r = Ok AllGood /\ forall p c, log_below fs d None p c -> completed (lines_of c))
  \/ (exists rows, NoDup (map fst rows)
        /\ (forall p x, In (p, x) rows <-> exists c, log_below fs d None p c /\ true_row lines_of c x)
        /\ (exists p l, In (p, (false, l)) rows)
        /\ ((given output = None /\ fs' = fs /\ r = Ok (Shown (filter (fun x => negb (fst (snd x))) rows)))
            \/ (exists q, given output = Some q /\ ~ dir_at fs q /\ r = Ok (Saved q)
                          /\ fs' = write_file F q (report_of rows) fs))).
Proof.
  intros d output fs fs' r N H. unfold check_output_logs in H.
  destruct (find_all_spec F d fs N) as [L1 L2].
  assert (L3 : forall p c, In (p, c) (find_all_log_files F d fs) <-> log_below fs d None p c).
  { intros p c. rewrite L2. unfold log_below. intuition discriminate. }
  clear L2. remember (find_all_log_files F d fs) as logs eqn:EL. clear EL. destruct logs as [|x0 logs0].
  { inversion H; subst. left. split; eauto. }
  remember (x0 :: logs0) as logs eqn:EL. clear EL x0 logs0.
  destruct (check_all_logs (map (fun x => lines_of (snd x)) logs)) as [rs|e] eqn:E.
  2:{ inversion H; subst. left. split; eauto. }
  destruct (all_rows F lines_of logs rs E) as [R1 R2]. remember (combine (map fst logs) rs) as rows eqn:ER. clear ER.
  destruct (filter (fun x => negb (fst (snd x))) rows) as [|[p0 [b0 l0]] l'] eqn:EF.
  - inversion H; subst. right. left. split; [auto|split; [auto|]]. intros p c I. apply L3 in I.
    assert (X : exists x, true_row lines_of c x).
    { assert (M : In p (map fst rows)) by (rewrite R1; apply (in_map fst) in I; exact I).
      apply in_map_iff in M as ([p' x] & P & M). cbn in P. subst p'. apply R2 in M as (c' & M & T).
      exists x. replace c with c'; auto. apply (nodup_fst_fun _ _ logs p); auto. }
    destruct X as [x X]. destruct X as [[X _]|X]; auto. exfalso.
    destruct X as (b & l & X1 & X2 & X3). assert (J : In (p, x) rows) by (apply R2; exists c; split; auto; right; eauto).
    assert (K : In (p, x) (filter (fun x => negb (fst (snd x))) rows)) by (apply filter_In; subst x; auto).
    rewrite EF in K. destruct K.
  - assert (R3 : forall p x, In (p, x) rows <-> exists c, log_below fs d None p c /\ true_row lines_of c x).
    { intros p x. rewrite R2. split; intros (c & A & B); exists c; (split; [apply L3|]; auto). }
    assert (R4 : exists p l, In (p, (false, l)) rows).
    { assert (K : In (p0, (b0, l0)) (filter (fun x => negb (fst (snd x))) rows)) by (rewrite EF; left; auto).
      apply filter_In in K as [K1 K2]. cbn in K2. apply negb_true_iff in K2. subst b0. eauto. }
    assert (D : forall q, is_dir F q fs = true -> given output = Some q -> fs' = fs /\ r = Err OSError).
    { intros q D G. rewrite G in H. unfold next, to_csv in H. rewrite D in H. inversion H; auto. }
    destruct (given output) as [q|].
    + destruct (is_dir F q fs) eqn:Q; [left; destruct (D q) as [-> ->]; eauto|].
      right. right. exists rows. unfold next, to_csv in H. rewrite Q in H. cbn in H. inversion H; subst fs' r.
      split; [rewrite R1; auto|split; [exact R3|split; [exact R4|]]]. right. exists q.
      repeat split; auto. rewrite <- is_dir_at by auto. congruence.
    + right. right. exists rows. inversion H; subst fs' r.
      split; [rewrite R1; auto|split; [exact R3|split; [exact R4|]]]. left. rewrite EF. auto.
Qed.

(** The name of the report. *)
Definition report_name (o : text) : text := if text_eqb (last_chars 4 o) (txt ".csv") then o else o ++ txt ".csv".
Lemma report_name_spec : forall o, (ends (txt ".csv") o /\ report_name o = o) \/ (~ ends (txt ".csv") o /\ report_name o = o ++ txt ".csv").
Proof.
  intro o. unfold report_name. change 4 with (length (txt ".csv")).
  destruct (text_eqb (last_chars (length (txt ".csv")) o) (txt ".csv")) eqn:E.
  - left. split; auto. apply last_chars_ends, text_eqb_eq. exact E.
  - right. split; auto. intro H. apply last_chars_ends in H. rewrite H in E.
    assert (T : text_eqb (txt ".csv") (txt ".csv") = true) by (apply text_eqb_eq; reflexivity). congruence.
Qed.
Lemma given_report : forall o, given (Some (report_name o)) = Some (report_name o).
Proof.
  intro o. cbn. destruct (report_name o) eqn:E; auto. exfalso.
  destruct (report_name_spec o) as [[[x X] H]|[_ H]]; rewrite E in H; destruct o; try discriminate.
Qed.

Lemma cmd_cases : forall d outpath force (fs fs' : list (text * node F)) r, proper fs ->
  cmd_outputs_check_logs F lines_of report_of d outpath force fs = (fs', r) ->
  (fs' = fs /\ exists e, r = Err e)
  \/ (exists o, outpath = Some o /\ found fs o /\ force = false /\ fs' = fs /\ r = Ok AlreadyThere)
  \/ (given outpath = None /\ dir_at fs d /\ check_output_logs F lines_of report_of d None fs = (fs', r))
  \/ (exists o fs1, outpath = Some o /\ o <> [] /\ (found fs o -> force = true) /\ proper fs1
        /\ (forall q n, In (q, n) fs1 <-> In (q, n) fs /\ q <> o)
        /\ check_output_logs F lines_of report_of d (Some (report_name o)) fs1 = (fs', r)).
Proof.
  intros d outpath force fs fs' r N H. unfold cmd_outputs_check_logs, next in H.
  destruct (FindDirectoryOrExit F d fs) as [fs0 r0] eqn:E. apply find_directory in E; auto.
  destruct E as [-> [[-> E]|[-> E]]]; [|inversion H; subst; left; eauto].
  destruct (given outpath) as [o|] eqn:G; [|right; right; left; auto].
  apply given_some in G as [-> G].
  destruct (FindDirectoryOrExit F (dirname o) fs) as [fs2 r2] eqn:E2. apply find_directory in E2; auto.
  destruct E2 as [-> [[-> E2]|[-> E2]]]; [|inversion H; subst; left; eauto].
  fold (report_name o) in H. destruct (path_exists F o fs) eqn:X; cbn [andb] in H.
  - assert (X' := X). apply found_exists in X'. destruct force; cbn [negb] in H.
    + unfold remove in H. destruct (stat F o fs) as [[c|]|] eqn:S; try (inversion H; subst; left; eauto; fail).
      right. right. right. eexists o, _. split; [auto|split; [auto|split; [auto|split; [|split; [|exact H]]]]].
      * apply filter_nodup. auto.
      * intros q n. rewrite remove_in. tauto.
    + inversion H; subst. right. left. exists o. auto.
  - unfold done in H. right. right. right. exists o, fs. split; [auto|split; [auto|split]].
    + intro Z. apply found_exists in Z. congruence.
    + split; [auto|split; [|exact H]]. intros q n. split; [|tauto]. intro I. split; auto. intros ->.
      assert (path_exists F o fs = true) by (apply found_exists; exists n; auto). congruence.
Qed.

Lemma log_below_removed : forall (fs fs1 : list (text * node F)) d o, (forall q n, In (q, n) fs1 <-> In (q, n) fs /\ q <> o) ->
  forall p c, log_below fs1 d None p c <-> log_below fs d (Some o) p c.
Proof. intros fs fs1 d o H p c. unfold log_below. rewrite H. intuition congruence. Qed.
Lemma log_below_none : forall (fs : list (text * node F)) d o, given o = None -> 
  forall p c, log_below fs d None p c <-> log_below fs d o p c.
Proof.
  intros fs d o G p c. unfold log_below. split; intros (A & B & C & D); split; auto; split; auto; split; auto; [|discriminate].
  destruct B as [x ->]. intros ->. destruct d; discriminate.
Qed.
Lemma nodup_filter_fst : forall f (l : list (text * (bool * text))), NoDup (map fst l) -> NoDup (map fst (filter f l)).
Proof.
  intros f l. induction l as [|x l IH]; intro N; cbn in *; auto. inversion N; subst. destruct (f x); cbn; auto.
  constructor; auto. intro I. apply in_map_iff in I as (y & Y & I). apply filter_In in I as [I _]. apply (in_map fst) in I.
  rewrite Y in I. auto.
Qed.

Lemma logs_all : forall d outpath force (fs fs' : list (text * node F)) r, proper fs ->
  cmd_outputs_check_logs F lines_of report_of d outpath force fs = (fs', r) ->
  (forall p n, In (p, n) fs -> In (p, n) fs' \/ r = Ok (Saved p) \/ (force = true /\ outpath = Some p))
  /\ (forall p n, In (p, n) fs' -> In (p, n) fs \/ r = Ok (Saved p))
  /\ (forall q, r = Ok (Saved q) -> exists o rows, outpath = Some o
        /\ ((ends (txt ".csv") o /\ q = o) \/ (~ ends (txt ".csv") o /\ q = o ++ txt ".csv"))
        /\ (force = false -> ~ found fs o)
        /\ In (q, File (report_of rows)) fs' /\ NoDup (map fst rows)
        /\ (forall p x, In (p, x) rows <-> exists c, log_below fs d outpath p c /\ true_row lines_of c x)
        /\ exists p l, In (p, (false, l)) rows)
  /\ (forall l, r = Ok (Shown l) -> l <> [] /\ NoDup (map fst l)
        /\ (forall p x, In (p, x) l <-> fst x = false /\ exists c, log_below fs d outpath p c /\ true_row lines_of c x))
  /\ (r = Ok AllGood -> forall p c, log_below fs d outpath p c -> completed (lines_of c)).
Proof.
  intros d outpath force fs fs' r N H.
  apply cmd_cases in H as [(-> & e & ->)|[(o & -> & A & -> & -> & ->)|[(G & D & H)|(o & fs1 & -> & O & Fo & N1 & I1 & H)]]]; auto.
  1,2: split; [auto|split; [auto|split; [discriminate|split; discriminate]]].
  - apply check_spec in H as [(-> & e & ->)|[(-> & -> & H)|(rows & R1 & R2 & R3 & R4)]]; auto.
    + split; [auto|split; [auto|split; [discriminate|split; discriminate]]].
    + split; [auto|split; [auto|split; [discriminate|split; [discriminate|]]]]. intros _ p c L.
      rewrite <- log_below_none in L by auto. eapply H; eauto.
    + destruct R4 as [(_ & -> & ->)|(q & Q & _)]; [|discriminate Q].
      split; [auto|split; [auto|split; [discriminate|split; [|discriminate]]]]. intros l L. inversion L; subst l.
      split; [|split].
      * destruct R3 as (p & l & I). intro Z. assert (J : In (p, (false, l)) (filter (fun x => negb (fst (snd x))) rows)) by (apply filter_In; auto).
        rewrite Z in J. destruct J.
      * apply nodup_filter_fst; auto.
      * intros p x. rewrite filter_In, R2. cbn [fst snd]. rewrite negb_true_iff. split.
        -- intros ((c & C1 & C2) & X). split; auto. exists c. rewrite <- log_below_none; auto.
        -- intros (X & c & C1 & C2). split; auto. exists c. rewrite log_below_none; eauto.
  - assert (W := log_below_removed fs fs1 d o I1).
    assert (KEPT : forall p n, In (p, n) fs -> In (p, n) fs1 \/ (force = true /\ Some o = Some p)).
    { intros p n I. destruct (list_eq_dec ascii_dec p o) as [->|Z]; [right; split; auto; apply Fo; exists n; auto|].
      left. apply I1. auto. }
    apply check_spec in H as [(-> & e & ->)|[(-> & -> & H)|(rows & R1 & R2 & R3 & R4)]]; auto.
    + split; [intros p n I; apply KEPT in I as [I|I]; auto|split; [intros p n I; apply I1 in I as [I _]; auto|split; [discriminate|split; discriminate]]].
    + split; [intros p n I; apply KEPT in I as [I|I]; auto|split; [intros p n I; apply I1 in I as [I _]; auto|split; [discriminate|split; [discriminate|]]]].
      intros _ p c L. rewrite <- W in L. eapply H; eauto.
    + rewrite given_report in R4. destruct R4 as [(Q & _)|(q & Q & ND & -> & ->)]; [discriminate|]. inversion Q; subst q.
      assert (V : forall q n, In (q, n) (write_file F (report_name o) (report_of rows) fs1) <->
                 (q = report_name o /\ n = File (report_of rows)) \/ (q <> report_name o /\ In (q, n) fs1)) by (intros; apply write_in; auto).
      split; [|split; [|split; [|split; [discriminate|discriminate]]]].
      * intros p n I. destruct (list_eq_dec ascii_dec p (report_name o)) as [->|Z]; auto.
        apply KEPT in I as [I|I]; auto. left. apply V. auto.
      * intros p n I. apply V in I as [[-> _]|[_ I]]; auto. apply I1 in I as [I _]. auto.
      * intros q E. inversion E; subst q. exists o, rows. split; [auto|].
        split; [destruct (report_name_spec o) as [[? ?]|[? ?]]; auto|].
        split; [intros -> Z; apply Fo in Z; discriminate|].
        split; [apply V; auto|split; [auto|split; [|auto]]].
        intros p x. rewrite R2. split; intros (c & C1 & C2); exists c; (split; [apply W|]; auto).
Qed.
End Logs.

Lemma C92_logs_kept_proof : forall F lines_of report_of d outpath force (fs fs' : list (text * node F)) r, proper fs ->
  cmd_outputs_check_logs F lines_of report_of d outpath force fs = (fs', r) ->
  (forall p n, In (p, n) fs -> In (p, n) fs' \/ r = Ok (Saved p) \/ (force = true /\ outpath = Some p))
  /\ (forall p n, In (p, n) fs' -> In (p, n) fs \/ r = Ok (Saved p))
  /\ (force = false -> (forall o, outpath = Some o -> ends (txt ".csv") o) -> forall p n, In (p, n) fs -> In (p, n) fs').
Proof.
  intros F lines_of report_of d outpath force fs fs' r N H.
  destruct (logs_all F lines_of report_of d outpath force fs fs' r N H) as (A & B & C & _). split; [auto|split; [auto|]].
  intros E O p n I. destruct (A p n I) as [J|[J|[J _]]]; auto; [|congruence].
  destruct (C p J) as (o & rows & O1 & [[O2 ->]|[O2 _]] & O3 & _).
  - exfalso. apply (O3 E). exists n. auto.
  - exfalso. apply O2. apply O. auto.
Qed.
Lemma C92_logs_report_proof : forall F lines_of report_of d outpath force (fs fs' : list (text * node F)) q, proper fs ->
  cmd_outputs_check_logs F lines_of report_of d outpath force fs = (fs', Ok (Saved q)) ->
  exists o rows, outpath = Some o
    /\ ((ends (txt ".csv") o /\ q = o) \/ (~ ends (txt ".csv") o /\ q = o ++ txt ".csv"))
    /\ In (q, File (report_of rows)) fs' /\ NoDup (map fst rows)
    /\ (forall p x, In (p, x) rows <-> exists c, log_below fs d outpath p c /\ true_row lines_of c x)
    /\ exists p l, In (p, (false, l)) rows.
Proof.
  intros F lines_of report_of d outpath force fs fs' q N H.
  destruct (logs_all F lines_of report_of d outpath force fs fs' _ N H) as (_ & _ & C & _).
  destruct (C q eq_refl) as (o & rows & C1 & C2 & _ & C3). exists o, rows. auto.
Qed.
Lemma C92_logs_shown_proof : forall F lines_of report_of d outpath force (fs fs' : list (text * node F)) r, proper fs ->
  cmd_outputs_check_logs F lines_of report_of d outpath force fs = (fs', r) ->
  (forall l, r = Ok (Shown l) -> l <> [] /\ NoDup (map fst l)
     /\ (forall p x, In (p, x) l <-> fst x = false /\ exists c, log_below fs d outpath p c /\ true_row lines_of c x))
  /\ (r = Ok AllGood -> forall p c, log_below fs d outpath p c -> completed (lines_of c)).
Proof.
  intros F lines_of report_of d outpath force fs fs' r N H.
  destruct (logs_all F lines_of report_of d outpath force fs fs' _ N H) as (_ & _ & _ & C & E). auto.
Qed.
(** Without a file for the report the answer is settled by the logs. *)
Lemma C92_logs_answer_proof : forall F lines_of report_of d force (fs : list (text * node F)), proper fs ->
  exists r, cmd_outputs_check_logs F lines_of report_of d None force fs = (fs, r)
  /\ ((exists a, r = Ok a) <-> dir_at fs d /\ (exists p c, log_below fs d None p c)
        /\ forall p c, log_below fs d None p c -> lines_of c <> [])
  /\ (r = Ok AllGood <-> dir_at fs d /\ (exists p c, log_below fs d None p c)
        /\ forall p c, log_below fs d None p c -> completed (lines_of c)).
Proof.
  intros F lines_of report_of d force fs N.
  destruct (cmd_outputs_check_logs F lines_of report_of d None force fs) as [fs' r] eqn:H. exists r.
  unfold cmd_outputs_check_logs, next in H.
  destruct (FindDirectoryOrExit F d fs) as [fs0 r0] eqn:E. apply find_directory in E; auto.
  destruct E as [-> [[-> E]|[-> E]]].
  2:{ inversion H; subst. split; [auto|]. split; [split; [intros [a A]; discriminate|tauto]|split; [discriminate|tauto]]. }
  cbn [given] in H. assert (H' := H). unfold check_output_logs in H'.
  destruct (find_all_spec F d fs N) as [L1 L2].
  assert (L3 : forall p c, In (p, c) (find_all_log_files F d fs) <-> log_below fs d None p c).
  { intros p c. rewrite L2. unfold log_below. intuition discriminate. }
  clear L2. destruct (find_all_log_files F d fs) as [|x0 logs0] eqn:EL.
  { inversion H'; subst. split; [auto|]. split; [split; [intros [a A]; discriminate|]|split; [discriminate|]];
      intros (_ & (p & c & A) & _); apply L3 in A; destruct A. }
  remember (x0 :: logs0) as logs eqn:EE.
  assert (SOME : exists p c, log_below fs d None p c).
  { destruct x0 as [p c]. exists p, c. apply L3. rewrite EE. left. auto. }
  destruct (check_all_logs (map (fun x => lines_of (snd x)) logs)) as [rs|e] eqn:EC.
  - assert (NE : forall p c, log_below fs d None p c -> lines_of c <> []).
    { intros p c L. apply L3 in L. apply (proj1 (all_rows_ok F lines_of logs)) with (p := p); eauto. }
    assert (OK : exists a, (fs', r) = (fs, Ok a)).
    { destruct (filter _ _); [eauto|]. cbn [given] in H'. eauto. }
    destruct OK as [a OK]. inversion OK; subst fs' r. split; [auto|]. split.
    + split; [auto|eauto].
    + split.
      * intro A. inversion A; subst a. split; [auto|split; [auto|]].
        apply check_spec in H as [(_ & e & H)|[(_ & _ & H)|(rows & _ & _ & _ & [(_ & _ & H)|(q & H & _)])]]; auto; discriminate.
      * intros (_ & _ & A). f_equal. 
        apply check_spec in H as [(_ & e & H)|[(_ & H & _)|(rows & R1 & R2 & (p & l & R3) & _)]]; auto; [discriminate|congruence|].
        exfalso. apply R2 in R3 as (c & C1 & C2). apply A in C1.
        destruct C2 as [[_ C2]|(b & l' & C2 & C3 & _)]; [discriminate|]. destruct C1 as (b' & l'' & C4 & C5).
        rewrite C2 in C4. apply app_inj_tail in C4 as [_ <-]. auto.
  - subst logs. inversion H'; subst fs' r. split; [auto|].
    assert (BAD : ~ forall p c, log_below fs d None p c -> lines_of c <> []).
    { intro A. destruct (proj2 (all_rows_ok F lines_of (x0 :: logs0))) as [rs R]; [|congruence].
      intros p c I. apply (A p). apply L3. exact I. }
    split.
    + split; [intros [a A]; discriminate|tauto].
    + split; [discriminate|]. intros (_ & _ & A). exfalso. apply BAD. intros p c L Z. apply A in L as (b & l & L & _).
      rewrite Z in L. destruct b; discriminate.
Qed.

(** A report is saved under a name that was not looked at. *)
Lemma C92_suffix_refuted_proof : exists F lines_of report_of d o (fs fs' : list (text * node F)) p n,
  proper fs /\ cmd_outputs_check_logs F lines_of report_of d (Some o) false fs = (fs', Ok (Saved p))
  /\ In (p, n) fs /\ ~ In (p, n) fs'.
Proof.
  set (fs := [(txt "/w", Dir); (txt "/w/sorcha.log", File 1%nat); (txt "/w/r.csv", File 2%nat)]).
  exists nat, (fun _ => [txt "x"]), (fun _ => 7%nat), (txt "/w"), (txt "/w/r"), fs,
    (fst (cmd_outputs_check_logs nat (fun _ => [txt "x"]) (fun _ => 7%nat) (txt "/w") (Some (txt "/w/r")) false fs)),
    (txt "/w/r.csv"), (File 2%nat).
  split; [apply names_nodup; vm_compute; reflexivity|]. split; [vm_compute; reflexivity|]. split; [vm_compute; auto|].
  vm_compute. intuition discriminate.
Qed.
(** With --force a file is removed that no report replaces: because the report
    gets another name, or because there is nothing to report. *)
Lemma C92_force_refuted_proof : exists F lines_of report_of d o (fs fs' : list (text * node F)) q,
  proper fs /\ cmd_outputs_check_logs F lines_of report_of d (Some o) true fs = (fs', Ok (Saved q))
  /\ found fs o /\ ~ found fs' o.
Proof.
  set (fs := [(txt "/w", Dir); (txt "/w/sorcha.log", File 1%nat); (txt "/w/r", File 2%nat)]).
  exists nat, (fun _ => [txt "x"]), (fun _ => 7%nat), (txt "/w"), (txt "/w/r"), fs,
    (fst (cmd_outputs_check_logs nat (fun _ => [txt "x"]) (fun _ => 7%nat) (txt "/w") (Some (txt "/w/r")) true fs)),
    (txt "/w/r.csv").
  split; [apply names_nodup; vm_compute; reflexivity|]. split; [vm_compute; reflexivity|].
  split; rewrite <- found_exists; vm_compute; [reflexivity|discriminate].
Qed.
Lemma C92_lost_refuted_proof : exists F lines_of report_of d o (fs fs' : list (text * node F)),
  proper fs /\ cmd_outputs_check_logs F lines_of report_of d (Some o) true fs = (fs', Ok AllGood)
  /\ found fs o /\ ~ found fs' o.
Proof.
  set (fs := [(txt "/w", Dir); (txt "/w/sorcha.log", File 1%nat); (txt "/w/r.csv", File 2%nat)]).
  exists nat, (fun _ => [txt "12:01 Sorcha process is completed. "]), (fun _ => 7%nat), (txt "/w"), (txt "/w/r.csv"), fs,
    (fst (cmd_outputs_check_logs nat (fun _ => [txt "12:01 Sorcha process is completed. "]) (fun _ => 7%nat) (txt "/w") (Some (txt "/w/r.csv")) true fs)).
  split; [apply names_nodup; vm_compute; reflexivity|]. split; [vm_compute; reflexivity|].
  split; rewrite <- found_exists; vm_compute; [reflexivity|discriminate].
Qed.
