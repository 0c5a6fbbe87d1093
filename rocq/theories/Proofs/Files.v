From Coq Require Import Ascii String List Arith Bool Lia Wf_nat.
From Verif Require Import Base.Prelude Model.Files Spec.Files.
Import ListNotations.
Open Scope nat_scope.

Lemma text_eqb_eq : forall a b, text_eqb a b = true <-> a = b.
Proof. intros. unfold text_eqb. destruct (list_eq_dec ascii_dec a b); split; congruence. Qed.

(** ** Patterns *)
Lemma starts_with_begins : forall p s, starts_with p s = true <-> begins p s.
Proof.
  induction p as [|c p IH]; intro s; cbn.
  - split; auto. intros _. exists s. reflexivity.
  - destruct s as [|d s].
    + split; [discriminate|]. intros [b H]. discriminate.
    + rewrite andb_true_iff, IH, Ascii.eqb_eq. split.
      * intros [-> [b ->]]. exists b. reflexivity.
      * intros [b H]. cbn in H. injection H as -> ->. split; auto. exists b. reflexivity.
Qed.

Lemma match_any : forall s, match_tokens [TAny] s = true.
Proof. intro s. destruct s; cbn; auto. induction s; cbn; auto. Qed.

Lemma match_lits : forall p s, match_tokens (map TLit p ++ [TAny]) s = starts_with p s.
Proof.
  induction p as [|c p IH]; intro s.
  - apply match_any.
  - destruct s as [|d s]; [reflexivity|].
    change (Ascii.eqb c d && match_tokens (map TLit p ++ [TAny]) s = Ascii.eqb c d && starts_with p s).
    rewrite IH. reflexivity.
Qed.
Lemma match_lits_exact : forall p s, match_tokens (map TLit p) s = true <-> s = p.
Proof.
  induction p as [|c p IH]; intro s.
  - cbn. destruct s; split; congruence.
  - destruct s as [|d s]; cbn; [split; congruence|]. rewrite andb_true_iff, IH, Ascii.eqb_eq. split.
    + intros [-> ->]; auto.
    + intro H; injection H as -> ->; auto.
Qed.

Lemma tokens_plain : forall p q k, plain p -> length p + length q <= k ->
  tokens k (p ++ q) = map TLit p ++ tokens (k - length p) q.
Proof.
  induction p as [|c p IH]; intros q k [H1 [H2 H3]] Hk; cbn [app map length].
  - rewrite Nat.sub_0_r. reflexivity.
  - destruct k as [|k]; [cbn in Hk; lia|]. cbn [tokens].
    destruct (Ascii.eqb_spec c c_star) as [->|_]; [destruct H1; left; reflexivity|].
    destruct (Ascii.eqb_spec c c_q) as [->|_]; [destruct H2; left; reflexivity|].
    destruct (Ascii.eqb_spec c c_open) as [->|_]; [destruct H3; left; reflexivity|].
    rewrite IH; [reflexivity| |cbn in Hk; lia].
    repeat split; intro H; [apply H1|apply H2|apply H3]; right; auto.
Qed.

Lemma glob_stem : forall stem names, plain stem ->
  glob (stem ++ txt ".*") names = filter (starts_with (stem ++ txt ".")) names.
Proof.
  intros stem names Hp. unfold glob. apply filter_ext. intro s.
  assert (Ht : tokens (length (stem ++ txt ".*")) (stem ++ txt ".*") = map TLit (stem ++ txt ".") ++ [TAny]).
  { rewrite app_length, tokens_plain; auto. 
    replace (length stem + length (txt ".*") - length stem) with 2 by (cbn; lia).
    rewrite map_app, <- app_assoc. reflexivity. }
  rewrite Ht, match_lits. destruct (starts_with (stem ++ txt ".") s) eqn:E; auto. cbn [andb].
  apply starts_with_begins in E. destruct E as [b ->]. destruct stem as [|c stem]; [reflexivity|].
  cbn. destruct (Ascii.eqb c c_dot); reflexivity.
Qed.

Lemma glob_exact : forall p names, plain p ->
  forall n, In n (glob p names) <-> In n names /\ n = p.
Proof.
  intros p names Hp n. unfold glob. rewrite filter_In.
  assert (Ht : tokens (length p) p = map TLit p).
  { rewrite <- (app_nil_r p) at 2. rewrite tokens_plain; auto; [|cbn; lia].
    rewrite Nat.sub_diag, app_nil_r. reflexivity. }
  rewrite Ht, andb_true_iff, match_lits_exact. split.
  - intros [H [-> _]]; auto.
  - intros [H ->]. split; auto. split; auto. destruct (is_hidden p); reflexivity.
Qed.

(** ** C23 *)
Lemma C23_refused_proof : forall F stem (d : directory F), plain stem ->
  match warn_or_remove_file (stem ++ txt ".*") false d with
  | Err e => e = SysExit /\ exists n, In n (map fst d) /\ begins (stem ++ txt ".") n
  | Ok d' => d' = d /\ forall n, In n (map fst d) -> ~ begins (stem ++ txt ".") n
  end.
Proof.
  intros F stem d Hp. unfold warn_or_remove_file. rewrite glob_stem by auto.
  destruct (filter _ _) as [|n ns] eqn:E.
  - split; auto. intros n Hn Hb. apply starts_with_begins in Hb.
    assert (In n []) as []. rewrite <- E. apply filter_In. auto.
  - split; auto. exists n. assert (H : In n (n :: ns)) by (left; auto). rewrite <- E in H.
    apply filter_In in H. destruct H as [H1 H2]. apply starts_with_begins in H2. auto.
Qed.

Lemma C23_forced_proof : forall F stem (d : directory F), plain stem ->
  (forall a b, In a (map fst d) -> In b (map fst d) -> begins (stem ++ txt ".") a -> begins (stem ++ txt ".") b -> a = b) ->
  exists d', warn_or_remove_file (stem ++ txt ".*") true d = Ok d' /\
    selected (fun x => ~ begins (stem ++ txt ".") (fst x)) d d'.
Proof.
  intros F stem d Hp Hu. unfold warn_or_remove_file. rewrite glob_stem by auto.
  destruct (filter _ _) as [|n ns] eqn:E.
  - exists d. split; auto.
    assert (Hn : forall x, In x d -> ~ begins (stem ++ txt ".") (fst x)).
    { intros x Hx Hb. apply starts_with_begins in Hb. assert (In (fst x) []) as [].
      rewrite <- E. apply filter_In. split; auto. apply in_map. auto. }
    clear - Hn. induction d as [|x d IH]; constructor.
    + apply Hn. left; auto.
    + apply IH. intros y Hy. apply Hn. right; auto.
  - eexists. split; [reflexivity|]. unfold remove_file. apply selected_filter. intros x Hx.
    assert (Hin : In n (map fst d) /\ starts_with (stem ++ txt ".") n = true).
    { apply filter_In. rewrite E. left; auto. }
    destruct Hin as [Hin Hs]. apply starts_with_begins in Hs.
    rewrite negb_true_iff. split.
    + intros H Hb. apply not_true_iff_false in H. apply H. apply text_eqb_eq.
      apply Hu; auto. apply in_map; auto.
    + intro H. apply not_true_iff_false. intro Hq. apply text_eqb_eq in Hq. subst n. auto.
Qed.

Lemma C23_forced_refuted_proof : exists F (d d' : directory F) stem stale,
  plain stem /\ NoDup (map fst d) /\
  warn_or_remove_file (stem ++ txt ".*") true d = Ok d' /\ look_up (stem ++ txt ".csv") d' = Some stale.
Proof.
  exists nat, [(txt "out.db", 1); (txt "out.csv", 2)], [(txt "out.csv", 2)], (txt "out"), 2.
  split; [repeat split; cbn; intuition discriminate|].
  split; [repeat constructor; cbn; intuition discriminate|]. split; reflexivity.
Qed.

Lemma C23_pattern_refuted_proof : exists F (d : directory F) stem,
  In (stem ++ txt ".csv") (map fst d) /\ warn_or_remove_file (stem ++ txt ".*") false d = Ok d.
Proof.
  exists nat, [(txt "run[1].csv", 1)], (txt "run[1]"). split; [left|]; reflexivity.
Qed.

(** At most one file goes, and only one named after the stem. *)
Lemma C60_scope_proof : forall F stem force (d d' : directory F), plain stem ->
  warn_or_remove_file (stem ++ txt ".*") force d = Ok d' ->
  d' = d \/ exists n, begins (stem ++ txt ".") n /\ selected (fun x => fst x <> n) d d'.
Proof.
  intros F stem force d d' Hp H. unfold warn_or_remove_file in H. rewrite glob_stem in H by auto.
  destruct (filter _ _) as [|n ns] eqn:E; [injection H as <-; auto|].
  destruct force; [|discriminate]. injection H as <-. right. exists n. split.
  - assert (Hin : In n (n :: ns)) by (left; auto). rewrite <- E in Hin. apply filter_In in Hin.
    apply starts_with_begins. tauto.
  - unfold remove_file. apply selected_filter. intros x _. rewrite negb_true_iff. split.
    + intros Hf Hq. apply not_true_iff_false in Hf. apply Hf, text_eqb_eq. auto.
    + intro Hn. apply not_true_iff_false. intro Hq. apply text_eqb_eq in Hq. auto.
Qed.

Lemma C60_scope_refuted_proof : exists F (d d' : directory F) stem n,
  In n (map fst d) /\ ~ begins (stem ++ txt ".") n /\
  warn_or_remove_file (stem ++ txt ".*") true d = Ok d' /\ ~ In n (map fst d').
Proof.
  exists nat, [(txt "runa.csv", 1)], [], (txt "run[ab]"), (txt "runa.csv").
  split; [left; reflexivity|]. split.
  - intros [b H]. discriminate.
  - split; [reflexivity|]. intros [].
Qed.

(** ** C49 *)
Lemma last_chars_ends : forall p l, last_chars (length p) l = p <-> ends p l.
Proof.
  intros p l. unfold last_chars, ends. split.
  - intro H. exists (firstn (length l - length p) l). rewrite <- H at 2. symmetry. apply firstn_skipn.
  - intros [b ->]. rewrite app_length.
    replace (length b + length p - length p) with (length b) by lia.
    rewrite skipn_app, skipn_all, Nat.sub_diag. reflexivity.
Qed.

Lemma C49_last_line_proof : forall lines l,
  (ends completion l -> check_log (lines ++ [l]) = Ok (true, txt " ")) /\
  (~ ends completion l -> check_log (lines ++ [l]) = Ok (false, l)).
Proof.
  intros lines l. unfold check_log. rewrite rev_app_distr. cbn [rev app].
  change 29 with (length completion). split; intro H.
  - apply last_chars_ends in H. rewrite H. rewrite (proj2 (text_eqb_eq _ _) eq_refl). reflexivity.
  - destruct (text_eqb _ _) eqn:E; auto. apply text_eqb_eq, last_chars_ends in E. tauto.
Qed.

Lemma ends_app_space : forall a b, ends (a ++ txt " ") (b ++ txt " ") <-> ends a b.
Proof.
  intros a b. unfold ends. split.
  - intros [c H]. rewrite app_assoc in H. exists c. apply app_inj_tail in H. tauto.
  - intros [c ->]. exists c. rewrite app_assoc. reflexivity.
Qed.

(** The log of a run interrupted after [length ms] further messages. *)
Lemma C49_interrupted_proof : forall ms m,
  ~ ends (txt "Sorcha process is completed.") (fst m ++ snd m) ->
  check_log (map log_line (ms ++ [m])) = Ok (false, log_line m).
Proof.
  intros ms m H. rewrite map_app. cbn [map].
  apply (proj2 (C49_last_line_proof (map log_line ms) (log_line m))).
  unfold log_line. intro Hc. apply H.
  change completion with (txt "Sorcha process is completed." ++ txt " ") in Hc.
  rewrite (app_assoc (fst m) (snd m)) in Hc. exact (proj1 (ends_app_space _ _) Hc).
Qed.
Lemma C49_completed_proof : forall ms stamp,
  check_log (map log_line (ms ++ [(stamp, txt "Sorcha process is completed.")])) = Ok (true, txt " ").
Proof.
  intros ms stamp. rewrite map_app. cbn [map].
  apply (proj1 (C49_last_line_proof (map log_line ms) _)).
  exists stamp. reflexivity.
Qed.

Lemma C49_all_proof : forall logs, (forall l, In l logs -> l <> []) ->
  exists rs, check_all_logs logs = Ok rs /\
    Forall2 (fun l r => exists pre z, l = pre ++ [z] /\ (fst r = true <-> ends completion z)) logs rs.
Proof.
  induction logs as [|l logs IH]; intro H.
  - exists []. split; auto.
  - destruct IH as [rs [E HF]]; [intros; apply H; right; auto|].
    assert (Hl : l <> []) by (apply H; left; auto).
    destruct (exists_last Hl) as [pre [z ->]].
    destruct (C49_last_line_proof pre z) as [H1 H2].
    assert (Hd : ends completion z \/ ~ ends completion z).
    { rewrite <- last_chars_ends. destruct (list_eq_dec ascii_dec (last_chars (length completion) z) completion); auto. }
    destruct Hd as [Hd|Hd].
    + exists ((true, txt " ") :: rs). cbn [check_all_logs]. rewrite (H1 Hd), E. split; auto.
      constructor; auto. exists pre, z. cbn. tauto.
    + exists ((false, z) :: rs). cbn [check_all_logs]. rewrite (H2 Hd), E. split; auto.
      constructor; auto. exists pre, z. cbn. split; auto. split; [discriminate|tauto].
Qed.
(** A run stopped before its first message blocks the report on all runs. *)
Lemma C49_empty_log_refuted_proof : forall before after,
  (forall l, In l before -> l <> []) -> check_all_logs (before ++ [] :: after) = Err IndexError.
Proof.
  induction before as [|l before IH]; intros after H; auto.
  cbn [app check_all_logs]. rewrite IH by (intros; apply H; right; auto).
  assert (Hl : l <> []) by (apply H; left; auto). destruct (exists_last Hl) as [pre [z ->]].
  destruct (C49_last_line_proof pre z) as [H1 H2].
  destruct (list_eq_dec ascii_dec (last_chars (length completion) z) completion) as [Hc|Hc].
  - apply last_chars_ends in Hc. rewrite (H1 Hc). reflexivity.
  - rewrite last_chars_ends in Hc. rewrite (H2 Hc). reflexivity.
Qed.

(** ** C50 *)
Lemma split_front : forall k n s, k * S n <= length s ->
  split_loop k (S n) s = firstn k s ++ joint ++ split_loop k n (skipn k s).
Proof.
  intros k. induction n as [|n IH]; intros s H.
  - cbn [split_loop]. rewrite Nat.mul_1_r. reflexivity.
  - cbn [split_loop] in *. set (s' := firstn (k * S (S n)) s ++ joint ++ skipn (k * S (S n)) s).
    assert (Hf : length (firstn (k * S (S n)) s) = k * S (S n)) by (apply firstn_length_le; auto).
    assert (Hs' : k * S n <= length s') by (unfold s'; rewrite app_length, Hf; nia).
    change (split_loop k n (firstn (k * S n) s' ++ joint ++ skipn (k * S n) s')
      = firstn k s ++ joint ++ split_loop k n (firstn (k * S n) (skipn k s) ++ joint ++ skipn (k * S n) (skipn k s))).
    rewrite (IH s' Hs').
    assert (E1 : firstn k s' = firstn k s).
    { unfold s'. rewrite firstn_app, Hf. replace (k - k * S (S n)) with 0 by nia. cbn [firstn].
      rewrite app_nil_r, firstn_firstn. f_equal. nia. }
    assert (E2 : skipn k s' = firstn (k * S n) (skipn k s) ++ joint ++ skipn (k * S n) (skipn k s)).
    { unfold s'. rewrite skipn_app, Hf. replace (k - k * S (S n)) with 0 by nia. cbn [skipn].
      rewrite skipn_firstn_comm. replace (k * S (S n) - k) with (k * S n) by nia.
      f_equal. f_equal. replace (k * S (S n)) with (k * S n + k) by nia.
      clear. revert s. generalize (k * S n). clear n. induction k as [|k IH]; intros m s.
      - rewrite Nat.add_0_r. reflexivity.
      - destruct s as [|x s]; [destruct m; cbn; rewrite ?skipn_nil; reflexivity|].
        rewrite Nat.add_succ_r. cbn [skipn]. apply IH. }
    rewrite E1, E2. reflexivity.
Qed.

Lemma C50_split_proof : forall k s, 0 < k -> exists pieces z,
  split_kernel_path k s = intercalate joint (pieces ++ [z]) /\ concat pieces ++ z = s /\
  (forall p, In p pieces -> length p = k) /\ length z < k.
Proof.
  intros k s Hk. unfold split_kernel_path.
  assert (Hd := Nat.div_mod (length s) k ltac:(lia)).
  assert (Hm := Nat.mod_upper_bound (length s) k ltac:(lia)).
  set (n := length s / k) in *. set (r := length s mod k) in *. clearbody n r.
  revert s Hd. induction n as [|n IH]; intros s Hd.
  - exists [], s. cbn. rewrite app_nil_r. split; auto. split; auto. split; [tauto|lia].
  - rewrite split_front by lia.
    destruct (IH (skipn k s)) as [ps [z [H1 [H2 [H3 H4]]]]].
    { rewrite skipn_length. nia. }
    exists (firstn k s :: ps), z. split.
    + rewrite H1. cbn [app intercalate]. f_equal.
      destruct (ps ++ [z]) eqn:E; [destruct ps; discriminate|]. reflexivity.
    + split.
      * cbn [concat]. rewrite <- app_assoc, H2. apply firstn_skipn.
      * split; auto. intros p [<-|Hp]; auto. apply firstn_length_le. nia.
Qed.

(** ** Meta kernel file names *)
Lemma replace_skip : forall pat by_ k s, replace_from pat by_ k s = replace_from pat by_ 0 (skipn k s).
Proof.
  intros pat by_. induction k as [|k IH]; intro s; auto.
  destruct s as [|c s]; auto. cbn [replace_from skipn]. apply IH.
Qed.
Lemma replace_match : forall pat by_ s, pat <> [] -> replace pat by_ (pat ++ s) = by_ ++ replace pat by_ s.
Proof.
  intros pat by_ s Hp. unfold replace. destruct pat as [|c pat]; [congruence|].
  assert (Hs : starts_with (c :: pat) ((c :: pat) ++ s) = true) by (apply starts_with_begins; exists s; reflexivity).
  change ((c :: pat) ++ s) with (c :: (pat ++ s)) in *. cbn [replace_from]. rewrite Hs.
  rewrite replace_skip. cbn [length]. replace (S (length pat) - 1) with (length pat) by lia.
  rewrite skipn_app, skipn_all, Nat.sub_diag. reflexivity.
Qed.
Lemma replace_other : forall pat by_ c s, starts_with pat (c :: s) = false ->
  replace pat by_ (c :: s) = c :: replace pat by_ s.
Proof. intros pat by_ c s H. unfold replace. cbn [replace_from]. rewrite H. reflexivity. Qed.

Lemma C58_expand_proof : forall cache path, cache <> [] -> ~ occurs (txt "$A") path ->
  replace (txt "$A") cache (build_file_name cache path) = path.
Proof.
  intros cache path Hc. unfold build_file_name. revert path.
  apply (well_founded_ind (well_founded_ltof _ (@length ascii)) (fun path => ~ occurs (txt "$A") path -> replace (txt "$A") cache (replace cache (txt "$A") path) = path)).
  intros s IH Hno. destruct s as [|c s]; [reflexivity|].
  destruct (starts_with cache (c :: s)) eqn:E.
  - apply starts_with_begins in E. destruct E as [b Hb]. rewrite Hb, replace_match by auto.
    rewrite replace_match by discriminate. f_equal. apply IH.
    + unfold ltof. rewrite Hb, app_length. destruct cache; [congruence|cbn; lia].
    + intros [u [v Huv]]. apply Hno. exists (cache ++ u), v. rewrite Hb, Huv, app_assoc. reflexivity.
  - rewrite replace_other by auto.
    assert (Hno' : ~ occurs (txt "$A") s).
    { intros [u [v Huv]]. apply Hno. exists (c :: u), v. rewrite Huv. reflexivity. }
    rewrite replace_other.
    + f_equal. apply IH; auto. unfold ltof. cbn. lia.
    + apply not_true_iff_false. intro Hs. apply starts_with_begins in Hs. destruct Hs as [b Hb].
      cbn in Hb. injection Hb as Hc0 Hr. destruct s as [|d s]; [discriminate|].
      destruct (starts_with cache (d :: s)) eqn:E2.
      * apply starts_with_begins in E2. destruct E2 as [b2 Hb2]. rewrite Hb2, replace_match in Hr by auto. discriminate.
      * rewrite replace_other in Hr by auto. injection Hr as Hd _. apply Hno. exists [], s. cbn. congruence.
Qed.

(** ** C54 *)
Lemma C54_rows_proof : forall V filename (listing : list (database V)) names,
  (forall p t, In (p, t) listing -> p <> filename -> exists rows, t = Some (names, rows) /\
     forall r, In r rows -> length r = length names) ->
  (exists d, In d listing /\ fst d <> filename) ->
  exists kept, selected (fun d => fst d <> filename) listing kept /\
    create_results_table filename listing
      = Ok (names, concat (map (fun d => match snd d with Some x => snd x | None => [] end) kept)).
Proof.
  intros V filename listing names H [d0 [Hd0 Hn0]].
  set (dbs := filter (fun d : database V => negb (text_eqb (fst d) filename)) listing).
  assert (Hs : selected (fun d => fst d <> filename) listing dbs).
  { apply selected_filter. intros x _. rewrite negb_true_iff. split.
    + intros Hf Hq. apply not_true_iff_false in Hf. apply Hf, text_eqb_eq. auto.
    + intro Hn. apply not_true_iff_false. intro Hq. apply text_eqb_eq in Hq. auto. }
  exists dbs. split; auto. unfold create_results_table. fold dbs.
  assert (Hall : forall p t, In (p, t) dbs -> exists rows, t = Some (names, rows) /\
     forall r, In r rows -> length r = length names).
  { intros p t Hin. destruct (proj1 (selected_in _ _ _ _ (p, t) Hs) Hin) as [Hx Hy]. apply (H p t); auto. }
  destruct dbs as [|[p0 t0] l0] eqn:E.
  { assert (In d0 []) as []. apply (proj2 (selected_in _ _ _ _ d0 Hs)). auto. }
  destruct (Hall p0 t0 (or_introl eq_refl)) as [rows0 [-> _]].
  clear E Hs. revert Hall. generalize ((p0, Some (names, rows0)) :: l0). clear. intros l Hall.
  induction l as [|[p t] l IH]; [reflexivity|].
  destruct (Hall p t (or_introl eq_refl)) as [rows [-> Hr]].
  assert (Hfa : forallb (fun r => length r =? length names) rows = true).
  { apply forallb_forall. intros r Hin. apply Nat.eqb_eq. auto. }
  cbn [insert_all]. rewrite Hfa. rewrite IH by (intros; eapply Hall; right; eauto). reflexivity.
Qed.

(** Rows go in by position: databases whose columns are in another order end
    up under the wrong names. *)
Lemma C54_columns_refuted_proof : exists (listing : list (database nat)) names rows,
  create_results_table [] listing = Ok (names, rows) /\
  In (txt "b", Some (["Dec"; "RA"]%string, [[2; 1]])) listing /\
  names = ["RA"; "Dec"]%string /\ In [2; 1] rows.
Proof.
  exists [(txt "a", Some (["RA"; "Dec"]%string, [[5; 6]])); (txt "b", Some (["Dec"; "RA"]%string, [[2; 1]]))],
    ["RA"; "Dec"]%string, [[5; 6]; [2; 1]].
  cbn. auto 6.
Qed.

(** utilities/createResultsSQLDatabase.py:149 passes the directory of inputs,
    not the database being written, as the file to leave out. *)
Lemma C54_output_refuted_proof : forall V inputs (out : text) (listing : list (database V)),
  out <> inputs -> create_results_table inputs ((out, None) :: listing) = Err OperationalError.
Proof.
  intros V inputs out listing H. unfold create_results_table. cbn [filter fst].
  assert (E : text_eqb out inputs = false).
  { apply not_true_iff_false. intro Hq. apply text_eqb_eq in Hq. auto. }
  rewrite E. reflexivity.
Qed.
