From Coq Require Import String Ascii List Arith ZArith Bool Lia.
From Verif Require Import Base.Prelude Model.Csv Spec.Readers.
Import ListNotations.
Open Scope nat_scope.

(** ** Splitting *)

Lemma split_on_nonempty : forall p s, split_on p s <> [].
Proof.
  intros p s; destruct s as [|c s]; cbn; [discriminate|].
  destruct (p c); [discriminate|]. destruct (split_on p s); discriminate.
Qed.

Lemma split_on_app_sep : forall p s, p "010"%char = true ->
  split_on p (s ++ newline) = split_on p s ++ [EmptyString].
Proof.
  intros p s Hp; induction s as [|c s IH]; cbn; [rewrite Hp; auto|].
  fold (append s newline). rewrite IH. destruct (p c); auto.
  destruct (split_on p s) eqn:E; cbn; auto. destruct (split_on_nonempty p s E).
Qed.

Lemma split_on_app_char : forall p s, p "010"%char = false ->
  exists a w, split_on p s = a ++ [w] /\ split_on p (s ++ newline) = a ++ [(w ++ newline)%string].
Proof.
  intros p s Hp; induction s as [|c s IH]; cbn.
  - rewrite Hp. exists [], EmptyString. auto.
  - fold (append s newline). destruct IH as [a [w [E1 E2]]]. rewrite E1, E2. destruct (p c).
    + exists (EmptyString :: a), w; auto.
    + destruct a as [|x a]; cbn; [exists [], (String c w); auto|exists (String c x :: a), w; auto].
Qed.

Lemma append_newline_not_objid : forall w, (w ++ newline)%string <> "ObjID"%string.
Proof.
  intros w E. do 6 (destruct w as [|? w]; cbn in E; [try discriminate|]; try (injection E as ? E); try discriminate).
Qed.

Lemma existsb_eqb_In : forall x l, existsb (String.eqb x) l = true <-> In x l.
Proof.
  intros x l. rewrite existsb_exists. split.
  - intros [y [Hy E]]. apply String.eqb_eq in E; subst; auto.
  - intro H; exists x; split; auto. apply String.eqb_refl.
Qed.

Lemma check_header_names : forall sp l, check_header_line sp l = Ok tt ->
  2 <= length (split sp l) /\ In "ObjID"%string (split sp l).
Proof.
  intros sp l H. unfold check_header_line in H.
  destruct (length (split sp (l ++ newline)) <? 2) eqn:E; [discriminate|].
  apply Nat.ltb_ge in E.
  destruct (existsb (String.eqb "ObjID") (split sp (l ++ newline))) eqn:E2; [|discriminate].
  apply existsb_eqb_In in E2. destruct sp; cbn in *.
  - unfold split_comma in *. destruct (split_on_app_char (fun c => (c =? ",")%char) l eq_refl) as [a [w [E3 E4]]].
    rewrite E3, E4 in *. rewrite app_length in *. cbn in *. split; auto.
    apply in_app_or in E2 as [E2|[E2|[]]]; [apply in_or_app; auto|].
    destruct (append_newline_not_objid w E2).
  - unfold split_ws in *. rewrite split_on_app_sep in * by reflexivity.
    rewrite filter_app in *. cbn in *. rewrite app_nil_r in *. auto.
Qed.

Lemma blank_chars : forall l, blank l = true ->
  forall c, In c (list_ascii_of_string l) -> c = " "%char \/ c = "009"%char.
Proof.
  intros l H c Hc. unfold blank in H. rewrite forallb_forall in H. specialize (H c Hc).
  unfold is_blank_char in H. apply orb_true_iff in H as [H|H]; apply Ascii.eqb_eq in H; auto.
Qed.

Lemma split_on_none : forall p s, (forall c, In c (list_ascii_of_string s) -> p c = false) ->
  split_on p s = [s].
Proof.
  intros p s; induction s as [|c s IH]; intros H; cbn in *; auto.
  rewrite (H c) by auto. rewrite IH by auto. auto.
Qed.

Lemma split_on_all : forall p s, (forall c, In c (list_ascii_of_string s) -> p c = true) ->
  forall w, In w (split_on p s) -> w = EmptyString.
Proof.
  intros p s; induction s as [|c s IH]; intros H w Hw; cbn in *; [destruct Hw as [<-|[]]; auto|].
  rewrite (H c) in Hw by auto. destruct Hw as [<-|Hw]; auto.
Qed.

Lemma names_solid : forall sp l, 2 <= length (split sp l) -> solid l.
Proof.
  intros sp l H. unfold solid. destruct (blank l) eqn:E; auto. exfalso.
  pose proof (blank_chars l E) as Hc. destruct sp; cbn in H.
  - unfold split_comma in H. rewrite split_on_none in H; [cbn in H; lia|].
    intros c Hi. destruct (Hc c Hi); subst; reflexivity.
  - unfold split_ws in H.
    assert (A : filter (fun w => negb (String.eqb w EmptyString)) (split_on py_space l) = []).
    { assert (B := split_on_all py_space l).
      assert (C : forall w, In w (split_on py_space l) -> w = EmptyString).
      { apply B. intros c Hi. destruct (Hc c Hi); subst; reflexivity. }
      clear B H. induction (split_on py_space l) as [|w ws IH]; cbn; auto.
      rewrite (C w) by (left; auto). cbn. apply IH. intros; apply C; right; auto. }
    rewrite A in H. cbn in H. lia.
Qed.

(** ** The header *)

Lemma find_header_spec : forall sp header lines i h,
  find_header sp header i lines = Ok h -> i <= 101 ->
  exists pre hd data, lines = pre ++ hd :: data /\ h = i + length pre /\ h <= 101
    /\ ((0 <= header)%Z -> header = Z.of_nat h)
    /\ ((header < 0)%Z -> prefix "ObjID" hd = true /\ forall l, In l pre -> prefix "ObjID" l = false)
    /\ check_header_line sp hd = Ok tt.
Proof.
  intros sp header lines; induction lines as [|l rest IH]; intros i h H Hi; cbn [find_header] in H; [discriminate|].
  match type of H with (if ?b then _ else _) = _ => destruct b eqn:E end.
  - unfold rmap in H. destruct (check_header_line sp l) as [[]|] eqn:C; [|discriminate].
    cbn in H. injection H as <-. exists [], l, rest. cbn. rewrite Nat.add_0_r.
    apply orb_true_iff in E as [E|E]; apply andb_true_iff in E as [E1 E2].
    + apply Z.leb_le in E1. apply Z.eqb_eq in E2. intuition (lia || auto).
    + apply Z.ltb_lt in E1. intuition (lia || auto).
  - destruct (100 <? i) eqn:E2; [discriminate|]. apply Nat.ltb_ge in E2.
    apply IH in H as [pre [hd [data [E3 [E4 [E5 [E6 [E7 E8]]]]]]]]; [|lia].
    exists (l :: pre), hd, data. subst. cbn. apply orb_false_iff in E as [E9 E10].
    split; [auto|]. split; [lia|]. split; [lia|].
    split; [auto|]. split; [|auto]. intros Hn. destruct (E7 Hn) as [F1 F2]. split; auto.
    intros x [<-|Hx]; auto. apply andb_false_iff in E10 as [E10|E10]; auto.
    apply Z.ltb_ge in E10; lia.
Qed.

Lemma open_header_at : forall sp header lines h,
  csv_open sp header lines = Ok h ->
  exists pre hd data, header_at sp header lines pre hd data /\ h = length pre.
Proof.
  intros sp header lines h H. apply find_header_spec in H as [pre [hd [data [E1 [E2 [E3 [E4 [E5 E6]]]]]]]]; [|lia].
  cbn in E2; subst. exists pre, hd, data. split; auto.
  constructor; auto. apply check_header_names; auto.
Qed.

(** ** Kept lines *)

Lemma kept_app : forall s a b i, kept_lines s i (a ++ b) =
  match kept_lines s i a with
  | Err e => Err e
  | Ok k => match kept_lines s (i + length a) b with Ok k' => Ok (k ++ k') | Err e => Err e end
  end.
Proof.
  intros s a; induction a as [|l a IH]; intros b i; cbn.
  - rewrite Nat.add_0_r. destruct (kept_lines s i b); auto.
  - destruct (s i) as [f|]; auto. rewrite IH. cbn. rewrite <- plus_n_Sm.
    destruct (kept_lines s (S i) a); auto. destruct (kept_lines s (S (i + length a)) b); auto.
    destruct (f || blank l); auto.
Qed.

Definition nonblank (l : string) : bool := negb (blank l).

Lemma kept_all : forall s lines i, (forall j, i <= j < i + length lines -> s j = Some false) ->
  kept_lines s i lines = Ok (filter nonblank lines).
Proof.
  intros s lines; induction lines as [|l lines IH]; intros i H; cbn; auto.
  rewrite (H i) by (cbn; lia). rewrite IH by (intros; apply H; cbn; lia).
  change (nonblank l) with (negb (blank l)). destruct (blank l); auto.
Qed.

Lemma kept_none : forall s lines i, (forall j, i <= j < i + length lines -> s j = Some true) ->
  kept_lines s i lines = Ok [].
Proof.
  intros s lines; induction lines as [|l lines IH]; intros i H; cbn; auto.
  rewrite (H i) by (cbn; lia). rewrite IH by (intros; apply H; cbn; lia). auto.
Qed.

Lemma kept_block : forall pre hd data start, solid hd ->
  kept_lines (skip_block (length pre) start) 0 (pre ++ hd :: data)
  = Ok (hd :: filter nonblank (skipn start data)).
Proof.
  intros pre hd data start Hs. rewrite kept_app.
  rewrite kept_none.
  2:{ intros j Hj. unfold skip_block. replace (j <? length pre) with true; auto. symmetry; apply Nat.ltb_lt; lia. }
  assert (F : skip_block (length pre) start (length pre) = Some false).
  { unfold skip_block. rewrite Nat.ltb_irrefl.
    replace (S (length pre) <=? length pre) with false by (symmetry; apply Nat.leb_gt; lia). auto. }
  cbn [kept_lines plus app]. rewrite F.
  rewrite <- (firstn_skipn start data) at 1. rewrite kept_app.
  rewrite kept_none.
  2:{ intros j Hj. unfold skip_block. rewrite firstn_length in Hj.
      replace (S (length pre) <=? j) with true by (symmetry; apply Nat.leb_le; lia).
      replace (j <? S (length pre) + start) with true by (symmetry; apply Nat.ltb_lt; lia).
      rewrite orb_true_r; auto. }
  rewrite kept_all.
  2:{ intros j Hj. rewrite firstn_length, skipn_length in Hj. unfold skip_block.
      replace (j <? length pre) with false by (symmetry; apply Nat.ltb_ge; lia).
      destruct (Nat.le_gt_cases start (length data)).
      - replace (j <? S (length pre) + start) with false by (symmetry; apply Nat.ltb_ge; lia).
        rewrite andb_false_r; auto.
      - lia. }
  unfold solid in Hs. rewrite Hs. cbn. auto.
Qed.

Lemma filter_all : forall A (p : A -> bool) l, (forall x, In x l -> p x = true) -> filter p l = l.
Proof.
  induction l as [|x l IH]; intros H; cbn; auto. rewrite (H x) by (left; auto).
  rewrite IH; auto. intros; apply H; right; auto.
Qed.

(** ** Tables *)

Lemma index_of_spec : forall x l, In x l -> exists k, index_of x l = Some k
  /\ nth_error l k = Some x /\ forall j, j < k -> nth_error l j <> Some x.
Proof.
  intros x l; induction l as [|y l IH]; intros H; [destruct H|]. cbn.
  destruct (String.eqb x y) eqn:E.
  - apply String.eqb_eq in E; subst. exists 0; split; auto. split; auto. intros; lia.
  - destruct H as [H|H]; [subst; rewrite String.eqb_refl in E; discriminate|].
    destruct (IH H) as [k [E1 [E2 E3]]]. exists (S k). rewrite E1. split; auto. split; auto.
    intros [|j] Hj; cbn; [intro F; injection F as ->; rewrite String.eqb_refl in E; discriminate|].
    apply E3; lia.
Qed.

Lemma index_of_none : forall x l, index_of x l = None -> ~ In x l.
Proof.
  intros x l H Hi. destruct (index_of_spec x l Hi) as [k [E _]]. congruence.
Qed.

Lemma index_of_some : forall x l n, index_of x l = Some n -> In x l.
Proof.
  intros x l; induction l as [|y l IH]; cbn; intros n Ei; [discriminate|].
  destruct (String.eqb x y) eqn:E; [apply String.eqb_eq in E; auto|].
  destruct (index_of x l) eqn:E2; [|discriminate]. right; eapply IH; eauto.
Qed.

(** The rows of a file as a function of its header and data lines. *)
Definition id_col (sp : sep) (hd : string) : nat :=
  match index_of "ObjID" (split sp hd) with Some k => k | None => 0 end.
Definition line_row (sp : sep) (hd l : string) : string * list string :=
  (raw_id (id_col sp hd) (split sp l), split sp l).

Lemma line_row_spec : forall sp hd l, In "ObjID"%string (split sp hd) -> row_of_line sp hd l (line_row sp hd l).
Proof.
  intros sp hd l H. destruct (index_of_spec _ _ H) as [k [E1 [E2 E3]]].
  split; auto. exists k. unfold line_row, id_col, raw_id. rewrite E1. cbn. auto.
Qed.

Lemma row_of_line_unique : forall sp hd l r, In "ObjID"%string (split sp hd) ->
  row_of_line sp hd l r -> r = line_row sp hd l.
Proof.
  intros sp hd l [i c] Hi [E [k [E1 [E2 E3]]]]. cbn in *. subst.
  destruct (index_of_spec _ _ Hi) as [k' [F1 [F2 F3]]]. unfold line_row, id_col, raw_id. rewrite F1.
  destruct (Nat.lt_trichotomy k k') as [L|[->|L]]; auto.
  - destruct (F3 k L E1).
  - destruct (E2 k' L F2).
Qed.

Lemma combine_map2 : forall A B C (f : A -> B) (g : A -> C) l,
  combine (map f l) (map g l) = map (fun x => (f x, g x)) l.
Proof. induction l; cbn; f_equal; auto. Qed.

Lemma parse_table_ok : forall infer sp hd data ids,
  2 <= length (split sp hd) -> In "ObjID"%string (split sp hd) ->
  stable infer ids ->
  (forall l, In l data -> In (fst (line_row sp hd l)) ids) ->
  parse_table infer sp hd data
  = Ok {| t_cols := split sp hd; t_rows := map (line_row sp hd) data |}.
Proof.
  intros infer sp hd data ids H2 Hi Hs Hd. unfold parse_table.
  destruct (length (split sp hd) <=? 1) eqn:E; [apply Nat.leb_le in E; lia|].
  destruct (index_of_spec _ _ Hi) as [k [E1 _]]. rewrite E1.
  unfold line_row, id_col in *. rewrite E1 in *.
  rewrite map_map, (Hs (map _ data)).
  - rewrite combine_map2. auto.
  - intros x Hx. apply in_map_iff in Hx as [l [<- Hl]]. apply (Hd l Hl).
Qed.

Lemma in_slice : forall A s n (l : list A) x, In x (slice s n l) -> In x l.
Proof.
  intros A s n l x H. unfold slice in H. destruct n as [k|].
  - rewrite <- (firstn_skipn s l). apply in_or_app; right.
    rewrite <- (firstn_skipn k (skipn s l)). apply in_or_app; left; auto.
  - rewrite <- (firstn_skipn s l). apply in_or_app; right; auto.
Qed.

Lemma slice_map : forall A B (f : A -> B) s n l, slice s n (map f l) = map f (slice s n l).
Proof. intros A B f s n l; unfold slice; destruct n; rewrite !skipn_map; auto. apply firstn_map. Qed.

(** Reading rows: in general, for files with or without blank lines. *)
Lemma csv_read_rows_general : forall infer sp header lines pre hd data start size ids,
  header_at sp header lines pre hd data ->
  stable infer ids -> (forall l, In l data -> In (fst (line_row sp hd l)) ids) ->
  csv_read_rows infer sp (length pre) lines start size
  = Ok {| t_cols := split sp hd;
          t_rows := map (line_row sp hd)
            (match size with
             | Some k => firstn k (filter nonblank (skipn start data))
             | None => filter nonblank (skipn start data) end) |}.
Proof.
  intros infer sp header lines pre hd data start size ids [-> _ _ _ [N1 N2]] Hs Hd.
  unfold csv_read_rows, read_csv. rewrite kept_block by (eapply names_solid; eauto).
  cbn [skipn rbind fst snd]. apply parse_table_ok with (ids := ids); auto.
  intros l Hl. apply Hd.
  assert (A : In l (filter nonblank (skipn start data))).
  { destruct size; auto. rewrite <- (firstn_skipn n). apply in_or_app; auto. }
  apply filter_In in A as [A _]. rewrite <- (firstn_skipn start data). apply in_or_app; auto.
Qed.

Lemma csv_read_rows_solid : forall infer sp header lines pre hd data start size ids,
  header_at sp header lines pre hd data ->
  (forall l, In l data -> solid l) ->
  stable infer ids -> (forall l, In l data -> In (fst (line_row sp hd l)) ids) ->
  csv_read_rows infer sp (length pre) lines start size
  = Ok {| t_cols := split sp hd; t_rows := slice start size (map (line_row sp hd) data) |}.
Proof.
  intros infer sp header lines pre hd data start size ids Hh Hb Hs Hd.
  rewrite (csv_read_rows_general infer sp header lines pre hd data start size ids); auto.
  rewrite slice_map. rewrite filter_all; [unfold slice; auto|].
  intros l Hl. unfold nonblank. rewrite (Hb l); auto.
  rewrite <- (firstn_skipn start data). apply in_or_app; auto.
Qed.

(** ** Reading by identifier *)

Lemma id_map_solid : forall infer sp header lines pre hd data ids,
  header_at sp header lines pre hd data ->
  (forall l, In l pre -> solid l) ->
  stable infer ids -> (forall l, In l data -> In (fst (line_row sp hd l)) ids) ->
  csv_id_map infer sp (length pre) lines
  = Ok (map (fun l => fst (line_row sp hd l)) (filter nonblank data)).
Proof.
  intros infer sp header lines pre hd data ids [-> _ _ _ [N1 N2]] Hp Hs Hd.
  unfold csv_id_map, read_csv. rewrite kept_all by auto.
  rewrite filter_app. cbn [filter]. unfold nonblank at 2. rewrite (names_solid sp hd) by auto.
  cbn [negb]. rewrite (filter_all _ nonblank pre).
  2:{ intros l Hl; unfold nonblank; rewrite Hp; auto. }
  rewrite skipn_app, skipn_all, Nat.sub_diag. cbn.
  destruct (index_of_spec _ _ N2) as [k [E1 _]]. rewrite E1.
  unfold line_row, id_col in *. rewrite E1 in *. cbn [fst] in *.
  rewrite Hs; auto. intros x Hx. apply in_map_iff in Hx as [l [<- Hl]]. apply filter_In in Hl as [Hl _]. apply Hd; auto.
Qed.

Lemma kept_flags : forall data flags i s,
  (forall j b, nth_error flags j = Some b -> s (i + j) = Some b) ->
  length flags = length data ->
  (forall l, In l data -> solid l) ->
  kept_lines s i data = Ok (map snd (filter (fun p => negb (fst p)) (combine flags data))).
Proof.
  induction data as [|l data IH]; intros flags i s H Hl Hb; cbn.
  - destruct flags; auto.
  - destruct flags as [|b flags]; [discriminate|].
    pose proof (H 0 b eq_refl) as H0. rewrite Nat.add_0_r in H0. rewrite H0. rewrite (IH flags).
    + rewrite (Hb l) by (left; auto). rewrite orb_false_r. cbn. destruct b; auto.
    + intros j c Hj. specialize (H (S j) c Hj). rewrite <- plus_n_Sm in H. auto.
    + cbn in Hl; lia.
    + intros; apply Hb; right; auto.
Qed.

Lemma filter_combine_map : forall A (f : A -> bool) l,
  map snd (filter (fun p => negb (fst p)) (combine (map (fun x => negb (f x)) l) l)) = filter f l.
Proof.
  induction l as [|x l IH]; cbn; auto. destruct (f x); cbn; rewrite IH; auto.
Qed.

Lemma nth_skipped : forall h ids wanted,
  (forall j, j < h -> nth_error (skipped_row h ids wanted) j = Some true)
  /\ nth_error (skipped_row h ids wanted) h = Some false
  /\ (forall j b, nth_error (map (fun i => negb (existsb (String.eqb i) wanted)) ids) j = Some b ->
       nth_error (skipped_row h ids wanted) (S h + j) = Some b)
  /\ (forall j, length ids <= j -> nth_error (skipped_row h ids wanted) (S h + j) = None).
Proof.
  intros h ids wanted. unfold skipped_row. split; [|split; [|split]].
  - intros j Hj. rewrite nth_error_app1 by (rewrite repeat_length; auto). apply nth_error_repeat; auto.
  - rewrite nth_error_app2 by (rewrite repeat_length; auto). rewrite repeat_length, Nat.sub_diag. auto.
  - intros j b Hj. rewrite nth_error_app2 by (rewrite repeat_length; lia). rewrite repeat_length.
    replace (S h + j - h) with (S j) by lia. auto.
  - intros j Hj. rewrite nth_error_app2 by (rewrite repeat_length; lia). rewrite repeat_length.
    replace (S h + j - h) with (S j) by lia. cbn. apply nth_error_None. rewrite map_length; auto.
Qed.

Lemma kept_prefix_pass : forall s pre hd rest, solid hd ->
  (forall j, j < length pre -> s j = Some true) -> s (length pre) = Some false ->
  kept_lines s 0 (pre ++ hd :: rest) =
  match kept_lines s (S (length pre)) rest with Ok k => Ok (hd :: k) | Err e => Err e end.
Proof.
  intros s pre hd rest Hs H1 H2. rewrite kept_app, kept_none by (intros; apply H1; lia).
  cbn. rewrite H2. destruct (kept_lines s (S (length pre)) rest); auto.
  unfold solid in Hs. rewrite Hs. auto.
Qed.

Lemma csv_read_objects_solid : forall infer sp header lines pre hd data ids wanted,
  header_at sp header lines pre hd data ->
  (forall l, In l lines -> solid l) ->
  stable infer ids -> (forall l, In l data -> In (fst (line_row sp hd l)) ids) ->
  csv_read_objects infer sp (length pre) lines wanted
  = Ok {| t_cols := split sp hd;
          t_rows := filter (fun r => existsb (String.eqb (fst r)) wanted) (map (line_row sp hd) data) |}.
Proof.
  intros infer sp header lines pre hd data ids wanted Hh Hb Hs Hd.
  pose proof (ha_split _ _ _ _ _ _ Hh) as El. pose proof (ha_names _ _ _ _ _ _ Hh) as [N1 N2].
  assert (Hbd : forall l, In l data -> solid l) by (intros; apply Hb; subst; apply in_or_app; right; right; auto).
  unfold csv_read_objects. rewrite (id_map_solid infer sp header lines pre hd data ids); auto.
  2:{ intros; apply Hb; subst; apply in_or_app; auto. }
  rewrite filter_all. 2:{ intros l Hl; unfold nonblank; rewrite Hbd; auto. }
  cbn [rbind]. set (idl := map _ data).
  destruct (nth_skipped (length pre) idl wanted) as [K1 [K2 [K3 K4]]].
  unfold read_csv. subst lines. rewrite kept_prefix_pass; auto. 2:{ eapply names_solid; eauto. }
  rewrite (kept_flags data (map (fun l => negb (existsb (String.eqb (fst (line_row sp hd l))) wanted)) data)).
  - rewrite filter_combine_map with (f := fun l => existsb (String.eqb (fst (line_row sp hd l))) wanted).
    cbn [skipn fst snd].
    rewrite (parse_table_ok infer sp hd _ ids); auto.
    + f_equal. f_equal.
      clear. induction data as [|l data IH]; cbn; auto.
      unfold line_row in *. cbn in *.
      destruct (existsb _ wanted); cbn; rewrite IH; auto.
    + intros l Hl. apply filter_In in Hl as [Hl _]; auto.
  - intros j b Hj. apply K3. unfold idl. rewrite map_map. exact Hj.
  - rewrite map_length; auto.
  - auto.
Qed.

(** Blank lines after the header: reading by identifier stops the program. *)
Lemma kept_index_error : forall s rest i j, i <= j < i + length rest -> s j = None ->
  kept_lines s i rest = Err IndexError.
Proof.
  intros s rest; induction rest as [|l rest IH]; intros i j Hj Hn; cbn in *; [lia|].
  destruct (s i) eqn:E; auto.
  destruct (Nat.eq_dec i j) as [->|Hij]; [congruence|].
  rewrite (IH (S i) j); auto. lia.
Qed.

Lemma blank_isspace : forall l, blank l = true -> isspace_line l = true.
Proof.
  intros l H. unfold isspace_line. apply forallb_forall. intros c Hc.
  destruct (blank_chars l H c Hc); subst; reflexivity.
Qed.

Lemma filter_shorter : forall A (p : A -> bool) l x, In x l -> p x = false -> length (filter p l) < length l.
Proof.
  intros A p l x; induction l as [|y l IH]; intros H Hp; [destruct H|]. cbn.
  pose proof (Nat.le_refl (length l)) as _. assert (L : length (filter p l) <= length l).
  { clear. induction l as [|z l IH]; cbn; auto. destruct (p z); cbn; lia. }
  destruct H as [->|H]; [rewrite Hp; lia|]. destruct (p y); cbn; [apply IH in H; auto; lia|lia].
Qed.

Lemma csv_read_objects_blank : forall infer sp header lines pre hd data ids wanted l,
  header_at sp header lines pre hd data ->
  (forall l, In l pre -> solid l) ->
  stable infer ids -> (forall l, In l data -> In (fst (line_row sp hd l)) ids) ->
  In l data -> ~ solid l ->
  csv_read_objects infer sp (length pre) lines wanted = Err SysExit.
Proof.
  intros infer sp header lines pre hd data ids wanted bl Hh Hp Hs Hd Hl Hn.
  pose proof (ha_split _ _ _ _ _ _ Hh) as El. pose proof (ha_names _ _ _ _ _ _ Hh) as [N1 N2].
  assert (Bl : blank bl = true) by (unfold solid in Hn; destruct (blank bl); congruence).
  unfold csv_read_objects. rewrite (id_map_solid infer sp header lines pre hd data ids); auto.
  cbn [rbind]. set (idl := map _ (filter _ data)).
  assert (Lt : length idl < length data).
  { unfold idl. rewrite map_length. apply filter_shorter with (x := bl); auto. unfold nonblank; rewrite Bl; auto. }
  destruct (nth_skipped (length pre) idl wanted) as [K1 [K2 [K3 K4]]].
  unfold read_csv. rewrite El at 1. rewrite kept_prefix_pass; auto. 2:{ eapply names_solid; eauto. }
  rewrite kept_index_error with (j := S (length pre) + length idl); [|lia|apply K4; lia].
  unfold validate_csv. rewrite El, skipn_app, skipn_all, Nat.sub_diag. cbn [skipn app].
  replace (existsb isspace_line (hd :: data)) with true; auto.
  symmetry. apply existsb_exists. exists bl. split; [right; auto|apply blank_isspace; auto].
Qed.

(** Blank lines before the header: the identifier map picks the wrong line. *)
Lemma csv_read_objects_blank_before : forall infer sp header lines pre hd data wanted l,
  header_at sp header lines pre hd data ->
  (forall l, In l data -> ~ In "ObjID"%string (split sp l)) ->
  In l pre -> ~ solid l ->
  csv_read_objects infer sp (length pre) lines wanted = Err ValueError.
Proof.
  intros infer sp header lines pre hd data wanted bl Hh Hd Hl Hn.
  pose proof (ha_split _ _ _ _ _ _ Hh) as El. pose proof (ha_names _ _ _ _ _ _ Hh) as [N1 N2].
  assert (Bl : blank bl = true) by (unfold solid in Hn; destruct (blank bl); congruence).
  unfold csv_read_objects, csv_id_map, read_csv at 1. rewrite kept_all by auto.
  rewrite El, filter_app. cbn [filter]. unfold nonblank at 2. rewrite (names_solid sp hd) by auto. cbn [negb].
  assert (Lt : length (filter nonblank pre) < length pre).
  { apply filter_shorter with (x := bl); auto. unfold nonblank; rewrite Bl; auto. }
  rewrite skipn_app. rewrite skipn_all2 by lia.
  destruct (length pre - length (filter nonblank pre)) as [|m] eqn:Em; [lia|]. cbn [app skipn].
  destruct (skipn m (filter nonblank data)) as [|x xs] eqn:Ex; auto.
  cbn [rbind fst snd].
  assert (Hx : In x data).
  { assert (A : In x (filter nonblank data)) by (rewrite <- (firstn_skipn m); apply in_or_app; right; rewrite Ex; left; auto).
    apply filter_In in A; tauto. }
  destruct (index_of "ObjID" (split sp x)) eqn:Ei; auto. exfalso. apply (Hd x Hx).
  eapply index_of_some; eauto.
Qed.

(** ** Identifier inference *)

Lemma digits_char : forall c s, digits (String c s) = true -> is_digit c = true.
Proof. intros c s H. unfold digits in H. cbn in H. apply andb_true_iff in H. tauto. Qed.

Lemma stable_pandas : forall ids,
  (forall x, In x ids -> looks_int x = true -> canon_int x = x) -> stable pandas_ids ids.
Proof.
  intros ids H l Hl. unfold pandas_ids. destruct (forallb looks_int l) eqn:E; auto. cbn [andb].
  destruct (forallb fits_int64 l || forallb fits_uint64 l); auto. rewrite forallb_forall in E. rewrite <- (map_id l) at 2. apply map_ext_in.
  intros x Hx. apply H; auto.
Qed.
