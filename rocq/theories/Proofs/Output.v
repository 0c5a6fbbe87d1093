From Coq Require Import String List Arith ZArith QArith Bool Lia Sorting.Permutation Sorting.Sorted.
From Verif Require Import Base.Prelude Base.Num Model.Output Model.Driver Spec.Output Spec.Driver Proofs.Driver.
Import ListNotations.
Open Scope nat_scope.

Lemma mem_In : forall c l, mem c l = true <-> In c l.
Proof.
  intros. unfold mem. rewrite existsb_exists. split.
  - intros [x [H E]]. apply String.eqb_eq in E. congruence.
  - intro H. exists c. split; auto. apply String.eqb_refl.
Qed.
Lemma mem_false : forall c l, mem c l = false <-> ~ In c l.
Proof. intros. rewrite <- mem_In. destruct (mem c l); split; congruence || tauto. Qed.

Lemma Forall2_impl : forall A B (R S : A -> B -> Prop) l l', (forall a b, R a b -> S a b) -> Forall2 R l l' -> Forall2 S l l'.
Proof. intros A B R S l l' H. induction 1; auto. Qed.

Section Write.
Context {V : Type}.
Variable norm3 : V -> V -> V -> V.
Variable round : nat -> V -> V.

(** Tables that agree name by name and value by value. *)
Definition agrees (t : table V) (names : list string) (recs : list (string -> V)) (val : (string -> V) -> string -> V) : Prop :=
  t_names t = names /\ Forall2 (fun r r' => forall c, r' c = val r c) recs (t_recs t).

Lemma Forall2_map_r' : forall A B C (R : A -> C -> Prop) (f : B -> C) l l',
  Forall2 (fun a b => R a (f b)) l l' -> Forall2 R l (map f l').
Proof. intros. induction H; cbn; auto. Qed.

Lemma set_column_agrees : forall t names recs val c v, agrees t names recs val -> In c names ->
  agrees (set_column c (fun r => v (r c)) t) names recs (fun r d => if String.eqb d c then v (val r c) else val r d).
Proof.
  intros t names recs val c v [H1 H2] Hin. split.
  - cbn. rewrite H1. rewrite (proj2 (mem_In c names) Hin). reflexivity.
  - cbn. apply Forall2_map_r'. eapply Forall2_impl; [|exact H2]. cbn. intros r r' Hr d.
    rewrite !Hr. reflexivity.
Qed.

Lemma fold_round : forall n which t names recs val, NoDup which -> agrees t names recs val ->
  agrees (fold_left (fun t c => if mem c (t_names t) then set_column c (fun r => round n (r c)) t else t) which t)
    names recs (fun r d => if mem d which then (if mem d names then round n (val r d) else val r d) else val r d).
Proof.
  intros n. induction which as [|c which IH]; intros t names recs val Hnd Ha.
  - cbn. destruct Ha as [H1 H2]. split; auto.
  - cbn [fold_left]. inversion Hnd as [|? ? Hc Hnd']; subst. apply mem_false in Hc.
    assert (Hn : t_names t = names) by apply Ha. rewrite Hn.
    assert (Hm : forall d, mem d (c :: which) = String.eqb d c || mem d which) by reflexivity.
    destruct (mem c names) eqn:Ec.
    + assert (Hin := proj1 (mem_In _ _) Ec). assert (Ha' := set_column_agrees t names recs val c (round n) Ha Hin).
      specialize (IH _ _ _ _ Hnd' Ha'). destruct IH as [I1 I2]. split; auto.
      eapply Forall2_impl; [|exact I2]. cbn beta. intros r r' Hr d. rewrite Hr, Hm.
      destruct (String.eqb_spec d c) as [->|Hne]; cbn [orb]; auto.
      rewrite Hc, Ec. reflexivity.
    + specialize (IH _ _ _ _ Hnd' Ha). destruct IH as [I1 I2]. split; auto.
      eapply Forall2_impl; [|exact I2]. cbn beta. intros r r' Hr d. rewrite Hr, Hm.
      destruct (String.eqb_spec d c) as [->|Hne]; cbn [orb]; auto.
      rewrite Hc, Ec. reflexivity.
Qed.

Lemma round_agrees : forall dec which t names recs val, NoDup which -> agrees t names recs val ->
  agrees (round_columns round dec which t) names recs
    (fun r d => match dec with
                | Some (S n) => if in_dec string_dec d which then (if mem d names then round (S n) (val r d) else val r d) else val r d
                | _ => val r d end).
Proof.
  intros dec which t names recs val Hnd Ha. unfold round_columns.
  destruct dec as [[|n]|]; auto. destruct (fold_round (S n) which t names recs val Hnd Ha) as [I1 I2]. split; auto.
  eapply Forall2_impl; [|exact I2]. cbn beta. intros r r' Hr d. rewrite Hr.
  destruct (in_dec string_dec d which) as [Hd|Hd].
  - rewrite (proj2 (mem_In _ _) Hd). reflexivity.
  - rewrite (proj2 (mem_false _ _) Hd). reflexivity.
Qed.

Lemma position_NoDup : NoDup position_columns.
Proof. repeat constructor; cbn; intuition discriminate. Qed.
Lemma magnitude_NoDup : NoDup magnitude_columns.
Proof. repeat constructor; cbn; intuition discriminate. Qed.
Lemma pos_not_mag : forall c, In c position_columns -> ~ In c magnitude_columns.
Proof.
  intros c H. cbn in H. repeat (destruct H as [<-|H]; [intro K; cbn in K; intuition discriminate|]). destruct H.
Qed.

Lemma Forall2_refl : forall A (R : A -> A -> Prop) l, (forall x, R x x) -> Forall2 R l l.
Proof. intros. induction l; auto. Qed.

Lemma distance_agrees : forall t t', add_distance norm3 t = Ok t' ->
  agrees t' (if in_dec string_dec "Obj_Sun_LTC_km"%string (t_names t) then t_names t else t_names t ++ ["Obj_Sun_LTC_km"%string])
    (t_recs t) (raw norm3).
Proof.
  intros t t' H. unfold add_distance in H. destruct (forallb _ _); [|discriminate]. injection H as <-. split.
  - cbn. destruct (in_dec _ _ _) as [Hi|Hi].
    + rewrite (proj2 (mem_In _ _) Hi). reflexivity.
    + rewrite (proj2 (mem_false _ _) Hi). reflexivity.
  - cbn. apply Forall2_map_r'. apply Forall2_refl. intros r c. unfold raw.
    destruct (string_dec c "Obj_Sun_LTC_km") as [->|Hne]; [reflexivity|].
    apply String.eqb_neq in Hne. rewrite Hne. reflexivity.
Qed.

Lemma choose_agrees : forall cfg t names recs val t',
  agrees t names recs val -> choose_columns cfg t = Ok t' ->
  agrees t' (match oc_columns cfg with
             | Basic => basic_names ++ (if oc_link_col cfg then ["object_linked"%string] else [])
             | All => names | Columns l => l end) recs val.
Proof.
  intros cfg t names recs val t' [H1 H2] H. unfold choose_columns, take_columns in H.
  destruct (oc_columns cfg) as [| |l].
  - destruct (forallb _ _); cbn [rbind] in H; [|discriminate].
    destruct (oc_link_col cfg).
    + destruct (mem "object_linked" (t_names t)); [|discriminate]. injection H as <-. split; auto.
    + injection H as <-. split; auto.
  - injection H as <-. split; auto.
  - destruct (1 <? length l); [|discriminate].
    destruct (forallb _ _); [|discriminate]. injection H as <-. split; auto.
Qed.

Lemma prepare_rows : forall cfg t p, prepare norm3 round cfg t = Ok p ->
  t_names p = requested cfg (t_names t) /\
  map (fun r => map r (t_names p)) (t_recs p)
  = map (fun r => map (shown norm3 round cfg r) (requested cfg (t_names t))) (t_recs t).
Proof.
  intros cfg t p H. unfold prepare in H.
  destruct (add_distance norm3 t) as [t1|e] eqn:E1; cbn [rbind] in H; [|discriminate].
  destruct (choose_columns cfg t1) as [t2|e] eqn:E2; cbn [rbind] in H; [|discriminate].
  injection H as <-.
  assert (A1 := distance_agrees _ _ E1). assert (A2 := choose_agrees _ _ _ _ _ _ A1 E2).
  assert (A3 := round_agrees (oc_pos cfg) position_columns _ _ _ _ position_NoDup A2).
  assert (A4 := round_agrees (oc_mag cfg) magnitude_columns _ _ _ _ magnitude_NoDup A3).
  destruct A4 as [N F].
  set (p := round_columns round (oc_mag cfg) magnitude_columns (round_columns round (oc_pos cfg) position_columns t2)) in *.
  clearbody p. assert (Hn : t_names p = requested cfg (t_names t)).
  { rewrite N. unfold requested. destruct (oc_columns cfg); auto. }
  split; auto. rewrite Hn. rewrite N in Hn. clear A1 A2 A3 E1 E2 N.
  set (names := requested cfg (t_names t)) in *. clearbody names. subst names.
  set (names := match oc_columns cfg with Basic => _ | All => _ | Columns l => l end) in *. clearbody names.
  clear t1 t2. revert F. generalize (t_recs t). generalize (t_recs p). intros l' l F.
  induction F as [|r r' l l' Hr F IH]; cbn; auto. f_equal; auto.
  apply map_ext_in. intros c Hc. rewrite Hr. apply mem_In in Hc. rewrite Hc.
  unfold shown, decimals. change position_names with position_columns. change magnitude_names with magnitude_columns.
  destruct (in_dec string_dec c position_columns) as [Hp|Hp].
  - assert (Hm := pos_not_mag c Hp). destruct (in_dec string_dec c magnitude_columns); [tauto|].
    destruct (oc_mag cfg) as [[|m]|], (oc_pos cfg) as [[|n']|]; reflexivity.
  - destruct (in_dec string_dec c magnitude_columns);
    destruct (oc_mag cfg) as [[|m]|], (oc_pos cfg) as [[|n']|]; reflexivity.
Qed.

(** Rows of a chunk as printed. *)
Definition printed (cfg : outcfg) (cs : list string) (r : string -> V) : list V :=
  map (shown norm3 round cfg r) (requested cfg cs).

Lemma csv_one : forall cfg t f f', PPWriteOutput_csv norm3 round cfg t f = Ok f' ->
  f' = Some (match f with None => [Head (requested cfg (t_names t))] | Some old => old end
             ++ map (fun r => Data (printed cfg (t_names t) r)) (t_recs t)).
Proof.
  intros cfg t f f' H. unfold PPWriteOutput_csv in H.
  destruct (prepare norm3 round cfg t) as [p|e] eqn:E; cbn [rmap] in H; [|discriminate]. injection H as <-.
  destruct (prepare_rows _ _ _ E) as [H1 H2]. unfold PPOutWriteCSV.
  assert (Hb : map (fun r => Data (map r (t_names p))) (t_recs p) = map (fun r => Data (printed cfg (t_names t) r)) (t_recs t)).
  { rewrite <- (map_map (fun r => map r (t_names p)) (@Data V)), H2, map_map. reflexivity. }
  rewrite Hb, H1. destruct f; reflexivity.
Qed.
End Write.

Lemma csv_more : forall V norm3 round cfg cs (chunks : list (table V)) old f,
  Forall (fun t => t_names t = cs) chunks -> csv_writes norm3 round cfg chunks (Some old) = Ok f ->
  f = Some (old ++ map (fun r => Data (map (shown norm3 round cfg r) (requested cfg cs))) (concat (map t_recs chunks))).
Proof.
  intros V norm3 round cfg cs. induction chunks as [|t ts IH]; intros old f Hc H; cbn in H.
  - injection H as <-. cbn. rewrite app_nil_r. reflexivity.
  - inversion Hc as [|? ? Ht Hts]; subst.
    destruct (PPWriteOutput_csv norm3 round cfg t (Some old)) as [f1|e] eqn:E; cbn [rbind] in H; [|discriminate].
    apply csv_one in E. subst f1. rewrite (IH _ _ Hts H). cbn [map concat]. rewrite map_app, app_assoc. reflexivity.
Qed.

Lemma C21_csv_proof : forall V norm3 round cfg cs (chunks : list (table V)) f,
  Forall (fun t => t_names t = cs) chunks -> csv_writes norm3 round cfg chunks None = Ok f ->
  f = match chunks with
      | [] => None
      | _ => Some (Head (requested cfg cs)
               :: map (fun r => Data (map (shown norm3 round cfg r) (requested cfg cs))) (concat (map t_recs chunks)))
      end.
Proof.
  intros V norm3 round cfg cs chunks f Hc H. destruct chunks as [|t ts]; [cbn in H; congruence|].
  inversion Hc as [|? ? Ht Hts]; subst. cbn [csv_writes] in H.
  destruct (PPWriteOutput_csv norm3 round cfg t None) as [f1|e] eqn:E; cbn [rbind] in H; [|discriminate].
  apply csv_one in E. subst f1. rewrite (csv_more _ _ _ _ _ _ _ _ Hts H). cbn [map concat app]. rewrite map_app. reflexivity.
Qed.

Lemma prepare_ok : forall V norm3 round cfg (t : table V), available cfg (t_names t) ->
  exists p, prepare norm3 round cfg t = Ok p.
Proof.
  intros V norm3 round cfg t [H1 [H2 H3]]. unfold prepare, add_distance.
  assert (E1 : forallb (fun c => mem c (t_names t)) ["Obj_Sun_x_LTC_km"; "Obj_Sun_y_LTC_km"; "Obj_Sun_z_LTC_km"]%string = true).
  { apply forallb_forall. intros c Hc. apply mem_In. auto. }
  rewrite E1. cbn [rbind]. set (t1 := set_column _ _ t).
  assert (Hin : forall c, c = "Obj_Sun_LTC_km"%string \/ In c (t_names t) -> In c (t_names t1)).
  { intros c Hc. unfold t1. cbn. destruct (mem "Obj_Sun_LTC_km" (t_names t)) eqn:Em.
    - apply mem_In in Em. destruct Hc; subst; auto.
    - apply in_or_app. destruct Hc as [->|Hc]; [right; left; auto|auto]. }
  clearbody t1. unfold choose_columns, requested in *. destruct (oc_columns cfg) as [| |l].
  - assert (E2 : forallb (fun c => mem c (t_names t1)) basic_columns = true).
    { apply forallb_forall. intros c Hc. apply mem_In, Hin, H2, in_or_app. auto. }
    unfold take_columns. rewrite E2. cbn [rbind]. destruct (oc_link_col cfg).
    + assert (E3 : mem "object_linked" (t_names t1) = true).
      { apply mem_In, Hin, H2, in_or_app. right. left. reflexivity. }
      rewrite E3. cbn. eauto.
    + cbn. eauto.
  - cbn. eauto.
  - destruct (Nat.ltb_spec 1 (length l)); [|lia]. unfold take_columns.
    assert (E2 : forallb (fun c => mem c (t_names t1)) l = true).
    { apply forallb_forall. intros c Hc. apply mem_In, Hin, H2. auto. }
    rewrite E2. cbn. eauto.
Qed.

Lemma C21_succeeds_proof : forall V norm3 round cfg (chunks : list (table V)) f,
  Forall (fun t => available cfg (t_names t)) chunks -> exists f', csv_writes norm3 round cfg chunks f = Ok f'.
Proof.
  intros V norm3 round cfg. induction chunks as [|t ts IH]; intros f H; cbn; eauto.
  inversion H as [|? ? Ht Hts]; subst. unfold PPWriteOutput_csv.
  destruct (prepare_ok V norm3 round cfg t Ht) as [p ->]. cbn [rmap rbind]. auto.
Qed.

(** A requested column that does not exist stops the run at its first write
    with nothing written. *)
Lemma C21_missing_proof : forall V norm3 round cfg (t : table V) l c f,
  oc_columns cfg = Columns l -> In c l -> ~ In c (t_names t) -> c <> "Obj_Sun_LTC_km"%string ->
  exists e, PPWriteOutput_csv norm3 round cfg t f = Err e.
Proof.
  intros V norm3 round cfg t l c f Hl Hc Hn Hd. unfold PPWriteOutput_csv, prepare.
  destruct (add_distance norm3 t) as [t1|e] eqn:E; cbn [rbind rmap]; [|eauto].
  apply distance_agrees in E. destruct E as [N _]. unfold choose_columns. rewrite Hl.
  destruct (1 <? length l); cbn; [|eauto]. unfold take_columns.
  destruct (forallb _ l) eqn:Ef; cbn; [|eauto]. exfalso.
  assert (Hin := proj1 (forallb_forall _ _) Ef c Hc). cbn in Hin. apply mem_In in Hin. rewrite N in Hin.
  destruct (in_dec _ _ _); [tauto|]. apply in_app_or in Hin. destruct Hin as [Hin|[Hin|[]]]; congruence.
Qed.

(** ** Rounding *)
Lemma C59_zero_refuted_proof : exists (t : table nat) cfg f,
  oc_pos cfg = Some 0 /\ Forall (fun c => In c (t_names t)) ["RA_deg"; "ObjID"]%string /\
  csv_writes (fun a _ _ => a) (fun _ _ => 0) cfg [t] None = Ok (Some [Head ["RA_deg"; "ObjID"]%string; Data [7; 7]]) /\
  f = PPWriteOutput_csv (fun a _ _ => a) (fun _ _ => 0) {| oc_columns := oc_columns cfg; oc_pos := Some 1; oc_mag := None; oc_link_col := false |} t None
  /\ f = Ok (Some [Head ["RA_deg"; "ObjID"]%string; Data [0; 7]]).
Proof.
  exists {| t_names := ["ObjID"; "RA_deg"; "Obj_Sun_x_LTC_km"; "Obj_Sun_y_LTC_km"; "Obj_Sun_z_LTC_km"]%string; t_recs := [fun _ => 7] |},
    {| oc_columns := Columns ["RA_deg"; "ObjID"]%string; oc_pos := Some 0; oc_mag := None; oc_link_col := false |}.
  eexists. split; [reflexivity|]. split; [repeat constructor; cbn; tauto|]. split; [reflexivity|]. split; reflexivity.
Qed.

(** ** SQLite *)
Lemma sql_one : forall V norm3 round cfg cs (t : table V) f f', t_names t = cs ->
  (forall c, In c (requested cfg cs) -> c <> "level_0"%string) ->
  PPWriteOutput_sql norm3 round cfg t f = Ok f' ->
  match f with None => True | Some (old, _) => old = requested cfg cs end ->
  f' = Some (requested cfg cs, match f with None => [] | Some (_, rows) => rows end
        ++ map (fun r => map (shown norm3 round cfg r) (requested cfg cs)) (t_recs t)).
Proof.
  intros V norm3 round cfg cs t f f' Hcs Hl H Hf. unfold PPWriteOutput_sql in H.
  destruct (prepare norm3 round cfg t) as [p|e] eqn:E; cbn [rbind] in H; [|discriminate].
  destruct (prepare_rows _ _ _ _ _ E) as [H1 H2]. rewrite Hcs in H1, H2.
  unfold PPOutWriteSqlite3 in H. rewrite H1 in H, H2.
  assert (Ef : filter (fun c => negb (String.eqb c "level_0")) (requested cfg cs) = requested cfg cs).
  { clear - Hl. induction (requested cfg cs) as [|c l IH]; cbn; auto.
    assert (Hc : c <> "level_0"%string) by (apply Hl; left; auto). apply String.eqb_neq in Hc. rewrite Hc. cbn.
    rewrite IH; auto. intros; apply Hl; right; auto. }
  rewrite Ef in H. destruct f as [[old rows]|].
  - destruct (list_eq_dec string_dec old (requested cfg cs)); [|congruence].
    injection H as <-. rewrite H2. congruence.
  - injection H as <-. rewrite H2. reflexivity.
Qed.

Lemma C21_sql_proof : forall V norm3 round cfg cs (chunks : list (table V)) f,
  Forall (fun t => t_names t = cs) chunks ->
  (forall c, In c (requested cfg cs) -> c <> "level_0"%string) ->
  sql_writes norm3 round cfg chunks None = Ok f ->
  f = match chunks with
      | [] => None
      | _ => Some (requested cfg cs, map (fun r => map (shown norm3 round cfg r) (requested cfg cs)) (concat (map t_recs chunks)))
      end.
Proof.
  intros V norm3 round cfg cs chunks f Hc Hl H. destruct chunks as [|t ts]; [cbn in H; congruence|].
  inversion Hc as [|? ? Ht Hts]; subst. cbn [sql_writes] in H.
  destruct (PPWriteOutput_sql norm3 round cfg t None) as [f1|e] eqn:E; cbn [rbind] in H; [|discriminate].
  apply (sql_one _ _ _ _ (t_names t)) in E; auto. subst f1. cbn [map concat]. rewrite map_app. cbn [app] in H.
  revert H. generalize (map (fun r => map (shown norm3 round cfg r) (requested cfg (t_names t))) (t_recs t)).
  clear Hc. induction ts as [|u ts IH]; intros acc H; cbn [sql_writes] in H.
  - injection H as <-. cbn. rewrite app_nil_r. reflexivity.
  - inversion Hts as [|? ? Hu Hus]; subst.
    destruct (PPWriteOutput_sql norm3 round cfg u _) as [f1|e] eqn:E; cbn [rbind] in H; [|discriminate].
    apply (sql_one _ _ _ _ (t_names t)) in E; auto. subst f1. rewrite (IH Hus _ H). cbn [map concat].
    rewrite map_app, app_assoc. reflexivity.
Qed.

(** The final indexing needs three columns the user may have left out. *)
Lemma C61_index_proof : forall V norm3 round cfg cs (chunks : list (table V)),
  chunks <> [] -> Forall (fun t => t_names t = cs) chunks ->
  (forall c, In c (requested cfg cs) -> c <> "level_0"%string) ->
  forall f, sql_writes norm3 round cfg chunks None = Ok f ->
  ((exists f', sql_run norm3 round cfg chunks = Ok f') <->
   (In "ObjID" (requested cfg cs) /\ In "fieldMJD_TAI" (requested cfg cs) /\ In "optFilter" (requested cfg cs)))%string.
Proof.
  intros V norm3 round cfg cs chunks Hne Hc Hl f H. unfold sql_run. rewrite H. cbn [rbind].
  rewrite (C21_sql_proof _ _ _ _ _ _ _ Hc Hl H). destruct chunks as [|t ts]; [congruence|].
  unfold PPIndexSQLDatabase.
  destruct (mem "ObjID" _ && mem "fieldMJD_TAI" _ && mem "optFilter" _) eqn:E; cbn [rmap].
  - apply andb_prop in E. destruct E as [E E3]. apply andb_prop in E. destruct E as [E1 E2].
    apply mem_In in E1, E2, E3. split; eauto.
  - split; [intros [f' Hf]; discriminate|]. intros [H1 [H2 H3]].
    apply mem_In in H1, H2, H3. rewrite H1, H2, H3 in E. discriminate.
Qed.

Lemma C61_refuted_proof : exists (t : table nat) cfg f,
  available cfg (t_names t) /\ sql_writes (fun a _ _ => a) (fun _ v => v) cfg [t] None = Ok (Some f) /\
  sql_run (fun a _ _ => a) (fun _ v => v) cfg [t] = Err OperationalError.
Proof.
  exists {| t_names := ["ObjID"; "RA_deg"; "Obj_Sun_x_LTC_km"; "Obj_Sun_y_LTC_km"; "Obj_Sun_z_LTC_km"]%string; t_recs := [fun _ => 7] |},
    {| oc_columns := Columns ["RA_deg"; "ObjID"]%string; oc_pos := None; oc_mag := None; oc_link_col := false |}.
  eexists. split; [|split; reflexivity].
  split; [intros c H; cbn in H; intuition (subst; cbn; auto 10)|]. split; [|cbn; lia].
  intros c H; cbn in H; intuition (subst; cbn; auto 10).
Qed.

(** ** Interrupted runs *)
Definition lines_of {V} (f : option (list (line V))) : list (line V) := match f with Some l => l | None => [] end.

Lemma C22_file_proof : forall V S C norm3 round cfg cs (read : nat -> Z -> result (nat * option C))
    (process : S -> C -> result (S * option (table V))) lenf size s0 k1 k2 f1 f2, k1 <= k2 ->
  let out k := written (snd (run read process k lenf size s0)) in
  Forall (fun t => t_names t = cs) (out k2) ->
  csv_writes norm3 round cfg (out k1) None = Ok f1 ->
  csv_writes norm3 round cfg (out k2) None = Ok f2 ->
  prefix_of (match f1 with Some l => l | None => [] end) (match f2 with Some l => l | None => [] end).
Proof.
  intros V S C norm3 round cfg cs read process lenf size s0 k1 k2 f1 f2 Hk out Hc H1 H2.
  destruct (C22_prefix_proof S C (table V) read process lenf size s0 k1 k2 Hk) as [rest Hr]. fold (out k1) (out k2) in Hr.
  rewrite Hr in *. apply Forall_app in Hc. destruct Hc as [Hc1 Hc2].
  apply (C21_csv_proof _ _ _ _ cs) in H1; auto.
  apply (C21_csv_proof _ _ _ _ cs) in H2; [|apply Forall_app; auto].
  destruct (out k1) as [|t ts]; subst f1 f2.
  - eexists. cbn [app]. reflexivity.
  - change ((t :: ts) ++ rest) with (t :: (ts ++ rest)).
    eexists. cbn [map concat]. rewrite !map_app, concat_app, !map_app. cbn [app].
    f_equal. rewrite <- !app_assoc. reflexivity.
Qed.

(** ** Statistics *)
Lemma numbers_In : forall l x, In x (numbers l) <-> In x l /\ x <> NaN.
Proof. intros. unfold numbers. rewrite filter_In. destruct x; split; intuition congruence. Qed.

Lemma num_le_refl : forall x, x <> NaN -> num_le x x.
Proof. intros [| |q|] H; try congruence; constructor; try congruence. apply Qle_refl. Qed.
Lemma not_lt_le : forall a b, a <> NaN -> b <> NaN -> nltb a b = false -> num_le b a.
Proof.
  intros a b Ha Hb H. destruct (num_le_total b a Hb Ha) as [Hl|Hl]; auto.
  apply nltb_lt in Hl. congruence.
Qed.

Lemma fold_min : forall l x, x <> NaN -> (forall y, In y l -> y <> NaN) ->
  let m := fold_left (fun a b => if nltb b a then b else a) l x in
  m <> NaN /\ In m (x :: l) /\ forall y, In y (x :: l) -> num_le m y.
Proof.
  induction l as [|b l IH]; intros x Hx Hl m.
  - cbn in m. subst m. split; auto. split; [left; auto|]. intros y [<-|[]]. apply num_le_refl; auto.
  - cbn [fold_left] in m. assert (Hb : b <> NaN) by (apply Hl; left; auto).
    destruct (nltb b x) eqn:E.
    + destruct (IH b Hb ltac:(intros; apply Hl; right; auto)) as [M1 [M2 M3]]. fold m in M1, M2, M3.
      split; auto. split; [destruct M2 as [M2|M2]; [right; left; auto|right; right; auto]|].
      intros y [<-|Hy]; [|apply M3; auto]. eapply num_le_trans; [apply M3; left; auto|].
      apply num_lt_le, nltb_lt; auto.
    + destruct (IH x Hx ltac:(intros; apply Hl; right; auto)) as [M1 [M2 M3]]. fold m in M1, M2, M3.
      split; auto. split; [destruct M2 as [M2|M2]; [left; auto|right; right; auto]|].
      intros y [<-|[<-|Hy]]; [apply M3; left; auto| |apply M3; right; auto].
      eapply num_le_trans; [apply M3; left; auto|]. apply not_lt_le; auto.
Qed.
Lemma fold_max : forall l x, x <> NaN -> (forall y, In y l -> y <> NaN) ->
  let m := fold_left (fun a b => if nltb a b then b else a) l x in
  m <> NaN /\ In m (x :: l) /\ forall y, In y (x :: l) -> num_le y m.
Proof.
  induction l as [|b l IH]; intros x Hx Hl m.
  - cbn in m. subst m. split; auto. split; [left; auto|]. intros y [<-|[]]. apply num_le_refl; auto.
  - cbn [fold_left] in m. assert (Hb : b <> NaN) by (apply Hl; left; auto).
    destruct (nltb x b) eqn:E.
    + destruct (IH b Hb ltac:(intros; apply Hl; right; auto)) as [M1 [M2 M3]]. fold m in M1, M2, M3.
      split; auto. split; [destruct M2 as [M2|M2]; [right; left; auto|right; right; auto]|].
      intros y [<-|Hy]; [|apply M3; auto]. eapply num_le_trans; [|apply M3; left; auto].
      apply num_lt_le, nltb_lt; auto.
    + destruct (IH x Hx ltac:(intros; apply Hl; right; auto)) as [M1 [M2 M3]]. fold m in M1, M2, M3.
      split; auto. split; [destruct M2 as [M2|M2]; [left; auto|right; right; auto]|].
      intros y [<-|[<-|Hy]]; [apply M3; left; auto| |apply M3; right; auto].
      eapply num_le_trans; [|apply M3; left; auto]. apply not_lt_le; auto.
Qed.

Lemma nmin_least : forall l, least l (nmin l).
Proof.
  intro l. unfold least, nmin. assert (HI := numbers_In l). destruct (numbers l) as [|x s].
  - left. split; auto. intros y Hy. destruct y; auto; exfalso; refine (proj2 (HI _) (conj Hy _)); discriminate.
  - right. assert (Hx : x <> NaN) by (apply (HI x); left; auto).
    destruct (fold_min s x Hx) as [M1 [M2 M3]]; [intros y Hy; apply (HI y); right; auto|].
    split; auto. split; [apply HI; auto|]. intros y Hy Hn. apply M3, HI. auto.
Qed.
Lemma nmax_greatest : forall l, greatest l (nmax l).
Proof.
  intro l. unfold greatest, nmax. assert (HI := numbers_In l). destruct (numbers l) as [|x s].
  - left. split; auto. intros y Hy. destruct y; auto; exfalso; refine (proj2 (HI _) (conj Hy _)); discriminate.
  - right. assert (Hx : x <> NaN) by (apply (HI x); left; auto).
    destruct (fold_max s x Hx) as [M1 [M2 M3]]; [intros y Hy; apply (HI y); right; auto|].
    split; auto. split; [apply HI; auto|]. intros y Hy Hn. apply M3, HI. auto.
Qed.

Lemma ninsert_perm : forall x l, Permutation (ninsert x l) (x :: l).
Proof.
  intros x l. induction l as [|y l IH]; cbn; auto. destruct (nltb y x); auto.
  eapply perm_trans; [apply perm_skip; exact IH|apply perm_swap].
Qed.
Lemma nsort_perm : forall l, Permutation (nsort l) l.
Proof. induction l as [|x l IH]; cbn; auto. eapply perm_trans; [apply ninsert_perm|]. auto. Qed.
Lemma ninsert_sorted : forall x l, x <> NaN -> (forall y, In y l -> y <> NaN) ->
  StronglySorted num_le l -> StronglySorted num_le (ninsert x l).
Proof.
  intros x l Hx. induction l as [|y l IH]; intros Hl Hs; cbn; [repeat constructor|].
  inversion Hs as [|? ? Hs' Hy]; subst. destruct (nltb y x) eqn:E.
  - constructor; [apply IH; auto; intros; apply Hl; right; auto|].
    apply Forall_forall. intros z Hz. apply (Permutation_in _ (ninsert_perm x l)) in Hz.
    destruct Hz as [<-|Hz]; [apply num_lt_le, nltb_lt; auto|]. eapply Forall_forall in Hy; eauto.
  - constructor; auto. assert (Hxy : num_le x y) by (apply not_lt_le; auto; apply Hl; left; auto).
    constructor; auto. eapply Forall_impl; [|exact Hy]. intros z Hz. eapply num_le_trans; eauto.
Qed.
Lemma nsort_sorted : forall l, (forall y, In y l -> y <> NaN) -> StronglySorted num_le (nsort l).
Proof.
  induction l as [|x l IH]; intro H; cbn; [constructor|].
  apply ninsert_sorted; [apply H; left; auto| |apply IH; intros; apply H; right; auto].
  intros y Hy. apply (Permutation_in _ (nsort_perm l)) in Hy. apply H. right; auto.
Qed.

Lemma nth_error_split' : forall A (l : list A) n a, nth_error l n = Some a ->
  exists u v, l = u ++ a :: v /\ length u = n.
Proof. intros A l n a H. apply nth_error_split in H. destruct H as [u [v [H1 H2]]]. eauto. Qed.

Lemma half_midpoint : forall a b, num_le a b -> midpoint a b (nhalf (nadd a b)).
Proof.
  intros a b H. inversion H; subst; cbn.
  - constructor. field.
  - destruct b; try congruence; constructor; congruence.
  - destruct a; try congruence; constructor; congruence.
Qed.
Lemma sorted_adjacent : forall u v (c d : num), StronglySorted num_le (u ++ c :: d :: v) -> num_le c d.
Proof.
  induction u as [|x u IH]; cbn; intros v c d H; inversion H; subst.
  - inversion H3; auto.
  - eapply IH; eauto.
Qed.

Lemma nmedian_median : forall l, median l (nmedian l).
Proof.
  intro l. unfold median. exists (numbers l), (nsort (numbers l)).
  split; [apply selected_filter; intros x _; destruct x; split; congruence|].
  split; [apply Permutation_sym, nsort_perm|].
  assert (Hs : StronglySorted num_le (nsort (numbers l)))
    by (apply nsort_sorted; intros y Hy; apply numbers_In in Hy; tauto).
  split; auto. unfold nmedian. revert Hs. set (s := nsort (numbers l)). clearbody s. clear l. intro Hs.
  destruct s as [|x0 s0]; [left; auto|]. right. revert Hs. set (s := x0 :: s0).
  assert (Hn : 0 < length s) by (cbn; lia). clearbody s. clear x0 s0. intro Hs.
  destruct (Nat.Even_or_Odd (length s)) as [[k Hk]|[k Hk]].
  - right. assert (Hev : Nat.even (length s) = true) by (apply Nat.even_spec; exists k; auto).
    assert (E1 : (length s - 1) / 2 = k - 1).
    { replace (length s - 1) with (1 + (k - 1) * 2) by lia. rewrite Nat.div_add by lia. reflexivity. }
    assert (E2 : length s / 2 = k) by (rewrite Hk, Nat.mul_comm; apply Nat.div_mul; lia).
    rewrite E1, E2, Hev.
    destruct (nth_error s (k - 1)) as [c|] eqn:Ec; [|apply nth_error_None in Ec; lia].
    destruct (nth_error s k) as [d|] eqn:Ed; [|apply nth_error_None in Ed; lia].
    destruct (nth_error_split' _ _ _ _ Ec) as [u [v [-> Hu]]].
    destruct v as [|d' v].
    { rewrite app_length in Hk. cbn in Hk. lia. }
    assert (d' = d).
    { rewrite nth_error_app2 in Ed by lia. replace (k - length u) with 1 in Ed by lia. cbn in Ed. congruence. }
    subst d'. exists u, v, c, d. split; auto. split.
    + rewrite app_length in Hk. cbn in Hk. lia.
    + apply half_midpoint. eapply sorted_adjacent; eauto.
  - left. assert (Hev : Nat.even (length s) = false) by (rewrite <- Nat.negb_odd; apply negb_false_iff, Nat.odd_spec; exists k; auto).
    assert (E1 : (length s - 1) / 2 = k).
    { replace (length s - 1) with (k * 2) by lia. apply Nat.div_mul; lia. }
    assert (E2 : length s / 2 = k).
    { replace (length s) with (1 + k * 2) by lia. rewrite Nat.div_add by lia. reflexivity. }
    rewrite E1, E2, Hev.
    destruct (nth_error s k) as [c|] eqn:Ec; [|apply nth_error_None in Ec; lia].
    destruct (nth_error_split' _ _ _ _ Ec) as [u [v [-> Hu]]].
    exists u, v, c. split; auto. split; auto. rewrite app_length in Hk. cbn in Hk. lia.
Qed.

Lemma C24_rows_proof : forall A (oid filt : A -> string) mag phase linked date distinct categories mode l,
  (forall ids, NoDup (distinct ids) /\ forall i, In i (distinct ids) <-> In i ids) -> NoDup categories ->
  let st := stats oid filt mag phase linked date distinct categories mode l in
  NoDup (map (fun s => (s_id s, s_filter s)) st) /\
  (forall r, In r l -> In (filt r) categories -> exists s, In s st /\ s_id s = oid r /\ s_filter s = filt r) /\
  (forall s, In s st -> exists g, selected (fun r => oid r = s_id s /\ filt r = s_filter s) l g /\
     s_size s = length g /\
     least (map mag g) (s_mag_min s) /\ greatest (map mag g) (s_mag_max s) /\ median (map mag g) (s_mag_median s) /\
     least (map phase g) (s_phase_min s) /\ greatest (map phase g) (s_phase_max s) /\
     (mode = LinkKeep -> g <> [] -> (s_linked s = Some true <-> forall r, In r g -> linked r = true)) /\
     (mode <> LinkOff -> forall d, s_date s = Some d -> exists r, In r g /\ date r = Some d)).
Proof.
  intros A oid filt mag phase linked date distinct categories mode l Hd Hc st.
  split; [|split].
  - unfold st, stats. destruct (Hd (map oid l)) as [Hn _]. revert Hn. generalize (distinct (map oid l)). clear - Hc.
    intros ids Hn. induction ids as [|i ids IH]; cbn; [constructor|]. inversion Hn as [|? ? Hi Hn']; subst.
    rewrite map_app. 
    assert (H1 : NoDup (map (fun s => (s_id s, s_filter s)) (map (stat_row oid filt mag phase linked date mode l i) categories))).
    { rewrite map_map. cbn. clear - Hc. induction categories as [|c cs IHc]; cbn; constructor.
      - intro H. apply in_map_iff in H. destruct H as [x [E Hx]]. inversion E; subst. inversion Hc; auto.
      - inversion Hc; auto. }
    specialize (IH Hn'). revert H1 IH.
    assert (Hdis : forall p, In p (map (fun s => (s_id s, s_filter s)) (map (stat_row oid filt mag phase linked date mode l i) categories)) ->
       ~ In p (map (fun s => (s_id s, s_filter s)) (flat_map (fun j => map (stat_row oid filt mag phase linked date mode l j) categories) ids))).
    { intros p Hp Hq. apply in_map_iff in Hp. destruct Hp as [s [<- Hs]]. apply in_map_iff in Hs. destruct Hs as [c [<- _]].
      apply in_map_iff in Hq. destruct Hq as [s2 [E Hs2]]. apply in_flat_map in Hs2. destruct Hs2 as [j [Hj Hs2]].
      apply in_map_iff in Hs2. destruct Hs2 as [c2 [<- _]]. cbn in E. inversion E; subst. auto. }
    revert Hdis. generalize (map (fun s => (s_id s, s_filter s)) (map (stat_row oid filt mag phase linked date mode l i) categories)).
    generalize (map (fun s => (s_id s, s_filter s)) (flat_map (fun j => map (stat_row oid filt mag phase linked date mode l j) categories) ids)).
    clear. intros b a Hdis Ha Hb. induction a as [|x a IHa]; cbn; auto. inversion Ha; subst. constructor.
    + intro H. apply in_app_or in H. destruct H as [H|H]; [auto|]. exact (Hdis x (or_introl eq_refl) H).
    + apply IHa; auto. intros p Hp. apply Hdis. right; auto.
  - intros r Hr Hf. exists (stat_row oid filt mag phase linked date mode l (oid r) (filt r)). split; [|split; reflexivity].
    unfold st, stats. apply in_flat_map. exists (oid r). split.
    + apply Hd. apply in_map; auto.
    + apply in_map; auto.
  - intros s Hs. unfold st, stats in Hs. apply in_flat_map in Hs. destruct Hs as [i [_ Hs]].
    apply in_map_iff in Hs. destruct Hs as [f [<- _]]. cbn.
    set (g := filter (fun r => String.eqb (oid r) i && String.eqb (filt r) f) l).
    exists g. split.
    { apply selected_filter. intros r _. rewrite andb_true_iff, !String.eqb_eq. tauto. }
    clearbody g. clear. split; auto. split; [apply nmin_least|]. split; [apply nmax_greatest|].
    split; [apply nmedian_median|]. split; [apply nmin_least|]. split; [apply nmax_greatest|]. split.
    + intros -> Hg. destruct g as [|r g]; [congruence|]. rewrite <- forallb_forall.
      destruct (forallb linked (r :: g)); split; congruence.
    + intros Hm d Hd. assert (Hn : nfirst (map date g) = Some d) by (destruct mode; congruence).
      clear - Hn. unfold nfirst in Hn.
      destruct (filter _ (map date g)) as [|x fs] eqn:E in Hn; [discriminate|]. subst x.
      assert (Hi : In (Some d) (Some d :: fs)) by (left; auto). rewrite <- E in Hi. apply filter_In in Hi.
      destruct Hi as [Hi _]. apply in_map_iff in Hi. destruct Hi as [r [H1 H2]]. eauto.
Qed.

(** Filters of the pointing database in which an object was never seen get a
    row with no observations. *)
Lemma C24_empty_rows_refuted_proof : exists categories (l : list (string * string)) s,
  In s (stats fst snd (fun _ => Fin 20) (fun _ => Fin 1) (fun _ => false) (fun _ => None) (nodup string_dec) categories LinkOff l)
  /\ s_size s = 0.
Proof.
  exists ["g"; "r"]%string, [("a", "r")]%string. eexists. split; [left; reflexivity|reflexivity].
Qed.

(** The statistics of all chunks together: chunks with different objects give
    rows with different keys. *)
Lemma C24_chunks_proof : forall A (oid filt : A -> string) mag phase linked date distinct categories mode (chunks : list (list A)),
  (forall ids, NoDup (distinct ids) /\ forall i, In i (distinct ids) <-> In i ids) -> NoDup categories ->
  ForallOrdPairs (fun a b => forall r s, In r a -> In s b -> oid r <> oid s) chunks ->
  NoDup (map (fun s => (s_id s, s_filter s))
     (concat (map (stats oid filt mag phase linked date distinct categories mode) chunks))).
Proof.
  intros A oid filt mag phase linked date distinct categories mode chunks Hd Hc H.
  induction H as [|l ls Hl H IH]; cbn; [constructor|]. rewrite map_app.
  destruct (C24_rows_proof A oid filt mag phase linked date distinct categories mode l Hd Hc) as [H1 _].
  assert (Hid : forall k s, In s (stats oid filt mag phase linked date distinct categories mode k) -> exists r, In r k /\ oid r = s_id s).
  { intros k s Hs. unfold stats in Hs. apply in_flat_map in Hs. destruct Hs as [i [Hi Hs]].
    apply in_map_iff in Hs. destruct Hs as [f [<- _]]. cbn. apply (proj1 (proj2 (Hd _) i)) in Hi. apply in_map_iff in Hi.
    destruct Hi as [r [E Hr]]. eauto. }
  assert (Hdis : forall p, In p (map (fun s => (s_id s, s_filter s)) (stats oid filt mag phase linked date distinct categories mode l)) ->
     ~ In p (map (fun s => (s_id s, s_filter s)) (concat (map (stats oid filt mag phase linked date distinct categories mode) ls)))).
  { intros p Hp Hq. apply in_map_iff in Hp. destruct Hp as [s [<- Hs]]. apply in_map_iff in Hq. destruct Hq as [s2 [E Hs2]].
    apply in_concat in Hs2. destruct Hs2 as [x [Hx Hs2]]. apply in_map_iff in Hx. destruct Hx as [k [<- Hk]].
    destruct (Hid _ _ Hs) as [r [Hr Er]]. destruct (Hid _ _ Hs2) as [r2 [Hr2 Er2]].
    rewrite Forall_forall in Hl. apply (Hl k Hk r r2 Hr Hr2). inversion E. congruence. }
  revert H1 IH Hdis. cbv zeta.
  generalize (map (fun s => (s_id s, s_filter s)) (stats oid filt mag phase linked date distinct categories mode l)).
  generalize (map (fun s => (s_id s, s_filter s)) (concat (map (stats oid filt mag phase linked date distinct categories mode) ls))).
  clear. intros b a Ha Hb Hdis. induction a as [|x a IHa]; cbn; auto. inversion Ha; subst. constructor.
  - intro H. apply in_app_or in H. destruct H as [H|H]; [auto|]. exact (Hdis x (or_introl eq_refl) H).
  - apply IHa; auto. intros p Hp. apply Hdis. right; auto.
Qed.

(** ** Results and statistics in one directory *)
Definition csv_only {V} (writes : list (table V)) : option (list (line V)) :=
  fold_left (fun f t => PPOutWriteCSV t f) writes None.

Lemma write_chunks_files : forall V out stats (chunks : list (table V * table V)) (fs : string -> option (list (line V))),
  out <> stats ->
  write_chunks out stats chunks fs out = fold_left (fun f t => PPOutWriteCSV t f) (map fst chunks) (fs out) /\
  write_chunks out stats chunks fs stats = fold_left (fun f t => PPOutWriteCSV t f) (map snd chunks) (fs stats).
Proof.
  intros V out stats chunks. induction chunks as [|[a b] l IH]; intros fs Hne; cbn; auto.
  destruct (IH (write_file stats (PPOutWriteCSV b (write_file out (PPOutWriteCSV a (fs out)) fs stats))
             (write_file out (PPOutWriteCSV a (fs out)) fs)) Hne) as [H1 H2].
  rewrite H1, H2. unfold write_file. rewrite !String.eqb_refl.
  assert (E1 : String.eqb out stats = false) by (apply String.eqb_neq; auto).
  assert (E2 : String.eqb stats out = false) by (apply String.eqb_neq; auto).
  rewrite E1, E2. auto.
Qed.

Lemma C62_separate_proof : forall V out stats (chunks : list (table V * table V)) names, out <> stats -> chunks <> [] ->
  Forall (fun t => t_names (fst t) = names) chunks ->
  write_chunks out stats chunks (fun _ => None) out
  = Some (Head names :: map (fun r => Data (map r names)) (concat (map (fun t => t_recs (fst t)) chunks))).
Proof.
  intros V out stats chunks names Hne Hc Hn. destruct (write_chunks_files V out stats chunks (fun _ => None) Hne) as [-> _].
  destruct chunks as [|[a b] l]; [congruence|]. inversion Hn as [|? ? Ha Hl]; subst. cbn [map fold_left PPOutWriteCSV fst].
  clear Hc Hn Hne. cbn [fst] in *. cbn [concat map fst]. rewrite map_app. rewrite app_comm_cons.
  generalize (Head (t_names a) :: map (fun r => Data (map r (t_names a))) (t_recs a)). induction l as [|[c d] l IH]; intro acc; cbn.
  - rewrite app_nil_r. reflexivity.
  - inversion Hl as [|? ? Hc Hl']; subst. cbn in Hc. rewrite (IH Hl'). rewrite Hc, map_app, app_assoc. reflexivity.
Qed.

(** One name for both: the statistics rows end up among the results, under the
    header of the results. *)
Lemma C62_same_name_refuted_proof : exists (a b : table nat),
  t_names a = ["ObjID"; "RA_deg"]%string /\ t_names b = ["ObjID"; "optFilter"; "number_obs"]%string /\
  write_chunks "x" "x" [(a, b)] (fun _ => None) "x" = Some [Head ["ObjID"; "RA_deg"]%string; Data [1; 2]; Data [3; 4; 5]].
Proof.
  exists {| t_names := ["ObjID"; "RA_deg"]%string; t_recs := [fun c => if String.eqb c "ObjID" then 1 else 2] |},
    {| t_names := ["ObjID"; "optFilter"; "number_obs"]%string;
       t_recs := [fun c => if String.eqb c "ObjID" then 3 else if String.eqb c "optFilter" then 4 else 5] |}.
  split; [reflexivity|]. split; reflexivity.
Qed.

(** Rounding touches exactly the columns it is meant for. *)
Lemma C59_rounding_proof : forall V norm3 round cfg (t : table V) f r c n,
  PPWriteOutput_csv norm3 round cfg t None = Ok (Some f) -> In r (t_recs t) -> In c (requested cfg (t_names t)) ->
  exists vals k v, In (Data vals) f /\ nth_error (requested cfg (t_names t)) k = Some c /\ nth_error vals k = Some v /\
   (In c position_names -> oc_pos cfg = Some (S n) -> v = round (S n) (raw norm3 r c)) /\
   (In c magnitude_names -> oc_mag cfg = Some (S n) -> v = round (S n) (raw norm3 r c)) /\
   (~ In c position_names -> ~ In c magnitude_names -> v = raw norm3 r c) /\
   (oc_pos cfg = None -> oc_mag cfg = None -> v = raw norm3 r c).
Proof.
  intros V norm3 round cfg t f r c n H Hr Hc. apply csv_one in H. injection H as ->.
  exists (printed norm3 round cfg (t_names t) r). apply In_nth_error in Hc. destruct Hc as [k Hk].
  exists k, (shown norm3 round cfg r c). split; [right; apply in_map_iff; eauto|]. split; auto.
  split; [unfold printed; apply map_nth_error; auto|]. unfold shown, decimals.
  assert (Hpm := pos_not_mag c).
  change position_names with position_columns. change magnitude_names with magnitude_columns.
  destruct (in_dec string_dec c position_columns), (in_dec string_dec c magnitude_columns); try tauto;
    repeat split; intros; try tauto; repeat match goal with H : _ = _ |- _ => rewrite H; clear H end; reflexivity.
Qed.
