(** Simulations called from Python. *)
From Coq Require Import String List Arith ZArith Bool Lia.
From Verif Require Import Base.Prelude Model.Driver Model.Output Model.Library Spec.Output Spec.Library Proofs.Output.
Import ListNotations.
Open Scope list_scope.
Open Scope nat_scope.

Lemma loop_columns : forall V S C cs (read : nat -> Z -> result (nat * option C)) (process : S -> C -> result (S * option (table V))),
  leaves_columns cs process ->
  forall rounds lenf size st, Forall (fun t => t_names t = cs) (written (snd (main_loop read process rounds lenf size st))).
Proof.
  intros V S C cs read process H rounds. induction rounds as [|k IH]; intros lenf size st; cbn [main_loop].
  - destruct (endChunk st <? lenf)%Z; constructor.
  - destruct (endChunk st <? lenf)%Z; [|constructor].
    destruct (read (block_start st) size) as [[n [c|]]|e]; [|constructor|constructor].
    destruct (process (inner st) c) as [[s' o]|e] eqn:E; [|constructor]. cbn [snd].
    change (written ((c, o) :: ?x)) with ((match o with Some t => [t] | None => [] end) ++ written x).
    apply Forall_app. split; [|apply IH]. destruct o as [t|]; [|constructor]. constructor; [eauto|constructor].
Qed.

Section L.
Context {V W : Type}.
Variable norm3 : V -> V -> V -> V.
Variable round : nat -> V -> V.
Variable missing : V.
Variable stat_of : table V -> list W.

Lemma outputs_returning : forall w fmt cfg tabs kept d,
  outputs norm3 round stat_of true w fmt cfg tabs kept d
  = (d, Ok (fst kept ++ tabs, if w then snd kept ++ map stat_of tabs else snd kept)).
Proof.
  intros w fmt cfg. induction tabs as [|t ts IH]; intros [a b] d; cbn [outputs fst snd map].
  - rewrite app_nil_r. destruct w; [rewrite app_nil_r|]; reflexivity.
  - rewrite IH. cbn [fst snd]. rewrite <- app_assoc. destruct w; [rewrite <- app_assoc|]; reflexivity.
Qed.
Lemma outputs_csv : forall w cfg tabs kept d,
  match outputs norm3 round stat_of false w Csv cfg tabs kept d with
  | (d', Ok k) => k = kept /\ csv_writes norm3 round cfg tabs (d_csv d) = Ok (d_csv d') /\ d_db d' = d_db d
                  /\ d_stats d' = match tabs with [] => d_stats d | _ => if w then Some (match d_stats d with Some l => l | None => [] end ++ concat (map stat_of tabs)) else d_stats d end
  | (_, Err e) => csv_writes norm3 round cfg tabs (d_csv d) = Err e
  end.
Proof.
  intros w cfg. induction tabs as [|t ts IH]; intros kept d; cbn [outputs csv_writes].
  - auto.
  - unfold write_results. destruct (PPWriteOutput_csv norm3 round cfg t (d_csv d)) as [f|e]; cbn [rmap rbind]; [|reflexivity].
    specialize (IH kept (write_stats stat_of w t {| d_csv := f; d_db := d_db d; d_stats := d_stats d |})).
    destruct (outputs _ _ _ _ _ _ _ ts _ _) as [d' [k|e]]; unfold write_stats in IH; destruct w; cbn [d_csv d_db d_stats] in IH; [| |exact IH|exact IH];
      destruct IH as (E1 & E2 & E3 & E4); (split; [exact E1|]; split; [exact E2|]; split; [exact E3|]); rewrite E4; destruct ts;
      cbn [map concat]; rewrite ?app_nil_r, <- ?app_assoc; reflexivity.
Qed.
Definition table_at (d : disk V W) : sqlfile V := match d_db d with Some b => Some (db_table b) | None => None end.
Lemma outputs_sql : forall w cfg tabs kept d,
  match outputs norm3 round stat_of false w Sqlite3 cfg tabs kept d with
  | (d', Ok k) => k = kept /\ sql_writes norm3 round cfg tabs (table_at d) = Ok (table_at d') /\ d_csv d' = d_csv d
                  /\ (forall b, d_db d' = Some b -> db_indexes b = match d_db d with Some b0 => db_indexes b0 | None => [] end)
                  /\ d_stats d' = match tabs with [] => d_stats d | _ => if w then Some (match d_stats d with Some l => l | None => [] end ++ concat (map stat_of tabs)) else d_stats d end
  | (_, Err e) => sql_writes norm3 round cfg tabs (table_at d) = Err e
  end.
Proof.
  intros w cfg. induction tabs as [|t ts IH]; intros kept d; cbn [outputs sql_writes].
  - repeat split; auto. intros b ->. reflexivity.
  - unfold write_results. fold (table_at d). destruct (PPWriteOutput_sql norm3 round cfg t (table_at d)) as [f|e] eqn:E; cbn [rmap rbind]; [|reflexivity].
    assert (Hf : exists x, f = Some x).
    { unfold PPWriteOutput_sql in E. destruct (prepare norm3 round cfg t); cbn [rbind] in E; [|discriminate]. unfold PPOutWriteSqlite3 in E.
      destruct (table_at d) as [[o rs]|]; [destruct (list_eq_dec _ _ _); [|discriminate]|]; injection E as <-; eauto. }
    destruct Hf as [x ->].
    set (d1 := {| d_csv := d_csv d; d_db := Some {| db_table := x; db_indexes := match d_db d with Some b => db_indexes b | None => [] end |}; d_stats := d_stats d |}).
    specialize (IH kept (write_stats stat_of w t d1)).
    assert (T : table_at (write_stats stat_of w t d1) = Some x) by (unfold write_stats; destruct w; reflexivity). rewrite T in IH.
    assert (D : d_db (write_stats stat_of w t d1) = d_db d1) by (unfold write_stats; destruct w; reflexivity). rewrite D in IH. cbn [d_db d1 db_indexes] in IH.
    assert (C : d_csv (write_stats stat_of w t d1) = d_csv d) by (unfold write_stats; destruct w; reflexivity). rewrite C in IH.
    destruct (outputs _ _ _ _ _ _ _ ts _ _) as [d' [k|e]]; [|exact IH].
    destruct IH as (E1 & E2 & E3 & E4 & E5). repeat (split; [assumption|]). rewrite E5. unfold write_stats. destruct w; cbn [d_stats d1]; destruct ts;
      cbn [map concat]; rewrite ?app_nil_r, <- ?app_assoc; reflexivity.
Qed.
Lemma all_names_same : forall cs tabs, Forall (fun t : table V => t_names t = cs) tabs -> all_names tabs cs = cs.
Proof.
  intros cs tabs H. induction H as [|t ts E _ IH]; [reflexivity|]. cbn [all_names].
  replace (filter (fun c => negb (mem c cs)) (t_names t)) with (@nil string); [rewrite app_nil_r; exact IH|].
  rewrite E. symmetry. clear. assert (I : forall l, (forall c, In c l -> In c cs) -> filter (fun c => negb (mem c cs)) l = []).
  { induction l as [|c l IHl]; intro Hl; [reflexivity|]. cbn [filter]. rewrite (proj2 (mem_In c cs)) by (apply Hl; left; reflexivity). cbn [negb].
    apply IHl. intros; apply Hl; right; assumption. }
  apply I. auto.
Qed.
End L.

(** ** Returning *)
Lemma mem_names : forall V (missing : V) cs (r : string -> V) c, In c cs -> (if mem c cs then r c else missing) = r c.
Proof. intros V missing cs r c H. apply mem_In in H. rewrite H. reflexivity. Qed.
Lemma concat_recs : forall V (missing : V) cs tabs, tabs <> [] -> Forall (fun t => t_names t = cs) tabs ->
  exists t, pd_concat missing tabs = Ok t /\ t_names t = cs
    /\ t_recs t = map (fun r c => if mem c cs then r c else missing) (concat (map t_recs tabs)).
Proof.
  intros V missing cs tabs N H. destruct tabs as [|t0 ts]; [congruence|]. eexists. split; [reflexivity|]. split.
  - inversion H as [|? ? E F]; subst. cbn [t_names all_names app]. replace (filter _ (t_names t0)) with (t_names t0); [apply all_names_same, F|].
    symmetry. clear. induction (t_names t0) as [|c l IH]; [reflexivity|]. cbn [filter mem existsb negb]. f_equal. exact IH.
  - cbn [t_recs]. clear N. induction H as [|t l E _ IH]; [reflexivity|]. cbn [flat_map map concat]. rewrite map_app, <- IH, E. reflexivity.
Qed.
Lemma shown_cut : forall V norm3 round (missing : V) cfg cs r, available cfg cs ->
  map (shown norm3 round cfg (fun c => if mem c cs then r c else missing)) (requested cfg cs) = map (shown norm3 round cfg r) (requested cfg cs).
Proof.
  intros V norm3 round missing cfg cs r (A1 & A2 & _). apply map_ext_in. intros c Hc.
  assert (E : raw norm3 (fun c => if mem c cs then r c else missing) c = raw norm3 r c).
  { unfold raw. destruct (string_dec c "Obj_Sun_LTC_km") as [|n].
    - rewrite !mem_names by (apply A1; cbn; tauto). reflexivity.
    - apply mem_names. destruct (A2 c Hc); [contradiction|auto]. }
  unfold shown. rewrite E. reflexivity.
Qed.
Lemma rows_cut : forall V norm3 round (missing : V) cfg cs l, available cfg cs ->
  rows_shown norm3 round cfg cs (map (fun r c => if mem c cs then r c else missing) l) = rows_shown norm3 round cfg cs l.
Proof. intros. unfold rows_shown. rewrite map_map. apply map_ext. intro. apply shown_cut. assumption. Qed.

Section R.
Context {V W S C : Type}.
Variable norm3 : V -> V -> V -> V.
Variable round : nat -> V -> V.
Variable missing : V.
Variable stat_of : table V -> list W.
Variable read : nat -> Z -> result (nat * option C).
Variable process : S -> C -> result (S * option (table V)).

(** A call that keeps its tables. *)
Lemma returning : forall w fmt cfg rounds lenf size s d, fmt = Csv \/ d_db d = None ->
  simulation norm3 round missing stat_of read process true w fmt cfg rounds lenf size s d
  = (d, match fst (run read process rounds lenf size s) with
        | Done => match pd_concat missing (written (snd (run read process rounds lenf size s))) with
                  | Ok t => (Done, Some (t, if w then Some (concat (map stat_of (written (snd (run read process rounds lenf size s))))) else None))
                  | Err e => (Stopped e, None)
                  end
        | st => (st, None)
        end).
Proof.
  intros w fmt cfg rounds lenf size s d H. unfold simulation. destruct (run read process rounds lenf size s) as [st tr]. cbn [fst snd].
  rewrite outputs_returning. cbn [fst snd app]. destruct st as [|e|]; [|reflexivity|reflexivity].
  assert (I : index_output fmt d = (d, Ok tt)). { unfold index_output. destruct H as [->| ->]; [reflexivity|destruct fmt; reflexivity]. }
  rewrite I. unfold finish. cbn [fst snd app]. destruct (written tr) as [|t0 ts]; [reflexivity|]. destruct (pd_concat missing (t0 :: ts)); cbn [rbind]; [|reflexivity].
  destruct w; reflexivity.
Qed.
End R.

Lemma C103_untouched_proof : forall V W S C norm3 round (missing : V) (stat_of : table V -> list W)
    (read : nat -> Z -> result (nat * option C)) (process : S -> C -> result (S * option (table V)))
    wanted fmt cfg rounds lenf size s d, fmt = Csv \/ d_db d = None ->
  fst (simulation norm3 round missing stat_of read process true wanted fmt cfg rounds lenf size s d) = d.
Proof. intros. rewrite returning by assumption. reflexivity. Qed.

(** A call that returns, beside the one that writes. *)
Lemma writes_csv_ok : forall V W norm3 round (stat_of : table V -> list W) w cfg cs tabs kept d, available cfg cs ->
  Forall (fun t => t_names t = cs) tabs ->
  exists d', outputs norm3 round stat_of false w Csv cfg tabs kept d = (d', Ok kept).
Proof.
  intros V W norm3 round stat_of w cfg cs tabs kept d A F. assert (O := outputs_csv norm3 round stat_of w cfg tabs kept d).
  destruct (C21_succeeds_proof V norm3 round cfg tabs (d_csv d)) as [f Hf].
  { eapply Forall_impl; [|exact F]. intros t ->. exact A. }
  destruct (outputs _ _ _ _ _ _ _ tabs _ _) as [d' [k|e]]; [|congruence]. destruct O as [-> _]. eauto.
Qed.
Lemma sql_succeeds : forall V norm3 round cfg cs (tabs : list (table V)) f, available cfg cs ->
  (forall c, In c (requested cfg cs) -> c <> "level_0"%string) -> Forall (fun t => t_names t = cs) tabs ->
  match f with None => True | Some (old, _) => old = requested cfg cs end -> exists f', sql_writes norm3 round cfg tabs f = Ok f'.
Proof.
  intros V norm3 round cfg cs tabs f A L F. revert f. induction F as [|t ts E _ IH]; intros f Hf; [cbn; eauto|]. cbn [sql_writes].
  assert (P : exists f1, PPWriteOutput_sql norm3 round cfg t f = Ok f1).
  { unfold PPWriteOutput_sql. destruct (prepare_ok V norm3 round cfg t) as [p Hp]; [rewrite E; exact A|]. rewrite Hp. cbn [rbind].
    destruct (prepare_rows _ _ _ _ _ Hp) as [H1 _]. rewrite E in H1. unfold PPOutWriteSqlite3. rewrite H1.
    assert (Ef : filter (fun c => negb (String.eqb c "level_0")) (requested cfg cs) = requested cfg cs).
    { clear - L. induction (requested cfg cs) as [|c l IH]; cbn; auto.
      assert (Hc : c <> "level_0"%string) by (apply L; left; auto). apply String.eqb_neq in Hc. rewrite Hc. cbn.
      rewrite IH; auto. intros; apply L; right; auto. }
    rewrite Ef. destruct f as [[old rows]|]; [|eauto]. destruct (list_eq_dec string_dec old (requested cfg cs)); [eauto|contradiction]. }
  destruct P as [f1 P]. rewrite P. cbn [rbind]. apply IH. rewrite (sql_one _ _ _ _ cs _ _ _ E L P Hf). reflexivity.
Qed.

Lemma C103_csv_proof : forall V W S C norm3 round (missing : V) (stat_of : table V -> list W)
    (read : nat -> Z -> result (nat * option C)) (process : S -> C -> result (S * option (table V)))
    wanted cfg cs rounds lenf size s d t st d0,
  leaves_columns cs process -> available cfg cs ->
  simulation norm3 round missing stat_of read process true wanted Csv cfg rounds lenf size s d = (d, (Done, Some (t, st))) -> clean d0 ->
  exists d1, simulation norm3 round missing stat_of read process false wanted Csv cfg rounds lenf size s d0 = (d1, (Done, None))
    /\ t_names t = cs
    /\ d_csv d1 = Some (Head (requested cfg cs) :: map Data (rows_shown norm3 round cfg cs (t_recs t)))
    /\ d_db d1 = None /\ d_stats d1 = st /\ (st <> None <-> wanted = true).
Proof.
  intros V W S C norm3 round missing stat_of read process w cfg cs rounds lenf size s d t st d0 L A H (K1 & K2 & K3).
  rewrite returning in H by auto. injection H as H.
  assert (F := loop_columns V S C cs read process L rounds lenf size (initial s)). fold (run read process rounds lenf size s) in F.
  unfold simulation. destruct (run read process rounds lenf size s) as [stt tr]. cbn [fst snd] in *.
  destruct stt; try discriminate.
  assert (N : written tr <> []). { intro N. rewrite N in H. discriminate. }
  destruct (concat_recs V missing cs _ N F) as (t' & E & En & Er). rewrite E in H. injection H as <- <-.
  destruct (writes_csv_ok V W norm3 round stat_of w cfg cs (written tr) ([], []) d0 A F) as [d' O].
  assert (P := outputs_csv norm3 round stat_of w cfg (written tr) ([], []) d0). rewrite O in *. destruct P as (_ & P1 & P2 & P3).
  cbn [index_output finish]. exists d'. split; [reflexivity|]. split; [exact En|]. rewrite K1 in P1. apply (C21_csv_proof _ _ _ _ cs) in P1; [|exact F].
  rewrite K2 in P2. rewrite K3 in P3. rewrite P1, P2, P3, Er, rows_cut by exact A. unfold rows_shown. rewrite map_map.
  destruct (written tr); [congruence|]. split; [reflexivity|]. split; [reflexivity|]. split; [destruct w; reflexivity|]. destruct w; intuition discriminate.
Qed.

(** ** SQLite *)
Lemma indexes_fresh : forall V (b : database V), db_indexes b = [] -> (forall c, In c indexed_columns -> In c (fst (db_table b))) ->
  index_database b = ({| db_table := db_table b; db_indexes := indexed_columns |}, Ok tt).
Proof.
  intros V [tb ix] E H. cbn [db_indexes db_table] in *. subst ix. unfold index_database. cbn [create_indexes].
  assert (M : forall c, In c indexed_columns -> mem c (fst tb) = true) by (intros c Hc; apply mem_In, H, Hc).
  unfold create_index at 1. cbn [db_indexes db_table mem existsb]. fold (mem "ObjID" (fst tb)). 
  rewrite (M "ObjID"%string) by (cbn; tauto). unfold create_index at 1. cbn [db_indexes db_table app]. 
  change (mem "fieldMJD_TAI" ["ObjID"%string]) with false. cbv iota. rewrite (M "fieldMJD_TAI"%string) by (cbn; tauto).
  unfold create_index at 1. cbn [db_indexes db_table app]. change (mem "optFilter" ["ObjID"; "fieldMJD_TAI"]%string) with false. cbv iota.
  rewrite (M "optFilter"%string) by (cbn; tauto). reflexivity.
Qed.
Lemma C103_sqlite_proof : forall V W S C norm3 round (missing : V) (stat_of : table V -> list W)
    (read : nat -> Z -> result (nat * option C)) (process : S -> C -> result (S * option (table V)))
    wanted cfg cs rounds lenf size s d t st d0,
  leaves_columns cs process -> available cfg cs -> ~ In "level_0"%string (requested cfg cs) ->
  (forall c, In c indexed_columns -> In c (requested cfg cs)) -> d_db d = None ->
  simulation norm3 round missing stat_of read process true wanted Sqlite3 cfg rounds lenf size s d = (d, (Done, Some (t, st))) -> clean d0 ->
  exists d1 b, simulation norm3 round missing stat_of read process false wanted Sqlite3 cfg rounds lenf size s d0 = (d1, (Done, None))
    /\ t_names t = cs /\ d_db d1 = Some b
    /\ db_table b = (requested cfg cs, rows_shown norm3 round cfg cs (t_recs t)) /\ db_indexes b = indexed_columns
    /\ d_csv d1 = None /\ d_stats d1 = st /\ (st <> None <-> wanted = true).
Proof.
  intros V W S C norm3 round missing stat_of read process w cfg cs rounds lenf size s d t st d0 L A NL IX DB H (K1 & K2 & K3).
  rewrite returning in H by auto. injection H as H.
  assert (F := loop_columns V S C cs read process L rounds lenf size (initial s)). fold (run read process rounds lenf size s) in F.
  unfold simulation. destruct (run read process rounds lenf size s) as [stt tr]. cbn [fst snd] in *.
  destruct stt; try discriminate.
  assert (N : written tr <> []). { intro N. rewrite N in H. discriminate. }
  destruct (concat_recs V missing cs _ N F) as (t' & E & En & Er). rewrite E in H. injection H as <- <-.
  assert (NL' : forall c, In c (requested cfg cs) -> c <> "level_0"%string) by (intros c Hc ->; contradiction).
  assert (T0 : table_at d0 = None) by (unfold table_at; rewrite K2; reflexivity).
  destruct (sql_succeeds V norm3 round cfg cs (written tr) None A NL' F I) as [f Hf].
  assert (P := outputs_sql norm3 round stat_of w cfg (written tr) ([], []) d0). rewrite T0, Hf in P.
  destruct (outputs _ _ _ _ _ _ _ (written tr) _ _) as [d' [k|e]]; [|discriminate]. destruct P as (-> & P1 & P2 & P3 & P4).
  injection P1 as P1. apply (C21_sql_proof _ _ _ _ cs) in Hf; [|exact F|exact NL']. rewrite P1 in Hf.
  destruct (written tr) as [|t0 ts]; [congruence|]. unfold table_at in Hf. destruct (d_db d') as [b|] eqn:Eb; [|discriminate]. injection Hf as Hf.
  specialize (P3 b eq_refl). rewrite K2 in P3. unfold index_output. rewrite Eb, indexes_fresh; [|exact P3|rewrite Hf; exact IX].
  cbn [finish]. do 2 eexists. split; [reflexivity|]. cbn [d_db d_csv d_stats db_table db_indexes]. split; [exact En|]. split; [reflexivity|].
  cbn [db_table db_indexes]. rewrite Hf, Er, rows_cut by exact A. split; [reflexivity|]. split; [reflexivity|].
  rewrite P2, P4, K1, K3. split; [reflexivity|]. split; [destruct w; reflexivity|]. destruct w; intuition discriminate.
Qed.

(** ** A call that writes something would have returned it *)
Lemma C103_complete_proof : forall V W S C norm3 round (missing : V) (stat_of : table V -> list W)
    (read : nat -> Z -> result (nat * option C)) (process : S -> C -> result (S * option (table V)))
    wanted cfg rounds lenf size s d d0 d1,
  simulation norm3 round missing stat_of read process false wanted Csv cfg rounds lenf size s d0 = (d1, (Done, None)) ->
  d_csv d0 = None -> d_csv d1 <> None ->
  exists r, simulation norm3 round missing stat_of read process true wanted Csv cfg rounds lenf size s d = (d, (Done, Some r)).
Proof.
  intros V W S C norm3 round missing stat_of read process w cfg rounds lenf size s d d0 d1 H K N.
  rewrite returning by auto. unfold simulation in H. destruct (run read process rounds lenf size s) as [stt tr]. cbn [fst snd] in *.
  assert (P := outputs_csv norm3 round stat_of w cfg (written tr) ([], []) d0).
  destruct (outputs _ _ _ _ _ _ _ (written tr) _ _) as [d' [k|e]]; [|discriminate]. destruct P as (-> & P1 & P2 & P3).
  destruct stt; [|discriminate|discriminate]. cbn [index_output finish] in H. injection H as <-.
  destruct (written tr) as [|t ts]; [cbn in P1; congruence|]. cbn [pd_concat]. eauto.
Qed.

(** ** Findings *)
Lemma C103_nothing_refuted_proof : forall V W S C norm3 round (missing : V) (stat_of : table V -> list W)
    (read : nat -> Z -> result (nat * option C)) (process : S -> C -> result (S * option (table V)))
    wanted cfg rounds lenf size s d d0 d1,
  simulation norm3 round missing stat_of read process false wanted Csv cfg rounds lenf size s d0 = (d1, (Done, None)) ->
  d_csv d1 = None ->
  simulation norm3 round missing stat_of read process true wanted Csv cfg rounds lenf size s d = (d, (Stopped ValueError, None)).
Proof.
  intros V W S C norm3 round missing stat_of read process w cfg rounds lenf size s d d0 d1 H N.
  rewrite returning by auto. unfold simulation in H. destruct (run read process rounds lenf size s) as [stt tr]. cbn [fst snd] in *.
  assert (P := outputs_csv norm3 round stat_of w cfg (written tr) ([], []) d0).
  destruct (outputs _ _ _ _ _ _ _ (written tr) _ _) as [d' [k|e]]; [|discriminate]. destruct P as (-> & P1 & P2 & P3).
  destruct stt; [|discriminate|discriminate]. cbn [index_output finish] in H. injection H as <-. rewrite N in P1.
  destruct (written tr) as [|t ts]; [reflexivity|]. exfalso. cbn [csv_writes] in P1.
  destruct (PPWriteOutput_csv norm3 round cfg t (d_csv d0)) as [f|] eqn:E; cbn [rbind] in P1; [|discriminate].
  assert (M : forall ts f, f <> None -> csv_writes norm3 round cfg ts f = Ok None -> False).
  { clear. induction ts as [|t ts IH]; intros f Nf H; cbn [csv_writes] in H; [congruence|].
    destruct (PPWriteOutput_csv norm3 round cfg t f) as [g|] eqn:E; cbn [rbind] in H; [|discriminate].
    apply csv_one in E. subst g. eapply IH; [|exact H]. discriminate. }
  apply csv_one in E. subst f. eapply M; [|exact P1]. discriminate.
Qed.
Lemma C103_database_refuted_proof : forall V W S C norm3 round (missing : V) (stat_of : table V -> list W)
    (read : nat -> Z -> result (nat * option C)) (process : S -> C -> result (S * option (table V)))
    wanted fmt cfg rounds lenf size s d0 d1 return_only wanted' cfg' rounds' s',
  d_db d0 = None ->
  simulation norm3 round missing stat_of read process false wanted Sqlite3 cfg rounds lenf size s d0 = (d1, (Done, None)) -> d_db d1 <> None ->
  fmt = Sqlite3 ->
  fst (snd (simulation norm3 round missing stat_of read process return_only wanted' fmt cfg' rounds' lenf size s' d1)) <> Done.
Proof.
  intros V W S C norm3 round missing stat_of read process w fmt cfg rounds lenf size s d0 d1 ro w' cfg' rounds' s' K H N ->.
  assert (X : exists b, d_db d1 = Some b /\ In "ObjID"%string (db_indexes b)).
  { unfold simulation in H. destruct (run read process rounds lenf size s) as [stt tr].
    destruct (outputs _ _ _ _ _ _ _ (written tr) _ _) as [d' [k|e]]; [|discriminate].
    destruct stt; [|discriminate|discriminate]. unfold index_output in H.
    destruct (d_db d') as [b|] eqn:Eb; [|cbn [finish] in H; injection H as <-; congruence].
    destruct (index_database b) as [b' r] eqn:EI. destruct r as [u|e]; [|discriminate]. cbn [finish] in H. injection H as <-.
    cbn [d_db]. exists b'. split; [reflexivity|]. clear - EI.
    assert (I : forall l (b b' : database V) r, create_indexes l b = (b', r) -> forall c, In c (db_indexes b) -> In c (db_indexes b')).
    { induction l as [|a l IH]; intros b0 b0' r H c Hc; cbn [create_indexes] in H; [injection H as <- _; exact Hc|].
      destruct (create_index a b0) as [b1|] eqn:E; [|injection H as <- _; exact Hc]. eapply IH; [exact H|].
      unfold create_index in E. destruct (mem a (db_indexes b0)); [discriminate|]. destruct (mem a (fst (db_table b0))); [|discriminate].
      injection E as <-. cbn [db_indexes]. apply in_or_app. auto. }
    unfold index_database in EI. cbn [create_indexes] in EI. destruct (create_index "ObjID" b) as [b1|] eqn:E1; [|discriminate].
    change (create_indexes ["fieldMJD_TAI"; "optFilter"]%string b1 = (b', Ok u)) in EI. eapply I; [exact EI|].
    unfold create_index in E1. destruct (mem "ObjID" (db_indexes b)); [discriminate|]. destruct (mem "ObjID" (fst (db_table b))); [|discriminate].
    injection E1 as <-. cbn [db_indexes]. apply in_or_app. right. left. reflexivity. }
  destruct X as (b & Db & Ib). clear H N K.
  assert (Y : exists d', fst (outputs norm3 round stat_of ro w' Sqlite3 cfg' (written (snd (run read process rounds' lenf size s'))) ([], []) d1) = d'
    /\ exists b', d_db d' = Some b' /\ In "ObjID"%string (db_indexes b')).
  { eexists. split; [reflexivity|]. destruct ro.
    - rewrite outputs_returning. cbn [fst]. eauto.
    - generalize (written (snd (run read process rounds' lenf size s'))) (@nil (table V), @nil (list W)). intros l. revert d1 b Db Ib.
      induction l as [|t ts IH]; intros d1 b Db Ib kept; cbn [outputs]; [cbn [fst]; eauto|].
      destruct (write_results norm3 round Sqlite3 cfg' t d1) as [d2|e] eqn:E; [|cbn [fst]; eauto].
      assert (Z : exists b2, d_db (write_stats stat_of w' t d2) = Some b2 /\ In "ObjID"%string (db_indexes b2)).
      { replace (d_db (write_stats stat_of w' t d2)) with (d_db d2) by (unfold write_stats; destruct w'; reflexivity).
        unfold write_results in E. rewrite Db in E. destruct (PPWriteOutput_sql _ _ _ _ _) as [f|] eqn:Ep; cbn [rmap] in E; [|discriminate]. injection E as <-.
        cbn [d_db]. destruct f as [x|]; [eexists; split; [reflexivity|exact Ib]|].
        unfold PPWriteOutput_sql in Ep. destruct (prepare norm3 round cfg' t); cbn [rbind] in Ep; [|discriminate]. unfold PPOutWriteSqlite3 in Ep.
        destruct (db_table b). destruct (list_eq_dec _ _ _); discriminate. }
      destruct Z as (b2 & D2 & I2). eapply IH; eassumption. }
  destruct Y as (d' & Ed & b' & Db' & Ib'). unfold simulation. destruct (run read process rounds' lenf size s') as [stt tr]. cbn [fst snd] in *.
  destruct (outputs _ _ _ _ _ _ _ (written tr) _ _) as [d2 [k|e]]; cbn [fst] in Ed; subst d2; [|cbn; discriminate].
  destruct stt; [|cbn; discriminate|cbn; discriminate].
  unfold index_output. rewrite Db'. unfold index_database. cbn [create_indexes]. unfold create_index.
  rewrite (proj2 (mem_In _ _) Ib'). cbn. discriminate.
Qed.
Lemma C103_indexed_refuted_proof : forall V W S C norm3 round (missing : V) (stat_of : table V -> list W)
    (read : nat -> Z -> result (nat * option C)) (process : S -> C -> result (S * option (table V)))
    wanted cfg rounds lenf size s d d1 b r,
  d_db d = Some b -> simulation norm3 round missing stat_of read process true wanted Sqlite3 cfg rounds lenf size s d = (d1, (Done, Some r)) ->
  exists b', d_db d1 = Some b' /\ db_table b' = db_table b /\ db_indexes b' = db_indexes b ++ indexed_columns.
Proof.
  intros V W S C norm3 round missing stat_of read process w cfg rounds lenf size s d d1 b r Db H.
  unfold simulation in H. destruct (run read process rounds lenf size s) as [stt tr]. rewrite outputs_returning in H.
  destruct stt; [|discriminate|discriminate]. unfold index_output in H. rewrite Db in H.
  destruct (index_database b) as [b' [u|e]] eqn:E; [|discriminate]. destruct (finish _ _ _ _); [|discriminate]. injection H as <- _.
  cbn [d_db]. exists b'. split; [reflexivity|]. unfold index_database in E.
  assert (I : forall l (b b' : database V) u, create_indexes l b = (b', Ok u) -> db_table b' = db_table b /\ db_indexes b' = db_indexes b ++ l).
  { clear. induction l as [|a l IH]; intros b b' u H; cbn [create_indexes] in H; [injection H as <- _; rewrite app_nil_r; auto|].
    destruct (create_index a b) as [b1|] eqn:E; [|discriminate]. destruct (IH _ _ _ H) as [H1 H2].
    unfold create_index in E. destruct (mem a (db_indexes b)); [discriminate|]. destruct (mem a (fst (db_table b))); [|discriminate].
    injection E as <-. cbn [db_table db_indexes] in *. rewrite <- app_assoc in H2. auto. }
  eapply I. exact E.
Qed.
Lemma C103_rounds_proof : forall V W S C norm3 round (missing : V) (stat_of : table V -> list W)
    (read : nat -> Z -> result (nat * option C)) (process : S -> C -> result (S * option (table V)))
    return_only wanted fmt cfg rounds lenf size s d,
  fst (snd (simulation norm3 round missing stat_of read process return_only wanted fmt cfg rounds lenf size s d)) = Done ->
  fst (run read process rounds lenf size s) = Done.
Proof.
  intros V W S C norm3 round missing stat_of read process ro w fmt cfg rounds lenf size s d H.
  unfold simulation in H. destruct (run read process rounds lenf size s) as [stt tr]. cbn [fst].
  destruct (outputs _ _ _ _ _ _ _ (written tr) _ _) as [d' [k|e]]; [|discriminate]. destruct stt; [reflexivity|discriminate|discriminate].
Qed.
