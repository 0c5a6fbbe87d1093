(** Results in HDF5 files. *)
From Coq Require Import String List Arith Bool Lia.
From Verif Require Import Base.Prelude Model.Output Model.Hdf5Output Spec.Output Proofs.Output.
Import ListNotations.
Open Scope nat_scope.

Lemma max_le : forall l n, fold_right Nat.max 1 l <= n <-> 1 <= n /\ forall x, In x l -> x <= n.
Proof.
  induction l as [|a l IH]; intros n; cbn; [split; [intros; split; [auto|tauto]|tauto]|].
  rewrite Nat.max_lub_iff, IH. split.
  - intros [H1 [H2 H3]]. split; auto. intros x [->|Hx]; auto.
  - intros [H1 H2]. split; [|split]; auto.
Qed.

Section One.
Context {V : Type}.
Variable text : V -> option string.
Variable norm3 : V -> V -> V -> V.
Variable round : nat -> V -> V.
Variable cfg : outcfg.
Variable cs : list string.

(** The rows of a table as they are shown. *)
Definition rows_of (recs : list (string -> V)) : list (list V) :=
  map (fun r => map (shown norm3 round cfg r) (requested cfg cs)) recs.
(** The strings of column [c] of [recs] are at most [n] bytes long. *)
Definition fits (n : nat) (recs : list (string -> V)) (c : string) : Prop :=
  forall r s, In r recs -> text (shown norm3 round cfg r c) = Some s -> String.length s <= n.

Lemma prepared : forall t, available cfg cs -> t_names t = cs ->
  exists p, prepare norm3 round cfg t = Ok p /\ t_names p = requested cfg cs /\
    map (fun r => map r (t_names p)) (t_recs p) = rows_of (t_recs t) /\
    length (t_recs p) = length (t_recs t) /\
    (forall c n, In c (requested cfg cs) -> (width text p c <= n <-> 1 <= n /\ fits n (t_recs t) c)).
Proof.
  intros t Ha Ht. destruct (prepare_ok V norm3 round cfg t) as [p E]; [rewrite Ht; auto|]. exists p.
  destruct (prepare_rows norm3 round cfg t p E) as [H1 H2]. rewrite Ht in H1, H2. repeat split; auto.
  - apply (f_equal (@length _)) in H2. rewrite !map_length in H2. auto.
  - unfold width in H0. apply max_le in H0. tauto.
  - unfold width in H0. apply max_le in H0. destruct H0 as [_ H3]. intros r s Hr Hs.
    rewrite H1 in H2. clear E H1.
    assert (Hin : In (map (shown norm3 round cfg r) (requested cfg cs)) (map (fun r0 => map r0 (requested cfg cs)) (t_recs p))).
    { rewrite H2. apply in_map_iff. eauto. }
    apply in_map_iff in Hin. destruct Hin as [r' [He Hr']].
    specialize (H3 (bytes text (r' c))).
    assert (Hc : r' c = shown norm3 round cfg r c).
    { clear - He H. induction (requested cfg cs) as [|d l IH]; [destruct H|]. cbn in He.
      injection He as E1 E2. destruct H as [->|H]; auto. }
    assert (Hb : bytes text (r' c) = String.length s) by (unfold bytes; rewrite Hc, Hs; auto).
    rewrite <- Hb. apply H3. apply in_map_iff. exists r'. auto.
  - intros [H3 H4]. unfold width. apply max_le. split; auto. intros x Hx. apply in_map_iff in Hx.
    destruct Hx as [r' [<- Hr']]. rewrite H1 in H2.
    assert (Hin : In (map r' (requested cfg cs)) (map (fun r => map (shown norm3 round cfg r) (requested cfg cs)) (t_recs t))).
    { unfold rows_of in H2. rewrite <- H2. apply in_map_iff. exists r'. auto. }
    apply in_map_iff in Hin. destruct Hin as [r [He Hr]].
    assert (Hc : r' c = shown norm3 round cfg r c).
    { clear - He H. induction (requested cfg cs) as [|d l IH]; [destruct H|]. cbn in He.
      injection He as E1 E2. destruct H as [->|H]; auto. }
    unfold bytes. rewrite Hc. destruct (text _) as [s|] eqn:Es; [|lia]. eapply H4; eauto.
Qed.

(** One write to a file that holds a table. *)
Lemma one_more : forall t old, available cfg cs -> In "ObjID"%string (requested cfg cs) -> t_names t = cs ->
  h_names old = requested cfg cs -> (forall c, 1 <= h_width old c) ->
  (exists new, PPWriteOutput_hdf5 text norm3 round cfg t (Some old) = Ok (Some new) /\
     h_names new = requested cfg cs /\ h_width new = h_width old /\ h_rows new = h_rows old ++ rows_of (t_recs t) /\
     (forall c, In c (requested cfg cs) -> fits (h_width old c) (t_recs t) c)) \/
  (PPWriteOutput_hdf5 text norm3 round cfg t (Some old) = Err ValueError /\
   exists c, In c (requested cfg cs) /\ ~ fits (h_width old c) (t_recs t) c).
Proof.
  intros t old Ha Ho Ht Hn Hw. destruct (prepared t Ha Ht) as [p [E [H1 [H2 [H3 H4]]]]].
  unfold PPWriteOutput_hdf5. rewrite E. cbn [rbind]. unfold PPOutWriteHDF5.
  assert (Hm : mem "ObjID" (t_names p) = true) by (apply mem_In; rewrite H1; auto). rewrite Hm, H2.
  destruct (t_recs p) as [|r rs] eqn:Er.
  { left. exists old. destruct (t_recs t) as [|r0 rs0] eqn:E0; [|discriminate]. cbn [rows_of map].
    rewrite app_nil_r. repeat split; auto. intros c Hc r s []. }
  clear Er. rewrite Hn, H1. destruct (list_eq_dec _ _ _); [|congruence].
  destruct (forallb _ _) eqn:Ef.
  - left. eexists. split; [reflexivity|]. cbn. repeat split; auto. intros c Hc.
    assert (Hl := proj1 (forallb_forall _ _) Ef c Hc). cbn in Hl. apply Nat.leb_le in Hl.
    apply (H4 c _ Hc) in Hl. tauto.
  - right. split; auto. assert (Hx : existsb (fun c => negb (width text p c <=? h_width old c)) (requested cfg cs) = true).
    { clear - Ef. induction (requested cfg cs) as [|c l IH]; cbn in *; [discriminate|].
      destruct (width text p c <=? h_width old c); cbn in *; auto. }
    apply existsb_exists in Hx. destruct Hx as [c [Hc Hl]]. exists c. split; auto. intros Hf.
    apply negb_true_iff, Nat.leb_gt in Hl. assert (width text p c <= h_width old c); [|lia].
    apply (H4 c _ Hc). auto.
Qed.

Lemma one_first : forall t, available cfg cs -> In "ObjID"%string (requested cfg cs) -> t_names t = cs ->
  match t_recs t with
  | [] => PPWriteOutput_hdf5 text norm3 round cfg t None = Ok None
  | _ => exists new, PPWriteOutput_hdf5 text norm3 round cfg t None = Ok (Some new) /\
     h_names new = requested cfg cs /\ h_rows new = rows_of (t_recs t) /\
     (forall c, 1 <= h_width new c) /\
     (forall c n, In c (requested cfg cs) -> (h_width new c <= n <-> 1 <= n /\ fits n (t_recs t) c))
  end.
Proof.
  intros t Ha Ho Ht. destruct (prepared t Ha Ht) as [p [E [H1 [H2 [H3 H4]]]]].
  unfold PPWriteOutput_hdf5. rewrite E. cbn [rbind]. unfold PPOutWriteHDF5.
  assert (Hm : mem "ObjID" (t_names p) = true) by (apply mem_In; rewrite H1; auto). rewrite Hm, H2.
  destruct (t_recs p) as [|r rs] eqn:Er; destruct (t_recs t) as [|r0 rs0] eqn:Et; try discriminate; [reflexivity|].
  eexists. split; [reflexivity|]. cbn [h_names h_rows h_width]. repeat split; auto.
  - intros c. unfold width. induction (map _ (t_recs p)); cbn; lia.
  - apply (H4 c n); auto.
  - apply (H4 c n); auto.
  - apply (H4 c n); auto.
Qed.

(** Later writes. *)
Lemma more : forall chunks old, available cfg cs -> In "ObjID"%string (requested cfg cs) ->
  Forall (fun t => t_names t = cs) chunks -> h_names old = requested cfg cs -> (forall c, 1 <= h_width old c) ->
  exists new, h_names new = requested cfg cs /\
    ((hdf5_writes text norm3 round cfg chunks (Some old) = (Some new, Ok tt) /\
      h_rows new = h_rows old ++ rows_of (concat (map t_recs chunks)) /\
      forall c, In c (requested cfg cs) -> fits (h_width old c) (concat (map t_recs chunks)) c) \/
     (exists done t rest, chunks = done ++ t :: rest /\
      hdf5_writes text norm3 round cfg chunks (Some old) = (Some new, Err ValueError) /\
      h_rows new = h_rows old ++ rows_of (concat (map t_recs done)) /\
      exists c, In c (requested cfg cs) /\ ~ fits (h_width old c) (t_recs t) c)).
Proof.
  induction chunks as [|t ts IH]; intros old Ha Ho Hc Hn Hw.
  - exists old. split; auto. left. split; [reflexivity|]. cbn. rewrite app_nil_r. split; auto. intros c _ r s [].
  - inversion Hc as [|? ? Ht Hts]; subst. cbn [hdf5_writes].
    destruct (one_more t old Ha Ho Ht Hn Hw) as [[new [E [N1 [N2 [N3 N4]]]]]|[E [c [C1 C2]]]]; rewrite E.
    + destruct (IH new Ha Ho Hts N1) as [last [L1 L]]; [rewrite N2; auto|]. exists last. split; auto.
      destruct L as [[L2 [L3 L4]]|[done [u [rest [L2 [L3 [L4 L5]]]]]]].
      * left. split; auto. cbn [map concat]. unfold rows_of. rewrite map_app. fold (rows_of (t_recs t)) (rows_of (concat (map t_recs ts))).
        rewrite L3, N3, app_assoc. split; auto. intros c Hin r s Hr Hs. apply in_app_or in Hr. destruct Hr as [Hr|Hr].
        -- eapply N4; eauto.
        -- rewrite <- N2. eapply L4; eauto.
      * right. exists (t :: done), u, rest. split; [rewrite L2; auto|]. split; auto. rewrite N2 in L5. split; auto.
        cbn [map concat]. unfold rows_of. rewrite map_app. fold (rows_of (t_recs t)) (rows_of (concat (map t_recs done))).
        rewrite L4, N3, app_assoc. auto.
    + exists old. split; auto. right. exists [], t, ts. split; auto. split; auto. cbn. rewrite app_nil_r. split; auto. eauto.
Qed.
End One.

(** What the file is when it exists. *)
Lemma empties : forall V (chunks : list (table V)),
  (forall t, In t chunks -> t_recs t = []) \/
  exists pre t rest, chunks = pre ++ t :: rest /\ (forall u, In u pre -> t_recs u = []) /\ t_recs t <> [].
Proof.
  induction chunks as [|t ts [IH|[pre [u [rest [-> [H1 H2]]]]]]].
  - left. intros t [].
  - destruct (t_recs t) as [|r rs] eqn:E.
    + left. intros u [<-|Hu]; auto.
    + right. exists [], t, ts. repeat split; auto. { intros u []. } rewrite E. discriminate.
  - destruct (t_recs t) as [|r rs] eqn:E.
    + right. exists (t :: pre), u, rest. repeat split; auto. intros v [<-|Hv]; auto.
    + right. exists [], t, (pre ++ u :: rest). repeat split; auto. { intros v []. } rewrite E. discriminate.
Qed.

Lemma skip_empties : forall V text norm3 round cfg cs (pre rest : list (table V)),
  available cfg cs -> In "ObjID"%string (requested cfg cs) -> Forall (fun t => t_names t = cs) pre ->
  (forall u, In u pre -> t_recs u = []) ->
  hdf5_writes text norm3 round cfg (pre ++ rest) None = hdf5_writes text norm3 round cfg rest None.
Proof.
  intros V text norm3 round cfg cs. induction pre as [|t ts IH]; intros rest Ha Ho Hc He; auto.
  inversion Hc as [|? ? Ht Hts]; subst. cbn [app hdf5_writes].
  assert (H := one_first text norm3 round cfg _ t Ha Ho eq_refl). rewrite (He t (or_introl eq_refl)) in H. rewrite H.
  apply IH; auto. intros u Hu. apply He. right. auto.
Qed.

Lemma concat_empties : forall V (pre : list (table V)), (forall u, In u pre -> t_recs u = []) -> concat (map t_recs pre) = [].
Proof.
  induction pre as [|t ts IH]; intros H; auto. cbn. rewrite (H t (or_introl eq_refl)), IH; auto. intros u Hu. apply H. right. auto.
Qed.

(** A run either ends well and the file holds every row, or stops with an
    error and the file holds every row of the rounds before. *)
Lemma C97_rows_proof : forall V (text : V -> option string) norm3 round cfg cs (chunks : list (table V)) file how,
  available cfg cs -> In "ObjID"%string (requested cfg cs) -> Forall (fun t => t_names t = cs) chunks ->
  hdf5_writes text norm3 round cfg chunks None = (file, how) ->
  exists done left, chunks = done ++ left /\ (how = Ok tt -> left = []) /\ (how <> Ok tt -> left <> [] /\ how = Err ValueError) /\
    match concat (map t_recs done) with
    | [] => file = None
    | rows => exists h, file = Some h /\ h_names h = requested cfg cs /\
        h_rows h = map (fun r => map (shown norm3 round cfg r) (requested cfg cs)) rows
    end.
Proof.
  intros V text norm3 round cfg cs chunks file how Ha Ho Hc H.
  destruct (empties V chunks) as [He|[pre [t [rest [-> [H1 H2]]]]]].
  - rewrite <- (app_nil_r chunks) in H. rewrite (skip_empties _ _ _ _ _ cs) in H; auto. cbn in H. injection H as <- <-.
    exists chunks, []. rewrite app_nil_r. split; auto. split; auto. split; [congruence|]. rewrite concat_empties; auto.
  - apply Forall_app in Hc. destruct Hc as [Hp Hc]. inversion Hc as [|? ? Ht Hr]; subst.
    rewrite (skip_empties _ _ _ _ _ (t_names t)) in H; auto. cbn [hdf5_writes] in H.
    assert (F := one_first text norm3 round cfg _ t Ha Ho eq_refl).
    destruct (t_recs t) as [|r rs] eqn:Er; [congruence|]. destruct F as [new [E [N1 [N2 [N3 N4]]]]]. rewrite E in H.
    destruct (more text norm3 round cfg _ rest new Ha Ho Hr N1 N3) as [last [L1 [[L2 [L3 L4]]|[done [u [left [L2 [L3 [L4 L5]]]]]]]]].
    + rewrite L2 in H. injection H as <- <-. exists (pre ++ t :: rest), []. rewrite app_nil_r. split; auto. split; auto.
      split; [congruence|]. rewrite map_app, concat_app. cbn [map concat]. rewrite concat_empties; auto. rewrite Er. cbn [app].
      exists last. split; auto. split; auto. rewrite L3, N2. unfold rows_of. rewrite <- map_app. reflexivity.
    + rewrite L3 in H. injection H as <- <-. exists (pre ++ t :: done), (u :: left). rewrite L2, <- app_assoc. split; auto.
      split; [discriminate|]. split; [split; [discriminate|auto]|].
      rewrite map_app, concat_app. cbn [map concat]. rewrite concat_empties; auto. rewrite Er. cbn [app].
      exists last. split; auto. split; auto. rewrite L4, N2. unfold rows_of. rewrite <- map_app. reflexivity.
Qed.

(** The run ends well exactly if no later string is longer than all the
    strings of its column in the first table that has rows. *)
Lemma C97_when_proof : forall V (text : V -> option string) norm3 round cfg cs (pre rest : list (table V)) t,
  available cfg cs -> In "ObjID"%string (requested cfg cs) -> Forall (fun t => t_names t = cs) (pre ++ t :: rest) ->
  (forall u, In u pre -> t_recs u = []) -> t_recs t <> [] ->
  (snd (hdf5_writes text norm3 round cfg (pre ++ t :: rest) None) = Ok tt <->
   forall u r c s, In u rest -> In r (t_recs u) -> In c (requested cfg cs) -> text (shown norm3 round cfg r c) = Some s ->
     String.length s <= 1 \/
     exists r0 s0, In r0 (t_recs t) /\ text (shown norm3 round cfg r0 c) = Some s0 /\ String.length s <= String.length s0).
Proof.
  intros V text norm3 round cfg cs pre rest t Ha Ho Hc H1 H2.
  apply Forall_app in Hc. destruct Hc as [Hp Hc]. inversion Hc as [|? ? Ht Hr]; subst.
  rewrite (skip_empties _ _ _ _ _ (t_names t)); auto. cbn [hdf5_writes].
  assert (F := one_first text norm3 round cfg _ t Ha Ho eq_refl).
  destruct (t_recs t) as [|r1 rs] eqn:Er; [congruence|]. destruct F as [new [E [N1 [N2 [N3 N4]]]]]. rewrite E. rewrite <- Er in *. clear r1 rs Er H2.
  assert (W : forall c s, In c (requested cfg (t_names t)) ->
    (String.length s <= h_width new c <-> String.length s <= 1 \/
     exists r0 s0, In r0 (t_recs t) /\ text (shown norm3 round cfg r0 c) = Some s0 /\ String.length s <= String.length s0)).
  { intros c s Hin. split.
    - intros Hl. destruct (le_lt_dec (String.length s) 1) as [?|Hs]; auto. right.
      destruct (Exists_dec (fun r0 => exists s0, text (shown norm3 round cfg r0 c) = Some s0 /\ String.length s <= String.length s0) (t_recs t)) as [Hx|Hx].
      + intros r0. destruct (text (shown norm3 round cfg r0 c)) as [s0|]; [|right; intros [? [? ?]]; discriminate].
        destruct (le_lt_dec (String.length s) (String.length s0)) as [?|Hlt]; [left; eauto|right]. intros [s1 [Q1 Q2]].
        injection Q1 as <-. lia.
      + apply Exists_exists in Hx. destruct Hx as [r0 [Hr0 [s0 [Q1 Q2]]]]. exists r0, s0. auto.
      + exfalso. assert (h_width new c <= pred (String.length s)); [|lia]. apply (N4 c _ Hin). split; [lia|].
        intros r0 s0 Hr0 Q. destruct (le_lt_dec (String.length s0) (pred (String.length s))) as [?|Hlt]; auto.
        exfalso. apply Hx. apply Exists_exists. exists r0. split; auto. exists s0. split; auto. lia.
    - intros [Hl|[r0 [s0 [Q1 [Q2 Q3]]]]].
      + assert (Hw := N3 c). lia.
      + assert (Hw := proj1 (N4 c (h_width new c) Hin) (le_n _)). destruct Hw as [_ Hw]. specialize (Hw r0 s0 Q1 Q2). lia. }
  destruct (more text norm3 round cfg _ rest new Ha Ho Hr N1 N3) as [last [L1 [[L2 [L3 L4]]|[done [u [left [L2 [L3 [L4 [c [C1 C2]]]]]]]]]]].
  - rewrite L2. split; [|reflexivity]. intros _ u r c s Hu Hru Hin Hs. apply (W c s Hin).
    apply (L4 c Hin r s); auto. apply in_concat. exists (t_recs u). split; auto. apply in_map. auto.
  - rewrite L3. cbn [snd]. split; [discriminate|]. intros Hall. exfalso. apply C2. intros r s Hru Hs.
    apply (W c s C1). apply (Hall u r c s); auto. rewrite L2. apply in_or_app. right. left. auto.
Qed.

(** Without an identifier column nothing is ever written. *)
Lemma C97_columns_proof : forall V (text : V -> option string) norm3 round cfg l (t : table V) ts,
  oc_columns cfg = Columns l -> ~ In "ObjID"%string l ->
  exists e, hdf5_writes text norm3 round cfg (t :: ts) None = (None, Err e).
Proof.
  intros V text norm3 round cfg l t ts Hl Hn. cbn [hdf5_writes]. unfold PPWriteOutput_hdf5.
  destruct (prepare norm3 round cfg t) as [p|e] eqn:E; cbn [rbind]; [|eauto].
  destruct (prepare_rows norm3 round cfg t p E) as [H1 _]. unfold PPOutWriteHDF5.
  destruct (mem "ObjID" (t_names p)) eqn:Em; [|eauto]. exfalso. apply mem_In in Em. rewrite H1 in Em.
  unfold requested in Em. rewrite Hl in Em. auto.
Qed.

(** Values for the examples: numbers and strings. *)
Definition demo_row (id : string) (c : string) : nat + string := if string_dec c "ObjID" then inr id else inl 7.
Definition demo_text (v : nat + string) : option string := match v with inr s => Some s | _ => None end.
Definition demo_table (ids : list string) : table (nat + string) :=
  {| t_names := ["ObjID"; "RA_deg"; "Obj_Sun_x_LTC_km"; "Obj_Sun_y_LTC_km"; "Obj_Sun_z_LTC_km"]%string; t_recs := map demo_row ids |}.
Definition demo_cfg (l : list string) : outcfg := {| oc_columns := Columns l; oc_pos := None; oc_mag := None; oc_link_col := false |}.

(** The same rounds that are written to CSV stop a run to HDF5 when an
    identifier of a later round is longer. *)
Lemma C97_longer_refuted_proof : exists (chunks : list (table (nat + string))) cfg,
  available cfg (t_names (demo_table [])) /\
  csv_writes (fun a _ _ => a) (fun _ v => v) cfg chunks None =
    Ok (Some [Head ["ObjID"; "RA_deg"]%string; Data [inr "obj_9"%string; inl 7]; Data [inr "obj_10"%string; inl 7]]) /\
  exists h, hdf5_writes demo_text (fun a _ _ => a) (fun _ v => v) cfg chunks None = (Some h, Err ValueError) /\
    h_rows h = [[inr "obj_9"%string; inl 7]].
Proof.
  exists [demo_table ["obj_9"%string]; demo_table ["obj_10"%string]], (demo_cfg ["ObjID"; "RA_deg"]%string).
  split; [|split; [reflexivity|]].
  - split; [|split]; cbn; [tauto| |lia]. intros c [<-|[<-|[]]]; tauto.
  - eexists. split; [vm_compute; reflexivity|reflexivity].
Qed.

(** A column list that leaves out the identifier is fine for CSV but not for
    HDF5. *)
Lemma C97_columns_refuted_proof : exists (chunks : list (table (nat + string))) cfg,
  available cfg (t_names (demo_table [])) /\
  csv_writes (fun a _ _ => a) (fun _ v => v) cfg chunks None =
    Ok (Some [Head ["RA_deg"; "Obj_Sun_LTC_km"]%string; Data [inl 7; inl 7]]) /\
  hdf5_writes demo_text (fun a _ _ => a) (fun _ v => v) cfg chunks None = (None, Err KeyError).
Proof.
  exists [demo_table ["a"%string]], (demo_cfg ["RA_deg"; "Obj_Sun_LTC_km"]%string).
  split; [|split; reflexivity].
  split; [|split]; cbn; [tauto| |lia]. intros c [<-|[<-|[]]]; tauto.
Qed.
