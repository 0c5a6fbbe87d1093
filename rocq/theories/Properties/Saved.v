(** External ephemeris files and saved ephemerides. *)
From Coq Require Import String Ascii List Arith ZArith Bool.
From Verif Require Import Base.Prelude Base.Frame Model.Csv Model.Readers Spec.Readers Model.EphemerisTable
  Model.SavedEphemeris Spec.SavedEphemeris Proofs.SavedEphemeris Proofs.SavedEphemerisRun.
Import ListNotations.
Open Scope nat_scope.

(** * C85: the columns of an external ephemeris *)

Theorem C85_columns_partial : forall t names, headings (t_cols t) names -> NoDup names ->
  ((exists got, process_ephemeris t = Ok got) <->
   (forall c, In c required -> In c names) /\ (forall c, In c names -> In c required \/ In c tolerated))
  /\ (forall got, process_ephemeris t = Ok got ->
      t_cols got = required
      /\ Forall2 (fun r r' => fst r' = fst r /\ length (snd r') = length required
                   /\ same_values names (snd r) (t_cols got) (snd r')) (t_rows t) (t_rows got)).
Proof. exact C85_columns_proof. Qed.
Print Assumptions C85_columns_partial.
Theorem C85_unknown_column_partial : forall t names c, headings (t_cols t) names ->
  In c names -> ~ In c required -> ~ In c tolerated -> process_ephemeris t = Err SysExit.
Proof. exact C85_unknown_proof. Qed.
Print Assumptions C85_unknown_column_partial.

(** A file that lacks one of the columns ends in a KeyError without a message. *)
Theorem C85_missing_column_refuted : forall t names c, headings (t_cols t) names ->
  (forall d, In d names -> In d required \/ In d tolerated) ->
  In c required -> ~ In c names -> process_ephemeris t = Err KeyError.
Proof. exact C85_missing_refuted_proof. Qed.
Print Assumptions C85_missing_column_refuted.

(** A file with a blank in a heading, an extra magnitude column and the columns
    in another order. *)
Definition file_headings : list string := ("V" :: " phase_deg" :: removelast required)%string.
Example C85_case : forall row, row = map (fun c => c ++ " value")%string ("V" :: "phase_deg" :: removelast required)%string ->
  process_ephemeris {| t_cols := file_headings; t_rows := [("a"%string, row)] |}
  = Ok {| t_cols := required; t_rows := [("a", map (fun c => c ++ " value") required)]%string |}
  /\ headings file_headings ("V" :: "phase_deg" :: removelast required)%string
  /\ process_ephemeris {| t_cols := "magnitude"%string :: required; t_rows := [] |} = Err SysExit
  /\ process_ephemeris {| t_cols := removelast required; t_rows := [] |} = Err KeyError.
Proof.
  intros row ->. split; [reflexivity|]. split; [|split; reflexivity].
  change ("V" :: "phase_deg" :: removelast required)%string with (map strip file_headings). apply strip_headings.
Qed.

(** * C86: reusing a saved ephemeris *)

Theorem C86_formats_partial : forall eph_format output_format,
  In eph_format ["csv"; "whitespace"; "hdf5"]%string ->
  exists f ext, writer_format eph_format output_format = Some (f, ext) /\ reader_format eph_format = Ok f.
Proof. exact C86_formats_proof. Qed.
Print Assumptions C86_formats_partial.
Theorem C86_text_partial : forall infer sp chunks, chunks <> [] ->
  (forall r, In r (concat chunks) -> row_ok sp r) ->
  stable infer (map name_of (concat chunks)) ->
  exists lines, write_texts sp chunks None = Some lines /\ csv_open sp (-1) lines = Ok 0 /\
    forall wanted, exists got kept, read_ephemeris infer sp 0 lines wanted = Ok got
      /\ t_cols got = required
      /\ selected (fun r => In (name_of r) wanted) (concat chunks) kept
      /\ Forall2 (fun r r' => fst r' = name_of r /\ same_values generated r (t_cols got) (snd r')) kept (t_rows got).
Proof. exact C86_text_proof. Qed.
Print Assumptions C86_text_partial.
Theorem C86_round_partial : forall infer sp (rounds : list (list string * list (list string))) ids rows,
  NoDup (concat (map fst rounds)) ->
  (forall c r, In c rounds -> In r (snd c) -> In (name_of r) (fst c) /\ row_ok sp r) ->
  stable infer (concat (map fst rounds)) ->
  In (ids, rows) rounds ->
  exists lines got, write_texts sp (map snd rounds) None = Some lines /\ csv_open sp (-1) lines = Ok 0
    /\ read_ephemeris infer sp 0 lines ids = Ok got /\ t_cols got = required
    /\ Forall2 (fun r r' => fst r' = name_of r /\ same_values generated r (t_cols got) (snd r')) rows (t_rows got).
Proof. exact C86_round_proof. Qed.
Print Assumptions C86_round_partial.
Theorem C86_observations_partial : forall infer E R (saved : list (string * E)) ephem_objects
  (aux0 : nat -> option nat -> result (list (string * R))) others tables s n P generated_rows,
  exact_reader saved ephem_objects ->
  aux0 s n = Ok P -> P <> [] ->
  Forall2 exact_reader tables others ->
  NoDup (map fst P) -> (forall T, In T tables -> NoDup (map fst T)) ->
  (forall i, In i (map fst P) -> forall T, In T tables -> In i (map fst T)) ->
  stable infer (map fst generated_rows) ->
  selected (fun e => In (fst e) (map fst P)) saved generated_rows ->
  exists orbits second, read_aux_block aux0 others s n = Ok (s + length P, Some orbits)
    /\ read_block aux0 ephem_objects others s n = Ok (s + length P, Some second)
    /\ forall bright, subseq bright orbits ->
       (forall e, In e generated_rows -> exists o, In o bright /\ fst (fst o) = fst e) ->
       Forall2 (fun o1 o2 => fst o1 = fst o2
                  /\ exists orbit rest, snd o1 = Some (orbit, rest) /\ snd o2 = Some orbit :: rest)
         (ephemeris_table infer generated_rows (map (fun o => (fst (fst o), (snd (fst o), snd o))) bright)) second.
Proof. exact C86_observations_proof. Qed.
Print Assumptions C86_observations_partial.
Theorem C86_hdf5_one_round_partial : forall A (before after : list (list (string * A))) data,
  data <> [] -> (forall x, In x (before ++ after) -> x = []) ->
  exists t, write_hdf5s (before ++ data :: after) None = Ok (Some t)
    /\ forall wanted, selected (fun r => In (fst r) wanted) data (read_ephemeris_hdf5 t wanted).
Proof. exact C86_hdf5_one_proof. Qed.
Print Assumptions C86_hdf5_one_round_partial.

(** In HDF5 every round is stored with row labels from zero on, and the reader
    looks rows up by label: as soon as two rounds have observations, a second
    run finds rows of other objects in its first round and exits. *)
Theorem C86_hdf5_rounds_refuted : forall A R (rounds : list (list (string * A))) t r1 d1 r2 d2
  (aux0 : nat -> option nat -> result (list (string * R))) others s n P,
  write_hdf5s rounds None = Ok (Some t) ->
  In (r1 :: d1) rounds -> In (r2 :: d2) rounds ->
  aux0 s n = Ok P -> In (fst r1) (map fst P) -> ~ In (fst r2) (map fst P) ->
  read_block aux0 (fun ids => Ok (read_ephemeris_hdf5 t ids)) others s n = Err SysExit.
Proof. exact C86_hdf5_rounds_refuted_proof. Qed.
Print Assumptions C86_hdf5_rounds_refuted.
(** A later round with a longer object name stops the run that saves. *)
Theorem C86_hdf5_names_refuted : forall A (a b : A),
  write_hdf5s [[("S1"%string, a)]; [("S10"%string, b)]] None = Err ValueError.
Proof. exact C86_hdf5_names_refuted_proof. Qed.
Print Assumptions C86_hdf5_names_refuted.

Definition example_row (i v : string) : list string := i :: repeat v 22.
Example C86_case :
  let rounds := [(["a"; "b"], [example_row "b" "1.5"; example_row "a" "2"; example_row "b" "3"]); (["c"], [example_row "c" "4"])]%string in
  NoDup (concat (map fst rounds))
  /\ (forall c r, In c rounds -> In r (snd c) -> In (name_of r) (fst c) /\ row_ok Whitespace r)
  /\ stable pandas_ids (concat (map fst rounds))
  /\ exists lines, write_texts Whitespace (map snd rounds) None = Some lines /\ length lines = 5
  /\ read_ephemeris pandas_ids Whitespace 0 lines ["b"%string]
     = Ok {| t_cols := required; t_rows := [("b", "b" :: repeat "1.5" 21); ("b", "b" :: repeat "3" 21)]%string |}.
Proof.
  cbv zeta. split; [repeat constructor; cbn; intuition discriminate|]. split; [|split].
  - intros c r Hc Hr.
    assert (K : forall i v, (exists a, In a (list_ascii_of_string i) /\ ~ white a) -> plain Whitespace i -> plain Whitespace v ->
      row_ok Whitespace (example_row i v)).
    { intros i v Hi P1 P2. split; [reflexivity|]. split; auto. intros w [<-|Hw]; auto. apply repeat_spec in Hw. subst; auto. }
    assert (W : forall i, (negb (String.eqb i "") && forallb (fun c => negb (py_space c)) (list_ascii_of_string i)) = true ->
      plain Whitespace i /\ exists a, In a (list_ascii_of_string i) /\ ~ white a).
    { intros i H. apply andb_true_iff in H as [H1 H2]. rewrite forallb_forall in H2.
      assert (H3 : forall c, In c (list_ascii_of_string i) -> ~ white c).
      { intros a Ha. apply H2, negb_true_iff in Ha. apply py_space_not_white; auto. }
      split; [split; auto; intros ->; discriminate|]. destruct i as [|a i]; [discriminate|].
      exists a. split; [left; auto|]. apply H3; left; auto. }
    destruct Hc as [<-|[<-|[]]]; [destruct Hr as [<-|[<-|[<-|[]]]]|destruct Hr as [<-|[]]];
      (split; [cbn; auto|apply K; apply W; reflexivity]).
  - intros l Hl. unfold pandas_ids. destruct l as [|x l]; [reflexivity|]. cbn [forallb].
    assert (L : looks_int x = false).
    { destruct (Hl x) as [<-|[<-|[<-|[]]]]; [left; auto| | |]; reflexivity. }
    rewrite L. reflexivity.
  - eexists. split; [reflexivity|]. split; reflexivity.
Qed.
