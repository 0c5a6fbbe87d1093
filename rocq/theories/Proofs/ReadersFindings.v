(** Witnesses: concrete inputs on which the full statements fail. *)
From Coq Require Import String List Arith ZArith QArith Bool Lia Sorting.Permutation.
From Verif Require Import Base.Prelude Base.Num Base.Frame Model.Csv Model.Readers Model.OrbitAux
  Spec.Readers Spec.OrbitAux Proofs.Csv Proofs.Readers Proofs.OrbitAux.
Import ListNotations.
Open Scope nat_scope.
Open Scope string_scope.

Definition blank_data : list string := ["a,1"; ""; "b,2"; "c,3"; "d,4"].
Definition blank_file : list string := "ObjID,H" :: blank_data.

Lemma blank_file_header : header_at Comma (-1) blank_file [] "ObjID,H" blank_data.
Proof.
  constructor; cbn; auto; try lia.
  intros _. split; auto. intros l [].
Qed.

Lemma C18_blank_refuted_proof :
  exists lines pre hd data solid_lines all blocks,
    header_at Comma (-1) lines pre hd data /\
    selected solid data solid_lines /\ file_rows Comma hd solid_lines all /\ length all = 2 + 2 /\
    stable pandas_ids (ids_of all) /\
    consecutive (csv_source pandas_ids Comma (length pre) lines Ok) false None 0 [2; 2] = Ok blocks /\
    (exists r, In r all /\ ~ In r (concat blocks)) /\ ~ NoDup (concat blocks) /\ NoDup all.
Proof.
  exists blank_file, [], "ObjID,H", blank_data, ["a,1"; "b,2"; "c,3"; "d,4"].
  exists [("a", ["a"; "1"]); ("b", ["b"; "2"]); ("c", ["c"; "3"]); ("d", ["d"; "4"])].
  exists [[("a", ["a"; "1"]); ("b", ["b"; "2"])]; [("b", ["b"; "2"]); ("c", ["c"; "3"])]].
  split; [exact blank_file_header|].
  split. { repeat first [apply sel_nil | apply sel_keep; [reflexivity|] | apply sel_drop; [discriminate|]]. }
  split. { unfold file_rows. repeat (apply Forall2_cons; [split; [reflexivity|exists 0; split; [reflexivity|split; [intros j Hj; lia|reflexivity]]]|]); apply Forall2_nil. }
  split; [reflexivity|].
  split. { apply stable_pandas. cbn. intros x [<-|[<-|[<-|[<-|[]]]]] H; discriminate. }
  split; [reflexivity|].
  split. { exists ("d", ["d"; "4"]). split; [cbn; auto|]. cbn. intros [H|[H|[H|[H|[]]]]]; discriminate. }
  split.
  - intro H. cbn in H. inversion H; subst. inversion H3; subst. apply H4. left; reflexivity.
  - repeat (constructor; [cbn; intuition discriminate|]). constructor.
Qed.

Definition zeros_data : list string := ["007,1"; "K8,2"].
Definition zeros_file : list string := "ObjID,H" :: zeros_data.

Lemma C16_ids_refuted_proof :
  exists lines pre hd data all whole blocks,
    header_at Comma (-1) lines pre hd data /\ (forall l, In l data -> solid l) /\ file_rows Comma hd data all /\
    csv_read_rows pandas_ids Comma (length pre) lines 0 None = Ok whole /\ t_rows whole = all /\
    consecutive (csv_source pandas_ids Comma (length pre) lines Ok) false None 0 [1; 1] = Ok blocks /\
    ids_of (concat blocks) <> ids_of all /\
    (* the object of the first block cannot be found again under the identifier it was given *)
    csv_read_objects pandas_ids Comma (length pre) lines (ids_of (firstn 1 (concat blocks)))
      = Ok {| t_cols := t_cols whole; t_rows := [] |}.
Proof.
  exists zeros_file, [], "ObjID,H", zeros_data, [("007", ["007"; "1"]); ("K8", ["K8"; "2"])].
  exists {| t_cols := ["ObjID"; "H"]; t_rows := [("007", ["007"; "1"]); ("K8", ["K8"; "2"])] |}.
  exists [[("7", ["007"; "1"])]; [("K8", ["K8"; "2"])]].
  split. { constructor; cbn; auto; try lia. intros _. split; auto. intros l []. }
  split. { intros l [<-|[<-|[]]]; reflexivity. }
  split. { unfold file_rows. repeat (apply Forall2_cons; [split; [reflexivity|exists 0; split; [reflexivity|split; [intros j Hj; lia|reflexivity]]]|]); apply Forall2_nil. }
  split; [reflexivity|]. split; [reflexivity|]. split; [reflexivity|]. split; [discriminate|reflexivity].
Qed.

Lemma C17_hdf_refuted_proof :
  exists (f : frame (string * nat)) wanted,
    ~ selected (fun r => In (fst (snd r)) wanted) f (hdf_read_objects f wanted).
Proof.
  exists [(0, ("a", 1)); (0, ("b", 2))], ["a"]. intro H.
  apply (selected_in _ _ _ _ (0, ("b", 2))) in H.
  assert (K : In (fst (snd (0, ("b", 2)))) ["a"]) by (apply H; cbn; auto).
  cbn in K. destruct K as [K|[]]; discriminate.
Qed.

Lemma C19_duplicates_refuted_proof :
  exists (P T : list (string * nat)) (EPH : list (string * nat)) js,
    check_aux_object_ids [ids_of P; ids_of T] = Ok tt /\
    read_block (E := nat) (fun _ _ => Ok P)
      (fun w => Ok (filter (fun r => existsb (String.eqb (fst r)) w) EPH))
      [fun w => Ok (filter (fun r => existsb (String.eqb (fst r)) w) T)] 0 None = Ok (length P, Some js) /\
    length js > length EPH.
Proof.
  exists [("a", 1); ("a", 2)], [("a", 3); ("a", 4)], [("a", 9)].
  eexists. split; [reflexivity|]. split; [reflexivity|]. cbn. lia.
Qed.

(** Orbit tables. *)
Definition kep_cols : list string :=
  ["ObjID"; "a"; "e"; "inc"; "node"; "argPeri"; "ma"; "epochMJD_TDB"; "FORMAT"].
Definition vals (l : list (string * num)) (c : string) : num :=
  match find (fun p => String.eqb (fst p) c) l with Some p => snd p | None => Fin 0 end.
Definition kep_row (f : string) (a e : num) : orow :=
  {| o_id := "x"; o_fmt := f; o_val := vals [("a", a); ("e", e)] |}.

Lemma C20_nan_refuted_proof : exists t r, orbit_process t = Ok t /\ In r (o_rows t) /\
  o_fmt r = "KEP" /\ ~ (num_le (Fin 0) (o_val r "e") /\ num_lt (o_val r "e") (Fin 1)).
Proof.
  exists {| o_cols := kep_cols; o_rows := [kep_row "KEP" (Fin 1) NaN] |}, (kep_row "KEP" (Fin 1) NaN).
  split; [reflexivity|]. split; [left; auto|]. split; [reflexivity|].
  intros [_ H]. cbn in H. inversion H.
Qed.

Lemma C20_mixed_refuted_proof : exists cols b1 b2,
  let t l := {| o_cols := cols; o_rows := l |} in
  orbit_process (t b1) = Ok (t b1) /\ orbit_process (t b2) = Ok (t b2) /\
  orbit_process (t (b1 ++ b2)%list) = Err SysExit.
Proof.
  exists kep_cols, [kep_row "KEP" (Fin 1) (Fin 0)], [kep_row "BKEP" (Fin 1) (Fin 0)].
  cbn zeta. repeat split.
Qed.

(** A cached reader after a failed validation. *)
Lemma C57_refuted_proof : exists (src : source otable) raw,
  s_rows src 0 None = Ok raw /\ s_process src raw = Err SysExit /\
  answers src true None [CRows 0 None; CRows 0 None] = [Err SysExit; Ok raw].
Proof.
  set (raw := {| o_cols := kep_cols; o_rows := [kep_row "KEP" (Fin 1) (Fin 2)] |}).
  exists {| s_rows := fun _ _ => Ok raw; s_objects := fun _ => Ok raw; s_process := orbit_process;
            s_iloc := fun _ _ t => t; s_isin := fun _ t => t |}, raw.
  repeat split.
Qed.

Lemma C57_uncached_proof : forall T (src : source T) cs i t,
  nth_error (answers src false None cs) i = Some (Ok t) ->
  exists raw, s_process src raw = Ok t.
Proof.
  intros T src cs; induction cs as [|c cs IH]; intros [|i] t H; cbn in H; try discriminate.
  - injection H as H. destruct c; cbn in H; unfold rbind in H.
    + destruct (s_rows src start size) as [raw|]; [exists raw; auto|discriminate].
    + destruct (s_objects src ids) as [raw|]; [exists raw; auto|discriminate].
  - destruct c; cbn in H; eapply IH; eauto.
Qed.

Lemma C57_cached_proof : forall T (src : source T) raw t cs,
  s_rows src 0 None = Ok raw -> s_process src raw = Ok t ->
  answers src true None cs = map (fun c => match c with
     | CRows s n => Ok (s_iloc src s n t) | CObjects ids => Ok (s_isin src ids t) end) cs.
Proof.
  intros T src raw t cs Hr Hp.
  assert (K : forall cs st, st = None \/ st = Some t ->
    answers src true st cs = map (fun c => match c with
     | CRows s n => Ok (s_iloc src s n t) | CObjects ids => Ok (s_isin src ids t) end) cs).
  { clear cs. induction cs as [|c cs IH]; intros st Hst; auto. cbn [answers map].
    assert (F : fill_cache src st = (Ok t, Some t)).
    { destruct Hst as [-> | ->]; cbn; auto. rewrite Hr, Hp. auto. }
    destruct c; cbn [answer]; unfold read_rows, read_objects; rewrite F; cbn [fst snd rmap]; f_equal; auto. }
  apply K; auto.
Qed.

(** An object that was asked for comes back under a name that was not: the
    type of the column is inferred again from the rows that are read. *)
Lemma C17_csv_names_refuted_proof :
  exists lines pre hd data all whole wanted t,
    header_at Comma (-1) lines pre hd data /\ (forall l, In l lines -> solid l) /\ file_rows Comma hd data all /\
    csv_read_rows pandas_ids Comma (length pre) lines 0 None = Ok whole /\ t_rows whole = all /\ incl wanted (ids_of all) /\
    csv_read_objects pandas_ids Comma (length pre) lines wanted = Ok t /\
    exists r, In r (t_rows t) /\ ~ In (fst r) wanted.
Proof.
  exists zeros_file, [], "ObjID,H", zeros_data, [("007", ["007"; "1"]); ("K8", ["K8"; "2"])].
  exists {| t_cols := ["ObjID"; "H"]; t_rows := [("007", ["007"; "1"]); ("K8", ["K8"; "2"])] |}, ["007"].
  exists {| t_cols := ["ObjID"; "H"]; t_rows := [("7", ["007"; "1"])] |}.
  split. { constructor; cbn; auto; try lia. intros _. split; auto. intros l []. }
  split. { intros l [<-|[<-|[<-|[]]]]; reflexivity. }
  split. { unfold file_rows. repeat (apply Forall2_cons; [split; [reflexivity|exists 0; split; [reflexivity|split; [intros j Hj; lia|reflexivity]]]|]); apply Forall2_nil. }
  split; [reflexivity|]. split; [reflexivity|]. split. { intros x [<-|[]]. left. reflexivity. }
  split; [reflexivity|]. exists ("7", ["007"; "1"]). split; [left; reflexivity|]. cbn. intros [H|[]]; discriminate.
Qed.

(** One blank line, and the rows are read but no object can be. *)
Lemma C17_csv_blank_refuted_proof :
  exists lines whole i,
    csv_read_rows pandas_ids Comma 0 lines 0 None = Ok whole /\ In i (ids_of (t_rows whole)) /\
    csv_read_objects pandas_ids Comma 0 lines [i] = Err SysExit.
Proof.
  exists ["ObjID,H"; "a,1"; ""; "b,2"], {| t_cols := ["ObjID"; "H"]; t_rows := [("a", ["a"; "1"]); ("b", ["b"; "2"])] |}, "b".
  split; [reflexivity|]. split; [right; left; reflexivity|reflexivity].
Qed.
