From Coq Require Import String Ascii List Arith ZArith QArith Bool Lia Sorting.Permutation.
From Verif Require Import Base.Prelude Base.Num Base.Frame Model.Csv Model.Readers Model.OrbitAux
  Spec.Readers Spec.OrbitAux Proofs.Csv Proofs.Identifiers Proofs.Readers Proofs.Combined Proofs.OrbitAux Proofs.ReadersFindings.
Import ListNotations.
Open Scope nat_scope.

(** * C16: consecutive block reads *)

Theorem C16_block :
  forall infer sp header lines pre hd data ids all cached start size,
  header_at sp header lines pre hd data ->
  (forall l, In l data -> solid l) ->
  stable infer ids -> (forall l i, In l data -> id_cell sp hd l i -> In i ids) ->
  file_rows sp hd data all ->
  exists t, fst (read_rows (csv_source infer sp (length pre) lines Ok) cached None start size) = Ok t
    /\ t_cols t = split sp hd
    /\ forall i, nth_error (t_rows t) i =
         match size with
         | Some n => if i <? n then nth_error all (start + i) else None
         | None => nth_error all (start + i) end.
Proof. exact C16_block_proof. Qed.
Print Assumptions C16_block.

Theorem C16_partition :
  forall infer sp header lines pre hd data ids cached sizes,
  header_at sp header lines pre hd data ->
  (forall l, In l data -> solid l) ->
  stable infer ids -> (forall l i, In l data -> id_cell sp hd l i -> In i ids) ->
  exists all blocks, file_rows sp hd data all
    /\ consecutive (csv_source infer sp (length pre) lines Ok) cached None 0 sizes = Ok blocks
    /\ concat blocks = firstn (list_sum sizes) all.
Proof. exact C16_partition_proof. Qed.
Print Assumptions C16_partition.

Theorem C16_cache_transparent :
  forall infer sp header lines pre hd data ids cs,
  header_at sp header lines pre hd data ->
  (forall l, In l lines -> solid l) ->
  stable infer ids -> (forall l i, In l data -> id_cell sp hd l i -> In i ids) ->
  answers (csv_source infer sp (length pre) lines Ok) true None cs
  = answers (csv_source infer sp (length pre) lines Ok) false None cs.
Proof. exact C16_cache_proof. Qed.
Print Assumptions C16_cache_transparent.

Theorem C16_hdf5_block : forall A (f : frame (string * A)) start size i,
  nth_error (hdf_read_rows f start size) i =
  match size with
  | Some n => if i <? n then nth_error f (start + i) else None
  | None => nth_error f (start + i) end.
Proof. exact C16_hdf_proof. Qed.
Print Assumptions C16_hdf5_block.

(** A file with a comment line before its header and three objects. *)
Definition demo_data : list string := ["obj1,17"; "obj2,18"; "obj3,19"]%string.
Definition demo_file : list string := ("# made by hand" :: "ObjID,H" :: demo_data)%string.

Example C16_case :
  csv_open Comma (-1) demo_file = Ok 1 /\
  header_at Comma (-1) demo_file ["# made by hand"]%string "ObjID,H" demo_data /\
  (forall l, In l demo_file -> solid l) /\
  stable pandas_ids ["obj1"; "obj2"; "obj3"]%string /\
  consecutive (csv_source pandas_ids Comma 1 demo_file Ok) false None 0 [2; 2]
    = Ok [[("obj1", ["obj1"; "17"]); ("obj2", ["obj2"; "18"])]; [("obj3", ["obj3"; "19"])]]%string.
Proof.
  split; [reflexivity|]. split.
  - constructor; cbn; auto; try lia.
    + intros _. split; auto. intros l [<-|[]]; auto.
  - split; [intros l [<-|[<-|[<-|[<-|[<-|[]]]]]]; reflexivity|].
    split; [|reflexivity]. apply stable_pandas. intros x [<-|[<-|[<-|[]]]] H; discriminate.
Qed.

(** Identifiers made of digits: type inference looks at the rows of one read
    only, so the identifiers depend on the block size. *)
Theorem C16_identifiers_refuted :
  exists lines pre hd data all whole blocks,
    header_at Comma (-1) lines pre hd data /\ (forall l, In l data -> solid l) /\ file_rows Comma hd data all /\
    csv_read_rows pandas_ids Comma (length pre) lines 0 None = Ok whole /\ t_rows whole = all /\
    consecutive (csv_source pandas_ids Comma (length pre) lines Ok) false None 0 [1; 1] = Ok blocks /\
    ids_of (concat blocks) <> ids_of all /\
    (* the object of the first block cannot be found again under the identifier it was given *)
    csv_read_objects pandas_ids Comma (length pre) lines (ids_of (firstn 1 (concat blocks)))
      = Ok {| t_cols := t_cols whole; t_rows := [] |}.
Proof. exact C16_ids_refuted_proof. Qed.
Print Assumptions C16_identifiers_refuted.

(** * C17: reading by object *)

Theorem C17_csv_partial :
  forall infer sp header lines pre hd data ids all cached wanted,
  header_at sp header lines pre hd data ->
  (forall l, In l lines -> solid l) ->
  stable infer ids -> (forall l i, In l data -> id_cell sp hd l i -> In i ids) ->
  file_rows sp hd data all ->
  exists t, fst (read_objects (csv_source infer sp (length pre) lines Ok) cached None wanted) = Ok t
    /\ t_cols t = split sp hd
    /\ selected (fun r => In (fst r) wanted) all (t_rows t).
Proof. exact C17_csv_proof. Qed.
Print Assumptions C17_csv_partial.

Theorem C17_csv_never_half_read_partial :
  forall infer sp header lines pre hd data ids wanted t,
  header_at sp header lines pre hd data ->
  (forall l, In l data -> ~ In "ObjID"%string (split sp l)) ->
  stable infer ids -> (forall l i, In l data -> id_cell sp hd l i -> In i ids) ->
  csv_read_objects infer sp (length pre) lines wanted = Ok t ->
  exists all, file_rows sp hd data all /\ selected (fun r => In (fst r) wanted) all (t_rows t).
Proof. exact C17_never_half_read_proof. Qed.
Print Assumptions C17_csv_never_half_read_partial.

Theorem C17_hdf5_partial : forall A (f : frame (string * A)) wanted,
  NoDup (labels f) ->
  selected (fun r => In (fst (snd r)) wanted) f (hdf_read_objects f wanted).
Proof. exact C17_hdf_proof. Qed.
Print Assumptions C17_hdf5_partial.

(** HDF5 tables whose index repeats a label return rows of other objects. *)
Theorem C17_hdf5_repeated_index_refuted :
  exists (f : frame (string * nat)) wanted,
    ~ selected (fun r => In (fst (snd r)) wanted) f (hdf_read_objects f wanted).
Proof. exact C17_hdf_refuted_proof. Qed.
Print Assumptions C17_hdf5_repeated_index_refuted.

(** An object that was asked for comes back under a name that was not. *)
Theorem C17_csv_names_refuted :
  exists lines pre hd data all whole wanted t,
    header_at Comma (-1) lines pre hd data /\ (forall l, In l lines -> solid l) /\ file_rows Comma hd data all /\
    csv_read_rows pandas_ids Comma (length pre) lines 0 None = Ok whole /\ t_rows whole = all /\ incl wanted (ids_of all) /\
    csv_read_objects pandas_ids Comma (length pre) lines wanted = Ok t /\
    exists r, In r (t_rows t) /\ ~ In (fst r) wanted.
Proof. exact C17_csv_names_refuted_proof. Qed.
Print Assumptions C17_csv_names_refuted.

(** With a blank line in the file no object can be read. *)
Theorem C17_csv_blank_refuted :
  exists lines whole i,
    csv_read_rows pandas_ids Comma 0 lines 0 None = Ok whole /\ In i (ids_of (t_rows whole)) /\
    csv_read_objects pandas_ids Comma 0 lines [i] = Err SysExit.
Proof. exact C17_csv_blank_refuted_proof. Qed.
Print Assumptions C17_csv_blank_refuted.

Example C17_case :
  csv_read_objects pandas_ids Comma 1 ("# x" :: "ObjID,H" :: ["b,1"; "a,2"; "b,3"])%string ["b"; "z"]%string
  = Ok {| t_cols := ["ObjID"; "H"]; t_rows := [("b", ["b"; "1"]); ("b", ["b"; "3"])] |}%string
  /\ hdf_read_objects [(0, ("a", 1)); (1, ("b", 2)); (2, ("a", 3))]%string ["a"%string]
     = [(0, ("a", 1)); (2, ("a", 3))]%string.
Proof. split; reflexivity. Qed.

(** * C18: headers and blank lines *)

Theorem C18_header_partial : forall sp header lines h,
  csv_open sp header lines = Ok h ->
  exists pre hd data, header_at sp header lines pre hd data /\ h = length pre.
Proof. exact C18_header_proof. Qed.
Print Assumptions C18_header_partial.

Theorem C18_all_rows_read_partial :
  forall infer sp header lines pre hd data ids,
  header_at sp header lines pre hd data ->
  stable infer ids -> (forall l i, In l data -> id_cell sp hd l i -> In i ids) ->
  exists solid_lines all, selected solid data solid_lines
    /\ file_rows sp hd solid_lines all
    /\ csv_read_rows infer sp (length pre) lines 0 None = Ok {| t_cols := split sp hd; t_rows := all |}.
Proof. exact C18_all_rows_proof. Qed.
Print Assumptions C18_all_rows_read_partial.

Theorem C18_blank_line_stops_read_by_object_partial :
  forall infer sp header lines pre hd data ids wanted l,
  header_at sp header lines pre hd data ->
  (forall l, In l pre -> solid l) ->
  stable infer ids -> (forall l i, In l data -> id_cell sp hd l i -> In i ids) ->
  In l data -> ~ solid l ->
  csv_read_objects infer sp (length pre) lines wanted = Err SysExit.
Proof. exact C18_blank_by_object_proof. Qed.
Print Assumptions C18_blank_line_stops_read_by_object_partial.

(** One blank line in the orbit file: four objects, two rounds of two rows, the
    second object is read twice and the last one never. *)
Theorem C18_blank_line_misaligns_blocks_refuted :
  exists lines pre hd data solid_lines all blocks,
    header_at Comma (-1) lines pre hd data /\
    selected solid data solid_lines /\ file_rows Comma hd solid_lines all /\ length all = 2 + 2 /\
    stable pandas_ids (ids_of all) /\
    consecutive (csv_source pandas_ids Comma (length pre) lines Ok) false None 0 [2; 2] = Ok blocks /\
    (exists r, In r all /\ ~ In r (concat blocks)) /\ ~ NoDup (concat blocks) /\ NoDup all.
Proof. exact C18_blank_refuted_proof. Qed.
Print Assumptions C18_blank_line_misaligns_blocks_refuted.

Example C18_case :
  header_at Comma (-1) blank_file [] "ObjID,H" blank_data /\
  csv_read_objects pandas_ids Comma 0 blank_file ["a"%string] = Err SysExit /\
  csv_open Comma (-1) ["a,b"; "ObjID"]%string = Err SysExit /\
  csv_open Comma (-1) ["x"; "ObjID,H"]%string = Ok 1.
Proof. split; [exact blank_file_header|]. repeat split. Qed.

(** * C19: auxiliary files *)

Theorem C19_same_objects : forall tables,
  (check_aux_object_ids tables = Ok tt <->
   2 <= length tables /\ forall a b, In a tables -> In b tables -> Permutation a b)
  /\ (forall e, check_aux_object_ids tables = Err e -> e = SysExit).
Proof. exact C19_check_proof. Qed.
Print Assumptions C19_same_objects.

Theorem C19_joined_rows_own_data : forall E R (EPH : list (string * E)) ephem_objects (aux0 : nat -> option nat -> result (list (string * R))) others tables s n P next js,
  exact_reader EPH ephem_objects ->
  aux0 s n = Ok P ->
  Forall2 exact_reader tables others ->
  read_block aux0 ephem_objects others s n = Ok (next, Some js) ->
  (forall j, In j js -> In (fst j) EPH /\ In (fst (fst j)) (map fst P)
      /\ own_data (fst (fst j)) (P :: tables) (snd j))
  /\ (forall e, In e EPH -> In (fst e) (map fst P) -> exists j, In j js /\ fst j = e).
Proof. exact C19_sound_proof. Qed.
Print Assumptions C19_joined_rows_own_data.

Theorem C19_each_row_once : forall E R (EPH : list (string * E)) ephem_objects (aux0 : nat -> option nat -> result (list (string * R))) others tables s n P,
  exact_reader EPH ephem_objects ->
  aux0 s n = Ok P -> P <> [] ->
  Forall2 exact_reader tables others ->
  NoDup (map fst P) -> (forall T, In T tables -> NoDup (map fst T)) ->
  (forall i, In i (map fst P) -> forall T, In T tables -> In i (map fst T)) ->
  exists js eph, read_block aux0 ephem_objects others s n = Ok (s + length P, Some js)
    /\ selected (fun e => In (fst e) (map fst P)) EPH eph
    /\ Forall2 (fun e j => fst j = e /\ own_data (fst e) (P :: tables) (snd j)) eph js.
Proof. exact C19_exact_proof. Qed.
Print Assumptions C19_each_row_once.

Theorem C19_aux_rows : forall R (aux0 : nat -> option nat -> result (list (string * R))) others tables s n P,
  aux0 s n = Ok P -> P <> [] ->
  Forall2 exact_reader tables others ->
  (forall T, In T tables -> NoDup (map fst T)) ->
  (forall i, In i (map fst P) -> forall T, In T tables -> In i (map fst T)) ->
  exists js, read_aux_block aux0 others s n = Ok (s + length P, Some js)
    /\ Forall2 (fun r j => fst j = r /\ own_data (fst r) tables (snd j)) P js.
Proof. exact C19_aux_exact_proof. Qed.
Print Assumptions C19_aux_rows.

Example C19_case :
  check_aux_object_ids [["a"; "b"]; ["b"; "a"]]%string = Ok tt /\
  check_aux_object_ids [["a"; "b"]; ["b"; "b"]]%string = Err SysExit /\
  read_block (E := nat) (fun _ _ => Ok [("a", 1); ("b", 2)]%string)
    (fun w => Ok (filter (fun r => existsb (String.eqb (fst r)) w) [("b", 7); ("c", 8); ("b", 9)]%string))
    [fun w => Ok (filter (fun r => existsb (String.eqb (fst r)) w) [("b", 5); ("a", 6)]%string)] 0 None
  = Ok (2, Some [(("b", 7), [Some 2; Some 5]); (("b", 9), [Some 2; Some 5])]%string).
Proof. repeat split. Qed.

(** Repeated identifiers pass the check and multiply the joined rows. *)
Theorem C19_repeated_identifiers_refuted :
  exists (P T : list (string * nat)) (EPH : list (string * nat)) js,
    check_aux_object_ids [ids_of P; ids_of T] = Ok tt /\
    read_block (E := nat) (fun _ _ => Ok P)
      (fun w => Ok (filter (fun r => existsb (String.eqb (fst r)) w) EPH))
      [fun w => Ok (filter (fun r => existsb (String.eqb (fst r)) w) T)] 0 None = Ok (length P, Some js) /\
    length js > length EPH.
Proof. exact C19_duplicates_refuted_proof. Qed.
Print Assumptions C19_repeated_identifiers_refuted.

(** * C20: orbits *)

Theorem C20_accepted_iff : forall t t',
  (orbit_process t = Ok t' <->
   t' = t /\ 2 <= length (o_cols t) /\ In "ObjID"%string (o_cols t) /\ (o_rows t = [] \/ admissible t))
  /\ (forall e, orbit_process t = Err e -> e = SysExit).
Proof. exact C20_accept_proof. Qed.
Print Assumptions C20_accepted_iff.

Theorem C20_physical : forall t r,
  orbit_process t = Ok t -> In r (o_rows t) -> (forall c, o_val r c <> NaN) ->
  exists fam, format_family (o_fmt r) fam /\ (forall c, In c (required fam) -> In c (o_cols t)) /\
  match fam with
  | Keplerian => num_le (Fin 0) (o_val r "e") /\ num_lt (o_val r "e") (Fin 1) /\ num_le (Fin 0) (o_val r "a")
  | Cometary => num_le (Fin 0) (o_val r "q") /\ num_le (Fin 0) (o_val r "e")
  | Cartesian => True
  end.
Proof. exact C20_physical_proof. Qed.
Print Assumptions C20_physical.

Theorem C20_blocks_of_accepted_table : forall t sub,
  orbit_process t = Ok t -> (forall r, In r sub -> In r (o_rows t)) ->
  let b := {| o_cols := o_cols t; o_rows := sub |} in orbit_process b = Ok b.
Proof. exact C20_blocks_proof. Qed.
Print Assumptions C20_blocks_of_accepted_table.

Example C20_case :
  orbit_process {| o_cols := kep_cols; o_rows := [kep_row "KEP" (Fin 2) (Fin (1#2)); kep_row "KEP" (Fin 3) (Fin 0)] |}
  = Ok {| o_cols := kep_cols; o_rows := [kep_row "KEP" (Fin 2) (Fin (1#2)); kep_row "KEP" (Fin 3) (Fin 0)] |}
  /\ orbit_process {| o_cols := kep_cols; o_rows := [kep_row "KEP" (Fin 2) (Fin 1)] |} = Err SysExit
  /\ orbit_process {| o_cols := kep_cols; o_rows := [kep_row "KEP" (Fin (-2)) (Fin 0)] |} = Err SysExit
  /\ orbit_process {| o_cols := kep_cols; o_rows := [kep_row "COM" (Fin 2) (Fin 0)] |} = Err SysExit.
Proof. repeat split. Qed.

(** A missing eccentricity is accepted. *)
Theorem C20_missing_element_refuted : exists t r, orbit_process t = Ok t /\ In r (o_rows t) /\
  o_fmt r = "KEP" /\ ~ (num_le (Fin 0) (o_val r "e") /\ num_lt (o_val r "e") (Fin 1)).
Proof. exact C20_nan_refuted_proof. Qed.
Print Assumptions C20_missing_element_refuted.

(** Acceptance depends on the chunk size when a file mixes KEP and BKEP. *)
Theorem C20_mixed_formats_refuted : exists cols b1 b2,
  let t l := {| o_cols := cols; o_rows := l |} in
  orbit_process (t b1) = Ok (t b1) /\ orbit_process (t b2) = Ok (t b2) /\
  orbit_process (t (b1 ++ b2)%list) = Err SysExit.
Proof. exact C20_mixed_refuted_proof. Qed.
Print Assumptions C20_mixed_formats_refuted.

(** * C57: cached readers *)

Theorem C57_uncached_validated_partial : forall T (src : source T) cs i t,
  nth_error (answers src false None cs) i = Some (Ok t) ->
  exists raw, s_process src raw = Ok t.
Proof. exact C57_uncached_proof. Qed.
Print Assumptions C57_uncached_validated_partial.

Theorem C57_cached_answers_partial : forall T (src : source T) raw t cs,
  s_rows src 0 None = Ok raw -> s_process src raw = Ok t ->
  answers src true None cs = map (fun c => match c with
     | CRows s n => Ok (s_iloc src s n t) | CObjects ids => Ok (s_isin src ids t) end) cs.
Proof. exact C57_cached_proof. Qed.
Print Assumptions C57_cached_answers_partial.

Theorem C57_cached_after_failure_refuted : exists (src : source otable) raw,
  s_rows src 0 None = Ok raw /\ s_process src raw = Err SysExit /\
  answers src true None [CRows 0 None; CRows 0 None] = [Err SysExit; Ok raw].
Proof. exact C57_refuted_proof. Qed.
Print Assumptions C57_cached_after_failure_refuted.

Example C57_case :
  let t := {| o_cols := kep_cols; o_rows := [kep_row "KEP" (Fin 2) (Fin (1#2))] |} in
  let src := {| s_rows := fun _ _ => Ok t; s_objects := fun _ => Ok t; s_process := orbit_process;
                s_iloc := fun _ _ t => t; s_isin := fun _ t => t |} in
  answers src true None [CObjects []; CRows 0 (Some 1)] = [Ok t; Ok t].
Proof. reflexivity. Qed.

(** * C119: what becomes of identifiers *)

Theorem C119_integers : forall ids,
  (forall s, In s ids -> exists z, integer_text s z /\ (- 2 ^ 63 <= z < 2 ^ 63)%Z) \/
  (forall s, In s ids -> exists z, integer_text s z /\ prefix "-" s = false /\ (z < 2 ^ 64)%Z) ->
  Forall2 (fun s t => exists z, integer_text s z /\ decimal t z) ids (pandas_ids ids).
Proof. exact C119_integers_proof. Qed.
Print Assumptions C119_integers.
Theorem C119_text : forall ids,
  (exists s, In s ids /\ forall z, ~ integer_text s z) \/
  (exists s z, In s ids /\ integer_text s z /\ (z < - 2 ^ 63 \/ 2 ^ 64 <= z)%Z) \/
  (exists s z t, In s ids /\ integer_text s z /\ (2 ^ 63 <= z)%Z /\ In t ids /\ prefix "-" t = true) ->
  pandas_ids ids = ids.
Proof. exact C119_text_proof. Qed.
Print Assumptions C119_text.
Theorem C119_usual : forall ids, (forall s z, In s ids -> integer_text s z -> decimal s z) ->
  stable pandas_ids ids.
Proof. exact C119_usual_proof. Qed.
Print Assumptions C119_usual.
Theorem C119_merged : forall ids n m s t z,
  (forall x, In x ids -> exists k, integer_text x k /\ (- 2 ^ 63 <= k < 2 ^ 63)%Z) ->
  nth_error ids n = Some s -> nth_error ids m = Some t -> integer_text s z -> integer_text t z ->
  exists x, nth_error (pandas_ids ids) n = Some x /\ nth_error (pandas_ids ids) m = Some x.
Proof. exact C119_merged_proof. Qed.
Print Assumptions C119_merged.
Theorem C119_one : forall s t z, decimal s z -> decimal t z -> s = t.
Proof. exact C119_one_proof. Qed.
Print Assumptions C119_one.

(** A whole column of integers is printed anew; one other name keeps it. *)
Example C119_case :
  integer_text "+09" 9 /\ decimal "9" 9 /\ integer_text "-000" 0 /\
  pandas_ids ["+09"; "-000"; "-0120"]%string = ["9"; "0"; "-120"]%string /\
  pandas_ids ["+09"; "-000"; "2001 XY"]%string = ["+09"; "-000"; "2001 XY"]%string /\
  pandas_ids ["09223372036854775808"; "01"]%string = ["9223372036854775808"; "1"]%string /\
  pandas_ids ["09223372036854775808"; "-1"]%string = ["09223372036854775808"; "-1"]%string /\
  stable pandas_ids ["10"; "-7"; "S1"]%string.
Proof.
  split; [exists "09"%string, 9%Z; repeat split; auto; discriminate|].
  split; [split; [exists "9"%string, 9%Z; repeat split; auto; discriminate|right; exists "9"%char, ""%string, 9%Z; repeat split; auto; discriminate]|].
  split; [exists "000"%string, 0%Z; repeat split; auto; discriminate|].
  do 4 (split; [vm_compute; reflexivity|]).
  apply C119_usual_proof. intros s z [<-|[<-|[<-|[]]]] (ds & v & Hn & Hv & [[[<-|E] ->]|[E ->]]);
    try discriminate E; try discriminate Hv.
  - split; [exists "10"%string, v; repeat split; auto|]. right. exists "1"%char, "0"%string, 1%Z. repeat split; auto; discriminate.
  - injection E as <-. split; [exists "7"%string, v; repeat split; auto; right; auto|]. right. exists "7"%char, ""%string, 7%Z. repeat split; auto; discriminate.
Qed.
