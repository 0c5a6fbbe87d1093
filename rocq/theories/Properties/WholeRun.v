(** * C121: the result file of a run without random decisions, described outright *)
From Coq Require Import String List Arith ZArith QArith Qabs Bool Lia Sorting.Permutation.
From Verif Require Import Base.Prelude Base.Num Base.Frame Base.Sort Model.Filters Model.Linking Model.Readers Model.Driver Model.Pipeline
  Model.Output Model.Library Model.WholeRun
  Spec.Filters Spec.Linking Spec.Readers Spec.Driver Spec.Pipeline Spec.Catalogue Spec.Output Spec.Library
  Proofs.LinkProps Proofs.Driver Proofs.Pipeline Proofs.Catalogue Proofs.WholeRun Properties.Driver.
Import ListNotations.
Open Scope nat_scope.

Theorem C121_csv : forall E P R (efield : joined E R -> Z) (etime : joined E R -> Q) (pfield : P -> Z) (pfilt : P -> option string)
    (pstart : P -> Q) pointings physics noise fsep prob gauss fov drop lsep tsort ldraws osort lweights
    (cfg : settings (joined E R) P)
    (EPH : list (string * E)) ephem (aux0 : nat -> option nat -> result (list (string * R))) others tables T
    V W norm3 round (missing : V) (stat_of : table V -> list W) cs cell wanted ocfg d0,
  deterministic cfg -> sure_linking cfg ldraws lweights ->
  sorter (fun x : obs (joined E R) P * bool * option Z => etime (o_eph (fst (fst x)))) osort ->
  sorter (fun o : obs (joined E R) P => etime (o_eph o)) tsort ->
  exact_reader EPH ephem -> (forall s n, aux0 s n = Ok (slice s n T)) ->
  Forall2 exact_reader tables others ->
  NoDup (map fst T) -> (forall X, In X tables -> NoDup (map fst X)) ->
  (forall i, In i (map fst T) -> forall X, In X tables -> In i (map fst X)) ->
  available ocfg cs -> clean d0 ->
  exists js D,
    complete_table EPH T tables js /\
    detected efield pfield pfilt physics fsep cfg pointings js D /\
    (night_time etime cfg D -> forall k rounds s0, 0 < k ->
       let outcome := simulation norm3 round missing stat_of (read_external aux0 ephem others)
         (tabulated cs cell (process (fun j => fst (fst j)) efield etime pfield pfilt pstart pointings physics noise fsep prob
            gauss fov drop lsep tsort ldraws osort lweights cfg))
         false wanted Csv ocfg rounds (Z.of_nat (length T)) (Z.of_nat k) s0 d0 in
       (fst (snd outcome) = Done ->
          timely efield etime pfield pfilt pstart pointings js /\
          exists out, catalogued (fun j => fst (fst j)) etime lsep tsort cfg D out /\ d_db (fst outcome) = None /\
            d_csv (fst outcome) = match out with
                                  | [] => None
                                  | _ => Some (Head (requested ocfg cs) :: map Data (rows_shown norm3 round ocfg cs (map cell out)))
                                  end) /\
       (timely efield etime pfield pfilt pstart pointings js -> limits_fit cfg ->
          length T <= rounds * k -> fst (snd outcome) = Done)).
Proof. exact C121_csv_proof. Qed.
Print Assumptions C121_csv.
Theorem C121_sqlite : forall E P R (efield : joined E R -> Z) (etime : joined E R -> Q) (pfield : P -> Z) (pfilt : P -> option string)
    (pstart : P -> Q) pointings physics noise fsep prob gauss fov drop lsep tsort ldraws osort lweights
    (cfg : settings (joined E R) P)
    (EPH : list (string * E)) ephem (aux0 : nat -> option nat -> result (list (string * R))) others tables T
    V W norm3 round (missing : V) (stat_of : table V -> list W) cs cell wanted ocfg d0,
  deterministic cfg -> sure_linking cfg ldraws lweights ->
  sorter (fun x : obs (joined E R) P * bool * option Z => etime (o_eph (fst (fst x)))) osort ->
  sorter (fun o : obs (joined E R) P => etime (o_eph o)) tsort ->
  exact_reader EPH ephem -> (forall s n, aux0 s n = Ok (slice s n T)) ->
  Forall2 exact_reader tables others ->
  NoDup (map fst T) -> (forall X, In X tables -> NoDup (map fst X)) ->
  (forall i, In i (map fst T) -> forall X, In X tables -> In i (map fst X)) ->
  available ocfg cs -> clean d0 ->
  ~ In "level_0"%string (requested ocfg cs) -> (forall c, In c indexed_columns -> In c (requested ocfg cs)) ->
  exists js D,
    complete_table EPH T tables js /\
    detected efield pfield pfilt physics fsep cfg pointings js D /\
    (night_time etime cfg D -> forall k rounds s0, 0 < k ->
       let outcome := simulation norm3 round missing stat_of (read_external aux0 ephem others)
         (tabulated cs cell (process (fun j => fst (fst j)) efield etime pfield pfilt pstart pointings physics noise fsep prob
            gauss fov drop lsep tsort ldraws osort lweights cfg))
         false wanted Sqlite3 ocfg rounds (Z.of_nat (length T)) (Z.of_nat k) s0 d0 in
       (fst (snd outcome) = Done ->
          timely efield etime pfield pfilt pstart pointings js /\
          exists out, catalogued (fun j => fst (fst j)) etime lsep tsort cfg D out /\ d_csv (fst outcome) = None /\
            option_map (@db_table V) (d_db (fst outcome))
            = match out with
              | [] => None
              | _ => Some (requested ocfg cs, rows_shown norm3 round ocfg cs (map cell out))
              end) /\
       (timely efield etime pfield pfilt pstart pointings js -> limits_fit cfg ->
          length T <= rounds * k -> fst (snd outcome) = Done)).
Proof. exact C121_sqlite_proof. Qed.
Print Assumptions C121_sqlite.
Theorem C121_chunks : forall E P R (efield : joined E R -> Z) (etime : joined E R -> Q) (pfield : P -> Z) (pfilt : P -> option string)
    (pstart : P -> Q) pointings physics noise fsep prob gauss fov drop lsep tsort ldraws osort lweights
    (cfg : settings (joined E R) P)
    (EPH : list (string * E)) ephem (aux0 : nat -> option nat -> result (list (string * R))) others tables T
    V W norm3 round (missing : V) (stat_of : table V -> list W) cs cell ocfg,
  deterministic cfg -> sure_linking cfg ldraws lweights ->
  sorter (fun x : obs (joined E R) P * bool * option Z => etime (o_eph (fst (fst x)))) osort ->
  sorter (fun o : obs (joined E R) P => etime (o_eph o)) tsort ->
  exact_reader EPH ephem -> (forall s n, aux0 s n = Ok (slice s n T)) ->
  Forall2 exact_reader tables others ->
  NoDup (map fst T) -> (forall X, In X tables -> NoDup (map fst X)) ->
  (forall i, In i (map fst T) -> forall X, In X tables -> In i (map fst X)) ->
  available ocfg cs ->
  exists js D,
    complete_table EPH T tables js /\
    detected efield pfield pfilt physics fsep cfg pointings js D /\
    (night_time etime cfg D -> forall wanted wanted' d0 d0' k k' rounds rounds' s0 s0' d1 d1' r r', 0 < k -> 0 < k' -> clean d0 -> clean d0' ->
       simulation norm3 round missing stat_of (read_external aux0 ephem others)
         (tabulated cs cell (process (fun j => fst (fst j)) efield etime pfield pfilt pstart pointings physics noise fsep prob
            gauss fov drop lsep tsort ldraws osort lweights cfg))
         false wanted Csv ocfg rounds (Z.of_nat (length T)) (Z.of_nat k) s0 d0 = (d1, (Done, r)) ->
       simulation norm3 round missing stat_of (read_external aux0 ephem others)
         (tabulated cs cell (process (fun j => fst (fst j)) efield etime pfield pfilt pstart pointings physics noise fsep prob
            gauss fov drop lsep tsort ldraws osort lweights cfg))
         false wanted' Csv ocfg rounds' (Z.of_nat (length T)) (Z.of_nat k') s0' d0' = (d1', (Done, r')) ->
       (d_csv d1 = None /\ d_csv d1' = None)
       \/ exists lines lines', d_csv d1 = Some (Head (requested ocfg cs) :: map Data lines)
            /\ d_csv d1' = Some (Head (requested ocfg cs) :: map Data lines') /\ Permutation lines lines').
Proof. exact C121_chunks_proof. Qed.
Print Assumptions C121_chunks.

(** The survey of Properties/Driver.v, which meets the hypotheses about the
    inputs (C115_case); the file has a heading and a line for each observation
    of the catalogue, with all objects at once and with one object at a time.
    Numbers stand for the names of objects. *)
Definition case121_columns : list string :=
  ["ObjID"; "fieldMJD_TAI"; "optFilter"; "FieldID"; "Obj_Sun_x_LTC_km"; "Obj_Sun_y_LTC_km"; "Obj_Sun_z_LTC_km"]%string.
Definition case121_cell (x : @out_row d_joined (Z * option string * Q)) (c : string) : Z :=
  if String.eqb c "ObjID" then (if String.eqb (fst (fst (o_eph (fst x)))) "a" then 1 else 2)%Z
  else if String.eqb c "FieldID" then fst (snd (fst (o_eph (fst x)))) else 0%Z.
Definition case121_cfg : outcfg :=
  {| oc_columns := Columns ["ObjID"; "FieldID"]%string; oc_pos := None; oc_mag := None; oc_link_col := false |}.
Definition case121_run (fmt : format) (cfg : outcfg) (rounds : nat) (size : Z) :=
  simulation (fun a _ _ => a) (fun _ v => v) 0%Z (fun _ => [tt])
    (read_external (fun s n => Ok (slice s n d_orbits)) (d_read d_eph) [d_read d_phys])
    (tabulated case121_columns case121_cell (d_process None)) false false fmt cfg rounds (Z.of_nat (length d_orbits)) size
    {| n_gauss := 0; n_fov := 0; n_drop := 0; n_link := 0 |} {| d_csv := None; d_db := None; d_stats := None |}.
Definition case121_all : outcfg :=
  {| oc_columns := Columns ["ObjID"; "fieldMJD_TAI"; "optFilter"; "FieldID"]%string; oc_pos := None; oc_mag := None; oc_link_col := false |}.
Example C121_case :
  available case121_cfg case121_columns /\ clean {| d_csv := @None (list (line Z)); d_db := None; d_stats := @None (list unit) |} /\
  case121_run Csv case121_cfg 5 3
  = ({| d_csv := Some [Head ["ObjID"; "FieldID"]%string; Data [1; 1]; Data [2; 1]; Data [1; 2]]%Z; d_db := None; d_stats := None |}, (Done, None)) /\
  case121_run Csv case121_cfg 5 1
  = ({| d_csv := Some [Head ["ObjID"; "FieldID"]%string; Data [1; 1]; Data [1; 2]; Data [2; 1]]%Z; d_db := None; d_stats := None |}, (Done, None)) /\
  available case121_all case121_columns /\ ~ In "level_0"%string (requested case121_all case121_columns) /\
  (forall c, In c indexed_columns -> In c (requested case121_all case121_columns)) /\
  fst (snd (case121_run Sqlite3 case121_all 5 2)) = Done.
Proof.
  assert (A : forall l, (forall c, In c l -> In c case121_columns) -> 2 <= length l ->
            available {| oc_columns := Columns l; oc_pos := None; oc_mag := None; oc_link_col := false |} case121_columns).
  { intros l H L. split; [cbn; intuition auto|]. split; [|exact L]. intros c Hc. right. apply H. exact Hc. }
  split; [apply A; [cbn; intuition auto|cbn; lia]|]. split; [repeat split|]. split; [vm_compute; reflexivity|]. split; [vm_compute; reflexivity|].
  split; [apply A; [cbn; intuition auto|cbn; lia]|]. split; [cbn; intuition discriminate|]. split; [cbn; intuition auto|]. vm_compute. reflexivity.
Qed.
