(** * C122: the result file of a Dark Energy Survey run without random decisions, described outright *)
From Coq Require Import String List Arith ZArith QArith Qabs Bool Lia Sorting.Permutation.
From Verif Require Import Base.Prelude Base.Num Base.Frame Base.Sort Model.Filters Model.Linking Model.Readers Model.Driver Model.Pipeline
  Model.DES Model.DESPipeline Model.Output Model.Library Model.WholeRun
  Spec.Filters Spec.Linking Spec.Readers Spec.Driver Spec.Pipeline Spec.Catalogue Spec.DES Spec.DESPipeline Spec.DESCatalogue Spec.Output Spec.Library
  Proofs.Driver Proofs.Pipeline Proofs.Chunking Proofs.DESPipeline Proofs.DESWhole Properties.DESRun.
Import ListNotations.
Open Scope nat_scope.

Theorem C122_csv : forall E P R (efield : joined E R -> Z) (etime ex ey ez erarate edecrate : joined E R -> Q)
    (pfield : P -> Z) (pfilt : P -> option string) (pstart : P -> Q) pointings physics fsep prob fov drop dsort
    (cfg : des_settings (joined E R) P)
    (EPH : list (string * E)) ephem (aux0 : nat -> option nat -> result (list (string * R))) others tables T
    V W norm3 round (missing : V) (stat_of : table V -> list W) cs cell wanted ocfg d0,
  (forall l, Permutation (dsort l) l) -> sane_bounds (s_distance cfg) -> sane_bounds (s_motion cfg) ->
  deterministic (Spec.DESPipeline.requested cfg) ->
  exact_reader EPH ephem -> (forall s n, aux0 s n = Ok (slice s n T)) ->
  Forall2 exact_reader tables others ->
  NoDup (map fst T) -> (forall X, In X tables -> NoDup (map fst X)) ->
  (forall i, In i (map fst T) -> forall X, In X tables -> In i (map fst X)) ->
  available ocfg cs -> clean d0 ->
  exists js D kept,
    complete_table EPH T tables js /\
    detected efield pfield pfilt physics fsep (Spec.DESPipeline.requested cfg) pointings js D /\
    des_catalogued (fun j => fst (fst j)) etime ex ey ez erarate edecrate cfg D kept /\
    forall k rounds s0, 0 < k ->
      let outcome := simulation norm3 round missing stat_of (read_external aux0 ephem others)
        (tabulated cs cell (des_process (fun j => fst (fst j)) efield etime ex ey ez erarate edecrate pfield pfilt pstart pointings physics fsep prob
           fov drop dsort cfg))
        false wanted Csv ocfg rounds (Z.of_nat (length T)) (Z.of_nat k) s0 d0 in
      (fst (snd outcome) = Done ->
         timely efield etime pfield pfilt pstart pointings js /\
         exists out, Permutation out kept /\ d_db (fst outcome) = None /\
           d_csv (fst outcome) = match out with
                                 | [] => None
                                 | _ => Some (Head (requested ocfg cs) :: map Data (rows_shown norm3 round ocfg cs (map cell out)))
                                 end) /\
      (timely efield etime pfield pfilt pstart pointings js -> limits_fit (Spec.DESPipeline.requested cfg) -> s_snr cfg = None ->
         length T <= rounds * k -> fst (snd outcome) = Done).
Proof. exact C122_csv_proof. Qed.
Print Assumptions C122_csv.
Theorem C122_sqlite : forall E P R (efield : joined E R -> Z) (etime ex ey ez erarate edecrate : joined E R -> Q)
    (pfield : P -> Z) (pfilt : P -> option string) (pstart : P -> Q) pointings physics fsep prob fov drop dsort
    (cfg : des_settings (joined E R) P)
    (EPH : list (string * E)) ephem (aux0 : nat -> option nat -> result (list (string * R))) others tables T
    V W norm3 round (missing : V) (stat_of : table V -> list W) cs cell wanted ocfg d0,
  (forall l, Permutation (dsort l) l) -> sane_bounds (s_distance cfg) -> sane_bounds (s_motion cfg) ->
  deterministic (Spec.DESPipeline.requested cfg) ->
  exact_reader EPH ephem -> (forall s n, aux0 s n = Ok (slice s n T)) ->
  Forall2 exact_reader tables others ->
  NoDup (map fst T) -> (forall X, In X tables -> NoDup (map fst X)) ->
  (forall i, In i (map fst T) -> forall X, In X tables -> In i (map fst X)) ->
  available ocfg cs -> clean d0 ->
  ~ In "level_0"%string (requested ocfg cs) -> (forall c, In c indexed_columns -> In c (requested ocfg cs)) ->
  exists js D kept,
    complete_table EPH T tables js /\
    detected efield pfield pfilt physics fsep (Spec.DESPipeline.requested cfg) pointings js D /\
    des_catalogued (fun j => fst (fst j)) etime ex ey ez erarate edecrate cfg D kept /\
    forall k rounds s0, 0 < k ->
      let outcome := simulation norm3 round missing stat_of (read_external aux0 ephem others)
        (tabulated cs cell (des_process (fun j => fst (fst j)) efield etime ex ey ez erarate edecrate pfield pfilt pstart pointings physics fsep prob
           fov drop dsort cfg))
        false wanted Sqlite3 ocfg rounds (Z.of_nat (length T)) (Z.of_nat k) s0 d0 in
      (fst (snd outcome) = Done ->
         timely efield etime pfield pfilt pstart pointings js /\
         exists out, Permutation out kept /\ d_csv (fst outcome) = None /\
           option_map (@db_table V) (d_db (fst outcome))
           = match out with
             | [] => None
             | _ => Some (requested ocfg cs, rows_shown norm3 round ocfg cs (map cell out))
             end) /\
      (timely efield etime pfield pfilt pstart pointings js -> limits_fit (Spec.DESPipeline.requested cfg) -> s_snr cfg = None ->
         length T <= rounds * k -> fst (snd outcome) = Done).
Proof. exact C122_sqlite_proof. Qed.
Print Assumptions C122_sqlite.

(** The survey of Properties/DESRun.v: object a is discovered, the others are
    too few times seen, too near the Sun or too slow.  Numbers stand for the
    names of objects. *)
Definition case122_columns : list string :=
  ["ObjID"; "fieldMJD_TAI"; "optFilter"; "FieldID"; "Obj_Sun_x_LTC_km"; "Obj_Sun_y_LTC_km"; "Obj_Sun_z_LTC_km"]%string.
Definition case122_cell (x : obs des_joined (Z * option string * Q)) (c : string) : Z :=
  if String.eqb c "ObjID" then (if String.eqb (fst (fst (o_eph x))) "a" then 1 else 2)%Z
  else if String.eqb c "FieldID" then fst (snd (fst (o_eph x))) else 0%Z.
Definition case122_cfg : outcfg :=
  {| oc_columns := Columns ["ObjID"; "FieldID"]%string; oc_pos := None; oc_mag := None; oc_link_col := false |}.
Definition case122_all : outcfg :=
  {| oc_columns := Columns ["ObjID"; "fieldMJD_TAI"; "optFilter"; "FieldID"]%string; oc_pos := None; oc_mag := None; oc_link_col := false |}.
Definition case122_run (fmt : format) (cfg : outcfg) (rounds : nat) (size : Z) :=
  simulation (fun a _ _ => a) (fun _ v => v) 0%Z (fun _ => [tt])
    (read_external (fun s n => Ok (slice s n des_orbits)) (des_read des_eph) [])
    (tabulated case122_columns case122_cell des_step) false false fmt cfg rounds (Z.of_nat (length des_orbits)) size
    {| n_gauss := 0; n_fov := 0; n_drop := 0; n_link := 0 |} {| d_csv := None; d_db := None; d_stats := None |}.
Example C122_case :
  deterministic (Spec.DESPipeline.requested des_cfg) /\ limits_fit (Spec.DESPipeline.requested des_cfg) /\ s_snr des_cfg = None /\
  sane_bounds (s_distance des_cfg) /\ sane_bounds (s_motion des_cfg) /\
  exact_reader des_eph (des_read des_eph) /\ NoDup (map fst des_orbits) /\
  available case122_cfg case122_columns /\ clean {| d_csv := @None (list (line Z)); d_db := None; d_stats := @None (list unit) |} /\
  case122_run Csv case122_cfg 9 3
  = ({| d_csv := Some (Head ["ObjID"; "FieldID"]%string :: map (fun n => Data [1; n]) [1; 2; 3; 5; 6; 7; 8; 9; 10])%Z; d_db := None; d_stats := None |}, (Done, None)) /\
  available case122_all case122_columns /\ ~ In "level_0"%string (requested case122_all case122_columns) /\
  (forall c, In c indexed_columns -> In c (requested case122_all case122_columns)) /\
  fst (snd (case122_run Sqlite3 case122_all 9 1)) = Done.
Proof.
  assert (A : forall l, (forall c, In c l -> In c case122_columns) -> 2 <= length l ->
            available {| oc_columns := Columns l; oc_pos := None; oc_mag := None; oc_link_col := false |} case122_columns).
  { intros l H L. split; [cbn; intuition auto|]. split; [|exact L]. intros c Hc. right. apply H. exact Hc. }
  destruct C78_case as (D & S1 & S2 & _).
  split; [exact D|]. split; [exact I|]. split; [reflexivity|]. split; [exact S1|]. split; [exact S2|].
  split.
  { intros ids. eexists. split; [reflexivity|]. apply selected_filter. intros r _. rewrite existsb_exists. split.
    - intros (i & Hi & Ei). apply String.eqb_eq in Ei. congruence.
    - intros H. exists (fst r). split; [exact H|apply String.eqb_refl]. }
  split; [cbn; repeat constructor; cbn; intuition discriminate|].
  split; [apply A; [cbn; intuition auto|cbn; lia]|]. split; [repeat split|]. split; [vm_compute; reflexivity|].
  split; [apply A; [cbn; intuition auto|cbn; lia]|]. split; [cbn; intuition discriminate|]. split; [cbn; intuition auto|]. vm_compute. reflexivity.
Qed.
