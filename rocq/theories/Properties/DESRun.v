From Coq Require Import Qabs String List Arith ZArith QArith Bool Lia Sorting.Permutation.
From Verif Require Import Base.Prelude Base.Num Base.Frame Base.Sort Model.Filters Model.Readers Model.Driver Model.Pipeline
  Model.DES Model.DESPipeline Spec.Filters Spec.Readers Spec.Driver Spec.Pipeline Spec.DES Spec.DESPipeline
  Proofs.Driver Proofs.Pipeline Proofs.Chunking Proofs.DES Proofs.DESPipeline Spec.Pointing Proofs.PipelineTimes.
Import ListNotations.
Open Scope nat_scope.

(** * C78: a simulation of the Dark Energy Survey *)

Theorem C78_cuts : forall E P (eid : E -> string) (efield : E -> Z) (etime ex ey ez erarate edecrate : E -> Q)
    (pfield : P -> Z) (pfilt : P -> option string) (pstart : P -> Q) pointings physics fsep prob fov drop dsort (cfg : des_settings E P),
  (forall l, Permutation (dsort l) l) -> sane_bounds (s_distance cfg) -> sane_bounds (s_motion cfg) ->
  forall st js st' ol, des_process eid efield etime ex ey ez erarate edecrate pfield pfilt pstart pointings physics fsep prob
       fov drop dsort cfg st js = Ok (st', ol) ->
  forall o, In o (rows_written ol) ->
    stems efield pfield pfilt js pointings o /\ passes pfilt (requested cfg) o /\ on_camera fsep (requested cfg) o
    /\ slow_enough erarate edecrate cfg o
    /\ (exists o', stems efield pfield pfilt js pointings o' /\ passes pfilt (requested cfg) o' /\ on_camera fsep (requested cfg) o'
          /\ same_object eid o' o /\ near_enough ex ey ez cfg o')
    /\ (s_discovery cfg = true -> forall mine, selected (fun r => same_object eid r o) (rows_written ol) mine ->
          discoverable etime ex ey ez mine).
Proof. exact C78_cuts_proof. Qed.
Print Assumptions C78_cuts.

Theorem C78_exact : forall E P (eid : E -> string) (efield : E -> Z) (etime ex ey ez erarate edecrate : E -> Q)
    (pfield : P -> Z) (pfilt : P -> option string) (pstart : P -> Q) pointings physics fsep prob fov drop dsort (cfg : des_settings E P),
  (forall l, Permutation (dsort l) l) -> sane_bounds (s_distance cfg) -> sane_bounds (s_motion cfg) ->
  deterministic (requested cfg) ->
  forall st js st' ol, des_process eid efield etime ex ey ez erarate edecrate pfield pfilt pstart pointings physics fsep prob
       fov drop dsort cfg st js = Ok (st', ol) ->
  exists found : list (obs E P) -> Prop,
    (forall mine, found mine -> discoverable etime ex ey ez mine) /\
    (forall mine, surely_discoverable etime ex ey ez mine -> found mine) /\
  exists D1 D2 D3 D4,
    selected (fun o => passes pfilt (requested cfg) o /\ on_camera fsep (requested cfg) o)
      (flat_map (sightings (requested cfg)) (candidates efield pfield pfilt physics pointings js)) D1 /\
    selected (fun o => exists o', In o' D1 /\ same_object eid o' o /\ near_enough ex ey ez cfg o') D1 D2 /\
    selected (slow_enough erarate edecrate cfg) D2 D3 /\
    selected (fun o => s_discovery cfg = true -> forall mine, selected (fun r => same_object eid r o) D3 mine -> found mine) D3 D4 /\
    Permutation (rows_written ol) D4.
Proof. exact C78_exact_proof. Qed.
Print Assumptions C78_exact.

Theorem C78_stages : forall E P (eid : E -> string) (efield : E -> Z) (etime ex ey ez erarate edecrate : E -> Q)
    (pfield : P -> Z) (pfilt : P -> option string) (pstart : P -> Q) pointings physics fsep prob fov drop dsort (cfg : des_settings E P),
  (forall l, Permutation (dsort l) l) -> sane_bounds (s_distance cfg) -> sane_bounds (s_motion cfg) ->
  forall st js st' ol, des_process eid efield etime ex ey ez erarate edecrate pfield pfilt pstart pointings physics fsep prob
       fov drop dsort cfg st js = Ok (st', ol) ->
  exists found : list (obs E P) -> Prop,
    (forall mine, found mine -> discoverable etime ex ey ez mine) /\
    (forall mine, surely_discoverable etime ex ey ez mine -> found mine) /\
  exists on above caught D1 D2 D3 D4,
    camera_keeps fsep fov (n_fov st) (requested cfg) (candidates efield pfield pfilt physics pointings js) on /\
    (s_snr cfg <> None -> on = []) /\
    selected (fun o => forall lim, s_mag cfg = Some lim -> num_lt (k_trailed (o_col o)) lim) on above /\
    (s_fading cfg = false -> caught = above) /\
    (s_fading cfg = true -> selected_pos (fun i o => num_le (drop (n_drop st + i)) (prob o)) 0 above caught) /\
    selected (fun o => ~ saturated pfilt (requested cfg) o) caught D1 /\
    selected (fun o => exists o', In o' D1 /\ same_object eid o' o /\ near_enough ex ey ez cfg o') D1 D2 /\
    selected (slow_enough erarate edecrate cfg) D2 D3 /\
    selected (fun o => s_discovery cfg = true -> forall mine, selected (fun r => same_object eid r o) D3 mine -> found mine) D3 D4 /\
    Permutation (rows_written ol) D4.
Proof. exact C78_stages_proof. Qed.
Print Assumptions C78_stages.

Theorem C78_count : forall E P (eid : E -> string) (efield : E -> Z) (etime ex ey ez erarate edecrate : E -> Q)
    (pfield : P -> Z) (pfilt : P -> option string) (pstart : P -> Q) pointings physics fsep prob fov drop dsort (cfg : des_settings E P),
  (forall l, Permutation (dsort l) l) -> NoDup (map pfield pointings) ->
  (forall on, s_cam cfg = CamFootprint on -> forall o, length (on o) <= 1) ->
  forall st js st' ol, des_process eid efield etime ex ey ez erarate edecrate pfield pfilt pstart pointings physics fsep prob
       fov drop dsort cfg st js = Ok (st', ol) ->
  exists kept, subseq kept js /\ Permutation (map (fun o => o_eph o) (rows_written ol)) kept.
Proof. exact C78_count_proof. Qed.
Print Assumptions C78_count.

Theorem C78_chunk_size : forall E P R (efield : joined E R -> Z) (etime ex ey ez erarate edecrate : joined E R -> Q)
    (pfield : P -> Z) (pfilt : P -> option string) (pstart : P -> Q) pointings physics fsep prob fov drop dsort
    (cfg : des_settings (joined E R) P)
    (EPH : list (string * E)) ephem (aux0 : nat -> option nat -> result (list (string * R))) others tables T,
  (forall l, Permutation (dsort l) l) -> deterministic (requested cfg) ->
  exact_reader EPH ephem -> (forall s n, aux0 s n = Ok (slice s n T)) ->
  Forall2 exact_reader tables others ->
  NoDup (map fst T) -> (forall X, In X tables -> NoDup (map fst X)) ->
  (forall i, In i (map fst T) -> forall X, In X tables -> In i (map fst X)) ->
  exists catalogue, forall k rounds s0 tr, 0 < k ->
  run (read_external aux0 ephem others)
      (des_process (fun j => fst (fst j)) efield etime ex ey ez erarate edecrate pfield pfilt pstart pointings physics fsep prob
         fov drop dsort cfg)
      rounds (Z.of_nat (length T)) (Z.of_nat k) s0 = (Done, tr) ->
  Permutation (concat (written tr)) catalogue.
Proof. exact C78_chunk_size_proof. Qed.
Print Assumptions C78_chunk_size.

(** Ten fields on ten nights.  Object a is in all of them, off the detectors in
    the fourth; object b is in two; object c is in all, too near the Sun;
    object d is in all, too slow. *)
Definition des_days : list Z := [1; 2; 3; 4; 5; 6; 7; 8; 9; 10]%Z.
Definition des_eph : list (string * (Z * Q)) :=
  flat_map (fun n => [("d", (n, inject_Z n)); ("a", (n, inject_Z n)); ("c", (n, inject_Z n))])%string des_days
   ++ [("b", (2, 2 # 1)); ("b", (3, 3 # 1))]%string%Z.
Definition des_orbits : list (string * Z) := [("a", 40); ("b", 40); ("c", 1); ("d", 40)]%string%Z.
Definition des_read {R} (T : list (string * R)) (ids : list string) : result (list (string * R)) :=
  Ok (filter (fun r => existsb (String.eqb (fst r)) ids) T).
Notation des_joined := (joined (Z * Q) Z).
Definition des_km (j : des_joined) : Q :=
  match snd j with Some au :: _ => (inject_Z au * (1495978707 # 10))%Q | _ => 0%Q end.
Definition des_rate (j : des_joined) : Q := if String.eqb (fst (fst j)) "d" then 0%Q else 1 # 100.
Definition des_pointings : list (Z * option string * Q) := map (fun n => (n, Some "r"%string, inject_Z n)) des_days.
Definition des_physics (j : des_joined) (p : Z * option string * Q) : columns :=
  {| k_ra := Fin 0; k_dec := Fin 0; k_trailed_true := Fin 20; k_psf_true := Fin 20; k_depth := Fin 24;
     k_snr := NaN; k_trailed := Fin 20; k_psf := Fin 20 |}.
Definition des_camera (l : list (obs des_joined (Z * option string * Q))) (i : nat) : option nat :=
  match nth_error l i with
  | Some o => if Z.eqb (fst (snd (fst (o_eph o)))) 4 then None else Some 17
  | None => None
  end.
Definition des_cfg : des_settings des_joined (Z * option string * Q) :=
  {| s_cam := CamVisits des_camera; s_snr := None; s_mag := Some (Fin 24); s_fading := false;
     s_bright := Some (BFloat (Fin 15)); s_filters := ["r"; "g"]%string;
     s_distance := Some (Fin 1000, Fin 20)%Q; s_motion := Some (Fin 1, Fin (1 # 1000))%Q; s_discovery := true |}.
Definition des_step :=
  des_process (fun j => fst (fst j)) (fun j : des_joined => fst (snd (fst j))) (fun j => snd (snd (fst j)))
    des_km (fun _ => 0%Q) (fun _ => 0%Q) des_rate (fun _ => 0%Q)
    (fun p => fst (fst p)) (fun p => snd (fst p)) snd des_pointings des_physics (fun _ => Fin 0) (fun _ => Fin 1)
    (fun _ => Fin 0) (fun _ => Fin 0) (sort_by (fun o => snd (snd (fst (o_eph o))))) des_cfg.
Definition des_run (rounds k : nat) :=
  run (read_external (fun s n => Ok (slice s n des_orbits)) (des_read des_eph) []) des_step rounds 4%Z (Z.of_nat k)
    {| n_gauss := 0; n_fov := 0; n_drop := 0; n_link := 0 |}.

(** The same catalogue in chunks of 1 and of 3: object a on nine nights. *)
Example C78_case :
  deterministic (requested des_cfg) /\ sane_bounds (s_distance des_cfg) /\ sane_bounds (s_motion des_cfg)
  /\ fst (des_run 9 1) = Done /\ fst (des_run 9 3) = Done
  /\ map (fun o => (fst (fst (o_eph o)), fst (snd (fst (o_eph o))), o_det o)) (concat (written (snd (des_run 9 3))))
     = map (fun n => ("a"%string, n, Some 17)) [1; 2; 3; 5; 6; 7; 8; 9; 10]%Z
  /\ concat (written (snd (des_run 9 1))) = concat (written (snd (des_run 9 3)))
  /\ (forall l : list (obs des_joined (Z * option string * Q)),
        Permutation (sort_by (fun o => snd (snd (fst (o_eph o)))) l) l).
Proof.
  split.
  { split; [reflexivity|]. split; [reflexivity|]. cbn. intros l i o H. unfold des_camera. rewrite H. reflexivity. }
  split; [intros u l H; injection H as <- <-; exists 1000%Q, 20%Q; repeat split; discriminate|].
  split; [intros u l H; injection H as <- <-; exists 1%Q, (1 # 1000)%Q; repeat split; discriminate|].
  split; [vm_compute; reflexivity|]. split; [vm_compute; reflexivity|]. split; [vm_compute; reflexivity|].
  split; [vm_compute; reflexivity|]. intro l. apply sort_by_perm.
Qed.

(** * C51: a time mismatch stops the round *)

Theorem C51_round_partial : forall E P (eid : E -> string) (efield : E -> Z) (etime : E -> Q) (pfield : P -> Z) (pfilt : P -> option string)
    (pstart : P -> Q) pointings physics noise fsep prob gauss fov drop lsep tsort ldraws osort lweights (cfg : settings E P) st js e p,
  In e js -> In p pointings -> efield e = pfield p -> pfilt p <> None -> (tolerance (etime e) < Qabs (pstart p - etime e))%Q ->
  process eid efield etime pfield pfilt pstart pointings physics noise fsep prob
    gauss fov drop lsep tsort ldraws osort lweights cfg st js = Err SysExit.
Proof. exact C51_round_proof. Qed.
Print Assumptions C51_round_partial.

Theorem C51_des_round_partial : forall E P (eid : E -> string) (efield : E -> Z) (etime ex ey ez erarate edecrate : E -> Q)
    (pfield : P -> Z) (pfilt : P -> option string) (pstart : P -> Q) pointings physics fsep prob fov drop dsort (cfg : des_settings E P) st js e p,
  In e js -> In p pointings -> efield e = pfield p -> pfilt p <> None -> (tolerance (etime e) < Qabs (pstart p - etime e))%Q ->
  des_process eid efield etime ex ey ez erarate edecrate pfield pfilt pstart pointings physics fsep prob
       fov drop dsort cfg st js = Err SysExit.
Proof. exact C51_des_round_proof. Qed.
Print Assumptions C51_des_round_partial.

(** The observation is made one day after the pointing it is matched with. *)
Definition late : des_joined := (("a"%string, (1%Z, 2%Q)), [Some 40%Z]).
Example C51_round_case :
  In (1%Z, Some "r"%string, 1%Q) des_pointings
  /\ fst (snd (fst late)) = 1%Z /\ (tolerance 2 < Qabs (1 - 2))%Q
  /\ des_step {| n_gauss := 0; n_fov := 0; n_drop := 0; n_link := 0 |} [late] = Err SysExit.
Proof. split; [left; reflexivity|]. split; [reflexivity|]. split; reflexivity. Qed.
