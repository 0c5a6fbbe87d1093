From Coq Require Import String List Arith ZArith QArith Bool Lia Sorting.Permutation.
From Verif Require Import Base.Prelude Base.Num Base.Frame Base.Sort Model.Filters Model.Linking Model.Readers Model.Driver Model.Pipeline
  Spec.Filters Spec.Linking Spec.Readers Spec.Driver Spec.Pipeline
  Proofs.Linking Proofs.Discovery Proofs.LinkObject Proofs.LinkFilter Proofs.LinkProps Proofs.Driver Proofs.Pipeline Proofs.Chunking.
Import ListNotations.
Open Scope nat_scope.

(** * A small survey used by the examples below *)

(** Ephemeris rows: field and time. *)
Definition d_eph : list (string * (Z * Q)) :=
  [("a", (1, 10 # 1)); ("b", (1, 10 # 1)); ("c", (2, 11 # 1)); ("a", (2, 11 # 1)); ("b", (3, 12 # 1)); ("c", (7, 12 # 1))]%string%Z.
Definition d_orbits : list (string * Z) := [("a", 20); ("b", 21); ("c", 30)]%string%Z.
Definition d_phys : list (string * Z) := [("c", 5); ("a", 1); ("b", 2)]%string%Z.
(** Pointings: field, filter, start time; field 3 was taken in a filter that is not observed. *)
Definition d_pointings : list (Z * option string * Q) :=
  [(1, Some "r", 10 # 1); (2, Some "g", 11 # 1); (3, None, 12 # 1)]%string%Z.
Definition d_read {R} (T : list (string * R)) (ids : list string) : result (list (string * R)) :=
  Ok (filter (fun r => existsb (String.eqb (fst r)) ids) T).
Notation d_joined := (joined (Z * Q) Z).
Definition d_mag (j : d_joined) : num :=
  match snd j with Some h :: _ => Fin (inject_Z h) | _ => NaN end.
Definition d_physics (j : d_joined) (p : Z * option string * Q) : columns :=
  {| k_ra := Fin 0; k_dec := Fin 0; k_trailed_true := d_mag j; k_psf_true := d_mag j; k_depth := Fin 24;
     k_snr := Fin 10; k_trailed := d_mag j; k_psf := d_mag j |}.
Definition d_cfg (link : option (linkcfg * bool)) : settings d_joined (Z * option string * Q) :=
  {| randomization_on := false; default_snr_cut := false; cam := CamCircle (Some (Fin 2)) None;
     snr_limit := Some (Fin 5); mag_limit := Some (Fin 25); fading_on := false; bright := Some (BFloat (Fin 15));
     filters := ["r"; "g"]%string; linking := link |}.
Definition d_process (link : option (linkcfg * bool)) :=
  process (fun j : d_joined => fst (fst j)) (fun j => fst (snd (fst j))) (fun j => snd (snd (fst j)))
    (fun p : Z * option string * Q => fst (fst p)) (fun p => snd (fst p)) (fun p => snd p) d_pointings d_physics
    (fun _ _ _ c => c) (fun _ => Fin 1) (fun _ => Fin 1) (fun _ => Fin 0) (fun _ => Fin 0) (fun _ => Fin 0)
    (fun _ _ => Fin 1) (sort_by (fun o => snd (snd (fst (o_eph o))))) (fun _ _ => Fin 0)
    (sort_by (fun x => snd (snd (fst (o_eph (fst (fst x))))))) (fun _ _ k => (2 ^ Z.of_nat k)%Z) (d_cfg link).
Definition d_run (link : option (linkcfg * bool)) (rounds : nat) (size : Z) :=
  run (read_external (fun s n => Ok (slice s n d_orbits)) (d_read d_eph) [d_read d_phys]) (d_process link)
    rounds (Z.of_nat (length d_orbits)) size {| n_gauss := 0; n_fov := 0; n_drop := 0; n_link := 0 |}.
Definition d_link : linkcfg :=
  {| c_maxdt_minutes := 90; c_minlen_arcsec := 1#2; c_min_obs := 1; c_window := 15; c_nlink := 2;
     c_p := Fin 1; c_night_start := 1 # 2 |}.
Definition d_view (x : @out_row d_joined (Z * option string * Q)) : string * Z * option (bool * option Z) :=
  (fst (fst (o_eph (fst x))), fst (snd (fst (o_eph (fst x)))), snd x).

(** * C11: survivors satisfy every cut *)

Theorem C11_cuts : forall E P (eid : E -> string) (efield : E -> Z) (etime : E -> Q) (pfield : P -> Z) (pfilt : P -> option string)
    (pstart : P -> Q) pointings physics noise fsep prob gauss fov drop lsep tsort ldraws osort lweights (cfg : settings E P),
  sorter (fun x : obs E P * bool * option Z => etime (o_eph (fst (fst x)))) osort ->
  forall st js st' ol, process eid efield etime pfield pfilt pstart pointings physics noise fsep prob
         gauss fov drop lsep tsort ldraws osort lweights cfg st js = Ok (st', ol) ->
  forall o x, In (o, x) (rows_written ol) ->
    passes pfilt cfg o /\ on_camera fsep cfg o /\
    (forall c, linking cfg = Some (c, true) -> exists d, x = Some (true, Some d)).
Proof. exact C11_cuts_proof. Qed.
Print Assumptions C11_cuts.

(** Without randomness nothing else is removed either. *)
Theorem C11_exact : forall E P (eid : E -> string) (efield : E -> Z) (etime : E -> Q) (pfield : P -> Z) (pfilt : P -> option string)
    (pstart : P -> Q) pointings physics noise fsep prob gauss fov drop lsep tsort ldraws osort lweights (cfg : settings E P),
  deterministic cfg -> linking cfg = None -> (forall on, cam cfg <> CamFootprint on) -> (forall on, cam cfg <> CamVisits on) ->
  forall st js st' ol, process eid efield etime pfield pfilt pstart pointings physics noise fsep prob
         gauss fov drop lsep tsort ldraws osort lweights cfg st js = Ok (st', ol) ->
  selected (fun o => passes pfilt cfg o /\ on_camera fsep cfg o)
    (candidates efield pfield pfilt physics pointings js) (map fst (rows_written ol)).
Proof. exact C11_exact_proof. Qed.
Print Assumptions C11_exact.

(** Stage by stage, for every configuration: what an enabled cut removes, and that
    a disabled one removes nothing. *)
Theorem C11_stages : forall E P (eid : E -> string) (efield : E -> Z) (etime : E -> Q) (pfield : P -> Z) (pfilt : P -> option string)
    (pstart : P -> Q) pointings physics noise fsep prob gauss fov drop lsep tsort ldraws osort lweights (cfg : settings E P),
  sorter (fun x : obs E P * bool * option Z => etime (o_eph (fst (fst x)))) osort ->
  forall st js st' ol, process eid efield etime pfield pfilt pstart pointings physics noise fsep prob
         gauss fov drop lsep tsort ldraws osort lweights cfg st js = Ok (st', ol) ->
  exists clear measured seen above caught unsaturated,
    selected (fun o => randomization_on cfg = true -> default_snr_cut cfg = true -> num_lt (Fin 2) (k_snr (o_col o)))
      (candidates efield pfield pfilt physics pointings js) clear /\
    Forall2 (remeasured cfg noise) clear measured /\
    camera_keeps fsep fov (n_fov st) cfg measured seen /\
    selected (fun o => (forall lim, snr_limit cfg = Some lim -> num_lt lim (k_snr (o_col o))) /\
                       (forall lim, mag_limit cfg = Some lim -> num_lt (k_trailed (o_col o)) lim)) seen above /\
    (fading_on cfg = false -> caught = above) /\
    (fading_on cfg = true -> selected_pos (fun i o => num_le (drop (n_drop st + i)) (prob o)) 0 above caught) /\
    selected (fun o => ~ saturated pfilt cfg o) caught unsaturated /\
    (linking cfg = None -> rows_written ol = map (fun o => (o, None)) unsaturated) /\
    (forall c dropu, linking cfg = Some (c, dropu) -> exists date : string -> option Z, exists kept,
       selected (fun o => dropu = true -> date (eid (o_eph o)) <> None) unsaturated kept /\
       Permutation (rows_written ol)
         (map (fun o => (o, Some (match date (eid (o_eph o)) with Some _ => true | None => false end, date (eid (o_eph o))))) kept)).
Proof. exact C11_stages_proof. Qed.
Print Assumptions C11_stages.

Example C11_case :
  deterministic (d_cfg None) /\
  map d_view (concat (written (snd (d_run None 5 2)))) = [("a", 1, None); ("b", 1, None); ("a", 2, None)]%string%Z /\
  map d_view (concat (written (snd (d_run (Some (d_link, true)) 5 2))))
   = [("a", 1, Some (true, Some 10)); ("a", 2, Some (true, Some 10))]%string%Z.
Proof. split; [repeat split|]. split; vm_compute; reflexivity. Qed.

(** * C12: no observation is invented *)

Theorem C12_provenance : forall E P (eid : E -> string) (efield : E -> Z) (etime : E -> Q) (pfield : P -> Z) (pfilt : P -> option string)
    (pstart : P -> Q) pointings physics noise fsep prob gauss fov drop lsep tsort ldraws osort lweights (cfg : settings E P),
  sorter (fun x : obs E P * bool * option Z => etime (o_eph (fst (fst x)))) osort ->
  forall st js st' ol, process eid efield etime pfield pfilt pstart pointings physics noise fsep prob
         gauss fov drop lsep tsort ldraws osort lweights cfg st js = Ok (st', ol) ->
  forall o x, In (o, x) (rows_written ol) -> stems efield pfield pfilt js pointings o.
Proof. exact C12_provenance_proof. Qed.
Print Assumptions C12_provenance.

Theorem C12_count : forall E P (eid : E -> string) (efield : E -> Z) (etime : E -> Q) (pfield : P -> Z) (pfilt : P -> option string)
    (pstart : P -> Q) pointings physics noise fsep prob gauss fov drop lsep tsort ldraws osort lweights (cfg : settings E P),
  sorter (fun x : obs E P * bool * option Z => etime (o_eph (fst (fst x)))) osort ->
  NoDup (map pfield pointings) ->
  (forall on, cam cfg = CamFootprint on -> forall o, length (on o) <= 1) ->
  forall st js st' ol, process eid efield etime pfield pfilt pstart pointings physics noise fsep prob
         gauss fov drop lsep tsort ldraws osort lweights cfg st js = Ok (st', ol) ->
  exists kept, subseq kept js /\ Permutation (map (fun r => o_eph (fst r)) (rows_written ol)) kept.
Proof. exact C12_count_proof. Qed.
Print Assumptions C12_count.

Example C12_case : NoDup (map (fun p : Z * option string * Q => fst (fst p)) d_pointings) /\
  map d_view (concat (written (snd (d_run None 5 3)))) = [("a", 1, None); ("b", 1, None); ("a", 2, None)]%string%Z.
Proof. split; [repeat constructor; cbn; intuition discriminate|vm_compute; reflexivity]. Qed.

(** * C13: the chunk loop *)

Theorem C13_external : forall E R S O (EPH : list (string * E)) ephem (aux0 : nat -> option nat -> result (list (string * R))) others tables T
    (process : S -> list (joined E R) -> result (S * option O)) k,
  exact_reader EPH ephem -> (forall s n, aux0 s n = Ok (slice s n T)) ->
  Forall2 exact_reader tables others ->
  NoDup (map fst T) -> (forall X, In X tables -> NoDup (map fst X)) ->
  (forall i, In i (map fst T) -> forall X, In X tables -> In i (map fst X)) -> 0 < k ->
  forall rounds s0 stt tr,
  run (read_external aux0 ephem others) process rounds (Z.of_nat (length T)) (Z.of_nat k) s0 = (stt, tr) ->
  exists blocks,
    Forall2 (fun b js => exists eph, selected (fun e => In (fst e) (map fst b)) EPH eph /\
               Forall2 (fun e j => fst j = e /\ own_data (fst e) (b :: tables) (snd j)) eph js)
      blocks (map fst tr) /\
    cut_into k (firstn (length tr * k) T) blocks /\
    match stt with
    | Done => concat blocks = T /\ ceil_div (length T) k (length tr)
    | Interrupted => length tr = rounds /\ rounds * k < length T
    | Stopped e => length tr * k < length T /\ exists s c, process s c = Err e
    end.
Proof. exact C13_external_proof. Qed.
Print Assumptions C13_external.

Theorem C13_internal : forall R S O (aux0 : nat -> option nat -> result (list (string * R))) others tables T
    (process : S -> list (aux_joined R) -> result (S * option O)) k,
  (forall s n, aux0 s n = Ok (slice s n T)) ->
  Forall2 exact_reader tables others ->
  (forall X, In X tables -> NoDup (map fst X)) ->
  (forall i, In i (map fst T) -> forall X, In X tables -> In i (map fst X)) -> 0 < k ->
  forall rounds s0 stt tr,
  run (read_internal aux0 others) process rounds (Z.of_nat (length T)) (Z.of_nat k) s0 = (stt, tr) ->
  Forall (fun js => js <> [] /\ length js <= k) (map fst tr) /\
  Forall2 (fun r j => fst j = r /\ own_data (fst r) tables (snd j))
    (firstn (length tr * k) T) (concat (map fst tr)) /\
  match stt with
  | Done => ceil_div (length T) k (length tr)
  | Interrupted => length tr = rounds /\ rounds * k < length T
  | Stopped e => length tr * k < length T /\ exists s c, process s c = Err e
  end.
Proof. exact C13_internal_proof. Qed.
Print Assumptions C13_internal.

Theorem C13_terminates : forall S C O A (T : list A) (read : nat -> Z -> result (nat * option C))
    (process : S -> C -> result (S * option O)) k,
  0 < k ->
  (forall s, s < length T -> exists c,
     read s (Z.of_nat k) = Ok (s + length (slice s (Some k) T), Some c)) ->
  (forall s c, exists s' o, process s c = Ok (s', o)) ->
  forall rounds s0, length T <= rounds * k -> exists tr,
  run read process rounds (Z.of_nat (length T)) (Z.of_nat k) s0 = (Done, tr) /\
  ceil_div (length T) k (length tr).
Proof. exact C13_terminates_proof. Qed.
Print Assumptions C13_terminates.

Lemma d_exact : forall R (T : list (string * R)), exact_reader T (d_read T).
Proof.
  intros R T ids. unfold d_read. eexists. split; [reflexivity|]. apply selected_filter. intros x _.
  rewrite existsb_exists. split.
  - intros [i [H H']]. apply String.eqb_eq in H'. congruence.
  - intro H. exists (fst x). split; auto. apply String.eqb_refl.
Qed.

Example C13_case :
  exact_reader d_eph (d_read d_eph) /\ Forall2 exact_reader [d_phys] [d_read d_phys] /\
  fst (d_run None 2 2) = Done /\ length (snd (d_run None 2 2)) = 2 /\ fst (d_run None 1 2) = Interrupted /\
  map (fun r => map (fun j : d_joined => fst (fst j)) (fst r)) (snd (d_run None 2 2))
   = [["a"; "b"; "a"; "b"]; ["c"; "c"]]%string.
Proof.
  split; [apply d_exact|]. split; [repeat constructor; apply d_exact|]. repeat split; vm_compute; reflexivity.
Qed.

(** * C14: chunk sizes that make no progress *)

Theorem C14_loop_stops_partial : forall E R S O ephem (aux0 : nat -> option nat -> result (list (string * R))) others
    (T : list (string * R)) (process : S -> list (joined E R) -> result (S * option O)) size,
  (forall s n, aux0 s n = Ok (slice s n T)) -> (size <= 0)%Z -> T <> [] ->
  forall rounds s0, 0 < rounds -> exists e,
  run (read_external aux0 ephem others) process rounds (Z.of_nat (length T)) size s0 = (Stopped e, []).
Proof. exact C14_loop_proof. Qed.
Print Assumptions C14_loop_stops_partial.

Theorem C14_loop_stops_internal_partial : forall R S O (aux0 : nat -> option nat -> result (list (string * R))) others
    (T : list (string * R)) (process : S -> list (aux_joined R) -> result (S * option O)) size,
  (forall s n, aux0 s n = Ok (slice s n T)) -> (size <= 0)%Z -> T <> [] ->
  forall rounds s0, 0 < rounds -> exists e,
  run (read_internal aux0 others) process rounds (Z.of_nat (length T)) size s0 = (Stopped e, []).
Proof. exact C14_loop_internal_proof. Qed.
Print Assumptions C14_loop_stops_internal_partial.

Example C14_case : d_run None 3 0 = (Stopped AttributeError, []) /\ d_run None 3 (-2) = (Stopped ValueError, []).
Proof. split; reflexivity. Qed.

(** * C15: chunk size does not matter *)

Theorem C15_chunk_size : forall E P R (efield : joined E R -> Z) (etime : joined E R -> Q) (pfield : P -> Z) (pfilt : P -> option string)
    (pstart : P -> Q) pointings physics noise fsep prob gauss fov drop lsep tsort ldraws osort lweights
    (cfg : settings (joined E R) P)
    (EPH : list (string * E)) ephem (aux0 : nat -> option nat -> result (list (string * R))) others tables T,
  deterministic cfg ->
  sorter (fun x : obs (joined E R) P * bool * option Z => etime (o_eph (fst (fst x)))) osort ->
  sorter (fun o : obs (joined E R) P => etime (o_eph o)) tsort ->
  (forall c d, linking cfg = Some (c, d) -> (1 <= c_window c)%Z /\ (1 <= c_nlink c)%Z /\ (1 <= c_min_obs c)%Z
     /\ forall n k m, generic (lweights n k) m) ->
  exact_reader EPH ephem -> (forall s n, aux0 s n = Ok (slice s n T)) ->
  Forall2 exact_reader tables others ->
  NoDup (map fst T) -> (forall X, In X tables -> NoDup (map fst X)) ->
  (forall i, In i (map fst T) -> forall X, In X tables -> In i (map fst X)) ->
  exists catalogue, forall k rounds s0 tr, 0 < k ->
  run (read_external aux0 ephem others)
      (process (fun j => fst (fst j)) efield etime pfield pfilt pstart pointings physics noise fsep prob
         gauss fov drop lsep tsort ldraws osort lweights cfg)
      rounds (Z.of_nat (length T)) (Z.of_nat k) s0 = (Done, tr) ->
  Permutation (concat (written tr)) catalogue.
Proof. exact C15_proof. Qed.
Print Assumptions C15_chunk_size.

Example C15_case :
  deterministic (d_cfg (Some (d_link, false))) /\ NoDup (map fst d_orbits) /\
  (forall n, generic (fun k => (2 ^ Z.of_nat k)%Z) n) /\
  map d_view (concat (written (snd (d_run (Some (d_link, false)) 5 1))))
   = [("a", 1, Some (true, Some 10)); ("a", 2, Some (true, Some 10)); ("b", 1, Some (false, None))]%string%Z /\
  map d_view (concat (written (snd (d_run (Some (d_link, false)) 5 3))))
   = [("a", 1, Some (true, Some 10)); ("b", 1, Some (false, None)); ("a", 2, Some (true, Some 10))]%string%Z.
Proof.
  split; [repeat split|]. split; [repeat constructor; cbn; intuition discriminate|].
  split; [intro; apply generic_pow2|]. split; vm_compute; reflexivity.
Qed.

(** * C22: interrupted runs *)

Theorem C22_prefix : forall S C O (read : nat -> Z -> result (nat * option C))
    (process : S -> C -> result (S * option O)) lenf size s0 k1 k2, k1 <= k2 ->
  prefix_of (written (snd (run read process k1 lenf size s0))) (written (snd (run read process k2 lenf size s0))).
Proof. exact C22_prefix_proof. Qed.
Print Assumptions C22_prefix.

Example C22_case :
  map (map d_view) (written (snd (d_run None 1 1))) = [[("a", 1, None); ("a", 2, None)]]%string%Z /\
  map (map d_view) (written (snd (d_run None 9 1)))
   = [[("a", 1, None); ("a", 2, None)]; [("b", 1, None)]]%string%Z.
Proof. split; vm_compute; reflexivity. Qed.
