(** Vocabulary for runs that consult random numbers (C107). *)
From Coq Require Import String List Bool ZArith QArith.
From Verif Require Import Base.Prelude Base.Num Base.Frame Model.Readers Model.Driver Model.Pipeline Spec.Filters Spec.Readers.
Import ListNotations.
Open Scope nat_scope.

(** Measurements are not randomised; the camera decides row by row.  The fading
    function and the fill factor may draw random numbers. *)
Definition unrandomised {E P} (cfg : settings E P) : Prop :=
  randomization_on cfg = false /\
  match cam cfg with
  | CamVisits on => forall l i o, nth_error l i = Some o -> on l i = on [o] 0
  | _ => True
  end.

(** The rows of [EPH] that belong to objects of [T] stand in groups, one for
    each object, in the order of [T]. *)
Definition in_order {E R} (T : list (string * R)) (EPH : list (string * E)) : Prop :=
  exists per, selected (fun e => In (fst e) (map fst T)) EPH (concat per)
    /\ Forall2 (fun t g => Forall (fun e => fst e = fst t) g) T per.

(** A survey of two objects for the counterexamples: objects [a] and [b] with one
    number each, ephemeris rows of field and time, two fields. *)
Definition s_orbits : list (string * Z) := [("a", 20); ("b", 21)]%string%Z.
Definition s_grouped : list (string * (Z * Q)) := [("a", (1, 10 # 1)); ("a", (2, 11 # 1)); ("b", (1, 10 # 1))]%string%Z.
(** The same rows in the order of time. *)
Definition s_by_time : list (string * (Z * Q)) := [("a", (1, 10 # 1)); ("b", (1, 10 # 1)); ("a", (2, 11 # 1))]%string%Z.
Definition s_pointings : list (Z * option string * Q) := [(1, Some "r", 10 # 1); (2, Some "g", 11 # 1)]%string%Z.
Definition s_physics (_ : joined (Z * Q) Z) (_ : Z * option string * Q) : columns :=
  {| k_ra := Fin 0; k_dec := Fin 0; k_trailed_true := Fin 20; k_psf_true := Fin 20; k_depth := Fin 24;
     k_snr := Fin 10; k_trailed := Fin 20; k_psf := Fin 20 |}.
Definition s_noise (a _ : num) (_ : num * num * num) (c : columns) : columns :=
  {| k_ra := k_ra c; k_dec := k_dec c; k_trailed_true := k_trailed_true c; k_psf_true := k_psf_true c; k_depth := k_depth c;
     k_snr := k_snr c; k_trailed := a; k_psf := k_psf c |}.
(** Runs with the fading function (probability one half, only the second draw is
    above) or with randomised measurements. *)
Definition s_cfg (randomised : bool) : settings (joined (Z * Q) Z) (Z * option string * Q) :=
  {| randomization_on := randomised; default_snr_cut := false; cam := CamNone;
     snr_limit := None; mag_limit := None; fading_on := negb randomised; bright := None;
     filters := ["r"; "g"]%string; linking := None |}.
Definition s_read {R} (T : list (string * R)) (ids : list string) : result (list (string * R)) :=
  Ok (filter (fun r => existsb (String.eqb (fst r)) ids) T).
Definition s_run (randomised : bool) (EPH : list (string * (Z * Q))) (rounds : nat) (size : Z) :=
  run (read_external (fun s n => Ok (slice s n s_orbits)) (s_read EPH) [])
    (process (fun j : joined (Z * Q) Z => fst (fst j)) (fun j => fst (snd (fst j))) (fun j => snd (snd (fst j)))
      (fun p : Z * option string * Q => fst (fst p)) (fun p => snd (fst p)) (fun p => snd p) s_pointings s_physics
      s_noise (fun _ => Fin 0) (fun _ => Fin (1 # 2)) (fun i => Fin (inject_Z (Z.of_nat i))) (fun _ => Fin 0)
      (fun i => match i with 1 => Fin 1 | _ => Fin 0 end)
      (fun _ _ => Fin 1) (fun l => l) (fun _ _ => Fin 0) (fun l => l) (fun _ _ _ => 0%Z) (s_cfg randomised))
    rounds (Z.of_nat (length s_orbits)) size {| n_gauss := 0; n_fov := 0; n_drop := 0; n_link := 0 |}.
