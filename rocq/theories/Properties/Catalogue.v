(** * C115: the catalogue of a run without random decisions, described outright *)
From Coq Require Import String List Arith ZArith QArith Qabs Bool Lia Sorting.Permutation.
From Verif Require Import Base.Prelude Base.Num Base.Frame Base.Sort Model.Filters Model.Linking Model.Readers Model.Driver Model.Pipeline
  Spec.Filters Spec.Linking Spec.Readers Spec.Driver Spec.Pipeline Spec.Catalogue
  Proofs.LinkProps Proofs.Driver Proofs.Pipeline Proofs.Chunking Proofs.Catalogue Properties.Driver.
Import ListNotations.
Open Scope nat_scope.

Theorem C115_catalogue : forall E P R (efield : joined E R -> Z) (etime : joined E R -> Q) (pfield : P -> Z) (pfilt : P -> option string)
    (pstart : P -> Q) pointings physics noise fsep prob gauss fov drop lsep tsort ldraws osort lweights
    (cfg : settings (joined E R) P)
    (EPH : list (string * E)) ephem (aux0 : nat -> option nat -> result (list (string * R))) others tables T,
  deterministic cfg -> sure_linking cfg ldraws lweights ->
  sorter (fun x : obs (joined E R) P * bool * option Z => etime (o_eph (fst (fst x)))) osort ->
  sorter (fun o : obs (joined E R) P => etime (o_eph o)) tsort ->
  exact_reader EPH ephem -> (forall s n, aux0 s n = Ok (slice s n T)) ->
  Forall2 exact_reader tables others ->
  NoDup (map fst T) -> (forall X, In X tables -> NoDup (map fst X)) ->
  (forall i, In i (map fst T) -> forall X, In X tables -> In i (map fst X)) ->
  exists js D,
    complete_table EPH T tables js /\
    detected efield pfield pfilt physics fsep cfg pointings js D /\
    (night_time etime cfg D -> forall k rounds s0, 0 < k ->
       let outcome := run (read_external aux0 ephem others)
         (process (fun j => fst (fst j)) efield etime pfield pfilt pstart pointings physics noise fsep prob
            gauss fov drop lsep tsort ldraws osort lweights cfg)
         rounds (Z.of_nat (length T)) (Z.of_nat k) s0 in
       (fst outcome = Done ->
          timely efield etime pfield pfilt pstart pointings js /\
          catalogued (fun j => fst (fst j)) etime lsep tsort cfg D (concat (written (snd outcome)))) /\
       (timely efield etime pfield pfilt pstart pointings js -> limits_fit cfg ->
          length T <= rounds * k -> fst outcome = Done)).
Proof. exact C115_catalogue_proof. Qed.
Print Assumptions C115_catalogue.

(** The survey of Properties/Driver.v meets the hypotheses, with linking: the rows of the
    complete table, the detections among them, all at night and at the time of their
    pointing.  Object c is too faint.  With two objects at a time the run completes,
    object a is linked, and object b, not linked, is dropped. *)
Definition d_table : list d_joined := map (fun e => (e, [nth_error (map snd (filter (fun r => String.eqb (fst r) (fst e)) d_orbits)) 0;
   nth_error (map snd (filter (fun r => String.eqb (fst r) (fst e)) d_phys)) 0])) d_eph.
Definition d_time (j : d_joined) : Q := snd (snd (fst j)).
Example C115_case :
  deterministic (d_cfg (Some (d_link, true))) /\
  sure_linking (d_cfg (Some (d_link, true))) (fun _ _ => Fin 0) (fun _ _ k => (2 ^ Z.of_nat k)%Z) /\
  NoDup (map fst d_orbits) /\ NoDup (map fst d_phys) /\
  complete_table d_eph d_orbits [d_phys] d_table /\
  timely (fun j : d_joined => fst (snd (fst j))) d_time (fun p : Z * option string * Q => fst (fst p)) (fun p => snd (fst p)) (fun p => snd p)
    d_pointings d_table /\
  limits_fit (d_cfg (Some (d_link, true))) /\
  (exists D, detected (fun j : d_joined => fst (snd (fst j))) (fun p : Z * option string * Q => fst (fst p)) (fun p => snd (fst p))
       d_physics (fun _ => Fin 1) (d_cfg (Some (d_link, true))) d_pointings d_table D /\ length D = 3 /\
     night_time d_time (d_cfg (Some (d_link, true))) D) /\
  fst (d_run (Some (d_link, true)) 2 2) = Done /\
  map d_view (concat (written (snd (d_run (Some (d_link, true)) 2 2))))
   = [("a", 1, Some (true, Some 10)); ("a", 2, Some (true, Some 10))]%string%Z.
Proof.
  split; [repeat split|]. split.
  { intros c dropu H. injection H as <- <-. repeat split; cbn; intros. all: try lia. all: first [apply nltb_lt; reflexivity|apply Z.pow_pos_nonneg; lia]. }
  split; [repeat constructor; cbn; intuition discriminate|]. split; [repeat constructor; cbn; intuition discriminate|].
  split.
  { exists d_eph. split.
    - repeat (constructor; [cbn; tauto|]). constructor.
    - repeat (constructor; [split; [reflexivity|repeat (constructor; [eexists; split; [reflexivity|cbn; tauto]|]); constructor]|]). constructor. }
  split.
  { intros j p Hj Hp Hf _. cbn in Hj, Hp.
    repeat (destruct Hj as [<-|Hj]; [repeat (destruct Hp as [<-|Hp]; [first [discriminate Hf|cbn; discriminate]|]); destruct Hp|]). destruct Hj. }
  split; [exact I|]. split.
  { exists (flat_map (yields (fun j : d_joined => fst (snd (fst j))) (fun p : Z * option string * Q => fst (fst p)) (fun p => snd (fst p))
       d_pointings d_physics (fun _ => Fin 1) (d_cfg (Some (d_link, true)))) d_table).
    split; [|split].
    - eapply yields_detected; [exact (fun _ _ _ c => c)|exact (fun _ => Fin 1)|exact (fun _ _ => Fin 1)].
    - vm_compute. reflexivity.
    - intros c dropu H o Ho. injection H as <- <-. vm_compute in Ho.
      repeat (destruct Ho as [<-|Ho]; [unfold well_phased, d_time; cbn; first [exists 9%Z; repeat split; cbn; discriminate|exists 10%Z; repeat split; cbn; discriminate|idtac]|]).
      destruct Ho. }
  split; vm_compute; reflexivity.
Qed.
