From Coq Require Import Reals ZArith String Bool Lia Lra Psatz List.
From Verif Require Import Base.Prelude Model.Sphere Model.Kepler Model.OrbitParse Model.Ephemeris Model.Setup
  Spec.Sphere Spec.Kepler Spec.OrbitParse Spec.Setup Proofs.Sphere Proofs.OrbitParse Proofs.Ephemeris.
Import ListNotations.
Open Scope list_scope.
Open Scope R_scope.

(** ** Starting states *)

Lemma cache_irrelevant fuel sun r epoch d g1 g2 : true_cache sun d ->
  match parse_orbit_row fuel sun r epoch [] g1 g2 with
  | Ok (_, st) => exists d', parse_orbit_row fuel sun r epoch d g1 g2 = Ok (d', st) /\ true_cache sun d'
  | Err e => parse_orbit_row fuel sun r epoch d g1 g2 = Err e
  end.
Proof.
  intros H. destruct (parse_orbit_row fuel sun r epoch d g1 g2) as [[d' st]|e] eqn:E.
  - destruct (C44_cache_proof _ _ _ _ _ _ _ _ _ H E) as [H' E'].
    destruct (parse_orbit_row fuel sun r epoch [] g1 g2) as [[d0 st0]|e0]; simpl in E'; [|discriminate].
    injection E' as ->. eauto.
  - unfold parse_orbit_row in *. destruct (ecliptic_state fuel r epoch g1 g2) as [s|]; cbn [rbind] in *; [|congruence].
    exfalso. destruct (sun_at sun d epoch) as [d1 [sx sv]]. destruct s as [[x v]|]; [|discriminate].
    destruct (is_in (or_format r) ["KEP"; "COM"; "CART"]%string); discriminate.
Qed.

Lemma put_new k v (d : sims) : ~ In k (map fst d) -> put k v d = d ++ [(k, v)].
Proof.
  induction d as [|[n w] d IH]; simpl; intros H; auto.
  destruct (String.eqb_spec n k) as [->|]; [tauto|]. rewrite IH; tauto.
Qed.

Definition started fuel sun g1 g2 jd_ref (r : orbit) (s : string * simulation) : Prop :=
  fst s = ob_id r /\ sim_t (snd s) = julian (ob_epoch r) - jd_ref
  /\ alone fuel sun g1 g2 r = Ok (Some (sim_state (snd s))).

Lemma simulate_step fuel sun g1 g2 jd_ref d done r rest : true_cache sun d ->
  match alone fuel sun g1 g2 r with
  | Ok (Some st) => exists d', true_cache sun d' /\
      simulate fuel sun g1 g2 jd_ref d done (r :: rest)
      = simulate fuel sun g1 g2 jd_ref d' (put (ob_id r) {| sim_t := julian (ob_epoch r) - jd_ref; sim_state := st |} done) rest
  | a => simulate fuel sun g1 g2 jd_ref d done (r :: rest) = Err (refusal a)
  end.
Proof.
  intros H. unfold alone. simpl. change (to_jd (ob_epoch r)) with (julian (ob_epoch r)).
  pose proof (cache_irrelevant fuel sun (ob_row r) (julian (ob_epoch r)) d g1 g2 H) as C.
  destruct (parse_orbit_row fuel sun (ob_row r) (julian (ob_epoch r)) [] g1 g2) as [[d0 [st|]]|e]; simpl.
  - destruct C as (d' & -> & H'). eauto.
  - destruct C as (d' & -> & H'). reflexivity.
  - rewrite C. destruct e; reflexivity.
Qed.

Lemma simulate_iff fuel sun g1 g2 jd_ref rows : forall d done out, true_cache sun d ->
  NoDup (map fst done ++ map ob_id rows) ->
  (simulate fuel sun g1 g2 jd_ref d done rows = Ok out
   <-> exists new, out = (done ++ new)%list /\ Forall2 (started fuel sun g1 g2 jd_ref) rows new).
Proof.
  induction rows as [|r rows IH]; intros d done out H ND.
  - simpl. split.
    + intros [= <-]. exists []. rewrite app_nil_r. split; auto.
    + intros (new & -> & F). inversion F. rewrite app_nil_r. reflexivity.
  - pose proof (simulate_step fuel sun g1 g2 jd_ref d done r rows H) as S.
    assert (N : ~ In (ob_id r) (map fst done)).
    { apply NoDup_remove_2 in ND. intro I. apply ND. apply in_or_app. auto. }
    destruct (alone fuel sun g1 g2 r) as [[st|]|e] eqn:A.
    + destruct S as (d' & H' & ->). rewrite (put_new _ _ _ N). rewrite IH; auto.
      2:{ rewrite map_app, <- app_assoc. exact ND. }
      split.
      * intros (new & -> & F). eexists (_ :: new). rewrite <- app_assoc. split; [reflexivity|].
        constructor; auto. split; [reflexivity|]. split; [reflexivity|]. exact A.
      * intros (new & -> & F). inversion F as [|? y ? new' (E1 & E2 & E3) F']; subst.
        rewrite A in E3. injection E3 as ->. destruct y as [k [t st]]. simpl in *. subst.
        exists new'. rewrite <- app_assoc. split; auto.
    + rewrite S. split; [discriminate|]. intros (new & -> & F). inversion F as [|? ? ? ? (E1 & E2 & E3)]. congruence.
    + rewrite S. split; [discriminate|]. intros (new & -> & F). inversion F as [|? ? ? ? (E1 & E2 & E3)]. congruence.
Qed.

Lemma empty_true sun : true_cache sun [].
Proof. intros t s []. Qed.

Lemma C89_each_proof : forall fuel sun gm_sun gm_total jd_ref rows out,
  NoDup (map ob_id rows) ->
  (generate_simulations fuel sun gm_sun gm_total jd_ref rows = Ok out
   <-> Forall2 (fun r s => fst s = ob_id r /\ sim_t (snd s) = julian (ob_epoch r) - jd_ref
                 /\ alone fuel sun gm_sun gm_total r = Ok (Some (sim_state (snd s)))) rows out).
Proof.
  intros. unfold generate_simulations. rewrite simulate_iff; [|apply empty_true|exact H].
  split; [intros (new & -> & F); exact F|intros F; exists out; auto].
Qed.

Lemma C89_outcome_proof : forall fuel sun gm_sun gm_total jd_ref rows,
  ((exists out, generate_simulations fuel sun gm_sun gm_total jd_ref rows = Ok out)
     <-> forall r, In r rows -> startable fuel sun gm_sun gm_total r)
  /\ forall good bad rest, rows = (good ++ bad :: rest)%list ->
       (forall r, In r good -> startable fuel sun gm_sun gm_total r) -> ~ startable fuel sun gm_sun gm_total bad ->
       generate_simulations fuel sun gm_sun gm_total jd_ref rows
       = Err (refusal (alone fuel sun gm_sun gm_total bad)).
Proof.
  intros fuel sun g1 g2 jd_ref rows. unfold generate_simulations.
  assert (G : forall good d done rest, true_cache sun d -> (forall r, In r good -> startable fuel sun g1 g2 r) ->
    exists d' done', true_cache sun d' /\
     simulate fuel sun g1 g2 jd_ref d done (good ++ rest) = simulate fuel sun g1 g2 jd_ref d' done' rest).
  { induction good as [|r good IH]; intros d done rest H S; [simpl; eauto|].
    pose proof (simulate_step fuel sun g1 g2 jd_ref d done r (good ++ rest) H) as P.
    destruct (S r (or_introl eq_refl)) as [st E]. rewrite E in P. destruct P as (d' & H' & P).
    cbn [app]. rewrite P. apply IH; auto. intros r' I. apply S. right; auto. }
  assert (B : forall good bad rest, rows = (good ++ bad :: rest)%list ->
       (forall r, In r good -> startable fuel sun g1 g2 r) -> ~ startable fuel sun g1 g2 bad ->
       simulate fuel sun g1 g2 jd_ref [] [] rows = Err (refusal (alone fuel sun g1 g2 bad))).
  { intros good bad rest -> S N. destruct (G good [] [] (bad :: rest) (empty_true sun) S) as (d & dn & H & ->).
    pose proof (simulate_step fuel sun g1 g2 jd_ref d dn bad rest H) as P. unfold startable in N.
    destruct (alone fuel sun g1 g2 bad) as [[st|]|e]; auto. exfalso. eauto. }
  split; [split|exact B].
  - intros [out E].
    assert (D : forall r, startable fuel sun g1 g2 r \/ ~ startable fuel sun g1 g2 r).
    { intro r. unfold startable. destruct (alone fuel sun g1 g2 r) as [[st|]|e]; [left; eauto|right|right];
        intros [st X]; discriminate. }
    clear G. revert B E. generalize (simulate fuel sun g1 g2 jd_ref [] [] rows) as res. intros res B E r I.
    destruct (D r) as [|N]; auto. exfalso.
    assert (X : exists good bad rest, rows = (good ++ bad :: rest)%list
        /\ (forall r, In r good -> startable fuel sun g1 g2 r) /\ ~ startable fuel sun g1 g2 bad).
    { clear B E. induction rows as [|x l IH]; [destruct I|]. destruct (D x) as [Sx|Nx].
      - destruct I as [->|I]; [contradiction|]. destruct (IH I) as (g & b & t & -> & S & Nb).
        exists (x :: g), b, t. split; auto. split; auto. intros y [<-|Hy]; auto.
      - exists [], x, l. split; auto. split; auto. intros y []. }
    destruct X as (g & b & t & E1 & S & Nb). specialize (B g b t E1 S Nb). congruence.
  - intros S. destruct (G rows [] [] [] (empty_true sun) S) as (d & dn & _ & E). rewrite app_nil_r in E.
    rewrite E. simpl. eauto.
Qed.

Lemma C89_own_proof : forall fuel sun gm_sun gm_total jd_ref rows1 rows2 out1 out2 r s1 s2,
  NoDup (map ob_id rows1) -> NoDup (map ob_id rows2) ->
  generate_simulations fuel sun gm_sun gm_total jd_ref rows1 = Ok out1 ->
  generate_simulations fuel sun gm_sun gm_total jd_ref rows2 = Ok out2 ->
  In r rows1 -> In r rows2 -> In (ob_id r, s1) out1 -> In (ob_id r, s2) out2 -> s1 = s2.
Proof.
  intros fuel sun g1 g2 jd_ref rows1 rows2 out1 out2 r s1 s2 N1 N2 E1 E2 I1 I2 J1 J2.
  apply C89_each_proof in E1, E2; auto.
  assert (K : forall rows out s, NoDup (map ob_id rows) ->
    Forall2 (fun r s => fst s = ob_id r /\ sim_t (snd s) = julian (ob_epoch r) - jd_ref
                 /\ alone fuel sun g1 g2 r = Ok (Some (sim_state (snd s)))) rows out ->
    In r rows -> In (ob_id r, s) out -> sim_t s = julian (ob_epoch r) - jd_ref
      /\ alone fuel sun g1 g2 r = Ok (Some (sim_state s))).
  { intros rows out s N F I J. induction F as [|r' [k v] rows out (A & B & C) F IH]; [destruct I|].
    simpl in A. subst k. inversion N as [|? ? N3 N4]; subst.
    assert (Q : forall x, In x out -> In (fst x) (map ob_id rows)).
    { clear -F. induction F as [|? ? ? ? (A & _)]; simpl; [tauto|]. intros u [<-|]; auto. }
    destruct I as [->|I].
    - destruct J as [J|J]; [injection J as <-; auto|]. exfalso. apply N3. apply (Q _ J).
    - destruct J as [J|J]; [|auto]. injection J as J1' J2'. exfalso. apply N3. rewrite J1'. apply in_map. exact I. }
  destruct (K _ _ _ N1 E1 I1 J1) as [A B]. destruct (K _ _ _ N2 E2 I2 J2) as [A' B'].
  destruct s1, s2; simpl in *; congruence.
Qed.

Lemma C89_epoch_proof : forall fuel sun gm_sun gm_total jd_ref id e row,
  0 <= e < 24000005 / 10 ->
  generate_simulations fuel sun gm_sun gm_total jd_ref [{| ob_id := id; ob_epoch := e; ob_row := row |}]
  = generate_simulations fuel sun gm_sun gm_total jd_ref [{| ob_id := id; ob_epoch := e + 24000005 / 10; ob_row := row |}].
Proof.
  intros. unfold generate_simulations. simpl. unfold to_jd, mjd_zero.
  destruct (Rlt_dec e _); [|lra]. destruct (Rlt_dec (e + _) _); [lra|]. reflexivity.
Qed.

Definition bcart (x : R) : orow :=
  {| or_format := "BCART"; or_col := fun c => Some (if String.eqb c "x" then x else 0) |}.

Lemma bcart_state fuel sun g1 g2 epoch x : exists st,
  parse_orbit_row fuel sun (bcart x) epoch [] g1 g2 = Ok ([(epoch, sun epoch)], Some (st)) /\ vx (fst st) = x.
Proof.
  unfold parse_orbit_row, ecliptic_state, cartesian_columns, bcart, get. simpl.
  destruct (sun epoch) as [sx sv]. eexists. split; [reflexivity|]. simpl. ring.
Qed.

Lemma C89_repeated_refuted_proof : forall fuel sun gm_sun gm_total jd_ref, exists r1 r2 s,
  ob_id r1 = ob_id r2 /\ startable fuel sun gm_sun gm_total r1 /\ startable fuel sun gm_sun gm_total r2
  /\ alone fuel sun gm_sun gm_total r1 <> alone fuel sun gm_sun gm_total r2
  /\ generate_simulations fuel sun gm_sun gm_total jd_ref [r1; r2] = Ok [(ob_id r2, s)]
  /\ alone fuel sun gm_sun gm_total r2 = Ok (Some (sim_state s)).
Proof.
  intros. destruct (bcart_state fuel sun gm_sun gm_total (julian 0) 1) as (s1 & E1 & X1).
  destruct (bcart_state fuel sun gm_sun gm_total (julian 0) 2) as (s2 & E2 & X2).
  set (r1 := {| ob_id := "a"; ob_epoch := 0; ob_row := bcart 1 |}).
  set (r2 := {| ob_id := "a"; ob_epoch := 0; ob_row := bcart 2 |}).
  assert (A1 : alone fuel sun gm_sun gm_total r1 = Ok (Some s1)) by (unfold alone; simpl; rewrite E1; reflexivity).
  assert (A2 : alone fuel sun gm_sun gm_total r2 = Ok (Some s2)) by (unfold alone; simpl; rewrite E2; reflexivity).
  exists r1, r2, {| sim_t := julian 0 - jd_ref; sim_state := s2 |}.
  split; [reflexivity|]. split; [exists s1; auto|]. split; [exists s2; auto|]. split.
  { rewrite A1, A2. intros [= ->]. lra. }
  split; [|exact A2]. unfold generate_simulations.
  pose proof (simulate_step fuel sun gm_sun gm_total jd_ref [] [] r1 [r2] (empty_true sun)) as P.
  rewrite A1 in P. destruct P as (d' & H & ->).
  pose proof (simulate_step fuel sun gm_sun gm_total jd_ref d' (put (ob_id r1) {| sim_t := julian (ob_epoch r1) - jd_ref; sim_state := s1 |} []) r2 [] H) as P.
  rewrite A2 in P. destruct P as (d'' & H2 & ->). reflexivity.
Qed.

(** ** Visits *)

Lemma each_forall2 {A B} (f : A -> result B) l out : each f l = Ok out <-> Forall2 (fun x y => f x = Ok y) l out.
Proof.
  revert out. induction l as [|x l IH]; intros out; simpl.
  - split; [intros [= <-]; constructor|intros F; inversion F; reflexivity].
  - destruct (f x) as [y|e] eqn:E; simpl.
    + destruct (each f l) as [ys|e] eqn:El; simpl.
      * split.
        { intros [= <-]. constructor; auto. apply IH. reflexivity. }
        { intros F. inversion F as [|? ? ? ? P Q]; subst. apply IH in Q. congruence. }
      * split; [discriminate|]. intros F. inversion F as [|? ? ? ? P Q]; subst. apply IH in Q. discriminate.
    + split; [discriminate|]. intros F. inversion F. congruence.
Qed.

Lemma py_round_mono x y : x <= y -> (py_round x <= py_round y)%Z.
Proof.
  intros H. unfold py_round. pose proof (base_Int_part (x + 1/2)) as [A1 A2]. pose proof (base_Int_part (y + 1/2)) as [B1 B2].
  set (n := Int_part (x + 1/2)) in *. set (m := Int_part (y + 1/2)) in *.
  assert (n <= m)%Z. { assert (n < m + 1)%Z; [|lia]. apply lt_IZR. rewrite plus_IZR. lra. }
  destruct (Z.eq_dec n m) as [E|N].
  - rewrite E in *. destruct (Req_EM_T (x + 1/2) (IZR m)), (Req_EM_T (y + 1/2) (IZR m));
      try destruct (Z.even m); try lia; lra.
  - destruct (Req_EM_T (x + 1/2) (IZR n)), (Req_EM_T (y + 1/2) (IZR m)); try destruct (Z.even n); try destruct (Z.even m); lia.
Qed.

Lemma geocentric o p : convert_to_geocentric o = Some p <->
  exists lon c s, parallax o lon c s /\ lon <> 0 /\ c <> 0 /\ s <> 0 /\ p = place lon c s.
Proof.
  unfold convert_to_geocentric, parallax, truthy, place. split.
  - destruct (longitude o) as [l|], (cosphi o) as [c|], (sinphi o) as [s|]; try discriminate.
    destruct (Req_EM_T l 0), (Req_EM_T c 0), (Req_EM_T s 0); try discriminate. intros [= <-]. exists l, c, s. auto 10.
  - intros (l & c & s & (-> & -> & ->) & L & C & S & ->).
    destruct (Req_EM_T l 0), (Req_EM_T c 0), (Req_EM_T s 0); tauto.
Qed.

Lemma C90_each_proof : forall earth pxform et_1962 codes str2et sun code visits out,
  precompute_pointing_information earth pxform et_1962 codes str2et sun code visits = Ok out ->
  Forall2 (fun p x => exists o lon c s f, let et := (x_jd x - 2451545) * 86400 in
    codes code = Some o /\ parallax o lon c s /\ frame_at et_1962 et f
    /\ x_dir x = direction (pt_ra p) (pt_dec p)
    /\ scale (149597870700 / 1000) (x_r_obs x) =
         vadd (fst (earth et)) (scale (6378137 / 1000) (mat_vec (pxform f et) (place lon c s)))
    /\ x_r_sun x = fst (sun (x_jd x)) /\ x_v_sun x = snd (sun (x_jd x))) visits out.
Proof.
  intros earth pxform et0 codes str2et sun code visits out H. apply each_forall2 in H.
  induction H as [|p x visits out E F IH]; constructor; auto. clear F IH.
  unfold precompute_row in E.
  set (jd := mjd_tai_to_epoch str2et (pt_mid p)) in *. clearbody jd.
  replace ((jd - j2000) * 24 * 60 * 60) with ((jd - 2451545) * 86400) in E by (unfold j2000; ring).
  unfold barycentricObservatoryRates in E. destruct (earth ((jd - 2451545) * 86400)) as [pos vel] eqn:Ee.
  destruct (codes code) as [o|] eqn:Ec; [|discriminate].
  destruct (convert_to_geocentric o) as [q|] eqn:Eg; [|discriminate]. apply geocentric in Eg.
  destruct Eg as (lon & c & s & P & L & C & S & ->). simpl in E. injection E as <-. simpl.
  exists o, lon, c, s, (if Rle_dec et0 ((jd - 2451545) * 86400) then ITRF93 else IAU_EARTH).
  split; auto. split; auto. split.
  { split; intros; destruct (Rle_dec _ _); auto; lra. }
  split; [apply ra_dec2vec_direction|]. split; [|auto]. rewrite Ee. simpl.
  unfold scale, vadd, AU_KM, RADIUS_EARTH_KM. simpl. f_equal; field.
Qed.

Lemma six_near x : Rabs (six_decimals x - x) <= 5 / 10000000.
Proof.
  unfold six_decimals. pose proof (py_round_near (x * 1000000)) as H.
  replace (IZR (py_round (x * 1000000)) / 1000000 - x) with (- (x * 1000000 - IZR (py_round (x * 1000000))) / 1000000) by field.
  unfold Rdiv. rewrite Rabs_mult, Rabs_Ropp, (Rabs_right (/ 1000000)); lra.
Qed.

Lemma C90_time_proof : forall earth pxform et_1962 codes str2et sun code visits out bound,
  (forall t, Rabs (str2et t - (t - 2451545) * 86400) <= bound) ->
  precompute_pointing_information earth pxform et_1962 codes str2et sun code visits = Ok out ->
  Forall2 (fun p x => Rabs (x_jd x - (pt_mid p + 24000005 / 10 + 32184 / 1000 / 86400)) <= (432 / 10000 + bound) / 86400)
    visits out.
Proof.
  intros earth pxform et0 codes str2et sun code visits out b B H. apply each_forall2 in H.
  induction H as [|p x visits out E F IH]; constructor; auto. clear F IH.
  assert (X : x_jd x = mjd_tai_to_epoch str2et (pt_mid p)).
  { unfold precompute_row in E. destruct (barycentricObservatoryRates _ _ _ _ _ _) as [rv|]; [|discriminate].
    injection E as <-. reflexivity. }
  rewrite X. unfold mjd_tai_to_epoch, mjd_zero, j2000.
  replace (24 * 60 * 60) with 86400 by ring.
  set (jd := pt_mid p + 24000005 / 10 + 32184 / 1000 / 86400).
  pose proof (six_near jd) as N. set (s := six_decimals jd) in *. specialize (B s).
  assert (N' : - (5 / 10000000) <= s - jd <= 5 / 10000000) by (revert N; unfold Rabs; destruct (Rcase_abs _); lra).
  assert (B' : - b <= str2et s - (s - 2451545) * 86400 <= b) by (revert B; unfold Rabs; destruct (Rcase_abs _); lra).
  apply Rabs_le. lra.
Qed.

Lemma C90_order_proof : forall earth pxform et_1962 codes str2et sun code visits out i j p q x y,
  (forall s t, s <= t -> str2et s <= str2et t) ->
  precompute_pointing_information earth pxform et_1962 codes str2et sun code visits = Ok out ->
  nth_error visits i = Some p -> nth_error visits j = Some q ->
  nth_error out i = Some x -> nth_error out j = Some y ->
  pt_mid p <= pt_mid q -> x_jd x <= x_jd y.
Proof.
  intros earth pxform et0 codes str2et sun code visits out i j p q x y M H Ip Iq Ix Iy L. apply each_forall2 in H.
  assert (X : forall i p x, nth_error visits i = Some p -> nth_error out i = Some x -> x_jd x = mjd_tai_to_epoch str2et (pt_mid p)).
  { clear -H. induction H as [|a b visits out E F IH]; intros [|i] p x; simpl; try discriminate; [|apply IH].
    intros [= ->] [= ->]. unfold precompute_row in E.
    destruct (barycentricObservatoryRates _ _ _ _ _ _) as [rv|]; [|discriminate]. injection E as <-. reflexivity. }
  rewrite (X i p x), (X j q y); auto. unfold mjd_tai_to_epoch, six_decimals.
  set (c := 24 * 60 * 60). assert (C : 0 < c) by (unfold c; lra).
  apply Rplus_le_compat_l. unfold Rdiv. apply Rmult_le_compat_r; [left; apply Rinv_0_lt_compat; exact C|].
  apply M. apply Rmult_le_compat_r; [lra|]. apply IZR_le. apply py_round_mono. lra.
Qed.

Lemma C90_own_proof : forall earth pxform et_1962 codes str2et sun code visits1 visits2 out1 out2 i j p x y,
  precompute_pointing_information earth pxform et_1962 codes str2et sun code visits1 = Ok out1 ->
  precompute_pointing_information earth pxform et_1962 codes str2et sun code visits2 = Ok out2 ->
  nth_error visits1 i = Some p -> nth_error visits2 j = Some p ->
  nth_error out1 i = Some x -> nth_error out2 j = Some y -> x = y.
Proof.
  intros earth pxform et0 codes str2et sun code v1 v2 o1 o2 i j p x y H1 H2 I1 I2 J1 J2. apply each_forall2 in H1, H2.
  assert (X : forall visits out, Forall2 (fun a b => precompute_row earth pxform et0 codes str2et sun code a = Ok b) visits out ->
    forall i p x, nth_error visits i = Some p -> nth_error out i = Some x ->
      precompute_row earth pxform et0 codes str2et sun code p = Ok x).
  { clear. intros visits out H. induction H as [|a b visits out E F IH]; intros [|i] p x; simpl; try discriminate; [|apply IH].
    intros [= ->] [= ->]. exact E. }
  pose proof (X _ _ H1 _ _ _ I1 J1). pose proof (X _ _ H2 _ _ _ I2 J2). congruence.
Qed.

Lemma C90_outcome_proof : forall earth pxform et_1962 codes str2et sun code visits,
  (exists out, precompute_pointing_information earth pxform et_1962 codes str2et sun code visits = Ok out)
  <-> visits = [] \/ exists o lon c s, codes code = Some o /\ parallax o lon c s /\ lon <> 0 /\ c <> 0 /\ s <> 0.
Proof.
  intros earth pxform et0 codes str2et sun code visits. split.
  - intros [out H]. apply each_forall2 in H. destruct H as [|p x visits out E F]; [auto|right].
    unfold precompute_row, barycentricObservatoryRates in E. destruct (earth _) as [pos vel].
    destruct (codes code) as [o|] eqn:Ec; [|discriminate].
    destruct (convert_to_geocentric o) as [q|] eqn:Eg; [|discriminate]. apply geocentric in Eg.
    destruct Eg as (lon & c & s & P & L & C & S & _). exists o, lon, c, s. auto.
  - intros [->|(o & lon & c & s & Ec & P & L & C & S)]; [exists []; reflexivity|].
    assert (Eg : convert_to_geocentric o = Some (place lon c s)) by (apply geocentric; exists lon, c, s; auto 10).
    unfold precompute_pointing_information. induction visits as [|p l [out IH]]; [exists []; reflexivity|].
    simpl. unfold precompute_row at 1, barycentricObservatoryRates. destruct (earth _) as [pos vel].
    rewrite Ec, Eg. simpl. rewrite IH. simpl. eauto.
Qed.

(** ** Central differences *)

Lemma dominated (h h' k k' : R -> R) s : 0 <= s -> h 0 = 0 -> k 0 = 0 ->
  (forall x, derivable_pt_lim h x (h' x)) -> (forall x, derivable_pt_lim k x (k' x)) ->
  (forall x, 0 <= x -> Rabs (h' x) <= k' x) -> Rabs (h s) <= k s.
Proof.
  intros Hs H0 K0 Dh Dk B. destruct (Req_dec s 0) as [->|N].
  { rewrite H0, K0, Rabs_R0. lra. }
  assert (P : 0 < s) by lra.
  destruct (MVT_cor2 (fun x => k x - h x) (fun x => k' x - h' x) 0 s P) as (c & E & C).
  { intros. apply derivable_pt_lim_minus; auto. }
  destruct (MVT_cor2 (fun x => k x + h x) (fun x => k' x + h' x) 0 s P) as (d & E' & D).
  { intros. apply derivable_pt_lim_plus; auto. }
  rewrite H0, K0 in *. pose proof (B c) as Bc. pose proof (B d) as Bd.
  assert (Hc : Rabs (h' c) <= k' c) by (apply Bc; lra). assert (Hd : Rabs (h' d) <= k' d) by (apply Bd; lra).
  assert (0 <= (k' c - h' c) * (s - 0)).
  { apply Rmult_le_pos; [|lra]. pose proof (Rle_abs (h' c)). lra. }
  assert (0 <= (k' d + h' d) * (s - 0)).
  { apply Rmult_le_pos; [|lra]. pose proof (Rle_abs (- h' d)). rewrite Rabs_Ropp in *. lra. }
  apply Rabs_le. lra.
Qed.

Lemma shift_right f f' t : (forall x, derivable_pt_lim f x (f' x)) -> forall x, derivable_pt_lim (fun s => f (t + s)) x (f' (t + x)).
Proof.
  intros D x. replace (f' (t + x)) with (f' (t + x) * (0 + 1)) by ring.
  apply (derivable_pt_lim_comp (fun s => t + s) f); [|apply D].
  apply (derivable_pt_lim_plus (fun _ => t) (fun s => s)); [apply derivable_pt_lim_const|apply derivable_pt_lim_id].
Qed.

Lemma shift_left f f' t : (forall x, derivable_pt_lim f x (f' x)) -> forall x, derivable_pt_lim (fun s => f (t - s)) x (- f' (t - x)).
Proof.
  intros D x. replace (- f' (t - x)) with (f' (t - x) * (0 - 1)) by ring.
  apply (derivable_pt_lim_comp (fun s => t - s) f); [|apply D].
  apply (derivable_pt_lim_minus (fun _ => t) (fun s => s)); [apply derivable_pt_lim_const|apply derivable_pt_lim_id].
Qed.

Lemma monomial c n : forall x, derivable_pt_lim (fun s => c * s ^ n) x (c * (INR n * x ^ pred n)).
Proof. intro x. apply (derivable_pt_lim_scal (fun s => s ^ n)). apply derivable_pt_lim_pow. Qed.

Lemma central g g1 g2 g3 b t s : thrice g g1 g2 g3 b -> 0 < s ->
  Rabs ((g (t + s) - g (t - s)) / (2 * s) - g1 t) <= b * s ^ 2 / 6.
Proof.
  intros (D1 & D2 & D3 & B) Hs.
  assert (S2 : forall x, 0 <= x -> Rabs (g2 (t + x) - g2 (t - x)) <= 2 * b * x ^ 1).
  { intros x Hx. apply (dominated (fun s => g2 (t + s) - g2 (t - s)) (fun s => g3 (t + s) + g3 (t - s))
      (fun s => 2 * b * s ^ 1) (fun s => 2 * b * (INR 1 * s ^ 0))); auto.
    - rewrite Rplus_0_r, Rminus_0_r. ring.
    - ring.
    - intro y. replace (g3 (t + y) + g3 (t - y)) with (g3 (t + y) - (- g3 (t - y))) by ring.
      apply (derivable_pt_lim_minus (fun s => g2 (t + s)) (fun s => g2 (t - s)));
        [apply (shift_right g2 g3 t D3)|apply (shift_left g2 g3 t D3)].
    - apply (monomial (2 * b) 1).
    - intros y _. simpl. pose proof (B (t + y)). pose proof (B (t - y)).
      pose proof (Rabs_triang (g3 (t + y)) (g3 (t - y))). lra. }
  assert (S1 : forall x, 0 <= x -> Rabs (g1 (t + x) + g1 (t - x) - 2 * g1 t) <= b * x ^ 2).
  { intros x Hx. apply (dominated (fun s => g1 (t + s) + g1 (t - s) - 2 * g1 t) (fun s => g2 (t + s) - g2 (t - s))
      (fun s => b * s ^ 2) (fun s => b * (INR 2 * s ^ 1))); auto.
    - rewrite Rplus_0_r, Rminus_0_r. ring.
    - ring.
    - intro y. replace (g2 (t + y) - g2 (t - y)) with (g2 (t + y) + (- g2 (t - y)) - 0) by ring.
      apply (derivable_pt_lim_minus (fun s => g1 (t + s) + g1 (t - s)) (fun _ => 2 * g1 t)); [|apply derivable_pt_lim_const].
      apply (derivable_pt_lim_plus (fun s => g1 (t + s)) (fun s => g1 (t - s)));
        [apply (shift_right g1 g2 t D2)|apply (shift_left g1 g2 t D2)].
    - apply (monomial b 2).
    - intros y Hy. eapply Rle_trans; [apply S2; auto|]. simpl. lra. }
  assert (S0 : Rabs (g (t + s) - g (t - s) - 2 * g1 t * s ^ 1) <= b / 3 * s ^ 3).
  { apply (dominated (fun s => g (t + s) - g (t - s) - 2 * g1 t * s ^ 1)
      (fun s => g1 (t + s) - (- g1 (t - s)) - 2 * g1 t * (INR 1 * s ^ 0))
      (fun s => b / 3 * s ^ 3) (fun s => b / 3 * (INR 3 * s ^ 2))); [lra| | | | |].
    - rewrite Rplus_0_r, Rminus_0_r. ring.
    - ring.
    - intro y. apply (derivable_pt_lim_minus (fun s => g (t + s) - g (t - s)) (fun s => 2 * g1 t * s ^ 1));
        [|apply (monomial (2 * g1 t) 1)].
      apply (derivable_pt_lim_minus (fun s => g (t + s)) (fun s => g (t - s)));
        [apply (shift_right g g1 t D1)|apply (shift_left g g1 t D1)].
    - apply (monomial (b / 3) 3).
    - intros y Hy. pose proof (S1 y Hy) as Q.
      replace (g1 (t + y) - - g1 (t - y) - 2 * g1 t * (INR 1 * y ^ 0)) with (g1 (t + y) + g1 (t - y) - 2 * g1 t) by (simpl; ring).
      replace (b / 3 * (INR 3 * y ^ 2)) with (b * y ^ 2) by (simpl; field). exact Q. }
  replace ((g (t + s) - g (t - s)) / (2 * s) - g1 t) with ((g (t + s) - g (t - s) - 2 * g1 t * s ^ 1) * / (2 * s)) by (field; lra).
  rewrite Rabs_mult, (Rabs_right (/ (2 * s))); [|left; apply Rinv_0_lt_compat; lra].
  replace (b * s ^ 2 / 6) with (b / 3 * s ^ 3 * / (2 * s)) by (field; lra).
  apply Rmult_le_compat_r; [left; apply Rinv_0_lt_compat; lra|exact S0].
Qed.

Lemma C90_velocity_proof : forall earth pxform et_1962 codes str2et sun code visits out i x lon c s o b,
  precompute_pointing_information earth pxform et_1962 codes str2et sun code visits = Ok out ->
  nth_error out i = Some x -> codes code = Some o -> parallax o lon c s ->
  let et := (x_jd x - 2451545) * 86400 in
  forall f axis axis1 axis2 axis3, frame_at et_1962 et f -> In axis [vx; vy; vz] ->
  thrice (fun t => axis (mat_vec (pxform f t) (place lon c s))) axis1 axis2 axis3 b ->
  Rabs (axis (x_v_obs x) * (149597870700 / 1000) / 86400 - (axis (snd (earth et)) + 6378137 / 1000 * axis1 et))
    <= 6378137 / 1000 * (b * 10 ^ 2 / 6).
Proof.
  intros earth pxform et0 codes str2et sun code visits out i x lon c s o b H I Ec P et f axis a1 a2 a3 Hf Ha T.
  apply each_forall2 in H.
  assert (E : exists p, precompute_row earth pxform et0 codes str2et sun code p = Ok x).
  { clear -H I. revert i I. induction H as [|a y visits out E F IH]; intros [|i]; simpl; try discriminate; [|apply IH].
    intros [= ->]. eauto. }
  destruct E as [p E]. unfold precompute_row in E.
  set (jd := mjd_tai_to_epoch str2et (pt_mid p)) in *. clearbody jd.
  replace ((jd - j2000) * 24 * 60 * 60) with ((jd - 2451545) * 86400) in E by (unfold j2000; ring).
  unfold barycentricObservatoryRates in E. destruct (earth ((jd - 2451545) * 86400)) as [pos vel] eqn:Ee.
  rewrite Ec in E. destruct (convert_to_geocentric o) as [q|] eqn:Eg; [|discriminate]. apply geocentric in Eg.
  destruct Eg as (lon' & c' & s' & (P1 & P2 & P3) & _ & _ & _ & ->). destruct P as (Q1 & Q2 & Q3).
  assert (lon' = lon) by congruence. assert (c' = c) by congruence. assert (s' = s) by congruence. subst lon' c' s'.
  simpl in E.
  assert (Ef : (if Rle_dec et0 ((jd - 2451545) * 86400) then ITRF93 else IAU_EARTH) = f).
  { assert (J : jd = x_jd x) by (injection E as <-; reflexivity). rewrite J. fold et. destruct Hf as [F1 F2].
    destruct (Rle_dec et0 et); [rewrite F1|rewrite F2]; auto; lra. }
  rewrite Ef in E. injection E as E. assert (J : jd = x_jd x) by (rewrite <- E; reflexivity).
  rewrite J in Ee, E. fold et in Ee, E. rewrite Ee. cbn [snd].
  pose proof (central _ _ _ _ _ et 10 T ltac:(lra)) as C. cbv beta in C.
  assert (V : axis (x_v_obs x) * (149597870700 / 1000) / 86400 =
    axis vel + 6378137 / 1000 * ((axis (mat_vec (pxform f (et + 10)) (place lon c s)) - axis (mat_vec (pxform f (et - 10)) (place lon c s))) / (2 * 10))).
  { rewrite <- E. unfold AU_KM, RADIUS_EARTH_KM, delta_et. destruct Ha as [<-|[<-|[<-|[]]]]; cbn [x_v_obs scale vadd vsub vx vy vz]; field. }
  rewrite V.
  match goal with |- Rabs (_ + _ * ?d - (_ + _ * ?a)) <= _ =>
    replace (axis vel + 6378137 / 1000 * d - (axis vel + 6378137 / 1000 * a)) with (6378137 / 1000 * (d - a)) by ring end.
  rewrite Rabs_mult, Rabs_right by lra. apply Rmult_le_compat_l; [lra|exact C].
Qed.
