From Coq Require Import Reals ZArith String List Bool Lia Lra Psatz.
From Verif Require Import Base.Prelude Model.Sphere Model.Kepler Model.OrbitParse Proofs.Sphere Spec.Sphere Spec.Kepler Spec.OrbitParse.
Import ListNotations.
Open Scope R_scope.

Lemma cache_get_true sun d t s : true_cache sun d -> cache_get d t = Some s -> s = sun t.
Proof.
  intros H. induction d as [|[k s0] d IH]; simpl; [discriminate|].
  destruct (Req_EM_T k t) as [->|].
  - intros [= <-]. apply H. left; reflexivity.
  - intros E. apply IH; auto. intros u v Hin. apply H. right; exact Hin.
Qed.

Lemma sun_at_true sun d t : true_cache sun d ->
  exists d', sun_at sun d t = (d', sun t) /\ true_cache sun d'.
Proof.
  intros H. unfold sun_at. destruct (cache_get d t) as [s|] eqn:E.
  - apply (cache_get_true sun) in E; auto. subst. eauto.
  - exists ((t, sun t) :: d). split; auto. intros u v [Hin|Hin]; [congruence|auto].
Qed.

Lemma C44_cache_proof : forall fuel sun r epoch d gm_sun gm_total d' st,
  true_cache sun d -> parse_orbit_row fuel sun r epoch d gm_sun gm_total = Ok (d', st) ->
  true_cache sun d' /\ rmap snd (parse_orbit_row fuel sun r epoch [] gm_sun gm_total) = Ok st.
Proof.
  intros fuel sun r epoch d g1 g2 d' st H E. unfold parse_orbit_row in *.
  destruct (ecliptic_state fuel r epoch g1 g2) as [s|]; [|discriminate]. simpl in *.
  destruct (sun_at_true sun d epoch H) as (d1 & E1 & H1). rewrite E1 in E.
  destruct (sun epoch) as [sx sv] eqn:ES. destruct s as [[x v]|].
  - destruct (is_in (or_format r) ["KEP"; "COM"; "CART"]%string) eqn:I; unfold is_in in I; simpl in I; rewrite I in E;
      injection E as <- <-; rewrite ?I; auto.
  - injection E as <- <-; auto.
Qed.

Lemma C44_shift_proof : forall fuel sun r epoch d gm hf bf,
  paired hf bf -> true_cache sun d ->
  rmap snd (parse_orbit_row fuel sun (with_format hf r) epoch d gm gm) =
  rmap (fun p => option_map (fun s => (vadd (fst s) (fst (sun epoch)), vadd (snd s) (snd (sun epoch)))) (snd p))
       (parse_orbit_row fuel sun (with_format bf r) epoch d gm gm).
Proof.
  intros fuel sun r epoch d gm hf bf P H.
  destruct (sun_at_true sun d epoch H) as (d1 & E1 & _).
  assert (ES : ecliptic_state fuel (with_format hf r) epoch gm gm = ecliptic_state fuel (with_format bf r) epoch gm gm).
  { destruct P; reflexivity. }
  unfold parse_orbit_row. rewrite ES, E1. clear ES. destruct (ecliptic_state _ _ _ _ _) as [s|]; [|reflexivity].
  destruct (sun epoch) as [sx sv]. destruct s as [[x v]|]; [|reflexivity].
  destruct P; reflexivity.
Qed.

Lemma C44_own_mass_proof : forall fuel sun r epoch d g1 g2 g hf bf, paired hf bf ->
  parse_orbit_row fuel sun (with_format hf r) epoch d g1 g2 = parse_orbit_row fuel sun (with_format hf r) epoch d g1 g
  /\ parse_orbit_row fuel sun (with_format bf r) epoch d g1 g2 = parse_orbit_row fuel sun (with_format bf r) epoch d g g2.
Proof. intros fuel sun r epoch d g1 g2 g hf bf P. destruct P; split; reflexivity. Qed.

Lemma C44_barycentric_proof : forall fuel sun sun' r epoch d d' gm_sun gm_total hf bf, paired hf bf ->
  rmap snd (parse_orbit_row fuel sun (with_format bf r) epoch d gm_sun gm_total)
  = rmap snd (parse_orbit_row fuel sun' (with_format bf r) epoch d' gm_sun gm_total).
Proof.
  intros fuel sun sun' r epoch d d' g1 g2 hf bf P. unfold parse_orbit_row.
  destruct (ecliptic_state _ _ _ _ _) as [s|]; [|reflexivity]. simpl.
  destruct (sun_at sun d epoch) as [a [sx sv]]. destruct (sun_at sun' d' epoch) as [a' [sx' sv']].
  destruct s as [[x v]|]; [|reflexivity]. destruct P; reflexivity.
Qed.

Lemma C44_unknown_proof : forall fuel sun r epoch d gm_sun gm_total,
  ~ In (or_format r) ["KEP"; "BKEP"; "COM"; "BCOM"; "CART"; "BCART"]%string ->
  parse_orbit_row fuel sun r epoch d gm_sun gm_total = Err ValueError.
Proof.
  intros fuel sun r epoch d g1 g2 H. unfold parse_orbit_row, ecliptic_state, is_in. simpl in *.
  set (f := or_format r) in *.
  assert (N : forall s, In s ["KEP"; "BKEP"; "COM"; "BCOM"; "CART"; "BCART"]%string -> String.eqb f s = false).
  { intros s Hs. apply String.eqb_neq. intros ->. apply H. simpl in Hs. intuition. }
  rewrite !N by (simpl; tauto). reflexivity.
Qed.

Lemma C44_columns_proof : forall fuel sun r r' epoch d gm_sun gm_total,
  or_format r = or_format r' ->
  (forall c, In c (documented_columns (or_format r)) -> or_col r c = or_col r' c) ->
  parse_orbit_row fuel sun r epoch d gm_sun gm_total = parse_orbit_row fuel sun r' epoch d gm_sun gm_total.
Proof.
  intros fuel sun r r' epoch d g1 g2 Hf Hc. unfold parse_orbit_row. rewrite <- Hf.
  replace (ecliptic_state fuel r' epoch g1 g2) with (ecliptic_state fuel r epoch g1 g2); [reflexivity|].
  unfold ecliptic_state. rewrite <- Hf. set (f := or_format r) in *.
  assert (G : forall c, In c (documented_columns f) -> get r c = get r' c) by (intros c Hin; unfold get; rewrite Hc; auto).
  unfold is_in. simpl. rewrite orb_false_r.
  destruct (String.eqb_spec f "CART") as [E|N1].
  { rewrite E in G. simpl. unfold cartesian_columns. rewrite !G by (simpl; tauto). reflexivity. }
  destruct (String.eqb_spec f "BCART") as [E|N2].
  { rewrite E in G. simpl. unfold cartesian_columns. rewrite !G by (simpl; tauto). reflexivity. }
  simpl.
  destruct (String.eqb_spec f "COM") as [E|N3].
  { rewrite E in G. unfold from_cometary. rewrite !G by (simpl; tauto). reflexivity. }
  destruct (String.eqb_spec f "BCOM") as [E|N4].
  { rewrite E in G. unfold from_cometary. rewrite !G by (simpl; tauto). reflexivity. }
  destruct (String.eqb_spec f "KEP") as [E|N5].
  { rewrite E in G. unfold from_keplerian. rewrite !G by (simpl; tauto). reflexivity. }
  destruct (String.eqb_spec f "BKEP") as [E|N6].
  { rewrite E in G. unfold from_keplerian. rewrite !G by (simpl; tauto). reflexivity. }
  reflexivity.
Qed.

Lemma C44_kep_com_proof : forall fuel sun kep com epoch d gm_sun gm_total,
  same_orbit gm_sun epoch kep com ->
  parse_orbit_row fuel sun (with_format "KEP" kep) epoch d gm_sun gm_total
  = parse_orbit_row fuel sun (with_format "COM" com) epoch d gm_sun gm_total.
Proof.
  intros fuel sun kep com epoch d g1 g2 (a & e & i & n & w & m & K1 & K2 & K3 & K4 & K5 & K6 & M1 & M2 & M3 & M4 & M5 & M6).
  unfold parse_orbit_row.
  replace (ecliptic_state fuel (with_format "COM" com) epoch g1 g2) with (ecliptic_state fuel (with_format "KEP" kep) epoch g1 g2).
  - destruct (ecliptic_state _ _ _ _ _) as [s|]; [|reflexivity]. simpl.
    destruct (sun_at _ _ _) as [d' [sx sv]]. destruct s as [[x v]|]; reflexivity.
  - unfold ecliptic_state; simpl. unfold from_keplerian, from_cometary, get; simpl.
    rewrite K1, K2, K3, K4, K5, K6, M1, M2, M3, M4, M5, M6. simpl.
    unfold mjd_zero. f_equal. replace (a * (a * (a * 1))) with (a * a * a) by ring. ring.
Qed.

(** A Cartesian row is rotated rigidly, leaving the ecliptic's x axis fixed. *)
Lemma C44_cartesian_proof : forall fuel sun r epoch d gm_sun gm_total x y z x' y' z',
  or_format r = "BCART"%string ->
  or_col r "x" = Some x -> or_col r "y" = Some y -> or_col r "z" = Some z ->
  or_col r "xdot" = Some x' -> or_col r "ydot" = Some y' -> or_col r "zdot" = Some z' ->
  exists d' X V, parse_orbit_row fuel sun r epoch d gm_sun gm_total = Ok (d', Some (X, V))
   /\ equatorial_to_ecliptic X = V3 x y z /\ equatorial_to_ecliptic V = V3 x' y' z'
   /\ vx X = x /\ length3 X = length3 (V3 x y z) /\ length3 V = length3 (V3 x' y' z').
Proof.
  intros fuel sun r epoch d g1 g2 x y z x' y' z' Hf H1 H2 H3 H4 H5 H6.
  unfold parse_orbit_row, ecliptic_state. rewrite Hf. cbn [is_in existsb String.eqb Ascii.eqb Bool.eqb orb].
  unfold cartesian_columns, get. rewrite H1, H2, H3, H4, H5, H6. cbn [rbind rmap].
  destruct (sun_at sun d epoch) as [d' [sx sv]].
  exists d', (ecliptic_to_equatorial (V3 x y z)), (ecliptic_to_equatorial (V3 x' y' z')).
  split; [reflexivity|]. split; [apply C34_inverse_proof|]. split; [apply C34_inverse_proof|].
  unfold length3. split; [unfold ecliptic_to_equatorial, ECL_TO_EQ_ROTATION_MATRIX; rewrite rot_form; reflexivity|].
  split; f_equal; [pose proof (C34_isometry_proof (V3 x y z) (V3 x y z)) as I|pose proof (C34_isometry_proof (V3 x' y' z') (V3 x' y' z')) as I];
    cbv zeta in I; destruct I as [I _]; cbn in *; lra.
Qed.

(** ** Observatories *)

Lemma C45_known_proof : forall o l c s, longitude o = Some l -> cosphi o = Some c -> sinphi o = Some s ->
  l <> 0 -> c <> 0 -> s <> 0 ->
  exists p, convert_to_geocentric o = Some p
   /\ vz p = s /\ vx p * vx p + vy p * vy p = c * c
   /\ vx p = c * cos (l * PI / 180) /\ vy p = c * sin (l * PI / 180).
Proof.
  intros [ol oc os] l c s; simpl. intros -> -> -> Hl Hc Hs. unfold convert_to_geocentric. simpl.
  destruct (Req_EM_T l 0); [contradiction|]. destruct (Req_EM_T c 0); [contradiction|].
  destruct (Req_EM_T s 0); [contradiction|]. simpl. eexists. split; [reflexivity|]. simpl.
  repeat split. pose proof (sin2_cos2 (l * PI / 180)) as T. unfold Rsqr in T. nra.
Qed.

(** The place of an observatory: the centre of the Earth plus Earth radii times its
    constants, turned into the inertial frame. *)
Lemma C45_barycentric_proof : forall earth m rearth codes code o l c s, codes code = Some o ->
  longitude o = Some l -> cosphi o = Some c -> sinphi o = Some s -> l <> 0 -> c <> 0 -> s <> 0 ->
  exists p, barycentricObservatory earth m rearth codes code = Ok p
   /\ forall row, (forall v, row v = vx v) \/ (forall v, row v = vy v) \/ (forall v, row v = vz v) ->
      row p = row earth + rearth * (c * cos (l * PI / 180) * row (V3 (vx (row1 m)) (vx (row2 m)) (vx (row3 m)))
        + c * sin (l * PI / 180) * row (V3 (vy (row1 m)) (vy (row2 m)) (vy (row3 m)))
        + s * row (V3 (vz (row1 m)) (vz (row2 m)) (vz (row3 m)))).
Proof.
  intros earth m rearth codes code o l c s Ho Hl Hc Hs Nl Nc Ns.
  destruct (C45_known_proof o l c s Hl Hc Hs Nl Nc Ns) as (p & E & Ez & _ & Ex & Ey).
  unfold barycentricObservatory. rewrite Ho, E. eexists. split; [reflexivity|].
  intros row [H|[H|H]]; rewrite !H; unfold vadd, scale, mat_vec, dot; cbn [vx vy vz]; rewrite Ex, Ey, Ez; ring.
Qed.

Lemma C45_missing_proof : forall o, longitude o = None \/ cosphi o = None \/ sinphi o = None ->
  convert_to_geocentric o = None.
Proof.
  intros [l c s] H; simpl in H. unfold convert_to_geocentric; simpl.
  destruct l, c, s; try reflexivity. destruct H as [H|[H|H]]; discriminate.
Qed.

(** Greenwich has longitude zero; its parallax constants are known. *)
Lemma C45_zero_refuted_proof :
  exists o, longitude o = Some 0 /\ cosphi o = Some (62411/100000) /\ sinphi o = Some (77873/100000)
   /\ convert_to_geocentric o = None
   /\ forall earth m rearth codes code, codes code = Some o ->
        barycentricObservatory earth m rearth codes code = Err TypeError.
Proof.
  exists {| longitude := Some 0; cosphi := Some (62411/100000); sinphi := Some (77873/100000) |}.
  assert (E : convert_to_geocentric {| longitude := Some 0; cosphi := Some (62411/100000); sinphi := Some (77873/100000) |} = None).
  { unfold convert_to_geocentric; simpl. destruct (Req_EM_T 0 0); [reflexivity|contradiction]. }
  repeat split; auto. intros. unfold barycentricObservatory. rewrite H, E. reflexivity.
Qed.
