From Coq Require Import String List Arith ZArith Bool Reals Lra Lia.
From Verif Require Import Base.Prelude Model.Sphere Model.Randomize Spec.Sphere Spec.Randomize Proofs.Sphere Proofs.Sky Proofs.Randomize.
Import ListNotations.
Open Scope nat_scope.

(** * C25: random streams *)

Theorem C25_alone : forall G Q A (init : Z -> G) (draw : G -> Q -> G * A) md5 base m l,
  filter (fun x => String.eqb (fst x) m) (requests init draw md5 base [] l)
  = requests init draw md5 base [] (filter (fun x => String.eqb (fst x) m) l).
Proof. exact C25_alone_proof. Qed.
Print Assumptions C25_alone.
Theorem C25_stream : forall G Q A (init : Z -> G) (draw : G -> Q -> G * A) md5 base m l,
  let asked := map snd (filter (fun x => String.eqb (fst x) m) l) in
  let got := map snd (filter (fun x => String.eqb (fst x) m) (requests init draw md5 base [] l)) in
  stream draw (init ((base + md5 m) mod 2 ^ 31)%Z) asked got /\ (0 <= (base + md5 m) mod 2 ^ 31 < 2 ^ 31)%Z.
Proof. exact C25_stream_proof. Qed.
Print Assumptions C25_stream.

(** Seeds coincide only for names whose hashes agree modulo 2^31, and a change
    of the base seed changes every module's seed. *)
Theorem C25_collision : forall md5 base m n,
  module_seed md5 base m = module_seed md5 base n <-> ((md5 m - md5 n) mod 2 ^ 31 = 0)%Z.
Proof. exact C25_collision_proof. Qed.
Print Assumptions C25_collision.
Theorem C25_base : forall md5 b1 b2 m,
  module_seed md5 b1 m = module_seed md5 b2 m <-> ((b1 - b2) mod 2 ^ 31 = 0)%Z.
Proof. exact C25_base_proof. Qed.
Print Assumptions C25_base.

Example C25_case :
  let draw (g : Z) (q : Datatypes.unit) := ((g + 1)%Z, g) in
  let md5 (s : string) := Z.of_nat (String.length s) in
  requests (fun s => (10 * s)%Z) draw md5 5 [] [("a", tt); ("bb", tt); ("a", tt); ("bb", tt); ("a", tt)]%string
  = [("a", 60); ("bb", 70); ("a", 61); ("bb", 71); ("a", 62)]%string%Z.
Proof. vm_compute. reflexivity. Qed.

Open Scope R_scope.

(** * C33: right ascension and declination *)

Theorem C33_unit : forall ra dec, unit (radec2icrf ra dec) /\ ra_dec2vec ra dec = radec2icrf ra dec.
Proof. exact C33_unit_proof. Qed.
Print Assumptions C33_unit.
Theorem C33_vector : forall x y z ra dec, V3 x y z <> V3 0 0 0 -> icrf2radec x y z = (ra, dec) ->
  0 <= ra < 360 /\ -90 <= dec <= 90 /\ along (V3 x y z) (radec2icrf ra dec).
Proof. exact C33_vector_proof. Qed.
Print Assumptions C33_vector.
Theorem C33_vector2 : forall v ra dec, unit v -> vec2ra_dec v = (ra, dec) ->
  0 <= ra < 360 /\ -90 <= dec <= 90 /\ ra_dec2vec ra dec = v.
Proof. exact C33_vector2_proof. Qed.
Print Assumptions C33_vector2.
Theorem C33_angles : forall ra dec, 0 <= ra < 360 -> -90 < dec < 90 ->
  let v := radec2icrf ra dec in
  icrf2radec (vx v) (vy v) (vz v) = (ra, dec) /\ vec2ra_dec v = (ra, dec).
Proof. exact C33_angles_proof. Qed.
Print Assumptions C33_angles.

Lemma quarter_turn : 90 * PI / 180 = PI / 2. Proof. field. Qed.
Example C33_case : radec2icrf 90 0 = V3 0 1 0 /\ icrf2radec 0 1 0 = (90, 0) /\ vec2ra_dec (V3 0 1 0) = (90, 0).
Proof.
  assert (E : radec2icrf 90 0 = V3 0 1 0).
  { unfold radec2icrf, deg2rad. rewrite quarter_turn, cos_PI2, sin_PI2. replace (0 * PI / 180) with 0 by field.
    rewrite cos_0, sin_0. f_equal; ring. }
  destruct (C33_angles_proof 90 0 ltac:(lra) ltac:(lra)) as [H1 H2]. rewrite E in H1, H2. auto.
Qed.

(** * C34: ecliptic and equatorial frames *)

Theorem C34_inverse : forall v,
  equatorial_to_ecliptic (ecliptic_to_equatorial v) = v /\ ecliptic_to_equatorial (equatorial_to_ecliptic v) = v.
Proof. exact C34_inverse_proof. Qed.
Print Assumptions C34_inverse.
Theorem C34_isometry : forall a b,
  let f := ecliptic_to_equatorial in let g := equatorial_to_ecliptic in
  vx (f a) * vx (f b) + vy (f a) * vy (f b) + vz (f a) * vz (f b) = vx a * vx b + vy a * vy b + vz a * vz b /\
  vx (g a) * vx (g b) + vy (g a) * vy (g b) + vz (g a) * vz (g b) = vx a * vx b + vy a * vy b + vz a * vz b /\
  f (cross a b) = cross (f a) (f b) /\ g (cross a b) = cross (g a) (g b).
Proof. exact C34_isometry_proof. Qed.
Print Assumptions C34_isometry.
Theorem C34_obliquity : forall e, e = 84381448 / 1000 / 3600 * PI / 180 ->
  ecliptic_to_equatorial (V3 1 0 0) = V3 1 0 0 /\
  ecliptic_to_equatorial (V3 0 0 1) = V3 0 (- sin e) (cos e) /\
  ecliptic_to_equatorial (V3 0 1 0) = V3 0 (cos e) (sin e).
Proof. exact C34_obliquity_proof. Qed.
Print Assumptions C34_obliquity.

Example C34_case : exists e, 0 < e < PI / 2 /\ ecliptic_to_equatorial (V3 2 0 3) = V3 2 (- 3 * sin e) (3 * cos e).
Proof.
  exists OBLIQUITY_ECLIPTIC. split.
  - unfold OBLIQUITY_ECLIPTIC. pose proof PI_RGT_0. lra.
  - unfold ecliptic_to_equatorial, ECL_TO_EQ_ROTATION_MATRIX. rewrite rot_form. cbn. f_equal; ring.
Qed.

(** * C35: the sky-plane triad *)

Theorem C35_triad : forall v, unit v -> -1 < vz v < 1 ->
  let A := fst (get_residual_vectors v) in let D := snd (get_residual_vectors v) in
  unit A /\ unit D /\ orthogonal A D /\ orthogonal A v /\ orthogonal D v /\ cross A D = v.
Proof. exact C35_triad_proof. Qed.
Print Assumptions C35_triad.

Example C35_case : unit (V3 (3/5) 0 (4/5)) /\ get_residual_vectors (V3 (3/5) 0 (4/5)) = (V3 0 1 0, V3 (- 4/5) 0 (3/5)).
Proof.
  split; [unfold unit; cbn; field|]. unfold get_residual_vectors. cbn.
  replace (sqrt (1 - 4 / 5 * (4 / 5))) with (3/5).
  - f_equal; f_equal; field.
  - replace (1 - 4 / 5 * (4 / 5)) with (Rsqr (3/5)) by (unfold Rsqr; field). symmetry. apply sqrt_Rsqr. lra.
Qed.

(** * C55: randomisation *)

Theorem C55_rows : forall s1 s2 g (tl cut : bool) l,
  let out := randomizeAstrometryAndPhotometry s1 s2 g tl cut l in
  exists kept, selected (fun r => cut = true -> 2 < m_snr r) l kept /\ length out = length kept /\
   forall i r r', nth_error kept i = Some r -> nth_error out i = Some r' ->
      m_ra_true r' = Some (m_ra r) /\ m_dec_true r' = Some (m_dec r) /\
      m_trailed_true r' = m_trailed_true r /\ m_psf_true r' = m_psf_true r /\
      m_sig_trailed r' = m_sig_trailed r /\ m_sig_psf r' = m_sig_psf r /\ m_sig_ast r' = m_sig_ast r /\ m_snr r' = m_snr r /\
      m_trailed r' = Some (m_trailed_true r + s1 i * m_sig_trailed r) /\
      m_psf r' = Some (if tl then m_psf_true r + s2 i * m_sig_psf r else m_trailed_true r + s1 i * m_sig_trailed r) /\
      (m_ra r', m_dec r') = randomizeAstrometry (m_ra r) (m_dec r) (m_sig_ast r) (g i).
Proof. exact C55_rows_proof. Qed.
Print Assumptions C55_rows.
Theorem C55_position : forall ra dec sig g ra' dec', randomizeAstrometry ra dec sig g = (ra', dec') ->
  vadd (scale (deg2rad sig) g) (radec2icrf ra dec) <> V3 0 0 0 ->
  0 <= ra' < 360 /\ -90 <= dec' <= 90 /\
  along (vadd (scale (sig * PI / 180) g) (direction ra dec)) (direction ra' dec').
Proof. exact C55_position_proof. Qed.
Print Assumptions C55_position.
Theorem C55_zero_noise : forall s1 s2 g tl l,
  Forall (fun r => m_sig_trailed r = 0 /\ m_sig_psf r = 0 /\ m_sig_ast r = 0 /\ 0 <= m_ra r < 360 /\ -90 < m_dec r < 90) l ->
  (tl = false -> Forall (fun r => m_psf_true r = m_trailed_true r) l) ->
  randomizeAstrometryAndPhotometry s1 s2 g tl false l = no_randomization l.
Proof. exact C55_zero_noise_proof. Qed.
Print Assumptions C55_zero_noise.

Definition r_row (snr sig : R) : meas :=
  {| m_ra := 10; m_dec := 20; m_trailed := None; m_psf := None; m_ra_true := None; m_dec_true := None;
     m_trailed_true := 20; m_psf_true := 21; m_sig_trailed := sig; m_sig_psf := sig; m_sig_ast := sig; m_snr := snr |}.
Example C55_case : map m_trailed (randomizeAstrometryAndPhotometry (fun i => INR i + 1) (fun _ => 0) (fun _ => V3 0 0 0) true true
  [r_row 1 2; r_row 3 2; r_row 4 (1/2)]) = [Some 22; Some 21].
Proof.
  unfold randomizeAstrometryAndPhotometry. cbn [filter m_snr r_row].
  destruct (Rlt_dec 2 1); [lra|]. destruct (Rlt_dec 2 3); [|lra]. destruct (Rlt_dec 2 4); [|lra].
  cbn [map randomize_rows randomize_row m_trailed m_trailed_true m_sig_trailed r_row]. unfold randomizePhotometry. cbn. repeat f_equal; lra.
Qed.

(** * C63: light travel time *)

Theorem C63_light_time : forall at_time v t r_obs lt0 lt iter rho lt' pos vel,
  let c := 299792458 * 86400 / 149597870700 in
  (forall a b, norm (vsub (fst (at_time a)) (fst (at_time b))) <= v * Rabs (a - b)) -> 0 <= v ->
  norm (vsub (fst (at_time (t - lt))) r_obs) = c * lt -> (1 <= iter)%nat ->
  integrate_light_time at_time t r_obs lt0 iter = (rho, lt', pos, vel) ->
  exists used, Rabs (used - lt) <= (v / c) ^ (iter - 1) * Rabs (lt0 - lt) /\
    (pos, vel) = at_time (t - used) /\ rho = vsub pos r_obs /\
    norm (vsub rho (vsub (fst (at_time (t - lt))) r_obs)) <= v * (v / c) ^ (iter - 1) * Rabs (lt0 - lt) /\
    Rabs (lt' - lt) <= (v / c) ^ iter * Rabs (lt0 - lt).
Proof. exact C63_light_time_proof. Qed.
Print Assumptions C63_light_time.

Example C63_case :
  (forall a b : R, norm (vsub (V3 a 0 0) (V3 b 0 0)) <= 1 * Rabs (a - b)) /\
  norm (vsub (V3 ((299792458 * 86400 / 149597870700) + 1 - 1) 0 0) (V3 0 0 0)) = (299792458 * 86400 / 149597870700) * 1.
Proof.
  assert (N : forall a b, norm (vsub (V3 a 0 0) (V3 b 0 0)) = Rabs (a - b)).
  { intros. unfold norm, dot, vsub; cbn. rewrite <- sqrt_Rsqr_abs. f_equal. unfold Rsqr. ring. }
  split.
  - intros. rewrite N. lra.
  - rewrite N. rewrite Rabs_right; [ring|]. lra.
Qed.

(** * C64: rates *)

Theorem C64_projection : forall (ra dec : R -> R) t ra' dec' (w : vec),
  derivable_pt_lim ra t ra' -> derivable_pt_lim dec t dec' -> -90 < dec t < 90 ->
  derivable_pt_lim (fun s => vx (direction (ra s) (dec s))) t (vx w) ->
  derivable_pt_lim (fun s => vy (direction (ra s) (dec s))) t (vy w) ->
  derivable_pt_lim (fun s => vz (direction (ra s) (dec s))) t (vz w) ->
  let AD := get_residual_vectors (direction (ra t) (dec t)) in
  dot (fst AD) w * 180 / PI = ra' * cos (dec t * PI / 180) /\ dot (snd AD) w * 180 / PI = dec'.
Proof. exact C64_projection_proof. Qed.
Print Assumptions C64_projection.
Theorem C64_rates : forall (m ra dec : R -> R) t m' ra' dec' r_sun r_obs v_sun v_obs r_ast v_ast delta,
  0 < m t -> -90 < dec t < 90 ->
  derivable_pt_lim m t m' -> derivable_pt_lim ra t ra' -> derivable_pt_lim dec t dec' ->
  let rho s := scale (m s) (direction (ra s) (dec s)) in
  delta = dot (direction (ra t) (dec t)) (vsub v_ast v_obs) / SPEED_OF_LIGHT ->
  (forall c, In c (vx :: vy :: vz :: nil) -> derivable_pt_lim (fun s => c (rho s)) t ((1 - delta) * c v_ast - c v_obs)) ->
  let gm := calculate_rates_and_geometry r_sun r_obs v_sun v_obs (rho t) r_ast v_ast in
  g_ra_rate gm = ra' * cos (dec t * PI / 180) /\ g_dec_rate gm = dec' /\
  g_range_rate gm = AU_KM / 86400 * dot (direction (ra t) (dec t)) (vsub v_ast v_obs) /\
  g_range_km gm = AU_KM * m t /\ direction (g_ra gm) (g_dec gm) = direction (ra t) (dec t).
Proof. exact C64_rates_proof. Qed.
Print Assumptions C64_rates.

(** An object moving one degree per day in right ascension at the equator. *)
Example C64_case : exists v_ast,
  let gm := calculate_rates_and_geometry (V3 0 0 0) (V3 0 0 0) (V3 0 0 0) (V3 0 0 0) (V3 1 0 0) (V3 1 0 0) v_ast in
  g_ra_rate gm = 1 /\ g_dec_rate gm = 0 /\ g_range_rate gm = 0.
Proof.
  exists (V3 0 (PI / 180) 0). pose proof PI_RGT_0.
  assert (D1 : forall s, derivable_pt_lim (fun s => 1 * sin (s * PI / 180)) s (cos (s * PI / 180) * (PI / 180))).
  { intro s. eapply derivable_pt_lim_ext with (f := comp sin (mult_real_fct (PI / 180) id)).
    - intro z. unfold comp, mult_real_fct, id. rewrite Rmult_1_l. f_equal. field.
    - replace (PI / 180) with (PI / 180 * 1) at 2 by ring. apply derivable_pt_lim_comp.
      + apply derivable_pt_lim_scal. apply derivable_pt_lim_id.
      + unfold mult_real_fct, id. replace (PI / 180 * s) with (s * PI / 180) by field. apply derivable_pt_lim_sin. }
  assert (D2 : forall s, derivable_pt_lim (fun s => 1 * cos (s * PI / 180)) s (- sin (s * PI / 180) * (PI / 180))).
  { intro s. eapply derivable_pt_lim_ext with (f := comp cos (mult_real_fct (PI / 180) id)).
    - intro z. unfold comp, mult_real_fct, id. rewrite Rmult_1_l. f_equal. field.
    - replace (PI / 180) with (PI / 180 * 1) at 2 by ring. apply derivable_pt_lim_comp.
      + apply derivable_pt_lim_scal. apply derivable_pt_lim_id.
      + unfold mult_real_fct, id. replace (PI / 180 * s) with (s * PI / 180) by field. apply derivable_pt_lim_cos. }
  destruct (C64_rates_proof (fun _ => 1) (fun s => s) (fun _ => 0) 0 0 1 0 (V3 0 0 0) (V3 0 0 0) (V3 0 0 0) (V3 0 0 0) (V3 1 0 0)
     (V3 0 (PI / 180) 0) 0) as [H1 [H2 [H3 _]]]; try lra.
  - apply derivable_pt_lim_const.
  - apply derivable_pt_lim_id.
  - apply derivable_pt_lim_const.
  - unfold dot, direction, vsub; cbn. replace (0 * PI / 180) with 0 by field. rewrite sin_0, cos_0. field. pose proof c_pos. lra.
  - intros c [<-|[<-|[<-|[]]]]; unfold scale, direction; cbn; replace (0 * PI / 180) with 0 by field; rewrite ?cos_0, ?sin_0.
    + eapply derivable_pt_lim_ext with (f := fun s => 1 * cos (s * PI / 180)); [intro; ring|].
      replace ((1 - 0) * 0 - 0) with (- sin (0 * PI / 180) * (PI / 180)); [apply D2|]. replace (0 * PI / 180) with 0 by field. rewrite sin_0. ring.
    + eapply derivable_pt_lim_ext with (f := fun s => 1 * sin (s * PI / 180)); [intro; ring|].
      replace ((1 - 0) * (PI / 180) - 0) with (cos (0 * PI / 180) * (PI / 180)); [apply D1|]. replace (0 * PI / 180) with 0 by field. rewrite cos_0. ring.
    + replace ((1 - 0) * 0 - 0) with 0 by ring. eapply derivable_pt_lim_ext with (f := fun _ => 0); [intro; ring|]. apply derivable_pt_lim_const.
  - assert (E : scale 1 (direction 0 0) = V3 1 0 0).
    { unfold scale, direction; cbn. replace (0 * PI / 180) with 0 by field. rewrite cos_0, sin_0. f_equal; ring. }
    rewrite E in H1, H2, H3. cbv zeta. split; [|split; [exact H2|]].
    + rewrite H1. replace (0 * PI / 180) with 0 by field. rewrite cos_0. ring.
    + rewrite H3. unfold dot, direction, vsub; cbn. replace (0 * PI / 180) with 0 by field. rewrite sin_0, cos_0. ring.
Qed.

(** * C65: phase angle *)

Theorem C65_phase : forall r_sun r_obs v_sun v_obs rho r_ast v_ast r d D,
  let gm := calculate_rates_and_geometry r_sun r_obs v_sun v_obs rho r_ast v_ast in
  r = norm (vsub r_ast r_sun) -> d = norm (vsub r_ast r_obs) -> D = norm (vsub r_obs r_sun) -> 0 < r -> 0 < d ->
  0 <= g_phase gm <= 180 /\ cos (g_phase gm * PI / 180) = (r * r + d * d - D * D) / (2 * r * d).
Proof. exact C65_phase_proof. Qed.
Print Assumptions C65_phase.

Example C65_case : exists r_ast r_obs, norm (vsub r_ast (V3 0 0 0)) = 5 /\ norm (vsub r_ast r_obs) = 4 /\ norm (vsub r_obs (V3 0 0 0)) = 3.
Proof.
  exists (V3 3 4 0), (V3 3 0 0). unfold norm, dot, vsub; cbn.
  replace (_ + _ + _) with (Rsqr 5) by (unfold Rsqr; ring). replace ((3 - 3) * (3 - 3) + (4 - 0) * (4 - 0) + (0 - 0) * (0 - 0)) with (Rsqr 4) by (unfold Rsqr; ring).
  replace ((3 - 0) * (3 - 0) + (0 - 0) * (0 - 0) + (0 - 0) * (0 - 0)) with (Rsqr 3) by (unfold Rsqr; ring).
  rewrite !sqrt_Rsqr by lra. auto.
Qed.

(** * C66: great circle distance *)

Theorem C66_haversine : forall lon1 lat1 lon2 lat2,
  angle_between (direction lon1 lat1) (direction lon2 lat2) (haversine lon1 lat1 lon2 lat2).
Proof. exact C66_haversine_proof. Qed.
Print Assumptions C66_haversine.
Theorem C66_symmetric : forall lon1 lat1 lon2 lat2, haversine lon1 lat1 lon2 lat2 = haversine lon2 lat2 lon1 lat1.
Proof. exact C66_symmetric_proof. Qed.
Print Assumptions C66_symmetric.
Theorem C66_zero : forall lon1 lat1 lon2 lat2,
  haversine lon1 lat1 lon2 lat2 = 0 <-> direction lon1 lat1 = direction lon2 lat2.
Proof. exact C66_zero_proof. Qed.
Print Assumptions C66_zero.

Example C66_case : haversine 0 0 90 0 = 90 /\ haversine 10 90 200 90 = 0.
Proof.
  assert (P1 : 90 * PI / 180 = PI / 2) by field. assert (P0 : 0 * PI / 180 = 0) by field. split.
  - eapply angle_between_unique; [apply C66_haversine_proof|]. split; [lra|].
    unfold direction; cbn. rewrite P1, P0, cos_0, sin_0, cos_PI2, sin_PI2. ring.
  - apply C66_zero_proof. unfold direction. rewrite P1, cos_PI2, sin_PI2. f_equal; ring.
Qed.

(** * C67: magnitudes and fluxes *)

Theorem C67_flux : forall m f0, 0 < f0 -> flux2mag (mag2flux m f0) f0 = m.
Proof. exact C67_flux_proof. Qed.
Print Assumptions C67_flux.
Theorem C67_mag : forall f f0, 0 < f -> 0 < f0 -> mag2flux (flux2mag f f0) f0 = f.
Proof. exact C67_mag_proof. Qed.
Print Assumptions C67_mag.
Theorem C67_order : forall m1 m2 f0, 0 < f0 -> m1 < m2 -> 0 < mag2flux m2 f0 < mag2flux m1 f0.
Proof. exact C67_order_proof. Qed.
Print Assumptions C67_order.
Theorem C67_five : forall m f0, 0 < f0 -> mag2flux (m - 5) f0 = 100 * mag2flux m f0.
Proof. exact C67_five_proof. Qed.
Print Assumptions C67_five.

Example C67_case : mag2flux 0 3631 = 3631 /\ mag2flux (-5) 3631 = 363100.
Proof.
  assert (E : mag2flux 0 3631 = 3631).
  { unfold mag2flux. replace (- (4 / 10) * 0) with 0 by field. rewrite Rpower_O by lra. ring. }
  split; auto. replace (-5) with (0 - 5) by ring. rewrite C67_five_proof by lra. rewrite E. ring.
Qed.
