(** C106: the geometry columns of one ephemeris row. *)
From Coq Require Import Reals List Lra.
From Verif Require Import Base.Prelude Model.Sphere Spec.Sphere Proofs.Geometry.
Open Scope R_scope.

(** * C106: the geometry columns describe one configuration *)

(** Range, right ascension and declination lead from the observer to the object. *)
Theorem C106_triangle : forall at_time t lt0 iter r_sun r_obs v_sun v_obs rho lt r v g,
  integrate_light_time at_time t r_obs lt0 iter = (rho, lt, r, v) -> r <> r_obs ->
  calculate_rates_and_geometry r_sun r_obs v_sun v_obs rho r v = g ->
  let los := direction (g_ra g) (g_dec g) in
  0 < g_range_km g /\ 0 <= g_ra g < 360 /\ -90 <= g_dec g <= 90
  /\ (forall c, In c (vx :: vy :: vz :: nil) -> c (g_obj_sun g) - c (g_obs_sun g) = g_range_km g * c los)
  /\ g_range_rate g = (vx (g_obj_sun_v g) - vx (g_obs_sun_v g)) * vx los + (vy (g_obj_sun_v g) - vy (g_obs_sun_v g)) * vy los
                      + (vz (g_obj_sun_v g) - vz (g_obs_sun_v g)) * vz los.
Proof. exact C106_triangle_proof. Qed.
Print Assumptions C106_triangle.
(** The three sides and the phase angle obey the law of cosines. *)
Theorem C106_phase : forall at_time t lt0 iter r_sun r_obs v_sun v_obs rho lt r v g,
  integrate_light_time at_time t r_obs lt0 iter = (rho, lt, r, v) -> r <> r_obs -> r <> r_sun ->
  calculate_rates_and_geometry r_sun r_obs v_sun v_obs rho r v = g ->
  let len v := sqrt (vx v * vx v + vy v * vy v + vz v * vz v) in
  0 <= g_phase g <= 180 /\ 0 < len (g_obj_sun g)
  /\ len (g_obs_sun g) ^ 2 = g_range_km g ^ 2 + len (g_obj_sun g) ^ 2 - 2 * g_range_km g * len (g_obj_sun g) * cos (g_phase g * PI / 180).
Proof. exact C106_phase_proof. Qed.
Print Assumptions C106_phase.
(** The vectors are those of the object at the time the light left it. *)
Theorem C106_source : forall at_time t lt0 iter r_sun r_obs v_sun v_obs rho lt r v g,
  integrate_light_time at_time t r_obs lt0 iter = (rho, lt, r, v) ->
  calculate_rates_and_geometry r_sun r_obs v_sun v_obs rho r v = g ->
  (exists s, at_time s = (r, v)) /\ lt = g_range_km g / 299792458 * 1000 / 86400 /\
  forall c, In c (vx :: vy :: vz :: nil) ->
    c (g_obj_sun g) = 149597870700 / 1000 * (c r - c r_sun) /\ c (g_obs_sun g) = 149597870700 / 1000 * (c r_obs - c r_sun)
    /\ c (g_obj_sun_v g) = 149597870700 / 1000 / 86400 * (c v - c v_sun) /\ c (g_obs_sun_v g) = 149597870700 / 1000 / 86400 * (c v_obs - c v_sun).
Proof. exact C106_source_proof. Qed.
Print Assumptions C106_source.
(** The rates on the sky. *)
Theorem C106_rates : forall at_time t lt0 iter r_sun r_obs v_sun v_obs rho lt r v g,
  integrate_light_time at_time t r_obs lt0 iter = (rho, lt, r, v) -> r <> r_obs ->
  calculate_rates_and_geometry r_sun r_obs v_sun v_obs rho r v = g -> -90 < g_dec g < 90 ->
  let a := g_ra g * PI / 180 in let d := g_dec g * PI / 180 in
  let slow := 1 - g_range_rate g / (299792458 / 1000) in
  let w c := 149597870700 / 1000 * (slow * c v - c v_obs) in
  g_ra_rate g * (PI / 180) * g_range_km g = - sin a * w vx + cos a * w vy
  /\ g_dec_rate g * (PI / 180) * g_range_km g = - sin d * cos a * w vx - sin d * sin a * w vy + cos d * w vz.
Proof. exact C106_rates_proof. Qed.
Print Assumptions C106_rates.

(** The Sun, an observer and an object at the corners of a triangle with sides 3, 4, 5 au. *)
Example C106_case :
  let at_time (_ : R) := (V3 3 4 0, V3 0 0 0) in
  exists rho lt, integrate_light_time at_time 0 (V3 3 0 0) 0 3 = (rho, lt, V3 3 4 0, V3 0 0 0) /\ V3 3 4 0 <> V3 3 0 0 /\ V3 3 4 0 <> V3 0 0 0
  /\ g_range_km (calculate_rates_and_geometry (V3 0 0 0) (V3 3 0 0) (V3 0 0 0) (V3 0 0 0) rho (V3 3 4 0) (V3 0 0 0)) = 4 * (149597870700 / 1000)
  /\ -90 < g_dec (calculate_rates_and_geometry (V3 0 0 0) (V3 3 0 0) (V3 0 0 0) (V3 0 0 0) rho (V3 3 4 0) (V3 0 0 0)) < 90.
Proof.
  intro at_time. eexists. eexists. split; [reflexivity|].
  assert (D1 : V3 3 4 0 <> V3 3 0 0) by (intro H; injection H; intros; lra).
  assert (D2 : V3 3 4 0 <> V3 0 0 0) by (intro H; injection H; intros; lra).
  split; [exact D1|]. split; [exact D2|].
  destruct (C106_triangle at_time 0 0 3 (V3 0 0 0) (V3 3 0 0) (V3 0 0 0) (V3 0 0 0) _ _ (V3 3 4 0) (V3 0 0 0) _ eq_refl D1 eq_refl) as (P & _ & B & T & _).
  cbn [fst at_time] in *.
  match goal with |- ?a = _ /\ _ => assert (HR : a = 4 * (149597870700 / 1000)) end.
  { unfold calculate_rates_and_geometry, norm, dot, vsub, AU_KM. cbn [g_range_km vx vy vz].
    replace ((3 - 3) * (3 - 3) + (4 - 0) * (4 - 0) + (0 - 0) * (0 - 0)) with (4 * 4) by ring. rewrite sqrt_square by lra. lra. }
  split; [exact HR|].
  specialize (T vz (or_intror (or_intror (or_introl eq_refl)))).
  match type of T with _ = ?r * vz (direction ?ra ?dec) => set (de := dec) in *; set (rg := r) in *; set (al := ra) in * end.
  assert (Z : vz (direction al de) = 0).
  { apply Rmult_eq_reg_l with rg; [|lra]. rewrite <- T. unfold calculate_rates_and_geometry, scale, vsub. cbn [g_obj_sun g_obs_sun vx vy vz]. ring. }
  unfold direction in Z. cbn [vz] in Z.
  assert (N1 : de <> 90). { intro e. rewrite e in Z. replace (90 * PI / 180) with (PI / 2) in Z by field. rewrite sin_PI2 in Z. lra. }
  assert (N2 : de <> -90). { intro e. rewrite e in Z. replace (-90 * PI / 180) with (- (PI / 2)) in Z by field. rewrite sin_neg, sin_PI2 in Z. lra. }
  lra.
Qed.
