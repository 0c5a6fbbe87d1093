From Coq Require Import String List Arith ZArith Bool Reals Lra Lia Permutation.
From Verif Require Import Base.Prelude Model.Sphere Model.Randomize Model.Csv Model.Readers Model.Ephemeris Model.EphemerisTable
  Spec.Sphere Spec.Readers Spec.Ephemeris Proofs.Ephemeris Proofs.EphemerisRows Proofs.LightTime Proofs.EphemerisTable.
Import ListNotations.
Open Scope R_scope.

(** * C38: three-point interpolation *)

Theorem C38_weights : forall t0 t1 t2, t0 <> t1 -> t0 <> t2 -> t1 <> t2 ->
  (forall t a b c, lagrange3 t0 t1 t2 t = (a, b, c) -> a + b + c = 1) /\
  lagrange3 t0 t1 t2 t0 = (1, 0, 0) /\ lagrange3 t0 t1 t2 t1 = (0, 1, 0) /\ lagrange3 t0 t1 t2 t2 = (0, 0, 1).
Proof. exact C38_weights_proof. Qed.
Print Assumptions C38_weights.
Theorem C38_quadratic : forall f t0 t1 t2 t, quadratic_motion f -> t0 <> t1 -> t0 <> t2 -> t1 <> t2 ->
  combine3 (lagrange3 t0 t1 t2 t) (f t0) (f t1) (f t2) = f t.
Proof. exact C38_quadratic_proof. Qed.
Print Assumptions C38_quadratic.
Theorem C38_stable : forall d t0 t a b c, 0 < d -> Rabs (t - t0) <= d / 2 ->
  lagrange3 (t0 - d) t0 (t0 + d) t = (a, b, c) -> Rabs a + Rabs b + Rabs c <= 5 / 4.
Proof. exact C38_stable_proof. Qed.
Print Assumptions C38_stable.

Example C38_case : lagrange3 (-1) 0 1 (1/2) = (-1/8, 3/4, 3/8) /\
  quadratic_motion (fun t => V3 (1 + t) (t * t) 3) /\ combine3 (-1/8, 3/4, 3/8) (V3 0 1 3) (V3 1 0 3) (V3 2 1 3) = V3 (3/2) (1/4) 3.
Proof.
  split; [|split].
  - unfold lagrange3. f_equal; [f_equal|]; field.
  - repeat split; [exists 1, 1, 0|exists 0, 0, 1|exists 3, 0, 0]; intro t; cbn; ring.
  - unfold combine3, vadd, scale. cbn. f_equal; field.
Qed.

(** * C39: the window around the requested time *)

Theorem C39_interpolate_partial : forall trajectory jd_ref observatory vec2pix nbrs n_sub interval sims first earlier t,
  0 < interval ->
  let update := update_pickets trajectory jd_ref observatory vec2pix nbrs n_sub interval sims in
  let s := fold_left (fun s u => update u s) earlier (init trajectory jd_ref observatory vec2pix nbrs n_sub interval sims first) in
  Rabs (t - p_t0 (update t (update t s))) <= interval / 2.
Proof. exact C39_interpolate_proof. Qed.
Print Assumptions C39_interpolate_partial.
Theorem C39_sorted_partial : forall trajectory jd_ref observatory vec2pix nbrs n_sub interval sims first earlier t,
  0 < interval -> sorted_times (first :: earlier ++ [t])%list ->
  let update := update_pickets trajectory jd_ref observatory vec2pix nbrs n_sub interval sims in
  let s := fold_left (fun s u => update u s) earlier (init trajectory jd_ref observatory vec2pix nbrs n_sub interval sims first) in
  Rabs (t - p_t0 (update t s)) <= interval / 2.
Proof. exact C39_sorted_proof. Qed.
Print Assumptions C39_sorted_partial.

(** A single update does not centre the window when the request goes back. *)
Theorem C39_backward_refuted : forall trajectory jd_ref observatory vec2pix nbrs n_sub interval sims first t,
  0 < interval -> first - interval < t < first - interval / 2 ->
  let s := update_pickets trajectory jd_ref observatory vec2pix nbrs n_sub interval sims t
             (init trajectory jd_ref observatory vec2pix nbrs n_sub interval sims first) in
  t < p_tm s /\ Rabs (t - p_t0 s) > 3 / 2 * interval.
Proof. exact C39_backward_refuted_proof. Qed.
Print Assumptions C39_backward_refuted.

Example C39_case :
  let s t := update_pickets still 0 (fun _ => V3 0 0 0) (fun _ => 0%Z) (fun _ => [1%Z]) 3 1 ["a"%string] t
    (init still 0 (fun _ => V3 0 0 0) (fun _ => 0%Z) (fun _ => [1%Z]) 3 1 ["a"%string] 0) in
  sorted_times (0 :: [] ++ [7/10])%list /\ p_t0 (s (7/10)) = 1 /\ p_t0 (s (-7/10)) = 1.
Proof.
  cbn zeta. split; [cbn; lra|].
  assert (A1 : Rabs (7/10 - 0) = 7/10) by (rewrite Rabs_right; lra). assert (A2 : Rabs (-7/10 - 0) = 7/10) by (rewrite Rabs_left; lra).
  unfold update_pickets, init, make. cbn [p_t0 p_tm p_tp]. rewrite A1, A2.
  destruct (Rlt_dec _ _) as [_|N]; [|lra]. destruct (Rle_dec (7/10) (3/2*1)) as [_|N]; [|lra].
  destruct (Rle_dec _ _) as [N|_]; [lra|]. destruct (Rle_dec _ _) as [N|_]; [lra|]. cbn. lra.
Qed.

(** * C40: cached directions *)

Theorem C40_coherent : forall trajectory jd_ref observatory vec2pix nbrs n_sub interval sims first requests,
  let update := update_pickets trajectory jd_ref observatory vec2pix nbrs n_sub interval sims in
  let s := fold_left (fun s u => update u s) requests (init trajectory jd_ref observatory vec2pix nbrs n_sub interval sims first) in
  coherent trajectory jd_ref observatory sims interval s /\
  exists m : Z, p_t0 s = first + IZR m * interval.
Proof. exact C40_coherent_proof. Qed.
Print Assumptions C40_coherent.
Theorem C40_interpolated : forall trajectory jd_ref observatory vec2pix nbrs n_sub interval sims first requests desigs t,
  0 < interval -> (forall k, In k desigs -> In k sims) ->
  let update := update_pickets trajectory jd_ref observatory vec2pix nbrs n_sub interval sims in
  let s := fold_left (fun s u => update u s) (requests ++ [t])%list (init trajectory jd_ref observatory vec2pix nbrs n_sub interval sims first) in
  exists t0, Rabs (t - t0) <= interval / 2 /\
   snd (interpolate_unit_vectors trajectory jd_ref observatory vec2pix nbrs n_sub interval sims desigs t s)
   = Ok (map (fun k => (k, parabola trajectory jd_ref observatory interval t0 k t)) desigs) /\
   (forall k, quadratic_motion (seen trajectory jd_ref observatory k) ->
      parabola trajectory jd_ref observatory interval t0 k t = seen trajectory jd_ref observatory k t).
Proof. exact C40_interpolated_proof. Qed.
Print Assumptions C40_interpolated.
Theorem C40_seen : forall trajectory jd_ref observatory k t v lt,
  let c := 299792458 * 86400 / 149597870700 in
  let pos := fun u => fst (trajectory k (u - jd_ref)) in
  (forall a b, norm (vsub (pos a) (pos b)) <= v * Rabs (a - b)) -> 0 <= v ->
  norm (vsub (pos (t - lt)) (observatory t)) = c * lt ->
  exists used, Rabs (used - lt) <= (v / c) * (v / c) * Rabs (1/100 - lt)
    /\ (vsub (pos (t - used)) (observatory t) <> V3 0 0 0 ->
        unit (seen trajectory jd_ref observatory k t)
        /\ along (vsub (pos (t - used)) (observatory t)) (seen trajectory jd_ref observatory k t)).
Proof. exact C40_seen_proof. Qed.
Print Assumptions C40_seen.

Example C40_case : (forall k, In k ["a"%string] -> In k ["a"; "b"]%string) /\
  forall k, quadratic_motion (seen still 0 (fun _ => V3 0 0 0) k).
Proof.
  split; [cbn; intuition|]. intro k. repeat split.
  - exists (vx (seen still 0 (fun _ => V3 0 0 0) k 0)), 0, 0. intro t. replace (seen still 0 (fun _ => V3 0 0 0) k t) with (seen still 0 (fun _ => V3 0 0 0) k 0) by reflexivity. ring.
  - exists (vy (seen still 0 (fun _ => V3 0 0 0) k 0)), 0, 0. intro t. replace (seen still 0 (fun _ => V3 0 0 0) k t) with (seen still 0 (fun _ => V3 0 0 0) k 0) by reflexivity. ring.
  - exists (vz (seen still 0 (fun _ => V3 0 0 0) k 0)), 0, 0. intro t. replace (seen still 0 (fun _ => V3 0 0 0) k t) with (seen still 0 (fun _ => V3 0 0 0) k 0) by reflexivity. ring.
Qed.

(** * C41: the rows of the ephemeris *)

Theorem C41_rows_partial : forall trajectory jd_ref observatory vec2pix nbrs n_sub interval sims set_order disc fov buffer v0 vs,
  0 < interval -> set_listing set_order ->
  exists blocks, ephemeris_rows trajectory jd_ref observatory vec2pix nbrs n_sub interval sims set_order disc fov buffer (v0 :: vs) = Ok (concat blocks) /\
  Forall2 (fun v b => exists tc ti,
     (exists m : Z, tc = v_jd v0 + IZR m * interval) /\ (exists m : Z, ti = v_jd v0 + IZR m * interval) /\
     Rabs (v_jd v - ti) <= interval / 2 /\ (sorted_times (map v_jd (v0 :: vs)) -> tc = ti) /\
     NoDup (map e_obj b) /\
     forall r, In r b <-> e_visit r = v /\ e_rho r = precise trajectory jd_ref (e_obj r) v /\ In (e_obj r) sims /\
       registered trajectory jd_ref observatory vec2pix nbrs n_sub interval tc (disc (v_ra v) (v_dec v) fov) (e_obj r) /\
       let u := parabola trajectory jd_ref observatory interval ti (e_obj r) (v_jd v) in
       degrees_between (scale (/ norm u) u) (v_dir v) < fov + buffer /\
       degrees_between (scale (/ norm (e_rho r)) (e_rho r)) (v_dir v) < fov + buffer) (v0 :: vs) blocks.
Proof. exact C41_rows_proof. Qed.
Print Assumptions C41_rows_partial.
Theorem C41_angle_partial : forall w d, w <> V3 0 0 0 -> unit d -> angle_between (scale (/ norm w) w) d (degrees_between (scale (/ norm w) w) d).
Proof. exact C41_angle_proof. Qed.
Print Assumptions C41_angle_partial.
Theorem C41_light_partial : forall trajectory jd_ref observatory vec2pix nbrs n_sub interval sims set_order disc fov buffer visits rows,
  0 < interval -> set_listing set_order ->
  ephemeris_rows trajectory jd_ref observatory vec2pix nbrs n_sub interval sims set_order disc fov buffer visits = Ok rows ->
  forall r, In r rows ->
  let c := 299792458 * 86400 / 149597870700 in
  let pos := fun u => fst (trajectory (e_obj r) (u - jd_ref)) in
  forall v lt, (forall a b, norm (vsub (pos a) (pos b)) <= v * Rabs (a - b)) -> 0 <= v ->
  norm (vsub (pos (v_jd (e_visit r) - lt)) (v_obs (e_visit r))) = c * lt ->
  norm (vsub (e_rho r) (vsub (pos (v_jd (e_visit r) - lt)) (v_obs (e_visit r)))) <= v * ((v / c) * (v / c)) * Rabs (1/100 - lt).
Proof. exact C41_light_proof. Qed.
Print Assumptions C41_light_partial.
Theorem C41_empty_partial : forall trajectory jd_ref observatory vec2pix nbrs n_sub interval sims set_order disc fov buffer,
  ephemeris_rows trajectory jd_ref observatory vec2pix nbrs n_sub interval sims set_order disc fov buffer [] = Err IndexError.
Proof. exact C41_empty_proof. Qed.
Print Assumptions C41_empty_partial.

(** With a pixel grid coarser than the field of view an object in the middle of
    the field is not a candidate. *)
Theorem C41_own_pixel_refuted : forall trajectory jd_ref observatory vec2pix nbrs n_sub interval sims set_order disc t ra dec fov k p,
  0 < interval -> set_listing set_order -> In k sims -> ~ In p (nbrs p) ->
  (forall u, vec2pix (parabola trajectory jd_ref observatory interval t k u) = p) -> disc ra dec fov = [p] ->
  ~ In k (snd (get_designations trajectory jd_ref observatory vec2pix nbrs n_sub interval sims set_order disc t ra dec fov
     (init trajectory jd_ref observatory vec2pix nbrs n_sub interval sims t))).
Proof. exact C41_own_pixel_refuted_proof. Qed.
Print Assumptions C41_own_pixel_refuted.

Example C41_case : set_listing (fun l => l) /\ exists rho, two_rows (fun l => l) =
  Ok [{| e_obj := "a"; e_visit := one_visit; e_rho := rho |}; {| e_obj := "b"; e_visit := one_visit; e_rho := rho |}].
Proof.
  assert (O1 : set_listing (fun l => l)) by (intro l; apply Permutation_refl). split; [exact O1|].
  destruct (two_rows_order _ O1) as [rho E]. exists rho. exact E.
Qed.

(** * C68: identifiers in the table of the ephemeris *)

Theorem C68_table_partial : forall (E O : Type) (rows : list (string * E)) (orbits : list (string * O)),
  NoDup (ids_of orbits) -> (forall i, In i (ids_of rows) -> In i (ids_of orbits)) ->
  (exists i, In i (ids_of rows) /\ forall z, ~ integer_text i z) \/
  (forall i z, In i (ids_of rows) -> integer_text i z -> decimal i z) ->
  Forall2 (fun r o => fst o = r /\ exists b, snd o = Some b /\ In (fst r, b) orbits) rows (ephemeris_table pandas_ids rows orbits).
Proof. exact C68_table_proof. Qed.
Print Assumptions C68_table_partial.
Theorem C68_zeros_refuted : forall (E O : Type) (e : E) (o1 o2 : O),
  ephemeris_table pandas_ids [("0001", e)] [("0001", o1); ("1", o2)] = [(("1", e), Some o2)] /\
  ephemeris_table pandas_ids [("0001", e)] [("0001", o1); ("0002", o2)] = [(("1", e), None)].
Proof. exact C68_zeros_refuted_proof. Qed.
Print Assumptions C68_zeros_refuted.

Example C68_case : ephemeris_table pandas_ids [("10", 5%nat); ("S1", 6%nat); ("10", 7%nat)]%string [("S1", 1%nat); ("10", 2%nat)]%string
  = [(("10", 5%nat), Some 2%nat); (("S1", 6%nat), Some 1%nat); (("10", 7%nat), Some 2%nat)]%string.
Proof. reflexivity. Qed.

(** * C70: repeating a run *)

Theorem C70_same_rows_partial : forall trajectory jd_ref observatory vec2pix nbrs n_sub interval sims order1 order2 disc fov buffer v0 vs,
  0 < interval -> set_listing order1 -> set_listing order2 ->
  exists rows1 rows2,
   ephemeris_rows trajectory jd_ref observatory vec2pix nbrs n_sub interval sims order1 disc fov buffer (v0 :: vs) = Ok rows1 /\
   ephemeris_rows trajectory jd_ref observatory vec2pix nbrs n_sub interval sims order2 disc fov buffer (v0 :: vs) = Ok rows2 /\
   Permutation rows1 rows2.
Proof. exact C70_same_rows_proof. Qed.
Print Assumptions C70_same_rows_partial.

(** The random numbers go with the place of a row, and the places go with the
    iteration order of a set of strings, which the seed does not fix. *)
Theorem C70_order_refuted : exists order1 order2 rows1 rows2 (s1 : nat -> R),
  set_listing order1 /\ set_listing order2 /\ two_rows order1 = Ok rows1 /\ two_rows order2 = Ok rows2 /\
  In ("a"%string, Some 20) (measured s1 rows1) /\ ~ In ("a"%string, Some 20) (measured s1 rows2).
Proof. exact C70_order_refuted_proof. Qed.
Print Assumptions C70_order_refuted.

Example C70_case : set_listing (@rev string) /\ exists rho, two_rows (@rev string) =
  Ok [{| e_obj := "b"; e_visit := one_visit; e_rho := rho |}; {| e_obj := "a"; e_visit := one_visit; e_rho := rho |}].
Proof.
  assert (O2 : set_listing (@rev string)) by (intro l; apply Permutation_rev). split; [exact O2|].
  destruct (two_rows_order _ O2) as [rho E]. exists rho. exact E.
Qed.
