From Coq Require Import Reals ZArith String List Bool Lia Lra Psatz.
From Verif Require Import Base.Prelude Model.Sphere Model.Kepler Model.OrbitParse Proofs.Sphere Proofs.Kepler Proofs.Halley Proofs.KeplerState
  Spec.Sphere Spec.Kepler Spec.OrbitParse Proofs.OrbitParse.
Import ListNotations.
Open Scope R_scope.

(** The state as seen from the Sun. *)
Lemma length_rot v : length3 (equatorial_to_ecliptic v) = length3 v.
Proof. unfold length3. f_equal. pose proof (C34_isometry_proof v v) as I. cbv zeta in I. apply I. Qed.

Lemma binding_rot mu x v : binding mu (equatorial_to_ecliptic x) (equatorial_to_ecliptic v) = binding mu x v.
Proof.
  unfold binding. rewrite length_rot. f_equal. pose proof (C34_isometry_proof v v) as I. cbv zeta in I. apply I.
Qed.

Lemma cross_rot x v : length3 (cross (equatorial_to_ecliptic x) (equatorial_to_ecliptic v)) = length3 (cross x v).
Proof.
  pose proof (C34_isometry_proof x v) as I. cbv zeta in I. destruct I as (_ & _ & _ & I). rewrite <- I. apply length_rot.
Qed.

Lemma rot_add a b : equatorial_to_ecliptic (vadd a b) = vadd (equatorial_to_ecliptic a) (equatorial_to_ecliptic b).
Proof.
  destruct a, b. unfold equatorial_to_ecliptic, EQ_TO_ECL_ROTATION_MATRIX. rewrite !rot_form.
  unfold vadd; cbn. f_equal; ring.
Qed.
Lemma rot_scale k a : equatorial_to_ecliptic (scale k a) = scale k (equatorial_to_ecliptic a).
Proof.
  destruct a. unfold equatorial_to_ecliptic, EQ_TO_ECL_ROTATION_MATRIX. rewrite !rot_form.
  unfold scale; cbn. f_equal; ring.
Qed.

Lemma add_sub a b : vadd (vadd a b) (scale (-1) b) = a.
Proof. destruct a, b; unfold vadd, scale; simpl. f_equal; ring. Qed.

Definition state_formats : list string := ["CART"; "BCART"; "BKEP"; "BCOM"]%string.

Lemma perihelion_state fuel sun r epoch d gs gt d' X V :
  true_cache sun d -> In (or_format r) state_formats ->
  parse_orbit_row fuel sun r epoch d gs gt = Ok (d', Some (X, V)) ->
  get_perihelion_row fuel (sun epoch) r epoch gs gt
  = Ok (Some (from_state gs (equatorial_to_ecliptic (vadd X (scale (-1) (fst (sun epoch)))))
                            (equatorial_to_ecliptic (vadd V (scale (-1) (snd (sun epoch))))) epoch)).
Proof.
  intros HC HF E. unfold parse_orbit_row in E.
  destruct (sun_at_true sun d epoch HC) as (d1 & E1 & _). rewrite E1 in E.
  destruct (ecliptic_state fuel r epoch gs gt) as [st|] eqn:ES; [|discriminate].
  unfold rbind in E. destruct (sun epoch) as [sx sv]. cbn [fst snd].
  destruct st as [[x v]|]; [|discriminate].
  destruct r as [f cols]. cbn [or_format] in *. unfold state_formats in HF; simpl in HF.
  destruct HF as [<-|[<-|[<-|[<-|[]]]]]; cbn [is_in existsb String.eqb Ascii.eqb Bool.eqb orb] in E;
    injection E as <- <- <-; unfold ecliptic_state in ES; cbn [is_in existsb String.eqb Ascii.eqb Bool.eqb orb negb or_format] in ES;
    unfold get_perihelion_row; cbn [is_in existsb String.eqb Ascii.eqb Bool.eqb orb negb or_format].
  - destruct (cartesian_columns _) as [[x0 v0]|]; [|discriminate]. cbn [rmap rbind] in *. injection ES as -> ->. cbn [fst snd].
    rewrite !add_sub. repeat rewrite (proj1 (C34_inverse_proof _)). reflexivity.
  - destruct (cartesian_columns _) as [[x0 v0]|]; [|discriminate]. cbn [rmap rbind] in *. injection ES as -> ->. cbn [fst snd].
    rewrite !rot_add, !rot_scale. repeat rewrite (proj1 (C34_inverse_proof _)). reflexivity.
  - rewrite ES. cbn [rmap rbind option_map fst snd].
    rewrite !rot_add, !rot_scale. repeat rewrite (proj1 (C34_inverse_proof _)). reflexivity.
  - rewrite ES. cbn [rmap rbind option_map fst snd].
    rewrite !rot_add, !rot_scale. repeat rewrite (proj1 (C34_inverse_proof _)). reflexivity.
Qed.

(** Seen from the Sun, the row's barycentric state moves on an orbit with
    perihelion distance q; that is the q the culling step gets. *)
Lemma C76_state_proof : forall fuel sun r epoch d gm_sun gm_total d' X V q e,
  true_cache sun d -> In (or_format r) ["CART"; "BCART"; "BKEP"; "BCOM"]%string ->
  parse_orbit_row fuel sun r epoch d gm_sun gm_total = Ok (d', Some (X, V)) ->
  0 < gm_sun -> 0 < q -> 0 <= e ->
  (let x := vadd X (scale (-1) (fst (sun epoch))) in let v := vadd V (scale (-1) (snd (sun epoch))) in
   binding gm_sun x v = binding_of_elements gm_sun q e /\ length3 (cross x v) = momentum_of_elements gm_sun q e) ->
  exists p, get_perihelion_row fuel (sun epoch) r epoch gm_sun gm_total = Ok (Some p) /\ p_q p = q
   /\ (p_e p = e \/ p_e p = 1 /\ Rabs (e - 1) < 1 / 1000000000000000).
Proof.
  intros fuel sun r epoch d gs gt d' X V q e HC HF E Hg Hq He. cbv zeta. intros [HB HM].
  eexists. split; [eapply perihelion_state; eauto|].
  rewrite <- binding_rot in HB. rewrite <- cross_rot in HM.
  exact (C75_recovers_proof gs q e _ _ epoch Hg Hq He HB HM).
Qed.

Lemma C76_elements_proof : forall fuel sun r epoch gm_sun gm_total p,
  get_perihelion_row fuel sun r epoch gm_sun gm_total = Ok (Some p) ->
  (or_format r = "COM"%string -> or_col r "q" = Some (p_q p) /\ or_col r "e" = Some (p_e p))
  /\ (or_format r = "KEP"%string -> exists a, or_col r "a" = Some a /\ or_col r "e" = Some (p_e p) /\ p_q p = a * (1 - p_e p)).
Proof.
  intros fuel sun [f cols] epoch gs gt p E. cbn [or_format or_col]. split; intros ->;
    unfold get_perihelion_row in E; cbn [is_in existsb String.eqb Ascii.eqb Bool.eqb orb negb or_format] in E.
  - unfold from_com_row, get in E; cbn [or_col] in E.
    destruct (cols "q"%string); [|discriminate]. destruct (cols "e"%string); [|discriminate]. cbn [rbind rmap] in E.
    destruct (cols "inc"%string); [|discriminate]. destruct (cols "node"%string); [|discriminate].
    destruct (cols "argPeri"%string); [|discriminate]. destruct (cols "t_p_MJD_TDB"%string); [|discriminate].
    cbn [rbind rmap] in E. injection E as <-. auto.
  - unfold from_kep_row, get in E; cbn [or_col] in E.
    destruct (cols "a"%string) as [a|]; [|discriminate]. destruct (cols "e"%string); [|discriminate]. cbn [rbind rmap] in E.
    destruct (cols "inc"%string); [|discriminate]. destruct (cols "node"%string); [|discriminate].
    destruct (cols "argPeri"%string); [|discriminate]. destruct (cols "ma"%string); [|discriminate].
    cbn [rbind rmap] in E. injection E as <-. exists a. auto.
Qed.

(** The culling step puts the Sun at the barycentre, so that a barycentric row
    is taken for a heliocentric one: with the Sun 0.01 au away, an object on a
    circular orbit of radius 1 gets a perihelion distance of 1.01. *)
Lemma C76_barycentric_refuted_proof : exists sx r gm X V,
  or_format r = "BCART"%string /\ gm = 29591220828559115 / 100000000000000000000
  /\ (forall fuel sun epoch gt, sun epoch = (sx, V3 0 0 0) ->
        rmap snd (parse_orbit_row fuel sun r epoch [] gm gt) = Ok (Some (X, V)))
  /\ binding gm (vadd X (scale (-1) sx)) V = binding_of_elements gm 1 0
  /\ length3 (cross (vadd X (scale (-1) sx)) V) = momentum_of_elements gm 1 0
  /\ forall fuel epoch, PPEstimatePerihelion fuel [(epoch, r)] = Ok [Some (101/100)].
Proof.
  set (gm := 29591220828559115 / 100000000000000000000).
  assert (G : 0 < gm) by (unfold gm; lra).
  set (w := sqrt gm). assert (W : w * w = gm) by (apply sqrt_sqrt; lra).
  assert (W0 : 0 < w) by (apply sqrt_lt_R0; auto).
  set (cols := fun c : string => if String.eqb c "x" then Some (101/100) else if String.eqb c "ydot" then Some w else Some 0).
  assert (R0 : forall x, ecliptic_to_equatorial (V3 x 0 0) = V3 x 0 0).
  { intros x. unfold ecliptic_to_equatorial, ECL_TO_EQ_ROTATION_MATRIX. rewrite rot_form. cbn. f_equal; ring. }
  exists (V3 (1/100) 0 0), {| or_format := "BCART"; or_col := cols |}, gm, (V3 (101/100) 0 0), (ecliptic_to_equatorial (V3 0 w 0)).
  assert (D : vadd (V3 (101/100) 0 0) (scale (-1) (V3 (1/100) 0 0)) = V3 1 0 0) by (unfold vadd, scale; cbn; f_equal; lra).
  assert (L1 : length3 (V3 1 0 0) = 1).
  { unfold length3; cbn. replace (1 * 1 + 0 * 0 + 0 * 0) with (1 * 1) by ring. apply sqrt_square; lra. }
  pose proof (C34_isometry_proof (V3 0 w 0) (V3 0 w 0)) as I. cbv zeta in I. destruct I as (I & _). cbn [vx vy vz] in I.
  split; [reflexivity|]. split; [reflexivity|]. split; [|split; [|split]].
  - intros fuel sun epoch gt E. unfold parse_orbit_row. cbn -[ecliptic_to_equatorial]. rewrite E.
    cbn -[ecliptic_to_equatorial]. rewrite R0. reflexivity.
  - rewrite D. unfold binding, binding_of_elements. rewrite L1, I. rewrite <- W. field.
  - rewrite D. rewrite <- (R0 1). pose proof (C34_isometry_proof (V3 1 0 0) (V3 0 w 0)) as J. cbv zeta in J.
    destruct J as (_ & _ & J & _). rewrite <- J. unfold length3, momentum_of_elements. f_equal.
    set (c := cross (V3 1 0 0) (V3 0 w 0)). pose proof (C34_isometry_proof c c) as K. cbv zeta in K. destruct K as (K & _).
    rewrite K. unfold c, cross; cbn [vx vy vz]. rewrite <- W. ring.
  - intros fuel epoch. unfold PPEstimatePerihelion. cbn [each rbind snd]. fold gm.
    unfold get_perihelion_row. cbn [is_in existsb String.eqb Ascii.eqb Bool.eqb orb negb or_format].
    unfold cartesian_columns, get, cols. cbn [or_col String.eqb Ascii.eqb Bool.eqb rbind rmap option_map fst snd].
    assert (Z : scale (-1) (equatorial_to_ecliptic (V3 0 0 0)) = V3 0 0 0).
    { unfold equatorial_to_ecliptic, EQ_TO_ECL_ROTATION_MATRIX. rewrite rot_form. unfold scale; cbn. f_equal; ring. }
    rewrite Z. unfold vadd; cbn [vx vy vz].
    replace (101/100 + 0) with (101/100) by ring. replace (0 + 0) with 0 by ring. replace (w + 0) with w by ring.
    unfold from_state. cbn [p_q].
    assert (Q : k_q (universal_cometary gm (V3 (101/100) 0 0) (V3 0 w 0) epoch) = 101/100).
    { apply (C75_recovers_proof gm (101/100) (1/100)); try lra.
      - unfold binding, binding_of_elements, length3; cbn [vx vy vz].
        replace (101/100 * (101/100) + 0 * 0 + 0 * 0) with (101/100 * (101/100)) by ring. rewrite sqrt_square by lra.
        replace (0 * 0 + w * w + 0 * 0) with gm by (rewrite <- W; ring). lra.
      - unfold length3, momentum_of_elements, cross; cbn [vx vy vz]. f_equal. rewrite <- W. field. }
    rewrite Q. reflexivity.
Qed.
