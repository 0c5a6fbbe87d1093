(** * C43: the energy of the states found *)
From Coq Require Import Reals ZArith Lra.
From Verif Require Import Base.Prelude Model.Sphere Model.Kepler Spec.Sphere Spec.Kepler Spec.Anomaly Proofs.EnergyBound
  Properties.Kepler Properties.Anomaly Properties.Hyperbola.
Open Scope R_scope.

Theorem C43_ellipse_bound_partial : forall fuel mu q e i N w tp ep x v, 0 < mu -> 0 < q -> 0 <= e -> e <= 1 - 1 / 100000 ->
  universal_cartesian fuel mu q e i N w tp ep = Ok (Some (x, v)) ->
  exists t s, since_perihelion mu q e tp ep = Ok t
    /\ solve (fun s => root_function s mu (2 * mu / q - mu * (1 + e) / q) q 0 t) (1 / 100000000000000) fuel t = Ok (Some s)
    /\ (sqrt (mu * (1 - e) / q) * Rabs s <= 10000 -> (sqrt (mu * (1 - e) / q) * Rabs s) ^ 4 <= 10 ^ 17 * (1 - e) ->
        Rabs (binding mu x v - binding_of_elements mu q e)
        <= 2 / 100000000000 * binding_of_elements mu q e / ((1 - e) * (1 - e) * (1 - e))).
Proof. exact C43_ellipse_bound_proof. Qed.
Print Assumptions C43_ellipse_bound_partial.
Theorem C43_hyperbola_bound_partial : forall fuel mu q e i N w tp ep x v, 0 < mu -> 0 < q -> 1 + 1 / 100000 <= e ->
  universal_cartesian fuel mu q e i N w tp ep = Ok (Some (x, v)) ->
  exists s, solve (fun s => root_function s mu (2 * mu / q - mu * (1 + e) / q) q 0 (ep - tp)) (1 / 100000000000000) fuel (ep - tp) = Ok (Some s)
    /\ (sqrt (mu * (e - 1) / q) * Rabs s <= 100 ->
        Rabs (binding mu x v - binding_of_elements mu q e)
        <= 5 / 100000000000 * Rabs (binding_of_elements mu q e) * (e / (e - 1)) * (e / (e - 1)) * (e / (e - 1))).
Proof. exact C43_hyperbola_bound_proof. Qed.
Print Assumptions C43_hyperbola_bound_partial.
Theorem C43_parabola_bound_partial : forall fuel mu q i N w tp ep x v, 0 < mu -> 0 < q ->
  sqrt (mu / (2 * (q * q * q))) * Rabs (ep - tp) <= 1000000000000000000000000000000 ->
  universal_cartesian fuel mu q 1 i N w tp ep = Ok (Some (x, v)) ->
  Rabs (binding mu x v) <= 2 / 10000000000000 * (mu / q).
Proof. exact C43_parabola_bound_proof. Qed.
Print Assumptions C43_parabola_bound_partial.

(** Orbits of eccentricity 1/2 and 3/2 and a parabola for which the root found is exact. *)
Example C43_bound_case :
  (exists a x v, 79/10 < a < 8
    /\ universal_cartesian 1 a (a / 2) (1/2) 1 2 3 0 1 = Ok (Some (x, v))
    /\ solve (fun s => root_function s a (2 * a / (a / 2) - a * (1 + 1/2) / (a / 2)) (a / 2) 0 1) (1 / 100000000000000) 1 1 = Ok (Some (1/4))
    /\ sqrt (a * (1 - 1/2) / (a / 2)) * Rabs (1/4) <= 100)
  /\ (exists a x v, 77/10 < a < 78/10
    /\ universal_cartesian 1 a (a / 2) (3/2) 1 2 3 0 1 = Ok (Some (x, v))
    /\ solve (fun s => root_function s a (2 * a / (a / 2) - a * (1 + 3/2) / (a / 2)) (a / 2) 0 (1 - 0)) (1 / 100000000000000) 1 (1 - 0) = Ok (Some (1/4))
    /\ sqrt (a * (3/2 - 1) / (a / 2)) * Rabs (1/4) <= 100)
  /\ universal_cartesian 1 2 1 1 0 0 0 0 12 = Ok (Some (V3 (-8) 6 0, V3 (-3/5) (1/5) 0))
  /\ sqrt (2 / (2 * (1 * 1 * 1))) * Rabs (12 - 0) <= 1000000000000000000000000000000.
Proof.
  split; [exact C94_case|split; [exact C96_case|split; [exact (proj1 C43_case)|]]].
  replace (2 / (2 * (1 * 1 * 1))) with 1 by field. rewrite sqrt_1, Rabs_right; lra.
Qed.
