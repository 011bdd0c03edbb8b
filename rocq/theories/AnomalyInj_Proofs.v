(** Strict monotonicity of the mean-to-true series for eccentricities up to 1/2. *)
From Coq Require Import Reals ZArith Lra Psatz.
From Verif Require Import Base RBase RFacts Orbit_Model Anomaly_Proofs AnomalyRound_Proofs.
Open Scope R_scope.

Definition f_true' (e r : R) : R :=
  1 + (2 * e - 1 / 4 * e ^ 3) * cos r + 5 / 4 * e ^ 2 * (cos (2 * r) * 2) + 13 / 12 * e ^ 3 * (cos (3 * r) * 3).

Lemma lim_sin_scaled k x : derivable_pt_lim (fun r => sin (k * r)) x (cos (k * x) * k).
Proof.
  change (fun r => sin (k * r)) with (comp sin (fun r => k * r)). apply derivable_pt_lim_comp.
  - pose proof (derivable_pt_lim_scal id k x 1 (derivable_pt_lim_id x)) as D. rewrite Rmult_1_r in D. exact D.
  - apply derivable_pt_lim_sin.
Qed.
Lemma f_true_deriv e x : derivable_pt_lim (f_true e) x (f_true' e x).
Proof.
  unfold f_true'. change (f_true e) with
    (plus_fct (plus_fct (plus_fct (fun r => r) (fun r => (2 * e - 1 / 4 * e ^ 3) * sin r)) (fun r => 5 / 4 * e ^ 2 * sin (2 * r)))
       (fun r => 13 / 12 * e ^ 3 * sin (3 * r))).
  repeat apply derivable_pt_lim_plus.
  - apply derivable_pt_lim_id.
  - apply (derivable_pt_lim_scal sin). apply derivable_pt_lim_sin.
  - apply (derivable_pt_lim_scal (fun r => sin (2 * r))). apply lim_sin_scaled.
  - apply (derivable_pt_lim_scal (fun r => sin (3 * r))). apply lim_sin_scaled.
Qed.
Lemma cos_3x x : cos (3 * x) = 4 * cos x ^ 3 - 3 * cos x.
Proof.
  replace (3 * x) with (2 * x + x) by ring. rewrite cos_plus, cos_2a_cos, sin_2a.
  pose proof (sin2_cos2 x) as P. unfold Rsqr in P.
  replace (2 * sin x * cos x * sin x) with (2 * cos x * (1 - cos x * cos x)) by (rewrite <- P; ring). ring.
Qed.
Lemma f_true'_pos e x : 0 <= e <= 1 / 2 -> 0 < f_true' e x.
Proof.
  intro He. unfold f_true'. rewrite cos_3x, cos_2a_cos. pose proof (COS_bound x) as B. set (c := cos x) in *.
  set (u := e * c). assert (U : - e <= u <= e) by (unfold u; split; nra).
  replace (1 + (2 * e - 1 / 4 * e ^ 3) * c + 5 / 4 * e ^ 2 * ((2 * c * c - 1) * 2) + 13 / 12 * e ^ 3 * ((4 * c ^ 3 - 3 * c) * 3))
    with (1 + 2 * u + 5 * (u * u) + 13 * (u * u * u) - (e * e) * (5 / 2 + 10 * u)) by (unfold u; field).
  assert (E2 : e * e <= 1 / 4) by nra.
  destruct (Rle_dec (- 1 / 4) u) as [G|G].
  - assert ((e * e) * (5 / 2 + 10 * u) <= 1 / 4 * (5 / 2 + 10 * u)) by (apply Rmult_le_compat_r; lra).
    assert (0 < 3 / 8 - 1 / 2 * u + 5 * (u * u) + 13 * (u * u * u)); [|lra].
    assert (- 1 / 4 * (u * u) <= u * u * u) by nra. nra.
  - assert (u * u <= e * e) by nra.
    assert ((e * e) * (5 / 2 + 10 * u) <= (u * u) * (5 / 2 + 10 * u)) by nra.
    assert (0 < 1 + 2 * u + 5 / 2 * (u * u) + 3 * (u * u * u)); [|lra].
    assert (- 1 / 2 * (u * u) <= u * u * u) by nra. nra.
Qed.
Lemma f_true_increasing e x y : 0 <= e <= 1 / 2 -> x < y -> f_true e x < f_true e y.
Proof.
  intros He Hxy. destruct (MVT_cor2 (f_true e) (f_true' e) x y Hxy) as (c & E & _); [intros; apply f_true_deriv|].
  pose proof (f_true'_pos e c He). nra.
Qed.
Lemma m2t_increasing e x y : 0 <= e <= 1 / 2 -> x < y ->
  mean_anomaly_to_true_anomaly x e < mean_anomaly_to_true_anomaly y e.
Proof.
  intros He H. rewrite !m2t_eq. apply -> degrees_lt. apply f_true_increasing; [assumption|]. now apply -> radians_lt.
Qed.
