(** Strict monotonicity of the true-to-mean series for eccentricities up to 77/100. *)
From Coq Require Import Reals ZArith Lra Psatz.
From Verif Require Import Base RBase RFacts Orbit_Model Anomaly_Proofs AnomalyRound_Proofs AnomalyInj_Proofs.
Open Scope R_scope.

Definition f_mean' (e r : R) : R :=
  1 - 2 * e * cos r + (3 / 4 * e ^ 2 + 1 / 8 * e ^ 4) * (cos (2 * r) * 2)
    - 1 / 3 * e ^ 3 * (cos (3 * r) * 3) + 5 / 32 * e ^ 4 * (cos (4 * r) * 4).
Lemma f_mean_deriv e x : derivable_pt_lim (f_mean e) x (f_mean' e x).
Proof.
  unfold f_mean'. change (f_mean e) with
    (plus_fct (minus_fct (plus_fct (minus_fct (fun r => r) (fun r => 2 * e * sin r)) (fun r => (3 / 4 * e ^ 2 + 1 / 8 * e ^ 4) * sin (2 * r)))
       (fun r => 1 / 3 * e ^ 3 * sin (3 * r))) (fun r => 5 / 32 * e ^ 4 * sin (4 * r))).
  apply derivable_pt_lim_plus; [apply derivable_pt_lim_minus; [apply derivable_pt_lim_plus; [apply derivable_pt_lim_minus|]|]|].
  - apply derivable_pt_lim_id.
  - apply (derivable_pt_lim_scal sin). apply derivable_pt_lim_sin.
  - apply (derivable_pt_lim_scal (fun r => sin (2 * r))). apply lim_sin_scaled.
  - apply (derivable_pt_lim_scal (fun r => sin (3 * r))). apply lim_sin_scaled.
  - apply (derivable_pt_lim_scal (fun r => sin (4 * r))). apply lim_sin_scaled.
Qed.
Lemma cos_4x x : cos (4 * x) = 8 * cos x ^ 4 - 8 * cos x ^ 2 + 1.
Proof. replace (4 * x) with (2 * (2 * x)) by ring. rewrite cos_2a_cos, cos_2a_cos. ring. Qed.
Lemma quartic_pos x : 0 < 1 - 2 * x + 3 * x ^ 2 - 4 * x ^ 3 + 5 * x ^ 4 - 5929 / 10000 * (3 / 2 - 3 * x + 9 / 2 * x ^ 2) + 3 / 8 * (5929 / 10000) ^ 2.
Proof.
  pose proof (pow2_ge_0 (x ^ 2 - 2 / 5 * x - 1 / 10)) as A.
  pose proof (pow2_ge_0 (x - 580 / 1000)) as B. pose proof (pow2_ge_0 (x - 590 / 1000)) as C. lra.
Qed.
Lemma f_mean'_pos e x : 0 <= e <= 77 / 100 -> 0 < f_mean' e x.
Proof.
  intro He. unfold f_mean'. rewrite cos_4x, cos_3x, cos_2a_cos. set (c := cos x). set (u := e * e). set (y := e * c).
  replace (1 - 2 * e * c + (3 / 4 * e ^ 2 + 1 / 8 * e ^ 4) * ((2 * c * c - 1) * 2) - 1 / 3 * e ^ 3 * ((4 * c ^ 3 - 3 * c) * 3)
      + 5 / 32 * e ^ 4 * ((8 * c ^ 4 - 8 * c ^ 2 + 1) * 4))
    with (1 - 2 * y + 3 * y ^ 2 - 4 * y ^ 3 + 5 * y ^ 4 - u * (3 / 2 - 3 * y + 9 / 2 * y ^ 2) + 3 / 8 * u ^ 2) by (unfold u, y; field).
  assert (U : 0 <= u <= 5929 / 10000) by (unfold u; split; nra).
  pose proof (quartic_pos y) as Q.
  assert (0 <= (5929 / 10000 - u) * ((3 / 2 - 3 * y + 9 / 2 * y ^ 2) - 3 / 8 * (u + 5929 / 10000))).
  { apply Rmult_le_pos; [lra|]. pose proof (pow2_ge_0 (y - 1 / 3)). lra. }
  lra.
Qed.
Lemma f_mean_increasing e x y : 0 <= e <= 77 / 100 -> x < y -> f_mean e x < f_mean e y.
Proof.
  intros He Hxy. destruct (MVT_cor2 (f_mean e) (f_mean' e) x y Hxy) as (c & E & _); [intros; apply f_mean_deriv|].
  pose proof (f_mean'_pos e c He). nra.
Qed.
Lemma t2m_increasing e x y : 0 <= e <= 77 / 100 -> x < y ->
  true_anomaly_to_mean_anomaly x e < true_anomaly_to_mean_anomaly y e.
Proof.
  intros He H. rewrite !t2m_eq. apply -> degrees_lt. apply f_mean_increasing; [assumption|]. now apply -> radians_lt.
Qed.

Lemma t2m_0 e : true_anomaly_to_mean_anomaly 0 e = 0.
Proof. rewrite t2m_eq. unfold radians. rewrite Rmult_0_l, f_mean_0. unfold degrees. lra. Qed.
Lemma t2m_180 e : true_anomaly_to_mean_anomaly 180 e = 180.
Proof. rewrite t2m_eq, radians_180, f_mean_PI. apply degrees_PI. Qed.
Lemma t2m_360 e : true_anomaly_to_mean_anomaly 360 e = 360.
Proof.
  rewrite t2m_eq, radians_360. replace (2 * PI) with (0 + 2 * IZR 1 * PI) at 1 by (simpl; lra).
  rewrite f_mean_period, f_mean_0. simpl. replace (0 + 2 * 1 * PI) with (2 * PI) by lra. apply degrees_2PI.
Qed.
Lemma t2m_range e nu : 0 <= e <= 77 / 100 -> 0 <= nu < 360 -> 0 <= true_anomaly_to_mean_anomaly nu e < 360.
Proof.
  intros He [L U]. split.
  - destruct (Rle_lt_or_eq_dec 0 nu L) as [P|<-]; [|rewrite t2m_0; lra].
    pose proof (t2m_increasing e 0 nu He P) as H. rewrite t2m_0 in H. lra.
  - pose proof (t2m_increasing e nu 360 He U) as H. rewrite t2m_360 in H. lra.
Qed.
Lemma t2m_half e nu : 0 <= e <= 77 / 100 ->
  (true_anomaly_to_mean_anomaly nu e < 180 <-> nu < 180) /\ (true_anomaly_to_mean_anomaly nu e = 180 <-> nu = 180).
Proof.
  intro He. pose proof (t2m_180 e) as E. destruct (Rtotal_order nu 180) as [P|[P|P]].
  - pose proof (t2m_increasing e nu 180 He P). lra.
  - subst. lra.
  - pose proof (t2m_increasing e 180 nu He P). lra.
Qed.
Lemma t2m_injective e x y : 0 <= e <= 77 / 100 -> true_anomaly_to_mean_anomaly x e = true_anomaly_to_mean_anomaly y e -> x = y.
Proof.
  intros He H. destruct (Rtotal_order x y) as [P|[P|P]]; auto.
  - pose proof (t2m_increasing e x y He P). lra.
  - pose proof (t2m_increasing e y x He P). lra.
Qed.

(** The witness of the refutation: eccentricity 0.96, true anomaly 120 degrees. *)
Lemma PI_small : PI < 32 / 10.
Proof.
  pose proof (PI_2_3_7_ineq 2) as [L U]. unfold PI_2_3_7_tg, tg_alt, Ratan_seq in L, U. simpl in L, U. lra.
Qed.
Lemma sqrt3_low : 17 / 10 < sqrt 3.
Proof. apply Rsqr_incrst_0; [|lra|apply sqrt_pos]. rewrite Rsqr_sqrt by lra. unfold Rsqr. lra. Qed.
Lemma t2m_negative : true_anomaly_to_mean_anomaly 120 (96 / 100) < 0.
Proof.
  rewrite t2m_eq. replace 0 with (degrees 0) by (unfold degrees; lra). apply -> degrees_lt.
  replace (radians 120) with (2 * (PI / 3)) by (unfold radians; field). unfold f_mean.
  replace (3 * (2 * (PI / 3))) with (0 + 2 * IZR 1 * PI) by (simpl; field).
  replace (4 * (2 * (PI / 3))) with (2 * (PI / 3) + 2 * IZR 1 * PI) by (simpl; field).
  replace (2 * (2 * (PI / 3))) with (- (2 * (PI / 3)) + 2 * IZR 1 * PI) by (simpl; field).
  rewrite !sin_period_Z, sin_neg, sin_0, sin_2PI3. pose proof PI_small. pose proof sqrt3_low. lra.
Qed.
