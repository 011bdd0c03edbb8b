(** Proofs about streets of coverage in binary64: the counts of usual streets. *)
From Coq Require Import ZArith Reals Lra Lia Bool.
From Flocq Require Import Core IEEE754.BinarySingleNaN.
From Verif Require Import Base RBase Float_Model Float_Spec Float_Proofs FGrid_Model FGrid_Proofs FGrid_Proofs2 FTime_Model FTime_Proofs
  FGeom_Model FGeom_Spec Geom_Model Geom_Spec Geom_Proofs Geom_Proofs2 FGeom_Proofs FGeom_Proofs2 FMog_Proofs2 FSoc_Model FSoc_Spec FSoc_Proofs.
Open Scope R_scope.

Lemma atan_lip x y : Rabs (atan y - atan x) <= Rabs (y - x).
Proof.
  destruct (MVT_abs atan (fun z => / (1 + z ^ 2)) x y) as [c [E _]].
  - intros c _. apply derivable_pt_lim_atan.
  - rewrite E. rewrite <- (Rmult_1_l (Rabs (y - x))) at 2. apply Rmult_le_compat_r; [apply Rabs_pos|].
    assert (1 <= 1 + c ^ 2) by nra. rewrite Rabs_pos_eq by (apply Rlt_le, Rinv_0_lt_compat; lra). rewrite <- Rinv_1. apply Rinv_le_contravar; lra.
Qed.
Lemma quot_range a b lo hi : 0 < b -> lo * b <= a -> a <= hi * b -> lo <= a / b <= hi.
Proof. intros B L H. split; apply Rmult_le_reg_r with b; try lra; unfold Rdiv; rewrite Rmult_assoc, Rinv_l by lra; lra. Qed.

(** ** Exact values *)
Record street (h w : R) := mk_street {
  st_rho : 0.112 <= rho_of h 0 <= 0.97;
  st_lam : 0.0078 <= w / 2 / EARTH_MEAN_RADIUS < PI / 2;
  st_sin : 0.0039 <= sin (w / 2 / EARTH_MEAN_RADIUS) <= 0.994;
  st_cos : rho_of h 0 <= cos (w / 2 / EARTH_MEAN_RADIUS);
  st_eta : let eta := atan (rho_of h 0 * sin (w / 2 / EARTH_MEAN_RADIUS) / (1 - rho_of h 0 * cos (w / 2 / EARTH_MEAN_RADIUS))) in
    0 <= eta < PI / 2 /\ w / 2 / EARTH_MEAN_RADIUS + eta <= PI / 2 /\ rho_of h 0 * sin (w / 2 / EARTH_MEAN_RADIUS + eta) = sin eta
    /\ 0 <= sin (w / 2 / EARTH_MEAN_RADIUS + eta) <= 0.9991 }.
Lemma street_facts h w : 200000 <= h <= 50000000 -> 100000 <= w ->
  w / 2 / EARTH_MEAN_RADIUS <= acos (EARTH_MEAN_RADIUS / (EARTH_MEAN_RADIUS + h)) ->
  (let rho := EARTH_MEAN_RADIUS / (EARTH_MEAN_RADIUS + h) in let lam := w / 2 / EARTH_MEAN_RADIUS in
   sin lam * sin lam <= 0.998 * (1 - 2 * rho * cos lam + rho * rho)) -> street h w.
Proof.
  cbv zeta. intros H W A M. pose proof R_bounds as RB. pose proof pi_tight as P.
  assert (RR : EARTH_MEAN_RADIUS / (EARTH_MEAN_RADIUS + h) = rho_of h 0) by (unfold rho_of; now rewrite Rplus_0_r). rewrite RR in A, M.
  assert (R1 : 0.112 <= rho_of h 0 <= 0.97). { rewrite <- RR. apply quot_range; lra. }
  set (lam := w / 2 / EARTH_MEAN_RADIUS) in *. set (rho := rho_of h 0) in *.
  assert (L0 : 0.0078 <= lam). { apply (quot_range (w / 2) EARTH_MEAN_RADIUS 0.0078 w); [lra|lra|nra]. }
  assert (AC : cos (acos rho) = rho) by (apply cos_acos; lra).
  pose proof (acos_bound rho) as AB.
  assert (LP : lam < PI / 2).
  { destruct (Rlt_or_le (acos rho) (PI / 2)) as [|G]; [lra|]. pose proof (cos_le_0 (acos rho) G ltac:(lra)). lra. }
  assert (C : rho <= cos lam). { rewrite <- AC. apply cos_decr_1; lra. }
  assert (SL : 0 < sin lam) by (apply sin_gt_0; lra).
  pose proof (sin_half lam ltac:(lra)) as SH.
  assert (S2 : sin lam * sin lam + cos lam * cos lam = 1) by (pose proof (sin2_cos2 lam); unfold Rsqr in *; lra).
  assert (S1 : sin lam <= 0.994) by nra.
  destruct (edge_angles rho lam ltac:(lra) ltac:(lra)) as [E1 [E2 E3]]. pose proof (off_nadir_sine _ _ _ E2) as E4.
  constructor; fold lam rho; try lra; try (split; lra).
  set (eta := atan (rho * sin lam / (1 - rho * cos lam))) in *. cbv zeta. split; [exact E1|]. split; [exact E3|]. split; [exact E4|].
  split; [apply sin_ge_0; lra|].
  assert (CL : cos lam <= 1) by (pose proof (COS_bound lam); lra).
  assert (D0 : 0 < 1 - rho * cos lam) by nra.
  assert (CE : 0 < cos eta) by (apply cos_gt_0; lra).
  assert (T : sin eta * (1 - rho * cos lam) = cos eta * (rho * sin lam)).
  { assert (T0 : tan eta = rho * sin lam / (1 - rho * cos lam)) by apply tan_atan. unfold tan in T0.
    apply Rmult_eq_reg_r with (/ cos eta * / (1 - rho * cos lam)).
    - transitivity (sin eta / cos eta); [field; lra|]. rewrite T0. field; lra.
    - apply Rmult_integral_contrapositive. split; apply Rinv_neq_0_compat; lra. }
  assert (S3 : sin eta * sin eta + cos eta * cos eta = 1) by (pose proof (sin2_cos2 eta); unfold Rsqr in *; lra).
  assert (Q : sin eta * sin eta * (1 - 2 * rho * cos lam + rho * rho) = rho * rho * (sin lam * sin lam)).
  { replace (1 - 2 * rho * cos lam + rho * rho) with ((1 - rho * cos lam) * (1 - rho * cos lam) + rho * rho * (sin lam * sin lam)) by (replace (sin lam * sin lam) with (1 - cos lam * cos lam) by lra; ring).
    replace (sin eta * sin eta * ((1 - rho * cos lam) * (1 - rho * cos lam) + rho * rho * (sin lam * sin lam)))
      with ((sin eta * (1 - rho * cos lam)) * (sin eta * (1 - rho * cos lam)) + sin eta * sin eta * (rho * rho * (sin lam * sin lam))) by ring.
    rewrite T. replace (sin eta * sin eta) with (1 - cos eta * cos eta) by lra. ring. }
  set (y := sin (lam + eta)) in *. set (D := 1 - 2 * rho * cos lam + rho * rho) in *.
  assert (DP : 0 < D). { unfold D. assert (0 < (1 - rho) * (1 - rho)) by nra. nra. }
  assert (Y2 : y * y <= 0.998).
  { apply Rmult_le_reg_r with (rho * rho * D); [apply Rmult_lt_0_compat; [nra|lra]|].
    replace (y * y * (rho * rho * D)) with (rho * y * (rho * y) * D) by ring. rewrite E4, Q.
    replace (0.998 * (rho * rho * D)) with (rho * rho * (0.998 * D)) by ring. apply Rmult_le_compat_l; [nra|exact M]. }
  nra.
Qed.
