(** Proofs about the viewing-geometry functions. *)
From Coq Require Import Reals ZArith List Bool Lia Lra Psatz Machin.
From Verif Require Import Base RBase RFacts Orbit_Model Orbit_Proofs Geom_Model Geom_Spec.
Import ListNotations.
Open Scope R_scope.

(** ** Options *)
Lemma np_arcsin_in x : -1 <= x <= 1 -> np_arcsin x = Some (asin x).
Proof.
  intros [H1 H2]. unfold np_arcsin. apply Rleb_spec in H1, H2. now rewrite H1, H2.
Qed.
Lemma np_arccos_in x : -1 <= x <= 1 -> np_arccos x = Some (acos x).
Proof.
  intros [H1 H2]. unfold np_arccos. apply Rleb_spec in H1, H2. now rewrite H1, H2.
Qed.
Lemma rdiv_ok x y : y <> 0 -> rdiv x y = Some (x / y).
Proof. intro H. unfold rdiv. destruct (Req_EM_T y 0); [contradiction|reflexivity]. Qed.
Lemma np_sqrt_ok x : 0 <= x -> np_sqrt x = Some (sqrt x).
Proof. intro H. unfold np_sqrt. apply Rleb_spec in H. now rewrite H. Qed.

(** ** Ratio *)
Lemma above_pos h el : above h el -> 0 < EARTH_MEAN_RADIUS + el < EARTH_MEAN_RADIUS + h.
Proof. unfold above. lra. Qed.
Lemma rho_range h el : above h el -> 0 < rho h el < 1.
Proof.
  intro H. apply above_pos in H. unfold rho. split; [apply Rdiv_lt_0_compat; lra|].
  apply Rmult_lt_reg_r with (EARTH_MEAN_RADIUS + h); [lra|]. unfold Rdiv. rewrite Rmult_assoc, Rinv_l; lra.
Qed.
Lemma earth_sin_eq h el : above h el -> earth_sin h el = Some (rho h el).
Proof. intro H. apply above_pos in H. unfold earth_sin. rewrite rdiv_ok by lra. reflexivity. Qed.

(** ** Inverse sine and cosine *)
Lemma asin_le x y : -1 <= x -> x <= y -> y <= 1 -> asin x <= asin y.
Proof.
  intros H1 H2 H3. pose proof (asin_bound x). pose proof (asin_bound y).
  apply sin_incr_0; try lra. rewrite !sin_asin by lra. assumption.
Qed.
Lemma asin_nonneg x : 0 <= x <= 1 -> 0 <= asin x.
Proof. intro H. rewrite <- asin_0. apply asin_le; lra. Qed.
Lemma acos_range01 x : 0 <= x <= 1 -> 0 <= acos x <= PI / 2.
Proof.
  intro H. rewrite acos_asin by lra. pose proof (asin_nonneg x H). pose proof (asin_bound x). lra.
Qed.
Lemma acos_sin x : 0 <= x <= PI / 2 -> acos (sin x) = PI / 2 - x.
Proof. intro H. rewrite <- cos_shift. apply acos_cos. pose proof PI_RGT_0. lra. Qed.
Lemma sin01 x : 0 <= x <= PI / 2 -> 0 <= sin x <= 1.
Proof. intro H. pose proof (SIN_bound x). split; [apply sin_ge_0; pose proof PI_RGT_0; lra|lra]. Qed.

(** ** Geometry of one surface point *)
Lemma off_nadir_sine r lam eta : off_nadir r lam eta -> r * sin (lam + eta) = sin eta.
Proof.
  intros [d [Hd [E1 E2]]]. rewrite sin_plus. apply Rmult_eq_reg_l with d; [|lra].
  transitivity (r * sin lam * (d * cos eta) + r * cos lam * (d * sin eta)); [ring|].
  rewrite <- E2, <- E1. ring.
Qed.
Lemma edge_angles r lam : 0 < r < 1 -> 0 <= lam <= acos r ->
  let eta := atan (r * sin lam / (1 - r * cos lam)) in
  0 <= eta < PI / 2 /\ off_nadir r lam eta /\ lam + eta <= PI / 2.
Proof.
  intros Hr Hl eta. pose proof PI_RGT_0 as P. pose proof (acos_range01 r ltac:(lra)) as A.
  assert (C : r <= cos lam). { rewrite <- (cos_acos r) at 1 by lra. apply cos_decr_1; lra. }
  pose proof (COS_bound lam) as B. assert (D : 0 < 1 - r * cos lam) by nra.
  assert (S0 : 0 <= sin lam) by (apply sin_ge_0; lra).
  assert (T0 : 0 <= r * sin lam / (1 - r * cos lam)).
  { apply Rmult_le_pos; [nra|]. apply Rlt_le, Rinv_0_lt_compat. lra. }
  assert (E0 : 0 <= eta < PI / 2).
  { unfold eta. pose proof (atan_bound (r * sin lam / (1 - r * cos lam))). split; [|lra].
    rewrite <- atan_0. destruct T0 as [T0|T0]; [apply Rlt_le, atan_increasing; exact T0|]. rewrite <- T0. lra. }
  assert (CE : 0 < cos eta) by (apply cos_gt_0; lra).
  assert (TE : sin eta = r * sin lam / (1 - r * cos lam) * cos eta).
  { pose proof (tan_atan (r * sin lam / (1 - r * cos lam))) as T. fold eta in T. unfold tan in T. rewrite <- T. field. lra. }
  assert (ON : off_nadir r lam eta).
  { exists ((1 - r * cos lam) / cos eta). split; [apply Rdiv_lt_0_compat; lra|]. split.
    - rewrite TE. field. lra. - field. lra. }
  split; [exact E0|]. split; [exact ON|].
  destruct ON as [d [Hd [E1 E2]]].
  assert (CC : d * cos (lam + eta) = cos lam - r).
  { rewrite cos_plus. replace (d * (cos lam * cos eta - sin lam * sin eta)) with (cos lam * (d * cos eta) - sin lam * (d * sin eta)) by ring.
    rewrite <- E1, <- E2. pose proof (sin2_cos2 lam) as Q. unfold Rsqr in Q. replace (sin lam * (r * sin lam)) with (r * (sin lam * sin lam)) by ring.
    replace (sin lam * sin lam) with (1 - cos lam * cos lam) by lra. ring. }
  destruct (Rle_dec (lam + eta) (PI / 2)) as [|N]; auto. exfalso.
  assert (cos (lam + eta) < 0) by (apply cos_lt_0; lra). nra.
Qed.
Lemma seen_angles r eta : 0 < r < 1 -> 0 <= eta <= asin r ->
  let eps := acos (sin eta / r) in let lam := PI / 2 - eta - eps in
  0 <= sin eta / r <= 1 /\ 0 <= eps <= PI / 2 /\ 0 <= lam <= acos r /\ off_nadir r lam eta.
Proof.
  intros Hr He eps lam. pose proof PI_RGT_0 as P. pose proof (asin_bound r) as A.
  assert (S1 : 0 <= sin eta <= r).
  { split; [apply sin_ge_0; lra|]. rewrite <- (sin_asin r) by lra. apply sin_incr_1; lra. }
  assert (Q : 0 <= sin eta / r <= 1).
  { split; [apply Rmult_le_pos; [lra|apply Rlt_le, Rinv_0_lt_compat; lra]|].
    apply Rmult_le_reg_r with r; [lra|]. unfold Rdiv. rewrite Rmult_assoc, Rinv_l; lra. }
  pose proof (acos_range01 (sin eta / r) Q) as E. fold eps in E.
  assert (CE : cos eps = sin eta / r) by (unfold eps; apply cos_acos; lra).
  assert (SL : sin (lam + eta) = sin eta / r).
  { unfold lam. replace (PI / 2 - eta - eps + eta) with (PI / 2 - eps) by lra. rewrite sin_shift. exact CE. }
  assert (CL : cos (lam + eta) = sin eps).
  { unfold lam. replace (PI / 2 - eta - eps + eta) with (PI / 2 - eps) by lra. apply cos_shift. }
  assert (SE0 : 0 <= sin eps) by (apply sin_ge_0; lra).
  assert (CEta : 0 < cos eta).
  { apply cos_gt_0; [lra|]. pose proof (asin_bound_lt r ltac:(lra)). lra. }
  assert (S2 : sin eps * sin eps = 1 - (sin eta / r) * (sin eta / r)).
  { pose proof (sin2_cos2 eps) as W. unfold Rsqr in W. rewrite CE in W. lra. }
  assert (C2 : cos eta * cos eta = 1 - sin eta * sin eta) by (pose proof (sin2_cos2 eta) as W; unfold Rsqr in W; lra).
  assert (L0 : 0 <= lam).
  { unfold lam, eps. rewrite acos_asin by lra. assert (asin (sin eta) <= asin (sin eta / r)).
    { apply asin_le; try lra. apply Rmult_le_reg_r with r; [lra|]. unfold Rdiv. rewrite Rmult_assoc, Rinv_l by lra. nra. }
    rewrite asin_sin in H by lra. lra. }
  assert (LP : lam <= PI / 2) by (unfold lam; lra).
  assert (CLam : cos lam = sin eps * cos eta + sin eta / r * sin eta).
  { replace lam with ((lam + eta) - eta) at 1 by lra. rewrite cos_minus, SL, CL. ring. }
  assert (SLam : r * sin lam * cos eta = sin eta * (1 - r * cos lam)).
  { assert (X : r * sin (lam + eta) = sin eta) by (rewrite SL; field; lra). rewrite sin_plus in X. nra. }
  assert (RC : r <= cos lam).
  { rewrite CLam. set (q := sin eta / r) in *. assert (Eq : sin eta = q * r) by (unfold q; field; lra).
    assert (K : r * sin eps <= cos eta).
    { apply Rsqr_incr_0; try lra; [|nra]. unfold Rsqr. replace (r * sin eps * (r * sin eps)) with (r * r * (sin eps * sin eps)) by ring.
      rewrite S2, C2, Eq. nra. }
    rewrite Eq at 1. assert (sin eps * (r * sin eps) <= sin eps * cos eta) by (apply Rmult_le_compat_l; lra).
    assert (r * (sin eps * sin eps) = r * (1 - q * q)) by (rewrite S2; reflexivity). nra. }
  assert (LA : lam <= acos r).
  { destruct (Rle_dec lam (acos r)) as [|N]; auto. exfalso.
    pose proof (acos_range01 r ltac:(lra)). assert (cos lam < cos (acos r)) by (apply cos_decreasing_1; lra).
    rewrite cos_acos in H0 by lra. lra. }
  split; [exact Q|]. split; [exact E|]. split; [lra|].
  exists ((1 - r * cos lam) / cos eta). pose proof (COS_bound lam).
  split; [apply Rdiv_lt_0_compat; nra|]. split; [|field; lra].
  replace ((1 - r * cos lam) / cos eta * sin eta) with (sin eta * (1 - r * cos lam) / cos eta) by (field; lra).
  rewrite <- SLam. field. lra.
Qed.
Lemma asin_lt_PI2 r : 0 < r < 1 -> 0 < asin r < PI / 2.
Proof.
  intro H. pose proof (asin_bound_lt r ltac:(lra)). split; [|lra].
  rewrite <- asin_0. pose proof (asin_bound 0). apply sin_increasing_0; try lra. rewrite !sin_asin by lra. lra.
Qed.

(** ** Values of the functions *)
Lemma clipped_sin r eta : 0 < r < 1 -> 0 <= eta <= PI / 2 -> Rmin r (sin eta) = sin (Rmin eta (asin r)).
Proof.
  intros Hr He. pose proof (asin_lt_PI2 r Hr) as A. destruct (Rle_dec eta (asin r)) as [H|H].
  - rewrite (Rmin_left eta) by lra. rewrite Rmin_right; auto. rewrite <- (sin_asin r) by lra. apply sin_incr_1; lra.
  - rewrite (Rmin_right eta) by lra. rewrite sin_asin by lra. apply Rmin_left.
    rewrite <- (sin_asin r) by lra. apply sin_incr_1; lra.
Qed.
Lemma for_to_swath_value h f el : above h el -> 0 <= f <= 180 ->
  let eta := Rmin (radians f / 2) (asin (rho h el)) in
  field_of_regard_to_swath_width h f el
  = Some (2 * (EARTH_MEAN_RADIUS + el) * (PI / 2 - eta - acos (sin eta / rho h el))).
Proof.
  intros Ha Hf eta. pose proof (rho_range h el Ha) as Hr. unfold field_of_regard_to_swath_width.
  rewrite earth_sin_eq by auto. cbn [obind]. pose proof PI_RGT_0 as P.
  assert (He : 0 <= radians f / 2 <= PI / 2).
  { split; [unfold radians; assert (0 <= f * (PI / 180)) by (apply Rmult_le_pos; lra); lra|].
    assert (radians f <= radians 180) by (apply (proj1 (radians_le _ _)); lra). rewrite radians_180 in H. lra. }
  rewrite clipped_sin by auto. fold eta. pose proof (asin_lt_PI2 _ Hr) as A.
  assert (Heta : 0 <= eta <= asin (rho h el)).
  { unfold eta. split; [apply Rmin_glb; lra|apply Rmin_r]. }
  destruct (seen_angles (rho h el) eta Hr Heta) as [Q _].
  rewrite rdiv_ok by lra. cbn [obind]. assert (B := sin01 eta ltac:(lra)).
  rewrite np_arcsin_in by lra. cbn [obind]. rewrite np_arccos_in by lra. cbn [obind].
  rewrite asin_sin by lra. reflexivity.
Qed.
Lemma half_for f : 0 <= f <= 180 -> 0 <= radians f / 2 <= PI / 2.
Proof.
  intro Hf. pose proof PI_RGT_0. split; [unfold radians; assert (0 <= f * (PI / 180)) by (apply Rmult_le_pos; lra); lra|].
  assert (radians f <= radians 180) by (apply (proj1 (radians_le _ _)); lra). rewrite radians_180 in H0. lra.
Qed.
Lemma min_elevation_value h f el : above h el -> 0 <= f <= 180 ->
  let eta := Rmin (radians f / 2) (asin (rho h el)) in
  compute_min_elevation_angle h f el = Some (degrees (acos (sin eta / rho h el))).
Proof.
  intros Ha Hf eta. pose proof (rho_range h el Ha) as Hr. unfold compute_min_elevation_angle.
  rewrite earth_sin_eq by auto. cbn [obind]. pose proof (half_for f Hf) as He. pose proof (asin_lt_PI2 _ Hr) as A.
  rewrite rdiv_ok by lra. cbn [obind]. pose proof (sin01 _ He) as B.
  pose proof (clipped_sin (rho h el) (radians f / 2) Hr He) as C. fold eta in C.
  assert (Heta : 0 <= eta <= asin (rho h el)).
  { unfold eta. split; [apply Rmin_glb; lra|apply Rmin_r]. }
  destruct (seen_angles (rho h el) eta Hr Heta) as [Q _].
  destruct (Rltb 1 (sin (radians f / 2) / rho h el)) eqn:E.
  - apply Rltb_spec in E. assert (rho h el < sin (radians f / 2)).
    { apply (Rmult_lt_compat_r (rho h el)) in E; [|lra]. unfold Rdiv in E. rewrite Rmult_assoc, Rinv_l in E by lra. lra. }
    rewrite Rmin_left in C by lra. rewrite <- C. replace (rho h el / rho h el) with 1 by (field; lra).
    rewrite acos_1, degrees_0. reflexivity.
  - apply Rltb_false in E. assert (sin (radians f / 2) <= rho h el).
    { apply (Rmult_le_compat_r (rho h el)) in E; [|lra]. unfold Rdiv in E. rewrite Rmult_assoc, Rinv_l in E by lra. lra. }
    rewrite Rmin_right in C by lra. rewrite C, np_arccos_in by lra. reflexivity.
Qed.
Lemma swath_to_for_value h w el : above h el -> 0 <= w <= 2 * (EARTH_MEAN_RADIUS + el) * horizon h el ->
  let lam := w / 2 / (EARTH_MEAN_RADIUS + el) in
  let eta := atan (rho h el * sin lam / (1 - rho h el * cos lam)) in
  0 <= lam <= horizon h el /\ swath_width_to_field_of_regard h w el = Some (degrees (2 * eta)).
Proof.
  intros Ha Hw lam eta. pose proof (rho_range h el Ha) as Hr. pose proof (above_pos h el Ha) as Hp. pose proof PI_RGT_0 as P.
  assert (Hl : 0 <= lam <= horizon h el).
  { unfold lam. split; [apply Rmult_le_pos; [lra|apply Rlt_le, Rinv_0_lt_compat; lra]|].
    apply Rmult_le_reg_r with (EARTH_MEAN_RADIUS + el); [lra|]. unfold Rdiv at 1. rewrite Rmult_assoc, Rinv_l by lra. lra. }
  split; auto. unfold swath_width_to_field_of_regard. rewrite earth_sin_eq by auto. cbn [obind].
  rewrite rdiv_ok by lra. cbn [obind]. fold lam. unfold tan_eta. pose proof (acos_range01 (rho h el) ltac:(lra)) as A.
  unfold horizon in Hl. rewrite np_arcsin_in by (pose proof (SIN_bound lam); lra). cbn [obind].
  rewrite asin_sin by lra. rewrite rdiv_ok. 2:{ pose proof (COS_bound lam). nra. } reflexivity.
Qed.
Lemma radians_half x : radians (degrees (2 * x)) / 2 = x.
Proof. rewrite radians_degrees. lra. Qed.

(** ** C37 *)
Lemma swath_for_swath h w el : above h el -> 0 <= w <= 2 * (EARTH_MEAN_RADIUS + el) * horizon h el ->
  exists f, swath_width_to_field_of_regard h w el = Some f /\ 0 <= f < 180
    /\ off_nadir (rho h el) (w / 2 / (EARTH_MEAN_RADIUS + el)) (radians f / 2)
    /\ field_of_regard_to_swath_width h f el = Some w.
Proof.
  intros Ha Hw. destruct (swath_to_for_value h w el Ha Hw) as [Hl E]. pose proof (rho_range h el Ha) as Hr. pose proof PI_RGT_0 as P.
  set (lam := w / 2 / (EARTH_MEAN_RADIUS + el)) in *.
  set (eta := atan (rho h el * sin lam / (1 - rho h el * cos lam))) in *. unfold horizon in Hl.
  destruct (edge_angles (rho h el) lam Hr Hl) as [H1 [H2 H3]]. fold eta in H1, H2, H3.
  exists (degrees (2 * eta)). split; auto.
  assert (F0 : 0 <= degrees (2 * eta) < 180).
  { rewrite <- degrees_PI. rewrite <- degrees_0 at 1. split; [apply (proj1 (degrees_le _ _)); lra|apply (proj1 (degrees_lt _ _)); lra]. }
  split; auto. rewrite radians_half. split; auto.
  pose proof (off_nadir_sine _ _ _ H2) as S0.
  assert (SR : sin eta <= rho h el). { pose proof (SIN_bound (lam + eta)). nra. }
  assert (EA : eta <= asin (rho h el)). { rewrite <- (asin_sin eta) by lra. apply asin_le; try lra. pose proof (SIN_bound eta). lra. }
  rewrite (for_to_swath_value h _ el Ha) by lra. rewrite radians_half, Rmin_left by lra.
  replace (sin eta / rho h el) with (sin (lam + eta)) by (rewrite <- S0; field; lra).
  rewrite acos_sin by lra. f_equal. unfold lam. pose proof (above_pos h el Ha). field. lra.
Qed.
Lemma for_swath_for h f el : above h el -> 0 <= radians f / 2 <= asin (rho h el) ->
  exists w, field_of_regard_to_swath_width h f el = Some w
    /\ 0 <= w <= 2 * (EARTH_MEAN_RADIUS + el) * horizon h el
    /\ off_nadir (rho h el) (w / 2 / (EARTH_MEAN_RADIUS + el)) (radians f / 2)
    /\ swath_width_to_field_of_regard h w el = Some f.
Proof.
  intros Ha Hf. pose proof (rho_range h el Ha) as Hr. pose proof PI_RGT_0 as P. pose proof (asin_lt_PI2 _ Hr) as A.
  assert (Hf' : 0 <= f <= 180).
  { split. - apply (proj2 (radians_le 0 f)). rewrite radians_0. lra. - apply (proj2 (radians_le f 180)). rewrite radians_180. lra. }
  set (eta := radians f / 2) in *.
  destruct (seen_angles (rho h el) eta Hr Hf) as [Q [E [L O]]].
  set (eps := acos (sin eta / rho h el)) in *. set (lam := PI / 2 - eta - eps) in *.
  pose proof (above_pos h el Ha) as Hp.
  exists (2 * (EARTH_MEAN_RADIUS + el) * lam).
  pose proof (for_to_swath_value h f el Ha Hf') as V. cbv zeta in V. fold eta in V. rewrite Rmin_left in V by lra. fold eps lam in V.
  split; auto.
  assert (W : 0 <= 2 * (EARTH_MEAN_RADIUS + el) * lam <= 2 * (EARTH_MEAN_RADIUS + el) * horizon h el).
  { unfold horizon. split; [apply Rmult_le_pos; lra|]. apply Rmult_le_compat_l; lra. }
  split; auto. assert (EL : 2 * (EARTH_MEAN_RADIUS + el) * lam / 2 / (EARTH_MEAN_RADIUS + el) = lam) by (field; lra).
  rewrite EL. split; auto.
  destruct (swath_to_for_value h _ el Ha W) as [_ V2]. rewrite EL in V2. rewrite V2. f_equal.
  destruct O as [d [Hd [E1 E2]]]. rewrite E1, E2.
  assert (0 < cos eta) by (apply cos_gt_0; lra).
  replace (d * sin eta / (d * cos eta)) with (tan eta) by (unfold tan; field; lra).
  rewrite atan_tan by lra. unfold eta. replace (2 * (radians f / 2)) with (radians f) by lra. apply degrees_radians.
Qed.

(** ** C38 *)
Lemma elevation_for_elevation h eps el : above h el -> 0 <= eps <= 90 ->
  exists f, compute_field_of_regard h eps el = Some f /\ 0 <= f < 180
    /\ compute_min_elevation_angle h f el = Some eps.
Proof.
  intros Ha He. pose proof (rho_range h el Ha) as Hr. pose proof PI_RGT_0 as P. pose proof (asin_lt_PI2 _ Hr) as A.
  assert (Hx : 0 <= radians eps <= PI / 2).
  { rewrite <- radians_0, <- radians_90. split; apply (proj1 (radians_le _ _)); lra. }
  assert (C : 0 <= cos (radians eps) <= 1) by (pose proof (COS_bound (radians eps)); split; [apply cos_ge_0; lra|lra]).
  assert (B : 0 <= rho h el * cos (radians eps) <= rho h el) by (split; [apply Rmult_le_pos; lra|nra]).
  exists (degrees (asin (rho h el * cos (radians eps)) * 2)).
  unfold compute_field_of_regard. rewrite earth_sin_eq by auto. cbn [obind]. rewrite np_arcsin_in by lra. cbn [obind].
  split; auto. set (eta := asin (rho h el * cos (radians eps))).
  assert (E0 : 0 <= eta <= asin (rho h el)).
  { unfold eta. split; [apply asin_nonneg; lra|apply asin_le; lra]. }
  assert (F0 : 0 <= degrees (eta * 2) < 180).
  { rewrite <- degrees_PI. rewrite <- degrees_0 at 1. split; [apply (proj1 (degrees_le _ _)); lra|apply (proj1 (degrees_lt _ _)); lra]. }
  split; auto. rewrite (min_elevation_value h _ el Ha) by lra.
  replace (radians (degrees (eta * 2)) / 2) with eta by (rewrite radians_degrees; lra).
  rewrite Rmin_left by lra. unfold eta at 1. rewrite sin_asin by lra.
  replace (rho h el * cos (radians eps) / rho h el) with (cos (radians eps)) by (field; lra).
  rewrite acos_cos by lra. now rewrite degrees_radians.
Qed.
Lemma for_elevation_for h f el : above h el -> 0 <= radians f / 2 <= asin (rho h el) ->
  exists eps, compute_min_elevation_angle h f el = Some eps /\ 0 <= eps <= 90
    /\ (exists lam, off_nadir (rho h el) lam (radians f / 2) /\ lam + radians f / 2 + radians eps = PI / 2)
    /\ compute_field_of_regard h eps el = Some f.
Proof.
  intros Ha Hf. pose proof (rho_range h el Ha) as Hr. pose proof PI_RGT_0 as P. pose proof (asin_lt_PI2 _ Hr) as A.
  assert (Hf' : 0 <= f <= 180).
  { split. - apply (proj2 (radians_le 0 f)). rewrite radians_0. lra. - apply (proj2 (radians_le f 180)). rewrite radians_180. lra. }
  set (eta := radians f / 2) in *.
  destruct (seen_angles (rho h el) eta Hr Hf) as [Q [E [L O]]].
  set (eps := acos (sin eta / rho h el)) in *.
  exists (degrees eps). pose proof (min_elevation_value h f el Ha Hf') as V. cbv zeta in V. fold eta in V. rewrite Rmin_left in V by lra. fold eps in V.
  split; auto. split.
  { rewrite <- degrees_0 at 1. rewrite <- degrees_PI2. split; apply (proj1 (degrees_le _ _)); lra. }
  split. { exists (PI / 2 - eta - eps). split; auto. rewrite radians_degrees. lra. }
  unfold compute_field_of_regard. rewrite earth_sin_eq by auto. cbn [obind]. rewrite radians_degrees.
  replace (cos eps) with (sin eta / rho h el) by (unfold eps; rewrite cos_acos; lra).
  replace (rho h el * (sin eta / rho h el)) with (sin eta) by (field; lra).
  rewrite np_arcsin_in by (pose proof (SIN_bound eta); lra). cbn [obind]. rewrite asin_sin by lra.
  f_equal. unfold eta. replace (radians f / 2 * 2) with (radians f) by lra. apply degrees_radians.
Qed.
(** Beyond the horizon the elevation angle is zero. *)
Lemma beyond_horizon h f el : above h el -> 0 <= f <= 180 -> asin (rho h el) <= radians f / 2 ->
  compute_min_elevation_angle h f el = Some 0
  /\ field_of_regard_to_swath_width h f el = Some (2 * (EARTH_MEAN_RADIUS + el) * horizon h el).
Proof.
  intros Ha Hf H. pose proof (rho_range h el Ha) as Hr.
  rewrite (min_elevation_value h f el Ha Hf), (for_to_swath_value h f el Ha Hf), Rmin_right by lra.
  rewrite sin_asin by lra. replace (rho h el / rho h el) with 1 by (field; lra). rewrite acos_1, degrees_0.
  split; auto. f_equal. unfold horizon. rewrite acos_asin by lra. lra.
Qed.

(** ** C39, C40 *)
Lemma asin_spread r u v : 0 < r <= 1 -> 0 <= u -> u <= v -> v <= 1 -> asin (r * v) - asin (r * u) <= asin v - asin u.
Proof.
  intros Hr Hu Huv Hv. pose proof PI_RGT_0 as P.
  set (A := asin u). set (A' := asin v). set (B := asin (r * u)). set (B' := asin (r * v)).
  assert (SA : sin A = u) by (apply sin_asin; lra). assert (SA' : sin A' = v) by (apply sin_asin; lra).
  assert (SB : sin B = r * u) by (apply sin_asin; nra). assert (SB' : sin B' = r * v) by (apply sin_asin; nra).
  assert (A0 : 0 <= A) by (apply asin_nonneg; lra). assert (AA : A <= A') by (apply asin_le; lra).
  assert (A1 : A' <= PI / 2) by (apply asin_bound).
  assert (B0 : 0 <= B) by (apply asin_nonneg; nra). assert (BB : B <= B') by (apply asin_le; nra).
  assert (AB : B <= A) by (apply asin_le; nra). assert (AB' : B' <= A') by (apply asin_le; nra).
  destruct (Rle_dec (B' - B) (A' - A)) as [|N]; auto. exfalso. apply Rnot_le_lt in N.
  assert (FA : sin A' - sin A = 2 * cos ((A' + A) / 2) * sin ((A' - A) / 2)) by (rewrite form4; reflexivity).
  assert (FB : sin B' - sin B = 2 * cos ((B' + B) / 2) * sin ((B' - B) / 2)) by (rewrite form4; reflexivity).
  rewrite SA, SA' in FA. rewrite SB, SB' in FB.
  assert (C1 : 0 <= cos ((A' + A) / 2)) by (apply cos_ge_0; lra).
  assert (C2 : cos ((A' + A) / 2) <= cos ((B' + B) / 2)) by (apply cos_decr_1; lra).
  assert (S1 : 0 <= sin ((A' - A) / 2)) by (apply sin_ge_0; lra).
  assert (S2 : sin ((A' - A) / 2) < sin ((B' - B) / 2)) by (apply sin_increasing_1; lra).
  assert (C3 : 0 < cos ((B' + B) / 2)).
  { apply cos_gt_0; [lra|]. lra. }
  assert (cos ((A' + A) / 2) * sin ((A' - A) / 2) <= cos ((B' + B) / 2) * sin ((A' - A) / 2)) by (apply Rmult_le_compat_r; lra).
  assert (cos ((B' + B) / 2) * sin ((A' - A) / 2) < cos ((B' + B) / 2) * sin ((B' - B) / 2)) by (apply Rmult_lt_compat_l; lra).
  assert (r * (v - u) <= v - u) by nra. lra.
Qed.
Lemma swath_monotone h f f' el w w' : above h el -> 0 <= f -> f <= f' -> f' <= 180 ->
  field_of_regard_to_swath_width h f el = Some w -> field_of_regard_to_swath_width h f' el = Some w' -> w <= w'.
Proof.
  intros Ha H0 Hff H1 E E'. pose proof (rho_range h el Ha) as Hr. pose proof (above_pos h el Ha) as Hp. pose proof (asin_lt_PI2 _ Hr) as A.
  rewrite (for_to_swath_value h f el Ha) in E by lra. rewrite (for_to_swath_value h f' el Ha) in E' by lra.
  injection E as <-. injection E' as <-. pose proof (half_for f ltac:(lra)) as Hf. pose proof (half_for f' ltac:(lra)) as Hf'.
  assert (Hrad : radians f / 2 <= radians f' / 2) by (assert (radians f <= radians f') by (apply (proj1 (radians_le _ _)); lra); lra).
  set (eta := Rmin (radians f / 2) (asin (rho h el))). set (eta' := Rmin (radians f' / 2) (asin (rho h el))).
  assert (Ht : 0 <= eta <= asin (rho h el)) by (unfold eta; split; [apply Rmin_glb; lra|apply Rmin_r]).
  assert (Ht' : 0 <= eta' <= asin (rho h el)) by (unfold eta'; split; [apply Rmin_glb; lra|apply Rmin_r]).
  assert (Hm : eta <= eta') by (unfold eta, eta'; apply Rle_min_compat_r; lra).
  destruct (seen_angles _ eta Hr Ht) as [Q _]. destruct (seen_angles _ eta' Hr Ht') as [Q' _].
  apply Rmult_le_compat_l; [lra|]. rewrite !acos_asin by lra.
  assert (sin eta <= sin eta') by (apply sin_incr_1; lra).
  assert (Hq : sin eta / rho h el <= sin eta' / rho h el).
  { apply Rmult_le_compat_r; [apply Rlt_le, Rinv_0_lt_compat; lra|lra]. }
  pose proof (asin_spread (rho h el) _ _ ltac:(lra) (proj1 Q) Hq (proj2 Q')) as SP.
  replace (rho h el * (sin eta' / rho h el)) with (sin eta') in SP by (field; lra).
  replace (rho h el * (sin eta / rho h el)) with (sin eta) in SP by (field; lra).
  rewrite !asin_sin in SP by lra. lra.
Qed.
Lemma elevation_antitone h f f' el e e' : above h el -> 0 <= f -> f <= f' -> f' <= 180 ->
  compute_min_elevation_angle h f el = Some e -> compute_min_elevation_angle h f' el = Some e' -> e' <= e.
Proof.
  intros Ha H0 Hff H1 E E'. pose proof (rho_range h el Ha) as Hr. pose proof (asin_lt_PI2 _ Hr) as A.
  rewrite (min_elevation_value h f el Ha) in E by lra. rewrite (min_elevation_value h f' el Ha) in E' by lra.
  injection E as <-. injection E' as <-. pose proof (half_for f ltac:(lra)) as Hf. pose proof (half_for f' ltac:(lra)) as Hf'.
  assert (Hrad : radians f / 2 <= radians f' / 2) by (assert (radians f <= radians f') by (apply (proj1 (radians_le _ _)); lra); lra).
  set (eta := Rmin (radians f / 2) (asin (rho h el))). set (eta' := Rmin (radians f' / 2) (asin (rho h el))).
  assert (Ht : 0 <= eta <= asin (rho h el)) by (unfold eta; split; [apply Rmin_glb; lra|apply Rmin_r]).
  assert (Ht' : 0 <= eta' <= asin (rho h el)) by (unfold eta'; split; [apply Rmin_glb; lra|apply Rmin_r]).
  assert (Hm : eta <= eta') by (unfold eta, eta'; apply Rle_min_compat_r; lra).
  destruct (seen_angles _ eta Hr Ht) as [Q _]. destruct (seen_angles _ eta' Hr Ht') as [Q' _].
  apply (proj1 (degrees_le _ _)). rewrite !acos_asin by lra.
  assert (sin eta <= sin eta') by (apply sin_incr_1; lra).
  assert (Hq : sin eta / rho h el <= sin eta' / rho h el).
  { apply Rmult_le_compat_r; [apply Rlt_le, Rinv_0_lt_compat; lra|lra]. }
  pose proof (asin_le (sin eta / rho h el) (sin eta' / rho h el)). lra.
Qed.
Lemma bounded h f el : above h el -> 0 <= f <= 180 ->
  (exists w, field_of_regard_to_swath_width h f el = Some w /\ 0 <= w <= 2 * (EARTH_MEAN_RADIUS + el) * horizon h el)
  /\ (exists e, compute_min_elevation_angle h f el = Some e /\ 0 <= e <= 90).
Proof.
  intros Ha Hf. pose proof (rho_range h el Ha) as Hr. pose proof (above_pos h el Ha) as Hp. pose proof (asin_lt_PI2 _ Hr) as A. pose proof (half_for f Hf) as Hh.
  rewrite (for_to_swath_value h f el Ha Hf), (min_elevation_value h f el Ha Hf).
  set (eta := Rmin (radians f / 2) (asin (rho h el))).
  assert (Ht : 0 <= eta <= asin (rho h el)) by (unfold eta; split; [apply Rmin_glb; lra|apply Rmin_r]).
  destruct (seen_angles _ eta Hr Ht) as [Q [E [L _]]]. split.
  - eexists. split; [reflexivity|]. unfold horizon. split; [apply Rmult_le_pos; lra|apply Rmult_le_compat_l; lra].
  - eexists. split; [reflexivity|]. rewrite <- degrees_0 at 1. rewrite <- degrees_PI2. split; apply (proj1 (degrees_le _ _)); lra.
Qed.
Lemma full_circle h el : above h el ->
  field_of_regard_to_swath_width h 360 el = Some 0 /\ compute_min_elevation_angle h 360 el = Some 90.
Proof.
  intro Ha. pose proof (rho_range h el Ha) as Hr. unfold field_of_regard_to_swath_width, compute_min_elevation_angle.
  rewrite earth_sin_eq by auto. cbn [obind]. replace (radians 360 / 2) with PI by (rewrite radians_360; lra). rewrite sin_PI.
  rewrite Rmin_right by lra. rewrite !rdiv_ok by lra. cbn [obind]. replace (0 / rho h el) with 0 by (field; lra).
  rewrite np_arcsin_in by lra. cbn [obind]. rewrite !np_arccos_in by lra. cbn [obind]. rewrite asin_0, acos_0.
  replace (Rltb 1 0) with false by (symmetry; apply Rltb_false; lra). rewrite degrees_PI2. split; f_equal. lra.
Qed.
Lemma half_circle h el : above h el ->
  field_of_regard_to_swath_width h 180 el = Some (2 * (EARTH_MEAN_RADIUS + el) * horizon h el)
  /\ compute_min_elevation_angle h 180 el = Some 0 /\ 0 < 2 * (EARTH_MEAN_RADIUS + el) * horizon h el.
Proof.
  intro Ha. pose proof (rho_range h el Ha) as Hr. pose proof (above_pos h el Ha) as Hp. pose proof (asin_lt_PI2 _ Hr) as A.
  destruct (beyond_horizon h 180 el Ha) as [H1 H2]; [lra|rewrite radians_180; lra|].
  split; auto. split; auto. unfold horizon. rewrite acos_asin by lra. apply Rmult_lt_0_compat; lra.
Qed.

(** ** C41 *)
Lemma nadir_fov h w el : above h el ->
  swath_width_to_field_of_view h w 0 el = swath_width_to_field_of_regard h w el.
Proof.
  intro Ha. pose proof (rho_range h el Ha) as Hr. pose proof (above_pos h el Ha) as Hp.
  unfold swath_width_to_field_of_view, swath_width_to_field_of_regard. rewrite earth_sin_eq by auto. cbn [obind].
  replace (radians 0 / 2) with 0 by (rewrite radians_0; lra). rewrite sin_0, Rmin_right by lra.
  rewrite !rdiv_ok by lra. cbn [obind]. replace (0 / rho h el) with 0 by (field; lra).
  rewrite np_arcsin_in, np_arccos_in by lra. cbn [obind]. rewrite asin_0, acos_0.
  set (half := w / 2 / (EARTH_MEAN_RADIUS + el)).
  replace (PI / 2 - 0 - PI / 2 - half) with (- half) by lra. replace (PI / 2 - 0 - PI / 2 + half) with half by lra.
  rewrite sin_neg. unfold tan_eta. pose proof (SIN_bound half) as B.
  rewrite !np_arcsin_in by lra. cbn [obind]. rewrite asin_opp, cos_neg.
  pose proof (COS_bound (asin (sin half))) as C. rewrite !rdiv_ok by nra. cbn [obind].
  replace (rho h el * - sin half / (1 - rho h el * cos (asin (sin half)))) with (- (rho h el * sin half / (1 - rho h el * cos (asin (sin half))))) by (field; nra).
  rewrite atan_opp. f_equal. f_equal. lra.
Qed.
Lemma wider_refuted h el : above h el -> exists f f' w w' e e',
  0 < f /\ f < f' /\ f' <= 360
  /\ field_of_regard_to_swath_width h f el = Some w /\ field_of_regard_to_swath_width h f' el = Some w' /\ w' < w
  /\ compute_min_elevation_angle h f el = Some e /\ compute_min_elevation_angle h f' el = Some e' /\ e < e'.
Proof.
  intro Ha. destruct (full_circle h el Ha) as [F1 F2]. destruct (half_circle h el Ha) as [H1 [H2 H3]].
  exists 180, 360. eexists. eexists. eexists. eexists. split; [lra|]. split; [lra|]. split; [lra|].
  split; [exact H1|]. split; [exact F1|]. split; [exact H3|]. split; [exact H2|]. split; [exact F2|]. lra.
Qed.
Lemma mirror h f el : 
  field_of_regard_to_swath_width h (360 - f) el = field_of_regard_to_swath_width h f el
  /\ compute_min_elevation_angle h (360 - f) el = compute_min_elevation_angle h f el.
Proof.
  unfold field_of_regard_to_swath_width, compute_min_elevation_angle.
  replace (sin (radians (360 - f) / 2)) with (sin (radians f / 2)); [split; reflexivity|].
  replace (radians (360 - f) / 2) with (PI - radians f / 2) by (unfold radians; lra). now rewrite sin_PI_x.
Qed.
Lemma bounded_full h f el : above h el -> 0 <= f <= 360 ->
  (exists w, field_of_regard_to_swath_width h f el = Some w /\ w <= 2 * (EARTH_MEAN_RADIUS + el) * horizon h el /\ 0 <= w)
  /\ (exists e, compute_min_elevation_angle h f el = Some e /\ 0 <= e <= 90).
Proof.
  intros Ha Hf. destruct (Rle_dec f 180) as [L|L].
  - destruct (bounded h f el Ha ltac:(lra)) as [(w & E & B) X]. split; auto. exists w. tauto.
  - destruct (bounded h (360 - f) el Ha ltac:(lra)) as [(w & E & B) X]. destruct (mirror h f el) as [M1 M2]. rewrite M1 in E. rewrite M2 in X.
    split; auto. exists w. tauto.
Qed.
Lemma nadir_fov_defined h w el : above h el -> exists f, swath_width_to_field_of_view h w 0 el = Some f.
Proof.
  intro Ha. rewrite nadir_fov by auto. pose proof (rho_range h el Ha) as Hr. pose proof (above_pos h el Ha) as Hp.
  unfold swath_width_to_field_of_regard. rewrite earth_sin_eq by auto. cbn [obind]. rewrite rdiv_ok by lra. cbn [obind].
  set (l := w / 2 / (EARTH_MEAN_RADIUS + el)). unfold tan_eta. rewrite np_arcsin_in by (pose proof (SIN_bound l); lra). cbn [obind].
  rewrite rdiv_ok by (pose proof (COS_bound (asin (sin l))); nra). eexists. reflexivity.
Qed.
Lemma on_surface h f : - EARTH_MEAN_RADIUS < h -> 0 <= f <= 180 ->
  field_of_regard_to_swath_width h f h = Some 0
  /\ (exists e, compute_min_elevation_angle h f h = Some e /\ 0 <= e <= 90 /\ e = 90 - f / 2).
Proof.
  intros H Hf. pose proof (half_for f Hf) as B. pose proof (sin01 _ B) as S1.
  assert (E : earth_sin h h = Some 1) by (unfold earth_sin; rewrite rdiv_ok by lra; f_equal; field; lra).
  unfold field_of_regard_to_swath_width, compute_min_elevation_angle. rewrite E. cbn [obind].
  rewrite Rmin_right by lra. rewrite rdiv_ok by lra. cbn [obind]. replace (sin (radians f / 2) / 1) with (sin (radians f / 2)) by field.
  rewrite np_arcsin_in by lra. cbn [obind]. rewrite np_arccos_in by lra. cbn [obind]. rewrite asin_sin, acos_sin by lra.
  replace (Rltb 1 (sin (radians f / 2))) with false by (symmetry; apply Rltb_false; lra).
  split; [f_equal; lra|]. eexists. split; [reflexivity|].
  assert (D : degrees (PI / 2 - radians f / 2) = 90 - f / 2) by (unfold degrees, radians; pose proof PI_RGT_0; field; lra). rewrite D. lra.
Qed.
