(** Proofs: off-nadir pointing, ground velocity, streets of coverage. *)
From Coq Require Import Reals ZArith List Bool Lia Lra Psatz Machin.
From Verif Require Import Base RBase RFacts Tle_Model Orbit_Model Orbit_Spec Orbit_Proofs Const_Model Const_Spec Const_Proofs Const_Proofs2
  Geom_Model Geom_Spec Geom_Proofs.
Import ListNotations.
Open Scope R_scope.

(** ** C42 *)
Lemma tan_eta_value r lam : 0 < r < 1 -> - (PI / 2) <= lam <= PI / 2 ->
  tan_eta r (sin lam) = Some (r * sin lam / (1 - r * cos lam)) /\ 0 < 1 - r * cos lam.
Proof.
  intros Hr Hl. pose proof (SIN_bound lam). pose proof (COS_bound lam). assert (0 < 1 - r * cos lam) by nra.
  unfold tan_eta. rewrite np_arcsin_in by lra. cbn [obind]. rewrite asin_sin by lra. rewrite rdiv_ok by lra. auto.
Qed.
Lemma atan_off_nadir r lam : 0 < 1 - r * cos lam ->
  off_nadir r lam (atan (r * sin lam / (1 - r * cos lam))).
Proof.
  intro D. set (eta := atan _). pose proof (atan_bound (r * sin lam / (1 - r * cos lam))) as B. fold eta in B.
  assert (CE : 0 < cos eta) by (apply cos_gt_0; lra).
  assert (TE : sin eta = r * sin lam / (1 - r * cos lam) * cos eta).
  { pose proof (tan_atan (r * sin lam / (1 - r * cos lam))) as T. fold eta in T. unfold tan in T. rewrite <- T. field. lra. }
  exists ((1 - r * cos lam) / cos eta). split; [apply Rdiv_lt_0_compat; lra|]. split; [rewrite TE; field; lra|field; lra].
Qed.
Lemma off_nadir_atan r lam eta : - (PI / 2) < eta < PI / 2 -> off_nadir r lam eta ->
  eta = atan (r * sin lam / (1 - r * cos lam)).
Proof.
  intros B [d [Hd [E1 E2]]]. rewrite E1, E2. assert (0 < cos eta) by (apply cos_gt_0; lra).
  replace (d * sin eta / (d * cos eta)) with (tan eta) by (unfold tan; field; lra). now rewrite atan_tan.
Qed.
Lemma fov_value h w look el : above h el -> 0 <= w -> 0 <= radians look / 2 <= asin (rho h el) ->
  exists lc, 0 <= lc <= horizon h el /\ off_nadir (rho h el) lc (radians look / 2)
    /\ (lc + w / 2 / (EARTH_MEAN_RADIUS + el) <= PI / 2 ->
        exists f, swath_width_to_field_of_view h w look el = Some f /\ subtends h el w lc f
          /\ f = degrees (atan (rho h el * sin (lc + w / 2 / (EARTH_MEAN_RADIUS + el)) / (1 - rho h el * cos (lc + w / 2 / (EARTH_MEAN_RADIUS + el))))
                       - atan (rho h el * sin (lc - w / 2 / (EARTH_MEAN_RADIUS + el)) / (1 - rho h el * cos (lc - w / 2 / (EARTH_MEAN_RADIUS + el)))))).
Proof.
  intros Ha Hw Hl. pose proof (rho_range h el Ha) as Hr. pose proof (above_pos h el Ha) as Hp. pose proof PI_RGT_0 as P.
  pose proof (asin_lt_PI2 _ Hr) as A. set (eta := radians look / 2) in *.
  destruct (seen_angles _ eta Hr Hl) as [Q [E [L O]]].
  set (lc := PI / 2 - eta - acos (sin eta / rho h el)) in *. exists lc. split; [exact L|]. split; [exact O|]. intro Hh.
  set (half := w / 2 / (EARTH_MEAN_RADIUS + el)) in *.
  assert (H0 : 0 <= half) by (unfold half; apply Rmult_le_pos; [lra|apply Rlt_le, Rinv_0_lt_compat; lra]).
  destruct (tan_eta_value (rho h el) (lc - half) Hr ltac:(lra)) as [T1 D1].
  destruct (tan_eta_value (rho h el) (lc + half) Hr ltac:(lra)) as [T2 D2].
  eexists. split; [|split; [|reflexivity]].
  - unfold swath_width_to_field_of_view. rewrite earth_sin_eq by auto. cbn [obind]. fold eta.
    rewrite clipped_sin by lra. rewrite Rmin_left by lra. rewrite rdiv_ok by lra. cbn [obind].
    pose proof (SIN_bound eta). rewrite np_arcsin_in by lra. cbn [obind]. rewrite np_arccos_in by lra. cbn [obind].
    rewrite asin_sin by lra. fold lc. rewrite rdiv_ok by lra. cbn [obind]. fold half. rewrite T1. cbn [obind]. rewrite T2. reflexivity.
  - unfold subtends. fold half. eexists. eexists.
    assert (AB : forall x, - (PI / 2) < atan x < PI / 2) by (intro x; pose proof (atan_bound x); lra).
    split; [apply AB|]. split; [apply AB|].
    split; [apply atan_off_nadir; exact D1|]. split; [apply atan_off_nadir; exact D2|].
    exact (radians_degrees _).
Qed.

(** The counterexample: a satellite one Earth radius up looking at the surface point at central angle
    30 degrees, with a swath of 60 degrees of arc. *)
Definition wit_w : R := PI / 3 * EARTH_MEAN_RADIUS.
Definition wit_look : R := degrees (atan (1 / 2 * sin (PI / 6) / (1 - 1 / 2 * cos (PI / 6)))).
Lemma wit_above : above EARTH_MEAN_RADIUS 0. Proof. unfold above. pose proof EMR_bounds. lra. Qed.
Lemma wit_rho : rho EARTH_MEAN_RADIUS 0 = 1 / 2. Proof. unfold rho. pose proof EMR_bounds. field. lra. Qed.
Lemma wit_half : wit_w / 2 / (EARTH_MEAN_RADIUS + 0) = PI / 6.
Proof. unfold wit_w. pose proof EMR_bounds. field. lra. Qed.
Lemma sqrt3_bounds : 173 / 100 < sqrt 3 < 174 / 100.
Proof.
  assert (Q : sqrt 3 * sqrt 3 = 3) by (apply sqrt_sqrt; lra). pose proof (sqrt_pos 3). split; nra.
Qed.
Lemma acos_half : acos (1 / 2) = PI / 3.
Proof. rewrite <- cos_PI3. apply acos_cos. pose proof PI_RGT_0. lra. Qed.
Lemma asin_half : asin (1 / 2) = PI / 6.
Proof. rewrite <- sin_PI6. apply asin_sin. pose proof PI_RGT_0. lra. Qed.
Lemma wit_true : off_nadir (rho EARTH_MEAN_RADIUS 0) (PI / 6) (radians wit_look)
  /\ subtends EARTH_MEAN_RADIUS 0 wit_w (PI / 6) 30 /\ 0 < radians wit_look < PI / 6.
Proof.
  pose proof PI_RGT_0 as P. pose proof sqrt3_bounds as S3.
  assert (D : 0 < 1 - 1 / 2 * cos (PI / 6)) by (rewrite cos_PI6; lra).
  split; [|split].
  - rewrite wit_rho. unfold wit_look. rewrite radians_degrees. apply atan_off_nadir. exact D.
  - unfold subtends. rewrite wit_half, wit_rho. exists 0, (PI / 6). split; [lra|]. split; [lra|].
    replace (PI / 6 - PI / 6) with 0 by lra. replace (PI / 6 + PI / 6) with (PI / 3) by lra. split; [|split; [|lra]].
    + exists (1 / 2). rewrite sin_0, cos_0. split; [lra|]. lra.
    + exists (sqrt 3 / 2). rewrite sin_PI3, cos_PI3, sin_PI6, cos_PI6.
      assert (Q : sqrt 3 * sqrt 3 = 3) by (apply sqrt_sqrt; lra). split; [lra|]. split; nra.
  - unfold wit_look. rewrite radians_degrees. rewrite sin_PI6, cos_PI6. rewrite <- (atan_tan (PI / 6)) by lra.
    rewrite <- atan_0. assert (tan (PI / 6) = 1 / sqrt 3) as -> by (apply tan_PI6).
    assert (Q : sqrt 3 * sqrt 3 = 3) by (apply sqrt_sqrt; lra).
    assert (0 < 1 - 1 / 2 * (sqrt 3 / 2)) by lra.
    split; apply atan_increasing.
    + apply Rdiv_lt_0_compat; lra.
    + apply Rmult_lt_reg_r with (1 - 1 / 2 * (sqrt 3 / 2)); auto. replace (1 / 2 * (1 / 2) / (1 - 1 / 2 * (sqrt 3 / 2)) * (1 - 1 / 2 * (sqrt 3 / 2))) with (1 / 4) by (field; lra).
      apply Rmult_lt_reg_r with (sqrt 3); [lra|]. replace (1 / sqrt 3 * (1 - 1 / 2 * (sqrt 3 / 2)) * sqrt 3) with (1 - sqrt 3 / 4) by (field; lra). lra.
Qed.
Lemma off_nadir_inj r lam eta eta' : - (PI / 2) < eta < PI / 2 -> - (PI / 2) < eta' < PI / 2 ->
  off_nadir r lam eta -> off_nadir r lam eta' -> eta = eta'.
Proof. intros H H' O O'. rewrite (off_nadir_atan r lam eta H O). symmetry. apply off_nadir_atan; auto. Qed.
(** A smaller look angle sees a point closer to the sub-satellite point. *)
Lemma closer r lam lam' eta eta' : 0 < r < 1 -> 0 <= eta -> eta < eta' -> eta' <= asin r ->
  0 <= lam <= acos r -> 0 <= lam' <= acos r -> off_nadir r lam eta -> off_nadir r lam' eta' -> lam < lam'.
Proof.
  intros Hr H0 Hlt H1 L L' O O'. pose proof PI_RGT_0 as P. pose proof (asin_lt_PI2 r Hr) as A. pose proof (acos_range01 r ltac:(lra)) as AC.
  assert (key : forall l e, 0 <= l <= acos r -> 0 <= e <= asin r -> off_nadir r l e -> l + e = asin (sin e / r)).
  { intros l e Hl He Oe. pose proof (off_nadir_sine _ _ _ Oe) as S0. 
    assert (E : e = atan (r * sin l / (1 - r * cos l))) by (apply off_nadir_atan; auto; lra).
    destruct (edge_angles r l Hr Hl) as [_ [_ H3]]. rewrite <- E in H3.
    rewrite <- S0. replace (r * sin (l + e) / r) with (sin (l + e)) by (field; lra). rewrite asin_sin; lra. }
  pose proof (key lam eta L ltac:(lra) O) as K. pose proof (key lam' eta' L' ltac:(lra) O') as K'.
  assert (LE : lam <= lam').
  { destruct (seen_angles r eta Hr ltac:(lra)) as [Q _]. destruct (seen_angles r eta' Hr ltac:(lra)) as [Q' _].
    assert (sin eta <= sin eta') by (apply sin_incr_1; lra).
    assert (Hq : sin eta / r <= sin eta' / r) by (apply Rmult_le_compat_r; [apply Rlt_le, Rinv_0_lt_compat; lra|lra]).
    pose proof (asin_spread r _ _ ltac:(lra) (proj1 Q) Hq (proj2 Q')) as SP.
    replace (r * (sin eta' / r)) with (sin eta') in SP by (field; lra).
    replace (r * (sin eta / r)) with (sin eta) in SP by (field; lra). rewrite !asin_sin in SP by lra. lra. }
  destruct LE as [LT|EQ]; auto. subst lam'. pose proof (off_nadir_inj r lam eta eta' ltac:(lra) ltac:(lra) O O'). lra.
Qed.
Lemma look_angle_refuted_lemma : exists h w look el lc f f',
  above h el /\ 0 < w /\ 0 < look < 90 /\ 0 <= lc <= horizon h el
  /\ off_nadir (rho h el) lc (look * (PI / 180)) /\ subtends h el w lc f
  /\ swath_width_to_field_of_view h w look el = Some f' /\ f < f'.
Proof.
  pose proof PI_RGT_0 as P. pose proof EMR_bounds as EB. destruct wit_true as [O [S0 [L0 L1]]]. pose proof sqrt3_bounds as S3.
  assert (Q3 : sqrt 3 * sqrt 3 = 3) by (apply sqrt_sqrt; lra).
  assert (Hz : horizon EARTH_MEAN_RADIUS 0 = PI / 3) by (unfold horizon; rewrite wit_rho; apply acos_half).
  destruct (fov_value EARTH_MEAN_RADIUS wit_w wit_look 0 wit_above) as (lc & Hlc & Olc & F).
  { unfold wit_w. apply Rmult_le_pos; lra. } { rewrite wit_rho, asin_half. lra. }
  rewrite wit_half in F. rewrite Hz in Hlc. rewrite wit_rho in *.
  assert (LC : lc < PI / 6).
  { apply (closer (1 / 2) lc (PI / 6) (radians wit_look / 2) (radians wit_look)); try lra; auto.
    - rewrite asin_half. lra. - rewrite acos_half. lra. - rewrite acos_half. lra. }
  destruct (F ltac:(lra)) as (f & Ef & _ & Vf).
  exists EARTH_MEAN_RADIUS, wit_w, wit_look, 0, (PI / 6), 30, f.
  split; [apply wit_above|]. split; [unfold wit_w; apply Rmult_lt_0_compat; lra|].
  split.
  { split; [apply (proj2 (radians_lt _ _)); rewrite radians_0; lra|apply (proj2 (radians_lt _ _)); rewrite radians_90; lra]. }
  rewrite Hz. split; [lra|]. rewrite wit_rho. split; [exact O|]. split; [exact S0|]. split; [exact Ef|].
  (* the computed angle exceeds 30 degrees *)
  rewrite Vf. set (x := PI / 6 + lc) in *. set (a := lc + PI / 6) in *. set (b := PI / 6 - lc).
  replace (lc - PI / 6) with (- b) by (unfold b; lra). rewrite sin_neg, cos_neg.
  assert (Da : 0 < 1 - 1 / 2 * cos a) by (pose proof (COS_bound a); lra).
  assert (Db : 0 < 1 - 1 / 2 * cos b) by (pose proof (COS_bound b); lra).
  replace (1 / 2 * - sin b / (1 - 1 / 2 * cos b)) with (- (1 / 2 * sin b / (1 - 1 / 2 * cos b))) by (field; lra).
  rewrite atan_opp. set (ea := atan (1 / 2 * sin a / (1 - 1 / 2 * cos a))). set (eb := atan (1 / 2 * sin b / (1 - 1 / 2 * cos b))).
  replace (ea - - eb) with (ea + eb) by lra.
  apply (proj2 (radians_lt _ _)). rewrite radians_degrees. replace (radians 30) with (PI / 6) by (unfold radians; lra).
  destruct (atan_off_nadir (1 / 2) a Da) as [da [Pda [A1 A2]]]. destruct (atan_off_nadir (1 / 2) b Db) as [db [Pdb [B1 B2]]].
  fold ea in A1, A2. fold eb in B1, B2.
  assert (Sa : 0 < sin a) by (apply sin_gt_0; unfold a; lra). assert (Sb : 0 < sin b) by (apply sin_gt_0; unfold b; lra).
  assert (Ra : 0 < ea < PI / 2).
  { split; [unfold ea; rewrite <- atan_0; apply atan_increasing, Rdiv_lt_0_compat; lra|apply atan_bound]. }
  assert (Rb : 0 < eb < PI / 2).
  { split; [unfold eb; rewrite <- atan_0; apply atan_increasing, Rdiv_lt_0_compat; lra|apply atan_bound]. }
  (* sin (ea + eb - 30 degrees) has the sign of cos lc - sqrt 3 / 2 *)
  assert (Sin : da * db * sin (ea + eb) = cos lc * (1 / 2) - sqrt 3 / 8).
  { rewrite sin_plus. transitivity ((da * sin ea) * (db * cos eb) + (da * cos ea) * (db * sin eb)); [ring|].
    rewrite <- A1, <- A2, <- B1, <- B2. unfold a, b.
    rewrite sin_plus, cos_plus, sin_minus, cos_minus, sin_PI6, cos_PI6. pose proof (sin2_cos2 lc) as W. unfold Rsqr in W.
    replace (sin lc * (sqrt 3 / 2)) with (sqrt 3 / 2 * sin lc) by ring. nra. }
  assert (Cos : da * db * cos (ea + eb) = 9 / 8 - cos lc * sqrt 3 / 2).
  { rewrite cos_plus. transitivity ((da * cos ea) * (db * cos eb) - (da * sin ea) * (db * sin eb)); [ring|].
    rewrite <- A1, <- A2, <- B1, <- B2. unfold a, b.
    rewrite sin_plus, cos_plus, sin_minus, cos_minus, sin_PI6, cos_PI6. pose proof (sin2_cos2 lc) as W. unfold Rsqr in W. nra. }
  assert (K : sqrt 3 / 2 < cos lc) by (rewrite <- cos_PI6; apply cos_decreasing_1; lra).
  assert (G : 0 < da * db * sin (ea + eb - PI / 6)).
  { rewrite sin_minus, sin_PI6, cos_PI6. 
    replace (da * db * (sin (ea + eb) * (sqrt 3 / 2) - cos (ea + eb) * (1 / 2)))
      with (da * db * sin (ea + eb) * (sqrt 3 / 2) - da * db * cos (ea + eb) * (1 / 2)) by ring.
    rewrite Sin, Cos. nra. }
  assert (G2 : 0 < sin (ea + eb - PI / 6)) by (assert (0 < da * db) by (apply Rmult_lt_0_compat; lra); nra).
  destruct (Rlt_dec (PI / 6) (ea + eb)) as [|N]; auto. exfalso.
  assert (0 <= sin (PI / 6 - (ea + eb))) by (apply sin_ge_0; lra).
  replace (PI / 6 - (ea + eb)) with (- (ea + eb - PI / 6)) in H by lra. rewrite sin_neg in H. lra.
Qed.

(** ** C43, C44 *)
Lemma PI_tight : 31415 / 10000 < PI < 31417 / 10000.
Proof.
  pose proof (PI_2_3_7_ineq 2) as [L U]. unfold PI_2_3_7_tg, tg_alt, Ratan_seq in L, U. simpl in L, U. lra.
Qed.
Lemma mean_motion_value h : - EARTH_MEAN_RADIUS < h -> mean_motion_rad h = Some (kepler_rate h) /\ 0 < kepler_rate h.
Proof.
  intro H. assert (0 < (EARTH_MEAN_RADIUS + h) ^ 3) by (apply pow_lt; lra). pose proof MU_pos.
  assert (Q : 0 < EARTH_MU / (EARTH_MEAN_RADIUS + h) ^ 3) by (apply Rdiv_lt_0_compat; lra).
  unfold mean_motion_rad, kepler_rate. rewrite rdiv_ok by lra. cbn [obind]. rewrite np_sqrt_ok by lra. split; auto. apply sqrt_lt_R0; lra.
Qed.
Definition model_speed (h i : R) : R :=
  EARTH_MEAN_RADIUS * (kepler_rate h - 2 * PI * cos (degrees i) / EARTH_SIDEREAL_DAY_S).
Lemma ground_velocity_value h i : - EARTH_MEAN_RADIUS < h -> compute_ground_velocity h i = Some (model_speed h i).
Proof. intro H. unfold compute_ground_velocity. destruct (mean_motion_value h H) as [-> _]. reflexivity. Qed.
Lemma rate_pos : 0 < earth_rate.
Proof. unfold earth_rate, EARTH_SIDEREAL_DAY_S. pose proof PI_RGT_0. lra. Qed.
Lemma model_speed_rate h i : model_speed h i = EARTH_MEAN_RADIUS * (kepler_rate h - earth_rate * cos (degrees i)).
Proof. unfold model_speed, earth_rate, EARTH_SIDEREAL_DAY_S. field. Qed.
Lemma polar_cos : cos (degrees 90) <> 0.
Proof.
  intro H. apply cos_eq_0_0 in H as [k Hk]. pose proof PI_tight as P. unfold degrees in Hk.
  assert (E : 16200 = PI * PI * (IZR k + 1 / 2)).
  { apply Rmult_eq_reg_r with (/ PI); [|apply Rinv_neq_0_compat; lra].
    replace (PI * PI * (IZR k + 1 / 2) * / PI) with (IZR k * PI + PI / 2) by (field; lra). rewrite <- Hk. field. lra. }
  assert (B : 31415 / 10000 * (31415 / 10000) < PI * PI < 31417 / 10000 * (31417 / 10000)).
  { split; apply Rmult_gt_0_lt_compat; lra. }
  assert (K1 : (1640 < k)%Z).
  { apply lt_IZR. apply Rnot_le_lt. intro N. assert (PI * PI * (IZR k + 1 / 2) <= PI * PI * (1640 + 1 / 2)) by (apply Rmult_le_compat_l; lra). lra. }
  assert (K2 : (k < 1641)%Z).
  { apply lt_IZR. apply Rnot_le_lt. intro N. assert (PI * PI * (1641 + 1 / 2) <= PI * PI * (IZR k + 1 / 2)) by (apply Rmult_le_compat_l; lra). lra. }
  lia.
Qed.
Lemma polar_refuted_lemma h : - EARTH_MEAN_RADIUS < h -> exists v, compute_ground_velocity h 90 = Some v /\ v <> ground_speed h 90
  /\ ground_speed h 90 = EARTH_MEAN_RADIUS * kepler_rate h.
Proof.
  intro H. rewrite ground_velocity_value by auto. eexists. split; [reflexivity|].
  assert (C : cos (90 * (PI / 180)) = 0) by (replace (90 * (PI / 180)) with (PI / 2) by lra; apply cos_PI2).
  unfold ground_speed. rewrite C. split; [|ring]. rewrite model_speed_rate. intro E.
  pose proof polar_cos. pose proof rate_pos. pose proof EMR_bounds. 
  assert (EARTH_MEAN_RADIUS * (earth_rate * cos (degrees 90)) = 0) by lra.
  apply Rmult_integral in H3 as [|H3]; [lra|]. apply Rmult_integral in H3 as [|]; lra.
Qed.
Lemma ground_velocity_close h i : - EARTH_MEAN_RADIUS < h -> exists v, compute_ground_velocity h i = Some v
  /\ Rabs (v - ground_speed h i) <= 2 * EARTH_MEAN_RADIUS * earth_rate
  /\ (cos (degrees i) = cos (radians i) -> v = ground_speed h i)
  /\ (v = ground_speed h i -> cos (degrees i) = cos (radians i)).
Proof.
  intro H. rewrite ground_velocity_value by auto. eexists. split; [reflexivity|]. rewrite model_speed_rate.
  unfold ground_speed. fold (radians i). pose proof rate_pos as W. pose proof EMR_bounds as B.
  pose proof (COS_bound (degrees i)). pose proof (COS_bound (radians i)).
  split; [|split].
  - replace (EARTH_MEAN_RADIUS * (kepler_rate h - earth_rate * cos (degrees i)) - EARTH_MEAN_RADIUS * (kepler_rate h - earth_rate * cos (radians i)))
      with (EARTH_MEAN_RADIUS * earth_rate * (cos (radians i) - cos (degrees i))) by ring.
    rewrite Rabs_mult, Rabs_pos_eq by (apply Rmult_le_pos; lra).
    replace (2 * EARTH_MEAN_RADIUS * earth_rate) with (EARTH_MEAN_RADIUS * earth_rate * 2) by ring.
    apply Rmult_le_compat_l; [apply Rmult_le_pos; lra|]. unfold Rabs. destruct (Rcase_abs _); lra.
  - intros ->. reflexivity.
  - intro E. assert (E2 : EARTH_MEAN_RADIUS * (earth_rate * (cos (degrees i) - cos (radians i))) = 0) by lra.
    apply Rmult_integral in E2 as [|E2]; [lra|]. apply Rmult_integral in E2 as [|]; lra.
Qed.
Lemma equatorial_ok h : - EARTH_MEAN_RADIUS < h -> compute_ground_velocity h 0 = Some (ground_speed h 0).
Proof.
  intro H. rewrite ground_velocity_value by auto. rewrite model_speed_rate. unfold ground_speed. rewrite degrees_0. now rewrite Rmult_0_l.
Qed.
Lemma rate_bounds : 729 / 10000000 < earth_rate < 7293 / 100000000.
Proof. unfold earth_rate, EARTH_SIDEREAL_DAY_S. pose proof PI_tight. lra. Qed.
Lemma kepler_rate_lower h q : - EARTH_MEAN_RADIUS < h -> 0 <= q -> q * q * (EARTH_MEAN_RADIUS + h) ^ 3 < EARTH_MU -> q < kepler_rate h.
Proof.
  intros H Hq L. unfold kepler_rate. rewrite <- (sqrt_square q) by lra. apply sqrt_lt_1_alt. split; [nra|].
  assert (0 < (EARTH_MEAN_RADIUS + h) ^ 3) by (apply pow_lt; lra).
  apply Rmult_lt_reg_r with ((EARTH_MEAN_RADIUS + h) ^ 3); auto.
    replace (EARTH_MU / (EARTH_MEAN_RADIUS + h) ^ 3 * (EARTH_MEAN_RADIUS + h) ^ 3) with EARTH_MU by (field; lra). lra.
Qed.
Lemma kepler_rate_upper h q : - EARTH_MEAN_RADIUS < h -> 0 <= q -> EARTH_MU < q * q * (EARTH_MEAN_RADIUS + h) ^ 3 -> kepler_rate h < q.
Proof.
  intros H Hq L. unfold kepler_rate. rewrite <- (sqrt_square q) by lra.
  assert (0 < (EARTH_MEAN_RADIUS + h) ^ 3) by (apply pow_lt; lra). pose proof MU_pos. apply sqrt_lt_1_alt. split.
  - apply Rmult_le_pos; [lra|]. apply Rlt_le, Rinv_0_lt_compat; lra.
  - apply Rmult_lt_reg_r with ((EARTH_MEAN_RADIUS + h) ^ 3); auto.
    replace (EARTH_MU / (EARTH_MEAN_RADIUS + h) ^ 3 * (EARTH_MEAN_RADIUS + h) ^ 3) with EARTH_MU by (field; lra). lra.
Qed.
Lemma cube_le x y : 0 <= x -> x <= y -> x ^ 3 <= y ^ 3.
Proof. intros. apply pow_incr. lra. Qed.
Lemma model_speed_pos h i : - EARTH_MEAN_RADIUS < h <= 35000000 -> 0 < model_speed h i.
Proof.
  intro H. rewrite model_speed_rate. pose proof EMR_bounds as B. pose proof rate_bounds as W. apply Rmult_lt_0_compat; [lra|].
  assert (7293 / 100000000 < kepler_rate h).
  { apply kepler_rate_lower; try lra. apply Rle_lt_trans with (7293 / 100000000 * (7293 / 100000000) * 41371009 ^ 3).
    - apply Rmult_le_compat_l; [lra|]. apply cube_le; lra. - unfold EARTH_MU. lra. }
  pose proof (COS_bound (degrees i)). nra.
Qed.
Lemma along_track_value h i d : - EARTH_MEAN_RADIUS < h <= 35000000 ->
  along_track_distance_to_access_time h i d = Some (d / model_speed h i)
  /\ forall t, access_time_to_along_track_distance h i t = Some (model_speed h i * t).
Proof.
  intro H. pose proof (model_speed_pos h i H) as P. unfold along_track_distance_to_access_time, access_time_to_along_track_distance.
  destruct (mean_motion_value h ltac:(lra)) as [-> _]. cbn [obind]. split; [|reflexivity]. rewrite rdiv_ok; [reflexivity|].
  apply Rgt_not_eq. exact P.
Qed.
Lemma along_track_inverse_lemma h i : - EARTH_MEAN_RADIUS < h <= 35000000 ->
  (forall d, exists t, along_track_distance_to_access_time h i d = Some t /\ access_time_to_along_track_distance h i t = Some d)
  /\ (forall t, exists d, access_time_to_along_track_distance h i t = Some d /\ along_track_distance_to_access_time h i d = Some t).
Proof.
  intro H. pose proof (model_speed_pos h i H) as P. split.
  - intro d. destruct (along_track_value h i d H) as [E1 E2]. exists (d / model_speed h i). split; auto. rewrite E2. f_equal. field. lra.
  - intro t. destruct (along_track_value h i (model_speed h i * t) H) as [E1 E2]. exists (model_speed h i * t). split; auto. rewrite E1. f_equal. field. lra.
Qed.
Lemma along_track_monotone_lemma h i d d' t t' : - EARTH_MEAN_RADIUS < h <= 35000000 ->
  along_track_distance_to_access_time h i d = Some t -> along_track_distance_to_access_time h i d' = Some t' -> (d < d' <-> t < t').
Proof.
  intros H E E'. pose proof (model_speed_pos h i H) as P. rewrite (proj1 (along_track_value h i d H)) in E. rewrite (proj1 (along_track_value h i d' H)) in E'.
  injection E as <-. injection E' as <-. split; intro L.
  - apply Rmult_lt_compat_r; auto. apply Rinv_0_lt_compat; auto.
  - apply (Rmult_lt_compat_r (model_speed h i)) in L; auto. unfold Rdiv in L. rewrite !Rmult_assoc, Rinv_l, !Rmult_1_r in L by lra. exact L.
Qed.
(** The access time of a distance is the distance divided by the reported ground velocity. *)
Lemma along_track_velocity h i d v t : - EARTH_MEAN_RADIUS < h <= 35000000 -> compute_ground_velocity h i = Some v ->
  along_track_distance_to_access_time h i d = Some t -> 0 < v /\ d = v * t.
Proof.
  intros H Ev Et. pose proof (model_speed_pos h i H) as P. rewrite ground_velocity_value in Ev by lra. rewrite (proj1 (along_track_value h i d H)) in Et.
  injection Ev as <-. injection Et as <-. split; auto. field. lra.
Qed.

(** ** C34 *)
Lemma least_steps_ceil g : 0 < g <= PI -> least_steps g (py_ceil (2 * PI / g)) /\ (2 <= py_ceil (2 * PI / g))%Z.
Proof.
  intro Hg. pose proof PI_RGT_0 as P. pose proof (Int_part_bounds (- (2 * PI / g))) as B. unfold py_ceil.
  set (m := Int_part (- (2 * PI / g))) in *. assert (Q : 2 <= 2 * PI / g).
  { apply Rmult_le_reg_r with g; [lra|]. unfold Rdiv. rewrite Rmult_assoc, Rinv_l; lra. }
  assert (K : (2 <= - m)%Z) by (apply le_IZR; rewrite opp_IZR; lra). split; auto. unfold least_steps. split; [lia|].
  assert (KR : 2 <= IZR (- m)) by (apply IZR_le in K; lra). split.
  - rewrite opp_IZR in *. apply Rmult_le_reg_r with (- IZR m); [lra|]. replace (2 * PI / - IZR m * - IZR m) with (2 * PI) by (field; lra).
    apply Rmult_le_reg_r with (/ g); [apply Rinv_0_lt_compat; lra|]. replace (g * - IZR m * / g) with (- IZR m) by (field; lra). fold (Rdiv (2 * PI) g). lra.
  - intros j [J1 J2]. assert (JR : 1 <= IZR j) by (apply IZR_le; lia). assert (JM : IZR j + 1 <= IZR (- m)) by (rewrite <- plus_IZR; apply IZR_le; lia).
    rewrite opp_IZR in *. apply Rmult_lt_reg_r with (IZR j); [lra|]. replace (2 * PI / IZR j * IZR j) with (2 * PI) by (field; lra).
    apply Rmult_lt_reg_r with (/ g); [apply Rinv_0_lt_compat; lra|]. replace (g * IZR j * / g) with (IZR j) by (field; lra). fold (Rdiv (2 * PI) g). lra.
Qed.
Section Soc.
Context {I : Type}.
Definition soc_lam (s : @soc I) : R := soc_swath s / 2 / EARTH_MEAN_RADIUS.
Lemma soc_gamma_value (s : @soc I) : 0 < c_alt (soc_orbit s) -> 0 < soc_swath s <= 2 * EARTH_MEAN_RADIUS * horizon (c_alt (soc_orbit s)) 0 ->
  soc_gamma s = Ok (degrees (soc_lam s)) /\ 0 < soc_lam s < PI / 2.
Proof.
  intros Ha Hw. set (h := c_alt (soc_orbit s)) in *. set (w := soc_swath s) in *. pose proof EMR_bounds as EB. pose proof PI_RGT_0 as P.
  assert (AB : above h 0) by (unfold above; lra). pose proof (rho_range h 0 AB) as Hr.
  destruct (swath_to_for_value h w 0 AB) as [Hl V]; [rewrite Rplus_0_r; lra|]. rewrite Rplus_0_r in Hl, V. fold (soc_lam s) in Hl, V.
  replace (w / 2 / EARTH_MEAN_RADIUS) with (soc_lam s) in Hl, V by reflexivity.
  set (lam := soc_lam s) in *. set (eta := atan (rho h 0 * sin lam / (1 - rho h 0 * cos lam))) in *. unfold horizon in Hl.
  destruct (edge_angles (rho h 0) lam Hr Hl) as [H1 [H2 H3]]. fold eta in H1, H2, H3.
  pose proof (off_nadir_sine _ _ _ H2) as S0.
  assert (SR : sin eta <= rho h 0). { pose proof (SIN_bound (lam + eta)). nra. }
  assert (EA : eta <= asin (rho h 0)). { rewrite <- (asin_sin eta) by lra. apply asin_le; try lra. pose proof (SIN_bound eta). lra. }
  assert (F0 : 0 <= degrees (2 * eta) <= 180).
  { rewrite <- degrees_PI. rewrite <- degrees_0 at 1. split; apply (proj1 (degrees_le _ _)); lra. }
  assert (L0 : 0 < lam < PI / 2).
  { split; [unfold lam, soc_lam; apply Rmult_lt_0_compat; [fold w; lra|apply Rinv_0_lt_compat; lra]|].
    pose proof (asin_lt_PI2 _ Hr). rewrite acos_asin in Hl by lra. lra. }
  split; auto. unfold soc_gamma, soc_elevation. fold h w. rewrite V. cbn [obind].
  rewrite (min_elevation_value h _ 0 AB F0). rewrite radians_half, Rmin_left by lra.
  replace (sin eta / rho h 0) with (sin (lam + eta)) by (rewrite <- S0; field; lra). rewrite acos_sin by lra. cbn [bind].
  unfold py_div. destruct (Req_EM_T (EARTH_MEAN_RADIUS + h) 0) as [Z0|_]; [lra|]. cbn [bind]. rewrite radians_degrees.
  replace (EARTH_MEAN_RADIUS / (EARTH_MEAN_RADIUS + h)) with (rho h 0) by (unfold rho; now rewrite Rplus_0_r).
  rewrite cos_shift, S0. unfold math_asin. pose proof (SIN_bound eta) as SB.
  replace (Rleb (-1) (sin eta)) with true by (symmetry; apply Rleb_spec; lra). replace (Rleb (sin eta) 1) with true by (symmetry; apply Rleb_spec; lra).
  cbn [andb bind]. rewrite asin_sin by lra. f_equal. unfold degrees. field. lra.
Qed.
Lemma soc_walker_lemma (s : @soc I) : soc_valid s = true -> 0 < c_alt (soc_orbit s) ->
  soc_swath s <= 2 * EARTH_MEAN_RADIUS * horizon (c_alt (soc_orbit s)) 0 ->
  exists w k gf gp, soc_walker s = Ok w /\ walker_ok w
    /\ w_orbit w = LCirc (soc_orbit s) /\ w_name w = soc_name s /\ w_instruments w = soc_instruments s /\ w_config w = Delta /\ w_spacing w = 0%Z
    /\ w_number w = (k * w_planes w)%Z /\ per_plane w = k
    /\ 0 < gf < PI /\ sin (gf / 2) = soc_packing s * sin (soc_swath s / 2 / EARTH_MEAN_RADIUS) /\ least_steps gf k
    /\ 0 < gp < PI /\ sin (gp / 2) = sqrt 3 / 2 * (soc_packing s * sin (soc_swath s / 2 / EARTH_MEAN_RADIUS)) /\ least_steps gp (w_planes w)
    /\ gf <= soc_swath s / EARTH_MEAN_RADIUS.
Proof.
  intros V Ha Hw. unfold soc_valid in V. apply andb_prop in V as [V V3]. apply andb_prop in V as [V1 V2].
  apply Rltb_spec in V1, V2. apply Rleb_spec in V3. destruct (soc_gamma_value s Ha ltac:(lra)) as [G L]. pose proof PI_RGT_0 as P. pose proof EMR_bounds as EB.
  fold (soc_lam s). set (lam := soc_lam s) in *. set (q := soc_packing s * sin lam).
  assert (S0 : 0 < sin lam) by (apply sin_gt_0; lra). assert (S1 : sin lam < 1).
  { rewrite <- sin_PI2. apply sin_increasing_1; lra. }
  assert (Q : 0 < q < 1) by (unfold q; split; [apply Rmult_lt_0_compat; lra|nra]). pose proof sqrt3_bounds as S3.
  set (q' := sqrt 3 / 2 * q). assert (Q' : 0 < q' < 1) by (unfold q'; split; [apply Rmult_lt_0_compat; lra|nra]).
  pose proof (asin_lt_PI2 q Q) as A. pose proof (asin_lt_PI2 q' Q') as A'.
  destruct (least_steps_ceil (2 * asin q) ltac:(lra)) as [F1 F2]. destruct (least_steps_ceil (2 * asin q') ltac:(lra)) as [P1 P2].
  set (k := py_ceil (2 * PI / (2 * asin q))) in *. set (np := py_ceil (2 * PI / (2 * asin q'))) in *.
  set (w := mk_walker (soc_name s) (LCirc (soc_orbit s)) (soc_instruments s) Delta (k * np) np 0).
  assert (OK : walker_ok w) by (unfold walker_ok, w; simpl; nia).
  exists w, k, (2 * asin q), (2 * asin q'). split.
  { unfold soc_walker. rewrite G. cbn [bind]. rewrite radians_degrees.
    replace (1 / 2 * (2 * (EARTH_MEAN_RADIUS * sin lam) * soc_packing s) / EARTH_MEAN_RADIUS) with q by (unfold q; field; lra).
    replace (1 / 2 * (sqrt 3 * (EARTH_MEAN_RADIUS * sin lam) * soc_packing s) / EARTH_MEAN_RADIUS) with q' by (unfold q', q; field; lra).
    assert (MA : forall x, 0 < x < 1 -> math_asin x = Ok (asin x)).
    { intros x X. unfold math_asin. replace (Rleb (-1) x) with true by (symmetry; apply Rleb_spec; lra). replace (Rleb x 1) with true by (symmetry; apply Rleb_spec; lra). reflexivity. }
    assert (PD : forall x y, y <> 0 -> py_div x y = Ok (x / y)) by (intros x y Y; unfold py_div; destruct (Req_EM_T y 0); [contradiction|reflexivity]).
    rewrite (MA q), (MA q') by auto. cbn [bind]. rewrite PD by lra. cbn [bind]. rewrite PD by lra. cbn [bind]. fold k np. 
    apply (proj2 (proj1 (make_walker_lemma _))). exact OK. }
  split; [exact OK|]. do 5 (split; [reflexivity|]). split; [reflexivity|]. split.
  { unfold per_plane, w. cbn [w_number w_planes]. replace (- (k * np))%Z with ((- k) * np)%Z by ring. rewrite Z.div_mul by lia. lia. }
  split; [lra|]. split; [replace (2 * asin q / 2) with (asin q) by lra; apply sin_asin; lra|]. split; [exact F1|].
  split; [lra|]. split; [replace (2 * asin q' / 2) with (asin q') by lra; apply sin_asin; lra|]. split; [exact P1|].
  replace (soc_swath s / EARTH_MEAN_RADIUS) with (2 * lam) by (unfold lam, soc_lam; field; lra).
  assert (asin q <= lam); [|lra]. rewrite <- (asin_sin lam) by lra. apply asin_le; try lra. unfold q. nra.
Qed.
(** In every plane, neighbouring satellites are no further apart (in Earth central angle) than one swath. *)
Lemma soc_members_lemma sun (s : @soc I) : soc_valid s = true -> circ_valid (soc_orbit s) = true -> 0 < c_alt (soc_orbit s) ->
  soc_swath s <= 2 * EARTH_MEAN_RADIUS * horizon (c_alt (soc_orbit s)) 0 ->
  exists w ms, soc_walker s = Ok w /\ soc_members sun s = Ok ms /\ Z.of_nat (length ms) = w_number w
  /\ (forall i m, nth_error ms i = Some m -> mb_instruments m = soc_instruments s
        /\ altitude_epoch (mb_orbit m) = Some (c_alt (soc_orbit s), c_epoch (soc_orbit s))
        /\ exists d, mb_name m = soc_name s ++ [32%Z] ++ d
             /\ Forall (fun c => 48 <= c <= 57)%Z d /\ decimal_value d = (Z.of_nat i + 1)%Z)
  /\ (forall i j m m', (i < j)%nat -> nth_error ms i = Some m -> nth_error ms j = Some m' ->
        str_lt (mb_name m) (mb_name m') /\ mb_name m <> mb_name m').
Proof.
  intros V C Ha Hw. destruct (soc_walker_lemma s V Ha Hw) as (w & k & gf & gp & E & OK & EO & EN & EI & _).
  destruct (walker_count_lemma sun w) as (ms & Em & L & N1 & N2); [rewrite EO; exact C|exact OK|].
  exists w, ms. split; auto. split; [unfold soc_members; rewrite E; exact Em|]. split; auto. rewrite EO, EN, EI in N1. split; auto.
Qed.
Lemma soc_spacing_lemma sun (s : @soc I) : soc_valid s = true -> circ_valid (soc_orbit s) = true -> 0 < c_alt (soc_orbit s) ->
  soc_swath s <= 2 * EARTH_MEAN_RADIUS * horizon (c_alt (soc_orbit s)) 0 ->
  exists ms k p, soc_members sun s = Ok ms /\ (1 <= k)%Z /\ (1 <= p)%Z /\ Z.of_nat (length ms) = (k * p)%Z
    /\ 360 / IZR k <= degrees (soc_swath s / EARTH_MEAN_RADIUS)
    /\ forall q j, (0 <= q < p)%Z -> (0 <= j < k)%Z -> exists m, nth_error ms (Z.to_nat (q * k + j)) = Some m
        /\ advanced sun (IZR j * (360 / IZR k)) (IZR q * (360 / IZR p)) (LCirc (soc_orbit s)) (mb_orbit m).
Proof.
  intros V C Ha Hw. destruct (soc_walker_lemma s V Ha Hw) as (w & k & gf & gp & E & OK & EO & EN & EI & EC & ES & ENum & EK & _ & _ & LF & _ & _ & LP & GF).
  assert (VO : lead_ok (w_orbit w)) by (rewrite EO; exact C).
  destruct (walker_structure_lemma sun w VO OK) as (ms & k' & Em & L & KB & N1 & N2).
  destruct LF as [K1 [K2 _]]. destruct LP as [PL _].
  assert (k' = k) by nia. subst k'.
  exists ms, k, (w_planes w). split; [unfold soc_members; rewrite E; exact Em|]. split; auto. split; auto. split; [now rewrite L|].
  split.
  { rewrite <- degrees_2PI. replace (degrees (2 * PI) / IZR k) with (degrees (2 * PI / IZR k)) by (unfold degrees; field; split; [pose proof PI_RGT_0; lra|apply not_0_IZR; lia]).
    apply (proj1 (degrees_le _ _)). lra. }
  intros q j Hq Hj. destruct (N2 q j ltac:(lia) Hj ltac:(nia)) as [m Hm]. exists m. split; auto.
  destruct (N1 _ _ Hm) as (p' & s' & EI' & Hs' & Hp' & A). rewrite Z2Nat.id in EI' by nia.
  assert (p' = q /\ s' = j) as [-> ->].
  { destruct (Z.div_mod_unique k q p' j s') as [H1 H2]; try lia. }
  rewrite EC, ES, EO in A. replace (IZR j * (360 / IZR k) + IZR q * (360 * 0 / IZR (w_number w))) with (IZR j * (360 / IZR k)) in A; [exact A|].
  unfold Rdiv. ring.
Qed.
End Soc.
Lemma half_look h w look el : above h el -> 0 <= w -> 0 <= radians look / 2 <= asin (rho h el) ->
  exists lc, 0 <= lc <= horizon h el /\ off_nadir (rho h el) lc (radians look / 2)
    /\ (lc + w / 2 / (EARTH_MEAN_RADIUS + el) <= PI / 2 ->
        exists f, swath_width_to_field_of_view h w look el = Some f /\ subtends h el w lc f).
Proof.
  intros Ha Hw Hl. destruct (fov_value h w look el Ha Hw Hl) as (lc & L & O & F). exists lc. split; auto. split; auto.
  intro H. destruct (F H) as (f & E & S0 & _). exists f. auto.
Qed.
