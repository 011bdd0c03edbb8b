(** Effect of the altitude on the viewing geometry. *)
From Coq Require Import Reals ZArith List Bool Lra Lia.
From Verif Require Import Base RBase RFacts Orbit_Model Orbit_Proofs Orbit_Proofs2 Geom_Model Geom_Spec Geom_Proofs Geom_Proofs2 Access_Proofs.
Open Scope R_scope.

Lemma above_higher h h' el : above h el -> h <= h' -> above h' el.
Proof. unfold above. lra. Qed.
Lemma rho_decreasing h h' el : above h el -> h < h' -> rho h' el < rho h el.
Proof.
  intros Ha H. apply above_pos in Ha. unfold rho, Rdiv. apply Rmult_lt_compat_l; [lra|]. apply Rinv_lt_contravar; [nra|lra].
Qed.
Lemma asin_lt x y : -1 <= x -> x < y -> y <= 1 -> asin x < asin y.
Proof.
  intros H1 H2 H3. pose proof (asin_bound x). pose proof (asin_bound y).
  apply sin_increasing_0; try lra. rewrite !sin_asin by lra. assumption.
Qed.
Lemma acos_lt x y : -1 <= x -> x < y -> y <= 1 -> acos y < acos x.
Proof. intros. rewrite !acos_asin by lra. pose proof (asin_lt x y). lra. Qed.
Lemma div_lt x r r' : 0 < x -> 0 < r' < r -> x / r < x / r'.
Proof. intros. unfold Rdiv. apply Rmult_lt_compat_l; [lra|]. apply Rinv_lt_contravar; [nra|lra]. Qed.

Lemma horizon_increasing h h' el : above h el -> h < h' -> horizon h el < horizon h' el.
Proof.
  intros Ha H. pose proof (rho_range h el Ha). pose proof (rho_range h' el (above_higher h h' el Ha ltac:(lra))).
  pose proof (rho_decreasing h h' el Ha H). unfold horizon. apply acos_lt; lra.
Qed.

(** [r' < r], off-nadir angle [a] clipped at the horizon. *)
Lemma clipped_angle r r' a : 0 < r' < r -> r < 1 -> 0 < a <= PI / 2 ->
  let e := Rmin a (asin r) in let e' := Rmin a (asin r') in
  PI / 2 - e - acos (sin e / r) < PI / 2 - e' - acos (sin e' / r')
  /\ acos (sin e' / r') <= acos (sin e / r)
  /\ (a < asin r -> acos (sin e' / r') < acos (sin e / r)).
Proof.
  intros Hr Hr1 Ha e e'. pose proof PI_RGT_0 as P. pose proof (asin_lt_PI2 r ltac:(lra)) as A. pose proof (asin_lt_PI2 r' ltac:(lra)) as A'.
  assert (L : asin r' < asin r) by (apply asin_lt; lra).
  assert (S1 : forall q, 0 < q < 1 -> sin (asin q) / q = 1). { intros q Hq. rewrite sin_asin by lra. field. lra. }
  destruct (Rle_dec a (asin r')) as [C|C].
  - (* seen by both *)
    assert (E : e = a) by (unfold e; apply Rmin_left; lra). assert (E' : e' = a) by (unfold e'; apply Rmin_left; lra). rewrite E, E'.
    destruct (seen_angles r a ltac:(lra) ltac:(lra)) as (B & _). destruct (seen_angles r' a ltac:(lra) ltac:(lra)) as (B' & _).
    assert (0 < sin a) by (apply sin_gt_0; lra). pose proof (div_lt (sin a) r r' ltac:(lra) ltac:(lra)) as D.
    pose proof (acos_lt (sin a / r) (sin a / r') ltac:(lra) D ltac:(lra)). lra.
  - assert (E' : e' = asin r') by (unfold e'; apply Rmin_right; lra). rewrite E', (S1 r') by lra. rewrite acos_1.
    destruct (Rlt_dec a (asin r)) as [C1|C1].
    + assert (E : e = a) by (unfold e; apply Rmin_left; lra). rewrite E.
      destruct (seen_angles r a ltac:(lra) ltac:(lra)) as (B & B1 & _).
      assert (sin a / r < 1). { apply Rmult_lt_reg_r with r; [lra|]. unfold Rdiv. rewrite Rmult_assoc, Rinv_l, Rmult_1_r, Rmult_1_l by lra.
        rewrite <- (sin_asin r) by lra. apply sin_increasing_1; lra. }
      pose proof (acos_lt (sin a / r) 1 ltac:(lra) ltac:(lra) ltac:(lra)) as D. rewrite acos_1 in D. lra.
    + assert (E : e = asin r) by (unfold e; apply Rmin_right; lra). rewrite E, (S1 r) by lra. rewrite acos_1. lra.
Qed.

Lemma half_pos f : 0 < f <= 180 -> 0 < radians f / 2 <= PI / 2.
Proof. intro H. pose proof (half_for f ltac:(lra)). unfold radians in *. pose proof PI_RGT_0. assert (0 < f * (PI / 180)) by (apply Rmult_lt_0_compat; lra). lra. Qed.

Lemma higher_swath h h' f el w w' : above h el -> h < h' -> 0 < f <= 180 ->
  field_of_regard_to_swath_width h f el = Some w -> field_of_regard_to_swath_width h' f el = Some w' -> w < w'.
Proof.
  intros Ha H Hf E E'. pose proof (above_higher h h' el Ha ltac:(lra)) as Ha'. pose proof (rho_range _ _ Ha). pose proof (rho_range _ _ Ha').
  pose proof (rho_decreasing _ _ _ Ha H). pose proof (above_pos _ _ Ha).
  rewrite (for_to_swath_value h f el Ha) in E by lra. rewrite (for_to_swath_value h' f el Ha') in E' by lra.
  destruct (clipped_angle (rho h el) (rho h' el) (radians f / 2) ltac:(lra) ltac:(lra) (half_pos f Hf)) as (L & _).
  injection E as <-. injection E' as <-. apply Rmult_lt_compat_l; lra.
Qed.
Lemma degrees_lt x y : x < y -> degrees x < degrees y.
Proof. intro H. unfold degrees. apply Rmult_lt_compat_r; [|assumption]. pose proof PI_RGT_0. apply Rdiv_lt_0_compat; lra. Qed.
Lemma degrees_le x y : x <= y -> degrees x <= degrees y.
Proof. intros [H|H]; [left; now apply degrees_lt|right; now subst]. Qed.
Lemma higher_elevation h h' f el e e' : above h el -> h < h' -> 0 < f <= 180 ->
  compute_min_elevation_angle h f el = Some e -> compute_min_elevation_angle h' f el = Some e' ->
  e' <= e /\ (0 < e -> e' < e).
Proof.
  intros Ha H Hf E E'. pose proof (above_higher h h' el Ha ltac:(lra)) as Ha'. pose proof (rho_range _ _ Ha) as Hr. pose proof (rho_range _ _ Ha').
  pose proof (rho_decreasing _ _ _ Ha H).
  rewrite (min_elevation_value h f el Ha) in E by lra. rewrite (min_elevation_value h' f el Ha') in E' by lra.
  destruct (clipped_angle (rho h el) (rho h' el) (radians f / 2) ltac:(lra) ltac:(lra) (half_pos f Hf)) as (_ & L & L').
  injection E as <-. injection E' as <-. split; [now apply degrees_le|]. intro Hp. apply degrees_lt, L'.
  destruct (Rlt_dec (radians f / 2) (asin (rho h el))) as [C|C]; [assumption|]. exfalso.
  rewrite Rmin_right, sin_asin in Hp by lra. replace (rho h el / rho h el) with 1 in Hp by (field; lra). rewrite acos_1 in Hp.
  unfold degrees in Hp. lra.
Qed.
Lemma higher_field h h' eps el f f' : above h el -> h < h' -> 0 <= eps < 90 ->
  compute_field_of_regard h eps el = Some f -> compute_field_of_regard h' eps el = Some f' -> f' < f.
Proof.
  intros Ha H He E E'. pose proof (above_higher h h' el Ha ltac:(lra)) as Ha'. pose proof (rho_range _ _ Ha) as Hr. pose proof (rho_range _ _ Ha') as Hr'.
  pose proof (rho_decreasing _ _ _ Ha H) as D. unfold compute_field_of_regard in E, E'.
  rewrite earth_sin_eq in E by assumption. rewrite earth_sin_eq in E' by assumption. cbn [obind] in E, E'.
  pose proof PI_RGT_0 as P. assert (0 < cos (radians eps) <= 1).
  { split; [apply cos_gt_0; unfold radians; nra|apply COS_bound]. }
  rewrite np_arcsin_in in E by nra. rewrite np_arcsin_in in E' by nra. cbn [obind] in E, E'.
  injection E as <-. injection E' as <-. apply degrees_lt. pose proof (asin_lt (rho h' el * cos (radians eps)) (rho h el * cos (radians eps))).
  assert (asin (rho h' el * cos (radians eps)) < asin (rho h el * cos (radians eps))) by (apply asin_lt; nra). lra.
Qed.
Lemma higher_swath_field h h' w el f f' : above h el -> h < h' -> 0 < w <= 2 * (EARTH_MEAN_RADIUS + el) * horizon h el ->
  swath_width_to_field_of_regard h w el = Some f -> swath_width_to_field_of_regard h' w el = Some f' -> f' < f.
Proof.
  intros Ha H Hw E E'. pose proof (above_higher h h' el Ha ltac:(lra)) as Ha'. pose proof (rho_range _ _ Ha) as Hr. pose proof (rho_range _ _ Ha') as Hr'.
  pose proof (rho_decreasing _ _ _ Ha H) as D. pose proof (above_pos _ _ Ha) as Hp.
  pose proof (horizon_increasing _ _ _ Ha H) as Hh.
  destruct (swath_to_for_value h w el Ha ltac:(lra)) as (L & V).
  destruct (swath_to_for_value h' w el Ha') as (L' & V'). { split; [lra|]. apply Rle_trans with (2 * (EARTH_MEAN_RADIUS + el) * horizon h el); [lra|]. apply Rmult_le_compat_l; lra. }
  rewrite V in E. rewrite V' in E'. injection E as <-. injection E' as <-. apply degrees_lt.
  set (lam := w / 2 / (EARTH_MEAN_RADIUS + el)) in *.
  pose proof PI_RGT_0 as P. pose proof (acos_range01 (rho h el) ltac:(lra)) as AR. unfold horizon in L.
  assert (0 < lam). { unfold lam. apply Rdiv_lt_0_compat; lra. }
  assert (0 < sin lam) by (apply sin_gt_0; lra). pose proof (COS_bound lam) as CB.
  assert (G : 0 < 1 - rho h el * cos lam) by nra. assert (G' : 0 < 1 - rho h' el * cos lam) by nra.
  apply Rmult_lt_compat_l; [lra|]. apply atan_increasing.
  apply Rmult_lt_reg_r with ((1 - rho h el * cos lam) * (1 - rho h' el * cos lam)); [nra|].
  replace (rho h' el * sin lam / (1 - rho h' el * cos lam) * ((1 - rho h el * cos lam) * (1 - rho h' el * cos lam)))
    with (rho h' el * sin lam * (1 - rho h el * cos lam)) by (field; lra).
  replace (rho h el * sin lam / (1 - rho h el * cos lam) * ((1 - rho h el * cos lam) * (1 - rho h' el * cos lam)))
    with (rho h el * sin lam * (1 - rho h' el * cos lam)) by (field; lra).
  nra.
Qed.
Lemma kepler_decreasing h h' : - EARTH_MEAN_RADIUS < h -> h < h' -> 0 < kepler_rate h' < kepler_rate h.
Proof.
  intros H0 H. pose proof MU_pos as M. unfold kepler_rate.
  assert (0 < (EARTH_MEAN_RADIUS + h) ^ 3) by (apply pow_lt; lra).
  assert (L : (EARTH_MEAN_RADIUS + h) ^ 3 < (EARTH_MEAN_RADIUS + h') ^ 3).
  { set (a := EARTH_MEAN_RADIUS + h) in *. set (b := EARTH_MEAN_RADIUS + h'). assert (0 < a < b) by (unfold a, b; lra). assert (a * a < b * b) by nra. assert (a * (a * a) < b * (b * b)) by nra. simpl. lra. }
  split.
  - apply sqrt_lt_R0, Rdiv_lt_0_compat; lra.
  - apply sqrt_lt_1_alt. split; [left; apply Rdiv_lt_0_compat; lra|]. apply div_lt; lra.
Qed.
Lemma higher_access h h' e m m' : - EARTH_MEAN_RADIUS < h -> h < h' -> 0 <= e < 90 ->
  compute_max_access_time h e = Some m -> compute_max_access_time h' e = Some m' -> m < m'.
Proof.
  intros H0 H He E E'. rewrite access_value in E by lra. rewrite access_value in E' by lra.
  injection E as <-. injection E' as <-. pose proof (kepler_decreasing h h' H0 H) as K. pose proof PI_RGT_0.
  apply div_lt; [|lra]. unfold radians. nra.
Qed.
Lemma higher_velocity h h' i v v' : - EARTH_MEAN_RADIUS < h -> h < h' ->
  compute_ground_velocity h i = Some v -> compute_ground_velocity h' i = Some v' -> v' < v.
Proof.
  intros H0 H E E'. pose proof (kepler_decreasing h h' H0 H) as K. pose proof MU_pos as M. pose proof EMR_bounds as Q.
  assert (V : forall x, - EARTH_MEAN_RADIUS < x -> mean_motion_rad x = Some (kepler_rate x)).
  { intros x Hx. unfold mean_motion_rad. assert (0 < (EARTH_MEAN_RADIUS + x) ^ 3) by (apply pow_lt; lra).
    rewrite rdiv_ok by lra. cbn [obind]. apply np_sqrt_ok. left. apply Rdiv_lt_0_compat; lra. }
  unfold compute_ground_velocity in E, E'. rewrite V in E by lra. rewrite V in E' by lra. cbn [obind] in E, E'.
  injection E as <-. injection E' as <-. apply Rmult_lt_compat_l; lra.
Qed.
Lemma higher_witness : above 400000 0 /\ 400000 < 800000 /\ - EARTH_MEAN_RADIUS < 400000
  /\ (exists w w', field_of_regard_to_swath_width 400000 60 0 = Some w /\ field_of_regard_to_swath_width 800000 60 0 = Some w')
  /\ exists e, compute_min_elevation_angle 400000 60 0 = Some e.
Proof.
  pose proof EMR_bounds. assert (A : above 400000 0) by (unfold above; lra). assert (A' : above 800000 0) by (unfold above; lra).
  split; [assumption|]. split; [lra|]. split; [lra|].
  destruct (bounded 400000 60 0 A ltac:(lra)) as ((w & Ew & _) & (e & Ee & _)). destruct (bounded 800000 60 0 A' ltac:(lra)) as ((w' & Ew' & _) & _).
  eauto 6.
Qed.
