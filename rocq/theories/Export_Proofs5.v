(** Periods and true anomalies read from printed orbits. *)
From Coq Require Import String ZArith QArith Qround Reals Qreals List Bool Lra Lia Psatz Sorting.Sorted.
From Verif Require Import Base BaseFacts RBase RFacts Tle_Model Tle_Spec Tle_Proofs Tle_Proofs2 Orbit_Model Orbit_Spec
  Orbit_Proofs Anomaly_Proofs AnomalyRound_Proofs AnomalyInj_Proofs AnomalyMean_Proofs
  Export_Model Export_Spec Export_Proofs Export_Proofs2 Export_Proofs3 Export_Proofs4.
Import ListNotations.
Open Scope R_scope.

Lemma period_read v n : reads (Tle_Model.get_mean_motion v 0) n (1 / 200000000) -> 1 / 2 <= n ->
  exists p, tle_get_orbit_period v 0 = Ok p /\ Rabs (IZR p - IZR DAY_US / n) <= 2000.
Proof.
  intros (q & E & H) Hn. unfold off in H. unfold tle_get_orbit_period. rewrite E. cbn [bind]. eexists. split; [reflexivity|].
  set (m := Q2R q) in *. assert (Hm : m - n <= 1 / 200000000 /\ n - m <= 1 / 200000000) by (unfold Rabs in H; destruct (Rcase_abs _) in H; lra).
  unfold tle_orbit_period. pose proof (rhe_bounds (1 / m * IZR DAY_US)) as B. set (r := IZR (round_half_even _)) in *. unfold DAY_US in *.
  assert (D : 1 / m * 86400000000 - 86400000000 / n = 86400000000 * (n - m) * / (m * n)) by (field; lra).
  assert (I : / (m * n) <= 45 / 10).
  { apply Rmult_le_reg_r with (m * n); [nra|]. rewrite Rinv_l by nra. nra. }
  assert (0 < / (m * n)) by (apply Rinv_0_lt_compat; nra).
  assert (- 432 <= 86400000000 * (n - m) <= 432) by lra.
  assert (- 1944 <= 86400000000 * (n - m) * / (m * n) <= 1944) by (split; nra).
  apply Rabs_le. lra.
Qed.
Lemma period_of_altitude alt n v : 0 <= alt <= 36000000 -> Orbit_Model.get_mean_motion alt = Ok n ->
  reads (Tle_Model.get_mean_motion v 0) n (1 / 200000000) ->
  exists p p', get_orbit_period alt = Ok p /\ tle_get_orbit_period v 0 = Ok p' /\ Rabs (IZR p' - IZR p) <= 2000.
Proof.
  intros HA En R. pose proof (low_motion alt n HA En) as Hn. destruct (mean_motion_lemma alt n En) as (us & Eu & Hu).
  destruct (period_read v n R Hn) as (p' & Ep & B). exists us, p'. split; [assumption|]. split; [assumption|].
  replace (IZR us) with (IZR DAY_US / n); [assumption|]. apply Rmult_eq_reg_l with n; [|lra]. replace (n * (IZR DAY_US / n)) with (IZR DAY_US) by (field; lra).
  unfold DAY_US in *. lra.
Qed.

(** Sensitivity of the series. *)
Lemma f_true'_bound e x : Rabs e <= 78 / 100 -> Rabs (f_true' e x) <= 6.
Proof.
  intro H. assert (- (78 / 100) <= e <= 78 / 100) by (unfold Rabs in H; destruct (Rcase_abs _) in H; lra).
  unfold f_true'. pose proof (COS_bound x) as C1. pose proof (COS_bound (2 * x)) as C2. pose proof (COS_bound (3 * x)) as C3.
  set (a := cos x) in *. set (b := cos (2 * x)) in *. set (c := cos (3 * x)) in *. clearbody a b c.
  assert (E2 : 0 <= e ^ 2 <= 6084 / 10000) by (simpl; nra). assert (E3 : - (475 / 1000) <= e ^ 3 <= 475 / 1000) by (replace (e ^ 3) with (e * e ^ 2) by ring; nra).
  set (u := e ^ 2) in *. set (w := e ^ 3) in *. clearbody u w.
  assert (- (17 / 10) <= (2 * e - 1 / 4 * w) * a <= 17 / 10) by (assert (- (17 / 10) <= 2 * e - 1 / 4 * w <= 17 / 10) by lra; nra).
  assert (- (155 / 100) <= 5 / 4 * u * (b * 2) <= 155 / 100) by nra.
  assert (- (155 / 100) <= 13 / 12 * w * (c * 3) <= 155 / 100) by nra.
  apply Rabs_le. lra.
Qed.
Lemma f_true_lipschitz e x y : Rabs e <= 78 / 100 -> Rabs (f_true e x - f_true e y) <= 6 * Rabs (x - y).
Proof.
  intro H. assert (L : forall x y, x < y -> Rabs (f_true e x - f_true e y) <= 6 * Rabs (x - y)).
  { clear x y. intros x y L. destruct (MVT_cor2 (f_true e) (f_true' e) x y L) as (c & E & _); [intros; apply f_true_deriv|].
    rewrite (Rabs_minus_sym (f_true e x)), (Rabs_minus_sym x), E, Rabs_mult. apply Rmult_le_compat_r; [apply Rabs_pos|]. now apply f_true'_bound. }
  destruct (Rtotal_order x y) as [|[->|G]]; [now apply L| |rewrite Rabs_minus_sym, (Rabs_minus_sym x); now apply L].
  unfold Rminus. rewrite !Rplus_opp_r, Rabs_R0. lra.
Qed.
Lemma f_true_ecc a b x : Rabs a <= 78 / 100 -> Rabs b <= 78 / 100 -> Rabs (f_true a x - f_true b x) <= 7 * Rabs (a - b).
Proof.
  intros HA HB. assert (- (78 / 100) <= a <= 78 / 100) by (unfold Rabs in HA; destruct (Rcase_abs _) in HA; lra).
  assert (- (78 / 100) <= b <= 78 / 100) by (unfold Rabs in HB; destruct (Rcase_abs _) in HB; lra).
  unfold f_true. pose proof (SIN_bound x) as C1. pose proof (SIN_bound (2 * x)) as C2. pose proof (SIN_bound (3 * x)) as C3.
  set (p := sin x) in *. set (q := sin (2 * x)) in *. set (r := sin (3 * x)) in *. clearbody p q r.
  assert (Q : 0 <= a ^ 2 + a * b + b ^ 2 <= 183 / 100) by (simpl; split; nra).
  set (k := a ^ 2 + a * b + b ^ 2) in *.
  replace (x + (2 * a - 1 / 4 * a ^ 3) * p + 5 / 4 * a ^ 2 * q + 13 / 12 * a ^ 3 * r - (x + (2 * b - 1 / 4 * b ^ 3) * p + 5 / 4 * b ^ 2 * q + 13 / 12 * b ^ 3 * r))
    with ((2 * p - 1 / 4 * k * p + 5 / 4 * (a + b) * q + 13 / 12 * k * r) * (a - b)) by (unfold k; ring).
  rewrite Rabs_mult. apply Rmult_le_compat_r; [apply Rabs_pos|]. clearbody k.
  assert (- (46 / 100) <= 1 / 4 * k * p <= 46 / 100) by nra. assert (- (195 / 100) <= 5 / 4 * (a + b) * q <= 195 / 100) by nra.
  assert (- 2 <= 13 / 12 * k * r <= 2) by nra. apply Rabs_le. lra.
Qed.
Lemma degrees_abs x : Rabs (degrees x) = degrees (Rabs x).
Proof. unfold degrees. pose proof PI_RGT_0. assert (0 < 180 / PI) by (apply Rdiv_lt_0_compat; lra). rewrite Rabs_mult, (Rabs_right (180 / PI)) by lra. reflexivity. Qed.
Lemma true_anomaly_read v nu e : 0 <= e <= 77 / 100 ->
  reads (Tle_Model.get_mean_anomaly v 0) (true_anomaly_to_mean_anomaly nu e) (1 / 20000) -> reads (get_eccentricity v 0) e (1 / 20000000) ->
  reads_R (tle_get_true_anomaly v 0) nu (degrees (110 * e ^ 4) + 1 / 2000).
Proof.
  intros He (m & Em & Hm) (q & Ee & Hq). unfold tle_get_true_anomaly. rewrite Em. cbn [bind]. rewrite Ee. cbn [bind]. eexists. split; [reflexivity|].
  unfold off in *. set (x := Q2R m) in *. set (y := Q2R q) in *. pose proof (round_trip_lemma e nu ltac:(lra)) as RT.
  set (M := true_anomaly_to_mean_anomaly nu e) in *. rewrite m2t_eq in *.
  assert (Y : Rabs y <= 78 / 100) by (apply Rabs_le; unfold Rabs in Hq; destruct (Rcase_abs _) in Hq; lra).
  pose proof (f_true_lipschitz y (radians x) (radians M) Y) as L1. pose proof (f_true_ecc y e (radians M) Y ltac:(rewrite Rabs_right; lra)) as L2.
  assert (D : degrees (f_true y (radians x)) - nu = degrees (f_true y (radians x) - f_true y (radians M)) + degrees (f_true y (radians M) - f_true e (radians M)) + (degrees (f_true e (radians M)) - nu)).
  { unfold degrees. ring. }
  assert (Dm : forall a b, a <= b -> degrees a <= degrees b).
  { intros a b H. unfold degrees. pose proof PI_RGT_0. assert (0 < 180 / PI) by (apply Rdiv_lt_0_compat; lra). apply Rmult_le_compat_r; lra. }
  apply Dm in L1, L2. rewrite <- degrees_abs in L1, L2.
  assert (E1 : degrees (6 * Rabs (radians x - radians M)) = 6 * Rabs (x - M)).
  { replace (radians x - radians M) with (radians (x - M)) by (unfold radians; ring). replace (degrees (6 * Rabs (radians (x - M)))) with (6 * degrees (Rabs (radians (x - M)))) by (unfold degrees; ring).
    now rewrite <- degrees_abs, degrees_radians. }
  assert (E2 : degrees (7 * Rabs (y - e)) <= 60 * (7 * Rabs (y - e))).
  { unfold degrees. pose proof PI2_3_2 as P. unfold PI2 in P. assert (180 / PI <= 60) by (apply Rmult_le_reg_r with PI; [lra|]; unfold Rdiv; rewrite Rmult_assoc, Rinv_l by lra; lra).
    pose proof (Rabs_pos (y - e)). nra. }
  rewrite E1 in L1. rewrite D. eapply Rle_trans; [apply Rabs_triang|]. eapply Rle_trans; [apply Rplus_le_compat_r, Rabs_triang|]. lra.
Qed.

(** ** The orbit classes *)
Section Orbits.
Variables (epoch : pystr -> pystr -> pyres Z) (export_tle : Z -> elset -> pyres (pystr * pystr)).
Hypothesis (HP : printer_contract export_tle) (HE : epoch_contract epoch export_tle).
Variables (rc : bool) (lazy : option bool).
Lemma kep_reads k : kep_valid k = true -> 0 <= c_alt (k_circ k) <= 36000000 -> k_ecc k <= 77 / 100 -> in_window (c_epoch (k_circ k)) ->
  exists v p p', snd (to_tle (kep_conv (new_tle epoch export_tle)) rc lazy (mk_object k None)) = Ok v
    /\ get_orbit_period (c_alt (k_circ k)) = Ok p /\ tle_get_orbit_period v 0 = Ok p' /\ Rabs (IZR p' - IZR p) <= 2000
    /\ reads_R (tle_get_true_anomaly v 0) (c_nu (k_circ k)) (degrees (110 * k_ecc k ^ 4) + 1 / 2000).
Proof.
  intros H1 H2 H3 H4. destruct (kep_to_tle _ _ HP HE rc lazy k H1 (proj1 H2) H3 H4) as (v & t & n & E & En & R & _).
  destruct (period_of_altitude _ n v H2 En (ro_no _ _ _ _ _ _ _ R)) as (p & p' & P1 & P2 & P3). exists v, p, p'.
  repeat (split; [assumption|]). apply true_anomaly_read; [|apply R|apply R]. unfold kep_valid in H1. rewrite !andb_true_iff, Rleb_spec in H1. lra.
Qed.
Lemma circ_reads c : circ_valid c = true -> 0 <= c_alt c <= 36000000 -> in_window (c_epoch c) ->
  exists v p p', snd (to_tle (circ_conv (new_tle epoch export_tle) rc) rc lazy (mk_object c None)) = Ok v
    /\ get_orbit_period (c_alt c) = Ok p /\ tle_get_orbit_period v 0 = Ok p' /\ Rabs (IZR p' - IZR p) <= 2000.
Proof.
  intros H1 H2 H4. destruct (circ_to_tle _ _ HP HE rc lazy c H1 (proj1 H2) H4) as (v & t & n & E & En & R & _).
  destruct (period_of_altitude _ n v H2 En (ro_no _ _ _ _ _ _ _ R)) as (p & p' & P1 & P2 & P3). exists v, p, p'. repeat (split; [assumption|]). assumption.
Qed.
Lemma sso_reads sun s : sso_valid s = true -> in_window (s_epoch s) ->
  exists v p p', snd (to_tle (sso_conv (new_tle epoch export_tle) rc sun) rc lazy (mk_object s None)) = Ok v
    /\ get_orbit_period (s_alt s) = Ok p /\ tle_get_orbit_period v 0 = Ok p' /\ Rabs (IZR p' - IZR p) <= 2000.
Proof.
  intros H1 H4. destruct (sso_to_tle _ _ HP HE rc lazy sun s H1 H4) as (v & t & n & inc & E & En & _ & R & _).
  assert (H2 : 0 <= s_alt s <= 36000000) by (pose proof (sso_alt s H1); pose proof EMR_bounds; lra).
  destruct (period_of_altitude _ n v H2 En (ro_no _ _ _ _ _ _ _ R)) as (p & p' & P1 & P2 & P3). exists v, p, p'. repeat (split; [assumption|]). assumption.
Qed.
Lemma mol_reads m : mol_valid m = true -> 0 <= mol_eccentricity m <= 77 / 100 -> 865 <= m_period m <= 172800 -> in_window (c_epoch (m_circ m)) ->
  exists v p, snd (to_tle (mol_conv (new_tle epoch export_tle)) rc lazy (mk_object m None)) = Ok v
    /\ tle_get_orbit_period v 0 = Ok p /\ Rabs (IZR p - m_period m * 1000000) <= 2000
    /\ reads_R (tle_get_true_anomaly v 0) (c_nu (m_circ m)) (degrees (110 * mol_eccentricity m ^ 4) + 1 / 2000).
Proof.
  intros H1 H2 H3 H4. destruct (mol_to_tle _ _ HP HE rc lazy m H1 H2 (proj1 H3) H4) as (v & t & E & R & _).
  destruct (period_read v _ (ro_no _ _ _ _ _ _ _ R)) as (p & P1 & P2).
  { apply Rmult_le_reg_r with (m_period m); [lra|]. unfold Rdiv at 2. rewrite Rmult_assoc, Rinv_l by lra. lra. }
  exists v, p. split; [assumption|]. split; [assumption|]. split.
  - replace (m_period m * 1000000) with (IZR DAY_US / (86400 / m_period m)); [assumption|]. unfold DAY_US. field. lra.
  - apply true_anomaly_read; [assumption|apply R|apply R].
Qed.
End Orbits.
