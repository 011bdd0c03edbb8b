(** Proofs about orbit schemas. *)
From Coq Require Import Reals ZArith List Bool Lra Lia Psatz.
From Verif Require Import Base RBase RFacts Orbit_Model Anomaly_Proofs.
Import ListNotations.
Open Scope R_scope.

Lemma in_bound_spec b x : in_bound b x = true <-> 0 <= x < b.
Proof. unfold in_bound. rewrite andb_true_iff, Rleb_spec, Rltb_spec. reflexivity. Qed.
Lemma guard_ok_iff {A} c e (v w : A) : guard c e v = Ok w <-> c = true /\ w = v.
Proof. unfold guard. destruct c; split; intro H; try discriminate; try (destruct H; discriminate).
  - injection H as ->. auto.
  - destruct H as [_ ->]. reflexivity.
Qed.
Lemma circ_valid_spec c : circ_valid c = true <-> 0 <= c_nu c < 360 /\ 0 <= c_inc c < 180 /\ 0 <= c_raan c < 360.
Proof. unfold circ_valid. rewrite !andb_true_iff, !in_bound_spec. tauto. Qed.
Lemma kep_valid_spec k : kep_valid k = true <->
  circ_valid (k_circ k) = true /\ 0 <= k_ecc k /\ 0 <= k_argp k < 360.
Proof. unfold kep_valid. rewrite !andb_true_iff, in_bound_spec, Rleb_spec. tauto. Qed.

(** ** Derived orbits *)
Lemma circ_derived_lemma c dm dr : circ_valid c = true ->
  exists c', circ_derived c dm dr = Ok c' /\ circ_valid c' = true
    /\ c_alt c' = c_alt c /\ c_epoch c' = c_epoch c /\ c_inc c' = c_inc c
    /\ c_nu c' = rmod (c_nu c + dm) 360 /\ c_raan c' = rmod (c_raan c + dr) 360.
Proof.
  intro V. apply circ_valid_spec in V as (V1 & V2 & V3).
  unfold circ_derived, circ_mean_anomaly. rewrite t2m_zero, m2t_zero.
  set (c' := mk_circ _ _ _ _ _).
  assert (Vc : circ_valid c' = true).
  { apply circ_valid_spec. unfold c'. simpl. split; [apply rmod_range; lra|]. split; [assumption|apply rmod_range; lra]. }
  exists c'. unfold make_circular, guard. rewrite Vc. repeat split.
Qed.

Lemma sso_inclination_lemma s : sso_valid s = true ->
  exists i, sso_inclination s = Some i /\ 90 < i < 180.
Proof.
  unfold sso_valid. rewrite !andb_true_iff, !in_bound_spec. intros [[[_ HA] _] _].
  pose proof EMR_bounds as EB. unfold sso_inclination, np_arccos.
  set (x := (EARTH_MEAN_RADIUS + s_alt s) / 12352000).
  assert (Hx : 0 < x < 1).
  { unfold x. split; [apply Rdiv_lt_0_compat; lra|]. apply Rmult_lt_reg_r with 12352000; [lra|]. unfold Rdiv.
    rewrite Rmult_assoc, Rinv_l; lra. }
  assert (HP : 0 < Rpower x (7 / 2) < 1).
  { split; [apply exp_pos|]. unfold Rpower. rewrite <- exp_0. apply exp_increasing.
    assert (ln x < 0) by (rewrite <- ln_1; apply ln_increasing; lra). nra. }
  set (y := Rpower x (7 / 2)) in *.
  replace (Rleb (-1) (- y)) with true by (symmetry; apply Rleb_spec; lra).
  replace (Rleb (- y) 1) with true by (symmetry; apply Rleb_spec; lra). simpl.
  exists (degrees (acos (- y))). split; [reflexivity|].
  assert (B := acos_bound_lt (- y) ltac:(lra)).
  assert (A : PI / 2 < acos (- y)).
  { destruct (Rlt_dec (PI / 2) (acos (- y))) as [|N]; [assumption|exfalso].
    assert (0 <= cos (acos (- y))) by (apply cos_ge_0; lra). rewrite cos_acos in H by lra. lra. }
  rewrite <- degrees_PI2, <- degrees_PI. split; apply -> degrees_lt; [assumption|lra].
Qed.

Lemma acos_decr x y : -1 <= x -> x < y -> y <= 1 -> acos y < acos x.
Proof.
  intros H1 H2 H3. destruct (Rlt_dec (acos y) (acos x)) as [|N]; [assumption|exfalso].
  pose proof (acos_bound x). pose proof (acos_bound y).
  assert (cos (acos y) <= cos (acos x)).
  { destruct (Req_dec (acos x) (acos y)) as [E|E]; [rewrite E; lra|]. left. apply cos_decreasing_1; lra. }
  rewrite !cos_acos in H4 by lra. lra.
Qed.

Lemma sso_inclination_mono s1 s2 i1 i2 : sso_valid s1 = true -> sso_valid s2 = true ->
  s_alt s1 < s_alt s2 -> sso_inclination s1 = Some i1 -> sso_inclination s2 = Some i2 -> i1 < i2.
Proof.
  intros V1 V2 HA E1 E2.
  unfold sso_valid in V1, V2. rewrite !andb_true_iff, !in_bound_spec in V1, V2.
  destruct V1 as [[[_ A1] _] _]. destruct V2 as [[[_ A2] _] _].
  pose proof EMR_bounds as EB. unfold sso_inclination, np_arccos in E1, E2.
  set (x1 := (EARTH_MEAN_RADIUS + s_alt s1) / 12352000) in *.
  set (x2 := (EARTH_MEAN_RADIUS + s_alt s2) / 12352000) in *.
  assert (Hx : 0 < x1 < x2).
  { unfold x1, x2. split; [apply Rdiv_lt_0_compat; lra|]. apply Rmult_lt_compat_r; lra. }
  assert (HP : Rpower x1 (7 / 2) < Rpower x2 (7 / 2)) by (apply Rlt_Rpower_l; lra).
  destruct (Rleb (-1) (- Rpower x1 (7/2)) && Rleb (- Rpower x1 (7/2)) 1) eqn:B1; [|discriminate].
  destruct (Rleb (-1) (- Rpower x2 (7/2)) && Rleb (- Rpower x2 (7/2)) 1) eqn:B2; [|discriminate].
  apply andb_true_iff in B1 as [B1 B1']. apply andb_true_iff in B2 as [B2 B2']. apply Rleb_spec in B1, B1', B2, B2'.
  simpl in E1, E2. injection E1 as <-. injection E2 as <-. apply -> degrees_lt. apply acos_decr; lra.
Qed.

Lemma sso_derived_lemma sun s dm dr : sso_valid s = true ->
  exists c', sso_derived sun s dm dr = Ok c' /\ circ_valid c' = true
    /\ c_alt c' = s_alt s /\ c_epoch c' = s_epoch s /\ sso_inclination s = Some (c_inc c')
    /\ c_nu c' = rmod (s_nu s + dm) 360 /\ c_raan c' = rmod (sso_raan sun s + dr) 360.
Proof.
  intro V. destruct (sso_inclination_lemma s V) as (i & Ei & Bi). unfold sso_derived. rewrite Ei, t2m_zero, m2t_zero.
  set (c' := mk_circ _ _ _ _ _).
  assert (Vc : circ_valid c' = true).
  { apply circ_valid_spec. unfold c'. simpl. split; [apply rmod_range; lra|]. split; [lra|apply rmod_range; lra]. }
  exists c'. unfold make_circular, guard. rewrite Vc. repeat split.
Qed.

Lemma kep_derived_lemma k dm dr : kep_valid k = true -> k_ecc k <= 1 ->
  exists k', kep_derived k dm dr = Ok k' /\ kep_valid k' = true
    /\ c_alt (k_circ k') = c_alt (k_circ k) /\ c_epoch (k_circ k') = c_epoch (k_circ k)
    /\ c_inc (k_circ k') = c_inc (k_circ k) /\ k_ecc k' = k_ecc k /\ k_argp k' = k_argp k
    /\ c_nu (k_circ k') = mean_anomaly_to_true_anomaly (rmod (kep_mean_anomaly k + dm) 360) (k_ecc k)
    /\ c_raan (k_circ k') = rmod (c_raan (k_circ k) + dr) 360.
Proof.
  intros V He. apply kep_valid_spec in V as (V & V4 & V5). pose proof V as V'. apply circ_valid_spec in V' as (V1 & V2 & V3).
  unfold kep_derived. cbv zeta. set (k' := mk_kep _ _ _).
  assert (Vk : kep_valid k' = true).
  { apply kep_valid_spec. unfold k'. simpl. split; [|split; assumption]. apply circ_valid_spec. simpl.
    split; [apply m2t_range; [lra|apply rmod_range; lra]|]. split; [assumption|apply rmod_range; lra]. }
  exists k'. unfold make_keplerian, guard. rewrite Vk. repeat split.
Qed.

Lemma mol_derived_lemma m dm dr : mol_valid m = true -> 0 <= mol_eccentricity m <= 1 ->
  exists m', mol_derived m dm dr = Ok m' /\ mol_valid m' = true
    /\ c_alt (m_circ m') = c_alt (m_circ m) /\ c_epoch (m_circ m') = c_epoch (m_circ m)
    /\ c_inc (m_circ m') = c_inc (m_circ m) /\ m_ecc m' = m_ecc m /\ m_argp m' = m_argp m
    /\ c_raan (m_circ m') = rmod (c_raan (m_circ m) + dr) 360
    /\ c_nu (m_circ m') = mean_anomaly_to_true_anomaly (rmod (mol_mean_anomaly m + dm) 360) (mol_eccentricity m)
    /\ m_period m' = default_period m.
Proof.
  unfold mol_valid. rewrite !andb_true_iff, in_bound_spec, Rltb_spec. intros [[[V HP] Hw] HE] He.
  pose proof V as V'. apply circ_valid_spec in V' as (V1 & V2 & V3).
  unfold mol_derived. cbv zeta. set (m' := mk_mol _ _ _ _).
  assert (Vm : mol_valid m' = true).
  { unfold mol_valid. rewrite !andb_true_iff, in_bound_spec, Rltb_spec. unfold m'. simpl.
    split; [split; [split|]|]; auto.
    - apply circ_valid_spec. simpl. split; [apply m2t_range; [lra|apply rmod_range; lra]|]. split; [assumption|apply rmod_range; lra].
    - unfold default_period. destruct (m_ecc m); lra. }
  exists m'. unfold make_molniya, guard. rewrite Vm. unfold mol_valid in Vm. repeat split; try reflexivity. exact Vm.
Qed.

(** Circular orbits: exact shifts, identity, composition. *)
Lemma circ_compose_lemma c a b a' b' c1 : circ_valid c = true -> circ_derived c a b = Ok c1 ->
  circ_derived c 0 0 = Ok c
  /\ eqm 360 (circ_mean_anomaly c1) (circ_mean_anomaly c + a) /\ eqm 360 (c_raan c1) (c_raan c + b)
  /\ circ_derived c1 a' b' = circ_derived c (a + a') (b + b').
Proof.
  intros V E. pose proof V as V'. apply circ_valid_spec in V' as (V1 & V2 & V3).
  destruct (circ_derived_lemma c a b V) as (c2 & E2 & Vc & X1 & X2 & X3 & X4 & X5).
  rewrite E in E2. injection E2 as <-.
  split; [|split; [|split]].
  - unfold circ_derived, circ_mean_anomaly. rewrite t2m_zero, m2t_zero, !Rplus_0_r, !rmod_small by assumption.
    unfold make_circular, guard. destruct c; simpl in *. rewrite V. reflexivity.
  - unfold circ_mean_anomaly. rewrite !t2m_zero, X4. apply rmod_eqm.
  - rewrite X5. apply rmod_eqm.
  - unfold circ_derived, circ_mean_anomaly. rewrite !t2m_zero, !m2t_zero, X1, X2, X3, X4, X5.
    rewrite !rmod_add_l by lra. f_equal. f_equal; f_equal; lra.
Qed.

(** ** Period and mean motion *)
Lemma period_pos a : 0 < a -> 0 < 2 * PI / sqrt (EARTH_MU / a ^ 3).
Proof.
  intro Ha. apply Rdiv_lt_0_compat; [pose proof PI_RGT_0; lra|]. apply sqrt_lt_R0.
  apply Rdiv_lt_0_compat; [apply MU_pos|apply pow_lt; assumption].
Qed.
Lemma period_sq a : 0 < a -> (2 * PI / sqrt (EARTH_MU / a ^ 3)) ^ 2 * EARTH_MU = 4 * PI ^ 2 * a ^ 3.
Proof.
  intro Ha. assert (P3 : 0 < a ^ 3) by (apply pow_lt; assumption). pose proof MU_pos.
  assert (Q : 0 < EARTH_MU / a ^ 3) by (apply Rdiv_lt_0_compat; lra).
  assert (S : sqrt (EARTH_MU / a ^ 3) * sqrt (EARTH_MU / a ^ 3) = EARTH_MU / a ^ 3) by (apply sqrt_sqrt; lra).
  assert (SP := sqrt_lt_R0 _ Q). set (s := sqrt (EARTH_MU / a ^ 3)) in *.
  replace ((2 * PI / s) ^ 2) with (4 * PI ^ 2 / (s * s)) by (field; lra). rewrite S. field. split; lra.
Qed.
Lemma compute_period_some alt : - EARTH_MEAN_RADIUS < alt ->
  compute_orbit_period alt = Some (2 * PI / sqrt (EARTH_MU / (EARTH_MEAN_RADIUS + alt) ^ 3)).
Proof. intro H. unfold compute_orbit_period. replace (Rltb 0 (EARTH_MEAN_RADIUS + alt)) with true; [reflexivity|]. symmetry. apply Rltb_spec. lra. Qed.

Lemma period_law_lemma alt p : compute_orbit_period alt = Some p ->
  0 < p /\ p ^ 2 * EARTH_MU = 4 * PI ^ 2 * (EARTH_MEAN_RADIUS + alt) ^ 3.
Proof.
  unfold compute_orbit_period. destruct (Rltb 0 (EARTH_MEAN_RADIUS + alt)) eqn:E; [|discriminate].
  apply Rltb_spec in E. intros [= <-]. split; [now apply period_pos|now apply period_sq].
Qed.
Lemma period_defined_lemma alt : (exists p, compute_orbit_period alt = Some p) <-> - EARTH_MEAN_RADIUS < alt.
Proof.
  split.
  - intros [p E]. unfold compute_orbit_period in E. destruct (Rltb 0 (EARTH_MEAN_RADIUS + alt)) eqn:EE; [|discriminate].
    apply Rltb_spec in EE. lra.
  - intro H. eexists. now apply compute_period_some.
Qed.
Lemma period_mono_lemma a1 a2 p1 p2 : compute_orbit_period a1 = Some p1 -> compute_orbit_period a2 = Some p2 ->
  a1 < a2 -> p1 < p2.
Proof.
  intros E1 E2 H. destruct (period_law_lemma _ _ E1) as [P1 L1]. destruct (period_law_lemma _ _ E2) as [P2 L2].
  assert (D1 : - EARTH_MEAN_RADIUS < a1) by (apply period_defined_lemma; eauto).
  set (x := EARTH_MEAN_RADIUS + a1) in *. set (y := EARTH_MEAN_RADIUS + a2) in *.
  assert (0 < x < y) by (unfold x, y; lra).
  assert (x ^ 3 < y ^ 3) by (simpl; assert (x*x < y*y) by nra; nra).
  pose proof PI_RGT_0. pose proof MU_pos.
  assert (p1 ^ 2 < p2 ^ 2).
  { apply Rmult_lt_reg_r with EARTH_MU; [lra|]. rewrite L1, L2. apply Rmult_lt_compat_l; [|assumption]. simpl. nra. }
  destruct (Rlt_dec p1 p2); [assumption|exfalso]. simpl in H3. nra.
Qed.

(** Period bounds for non-negative altitudes. *)
Lemma PI_3 : 3 < PI. Proof. pose proof PI2_3_2. lra. Qed.
Lemma period_ge alt p : 0 <= alt -> compute_orbit_period alt = Some p -> (EARTH_MEAN_RADIUS + alt) <= 1320 * p /\ 4000 < p.
Proof.
  intros HA E. destruct (period_law_lemma _ _ E) as [P L]. pose proof EMR_bounds as EB. pose proof PI_3 as P3.
  set (a := EARTH_MEAN_RADIUS + alt) in *. assert (Ha : 6371008 < a) by (unfold a; lra).
  assert (LB : 36 * (a ^ 3) <= p ^ 2 * EARTH_MU).
  { rewrite L. apply Rmult_le_compat_r; [apply pow_le; lra|]. simpl. nra. }
  assert (A : a <= 1320 * p).
  { destruct (Rle_dec a (1320 * p)) as [|N]; [assumption|exfalso]. assert (Q : 1320 * p < a) by lra.
    assert ((1320 * p) * (1320 * p) < a * a) by nra.
    assert (F : 36 * (a * a * a) <= p * p * EARTH_MU) by (simpl in LB; lra).
    unfold EARTH_MU in F.
    assert (a * a * 6371008 <= a * a * a) by nra. nra. }
  split; [assumption|]. lra.
Qed.

Lemma orbit_period_lemma alt : - EARTH_MEAN_RADIUS < alt ->
  exists p us, compute_orbit_period alt = Some p /\ get_orbit_period alt = Ok us /\ Rabs (IZR us - p * 1000000) <= 1 / 2.
Proof.
  intro H. exists (2 * PI / sqrt (EARTH_MU / (EARTH_MEAN_RADIUS + alt) ^ 3)).
  unfold get_orbit_period. rewrite (compute_period_some _ H). eexists. split; [reflexivity|]. split; [reflexivity|].
  unfold timedelta_seconds. apply Rabs_le. pose proof (rhe_bounds (2 * PI / sqrt (EARTH_MU / (EARTH_MEAN_RADIUS + alt) ^ 3) * 1000000)). lra.
Qed.
Lemma orbit_period_mono a1 a2 u1 u2 : get_orbit_period a1 = Ok u1 -> get_orbit_period a2 = Ok u2 -> a1 <= a2 -> (u1 <= u2)%Z.
Proof.
  unfold get_orbit_period. destruct (compute_orbit_period a1) as [p1|] eqn:E1; [|discriminate].
  destruct (compute_orbit_period a2) as [p2|] eqn:E2; [|discriminate]. intros [= <-] [= <-] H.
  apply rhe_mono. apply Rmult_le_compat_r; [lra|].
  destruct H as [H|H]; [left; eapply period_mono_lemma; eassumption|]. subst. rewrite E1 in E2. injection E2 as ->. lra.
Qed.

Lemma mean_motion_lemma alt n : get_mean_motion alt = Ok n ->
  exists us, get_orbit_period alt = Ok us /\ n * (IZR us / IZR DAY_US) = 1.
Proof.
  unfold get_mean_motion. destruct (get_orbit_period alt) as [us|e] eqn:E; [|discriminate]. simpl.
  destruct (Z.eqb_spec us 0) as [Z0|NZ]; [discriminate|]. intros [= <-]. exists us. split; [reflexivity|].
  assert (IZR us <> 0) by (intro H; apply NZ; now apply eq_IZR). unfold DAY_US. field. assumption.
Qed.
Lemma mean_motion_defined alt : 0 <= alt -> exists n, get_mean_motion alt = Ok n /\ 0 < n.
Proof.
  intro H. pose proof EMR_bounds. destruct (orbit_period_lemma alt ltac:(lra)) as (p & us & E1 & E2 & B).
  destruct (period_ge alt p H E1) as [_ PG].
  assert (U : 1 < IZR us). { unfold Rabs in B. destruct (Rcase_abs _) in B; lra. }
  unfold get_mean_motion. rewrite E2. simpl.
  destruct (Z.eqb_spec us 0) as [->|_]; [lra|]. eexists. split; [reflexivity|].
  unfold DAY_US. apply Rdiv_lt_0_compat; [lra|]. apply Rdiv_lt_0_compat; lra.
Qed.

(** Cube root of a cube. *)
Lemma Rpower_cube a : 0 < a -> Rpower (a ^ 3) (1 / 3) = a.
Proof.
  intro H. rewrite <- (Rpower_pow 3 a H), Rpower_mult. replace (INR 3 * (1 / 3)) with 1 by (simpl; lra).
  now apply Rpower_1.
Qed.
Lemma Rpower_third_cube x : 0 < x -> Rpower x (1 / 3) ^ 3 = x.
Proof.
  intro H. rewrite <- Rpower_pow by apply exp_pos. rewrite Rpower_mult. replace (1 / 3 * INR 3) with 1 by (simpl; lra).
  now apply Rpower_1.
Qed.

(** The semimajor axis of a TLE written with the mean motion of a circular orbit. *)
Lemma tle_semimajor_cube n : 0 < n -> tle_semimajor n ^ 3 = EARTH_MU / (n * 2 * PI / 86400) ^ 2 /\ 0 < tle_semimajor n.
Proof.
  intro H. unfold tle_semimajor. split; [|apply exp_pos]. apply Rpower_third_cube.
  apply Rdiv_lt_0_compat; [apply MU_pos|]. apply pow_lt. pose proof PI_RGT_0. nra.
Qed.

Lemma altitude_recovered_lemma alt n : 0 <= alt -> get_mean_motion alt = Ok n ->
  Rabs (tle_altitude n - alt) <= / 1000.
Proof.
  intros HA E. destruct (mean_motion_defined alt HA) as (n' & En & Hn). rewrite E in En. injection En as <-.
  destruct (mean_motion_lemma alt n E) as (us & Eu & Hu).
  pose proof EMR_bounds as EB. destruct (orbit_period_lemma alt ltac:(lra)) as (p & us' & E1 & E2 & B).
  rewrite Eu in E2. injection E2 as <-. destruct (period_ge alt p HA E1) as [PG P4]. destruct (period_law_lemma _ _ E1) as [_ L].
  destruct (tle_semimajor_cube n Hn) as [C A']. unfold tle_altitude.
  set (a' := tle_semimajor n) in *. set (a := EARTH_MEAN_RADIUS + alt) in *.
  set (ps := IZR us / 1000000).
  assert (Bp : p - / 2000000 <= ps <= p + / 2000000).
  { unfold ps. unfold Rabs in B. destruct (Rcase_abs _) in B; lra. }
  assert (Nps : n = 86400 / ps).
  { unfold ps. unfold DAY_US in Hu. assert (IZR us <> 0) by (intro Z0; rewrite Z0 in Hu; lra).
    apply Rmult_eq_reg_r with (IZR us / 86400000000); [|unfold Rdiv; intro Z0; apply H; lra].
    rewrite Hu. field. assumption. }
  assert (Q : 0 < ps) by lra.
  assert (C2 : a' ^ 3 * (4 * PI ^ 2) = EARTH_MU * ps ^ 2).
  { rewrite C, Nps. pose proof PI_RGT_0. field. split; lra. }
  (* a'^3 / a^3 = (ps/p)^2 *)
  assert (K : a' ^ 3 * p ^ 2 = a ^ 3 * ps ^ 2).
  { pose proof PI_RGT_0. pose proof MU_pos. apply Rmult_eq_reg_r with (4 * PI ^ 2 * EARTH_MU); [|apply Rgt_not_eq; apply Rmult_lt_0_compat; [simpl; nra|lra]].
    transitivity ((a' ^ 3 * (4 * PI ^ 2)) * (p ^ 2 * EARTH_MU)); [ring|]. rewrite C2, L. ring. }
  assert (Ha : 0 < a) by (unfold a; lra).
  replace (a' - EARTH_MEAN_RADIUS - alt) with (a' - a) by (unfold a; lra).
  assert (D : Rabs (a' - a) * p <= a * Rabs (ps - p)).
  { set (x := a' / a). set (y := ps / p).
    assert (Ex : a' = x * a) by (unfold x; field; lra). assert (Ey : ps = y * p) by (unfold y; field; lra).
    assert (X0 : 0 < x) by (unfold x; apply Rdiv_lt_0_compat; lra).
    assert (Y0 : 0 < y) by (unfold y; apply Rdiv_lt_0_compat; lra).
    assert (XY : x ^ 3 = y ^ 2).
    { apply Rmult_eq_reg_r with (a ^ 3 * p ^ 2); [|apply Rgt_not_eq; apply Rmult_lt_0_compat; apply pow_lt; lra].
      rewrite Ex, Ey in K. lra. }
    assert (Z : Rabs (x - 1) <= Rabs (y - 1)).
    { simpl in XY. destruct (Rle_dec 1 x) as [G|G].
      - assert (x <= y) by (destruct (Rle_dec x y); [assumption|exfalso; nra]).
        rewrite !Rabs_pos_eq by lra. lra.
      - assert (y <= x) by (destruct (Rle_dec y x); [assumption|exfalso; nra]).
        rewrite !Rabs_left1 by lra. lra. }
    rewrite Ex, Ey. replace (x * a - a) with ((x - 1) * a) by ring. replace (y * p - p) with ((y - 1) * p) by ring.
    rewrite !Rabs_mult, (Rabs_pos_eq a), (Rabs_pos_eq p) by lra.
    apply Rmult_le_compat_r with (r := a * p) in Z; [lra|]. nra. }
  assert (F : Rabs (ps - p) <= / 2000000) by (apply Rabs_le; lra).
  apply Rmult_le_reg_r with p; [lra|]. eapply Rle_trans; [exact D|].
  apply Rle_trans with ((1320 * p) * / 2000000); [apply Rmult_le_compat; [lra|apply Rabs_pos|assumption|assumption]|]. lra.
Qed.

(** TLE accessors. *)
Lemma tle_period_lemma n : 0 < n -> Rabs (IZR (tle_orbit_period n) * n - IZR DAY_US) <= n / 2.
Proof.
  intro H. unfold tle_orbit_period. pose proof (rhe_bounds (1 / n * IZR DAY_US)) as B. set (r := round_half_even _) in *.
  replace (IZR r * n - IZR DAY_US) with ((IZR r - 1 / n * IZR DAY_US) * n) by (field; lra).
  rewrite Rabs_mult, (Rabs_pos_eq n) by lra. replace (n / 2) with (1 / 2 * n) by lra. apply Rmult_le_compat_r; [lra|].
  apply Rabs_le. lra.
Qed.

(** ** Sun-synchronous node *)
Lemma sso_raan_lemma sun s :
  0 <= sso_raan sun s < 360
  /\ eqm 360 (sso_raan sun s)
       (sun (s_epoch s) + 15 * (IZR (s_ect s) / 3600000000 - 12) + (if s_asc s then 0 else 180)).
Proof.
  unfold sso_raan. split; [apply rmod_range; lra|]. eapply eqm_trans; [apply rmod_eqm|].
  unfold DAY_US. destruct (s_asc s); [exists 1%Z|exists 0%Z]; simpl; lra.
Qed.

(** ** Molniya *)
Lemma mol_semimajor_pos m : 0 < mol_semimajor m. Proof. apply exp_pos. Qed.
Lemma mol_geometry_lemma m : m_ecc m = None -> 0 < m_period m ->
  let a := mol_semimajor m in let e := mol_eccentricity m in
  let rp := EARTH_EQUATORIAL_RADIUS + c_alt (m_circ m) in
  a * (1 - e) = rp
  /\ (e < 1 <-> 0 < rp) /\ (0 <= e <-> rp <= a)
  /\ a ^ 3 * (4 * PI ^ 2) = GM * m_period m ^ 2
  /\ e_no (mol_elset m) * (m_period m / 60) = 2 * PI.
Proof.
  intros HE HP. cbv zeta. pose proof (mol_semimajor_pos m) as Ha.
  assert (Ee : mol_eccentricity m = 1 - (EARTH_EQUATORIAL_RADIUS + c_alt (m_circ m)) / mol_semimajor m).
  { unfold mol_eccentricity. rewrite HE. field. lra. }
  rewrite Ee. set (a := mol_semimajor m) in *. set (rp := EARTH_EQUATORIAL_RADIUS + c_alt (m_circ m)).
  split; [field; lra|]. split; [|split; [|split]].
  - split; intro H.
    + assert (0 < rp / a) by lra. apply Rmult_lt_compat_r with (r := a) in H0; [|lra]. unfold Rdiv in H0. rewrite Rmult_assoc, Rinv_l in H0; lra.
    + assert (0 < rp / a) by (apply Rdiv_lt_0_compat; lra). lra.
  - split; intro H.
    + assert (rp / a <= 1) by lra. apply Rmult_le_compat_r with (r := a) in H0; [|lra]. unfold Rdiv in H0. rewrite Rmult_assoc, Rinv_l in H0; lra.
    + assert (rp / a <= 1); [|lra]. apply Rmult_le_reg_r with a; [lra|]. unfold Rdiv. rewrite Rmult_assoc, Rinv_l; lra.
  - unfold a, mol_semimajor. pose proof PI_RGT_0. rewrite Rpower_third_cube.
    + field. lra.
    + apply Rdiv_lt_0_compat; [|simpl; nra]. unfold GM. simpl. nra.
  - unfold mol_elset. simpl. field. lra.
Qed.

Lemma mol_no_lemma m : 0 < m_period m -> e_no (mol_elset m) * (m_period m / 60) = 2 * PI.
Proof. intro H. unfold mol_elset. simpl. field. lra. Qed.
