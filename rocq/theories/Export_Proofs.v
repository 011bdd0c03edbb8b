(** Proofs about conversions between orbits and two-line elements. *)
From Coq Require Import String ZArith QArith Reals Qreals List Bool Lra Lia Psatz Sorting.Sorted.
From Verif Require Import Base BaseFacts RBase RFacts Tle_Model Tle_Spec Tle_Proofs Tle_Proofs2 Orbit_Model Orbit_Spec Anomaly_Proofs AnomalyRound_Proofs
  AnomalyMean_Proofs Orbit_Proofs Orbit_Proofs2 Export_Model Export_Spec.
Import ListNotations.
Open Scope R_scope.

(** ** Ranges of element sets (C150) *)
Lemma radians_range b x : 0 <= x < b -> 0 <= radians x < radians b.
Proof. intros [L U]. split; [|apply -> radians_lt; assumption]. unfold radians. pose proof PI_RGT_0. nra. Qed.
Lemma mean_motion_range alt : 0 <= alt -> exists n, Orbit_Model.get_mean_motion alt = Ok n /\ 0 < n < 22.
Proof.
  intro H. destruct (mean_motion_defined alt H) as (n & E & P). exists n. split; [assumption|]. split; [assumption|].
  destruct (mean_motion_lemma alt n E) as (us & Eu & Hn). unfold DAY_US in Hn.
  assert (HA : - EARTH_MEAN_RADIUS < alt) by (unfold EARTH_MEAN_RADIUS, EARTH_EQUATORIAL_RADIUS, EARTH_POLAR_RADIUS; lra).
  destruct (orbit_period_lemma alt HA) as (p & us' & Ep & Eu' & Hp). rewrite Eu in Eu'. injection Eu' as <-.
  destruct (period_ge alt p H Ep) as [_ G]. 
  assert (B : 3999000000 <= IZR us) by (unfold Rabs in Hp; destruct (Rcase_abs _) in Hp; lra).
  destruct (Rlt_dec n 22) as [|N]; [assumption|exfalso]. assert (22 * 3999000000 <= n * IZR us) by (apply Rmult_le_compat; lra). lra.
Qed.
Lemma rev_motion n : rev_per_day 1 (n * 2 * PI / 1440) = n.
Proof. unfold rev_per_day. pose proof PI_RGT_0. field. lra. Qed.
Lemma kep_usable k : kep_valid k = true -> 0 <= c_alt (k_circ k) -> k_ecc k <= 77 / 100 ->
  exists s, kep_elset k = Ok s /\ usable s.
Proof.
  intros V HA HE. apply kep_valid_spec in V as (C & E0 & A). apply circ_valid_spec in C as (N & I & Ra).
  destruct (mean_motion_range _ HA) as (n & En & Hn). unfold kep_elset. rewrite En. cbn [bind]. eexists. split; [reflexivity|].
  unfold usable. cbn [e_ecc e_inc e_argp e_mo e_node e_no]. pose proof PI_RGT_0.
  pose proof (radians_range 180 _ I) as RI. pose proof (radians_range 360 _ A) as RA'. pose proof (radians_range 360 _ Ra) as RR.
  pose proof (radians_range 360 _ (t2m_range (k_ecc k) _ ltac:(lra) N)) as RM. unfold kep_mean_anomaly.
  rewrite radians_180 in RI. rewrite radians_360 in *. repeat split; try lra. nra.
Qed.
Lemma mol_usable m : mol_valid m = true -> 0 <= mol_eccentricity m <= 77 / 100 -> usable (mol_elset m).
Proof.
  intros V HE. unfold mol_valid in V. apply andb_true_iff in V as [V _]. apply andb_true_iff in V as [V A]. apply andb_true_iff in V as [C P].
  apply circ_valid_spec in C as (N & I & Ra). apply in_bound_spec in A. apply Rltb_spec in P.
  unfold usable, mol_elset. cbn [e_ecc e_inc e_argp e_mo e_node e_no]. pose proof PI_RGT_0.
  pose proof (radians_range 180 _ I) as RI. pose proof (radians_range 360 _ A) as RA'. pose proof (radians_range 360 _ Ra) as RR.
  pose proof (radians_range 360 _ (t2m_range _ _ HE N)) as RM. unfold mol_mean_anomaly.
  rewrite radians_180 in RI. rewrite radians_360 in *.
  assert (0 < 2 * PI / (m_period m / 60)) by (apply Rdiv_lt_0_compat; lra). repeat split; lra.
Qed.
Lemma fresh_conv {T} (ex : elset -> pyres T) rc k : kep_valid k = true ->
  bind (make_keplerian k) (fun k => snd (to_tle (kep_conv ex) rc None (mk_object k None))) = bind (kep_elset k) ex.
Proof.
  intro V. unfold make_keplerian, Orbit_Model.guard. rewrite V. cbn [bind]. unfold to_tle. cbn [fields tle_cache].
  replace (if rc then None else None) with (@None T) by (destruct rc; reflexivity). unfold kep_conv. destruct (bind (kep_elset k) ex); reflexivity.
Qed.
Lemma circ_kep c : circ_valid c = true -> kep_valid (mk_kep c 0 0) = true.
Proof. intro V. apply kep_valid_spec. simpl. split; [assumption|lra]. Qed.
Lemma circ_conv_usable c : circ_valid c = true -> 0 <= c_alt c ->
  exists s, usable s /\ kep_elset (mk_kep c 0 0) = Ok s /\ forall T (ex : elset -> pyres T) rc, circ_conv ex rc c = ex s.
Proof.
  intros V HA. destruct (kep_usable (mk_kep c 0 0) (circ_kep c V)) as (s & E & U); [exact HA|simpl; lra|].
  exists s. split; [assumption|]. split; [assumption|]. intros T ex rc. unfold circ_conv. rewrite fresh_conv by now apply circ_kep. now rewrite E.
Qed.
Lemma sso_kep sun s : sso_valid s = true -> exists inc, sso_inclination s = Some inc /\ 90 < inc < 180
  /\ kep_valid (mk_kep (mk_circ (s_alt s) (s_nu s) (s_epoch s) inc (sso_raan sun s)) 0 0) = true.
Proof.
  intro V. destruct (sso_inclination_lemma s V) as (inc & E & I). exists inc. split; [assumption|]. split; [assumption|].
  apply circ_kep. apply circ_valid_spec. cbn [c_nu c_inc c_raan]. unfold sso_valid in V.
  apply andb_true_iff in V as [V _]. apply andb_true_iff in V as [V _]. apply andb_true_iff in V as [V _]. apply in_bound_spec in V.
  pose proof (proj1 (sso_node_lemma sun s)). lra.
Qed.
Lemma sso_alt s : sso_valid s = true -> 0 <= s_alt s < 12352000 - EARTH_MEAN_RADIUS.
Proof. intro V. unfold sso_valid in V. apply andb_true_iff in V as [V _]. apply andb_true_iff in V as [V _]. apply andb_true_iff in V as [_ V]. now apply in_bound_spec in V. Qed.
Lemma sso_conv_usable sun s : sso_valid s = true ->
  exists inc e, sso_inclination s = Some inc /\ 90 < inc < 180 /\ usable e
   /\ kep_elset (mk_kep (mk_circ (s_alt s) (s_nu s) (s_epoch s) inc (sso_raan sun s)) 0 0) = Ok e
   /\ forall T (ex : elset -> pyres T) rc, sso_conv ex rc sun s = ex e.
Proof.
  intro V. destruct (sso_kep sun s V) as (inc & Ei & I & K). destruct (kep_usable _ K) as (e & E & U); [exact (proj1 (sso_alt s V))|simpl; lra|].
  exists inc, e. repeat (split; [assumption|]). intros T ex rc. unfold sso_conv. rewrite Ei, fresh_conv by assumption. now rewrite E.
Qed.
(** Refutations. *)
Definition kep_far : keplerian := mk_kep (mk_circ 400000 120 0 51 0) (96 / 100) 0.
Lemma kep_far_valid : kep_valid kep_far = true.
Proof. apply kep_valid_spec. cbn. split; [apply circ_valid_spec; cbn; lra|lra]. Qed.
Lemma negative_anomaly : exists k s, kep_valid k = true /\ k_ecc k < 1 /\ 0 <= c_alt (k_circ k) /\ kep_elset k = Ok s /\ e_mo s < 0.
Proof.
  destruct (mean_motion_range 400000 ltac:(lra)) as (n & En & _). exists kep_far. eexists. split; [apply kep_far_valid|]. split; [cbn; lra|]. split; [cbn; lra|].
  unfold kep_elset, kep_far. cbn [k_circ c_alt]. rewrite En. cbn [bind]. split; [reflexivity|]. cbn [e_mo]. unfold kep_mean_anomaly. cbn [k_circ c_nu k_ecc].
  pose proof t2m_negative as N. unfold radians. pose proof PI_RGT_0. nra.
Qed.
Lemma open_orbit : exists k s, kep_valid k = true /\ 0 <= c_alt (k_circ k) /\ kep_elset k = Ok s /\ 1 < e_ecc s.
Proof.
  destruct (mean_motion_range 400000 ltac:(lra)) as (n & En & _). exists (mk_kep circ_a 2 0). eexists. split; [apply kep_valid_spec; cbn; split; [apply circ_a_valid|lra]|].
  split; [cbn; lra|]. unfold kep_elset. cbn [k_circ c_alt circ_a]. rewrite En. cbn [bind]. split; [reflexivity|]. cbn. lra.
Qed.
Lemma underground : exists c, circ_valid c = true /\ forall T (ex : elset -> pyres T) rc, circ_conv ex rc c = Raise ValueError.
Proof.
  exists (mk_circ (-7000000) 0 0 51 0). split; [apply circ_valid_spec; cbn; lra|]. intros T ex rc. unfold circ_conv.
  rewrite fresh_conv by (apply circ_kep, circ_valid_spec; cbn; lra). unfold kep_elset. cbn [k_circ c_alt].
  unfold Orbit_Model.get_mean_motion, get_orbit_period, compute_orbit_period.
  replace (Rltb 0 (EARTH_MEAN_RADIUS + -7000000)) with false; [reflexivity|]. symmetry. apply Rltb_false.
  unfold EARTH_MEAN_RADIUS, EARTH_EQUATORIAL_RADIUS, EARTH_POLAR_RADIUS. lra.
Qed.
(** A Molniya orbit whose lowest point is given above its semimajor axis. *)
Definition mol_high : molniya := mk_mol (mk_circ 100000000 0 0 63 0) 43080 270 None.
Lemma mol_high_valid : mol_valid mol_high = true.
Proof.
  unfold mol_valid, mol_high. cbn [m_circ m_period m_argp m_ecc]. rewrite !andb_true_iff. repeat split; auto.
  - apply circ_valid_spec; cbn; lra. - apply Rltb_spec; lra. - apply in_bound_spec; lra.
Qed.
Lemma negative_eccentricity : exists m, mol_valid m = true /\ e_ecc (mol_elset m) < 0.
Proof.
  exists mol_high. split; [apply mol_high_valid|]. change (e_ecc (mol_elset mol_high)) with (mol_eccentricity mol_high).
  destruct (mol_geometry_lemma mol_high eq_refl ltac:(cbn; lra)) as (_ & _ & G & A & _).
  destruct (Rlt_dec (mol_eccentricity mol_high) 0) as [|N]; [assumption|exfalso].
  apply Rnot_lt_le in N. apply G in N. cbn [m_circ c_alt mol_high] in N.
  set (a := mol_semimajor mol_high) in *. assert (B : 100000000 <= a) by (unfold EARTH_EQUATORIAL_RADIUS in N; lra).
  assert (C : 100000000 ^ 3 <= a ^ 3) by (apply pow_incr; lra). unfold GM in A. cbn [m_period mol_high] in A.
  pose proof PI_RGT_0. pose proof PI_small. assert (9 < PI ^ 2) by (pose proof PI2_3_2; unfold PI2 in *; nra).
  assert (100000000 ^ 3 * (4 * 9) <= a ^ 3 * (4 * PI ^ 2)) by (apply Rmult_le_compat; lra). lra.
Qed.
