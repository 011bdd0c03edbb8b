(** Proofs about orbit conversion caches, TLE perturbation, Molniya periods. *)
From Coq Require Import Reals ZArith List Bool Lra Lia Psatz.
From Verif Require Import Base RBase RFacts Orbit_Model Orbit_Spec Anomaly_Proofs AnomalyRound_Proofs Orbit_Proofs.
Import ListNotations.
Open Scope R_scope.

Lemma eqm_degrees x y : eqm 360 x y -> same_degrees x y.
Proof. intros [k E]. exists k. lra. Qed.
Lemma eqm_radians x y : eqm (2 * PI) x y -> same_radians x y.
Proof. intros [k E]. exists k. lra. Qed.

(** ** History of one object *)
Section Hist.
Context {F T : Type}.
Variable conv : F -> pyres T.
Variable rc : bool.

Lemma hist_nonlazy h : forall f c, Forall (never_lazy rc) h ->
  run_obj conv rc (mk_object f c) (map as_action h) = current_answers conv f h.
Proof.
  induction h as [|[g|lz] h IH]; intros f c HF; simpl; auto; inversion HF as [|x y H1 H2]; subst.
  - apply IH. assumption.
  - unfold to_tle. simpl. simpl in H1.
    replace (if match lz with Some b => b | None => rc end then c else None) with (@None T)
      by (destruct lz as [[|]|]; simpl in H1; subst; try discriminate; reflexivity).
    destruct (conv f) as [t|e]; simpl; f_equal; now apply IH.
Qed.
Lemma hist_nowrite h : forall f c, (c = None \/ exists t, c = Some t /\ conv f = Ok t) ->
  Forall (fun x : F + option bool => match x with inl g => g = f | inr _ => True end) h ->
  run_obj conv rc (mk_object f c) (map as_action h) = current_answers conv f h.
Proof.
  induction h as [|[g|lz] h IH]; intros f c HC HF; simpl; auto; inversion HF as [|x y H1 H2]; subst.
  - apply IH; assumption.
  - unfold to_tle. simpl. destruct (match lz with Some b => b | None => rc end).
    + destruct HC as [->|(t & -> & E)].
      * destruct (conv f) as [t|e] eqn:E; simpl; f_equal; apply IH; auto; right; eauto.
      * simpl. rewrite E. f_equal. apply IH; auto. right; eauto.
    + destruct (conv f) as [t|e] eqn:E; simpl; f_equal; apply IH; auto; [right; exists t; auto|]. destruct HC as [HC|(t & _ & X)]; [auto|discriminate].
Qed.
Lemma stale_lemma f g t : conv f = Ok t ->
  run_obj conv rc (mk_object f None) [ToTle (Some true); SetFields g; ToTle (Some true)] = [Ok t; Ok t].
Proof. intro E. simpl. unfold to_tle. simpl. rewrite E. reflexivity. Qed.
End Hist.

Lemma circ_conv_eq {T} (ex : elset -> pyres T) rc c : circ_valid c = true -> 0 <= c_alt c ->
  exists n, get_mean_motion (c_alt c) = Ok n /\ 0 < n /\
    circ_conv ex rc c = ex (mk_elset (IZR (c_epoch c) / IZR DAY_US) 0 0 0 0 (radians 0) (radians (c_inc c))
          (radians (c_nu c)) (n * 2 * PI / 1440) (radians (c_raan c))).
Proof.
  intros V HA. destruct (mean_motion_defined _ HA) as (n & En & Hn). exists n. split; [assumption|]. split; [assumption|].
  unfold circ_conv, make_keplerian, guard.
  replace (kep_valid (mk_kep c 0 0)) with true by (symmetry; apply kep_valid_spec; simpl; split; [assumption|lra]).
  cbn [bind]. unfold to_tle. cbn [fields tle_cache].
  replace (if rc then None else None) with (@None T) by (destruct rc; reflexivity).
  unfold kep_conv, kep_elset. cbn [k_circ]. rewrite En. cbn [bind k_ecc k_argp]. unfold kep_mean_anomaly. cbn [k_circ k_ecc]. rewrite t2m_zero.
  destruct (ex _); reflexivity.
Qed.

Definition circ_a : circular := mk_circ 400000 0 0 51 0.
Definition circ_b : circular := mk_circ 400000 0 0 51 10.
Lemma circ_a_valid : circ_valid circ_a = true. Proof. apply circ_valid_spec; simpl; lra. Qed.
Lemma circ_b_valid : circ_valid circ_b = true. Proof. apply circ_valid_spec; simpl; lra. Qed.
Lemma stale_circ_lemma : exists (ex : elset -> pyres elset) (c1 c2 : circular),
  circ_valid c1 = true /\ circ_valid c2 = true /\
  run_obj (circ_conv ex true) true (mk_object c1 None) (map as_action [inr None; inl c2; inr None])
    <> current_answers (circ_conv ex true) c1 [inr (@None bool); inl c2; inr None].
Proof.
  exists (@Ok elset), circ_a, circ_b. split; [apply circ_a_valid|]. split; [apply circ_b_valid|].
  destruct (circ_conv_eq (@Ok elset) true circ_a circ_a_valid ltac:(simpl; lra)) as (n & _ & _ & E).
  destruct (circ_conv_eq (@Ok elset) true circ_b circ_b_valid ltac:(simpl; lra)) as (n' & _ & _ & E').
  cbn [map as_action run_obj current_answers]. unfold to_tle. cbn [fields tle_cache]. rewrite E.
  cbn [fields tle_cache fst snd]. rewrite E'. intro H. injection H as _ H.
  apply (f_equal degrees) in H. rewrite !degrees_radians in H. simpl in H. lra.
Qed.

(** ** TLE perturbation *)
Lemma tle_derived_lemma l dm dr : let l' := tle_derived l dm dr in
  length l' = length l /\
  forall i s, nth_error l i = Some s -> exists s', nth_error l' i = Some s'
    /\ e_epoch s' = e_epoch s /\ e_bstar s' = e_bstar s /\ e_ndot s' = e_ndot s /\ e_nddot s' = e_nddot s
    /\ e_ecc s' = e_ecc s /\ e_argp s' = e_argp s /\ e_inc s' = e_inc s /\ e_no s' = e_no s
    /\ 0 <= e_mo s' < 2 * PI /\ same_radians (e_mo s') (e_mo s + radians dm)
    /\ 0 <= e_node s' < 2 * PI /\ same_radians (e_node s') (e_node s + radians dr).
Proof.
  cbv zeta. unfold tle_derived. rewrite map_length. split; [reflexivity|]. intros i s E.
  rewrite nth_error_map, E. simpl. eexists. split; [reflexivity|]. simpl.
  pose proof PI_RGT_0. repeat (split; [reflexivity|]).
  split; [apply rmod_range; lra|]. split; [apply eqm_radians, rmod_eqm|].
  split; [apply rmod_range; lra|apply eqm_radians, rmod_eqm].
Qed.
Lemma tle_derived_compose_lemma l a b a' b' :
  tle_derived (tle_derived l a b) a' b' = tle_derived l (a + a') (b + b').
Proof.
  unfold tle_derived. rewrite map_map. apply map_ext. intro s. simpl. pose proof PI_RGT_0.
  rewrite !rmod_add_l by lra. rewrite !radians_plus. f_equal; f_equal; lra.
Qed.

(** ** Keplerian: zero perturbation *)
Lemma kep_zero_lemma k : kep_valid k = true -> k_ecc k <= 1 ->
  exists k', kep_derived k 0 0 = Ok k' /\ c_raan (k_circ k') = c_raan (k_circ k)
    /\ exists w : Z, Rabs (c_nu (k_circ k') - (c_nu (k_circ k) + 360 * IZR w)) <= degrees (110 * k_ecc k ^ 4).
Proof.
  intros V He. destruct (kep_derived_lemma k 0 0 V He) as (k' & E & _ & _ & _ & _ & _ & _ & N & R0).
  exists k'. split; [assumption|]. apply kep_valid_spec in V as (V & V4 & _). apply circ_valid_spec in V as (V1 & V2 & V3).
  split; [rewrite R0, Rplus_0_r; now apply rmod_small|].
  destruct (rmod_eqm (kep_mean_anomaly k + 0) 360) as [w W]. exists w.
  rewrite N, W. replace (kep_mean_anomaly k + 0 + IZR w * 360) with (kep_mean_anomaly k + 360 * IZR w) by lra.
  destruct (anomaly_laws_lemma (k_ecc k) (kep_mean_anomaly k) w) as (_ & _ & _ & _ & L & _). rewrite L.
  pose proof (round_trip_lemma (k_ecc k) (c_nu (k_circ k)) ltac:(lra)) as RT. unfold kep_mean_anomaly in *.
  eapply Rle_trans; [|exact RT]. right. f_equal. lra.
Qed.

(** ** Molniya *)
Definition mol_a : molniya := mk_mol (mk_circ 400000 0 0 63 0) 10000 270 None.
Lemma mol_a_valid : mol_valid mol_a = true.
Proof.
  unfold mol_valid. rewrite !andb_true_iff, in_bound_spec, Rltb_spec. simpl. split; [split; [split|]|]; auto; try lra.
  apply circ_valid_spec; simpl; lra.
Qed.
(** Bounds 0 <= e <= 1 when the perigee radius is between 0 and the semimajor axis. *)
Lemma mol_ecc_bounds m : m_ecc m = None -> 0 < m_period m ->
  0 <= EARTH_EQUATORIAL_RADIUS + c_alt (m_circ m) <= mol_semimajor m -> 0 <= mol_eccentricity m <= 1.
Proof.
  intros H HP [L U]. destruct (mol_geometry_lemma m H HP) as (G & _ & [_ G3] & _ & _).
  split; [now apply G3|]. pose proof (mol_semimajor_pos m). 
  assert (0 <= mol_semimajor m * (1 - mol_eccentricity m)) by lra.
  destruct (Rle_dec (mol_eccentricity m) 1); [assumption|exfalso]. nra.
Qed.
Lemma mol_a_ecc : 0 <= mol_eccentricity mol_a <= 1.
Proof.
  apply mol_ecc_bounds; [reflexivity|simpl; lra|]. simpl. unfold EARTH_EQUATORIAL_RADIUS.
  split; [lra|]. destruct (mol_geometry_lemma mol_a eq_refl ltac:(simpl; lra)) as (_ & _ & _ & G & _).
  cbv zeta in G. simpl m_period in G. pose proof (mol_semimajor_pos mol_a) as P. set (a := mol_semimajor mol_a) in *.
  destruct (Rle_dec (6378137 + 400000) a) as [|N]; [assumption|exfalso].
  assert (a ^ 3 < 6778137 ^ 3).
  { assert (a < 6778137) by lra. simpl. assert (a * a < 6778137 * 6778137) by nra. nra. }
  pose proof PI_4. pose proof PI_RGT_0. assert (PI ^ 2 <= 16) by (simpl; nra). unfold GM in G.
  assert (0 < a ^ 3) by (apply pow_lt; lra).
  assert (a ^ 3 * (4 * PI ^ 2) <= 6778137 ^ 3 * (4 * 16)).
  { apply Rmult_le_compat; try lra. simpl; nra. } lra.
Qed.
Lemma mol_period_lost : exists m m', mol_valid m = true /\ mol_derived m 0 0 = Ok m' /\ m_period m' <> m_period m.
Proof.
  destruct (mol_derived_lemma mol_a 0 0 mol_a_valid mol_a_ecc) as (m' & E & _ & _ & _ & _ & _ & _ & _ & _ & HP).
  exists mol_a, m'. split; [apply mol_a_valid|]. split; [assumption|]. rewrite HP. unfold default_period. simpl. lra.
Qed.

Lemma mol_report_lemma m p : m_ecc m = None -> 0 < m_period m ->
  compute_orbit_period (c_alt (m_circ m)) = Some p ->
  1.0001 * (EARTH_MEAN_RADIUS + c_alt (m_circ m)) <= mol_semimajor m -> p < m_period m.
Proof.
  intros HE HP Ep HA. destruct (period_law_lemma _ _ Ep) as [P L].
  assert (D : - EARTH_MEAN_RADIUS < c_alt (m_circ m)) by (apply period_defined_lemma; eauto).
  destruct (mol_geometry_lemma m HE HP) as (_ & _ & _ & G & _).
  set (r := EARTH_MEAN_RADIUS + c_alt (m_circ m)) in *. set (a := mol_semimajor m) in *. set (t := m_period m) in *.
  assert (R0 : 0 < r) by (unfold r; lra). pose proof PI_RGT_0 as PP.
  assert (C : 1.0003 * r ^ 3 <= a ^ 3).
  { apply Rle_trans with ((1.0001 * r) ^ 3).
    - assert (0 < r ^ 3) by (apply pow_lt; lra). replace ((1.0001 * r) ^ 3) with (1.0001 ^ 3 * r ^ 3) by ring. simpl (1.0001 ^ 3). nra.
    - apply pow_incr. lra. }
  destruct (Rlt_dec p t) as [|N]; [assumption|exfalso].
  assert (T2 : t ^ 2 <= p ^ 2) by (apply pow_incr; lra).
  assert (R3 : 0 < r ^ 3) by (apply pow_lt; lra).
  assert (Pi2 : 0 < 4 * PI ^ 2) by (simpl; nra).
  assert (E1 : 1.0003 * (p ^ 2 * EARTH_MU) <= GM * t ^ 2).
  { rewrite L, <- G. apply Rmult_le_compat_r with (r := 4 * PI ^ 2) in C; [|lra]. lra. }
  unfold GM, EARTH_MU in E1. assert (0 < p ^ 2) by (apply pow_lt; lra). lra.
Qed.

Definition mol_b : molniya := mk_mol (mk_circ 400000 0 0 63 0) 43080 270 None.
Lemma mol_b_valid : mol_valid mol_b = true.
Proof.
  unfold mol_valid. rewrite !andb_true_iff, in_bound_spec, Rltb_spec. simpl. split; [split; [split|]|]; auto; try lra.
  apply circ_valid_spec; simpl; lra.
Qed.
Lemma mol_report_refuted : exists m us, mol_valid m = true /\ mol_orbit_period m = Ok us
   /\ IZR us * 6 < m_period m * 1000000.
Proof.
  pose proof EMR_bounds as EB. destruct (orbit_period_lemma 400000 ltac:(lra)) as (p & us & E1 & E2 & B).
  exists mol_b, us. split; [apply mol_b_valid|]. split; [exact E2|]. simpl.
  destruct (period_law_lemma _ _ E1) as [P L]. pose proof PI_4. pose proof PI_RGT_0.
  assert (U : p <= 7100).
  { destruct (Rle_dec p 7100) as [|N]; [assumption|exfalso]. assert (7100 ^ 2 < p ^ 2) by (simpl; nra).
    assert (X : (EARTH_MEAN_RADIUS + 400000) ^ 3 <= 6771009 ^ 3) by (apply pow_incr; lra).
    assert (Y : 4 * PI ^ 2 <= 4 * 16) by (simpl; nra).
    assert (4 * PI ^ 2 * (EARTH_MEAN_RADIUS + 400000) ^ 3 <= (4 * 16) * 6771009 ^ 3).
    { apply Rmult_le_compat; [simpl; nra|apply pow_le; lra|assumption|assumption]. }
    unfold EARTH_MU in L. lra. }
  unfold Rabs in B. destruct (Rcase_abs _) in B; lra.
Qed.

Lemma sso_node_lemma sun s :
  0 <= sso_raan sun s < 360
  /\ same_degrees (sso_raan sun s)
       (sun (s_epoch s) + 15 * (IZR (s_ect s) / 3600000000 - 12) + (if s_asc s then 0 else 180)).
Proof. destruct (sso_raan_lemma sun s) as [A B]. split; [assumption|now apply eqm_degrees]. Qed.

(** ** Statements used by the property file *)
Lemma circ_derived_valid_lemma c dm dr : circ_valid c = true ->
  exists c', circ_derived c dm dr = Ok c' /\ 0 <= c_nu c' < 360 /\ 0 <= c_raan c' < 360 /\ 0 <= c_inc c' < 180.
Proof. intro V. destruct (circ_derived_lemma c dm dr V) as (c' & E & V' & _). apply circ_valid_spec in V'. exists c'. tauto. Qed.
Lemma sso_derived_valid_lemma sun s dm dr : sso_valid s = true ->
  exists c', sso_derived sun s dm dr = Ok c' /\ 0 <= c_nu c' < 360 /\ 0 <= c_raan c' < 360 /\ 0 <= c_inc c' < 180.
Proof. intro V. destruct (sso_derived_lemma sun s dm dr V) as (c' & E & V' & _). apply circ_valid_spec in V'. exists c'. tauto. Qed.
Lemma kep_derived_valid_lemma k dm dr : kep_valid k = true -> k_ecc k <= 1 ->
  exists k', kep_derived k dm dr = Ok k' /\ let c' := k_circ k' in
    0 <= c_nu c' < 360 /\ 0 <= c_raan c' < 360 /\ 0 <= c_inc c' < 180.
Proof.
  intros V He. destruct (kep_derived_lemma k dm dr V He) as (k' & E & V' & _). exists k'. cbv zeta.
  apply kep_valid_spec in V' as [V' _]. apply circ_valid_spec in V'. tauto.
Qed.
Lemma mol_derived_valid_lemma m dm dr : mol_valid m = true -> 0 <= mol_eccentricity m <= 1 ->
  exists m', mol_derived m dm dr = Ok m' /\ let c' := m_circ m' in
    0 <= c_nu c' < 360 /\ 0 <= c_raan c' < 360 /\ 0 <= c_inc c' < 180.
Proof.
  intros V He. destruct (mol_derived_lemma m dm dr V He) as (m' & E & V' & _). exists m'. cbv zeta.
  unfold mol_valid in V'. rewrite !andb_true_iff in V'. destruct V' as [[[V' _] _] _]. apply circ_valid_spec in V'. tauto.
Qed.
Lemma circ_derived_full_lemma c a b : circ_valid c = true ->
  exists c', circ_derived c a b = Ok c'
    /\ c_alt c' = c_alt c /\ c_epoch c' = c_epoch c /\ c_inc c' = c_inc c
    /\ same_degrees (circ_mean_anomaly c') (circ_mean_anomaly c + a) /\ same_degrees (c_raan c') (c_raan c + b)
    /\ circ_derived c 0 0 = Ok c
    /\ forall a' b', circ_derived c' a' b' = circ_derived c (a + a') (b + b').
Proof.
  intro V. destruct (circ_derived_lemma c a b V) as (c' & E & _ & X1 & X2 & X3 & _). exists c'.
  destruct (circ_compose_lemma c a b 0 0 c' V E) as (Z0 & M & N & _).
  repeat (split; [assumption|]). split; [now apply eqm_degrees|]. split; [now apply eqm_degrees|]. split; [assumption|].
  intros a' b'. now apply (circ_compose_lemma c a b a' b' c' V E).
Qed.
Lemma sso_derived_full_lemma sun s a b : sso_valid s = true ->
  exists c', sso_derived sun s a b = Ok c'
    /\ c_alt c' = s_alt s /\ c_epoch c' = s_epoch s /\ sso_inclination s = Some (c_inc c')
    /\ same_degrees (circ_mean_anomaly c') (s_nu s + a) /\ same_degrees (c_raan c') (sso_raan sun s + b).
Proof.
  intro V. destruct (sso_derived_lemma sun s a b V) as (c' & E & _ & X1 & X2 & X3 & X4 & X5). exists c'.
  repeat (split; [assumption|]). unfold circ_mean_anomaly. rewrite t2m_zero, X4, X5. split; apply eqm_degrees, rmod_eqm.
Qed.
Lemma m2t_same x y e : eqm 360 x y ->
  same_degrees (mean_anomaly_to_true_anomaly x e) (mean_anomaly_to_true_anomaly y e).
Proof.
  intros [w ->]. exists w. destruct (anomaly_laws_lemma e y w) as (_ & _ & _ & _ & L & _).
  rewrite <- L. f_equal. lra.
Qed.
Lemma kep_derived_full_lemma k a b : kep_valid k = true -> k_ecc k <= 1 ->
  exists k', kep_derived k a b = Ok k'
    /\ c_alt (k_circ k') = c_alt (k_circ k) /\ c_epoch (k_circ k') = c_epoch (k_circ k)
    /\ c_inc (k_circ k') = c_inc (k_circ k) /\ k_ecc k' = k_ecc k /\ k_argp k' = k_argp k
    /\ same_degrees (c_nu (k_circ k')) (mean_anomaly_to_true_anomaly (kep_mean_anomaly k + a) (k_ecc k))
    /\ same_degrees (c_raan (k_circ k')) (c_raan (k_circ k) + b).
Proof.
  intros V He. destruct (kep_derived_lemma k a b V He) as (k' & E & _ & X1 & X2 & X3 & X4 & X5 & X6 & X7). exists k'.
  repeat (split; [assumption|]). rewrite X6, X7. split; [apply m2t_same, rmod_eqm|apply eqm_degrees, rmod_eqm].
Qed.
Lemma mol_derived_full_lemma m a b : mol_valid m = true -> 0 <= mol_eccentricity m <= 1 ->
  exists m', mol_derived m a b = Ok m'
    /\ c_alt (m_circ m') = c_alt (m_circ m) /\ c_epoch (m_circ m') = c_epoch (m_circ m)
    /\ c_inc (m_circ m') = c_inc (m_circ m) /\ m_ecc m' = m_ecc m /\ m_argp m' = m_argp m
    /\ same_degrees (c_raan (m_circ m')) (c_raan (m_circ m) + b)
    /\ (m_period m = (match m_ecc m with Some _ => 86400 | None => 43080 end) ->
        m_period m' = m_period m /\ mol_eccentricity m' = mol_eccentricity m).
Proof.
  intros V He. destruct (mol_derived_lemma m a b V He) as (m' & E & _ & X1 & X2 & X3 & X4 & X5 & X6 & X7 & X8). exists m'.
  repeat (split; [assumption|]). split; [rewrite X6; apply eqm_degrees, rmod_eqm|].
  intro HP. assert (P : m_period m' = m_period m) by (rewrite X8, HP; reflexivity).
  split; [assumption|]. unfold mol_eccentricity, mol_semimajor. now rewrite P, X4, X1.
Qed.

(** ** Witnesses *)
Lemma mol_b_axis0 : 6778137 <= mol_semimajor mol_b.
Proof.
  destruct (mol_geometry_lemma mol_b eq_refl ltac:(simpl; lra)) as (_ & _ & _ & G & _).
  cbv zeta in G. simpl m_period in G. pose proof (mol_semimajor_pos mol_b) as P. set (a := mol_semimajor mol_b) in *.
  destruct (Rle_dec 6778137 a) as [|N]; [assumption|exfalso].
  assert (a ^ 3 < 6778137 ^ 3).
  { assert (a < 6778137) by lra. simpl. assert (a * a < 6778137 * 6778137) by nra. nra. }
  pose proof PI_4. pose proof PI_RGT_0. assert (PI ^ 2 <= 16) by (simpl; nra). unfold GM in G.
  assert (0 < a ^ 3) by (apply pow_lt; lra).
  assert (a ^ 3 * (4 * PI ^ 2) <= 6778137 ^ 3 * (4 * 16)).
  { apply Rmult_le_compat; try lra. simpl; nra. } lra.
Qed.
Lemma mol_b_axis : 1.0001 * (EARTH_MEAN_RADIUS + c_alt (m_circ mol_b)) <= mol_semimajor mol_b.
Proof. pose proof mol_b_axis0. pose proof EMR_bounds. simpl. lra. Qed.
Lemma mol_b_witness : mol_valid mol_b = true /\ m_period mol_b = 43080 /\ 0 <= mol_eccentricity mol_b <= 1.
Proof.
  split; [apply mol_b_valid|]. split; [reflexivity|]. apply mol_ecc_bounds; [reflexivity|simpl; lra|].
  pose proof mol_b_axis0 as A. simpl. unfold EARTH_EQUATORIAL_RADIUS. lra.
Qed.
Lemma m2t_90 : 0 <= 1/2 <= 1 /\ 90 < mean_anomaly_to_true_anomaly 90 (1/2).
Proof.
  split; [lra|]. unfold mean_anomaly_to_true_anomaly. cbv zeta. rewrite radians_90.
  replace (2 * (PI / 2)) with PI by lra. replace (3 * (PI / 2)) with (PI + PI / 2) by lra.
  rewrite sin_PI2, sin_PI, sin_plus, sin_PI, cos_PI, sin_PI2. rewrite <- degrees_PI2. apply -> degrees_lt. lra.
Qed.
Lemma small_ecc : 0 <= 2/100 <= 1 /\ degrees (110 * (2/100) ^ 4) <= 2 / 1000.
Proof.
  split; [lra|]. unfold degrees. pose proof PI_3.
  apply Rmult_le_reg_r with PI; [lra|]. replace (110 * (2 / 100) ^ 4 * (180 / PI) * PI) with (110 * (2 / 100) ^ 4 * 180) by (field; lra). simpl. lra.
Qed.
Lemma period_400 : exists p, compute_orbit_period 400000 = Some p /\ 4000 < p.
Proof.
  pose proof EMR_bounds. destruct (proj2 (period_defined_lemma 400000) ltac:(lra)) as [p E]. exists p.
  split; [assumption|]. apply (period_ge 400000 p); [lra|assumption].
Qed.
Lemma sso_a_valid : sso_valid (mk_sso 500000 10 0 37800000000 true) = true.
Proof.
  unfold sso_valid. pose proof EMR_bounds. rewrite !andb_true_iff, !in_bound_spec. simpl. repeat split; lra.
Qed.
Lemma sso_node_example : sso_raan (fun _ => 350) (mk_sso 500000 10 0 81000000000 true) = 147.5.
Proof.
  unfold sso_raan. simpl s_ect. simpl s_asc. cbv iota. apply rmod_unique; [lra|lra|].
  exists 2%Z || exists (-2)%Z. unfold DAY_US. simpl. lra.
Qed.

(** ** Molniya: the true anomaly *)
Lemma mol_nu_lemma m a b : mol_valid m = true -> 0 <= mol_eccentricity m <= 1 ->
  exists m', mol_derived m a b = Ok m'
    /\ same_degrees (c_nu (m_circ m'))
         (mean_anomaly_to_true_anomaly (true_anomaly_to_mean_anomaly (c_nu (m_circ m)) (mol_eccentricity m) + a) (mol_eccentricity m)).
Proof.
  intros V He. destruct (mol_derived_lemma m a b V He) as (m' & E & _ & _ & _ & _ & _ & _ & _ & N & _).
  exists m'. split; [assumption|]. rewrite N. fold (mol_mean_anomaly m).
  destruct (rmod_eqm (mol_mean_anomaly m + a) 360) as [w W]. exists w. rewrite W.
  replace (mol_mean_anomaly m + a + IZR w * 360) with (mol_mean_anomaly m + a + 360 * IZR w) by lra.
  destruct (anomaly_laws_lemma (mol_eccentricity m) (mol_mean_anomaly m + a) w) as (_ & _ & _ & _ & L & _). rewrite L. lra.
Qed.
Lemma mol_zero_lemma m : mol_valid m = true -> 0 <= mol_eccentricity m <= 1 ->
  exists m', mol_derived m 0 0 = Ok m'
    /\ exists w : Z, Rabs (c_nu (m_circ m') - (c_nu (m_circ m) + 360 * IZR w)) <= degrees (110 * mol_eccentricity m ^ 4).
Proof.
  intros V He. destruct (mol_nu_lemma m 0 0 V He) as (m' & E & w & W). exists m'. split; [assumption|]. exists w.
  rewrite W. rewrite Rplus_0_r.
  pose proof (round_trip_lemma (mol_eccentricity m) (c_nu (m_circ m)) He) as RT.
  eapply Rle_trans; [|exact RT]. right. f_equal. lra.
Qed.
(** ** Only validation errors *)
Lemma derived_errors_lemma : (forall c a b e, circ_derived c a b = Raise e -> e = ValidationError)
  /\ (forall k a b e, kep_derived k a b = Raise e -> e = ValidationError)
  /\ (forall m a b e, mol_derived m a b = Raise e -> e = ValidationError).
Proof.
  split; [|split]; intros x a b e; unfold circ_derived, make_circular, kep_derived, make_keplerian, mol_derived, make_molniya, guard; cbv zeta;
    match goal with |- (if ?t then _ else _) = _ -> _ => destruct t end; congruence.
Qed.
(** ** Eccentricities above one *)
Definition kep_open : keplerian := mk_kep (mk_circ 400000 0 0 63 0) 8 0.
Lemma kep_open_lemma : kep_valid kep_open = true /\ kep_derived kep_open 90 0 = Raise ValidationError.
Proof.
  assert (V : kep_valid kep_open = true).
  { apply kep_valid_spec. split; [apply circ_valid_spec; simpl; lra|simpl; lra]. }
  split; [exact V|]. unfold kep_derived, make_keplerian, guard. cbv zeta.
  match goal with |- (if ?t then _ else _) = _ => destruct t eqn:E end; [|reflexivity]. exfalso.
  apply kep_valid_spec in E as (C & _). apply circ_valid_spec in C as (N & _). revert N. cbn [c_nu k_circ k_ecc kep_open].
  unfold kep_mean_anomaly. cbn [c_nu k_circ k_ecc kep_open].
  destruct (anomaly_laws_lemma 8 0 0) as (_ & _ & _ & _ & _ & _ & _ & M0 & _). rewrite M0, Rplus_0_l, rmod_small by lra.
  unfold mean_anomaly_to_true_anomaly. cbv zeta.
  replace (radians 90) with (PI / 2) by (unfold radians; field).
  replace (2 * (PI / 2)) with PI by field. replace (3 * (PI / 2)) with (PI / 2 + PI) by field.
  rewrite neg_sin, sin_PI2, sin_PI. pose proof PI_RGT_0. pose proof PI_4.
  intros [H1 _]. unfold degrees in H1.
  assert (X : 0 < 180 / PI) by (apply Rdiv_lt_0_compat; lra).
  match type of H1 with 0 <= ?y * (180 / PI) => assert (y < 0) by lra; nra | 0 <= ?y * 180 / PI => assert (Y : y < 0) by lra;
     assert (y * 180 / PI < 0) by (unfold Rdiv in *; rewrite Rmult_assoc; nra); lra end.
Qed.
