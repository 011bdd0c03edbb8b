(** Property theorems C14, C15, C17-C25: orbit schemas and anomaly conversions. *)
From Coq Require Import Reals ZArith List Bool Lra.
From Verif Require Import Base RBase RFacts Orbit_Model Orbit_Spec Anomaly_Proofs AnomalyRound_Proofs Orbit_Proofs Orbit_Proofs2.
Import ListNotations.
Open Scope R_scope.

(** *** C14 *)
(** With the default lazy loading a conversion after an assignment answers for the old fields. *)
Theorem c14_to_tle_current_refuted : exists (ex : elset -> pyres elset) (c1 c2 : circular),
  circ_valid c1 = true /\ circ_valid c2 = true /\
  run_obj (circ_conv ex true) true (mk_object c1 None) (map as_action [inr None; inl c2; inr None])
    <> current_answers (circ_conv ex true) c1 [inr (@None bool); inl c2; inr None].
Proof. exact stale_circ_lemma. Qed.
Print Assumptions c14_to_tle_current_refuted.

(** For every orbit kind (any conversion), histories whose conversions are not lazy are answered
    from the current fields, whatever is cached. *)
Theorem c14_to_tle_not_lazy_partial : forall F T (conv : F -> pyres T) rc h f cache,
  Forall (never_lazy rc) h ->
  run_obj conv rc (mk_object f cache) (map as_action h) = current_answers conv f h.
Proof. exact @hist_nonlazy. Qed.
Print Assumptions c14_to_tle_not_lazy_partial.

(** So are histories, lazy or not, that never assign a different value. *)
Theorem c14_to_tle_unassigned_partial : forall F T (conv : F -> pyres T) rc h f cache,
  (cache = None \/ exists t, cache = Some t /\ conv f = Ok t) ->
  Forall (fun x : F + option bool => match x with inl g => g = f | inr _ => True end) h ->
  run_obj conv rc (mk_object f cache) (map as_action h) = current_answers conv f h.
Proof. exact @hist_nowrite. Qed.
Print Assumptions c14_to_tle_unassigned_partial.

Example c14_witness : Forall (never_lazy true) [inr (Some false); inl 7%Z; inr (Some false)]
  /\ run_obj (fun z => Ok (z + 1)%Z) true (mk_object 3%Z (Some 9%Z))
       (map as_action [inr (Some false); inl 7%Z; inr (Some false)]) = [Ok 4%Z; Ok 8%Z].
Proof. split; [repeat constructor|reflexivity]. Qed.

(** *** C15 *)
Theorem c15_circular_derived_valid : forall c dm dr, circ_valid c = true ->
  exists c', circ_derived c dm dr = Ok c'
    /\ 0 <= c_nu c' < 360 /\ 0 <= c_raan c' < 360 /\ 0 <= c_inc c' < 180.
Proof. exact circ_derived_valid_lemma. Qed.
Print Assumptions c15_circular_derived_valid.

Theorem c15_sso_derived_valid : forall sun s dm dr, sso_valid s = true ->
  exists c', sso_derived sun s dm dr = Ok c'
    /\ 0 <= c_nu c' < 360 /\ 0 <= c_raan c' < 360 /\ 0 <= c_inc c' < 180.
Proof. exact sso_derived_valid_lemma. Qed.
Print Assumptions c15_sso_derived_valid.

Theorem c15_keplerian_derived_valid : forall k dm dr, kep_valid k = true -> k_ecc k <= 1 ->
  exists k', kep_derived k dm dr = Ok k' /\ let c' := k_circ k' in
    0 <= c_nu c' < 360 /\ 0 <= c_raan c' < 360 /\ 0 <= c_inc c' < 180.
Proof. exact kep_derived_valid_lemma. Qed.
Print Assumptions c15_keplerian_derived_valid.

Theorem c15_molniya_derived_valid : forall m dm dr, mol_valid m = true -> 0 <= mol_eccentricity m <= 1 ->
  exists m', mol_derived m dm dr = Ok m' /\ let c' := m_circ m' in
    0 <= c_nu c' < 360 /\ 0 <= c_raan c' < 360 /\ 0 <= c_inc c' < 180.
Proof. exact mol_derived_valid_lemma. Qed.
Print Assumptions c15_molniya_derived_valid.

(** Beyond eccentricity one an accepted orbit may have no derived orbit; *)
Theorem c15_open_orbit_refused : exists k, kep_valid k = true /\ 1 < k_ecc k /\ kep_derived k 90 0 = Raise ValidationError.
Proof. exists kep_open. split; [exact (proj1 kep_open_lemma)|]. split; [simpl; lra|exact (proj2 kep_open_lemma)]. Qed.
Print Assumptions c15_open_orbit_refused.

(** then, and in every other case of failure, the error is a ValidationError. *)
Theorem c15_derived_errors : (forall c a b e, circ_derived c a b = Raise e -> e = ValidationError)
  /\ (forall k a b e, kep_derived k a b = Raise e -> e = ValidationError)
  /\ (forall m a b e, mol_derived m a b = Raise e -> e = ValidationError).
Proof. exact derived_errors_lemma. Qed.
Print Assumptions c15_derived_errors.

Example c15_witness : circ_valid circ_b = true /\ mol_valid mol_a = true /\ 0 <= mol_eccentricity mol_a <= 1.
Proof. split; [apply circ_b_valid|]. split; [apply mol_a_valid|apply mol_a_ecc]. Qed.

(** *** C17 *)
Theorem c17_circular_derived : forall c a b, circ_valid c = true ->
  exists c', circ_derived c a b = Ok c'
    /\ c_alt c' = c_alt c /\ c_epoch c' = c_epoch c /\ c_inc c' = c_inc c
    /\ same_degrees (circ_mean_anomaly c') (circ_mean_anomaly c + a) /\ same_degrees (c_raan c') (c_raan c + b)
    /\ circ_derived c 0 0 = Ok c
    /\ forall a' b', circ_derived c' a' b' = circ_derived c (a + a') (b + b').
Proof. exact circ_derived_full_lemma. Qed.
Print Assumptions c17_circular_derived.

Theorem c17_sso_derived : forall sun s a b, sso_valid s = true ->
  exists c', sso_derived sun s a b = Ok c'
    /\ c_alt c' = s_alt s /\ c_epoch c' = s_epoch s /\ sso_inclination s = Some (c_inc c')
    /\ same_degrees (circ_mean_anomaly c') (s_nu s + a) /\ same_degrees (c_raan c') (sso_raan sun s + b).
Proof. exact sso_derived_full_lemma. Qed.
Print Assumptions c17_sso_derived.

Theorem c17_keplerian_derived : forall k a b, kep_valid k = true -> k_ecc k <= 1 ->
  exists k', kep_derived k a b = Ok k'
    /\ c_alt (k_circ k') = c_alt (k_circ k) /\ c_epoch (k_circ k') = c_epoch (k_circ k)
    /\ c_inc (k_circ k') = c_inc (k_circ k) /\ k_ecc k' = k_ecc k /\ k_argp k' = k_argp k
    /\ same_degrees (c_nu (k_circ k')) (mean_anomaly_to_true_anomaly (kep_mean_anomaly k + a) (k_ecc k))
    /\ same_degrees (c_raan (k_circ k')) (c_raan (k_circ k) + b).
Proof. exact kep_derived_full_lemma. Qed.
Print Assumptions c17_keplerian_derived.

(** Zero perturbation of an eccentric orbit: the node is kept exactly, the true anomaly up to the
    series error of C20. *)
Theorem c17_keplerian_zero : forall k, kep_valid k = true -> k_ecc k <= 1 ->
  exists k', kep_derived k 0 0 = Ok k' /\ c_raan (k_circ k') = c_raan (k_circ k)
    /\ exists w : Z, Rabs (c_nu (k_circ k') - (c_nu (k_circ k) + 360 * IZR w)) <= degrees (110 * k_ecc k ^ 4).
Proof. exact kep_zero_lemma. Qed.
Print Assumptions c17_keplerian_zero.

Theorem c17_tle_derived : forall l a b, let l' := tle_derived l a b in
  length l' = length l /\
  forall i s, nth_error l i = Some s -> exists s', nth_error l' i = Some s'
    /\ e_epoch s' = e_epoch s /\ e_bstar s' = e_bstar s /\ e_ndot s' = e_ndot s /\ e_nddot s' = e_nddot s
    /\ e_ecc s' = e_ecc s /\ e_argp s' = e_argp s /\ e_inc s' = e_inc s /\ e_no s' = e_no s
    /\ 0 <= e_mo s' < 2 * PI /\ same_radians (e_mo s') (e_mo s + radians a)
    /\ 0 <= e_node s' < 2 * PI /\ same_radians (e_node s') (e_node s + radians b).
Proof. exact tle_derived_lemma. Qed.
Print Assumptions c17_tle_derived.

Theorem c17_tle_compose : forall l a b a' b',
  tle_derived (tle_derived l a b) a' b' = tle_derived l (a + a') (b + b').
Proof. exact tle_derived_compose_lemma. Qed.
Print Assumptions c17_tle_compose.

Example c17_witness : kep_valid (mk_kep circ_b (1/2) 90) = true /\ k_ecc (mk_kep circ_b (1/2) 90) <= 1.
Proof. split; [apply kep_valid_spec; split; [apply circ_b_valid|simpl; lra]|simpl; lra]. Qed.

(** *** C18 *)
Theorem c18_period_kept_refuted : exists m m',
  mol_valid m = true /\ mol_derived m 0 0 = Ok m' /\ m_period m' <> m_period m.
Proof. exact mol_period_lost. Qed.
Print Assumptions c18_period_kept_refuted.

(** Everything else is kept, and the period too when it is the default one. *)
Theorem c18_molniya_derived_partial : forall m a b, mol_valid m = true -> 0 <= mol_eccentricity m <= 1 ->
  exists m', mol_derived m a b = Ok m'
    /\ c_alt (m_circ m') = c_alt (m_circ m) /\ c_epoch (m_circ m') = c_epoch (m_circ m)
    /\ c_inc (m_circ m') = c_inc (m_circ m) /\ m_ecc m' = m_ecc m /\ m_argp m' = m_argp m
    /\ same_degrees (c_raan (m_circ m')) (c_raan (m_circ m) + b)
    /\ (m_period m = (match m_ecc m with Some _ => 86400 | None => 43080 end) ->
        m_period m' = m_period m /\ mol_eccentricity m' = mol_eccentricity m).
Proof. exact mol_derived_full_lemma. Qed.
Print Assumptions c18_molniya_derived_partial.

(** The true anomaly is that of the mean anomaly moved by the given angle; with no change it is kept up
    to the series error of C20. *)
Theorem c18_molniya_anomaly : forall m a b, mol_valid m = true -> 0 <= mol_eccentricity m <= 1 ->
  exists m', mol_derived m a b = Ok m'
    /\ same_degrees (c_nu (m_circ m'))
         (mean_anomaly_to_true_anomaly (true_anomaly_to_mean_anomaly (c_nu (m_circ m)) (mol_eccentricity m) + a) (mol_eccentricity m)).
Proof. exact mol_nu_lemma. Qed.
Print Assumptions c18_molniya_anomaly.
Theorem c18_molniya_zero : forall m, mol_valid m = true -> 0 <= mol_eccentricity m <= 1 ->
  exists m', mol_derived m 0 0 = Ok m'
    /\ exists w : Z, Rabs (c_nu (m_circ m') - (c_nu (m_circ m) + 360 * IZR w)) <= degrees (110 * mol_eccentricity m ^ 4).
Proof. exact mol_zero_lemma. Qed.
Print Assumptions c18_molniya_zero.

Example c18_witness : mol_valid mol_b = true /\ m_period mol_b = 43080 /\ 0 <= mol_eccentricity mol_b <= 1.
Proof. exact mol_b_witness. Qed.

(** *** C19 *)
Theorem c19_anomaly_laws : forall e x k,
  let T := mean_anomaly_to_true_anomaly in let M := true_anomaly_to_mean_anomaly in
  T (M x 0) 0 = x /\ M (T x 0) 0 = x
  /\ T (- x) e = - T x e /\ M (- x) e = - M x e
  /\ T (x + 360 * IZR k) e = T x e + 360 * IZR k /\ M (x + 360 * IZR k) e = M x e + 360 * IZR k
  /\ T 0 e = 0 /\ M 0 e = 0 /\ T 180 e = 180 /\ M 180 e = 180.
Proof. exact anomaly_laws_lemma. Qed.
Print Assumptions c19_anomaly_laws.

Theorem c19_anomaly_range : forall e x, 0 <= e <= 1 ->
  let T := mean_anomaly_to_true_anomaly in
  (0 <= x < 360 -> 0 <= T x e < 360) /\ (0 <= x <= 180 -> x <= T x e) /\ (180 <= x <= 360 -> T x e <= x).
Proof. exact anomaly_range_lemma. Qed.
Print Assumptions c19_anomaly_range.

Example c19_witness : 0 <= 1/2 <= 1 /\ 90 < mean_anomaly_to_true_anomaly 90 (1/2).
Proof. exact m2t_90. Qed.

(** *** C20 *)
Theorem c20_round_trip : forall e nu, 0 <= e <= 1 ->
  Rabs (mean_anomaly_to_true_anomaly (true_anomaly_to_mean_anomaly nu e) e - nu) <= degrees (110 * e ^ 4).
Proof. exact round_trip_lemma. Qed.
Print Assumptions c20_round_trip.

(** At eccentricity 0.02 the error is below 0.002 degrees. *)
Example c20_witness : 0 <= 2/100 <= 1 /\ degrees (110 * (2/100) ^ 4) <= 2 / 1000.
Proof. exact small_ecc. Qed.

(** *** C21 *)
Theorem c21_period_law : forall alt p, compute_orbit_period alt = Some p ->
  0 < p /\ p ^ 2 * EARTH_MU = 4 * PI ^ 2 * (EARTH_MEAN_RADIUS + alt) ^ 3.
Proof. exact period_law_lemma. Qed.
Print Assumptions c21_period_law.

Theorem c21_period_defined : forall alt,
  (exists p, compute_orbit_period alt = Some p) <-> - EARTH_MEAN_RADIUS < alt.
Proof. exact period_defined_lemma. Qed.
Print Assumptions c21_period_defined.

Theorem c21_period_increasing : forall a1 a2 p1 p2,
  compute_orbit_period a1 = Some p1 -> compute_orbit_period a2 = Some p2 -> a1 < a2 -> p1 < p2.
Proof. exact period_mono_lemma. Qed.
Print Assumptions c21_period_increasing.

(** The period object is the period rounded to the nearest microsecond and never decreases with altitude. *)
Theorem c21_period_microseconds : forall alt, - EARTH_MEAN_RADIUS < alt ->
  exists p us, compute_orbit_period alt = Some p /\ get_orbit_period alt = Ok us /\ Rabs (IZR us - p * 1000000) <= 1 / 2.
Proof. exact orbit_period_lemma. Qed.
Print Assumptions c21_period_microseconds.
Theorem c21_period_microseconds_monotone : forall a1 a2 u1 u2,
  get_orbit_period a1 = Ok u1 -> get_orbit_period a2 = Ok u2 -> a1 <= a2 -> (u1 <= u2)%Z.
Proof. exact orbit_period_mono. Qed.
Print Assumptions c21_period_microseconds_monotone.

(** Mean motion (revolutions per day) times the period in days is one; it exists from the ground up. *)
Theorem c21_mean_motion : forall alt n, get_mean_motion alt = Ok n ->
  exists us, get_orbit_period alt = Ok us /\ n * (IZR us / 86400000000) = 1.
Proof. exact mean_motion_lemma. Qed.
Print Assumptions c21_mean_motion.
Theorem c21_mean_motion_defined : forall alt, 0 <= alt -> exists n, get_mean_motion alt = Ok n /\ 0 < n.
Proof. exact mean_motion_defined. Qed.
Print Assumptions c21_mean_motion_defined.

(** The altitude recovered from the mean motion agrees to a millimetre (the period is rounded to
    a microsecond in between). *)
Theorem c21_altitude_recovered : forall alt n, 0 <= alt -> get_mean_motion alt = Ok n ->
  Rabs (tle_altitude n - alt) <= / 1000.
Proof. exact altitude_recovered_lemma. Qed.
Print Assumptions c21_altitude_recovered.

(** TLE accessor: the orbit period times the mean motion is a day, to half a microsecond per revolution. *)
Theorem c21_tle_period : forall n, 0 < n -> Rabs (IZR (tle_orbit_period n) * n - 86400000000) <= n / 2.
Proof. exact tle_period_lemma. Qed.
Print Assumptions c21_tle_period.

Example c21_witness : exists p, compute_orbit_period 400000 = Some p /\ 4000 < p.
Proof. exact period_400. Qed.

(** *** C22 *)
Theorem c22_sso_inclination : forall s, sso_valid s = true ->
  exists i, sso_inclination s = Some i /\ 90 < i < 180.
Proof. exact sso_inclination_lemma. Qed.
Print Assumptions c22_sso_inclination.
Theorem c22_sso_inclination_increasing : forall s1 s2 i1 i2, sso_valid s1 = true -> sso_valid s2 = true ->
  s_alt s1 < s_alt s2 -> sso_inclination s1 = Some i1 -> sso_inclination s2 = Some i2 -> i1 < i2.
Proof. exact sso_inclination_mono. Qed.
Print Assumptions c22_sso_inclination_increasing.

Example c22_witness : sso_valid (mk_sso 500000 10 0 37800000000 true) = true.
Proof. exact sso_a_valid. Qed.

(** *** C23 *)
Theorem c23_sso_node : forall sun s,
  0 <= sso_raan sun s < 360
  /\ same_degrees (sso_raan sun s)
       (sun (s_epoch s) + 15 * (IZR (s_ect s) / 3600000000 - 12) + (if s_asc s then 0 else 180)).
Proof. exact sso_node_lemma. Qed.
Print Assumptions c23_sso_node.

(** Sun at right ascension 350, 22:30 ascending: 350 + 157.5 - 360 = 147.5 degrees. *)
Example c23_witness : sso_raan (fun _ => 350) (mk_sso 500000 10 0 81000000000 true) = 147.5.
Proof. exact sso_node_example. Qed.

(** *** C24 *)
Theorem c24_molniya_geometry : forall m, m_ecc m = None -> 0 < m_period m ->
  let a := mol_semimajor m in let e := mol_eccentricity m in
  let rp := EARTH_EQUATORIAL_RADIUS + c_alt (m_circ m) in
  a * (1 - e) = rp
  /\ (e < 1 <-> 0 < rp) /\ (0 <= e <-> rp <= a)
  /\ a ^ 3 * (4 * PI ^ 2) = GM * m_period m ^ 2
  /\ e_no (mol_elset m) * (m_period m / 60) = 2 * PI.
Proof. exact mol_geometry_lemma. Qed.
Print Assumptions c24_molniya_geometry.

(** Tundra orbits too: the mean motion (radians per minute) covers one turn per orbital period. *)
Theorem c24_mean_motion : forall m, 0 < m_period m -> e_no (mol_elset m) * (m_period m / 60) = 2 * PI.
Proof. exact mol_no_lemma. Qed.
Print Assumptions c24_mean_motion.

Example c24_witness : m_ecc mol_b = None /\ 0 < m_period mol_b /\ 0 <= mol_eccentricity mol_b <= 1.
Proof. split; [reflexivity|]. split; [simpl; lra|apply mol_b_witness]. Qed.

(** *** C25 *)
(** The default Molniya period at 400 km: less than a sixth of it is reported. *)
Theorem c25_molniya_period_refuted : exists m us, mol_valid m = true /\ mol_orbit_period m = Ok us
   /\ IZR us * 6 < m_period m * 1000000.
Proof. exact mol_report_refuted. Qed.
Print Assumptions c25_molniya_period_refuted.

(** In general it is too short whenever the perigee (over the mean radius) is inside the semimajor axis. *)
Theorem c25_molniya_period_too_short : forall m p, m_ecc m = None -> 0 < m_period m ->
  compute_orbit_period (c_alt (m_circ m)) = Some p ->
  1.0001 * (EARTH_MEAN_RADIUS + c_alt (m_circ m)) <= mol_semimajor m -> p < m_period m.
Proof. exact mol_report_lemma. Qed.
Print Assumptions c25_molniya_period_too_short.

Example c25_witness : 1.0001 * (EARTH_MEAN_RADIUS + c_alt (m_circ mol_b)) <= mol_semimajor mol_b.
Proof. exact mol_b_axis. Qed.
