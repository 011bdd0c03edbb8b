(** Property theorems C150-C152: element sets and two-line elements of orbits. *)
From Coq Require Import String ZArith QArith Reals Qreals List Bool Lra Lia Sorting.Sorted.
From Verif Require Import Base RBase Tle_Model Tle_Spec Tle_Props Orbit_Model Orbit_Spec Orbit_Proofs AnomalyMean_Proofs
  Export_Model Export_Spec Export_Proofs Export_Proofs3 Export_Witness Export_Proofs4 Export_Proofs5.
Import ListNotations.
Open Scope R_scope.

(** *** C150 *)
(** Missing: eccentricities above 0.77 and altitudes below the surface (see the refutations). *)
Theorem c150_keplerian_partial : forall k, kep_valid k = true -> 0 <= c_alt (k_circ k) -> k_ecc k <= 77 / 100 ->
  exists s, kep_elset k = Ok s /\ usable s.
Proof. exact kep_usable. Qed.
Print Assumptions c150_keplerian_partial.

Theorem c150_molniya_partial : forall m, mol_valid m = true -> 0 <= mol_eccentricity m <= 77 / 100 -> usable (mol_elset m).
Proof. exact mol_usable. Qed.
Print Assumptions c150_molniya_partial.

Theorem c150_circular_partial : forall c, circ_valid c = true -> 0 <= c_alt c ->
  exists s, usable s /\ kep_elset (mk_kep c 0 0) = Ok s /\ forall T (ex : elset -> pyres T) rc, circ_conv ex rc c = ex s.
Proof. exact circ_conv_usable. Qed.
Print Assumptions c150_circular_partial.

Theorem c150_sun_synchronous : forall sun s, sso_valid s = true ->
  exists inc e, sso_inclination s = Some inc /\ 90 < inc < 180 /\ usable e
   /\ kep_elset (mk_kep (mk_circ (s_alt s) (s_nu s) (s_epoch s) inc (sso_raan sun s)) 0 0) = Ok e
   /\ forall T (ex : elset -> pyres T) rc, sso_conv ex rc sun s = ex e.
Proof. exact sso_conv_usable. Qed.
Print Assumptions c150_sun_synchronous.

(** The mean anomaly follows the true anomaly through the orbit. *)
Theorem c150_anomaly_increases_partial : forall e x y, 0 <= e <= 77 / 100 -> x < y ->
  true_anomaly_to_mean_anomaly x e < true_anomaly_to_mean_anomaly y e.
Proof. exact t2m_increasing. Qed.
Print Assumptions c150_anomaly_increases_partial.

Theorem c150_anomaly_range_partial : forall e nu, 0 <= e <= 77 / 100 -> 0 <= nu < 360 -> 0 <= true_anomaly_to_mean_anomaly nu e < 360.
Proof. exact t2m_range. Qed.
Print Assumptions c150_anomaly_range_partial.

Theorem c150_anomaly_half_partial : forall e nu, 0 <= e <= 77 / 100 ->
  (true_anomaly_to_mean_anomaly nu e < 180 <-> nu < 180) /\ (true_anomaly_to_mean_anomaly nu e = 180 <-> nu = 180).
Proof. exact t2m_half. Qed.
Print Assumptions c150_anomaly_half_partial.

Example c150_witness : kep_valid kep_example = true /\ 0 <= c_alt (k_circ kep_example) /\ k_ecc kep_example <= 77 / 100
  /\ mol_valid tundra_example = true /\ 0 <= mol_eccentricity tundra_example <= 77 / 100
  /\ circ_valid circ_example = true /\ 0 <= c_alt circ_example /\ sso_valid sso_example = true.
Proof.
  pose proof kep_example_ok as (A1 & A2 & A3 & _). pose proof tundra_example_ok as (B1 & B2 & _).
  pose proof circ_example_ok as (C1 & C2 & _). pose proof sso_example_ok as (D1 & _). exact (conj A1 (conj A2 (conj A3 (conj B1 (conj B2 (conj C1 (conj C2 D1))))))).
Qed.

(** Accepted orbits with unusable elements: a negative mean anomaly; *)
Theorem c150_anomaly_refuted : exists k s, kep_valid k = true /\ k_ecc k < 1 /\ 0 <= c_alt (k_circ k) /\ kep_elset k = Ok s /\ e_mo s < 0.
Proof. exact negative_anomaly. Qed.
Print Assumptions c150_anomaly_refuted.
(** an eccentricity above one; *)
Theorem c150_open_orbit_refuted : exists k s, kep_valid k = true /\ 0 <= c_alt (k_circ k) /\ kep_elset k = Ok s /\ 1 < e_ecc s.
Proof. exact open_orbit. Qed.
Print Assumptions c150_open_orbit_refuted.
(** a Molniya orbit whose perigee is higher than its period allows; *)
Theorem c150_molniya_refuted : exists m, mol_valid m = true /\ e_ecc (mol_elset m) < 0.
Proof. exact negative_eccentricity. Qed.
Print Assumptions c150_molniya_refuted.
(** and an altitude below the centre of the Earth, which raises ValueError only on conversion. *)
Theorem c150_altitude_refuted : exists c, circ_valid c = true /\ forall T (ex : elset -> pyres T) rc, circ_conv ex rc c = Raise ValueError.
Proof. exact underground. Qed.
Print Assumptions c150_altitude_refuted.

(** *** C151 *)
(** Missing: orbits outside these ranges. *)
Theorem c151_keplerian_partial : forall epoch export_tle, printer_contract export_tle -> epoch_contract epoch export_tle ->
  forall rc lazy k, kep_valid k = true -> 0 <= c_alt (k_circ k) -> k_ecc k <= 77 / 100 -> in_window (c_epoch (k_circ k)) ->
  exists v t n, snd (to_tle (kep_conv (new_tle epoch export_tle)) rc lazy (mk_object k None)) = Ok v
    /\ Orbit_Model.get_mean_motion (c_alt (k_circ k)) = Ok n
    /\ reads_orbit v (c_inc (k_circ k)) (c_raan (k_circ k)) (k_argp k) (k_ecc k) (true_anomaly_to_mean_anomaly (c_nu (k_circ k)) (k_ecc k)) n
    /\ get_epoch epoch v 0 = Ok t /\ Rabs (IZR t - IZR (c_epoch (k_circ k))) <= 433.
Proof. exact kep_to_tle. Qed.
Print Assumptions c151_keplerian_partial.

Theorem c151_circular_partial : forall epoch export_tle, printer_contract export_tle -> epoch_contract epoch export_tle ->
  forall rc lazy c, circ_valid c = true -> 0 <= c_alt c -> in_window (c_epoch c) ->
  exists v t n, snd (to_tle (circ_conv (new_tle epoch export_tle) rc) rc lazy (mk_object c None)) = Ok v /\ Orbit_Model.get_mean_motion (c_alt c) = Ok n
    /\ reads_orbit v (c_inc c) (c_raan c) 0 0 (c_nu c) n /\ get_epoch epoch v 0 = Ok t /\ Rabs (IZR t - IZR (c_epoch c)) <= 433
    /\ reads_R (tle_get_true_anomaly v 0) (c_nu c) (1 / 10000) /\ (c_alt c <= 36000000 -> reads_R (tle_get_altitude v 0) (c_alt c) 1).
Proof. exact circ_to_tle. Qed.
Print Assumptions c151_circular_partial.

Theorem c151_sun_synchronous_partial : forall epoch export_tle, printer_contract export_tle -> epoch_contract epoch export_tle ->
  forall rc lazy sun s, sso_valid s = true -> in_window (s_epoch s) ->
  exists v t n inc, snd (to_tle (sso_conv (new_tle epoch export_tle) rc sun) rc lazy (mk_object s None)) = Ok v
    /\ Orbit_Model.get_mean_motion (s_alt s) = Ok n /\ sso_inclination s = Some inc
    /\ reads_orbit v inc (sso_raan sun s) 0 0 (s_nu s) n /\ get_epoch epoch v 0 = Ok t /\ Rabs (IZR t - IZR (s_epoch s)) <= 433
    /\ reads_R (tle_get_true_anomaly v 0) (s_nu s) (1 / 10000) /\ reads_R (tle_get_altitude v 0) (s_alt s) 1.
Proof. exact sso_to_tle. Qed.
Print Assumptions c151_sun_synchronous_partial.

Theorem c151_molniya_partial : forall epoch export_tle, printer_contract export_tle -> epoch_contract epoch export_tle ->
  forall rc lazy m, mol_valid m = true -> 0 <= mol_eccentricity m <= 77 / 100 -> 865 <= m_period m -> in_window (c_epoch (m_circ m)) ->
  exists v t, snd (to_tle (mol_conv (new_tle epoch export_tle)) rc lazy (mk_object m None)) = Ok v
    /\ reads_orbit v (c_inc (m_circ m)) (c_raan (m_circ m)) (m_argp m) (mol_eccentricity m)
         (true_anomaly_to_mean_anomaly (c_nu (m_circ m)) (mol_eccentricity m)) (86400 / m_period m)
    /\ get_epoch epoch v 0 = Ok t /\ Rabs (IZR t - IZR (c_epoch (m_circ m))) <= 433.
Proof. exact mol_to_tle. Qed.
Print Assumptions c151_molniya_partial.

(** Periods read back to two milliseconds, true anomalies to the accuracy of the series. *)
Theorem c151_keplerian_period_partial : forall epoch export_tle, printer_contract export_tle -> epoch_contract epoch export_tle ->
  forall rc lazy k, kep_valid k = true -> 0 <= c_alt (k_circ k) <= 36000000 -> k_ecc k <= 77 / 100 -> in_window (c_epoch (k_circ k)) ->
  exists v p p', snd (to_tle (kep_conv (new_tle epoch export_tle)) rc lazy (mk_object k None)) = Ok v
    /\ get_orbit_period (c_alt (k_circ k)) = Ok p /\ tle_get_orbit_period v 0 = Ok p' /\ Rabs (IZR p' - IZR p) <= 2000
    /\ reads_R (tle_get_true_anomaly v 0) (c_nu (k_circ k)) (degrees (110 * k_ecc k ^ 4) + 1 / 2000).
Proof. exact kep_reads. Qed.
Print Assumptions c151_keplerian_period_partial.

Theorem c151_circular_period_partial : forall epoch export_tle, printer_contract export_tle -> epoch_contract epoch export_tle ->
  forall rc lazy c, circ_valid c = true -> 0 <= c_alt c <= 36000000 -> in_window (c_epoch c) ->
  exists v p p', snd (to_tle (circ_conv (new_tle epoch export_tle) rc) rc lazy (mk_object c None)) = Ok v
    /\ get_orbit_period (c_alt c) = Ok p /\ tle_get_orbit_period v 0 = Ok p' /\ Rabs (IZR p' - IZR p) <= 2000.
Proof. exact circ_reads. Qed.
Print Assumptions c151_circular_period_partial.

Theorem c151_sun_synchronous_period_partial : forall epoch export_tle, printer_contract export_tle -> epoch_contract epoch export_tle ->
  forall rc lazy sun s, sso_valid s = true -> in_window (s_epoch s) ->
  exists v p p', snd (to_tle (sso_conv (new_tle epoch export_tle) rc sun) rc lazy (mk_object s None)) = Ok v
    /\ get_orbit_period (s_alt s) = Ok p /\ tle_get_orbit_period v 0 = Ok p' /\ Rabs (IZR p' - IZR p) <= 2000.
Proof. exact sso_reads. Qed.
Print Assumptions c151_sun_synchronous_period_partial.

Theorem c151_molniya_period_partial : forall epoch export_tle, printer_contract export_tle -> epoch_contract epoch export_tle ->
  forall rc lazy m, mol_valid m = true -> 0 <= mol_eccentricity m <= 77 / 100 -> 865 <= m_period m <= 172800 -> in_window (c_epoch (m_circ m)) ->
  exists v p, snd (to_tle (mol_conv (new_tle epoch export_tle)) rc lazy (mk_object m None)) = Ok v
    /\ tle_get_orbit_period v 0 = Ok p /\ Rabs (IZR p - m_period m * 1000000) <= 2000
    /\ reads_R (tle_get_true_anomaly v 0) (c_nu (m_circ m)) (degrees (110 * mol_eccentricity m ^ 4) + 1 / 2000).
Proof. exact mol_reads. Qed.
Print Assumptions c151_molniya_period_partial.
(** Outside these ranges it is false.  Two-line elements carry a two-digit year and a three-digit day of the
    year, so whatever prints and reads them, an orbit with its epoch in the year 2100 (55200 days after
    1949-12-31) does not read back its epoch; *)
Theorem c151_epoch_refuted : exists c, circ_valid c = true /\ 0 <= c_alt c /\ forall epoch export_tle rc lazy v t,
  (forall l1 l2 t, epoch l1 l2 = Ok t -> (t < 41000 * 86400000000)%Z) ->
  snd (to_tle (circ_conv (new_tle epoch export_tle) rc) rc lazy (mk_object c None)) = Ok v -> get_epoch epoch v 0 = Ok t ->
  (14000 * 86400000000 < c_epoch c - t)%Z.
Proof.
  exists (mk_circ 400000 0 (55200 * 86400000000) 51 0). split; [apply circ_valid_spec; cbn; lra|]. split; [cbn; lra|].
  intros epoch export_tle rc lazy v t H _ G. unfold get_epoch in G. destruct (index (2 * 0) v) as [a|]; cbn [bind] in G; [|discriminate].
  destruct (index (2 * 0 + 1) v) as [b|]; cbn [bind] in G; [|discriminate]. apply H in G. cbn [c_epoch]. lia.
Qed.
Print Assumptions c151_epoch_refuted.
(** and an orbit accepted at an altitude below the centre of the Earth has no two-line elements. *)
Theorem c151_underground_refuted : exists c, circ_valid c = true /\ forall epoch export_tle rc lazy,
  snd (to_tle (circ_conv (new_tle epoch export_tle) rc) rc lazy (mk_object c None)) = Raise ValueError.
Proof.
  destruct underground as (c & V & U). exists c. split; [exact V|]. intros epoch export_tle rc lazy. unfold to_tle. cbn [tle_cache fields].
  rewrite U. destruct (match lazy with Some b => b | None => rc end); reflexivity.
Qed.
Print Assumptions c151_underground_refuted.

(** Oracles that meet the contracts, and orbits that meet the hypotheses. *)
Example c151_witness : printer_contract witness_printer /\ epoch_contract witness_epoch witness_printer
  /\ (kep_valid kep_example = true /\ 0 <= c_alt (k_circ kep_example) /\ k_ecc kep_example <= 77 / 100 /\ in_window (c_epoch (k_circ kep_example)))
  /\ c_alt (k_circ kep_example) <= 36000000 /\ m_period tundra_example <= 172800
  /\ (circ_valid circ_example = true /\ 0 <= c_alt circ_example /\ in_window (c_epoch circ_example) /\ c_alt circ_example <= 36000000)
  /\ (sso_valid sso_example = true /\ in_window (s_epoch sso_example))
  /\ (mol_valid tundra_example = true /\ 0 <= mol_eccentricity tundra_example <= 77 / 100 /\ 865 <= m_period tundra_example
      /\ in_window (c_epoch (m_circ tundra_example))).
Proof.
  split; [exact witness_printer_ok|]. split; [exact witness_epoch_ok|]. split; [exact kep_example_ok|]. split; [cbn; lra|]. split; [cbn; lra|].
  split; [exact circ_example_ok|]. split; [exact sso_example_ok|exact tundra_example_ok].
Qed.

(** *** C152 *)
(** Missing: the catalogue number (refuted below), the international designator, the
    ephemeris type, the element set number and the revolution number, which are not passed on. *)
Theorem c152_derived_elements_partial : forall epoch export_tle twoline2rv dm dr v es els,
  printer_contract export_tle -> epoch_contract epoch export_tle -> reader_contract twoline2rv ->
  construct_tle epoch v = Ok v -> shows v els -> pairs_ok epoch v es -> Forall in_window es ->
  exists w, tle_get_derived epoch export_tle twoline2rv v dm dr = Ok w /\ get_tle_count w = get_tle_count v
    /\ forall i el, nth_error els i = Some el -> reads_changed w i el dm dr /\ get_catalog_number w i = Ok 0%Z
        /\ exists t t', get_epoch epoch v i = Ok t /\ get_epoch epoch w i = Ok t' /\ Rabs (IZR t' - IZR t) <= 433.
Proof. exact derived_tle_lemma. Qed.
Print Assumptions c152_derived_elements_partial.

Example c152_witness : printer_contract witness_printer /\ epoch_contract witness_epoch witness_printer /\ reader_contract witness_reader
  /\ construct_tle witness_epoch iss = Ok iss /\ shows iss [iss_elements] /\ exists es, pairs_ok witness_epoch iss es /\ Forall in_window es.
Proof. exact (conj witness_printer_ok (conj witness_epoch_ok (conj witness_reader_ok (conj iss_constructed (conj iss_shows iss_epochs))))). Qed.

(** Deriving with no change at all loses the catalogue number. *)
Theorem c152_catalog_number_refuted : exists epoch export_tle twoline2rv v w,
  printer_contract export_tle /\ epoch_contract epoch export_tle /\ reader_contract twoline2rv /\ construct_tle epoch v = Ok v
  /\ tle_get_derived epoch export_tle twoline2rv v 0 0 = Ok w /\ get_catalog_number v 0 = Ok 25544%Z /\ get_catalog_number w 0 = Ok 0%Z.
Proof. exact catalog_lost. Qed.
Print Assumptions c152_catalog_number_refuted.
