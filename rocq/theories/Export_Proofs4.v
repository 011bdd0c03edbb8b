(** Fresh objects, and concrete cases, for the property theorems on conversions. *)
From Coq Require Import String ZArith QArith Qround Reals Qreals List Bool Lra Lia Sorting.Sorted.
From Verif Require Import Base BaseFacts RBase RFacts Tle_Model Tle_Spec Tle_Proofs Tle_Proofs2 Tle_Props Orbit_Model Orbit_Spec
  Orbit_Proofs AnomalyMean_Proofs Export_Model Export_Spec Export_Proofs Export_Proofs2 Export_Proofs3 Export_Witness.
Import ListNotations.
Open Scope R_scope.

Lemma to_tle_fresh {F T} (conv : F -> pyres T) rc lazy f t : conv f = Ok t -> snd (to_tle conv rc lazy (mk_object f None)) = Ok t.
Proof. intro E. unfold to_tle. cbn [tle_cache fields]. destruct lazy as [[]|], rc; rewrite E; reflexivity. Qed.

Section Orbits.
Variables (epoch : pystr -> pystr -> pyres Z) (export_tle : Z -> elset -> pyres (pystr * pystr)).
Hypothesis (HP : printer_contract export_tle) (HE : epoch_contract epoch export_tle).
Variables (rc : bool) (lazy : option bool).
Lemma kep_to_tle k : kep_valid k = true -> 0 <= c_alt (k_circ k) -> k_ecc k <= 77 / 100 -> in_window (c_epoch (k_circ k)) ->
  exists v t n, snd (to_tle (kep_conv (new_tle epoch export_tle)) rc lazy (mk_object k None)) = Ok v
    /\ Orbit_Model.get_mean_motion (c_alt (k_circ k)) = Ok n
    /\ reads_orbit v (c_inc (k_circ k)) (c_raan (k_circ k)) (k_argp k) (k_ecc k) (true_anomaly_to_mean_anomaly (c_nu (k_circ k)) (k_ecc k)) n
    /\ get_epoch epoch v 0 = Ok t /\ Rabs (IZR t - IZR (c_epoch (k_circ k))) <= 433.
Proof.
  intros H1 H2 H3 H4. destruct (kep_tle_lemma _ _ HP HE k H1 H2 H3 H4) as (v & t & n & E & H). exists v, t, n. split; [now apply to_tle_fresh|exact H].
Qed.
Lemma circ_to_tle c : circ_valid c = true -> 0 <= c_alt c -> in_window (c_epoch c) ->
  exists v t n, snd (to_tle (circ_conv (new_tle epoch export_tle) rc) rc lazy (mk_object c None)) = Ok v /\ Orbit_Model.get_mean_motion (c_alt c) = Ok n
    /\ reads_orbit v (c_inc c) (c_raan c) 0 0 (c_nu c) n /\ get_epoch epoch v 0 = Ok t /\ Rabs (IZR t - IZR (c_epoch c)) <= 433
    /\ reads_R (tle_get_true_anomaly v 0) (c_nu c) (1 / 10000) /\ (c_alt c <= 36000000 -> reads_R (tle_get_altitude v 0) (c_alt c) 1).
Proof.
  intros H1 H2 H3. destruct (circ_tle_lemma _ _ HP HE rc c H1 H2 H3) as (v & t & n & E & H). exists v, t, n. split; [now apply to_tle_fresh|exact H].
Qed.
Lemma sso_to_tle sun s : sso_valid s = true -> in_window (s_epoch s) ->
  exists v t n inc, snd (to_tle (sso_conv (new_tle epoch export_tle) rc sun) rc lazy (mk_object s None)) = Ok v
    /\ Orbit_Model.get_mean_motion (s_alt s) = Ok n /\ sso_inclination s = Some inc
    /\ reads_orbit v inc (sso_raan sun s) 0 0 (s_nu s) n /\ get_epoch epoch v 0 = Ok t /\ Rabs (IZR t - IZR (s_epoch s)) <= 433
    /\ reads_R (tle_get_true_anomaly v 0) (s_nu s) (1 / 10000) /\ reads_R (tle_get_altitude v 0) (s_alt s) 1.
Proof.
  intros H1 H2. destruct (sso_tle_lemma _ _ HP HE rc sun s H1 H2) as (v & t & n & inc & E & H). exists v, t, n, inc. split; [now apply to_tle_fresh|exact H].
Qed.
Lemma mol_to_tle m : mol_valid m = true -> 0 <= mol_eccentricity m <= 77 / 100 -> 865 <= m_period m -> in_window (c_epoch (m_circ m)) ->
  exists v t, snd (to_tle (mol_conv (new_tle epoch export_tle)) rc lazy (mk_object m None)) = Ok v
    /\ reads_orbit v (c_inc (m_circ m)) (c_raan (m_circ m)) (m_argp m) (mol_eccentricity m)
         (true_anomaly_to_mean_anomaly (c_nu (m_circ m)) (mol_eccentricity m)) (86400 / m_period m)
    /\ get_epoch epoch v 0 = Ok t /\ Rabs (IZR t - IZR (c_epoch (m_circ m))) <= 433.
Proof.
  intros H1 H2 H3 H4. destruct (mol_tle_lemma _ _ HP HE m H1 H2 H3 H4) as (v & t & E & H). exists v, t. split; [now apply to_tle_fresh|exact H].
Qed.
End Orbits.

(** ** The documented elements *)
Definition iss_elements : elements := mk_elements 25544 (3432 # 100000000) 0 (70541 # 1000000000) 0 999
    (516455 # 10000) (414969 # 10000) (3508 # 10000000) (680432 # 10000) (783395 # 10000)
    (1548957534 # 100000000) 28675.
Lemma iss_pair : exists l1 l2, iss = [l1; l2] /\ prints l1 l2 iss_elements.
Proof. exact c04_witness. Qed.
Lemma iss_elements_ok : elements_ok iss_elements.
Proof.
  unfold elements_ok, five_digits, iss_elements. cbn [el_catalog el_ndot el_nddot el_bstar el_type el_number el_incl el_raan el_ecc el_argp el_anomaly el_motion el_rev].
  unfold Q2R. cbn [Qnum Qden]. simpl pow. repeat split; try lra; try (apply Rabs_le; lra); (left; lra) || (right; lra).
Qed.
Lemma iss_constructed : construct_tle witness_epoch iss = Ok iss.
Proof. vm_compute. reflexivity. Qed.
Lemma iss_shows : shows iss [iss_elements].
Proof. destruct iss_pair as (l1 & l2 & E & P). rewrite E. constructor; [assumption|apply iss_elements_ok|constructor]. Qed.
Lemma iss_epochs : exists es, pairs_ok witness_epoch iss es /\ Forall in_window es.
Proof.
  destruct (proj1 (construct_iff witness_epoch iss iss) iss_constructed) as (_ & _ & es & P & _). exists es. split; [assumption|].
  inversion P as [|a b r e es' F1 F2 K1 K2 E P' Ea Eb]; subst. inversion P'; subst.
  constructor; [|constructor]. vm_compute in E. injection E as <-. unfold in_window. lia.
Qed.
Lemma catalog_lost : exists epoch export_tle twoline2rv v w,
  printer_contract export_tle /\ epoch_contract epoch export_tle /\ reader_contract twoline2rv /\ construct_tle epoch v = Ok v
  /\ tle_get_derived epoch export_tle twoline2rv v 0 0 = Ok w /\ get_catalog_number v 0 = Ok 25544%Z /\ get_catalog_number w 0 = Ok 0%Z.
Proof.
  destruct iss_epochs as (es & P & W).
  destruct (derived_tle_lemma witness_epoch witness_printer witness_reader 0 0 iss es [iss_elements] witness_printer_ok witness_epoch_ok witness_reader_ok
    iss_constructed iss_shows P W) as (w & E & _ & H). destruct (H 0%nat iss_elements eq_refl) as (_ & C & _).
  exists witness_epoch, witness_printer, witness_reader, iss, w. repeat (split; [first [apply witness_printer_ok|apply witness_epoch_ok|apply witness_reader_ok|apply iss_constructed|exact E|reflexivity]|]). exact C.
Qed.
(** ** Concrete orbits *)
Definition kep_example : keplerian := mk_kep (mk_circ 400000 120 (26084 * 86400000000) 51 30) (1 / 2) 90.
Lemma kep_example_ok : kep_valid kep_example = true /\ 0 <= c_alt (k_circ kep_example) /\ k_ecc kep_example <= 77 / 100 /\ in_window (c_epoch (k_circ kep_example)).
Proof.
  split; [|split; [cbn; lra|split; [cbn; lra|unfold in_window; cbn; lia]]]. unfold kep_valid, circ_valid, in_bound, kep_example. cbn [k_circ k_ecc k_argp c_alt c_nu c_inc c_raan].
  rewrite !andb_true_iff, !Rleb_spec, !Rltb_spec. lra.
Qed.
Definition circ_example : circular := mk_circ 600000 200 (26084 * 86400000000) 98 30.
Lemma circ_example_ok : circ_valid circ_example = true /\ 0 <= c_alt circ_example /\ in_window (c_epoch circ_example) /\ c_alt circ_example <= 36000000.
Proof.
  split; [|split; [cbn; lra|split; [unfold in_window; cbn; lia|cbn; lra]]]. unfold circ_valid, in_bound, circ_example. cbn [c_alt c_nu c_inc c_raan].
  rewrite !andb_true_iff, !Rleb_spec, !Rltb_spec. lra.
Qed.
Definition sso_example : sso := mk_sso 600000 200 (26084 * 86400000000) 37800000000 false.
Lemma sso_example_ok : sso_valid sso_example = true /\ in_window (s_epoch sso_example).
Proof.
  split; [|unfold in_window; cbn; lia]. unfold sso_valid, in_bound, sso_example, EARTH_MEAN_RADIUS, EARTH_POLAR_RADIUS, EARTH_EQUATORIAL_RADIUS. cbn [s_alt s_nu s_epoch s_ect s_asc].
  rewrite !andb_true_iff, !Rleb_spec, !Rltb_spec, Z.leb_le, Z.ltb_lt. unfold DAY_US. repeat split; try lra; lia.
Qed.
Definition tundra_example : molniya := mk_mol (mk_circ 24000000 120 (26084 * 86400000000) 63 30) 86400 270 (Some (2 / 10)).
Lemma tundra_example_ok : mol_valid tundra_example = true /\ 0 <= mol_eccentricity tundra_example <= 77 / 100 /\ 865 <= m_period tundra_example
  /\ in_window (c_epoch (m_circ tundra_example)).
Proof.
  split; [|split; [cbn; lra|split; [cbn; lra|unfold in_window; cbn; lia]]]. unfold mol_valid, circ_valid, in_bound, tundra_example. cbn [m_circ m_period m_argp m_ecc c_alt c_nu c_inc c_raan].
  rewrite !andb_true_iff, !Rleb_spec, !Rltb_spec. lra.
Qed.
