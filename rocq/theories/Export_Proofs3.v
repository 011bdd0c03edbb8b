(** Proofs about orbits printed as two-line elements, and derived two-line elements. *)
From Coq Require Import String ZArith QArith Reals Qreals List Bool Lra Lia Psatz Sorting.Sorted.
From Verif Require Import Base BaseFacts RBase RFacts Tle_Model Tle_Spec Tle_Proofs Tle_Proofs2 Orbit_Model Orbit_Spec Anomaly_Proofs AnomalyRound_Proofs
  AnomalyMean_Proofs Orbit_Proofs Orbit_Proofs2 Export_Model Export_Spec Export_Proofs Export_Proofs2.
Import ListNotations.
Open Scope R_scope.

Section Orbits.
Variables (epoch : pystr -> pystr -> pyres Z) (export_tle : Z -> elset -> pyres (pystr * pystr)).
Hypothesis (HP : printer_contract export_tle) (HE : epoch_contract epoch export_tle).
Lemma kep_set_tle k : kep_valid k = true -> 0 <= c_alt (k_circ k) -> k_ecc k <= 77 / 100 -> in_window (c_epoch (k_circ k)) ->
  exists v t n, bind (kep_elset k) (new_tle epoch export_tle) = Ok v /\ Orbit_Model.get_mean_motion (c_alt (k_circ k)) = Ok n
    /\ reads_orbit v (c_inc (k_circ k)) (c_raan (k_circ k)) (k_argp k) (k_ecc k) (kep_mean_anomaly k) n
    /\ get_epoch epoch v 0 = Ok t /\ Rabs (IZR t - IZR (c_epoch (k_circ k))) <= 433.
Proof.
  intros V HA HC W. destruct (kep_printable k V HA HC W) as (n & En & _ & Es & U & P).
  destruct (new_tle_lemma epoch export_tle HP HE _ U P) as (v & t & Ev & C & S & Et & T). exists v, t, n. rewrite Es. cbn [bind].
  split; [assumption|]. split; [assumption|]. split; [|split; [assumption|]].
  - unfold kep_set in S. eapply says_orbit; [assumption|exact S|]. apply rev_motion.
  - unfold kep_set in T. cbn [e_epoch] in T. rewrite days_us in T. exact T.
Qed.
Lemma kep_tle_lemma k : kep_valid k = true -> 0 <= c_alt (k_circ k) -> k_ecc k <= 77 / 100 -> in_window (c_epoch (k_circ k)) ->
  exists v t n, kep_conv (new_tle epoch export_tle) k = Ok v /\ Orbit_Model.get_mean_motion (c_alt (k_circ k)) = Ok n
    /\ reads_orbit v (c_inc (k_circ k)) (c_raan (k_circ k)) (k_argp k) (k_ecc k) (true_anomaly_to_mean_anomaly (c_nu (k_circ k)) (k_ecc k)) n
    /\ get_epoch epoch v 0 = Ok t /\ Rabs (IZR t - IZR (c_epoch (k_circ k))) <= 433.
Proof. exact (kep_set_tle k). Qed.
Lemma zero_set_tle c : circ_valid c = true -> 0 <= c_alt c -> in_window (c_epoch c) ->
  exists v t n, bind (kep_elset (mk_kep c 0 0)) (new_tle epoch export_tle) = Ok v /\ Orbit_Model.get_mean_motion (c_alt c) = Ok n
    /\ reads_orbit v (c_inc c) (c_raan c) 0 0 (c_nu c) n /\ get_epoch epoch v 0 = Ok t /\ Rabs (IZR t - IZR (c_epoch c)) <= 433
    /\ reads_R (tle_get_true_anomaly v 0) (c_nu c) (1 / 10000) /\ (c_alt c <= 36000000 -> reads_R (tle_get_altitude v 0) (c_alt c) 1).
Proof.
  intros V HA W. destruct (kep_set_tle (mk_kep c 0 0) (circ_kep c V) HA ltac:(cbn; lra) W) as (v & t & n & E & En & R & Et & T).
  cbn [k_circ k_argp k_ecc] in *. unfold kep_mean_anomaly in R. cbn [k_circ k_ecc] in R. rewrite t2m_zero in R.
  exists v, t, n. do 5 (split; [assumption|]). split; [apply true_anomaly_small; apply R|]. intro HU. eapply altitude_printed; [split; eassumption|eassumption|apply R].
Qed.
Lemma circ_tle_lemma rc c : circ_valid c = true -> 0 <= c_alt c -> in_window (c_epoch c) ->
  exists v t n, circ_conv (new_tle epoch export_tle) rc c = Ok v /\ Orbit_Model.get_mean_motion (c_alt c) = Ok n
    /\ reads_orbit v (c_inc c) (c_raan c) 0 0 (c_nu c) n /\ get_epoch epoch v 0 = Ok t /\ Rabs (IZR t - IZR (c_epoch c)) <= 433
    /\ reads_R (tle_get_true_anomaly v 0) (c_nu c) (1 / 10000) /\ (c_alt c <= 36000000 -> reads_R (tle_get_altitude v 0) (c_alt c) 1).
Proof. intros V HA W. unfold circ_conv. rewrite fresh_conv by now apply circ_kep. now apply zero_set_tle. Qed.
Lemma sso_tle_lemma rc sun s : sso_valid s = true -> in_window (s_epoch s) ->
  exists v t n inc, sso_conv (new_tle epoch export_tle) rc sun s = Ok v /\ Orbit_Model.get_mean_motion (s_alt s) = Ok n /\ sso_inclination s = Some inc
    /\ reads_orbit v inc (sso_raan sun s) 0 0 (s_nu s) n /\ get_epoch epoch v 0 = Ok t /\ Rabs (IZR t - IZR (s_epoch s)) <= 433
    /\ reads_R (tle_get_true_anomaly v 0) (s_nu s) (1 / 10000) /\ reads_R (tle_get_altitude v 0) (s_alt s) 1.
Proof.
  intros V W. destruct (sso_kep sun s V) as (inc & Ei & I & K). pose proof (sso_alt s V) as A.
  assert (C : circ_valid (mk_circ (s_alt s) (s_nu s) (s_epoch s) inc (sso_raan sun s)) = true) by now apply kep_valid_spec in K as [K _].
  destruct (zero_set_tle _ C (proj1 A) W) as (v & t & n & E & En & R & Et & T & N & H). cbn [c_alt c_nu c_epoch c_inc c_raan] in *.
  exists v, t, n, inc. unfold sso_conv. rewrite Ei, fresh_conv by assumption. do 2 (split; [assumption|]). split; [reflexivity|]. do 4 (split; [assumption|]). apply H. pose proof EMR_bounds. lra.
Qed.
Lemma mol_tle_lemma m : mol_valid m = true -> 0 <= mol_eccentricity m <= 77 / 100 -> 865 <= m_period m -> in_window (c_epoch (m_circ m)) ->
  exists v t, mol_conv (new_tle epoch export_tle) m = Ok v
    /\ reads_orbit v (c_inc (m_circ m)) (c_raan (m_circ m)) (m_argp m) (mol_eccentricity m) (true_anomaly_to_mean_anomaly (c_nu (m_circ m)) (mol_eccentricity m)) (86400 / m_period m)
    /\ get_epoch epoch v 0 = Ok t /\ Rabs (IZR t - IZR (c_epoch (m_circ m))) <= 433.
Proof.
  intros V HC PP W. assert (E : rev_per_day 1 (e_no (mol_elset m)) = 86400 / m_period m).
  { unfold rev_per_day, mol_elset. cbn [e_no]. pose proof PI_RGT_0. field. split; lra. }
  assert (P : printable (mol_elset m)).
  { unfold printable. rewrite E. unfold mol_elset. cbn [e_epoch e_ecc e_no e_bstar e_nddot e_ndot]. rewrite !rev_zero, Rabs_R0.
    pose proof (window_days _ W). repeat split; try lra; try apply five_zero.
    apply Rmult_lt_reg_r with (m_period m); [lra|]. unfold Rdiv at 1. rewrite Rmult_assoc, Rinv_l by lra. lra. }
  destruct (new_tle_lemma epoch export_tle HP HE _ (mol_usable m V HC) P) as (v & t & Ev & C & S & Et & T). exists v, t. split; [assumption|]. split; [|split; [assumption|]].
  - eapply says_orbit; [assumption|exact S|exact E].
  - unfold mol_elset in T. cbn [e_epoch] in T. rewrite days_us in T. exact T.
Qed.
End Orbits.

(** ** Derived two-line elements *)
Lemma pairs_epoch epoch v es : pairs_ok epoch v es -> forall i t, nth_error es i = Some t -> get_epoch epoch v i = Ok t.
Proof.
  induction 1 as [|a b r e es F1 F2 C1 C2 E P IH]; intros i t H; [destruct i; discriminate|]. destruct i as [|i].
  - injection H as <-. exact E.
  - cbn [nth_error] in H. rewrite <- (IH i t H). unfold get_epoch, index. replace (2 * S i)%nat with (S (S (2 * i))) by lia.
    replace (S (S (2 * i)) + 1)%nat with (S (S (2 * i + 1))) by lia. reflexivity.
Qed.
Lemma says_shift c d w i s : says w i s -> says (c :: d :: w) (S i) s.
Proof.
  assert (L1 : line1 (c :: d :: w) (S i) = line1 w i) by (unfold line1, index; replace (2 * S i)%nat with (S (S (2 * i))) by lia; reflexivity).
  assert (L2 : line2 (c :: d :: w) (S i) = line2 w i).
  { unfold line2, index. replace (2 * S i + 1)%nat with (S (S (2 * i + 1))) by lia. reflexivity. }
  intros []. constructor; unfold get_catalog_number, get_inclination, get_raan, get_perigee_argument, Tle_Model.get_mean_anomaly, get_eccentricity,
    Tle_Model.get_mean_motion, get_b_star, get_first_derivative, get_second_derivative, get_classification in *; rewrite ?L1, ?L2; assumption.
Qed.
Definition decoded (s : elset) (el : elements) : Prop :=
  e_inc s = radians (Q2R (el_incl el)) /\ e_node s = radians (Q2R (el_raan el))
  /\ e_argp s = radians (Q2R (el_argp el)) /\ e_mo s = radians (Q2R (el_anomaly el))
  /\ e_ecc s = Q2R (el_ecc el) /\ rev_per_day 1 (e_no s) = Q2R (el_motion el)
  /\ e_bstar s = Q2R (el_bstar el) /\ rev_per_day 2 (e_ndot s) = Q2R (el_ndot el)
  /\ rev_per_day 3 (e_nddot s) = Q2R (el_nddot el).
Lemma rev_pos x : 0 < rev_per_day 1 x -> 0 < x.
Proof.
  unfold rev_per_day. intro H. pose proof PI_RGT_0. destruct (Rlt_dec 0 x) as [|N]; [assumption|exfalso].
  assert (x * 1440 ^ 1 / (2 * PI) <= 0); [|lra]. unfold Rdiv. assert (0 < / (2 * PI)) by (apply Rinv_0_lt_compat; lra). simpl. nra.
Qed.
Lemma shifted_ok t s el dm dr : decoded s el -> elements_ok el -> in_window t -> usable (shifted t s dm dr) /\ printable (shifted t s dm dr).
Proof.
  intros (D1 & D2 & D3 & D4 & D5 & D6 & D7 & D8 & D9) (O1 & O2 & O3 & O4 & O5 & O6 & O7) W. pose proof PI_RGT_0 as P0.
  unfold usable, printable, shifted. cbn [e_epoch e_ecc e_inc e_argp e_mo e_node e_no e_bstar e_nddot e_ndot].
  rewrite D1, D3, D5, D6, D7, D8, D9. pose proof (window_days _ W).
  pose proof (rmod_range (e_mo s + radians dm) (2 * PI) ltac:(lra)) as R1. pose proof (rmod_range (e_node s + radians dr) (2 * PI) ltac:(lra)) as R2.
  assert (N : 0 < e_no s) by (apply rev_pos; lra).
  assert (I : 0 <= radians (Q2R (el_incl el)) <= PI) by (unfold radians; split; nra).
  assert (A : 0 <= radians (Q2R (el_argp el)) <= 2 * PI) by (unfold radians; split; nra).
  repeat split; try assumption; lra.
Qed.
Lemma reads_mod c x d tol : reads c (degrees (rmod (radians x + radians d) (2 * PI))) tol -> reads_angle c (x + d) tol.
Proof.
  intro R. exists (degrees (rmod (radians x + radians d) (2 * PI))). pose proof PI_RGT_0. split; [|split; [|assumption]].
  - destruct (rmod_eqm (radians x + radians d) (2 * PI)) as [k Hk]. exists k. rewrite Hk. unfold degrees, radians. field. lra.
  - pose proof (rmod_range (radians x + radians d) (2 * PI) ltac:(lra)) as B. rewrite <- degrees_2PI. split; [|apply -> degrees_lt; lra].
    replace 0 with (degrees 0) by (unfold degrees; lra). unfold degrees, Rdiv. assert (0 < / PI) by (apply Rinv_0_lt_compat; lra). nra.
Qed.
Lemma says_changed w i t s el dm dr : decoded s el -> says w i (shifted t s dm dr) -> reads_changed w i el dm dr.
Proof.
  intros (D1 & D2 & D3 & D4 & D5 & D6 & D7 & D8 & D9) []. unfold shifted in *. cbn [e_epoch e_ecc e_inc e_argp e_mo e_node e_no e_bstar e_nddot e_ndot] in *.
  rewrite D1, D3, D5, D6, D7, D8, D9, ?degrees_radians in *. rewrite D2, D4 in *. constructor; try assumption; now apply reads_mod.
Qed.
Section Derived.
Variables (epoch : pystr -> pystr -> pyres Z) (export_tle : Z -> elset -> pyres (pystr * pystr)) (twoline2rv : pystr -> pystr -> pyres elset).
Hypothesis (HP : printer_contract export_tle) (HR : reader_contract twoline2rv).
Variables (stamp : R -> Z).
Hypothesis S3 : forall satnum s l1 l2, (0 <= satnum < 100000)%Z -> usable s -> printable s -> export_tle satnum s = Ok (l1, l2) ->
         epoch (replace_at 7 85%Z l1) l2 = Ok (stamp (e_epoch s)).
Lemma derive_lines_lemma dm dr v es els : pairs_ok epoch v es -> shows v els -> Forall in_window es ->
  exists w, derive_lines epoch export_tle twoline2rv dm dr v = Ok w /\ length w = length v
    /\ pairs_ok epoch w (map (fun t => stamp (IZR t / IZR DAY_US)) es)
    /\ forall i el, nth_error els i = Some el -> exists t s, nth_error es i = Some t /\ decoded s el /\ says w i (shifted t s dm dr).
Proof.
  intros P. revert els. induction P as [|a b r e es F1 F2 C1 C2 E P IH]; intros els SH W; inversion SH; subst.
  - exists []. split; [reflexivity|]. split; [reflexivity|]. split; [constructor|]. intros [|i] el H; discriminate.
  - inversion W; subst. rename els0 into els. destruct (IH els) as (w & Ew & L & PW & SW); [assumption|assumption|].
    destruct (HR a b el F1 F2) as (s & Es & D); [assumption|].
    destruct (shifted_ok e s el dm dr D) as (U & PR); [assumption|assumption|].
    destruct (HP 0%Z _ ltac:(lia) U PR) as (l1 & l2 & el' & EX & X).
    pose proof (S3 0%Z _ l1 l2 ltac:(lia) U PR EX) as T. destruct (exported_pair epoch 0 _ l1 l2 el' _ X T) as (RC & PP & _).
    exists (replace_at 7 85%Z l1 :: l2 :: w). cbn [derive_lines]. rewrite Es. cbn [bind]. rewrite E. cbn [bind]. unfold print_elset. rewrite EX. cbn [bind fst snd].
    rewrite Ew. cbn [bind]. rewrite RC. split; [reflexivity|]. split; [cbn [length]; lia|]. split.
    + inversion PP; subst. cbn [map]. constructor; assumption.
    + intros [|i] el0 H; cbn [nth_error] in H.
      * injection H as <-. exists e, s. split; [reflexivity|]. split; [assumption|]. eapply exported_says; [reflexivity|reflexivity|exact X].
      * destruct (SW i el0 H) as (t & s0 & Ht & D0 & S0). exists t, s0. split; [assumption|]. split; [assumption|]. now apply says_shift.
Qed.
End Derived.
Lemma sorted_map (f : Z -> Z) es (Q : Z -> Prop) : (forall x y, Q x -> Q y -> (x <= y)%Z -> (f x <= f y)%Z) -> Forall Q es -> Sorted Z.le es -> Sorted Z.le (map f es).
Proof.
  intros M F S. induction S as [|x l S IH H]; [constructor|]. inversion F; subst. cbn [map]. constructor; [now apply IH|].
  destruct H as [|y l' H]; cbn; constructor. apply M; [assumption| |assumption]. now inversion H3.
Qed.
Lemma derived_tle_lemma epoch export_tle twoline2rv dm dr v es els :
  printer_contract export_tle -> epoch_contract epoch export_tle -> reader_contract twoline2rv ->
  construct_tle epoch v = Ok v -> shows v els -> pairs_ok epoch v es -> Forall in_window es ->
  exists w, tle_get_derived epoch export_tle twoline2rv v dm dr = Ok w /\ get_tle_count w = get_tle_count v
    /\ forall i el, nth_error els i = Some el -> reads_changed w i el dm dr /\ get_catalog_number w i = Ok 0%Z
        /\ exists t t', get_epoch epoch v i = Ok t /\ get_epoch epoch w i = Ok t' /\ Rabs (IZR t' - IZR t) <= 433.
Proof.
  intros HP (stamp & S1 & S2 & S3) HR C SH P W.
  destruct (derive_lines_lemma epoch export_tle twoline2rv HP HR stamp S3 dm dr v es els P SH W) as (w & Ew & L & PW & SW).
  exists w. unfold tle_get_derived. rewrite Ew. cbn [bind]. split; [|split; [unfold get_tle_count; now rewrite L|]].
  - apply construct_iff in C as (_ & LV & es' & P' & SO). apply construct_iff. split; [reflexivity|]. split; [lia|].
    eexists. split; [exact PW|]. assert (es = es') as <-.
    { pose proof (proj2 (is_valid_epochs epoch v (pairs_even epoch v es P)) ltac:(eauto)) as (_ & e0 & E0).
      rewrite <- (epochs_pairs epoch v e0 es E0 P). now apply (epochs_pairs epoch v e0 es'). }
    apply (sorted_map _ es in_window); [|assumption|assumption]. intros x y Wx Wy H. apply S1.
    + apply (window_days _ Wx). + apply IZR_le in H. unfold DAY_US, Rdiv. lra. + apply (window_days _ Wy).
  - intros i el H. destruct (SW i el H) as (t & s & Ht & D & S). split; [now apply (says_changed w i t s)|]. split; [apply S|].
    exists t, (stamp (IZR t / IZR DAY_US)). split; [now apply (pairs_epoch epoch v es)|].
    split; [apply (pairs_epoch epoch w _ PW); exact (map_nth_error (fun t : Z => stamp (IZR t / IZR DAY_US)) i es Ht)|].
    rewrite <- (days_us t) at 2. apply S2, window_days. rewrite Forall_forall in W. apply W. eapply nth_error_In; eassumption.
Qed.
