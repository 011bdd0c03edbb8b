(** Proofs about orbits printed as two-line elements. *)
From Coq Require Import String ZArith QArith Reals Qreals List Bool Lra Lia Psatz Sorting.Sorted.
From Verif Require Import Base BaseFacts RBase RFacts Tle_Model Tle_Spec Tle_Proofs Tle_Proofs2 Orbit_Model Orbit_Spec Anomaly_Proofs AnomalyRound_Proofs
  AnomalyMean_Proofs Orbit_Proofs Orbit_Proofs2 Export_Model Export_Spec Export_Proofs.
Import ListNotations.
Open Scope Z_scope.

Lemma replace_none l : (forall k, nth_error l k <> Some 0) -> replace_char 0 85 l = l.
Proof.
  induction l as [|c r IH]; intro H; [reflexivity|]. cbn. f_equal.
  - destruct (Z.eqb_spec c 0) as [->|]; [|reflexivity]. exfalso. now apply (H 0%nat).
  - apply IH. intro k. apply (H (S k)).
Qed.
Lemma replace_nul l : forall j, (forall k, nth_error l k = Some 0 <-> k = j) -> replace_char 0 85 l = replace_at j 85 l.
Proof.
  induction l as [|c r IH]; intros j H; [destruct j; reflexivity|]. destruct j as [|j]; cbn.
  - pose proof (proj2 (H 0%nat) eq_refl) as E. cbn in E. injection E as ->. cbn. f_equal. apply replace_none.
    intros k E. apply (H (S k)) in E. discriminate.
  - f_equal.
    + destruct (Z.eqb_spec c 0) as [->|]; [|reflexivity]. pose proof (proj1 (H 0%nat) eq_refl). discriminate.
    + apply IH. intro k. split; intro E; [apply (H (S k)) in E; lia|]. subst. now apply (H (S j)).
Qed.
Lemma columns_replace j x l a b s : (j < a)%nat \/ (b < j)%nat -> columns l a b s -> columns (replace_at j x l) a b s.
Proof.
  intros Hj [L H]. split; [assumption|]. intros k Hk. rewrite nth_replace_other by lia. now apply H.
Qed.
Ltac moved H := let s := fresh "s" in let Hs := fresh in let Hf := fresh in
  destruct H as (s & Hs & Hf); exists s; split; [apply columns_replace; [lia|assumption]|assumption].
Lemma prints_replace x l1 l2 el : prints l1 l2 el -> prints (replace_at 7 x l1) l2 el.
Proof.
  intros [C N ND B T EN I R EC A M MM RV]. constructor; try assumption.
  - moved C. - moved N.
  - destruct ND as (m & e & Hm & He & Hf). exists m, e. split; [|split]; [apply columns_replace; [lia|assumption]|apply columns_replace; [lia|assumption]|assumption].
  - destruct B as (m & e & Hm & He & Hf). exists m, e. split; [|split]; [apply columns_replace; [lia|assumption]|apply columns_replace; [lia|assumption]|assumption].
  - moved T. - moved EN.
Qed.
Lemma check_replace l : checksum_ok l -> nth_error l 7 = Some 0 -> checksum_ok (replace_at 7 85 l).
Proof.
  intros (d & E & Hd & q & S) N. exists d. rewrite nth_replace_other by lia. split; [assumption|]. split; [assumption|]. exists q.
  rewrite (column_sum_replace 68 7 l 0 85 ltac:(lia) N). rewrite S. unfold wt. cbn. lia.
Qed.

(** The constructed elements. *)
Lemma exported_pair epoch n s l1 l2 el t : exported n s l1 l2 el -> epoch (replace_at 7 85 l1) l2 = Ok t ->
  replace_char 0 85 l1 = replace_at 7 85 l1 /\ pairs_ok epoch [replace_at 7 85 l1; l2] [t] /\ prints (replace_at 7 85 l1) l2 el.
Proof.
  intros X E. destruct X. split; [now apply replace_nul|]. split; [|now apply prints_replace].
  constructor; auto; [|constructor]. apply check_replace; [assumption|]. now apply ex_nul.
Qed.
Open Scope R_scope.
Lemma returns_reads c q x tol : returns c q -> off q x <= tol -> reads c x tol.
Proof. intros (r & E & H) O. exists r. split; [assumption|]. unfold off in *. now rewrite (Qeq_eqR _ _ H). Qed.

(** What the accessors say of a printed element set. *)
Record says (v : list pystr) (i : nat) (s : elset) : Prop := {
  sy_catalog : get_catalog_number v i = Ok 0%Z;
  sy_inc : reads (get_inclination v i) (degrees (e_inc s)) (1 / 20000);
  sy_raan : reads (get_raan v i) (degrees (e_node s)) (1 / 20000);
  sy_argp : reads (get_perigee_argument v i) (degrees (e_argp s)) (1 / 20000);
  sy_mo : reads (Tle_Model.get_mean_anomaly v i) (degrees (e_mo s)) (1 / 20000);
  sy_ecc : reads (get_eccentricity v i) (e_ecc s) (1 / 20000000);
  sy_no : reads (Tle_Model.get_mean_motion v i) (rev_per_day 1 (e_no s)) (1 / 200000000);
  sy_bstar : reads (get_b_star v i) (e_bstar s) (e_bstar s / 10000);
  sy_ndot : reads (get_first_derivative v i) (rev_per_day 2 (e_ndot s)) (1 / 200000000);
  sy_nddot : reads (get_second_derivative v i) (rev_per_day 3 (e_nddot s)) (rev_per_day 3 (e_nddot s) / 10000);
  sy_class : get_classification v i = Ok 85%Z
}.
Lemma exported_says v i s l1 l2 el : nth_error v (2 * i) = Some (replace_at 7 85%Z l1) -> nth_error v (2 * i + 1) = Some l2 ->
  exported 0 s l1 l2 el -> says v i s.
Proof.
  intros E1 E2 X. pose proof (prints_replace 85%Z _ _ _ (ex_prints _ _ _ _ _ X)) as P.
  destruct (accessors_lemma v i _ _ _ E1 E2 P) as (A1 & A2 & A3 & A4 & _ & _ & A7 & A8 & A9 & A10 & A11 & A12 & _).
  destruct X. constructor; try (eapply returns_reads; eassumption).
  - now rewrite A1, ex_catalog.
  - unfold get_classification, line1, index. unfold pystr in *. rewrite E1. cbn [bind]. rewrite (nth_replace_same 7 85%Z 0%Z) by now apply ex_nul. reflexivity.
Qed.
Section New.
Variables (epoch : pystr -> pystr -> pyres Z) (export_tle : Z -> elset -> pyres (pystr * pystr)).
Hypothesis (HP : printer_contract export_tle) (HE : epoch_contract epoch export_tle).
Lemma new_tle_lemma s : usable s -> printable s ->
  exists v t, new_tle epoch export_tle s = Ok v /\ get_tle_count v = 1%nat /\ says v 0 s
    /\ get_epoch epoch v 0 = Ok t /\ Rabs (IZR t - e_epoch s * 86400000000) <= 433.
Proof.
  intros U P. destruct (HP 0%Z s ltac:(lia) U P) as (l1 & l2 & el & E & X). destruct HE as (stamp & _ & S2 & S3).
  pose proof (S3 0%Z s l1 l2 ltac:(lia) U P E) as T. destruct (exported_pair epoch 0 s l1 l2 el _ X T) as (R & PR & _).
  exists [replace_at 7 85%Z l1; l2], (stamp (e_epoch s)). unfold new_tle, print_elset. rewrite E. cbn [bind fst snd]. rewrite R. split.
  - apply construct_iff. split; [reflexivity|]. split; [cbn; lia|]. exists [stamp (e_epoch s)]. split; [assumption|]. repeat constructor.
  - split; [reflexivity|]. split; [now apply (exported_says _ 0 s l1 l2 el)|]. split; [exact T|]. apply S2. apply P.
Qed.
End New.

(** ** The orbits *)
Lemma window_days t : in_window t -> 2558 <= IZR t / IZR DAY_US < 39083.
Proof.
  intros [L U]. apply IZR_le in L. apply IZR_lt in U. rewrite mult_IZR in L, U. unfold DAY_US. split; [|unfold Rdiv; lra].
  unfold Rdiv. lra.
Qed.
Lemma five_zero : five_digits 0. Proof. now left. Qed.
Lemma rev_zero k : rev_per_day k 0 = 0. Proof. unfold rev_per_day, Rdiv. ring. Qed.
Lemma days_us t : IZR t / IZR DAY_US * 86400000000 = IZR t. Proof. unfold DAY_US. field. Qed.
Definition kep_set (k : keplerian) (n : R) : elset :=
  mk_elset (IZR (c_epoch (k_circ k)) / IZR DAY_US) 0 0 0 (k_ecc k) (radians (k_argp k)) (radians (c_inc (k_circ k)))
    (radians (kep_mean_anomaly k)) (n * 2 * PI / 1440) (radians (c_raan (k_circ k))).
Lemma kep_printable k : kep_valid k = true -> 0 <= c_alt (k_circ k) -> k_ecc k <= 77 / 100 -> in_window (c_epoch (k_circ k)) ->
  exists n, Orbit_Model.get_mean_motion (c_alt (k_circ k)) = Ok n /\ 0 < n < 22 /\ kep_elset k = Ok (kep_set k n) /\ usable (kep_set k n) /\ printable (kep_set k n).
Proof.
  intros V HA HE W. destruct (kep_usable k V HA HE) as (s & Es & U). destruct (mean_motion_range _ HA) as (n & En & Hn).
  exists n. split; [assumption|]. split; [assumption|]. assert (E : kep_elset k = Ok (kep_set k n)) by (unfold kep_elset; rewrite En; reflexivity).
  split; [assumption|]. rewrite E in Es. injection Es as <-. split; [assumption|].
  unfold printable, kep_set. cbn [e_epoch e_ecc e_no e_bstar e_nddot e_ndot]. rewrite rev_motion, !rev_zero, Rabs_R0.
  pose proof (window_days _ W). repeat split; try lra; apply five_zero.
Qed.
Lemma says_orbit v ep ecc argp inc mo no node n : get_tle_count v = 1%nat ->
  says v 0 (mk_elset ep 0 0 0 ecc (radians argp) (radians inc) (radians mo) no (radians node)) -> rev_per_day 1 no = n ->
  reads_orbit v inc node argp ecc mo n.
Proof.
  intros C [] <-. cbn [e_inc e_node e_argp e_mo e_ecc e_no e_bstar e_ndot e_nddot] in *. rewrite !degrees_radians in *. rewrite !rev_zero in *.
  unfold Rdiv in *. rewrite !Rmult_0_l in *. constructor; auto.
Qed.
Lemma true_anomaly_small v nu : reads (Tle_Model.get_mean_anomaly v 0) nu (1 / 20000) -> reads (get_eccentricity v 0) 0 (1 / 20000000) ->
  reads_R (tle_get_true_anomaly v 0) nu (1 / 10000).
Proof.
  intros (m & Em & Hm) (e & Ee & He). unfold tle_get_true_anomaly. rewrite Em. cbn [bind]. rewrite Ee. cbn [bind]. eexists. split; [reflexivity|].
  unfold off in *. rewrite Rminus_0_r in He. rewrite m2t_eq. set (x := Q2R m) in *. set (y := Q2R e) in *.
  set (r := radians x). assert (B : Rabs (f_true y r - r) <= 21 / 10 * Rabs y).
  { unfold f_true. set (A := Rabs y) in *. assert (A0 : 0 <= A) by apply Rabs_pos.
    replace (r + (2 * y - 1 / 4 * y ^ 3) * sin r + 5 / 4 * y ^ 2 * sin (2 * r) + 13 / 12 * y ^ 3 * sin (3 * r) - r)
      with ((2 * y - 1 / 4 * y ^ 3) * sin r + 5 / 4 * y ^ 2 * sin (2 * r) + 13 / 12 * y ^ 3 * sin (3 * r)) by ring.
    assert (Hs : forall c z, Rabs (c * sin z) <= Rabs c).
    { intros c z. rewrite Rabs_mult. pose proof (Rabs_pos c). assert (Rabs (sin z) <= 1) by (apply Rabs_le; pose proof (SIN_bound z); lra). nra. }
    pose proof (Rabs_triang ((2 * y - 1 / 4 * y ^ 3) * sin r + 5 / 4 * y ^ 2 * sin (2 * r)) (13 / 12 * y ^ 3 * sin (3 * r))) as T1.
    pose proof (Rabs_triang ((2 * y - 1 / 4 * y ^ 3) * sin r) (5 / 4 * y ^ 2 * sin (2 * r))) as T2.
    pose proof (Hs (2 * y - 1 / 4 * y ^ 3) r) as H1. pose proof (Hs (5 / 4 * y ^ 2) (2 * r)) as H2. pose proof (Hs (13 / 12 * y ^ 3) (3 * r)) as H3.
    assert (K1 : Rabs (2 * y - 1 / 4 * y ^ 3) <= 2 * A + 1 / 4 * A ^ 3).
    { eapply Rle_trans; [apply Rabs_triang|]. rewrite Rabs_Ropp, !Rabs_mult, <- RPow_abs. fold A. rewrite (Rabs_right 2), (Rabs_right (1 / 4)) by lra. lra. }
    assert (K2 : Rabs (5 / 4 * y ^ 2) <= 5 / 4 * A ^ 2) by (rewrite Rabs_mult, <- RPow_abs, (Rabs_right (5 / 4)) by lra; fold A; lra).
    assert (K3 : Rabs (13 / 12 * y ^ 3) <= 13 / 12 * A ^ 3) by (rewrite Rabs_mult, <- RPow_abs, (Rabs_right (13 / 12)) by lra; fold A; lra).
    assert (A ^ 2 <= A / 100) by (simpl; nra). assert (A ^ 3 <= A / 100) by (simpl in *; nra). lra. }
  assert (D : degrees (f_true y r) - nu = degrees (f_true y r - r) + (x - nu)).
  { replace (degrees (f_true y r - r)) with (degrees (f_true y r) - degrees r) by (unfold degrees; ring). unfold r. rewrite degrees_radians. ring. }
  rewrite D. eapply Rle_trans; [apply Rabs_triang|]. assert (Rabs (degrees (f_true y r - r)) <= 60 * Rabs (f_true y r - r)).
  { unfold degrees. unfold Rdiv. rewrite !Rabs_mult, (Rabs_right 180) by lra. pose proof PI2_3_2 as P. unfold PI2 in P.
    assert (Rabs (/ PI) <= / 3) by (rewrite Rabs_right by (left; apply Rinv_0_lt_compat; lra); apply Rinv_le_contravar; lra).
    pose proof (Rabs_pos (f_true y r - r)). pose proof (Rabs_pos (/ PI)). nra. }
  lra.
Qed.

Lemma low_motion alt n : 0 <= alt <= 36000000 -> Orbit_Model.get_mean_motion alt = Ok n -> 1 / 2 <= n.
Proof.
  intros HA E. destruct (mean_motion_defined alt (proj1 HA)) as (n' & E' & P). rewrite E in E'. injection E' as <-.
  destruct (mean_motion_lemma alt n E) as (us & Eu & Hn). unfold DAY_US in Hn.
  assert (HM : - EARTH_MEAN_RADIUS < alt) by (unfold EARTH_MEAN_RADIUS, EARTH_EQUATORIAL_RADIUS, EARTH_POLAR_RADIUS; lra).
  destruct (orbit_period_lemma alt HM) as (p & us' & Ep & Eu' & Hp). rewrite Eu in Eu'. injection Eu' as <-.
  destruct (period_law_lemma _ _ Ep) as [PP L]. pose proof EMR_bounds as EB. set (a := EARTH_MEAN_RADIUS + alt) in *.
  assert (Ha : 0 < a <= 42372000) by (unfold a; lra). assert (A3 : a ^ 3 <= 42372000 ^ 3) by (apply pow_incr; lra).
  pose proof PI_small as PS. pose proof PI_RGT_0 as P0. assert (PI ^ 2 <= (32 / 10) ^ 2) by (apply pow_incr; lra).
  assert (p ^ 2 * EARTH_MU <= 4 * (32 / 10) ^ 2 * 42372000 ^ 3) by (rewrite L; apply Rmult_le_compat; [nra|apply pow_le; lra|lra|assumption]).
  unfold EARTH_MU in *. assert (p <= 90000) by (destruct (Rle_dec p 90000) as [|N]; [assumption|exfalso]; assert (90000 * 90000 <= p * p) by nra; simpl in *; lra).
  assert (IZR us <= 90001000000) by (unfold Rabs in Hp; destruct (Rcase_abs _) in Hp; lra).
  destruct (Rle_dec (1 / 2) n) as [|N]; [assumption|exfalso]. assert (n * IZR us <= 1 / 2 * 90001000000) by nra. lra.
Qed.
Lemma altitude_printed v alt n : 0 <= alt <= 36000000 -> Orbit_Model.get_mean_motion alt = Ok n ->
  reads (Tle_Model.get_mean_motion v 0) n (1 / 200000000) -> reads_R (tle_get_altitude v 0) alt 1.
Proof.
  intros HA En (q & Eq & Hq). unfold tle_get_altitude. rewrite Eq. cbn [bind]. eexists. split; [reflexivity|].
  pose proof (altitude_recovered_lemma alt n (proj1 HA) En) as R0. pose proof (low_motion alt n HA En) as Hn. unfold off in Hq.
  set (m := Q2R q) in *. assert (Hm : m - n <= 1 / 200000000 /\ n - m <= 1 / 200000000) by (unfold Rabs in Hq; destruct (Rcase_abs _) in Hq; lra).
  destruct (tle_semimajor_cube n ltac:(lra)) as [C1 P1]. destruct (tle_semimajor_cube m ltac:(lra)) as [C2 P2].
  unfold tle_altitude in *. set (a := tle_semimajor n) in *. set (b := tle_semimajor m) in *. pose proof EMR_bounds as EB.
  assert (Ba : a <= 42373000) by (unfold Rabs in R0; destruct (Rcase_abs _) in R0; lra).
  assert (K : a ^ 3 * (n * n) = b ^ 3 * (m * m)).
  { rewrite C1, C2. pose proof PI_RGT_0. field. repeat split; nra. }
  assert (S : Rabs (b - a) <= 95 / 100).
  { apply Rabs_le. assert (M : 0 < m * m) by nra.
    assert (D : (b - a) * (b * b + a * b + a * a) * (m * m) = a * a * a * ((n - m) * (n + m))) by (simpl in K; nra).
    assert (T : - (95 / 100) * (m * m) <= a * ((n - m) * (n + m)) <= 95 / 100 * (m * m)).
    { assert (E1 : - (1 / 200000000) * (21 / 10 * m) <= (n - m) * (n + m) <= 1 / 200000000 * (21 / 10 * m)) by nra.
      split; nra. }
    assert (Q : 0 < b * b + a * b) by nra.
    assert (W : 0 < (b * b + a * b + a * a) * (m * m)) by (apply Rmult_lt_0_compat; nra).
    assert (G : a * a * (a * ((n - m) * (n + m))) <= 95 / 100 * ((a * a) * (m * m)) /\ - (95 / 100) * ((a * a) * (m * m)) <= a * a * (a * ((n - m) * (n + m)))).
    { assert (0 <= a * a) by nra. split; nra. }
    assert (X : (a * a) * (m * m) <= (b * b + a * b + a * a) * (m * m)) by nra.
    split.
    - destruct (Rle_dec (- (95 / 100)) (b - a)) as [|N]; [assumption|exfalso]. assert ((b - a) * ((b * b + a * b + a * a) * (m * m)) < - (95 / 100) * ((b * b + a * b + a * a) * (m * m))) by (apply Rmult_lt_compat_r; lra). nra.
    - destruct (Rle_dec (b - a) (95 / 100)) as [|N]; [assumption|exfalso]. assert (95 / 100 * ((b * b + a * b + a * a) * (m * m)) < (b - a) * ((b * b + a * b + a * a) * (m * m))) by (apply Rmult_lt_compat_r; lra). nra. }
  replace (b - EARTH_MEAN_RADIUS - alt) with ((b - a) + (a - EARTH_MEAN_RADIUS - alt)) by ring. eapply Rle_trans; [apply Rabs_triang|]. lra.
Qed.
