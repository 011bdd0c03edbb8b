(** Orbit periods, access times, ground velocity and sample counts in binary64. *)
From Coq Require Import ZArith Reals Lra Lia Bool List.
From Flocq Require Import Core Relative IEEE754.BinarySingleNaN.
From Verif Require Import Base RBase RFacts Float_Model Float_Spec Float_Proofs FGrid_Model FGrid_Spec FGrid_Proofs FGrid_Proofs2
  FTime_Model FTime_Spec FTime_Proofs AnomalyRound_Proofs Mog_Proofs Grid_Model Area_Proofs Orbit_Model Geom_Model Geom_Proofs
  FGeom_Model FGeom_Spec FGeom_Proofs.
Import ListNotations.
Open Scope R_scope.

(** ** Relative errors *)
Definition rel (x : b64) (a e : R) : Prop := finite x /\ a * (1 - e) <= val x <= a * (1 + e).
Lemma rnd_rel1 w : / 1000000000000000000000000000000000 <= w -> w * (1 - u) <= rnd w <= w * (1 + u).
Proof.
  intro H. assert (B : bpow radix2 (-1000) <= Rabs w).
  { rewrite Rabs_pos_eq by lra. apply Rle_trans with (2 := H). apply Rle_trans with (bpow radix2 (-120)); [apply bpow_le; lia|]. cbn. lra. }
  pose proof (rnd_rel w B) as E. rewrite u_bpow, (Rabs_pos_eq w) in E by lra. apply Rabs_le_inv in E. lra.
Qed.
Definition small := / 1000000000000000000000000000000000.
Lemma rel_rnd z w a e0 e : finite z -> val z = rnd w -> a * (1 - e0) <= w <= a * (1 + e0) -> 2 * small <= a -> 0 <= e0 <= 1 / 2 ->
  (1 + e0) * (1 + u) <= 1 + e -> 1 - e <= (1 - e0) * (1 - u) -> rel z a e.
Proof.
  intros F V B A E0 H1 H2. split; [exact F|]. rewrite V. assert (0 < small) by (unfold small; lra).
  assert (L : small <= w) by nra. pose proof (rnd_rel1 w L) as R. assert (0 < u) by (unfold u; lra). assert (u < 1) by (unfold u; lra).
  split.
  - apply Rle_trans with (a * ((1 - e0) * (1 - u))); [apply Rmult_le_compat_l; lra|].
    apply Rle_trans with (w * (1 - u)); [|lra]. rewrite <- Rmult_assoc. apply Rmult_le_compat_r; lra.
  - apply Rle_trans with (a * ((1 + e0) * (1 + u))); [|apply Rmult_le_compat_l; lra].
    apply Rle_trans with (w * (1 + u)); [lra|]. rewrite <- Rmult_assoc. apply Rmult_le_compat_r; lra.
Qed.
Lemma rel_mul x y a b ea eb e0 e : rel x a ea -> rel y b eb -> 0 < a -> 0 < b -> 2 * small <= a * b <= huge / 2 ->
  0 <= ea <= 1 / 2 -> 0 <= eb <= 1 / 2 -> 0 <= e0 <= 1 / 2 -> (1 + ea) * (1 + eb) <= 1 + e0 -> 1 - e0 <= (1 - ea) * (1 - eb) ->
  (1 + e0) * (1 + u) <= 1 + e -> 1 - e <= (1 - e0) * (1 - u) -> rel (fmul x y) (a * b) e.
Proof.
  intros [Fx Bx] [Fy By] A B AB Ea Eb E0 H1 H2 H3 H4.
  assert (X : 0 <= a * (1 - ea)) by nra. assert (Y : 0 <= b * (1 - eb)) by nra.
  assert (W : a * b * (1 - e0) <= val x * val y <= a * b * (1 + e0)).
  { split.
    - apply Rle_trans with ((a * (1 - ea)) * (b * (1 - eb))); [|apply Rmult_le_compat; lra].
      replace (a * (1 - ea) * (b * (1 - eb))) with (a * b * ((1 - ea) * (1 - eb))) by ring. apply Rmult_le_compat_l; nra.
    - apply Rle_trans with ((a * (1 + ea)) * (b * (1 + eb))); [apply Rmult_le_compat; lra|].
      replace (a * (1 + ea) * (b * (1 + eb))) with (a * b * ((1 + ea) * (1 + eb))) by ring. apply Rmult_le_compat_l; nra. }
  destruct (fmul_fin x y Fx Fy) as [F V].
  - apply huge_ok. assert (0 < huge) by (unfold huge; lra). apply Rabs_le. split; nra.
  - apply (rel_rnd _ _ _ _ _ F V W); lra.
Qed.
Lemma rel_div x y a b ea eb e0 e : rel x a ea -> rel y b eb -> 0 < a -> 0 < b -> 2 * small <= a / b <= huge / 2 ->
  0 <= ea <= 1 / 2 -> 0 <= eb <= 1 / 2 -> 0 <= e0 <= 1 / 2 -> 1 + ea <= (1 + e0) * (1 - eb) -> (1 - e0) * (1 + eb) <= 1 - ea ->
  (1 + e0) * (1 + u) <= 1 + e -> 1 - e <= (1 - e0) * (1 - u) -> rel (fdiv x y) (a / b) e.
Proof.
  intros [Fx Bx] [Fy By] A B AB Ea Eb E0 H1 H2 H3 H4. assert (Y : 0 < b * (1 - eb)) by nra. assert (Y0 : 0 < val y) by lra.
  assert (Q : 0 < a / b) by (apply Rdiv_lt_0_compat; lra).
  assert (W : a / b * (1 - e0) <= val x / val y <= a / b * (1 + e0)).
  { split; apply Rmult_le_reg_r with (val y); try lra; replace (val x / val y * val y) with (val x) by (field; lra).
    - apply Rle_trans with (a / b * (1 - e0) * (b * (1 + eb))); [apply Rmult_le_compat_l; [nra|lra]|].
      replace (a / b * (1 - e0) * (b * (1 + eb))) with (a * ((1 - e0) * (1 + eb))) by (field; lra).
      apply Rle_trans with (a * (1 - ea)); [apply Rmult_le_compat_l; lra|lra].
    - apply Rle_trans with (a * (1 + ea)); [lra|].
      apply Rle_trans with (a * ((1 + e0) * (1 - eb))); [apply Rmult_le_compat_l; lra|].
      replace (a * ((1 + e0) * (1 - eb))) with (a / b * (1 + e0) * (b * (1 - eb))) by (field; lra). apply Rmult_le_compat_l; [nra|lra]. }
  destruct (fdiv_fin x y Fx Fy) as [F V].
  - lra.
  - apply huge_ok. assert (0 < huge) by (unfold huge; lra). apply Rabs_le. split; nra.
  - apply (rel_rnd _ _ _ _ _ F V W); lra.
Qed.
Lemma rel_sqrt x a ea e0 e : rel x a ea -> 0 < a -> 2 * small <= sqrt a ->
  0 <= ea <= 1 / 2 -> 0 <= e0 <= 1 / 2 -> 1 + ea <= (1 + e0) * (1 + e0) -> (1 - e0) * (1 - e0) <= 1 - ea ->
  (1 + e0) * (1 + u) <= 1 + e -> 1 - e <= (1 - e0) * (1 - u) -> rel (fsqrt x) (sqrt a) e.
Proof.
  intros [Fx Bx] A AB Ea E0 H1 H2 H3 H4. assert (X : 0 <= val x) by nra. destruct (fsqrt_val x Fx X) as [F V].
  assert (W : sqrt a * (1 - e0) <= sqrt (val x) <= sqrt a * (1 + e0)).
  { split.
    - rewrite <- (sqrt_square (1 - e0)) by lra. rewrite <- sqrt_mult by nra. apply sqrt_le_1_alt.
      apply Rle_trans with (a * (1 - ea)); [apply Rmult_le_compat_l; lra|lra].
    - rewrite <- (sqrt_square (1 + e0)) by lra. rewrite <- sqrt_mult by nra. apply sqrt_le_1_alt.
      apply Rle_trans with (a * (1 + ea)); [lra|apply Rmult_le_compat_l; lra]. }
  apply (rel_rnd _ _ _ _ _ F V W); lra.
Qed.
Lemma rel_close x a e d : rel x a e -> 0 <= a -> a * e <= d -> close x a d.
Proof. intros [F B] A H. split; [exact F|]. apply Rabs_le. lra. Qed.
Lemma rel_Z n : (0 < n <= 2 ^ 53)%Z -> rel (of_Z n) (IZR n) 0.
Proof. intro H. destruct (of_Z_spec n ltac:(lia)) as [F V]. split; [exact F|]. rewrite V. lra. Qed.

Lemma radius_rel x : orbital x -> rel (f_radius_at x) (EARTH_MEAN_RADIUS + val x) (45 / 100000000000000000).
Proof.
  intros O. destruct (radius_at_val _ O) as [F V]. destruct O as [_ B]. destruct radius_close as [_ D]. apply Rabs_le_inv in D. pose proof R_bounds as R.
  apply (rel_rnd _ _ _ (32 / 100000000000000000) _ F V); try lra. - unfold small. lra. - unfold u. lra. - unfold u. lra.
Qed.
Lemma two_pi_rel : rel (fmul (of_Z 2) f_pi) (2 * PI) (18 / 100000000000000000).
Proof.
  pose proof pi_tight as P. destruct pi_close as [F D]. apply Rabs_le_inv in D.
  assert (RP : rel f_pi PI (65 / 1000000000000000000)) by (split; [exact F|lra]).
  apply (rel_mul _ _ _ _ _ _ (65 / 1000000000000000000) _ (rel_Z 2 ltac:(lia)) RP); try lra.
  - unfold small, huge. lra. - unfold u. lra. - unfold u. lra.
Qed.
Lemma motion_bounds h : -10000 <= h <= 50000000 -> let q := EARTH_MU / (EARTH_MEAN_RADIUS + h) ^ 3 in
  / 1000000000 <= q <= / 500000 /\ 1 / 100000 <= sqrt q <= 13 / 10000.
Proof.
  intros B q. pose proof R_bounds as R. set (a := EARTH_MEAN_RADIUS + h). assert (A : 6361008 <= a <= 56371009) by (unfold a; lra).
  assert (A2 : 6361008 * 6361008 <= a * a <= 56371009 * 56371009) by (split; apply Rmult_le_compat; lra).
  assert (A3 : 6361008 * 6361008 * 6361008 <= a * a * a <= 56371009 * 56371009 * 56371009) by (split; apply Rmult_le_compat; lra).
  assert (Q : / 1000000000 <= q <= 169 / 100000000).
  { unfold q. fold a. replace (a ^ 3) with (a * a * a) by ring. unfold EARTH_MU.
    split; apply Rmult_le_reg_r with (a * a * a); try lra; unfold Rdiv; rewrite ?(Rmult_assoc _ (/ (a * a * a))), ?Rinv_l by lra; lra. }
  split; [lra|]. split.
  - rewrite <- (sqrt_square (1 / 100000)) by lra. apply sqrt_le_1_alt. lra.
  - rewrite <- (sqrt_square (13 / 10000)) by lra. apply sqrt_le_1_alt. lra.
Qed.
Lemma mean_motion_rel h : orbital h -> rel (f_mean_motion h) (sqrt (EARTH_MU / (EARTH_MEAN_RADIUS + val h) ^ 3)) (98 / 100000000000000000).
Proof.
  intro O. pose proof (radius_rel _ O) as RA. destruct O as [_ B]. pose proof (motion_bounds _ B) as [Q S]. pose proof R_bounds as R.
  unfold f_mean_motion. set (a := EARTH_MEAN_RADIUS + val h) in *. assert (A : 6361008 <= a <= 56371009) by (unfold a; lra).
  replace (a ^ 3) with (a * a * a) in * by ring.
  assert (A2 : 6361008 * 6361008 <= a * a <= 56371009 * 56371009) by (split; apply Rmult_le_compat; lra).
  assert (A3 : 6361008 * 6361008 * 6361008 <= a * a * a <= 56371009 * 56371009 * 56371009) by (split; apply Rmult_le_compat; lra).
  assert (R2 : rel (fmul (f_radius_at h) (f_radius_at h)) (a * a) (102 / 100000000000000000)).
  { apply (rel_mul _ _ _ _ _ _ (905 / 1000000000000000000) _ RA RA); try lra. - unfold small, huge. lra. - unfold u. lra. - unfold u. lra. }
  assert (R3 : rel (fmul (fmul (f_radius_at h) (f_radius_at h)) (f_radius_at h)) (a * a * a) (159 / 100000000000000000)).
  { apply (rel_mul _ _ _ _ _ _ (1475 / 1000000000000000000) _ R2 RA); try lra. - unfold small, huge. lra. - unfold u. lra. - unfold u. lra. }
  assert (R4 : rel (fdiv f_mu (fmul (fmul (f_radius_at h) (f_radius_at h)) (f_radius_at h))) (EARTH_MU / (a * a * a)) (172 / 100000000000000000)).
  { apply (rel_div _ _ _ _ _ _ (1600 / 1000000000000000000) _ (rel_Z 398600441800000 ltac:(lia)) R3); try (unfold EARTH_MU; lra).
    - split; [apply Rle_trans with (2 := proj1 Q); unfold small; lra|apply Rle_trans with (1 := proj2 Q); unfold huge; lra]. - unfold u. lra. - unfold u. lra. }
  apply (rel_sqrt _ _ _ (865 / 1000000000000000000) _ R4); try lra. - unfold small. lra. - unfold u. lra. - unfold u. lra.
Qed.
Lemma orbit_period_lemma h : orbital h -> exists p, compute_orbit_period (val h) = Some p /\ 0 < p <= 700000
  /\ rel (f_orbit_period h) p (2 / 1000000000000000).
Proof.
  intro O. pose proof (mean_motion_rel _ O) as RM. destruct O as [F B]. pose proof (motion_bounds _ B) as [Q S]. pose proof R_bounds as R. pose proof pi_tight as P.
  unfold compute_orbit_period. destruct (Rltb 0 (EARTH_MEAN_RADIUS + val h)) eqn:E; [|apply Rltb_false in E; lra].
  eexists. split; [reflexivity|]. set (n := sqrt (EARTH_MU / (EARTH_MEAN_RADIUS + val h) ^ 3)) in *.
  assert (QB : 1 <= 2 * PI / n <= 700000).
  { split; apply Rmult_le_reg_r with n; try lra; unfold Rdiv; rewrite ?(Rmult_assoc _ (/ n)), ?Rinv_l by lra; nra. }
  split; [lra|]. apply (rel_div _ _ _ _ _ _ (12 / 10000000000000000) _ two_pi_rel RM); try lra.
  - unfold small, huge. lra. - unfold u. lra. - unfold u. lra.
Qed.

Lemma get_orbit_period_lemma h : orbital h -> exists p r z, compute_orbit_period (val h) = Some p
  /\ get_orbit_period (val h) = Ok z /\ f_get_orbit_period h = Ok r
  /\ Rabs (IZR r - 1000000 * p) <= 52 / 100 /\ (Z.abs (r - z) <= 1)%Z
  /\ (forall n, Rabs (1000000 * p - IZR n) <= 39 / 100 -> r = n /\ z = n).
Proof.
  intro O. destruct (orbit_period_lemma _ O) as [p [E [B [F RL]]]].
  destruct (td_seconds_spec (f_orbit_period h) F) as [r [ER [D EX]]]; [apply Rabs_le; nra|].
  exists p, r, (timedelta_seconds p). split; [exact E|]. split; [unfold get_orbit_period; rewrite E; reflexivity|]. split; [exact ER|].
  assert (DP : Rabs (val (f_orbit_period h) - p) <= 14 / 10000000000) by (apply Rabs_le; nra).
  apply Rabs_le_inv in DP. apply Rabs_le_inv in D. unfold timedelta_seconds. pose proof (rhe_bounds (p * 1000000)) as RB.
  split; [apply Rabs_le; lra|]. split.
  - assert (IZR r - IZR (round_half_even (p * 1000000)) < 2) by lra. assert (-2 < IZR r - IZR (round_half_even (p * 1000000))) by lra.
    rewrite <- minus_IZR in *. apply lt_IZR in H. apply lt_IZR in H0. lia.
  - intros n Hn. split.
    + apply EX. apply Rabs_le_inv in Hn. apply Rabs_le. lra.
    + apply Rabs_le_inv in Hn. assert (IZR (round_half_even (p * 1000000)) - IZR n < 1) by lra. assert (-1 < IZR (round_half_even (p * 1000000)) - IZR n) by lra.
      rewrite <- minus_IZR in *. apply lt_IZR in H. apply lt_IZR in H0. lia.
Qed.

Lemma max_access_lemma h e : orbital h -> angle 0 90 e -> exists t, compute_max_access_time (val h) (val e) = Some t
  /\ close (f_max_access_time h e) t (/ 100000000).
Proof.
  intros O A. pose proof (radius_at_close _ O) as CR. destruct O as [Fh B]. pose proof R_bounds as R. pose proof pi_tight as P.
  pose proof (radians_close _ _ _ A ltac:(lra) ltac:(lra)) as CA. destruct A as [Fe Be].
  unfold compute_max_access_time. set (a := EARTH_MEAN_RADIUS + val h) in *. assert (HA : 6361008 <= a <= 56371009) by (unfold a; lra).
  assert (Q : 7000000 <= EARTH_MU / a <= 63000000).
  { unfold EARTH_MU. split; apply Rmult_le_reg_r with a; try lra; unfold Rdiv; rewrite ?(Rmult_assoc _ (/ a)), ?Rinv_l by lra; lra. }
  assert (S : 2640 <= sqrt (EARTH_MU / a) <= 8000).
  { split. - rewrite <- (sqrt_square 2640) by lra. apply sqrt_le_1_alt. lra. - rewrite <- (sqrt_square 8000) by lra. apply sqrt_le_1_alt. lra. }
  rewrite rdiv_ok by lra. cbn [obind]. rewrite np_sqrt_ok by lra. cbn [obind]. rewrite rdiv_ok by lra. eexists. split; [reflexivity|].
  assert (RB : 0 <= radians (val e) <= PI / 2). { unfold radians. split; nra. }
  unfold f_max_access_time.
  assert (C1 : close (fmul (of_Z 2) (f_radians e)) (2 * radians (val e)) (48 / 10000000000000000)).
  { apply (close_mul _ _ _ _ _ _ 2 1.6 3.2 _ (close_Z 2 ltac:(lia)) CA); try lra.
    - rewrite Rabs_pos_eq; lra. - rewrite Rabs_pos_eq; lra. - rewrite Rabs_pos_eq; lra. - unfold huge. lra. - unfold u, tiny. lra. }
  assert (C2 : close (fsub f_pi (fmul (of_Z 2) (f_radians e))) (PI - 2 * radians (val e)) (54 / 10000000000000000)).
  { apply (close_sub _ _ _ _ _ _ 3.2 _ pi_close C1). - rewrite Rabs_pos_eq; lra. - unfold huge. lra. - unfold u, tiny. lra. }
  assert (C3 : close (fmul (f_radius_at h) (fsub f_pi (fmul (of_Z 2) (f_radians e)))) (a * (PI - 2 * radians (val e))) (4 / 10000000)).
  { apply (close_mul _ _ _ _ _ _ 56371009 3.2 180387230 _ CR C2); try lra.
    - rewrite Rabs_pos_eq; lra. - rewrite Rabs_pos_eq; lra. - rewrite Rabs_pos_eq; nra. - unfold huge. lra. - unfold u, tiny. lra. }
  assert (C4 : close (fdiv f_mu (f_radius_at h)) (EARTH_MU / a) (12 / 100000000)).
  { apply (close_div _ _ _ _ _ _ 6361008 63000000 (1 / 10000000) _ mu_close CR); try lra.
    - rewrite Rabs_pos_eq; lra. - unfold huge. lra. - unfold u, tiny. lra. }
  assert (C5 : close (fsqrt (fdiv f_mu (f_radius_at h))) (sqrt (EARTH_MU / a)) (5 / 100000000000)).
  { apply (close_sqrt _ _ _ 2640 8000 (46 / 1000000000000) _ C4); try lra. - unfold u, tiny. lra. }
  assert (QT : 0 <= a * (PI - 2 * radians (val e)) / sqrt (EARTH_MU / a) <= 70000).
  { assert (0 <= a * (PI - 2 * radians (val e)) <= 180387230) by nra.
    split; [apply Rmult_le_pos; [lra|apply Rlt_le, Rinv_0_lt_compat; lra]|].
    apply Rmult_le_reg_r with (sqrt (EARTH_MU / a)); [lra|]. unfold Rdiv at 1. rewrite Rmult_assoc, Rinv_l by lra. lra. }
  apply (close_div _ _ _ _ _ _ 2640 70000 (15 / 10000000000) _ C3 C5); try lra.
  - rewrite Rabs_pos_eq; lra. - unfold huge. lra. - unfold u, tiny. lra.
Qed.

Section Libm2.
Variables f_sin f_cos f_asin f_acos : b64 -> b64.
Hypothesis LM : accurate_libm f_sin f_cos f_asin f_acos.
Lemma cos_of_close x r d : close x r d -> Rabs r <= 1000000 -> 0 <= d <= 1 ->
  close (f_cos x) (cos r) (d + 9 / 10000000000000000).
Proof.
  intros C HR HD. pose proof (close_bound _ _ _ _ C HR) as HV. destruct C as [F D]. destruct LM as [_ [HC _]].
  destruct (HC _ F ltac:(lra)) as [FC DC]. split; [exact FC|].
  replace (val (f_cos x) - cos r) with ((val (f_cos x) - cos (val x)) + (cos (val x) - cos r)) by ring.
  eapply Rle_trans; [apply Rabs_triang|]. pose proof (cos_lip r (val x)). pose proof eps_ok. lra.
Qed.
Lemma ground_velocity_lemma h i : orbital h -> angle 0 180 i -> exists v, compute_ground_velocity (val h) (val i) = Some v
  /\ close (f_ground_velocity f_cos h i) v (/ 100000000).
Proof.
  intros O A. pose proof (mean_motion_rel _ O) as RM. destruct O as [Fh B]. destruct A as [Fi Bi]. pose proof R_bounds as R. pose proof pi_tight as P.
  pose proof (motion_bounds _ B) as [Q S].
  unfold compute_ground_velocity, mean_motion_rad. rewrite rdiv_ok by (apply pow_nonzero; lra). cbn [obind]. rewrite np_sqrt_ok by lra. cbn [obind].
  eexists. split; [reflexivity|]. set (n := sqrt (EARTH_MU / (EARTH_MEAN_RADIUS + val h) ^ 3)) in *. unfold f_ground_velocity.
  assert (CN : close (f_mean_motion h) n (2 / 1000000000000000000)) by (apply (rel_close _ _ _ _ RM); lra).
  assert (QD : 57 <= 180 / PI <= 57.3). { split; apply Rmult_le_reg_r with PI; try lra; unfold Rdiv; rewrite Rmult_assoc, Rinv_l by lra; lra. }
  assert (CD : close (f_degrees i) (degrees (val i)) (4 / 1000000000000)).
  { unfold f_degrees, degrees. apply (close_mul _ _ _ _ _ _ 180 57.3 10314 _ (close_self i Fi) degrees_const); try lra.
    - rewrite Rabs_pos_eq; lra. - rewrite Rabs_pos_eq; lra. - rewrite Rabs_pos_eq; nra. - unfold huge. lra. - unfold u, tiny. lra. }
  assert (CC : close (f_cos (f_degrees i)) (cos (degrees (val i))) (5 / 1000000000000)).
  { eapply close_weak; [apply (cos_of_close _ _ _ CD); [unfold degrees; rewrite Rabs_pos_eq; nra|lra]|lra]. }
  pose proof (COS_bound (degrees (val i))) as CB. set (c := cos (degrees (val i))) in *.
  assert (CP : close (fmul (of_Z 2) f_pi) (2 * PI) (2 / 1000000000000000)) by (apply (rel_close _ _ _ _ two_pi_rel); lra).
  assert (C1 : close (fmul (fmul (of_Z 2) f_pi) (f_cos (f_degrees i))) (2 * PI * c) (4 / 100000000000)).
  { apply (close_mul _ _ _ _ _ _ 7 1 7 _ CP CC); try lra.
    - rewrite Rabs_pos_eq; lra. - apply Rabs_le. lra. - apply Rabs_le. nra. - unfold huge. lra. - unfold u, tiny. lra. }
  assert (QS : Rabs (2 * PI * c / EARTH_SIDEREAL_DAY_S) <= / 10000).
  { unfold EARTH_SIDEREAL_DAY_S. assert (-6.3 <= 2 * PI * c <= 6.3) by nra. apply Rabs_le. lra. }
  assert (C2 : close (fdiv (fmul (fmul (of_Z 2) f_pi) (f_cos (f_degrees i))) f_sidereal) (2 * PI * c / EARTH_SIDEREAL_DAY_S) (6 / 10000000000000000)).
  { apply (close_div _ _ _ _ _ _ 86164 (/ 10000) (5 / 10000000000000000) _ C1 sidereal_close); try lra.
    - unfold EARTH_SIDEREAL_DAY_S. lra. - unfold huge. lra. - unfold u, tiny. lra. }
  assert (NB : Rabs (n - 2 * PI * c / EARTH_SIDEREAL_DAY_S) <= 2 / 1000). { apply Rabs_le_inv in QS. apply Rabs_le. lra. }
  assert (C3 : close (fsub (f_mean_motion h) (fdiv (fmul (fmul (of_Z 2) f_pi) (f_cos (f_degrees i))) f_sidereal))
                 (n - 2 * PI * c / EARTH_SIDEREAL_DAY_S) (7 / 10000000000000000)).
  { apply (close_sub _ _ _ _ _ _ _ _ CN C2 NB). - unfold huge. lra. - unfold u, tiny. lra. }
  assert (RB : Rabs EARTH_MEAN_RADIUS <= 6371009) by (rewrite Rabs_pos_eq; lra).
  apply (close_mul _ _ _ _ _ _ 6371009 (2 / 1000) 12743 _ radius_close C3); try lra.
  - rewrite Rabs_mult. replace 12743 with (6371500 * (2 / 1000)) by lra. apply Rmult_le_compat; auto using Rabs_pos. lra.
  - unfold huge. lra.
  - unfold u, tiny. lra.
Qed.

(** *** The number of samples *)
Lemma mul_bounds a b c d x y : 0 <= a -> 0 <= c -> a <= x <= b -> c <= y <= d -> a * c <= x * y <= b * d.
Proof. intros A C X Y. split; apply Rmult_le_compat; lra. Qed.
Lemma one_minus_cos t : 0 <= t <= 1 -> t * t / 8 <= 1 - cos t <= t * t / 2.
Proof.
  intro T. assert (E : cos t = 1 - 2 * sin (t / 2) * sin (t / 2)) by (rewrite <- cos_2a_sin; f_equal; field). rewrite E.
  pose proof pi_tight as P. pose proof (sin_half (t / 2) ltac:(lra)) as L. pose proof (sin_le_x (t / 2) ltac:(lra)) as U.
  assert (t / 2 / 2 * (t / 2 / 2) <= sin (t / 2) * sin (t / 2)) by (apply Rmult_le_compat; lra).
  assert (sin (t / 2) * sin (t / 2) <= t / 2 * (t / 2)) by (apply Rmult_le_compat; lra). lra.
Qed.
Lemma area_bounds : 500000000000000 <= EARTH_SURFACE_AREA <= 520000000000000.
Proof.
  pose proof mean_sphere_lemma as [A B]. pose proof R_bounds as R. pose proof pi_tight as P.
  assert (R2 : 6371008.77 * 6371008.77 <= EARTH_MEAN_RADIUS ^ 2 <= 6371008.78 * 6371008.78).
  { replace (EARTH_MEAN_RADIUS ^ 2) with (EARTH_MEAN_RADIUS * EARTH_MEAN_RADIUS) by ring. split; apply Rmult_le_compat; lra. }
  assert (S : 3.1415926 * (6371008.77 * 6371008.77) <= PI * EARTH_MEAN_RADIUS ^ 2 <= 3.1415927 * (6371008.78 * 6371008.78)) by (split; apply Rmult_le_compat; lra).
  set (q := PI * EARTH_MEAN_RADIUS ^ 2) in *. replace (4 * PI * EARTH_MEAN_RADIUS ^ 2) with (4 * q) in A, B by (unfold q; ring). lra.
Qed.
(** A distance of 1 km to 6000 km. *)
Lemma samples_lemma sa d : finite d -> 1000 <= val d <= 6000000 ->
  finite sa -> Rabs (val sa - EARTH_SURFACE_AREA) <= 1 ->
  exists m n, f_number_samples f_cos sa d = Ok m /\ compute_number_samples (val d) = Ok n
    /\ Rabs (IZR m - IZR n) <= 2 + IZR n / 100000.
Proof.
  intros Fd Bd Fs Ds. pose proof R_bounds as R. pose proof pi_tight as P. pose proof area_bounds as AB.
  set (Re := EARTH_MEAN_RADIUS) in *.
  assert (TB : 156 / 1000000 <= val d / Re <= 95 / 100).
  { split; apply Rmult_le_reg_r with Re; try lra; unfold Rdiv; rewrite ?(Rmult_assoc _ (/ Re)), ?Rinv_l by lra; lra. }
  (* relative errors of theta and theta / 2 *)
  destruct radius_close as [FR DR]. fold Re in DR. apply Rabs_le_inv in DR.
  assert (RR : rel f_mean_radius Re (32 / 100000000000000000)) by (split; [exact FR|lra]).
  assert (RD : rel d (val d) 0) by (split; [exact Fd|lra]).
  assert (R1 : rel (fdiv d f_mean_radius) (val d / Re) (45 / 100000000000000000)).
  { apply (rel_div _ _ _ _ _ _ (33 / 100000000000000000) _ RD RR); try lra. - unfold small, huge. lra. - unfold u. lra. - unfold u. lra. }
  assert (R2 : rel (fdiv (fdiv d f_mean_radius) (of_Z 2)) (val d / Re / 2) (57 / 100000000000000000)).
  { apply (rel_div _ _ _ _ _ _ (455 / 1000000000000000000) _ R1 (rel_Z 2 ltac:(lia))); try lra. - unfold small, huge. lra. - unfold u. lra. - unfold u. lra. }
  set (t := val d / Re / 2) in *. assert (TT : 78 / 1000000 <= t <= 475 / 1000) by (unfold t; lra).
  set (x := fdiv (fdiv d f_mean_radius) (of_Z 2)) in *.
  pose proof (one_minus_cos t ltac:(lra)) as OC.
  (* error of the cosine: the slope is at most t *)
  assert (DC : Rabs (cos (val x) - cos t) <= t * t * (12 / 10000000000000000)).
  { destruct R2 as [_ B2]. rewrite cos_diff, !Rabs_mult. 
    assert (S1 : Rabs (sin ((val x + t) / 2)) <= 101 / 100 * t).
    { eapply Rle_trans; [apply sin_abs|]. rewrite Rabs_pos_eq by nra. nra. }
    assert (S2 : Rabs (sin ((t - val x) / 2)) <= t * (29 / 100000000000000000)).
    { eapply Rle_trans; [apply sin_abs|]. apply Rabs_le. lra. }
    rewrite (Rabs_pos_eq 2) by lra. pose proof (Rabs_pos (sin ((val x + t) / 2))). pose proof (Rabs_pos (sin ((t - val x) / 2))).
    assert (Rabs (sin ((val x + t) / 2)) * Rabs (sin ((t - val x) / 2)) <= 101 / 100 * t * (t * (29 / 100000000000000000))) by (apply Rmult_le_compat; lra).
    nra. }
  destruct LM as [_ [HC _]]. destruct R2 as [FX BX]. destruct (HC x FX) as [FC DL]; [rewrite Rabs_pos_eq; nra|].
  assert (CC : close (f_cos x) (cos t) (9 / 10000000000000000 + t * t * (12 / 10000000000000000))).
  { split; [exact FC|]. replace (val (f_cos x) - cos t) with ((val (f_cos x) - cos (val x)) + (cos (val x) - cos t)) by ring.
    eapply Rle_trans; [apply Rabs_triang|]. pose proof eps_ok. lra. }
  assert (CC' : close (f_cos x) (cos t) (12 / 10000000000000000)) by (eapply close_weak; [exact CC|nra]).
  pose proof (COS_bound t) as CB. assert (C0 : 0 <= cos t) by nra. assert (RA : Rabs Re <= 6371009) by (rewrite Rabs_pos_eq; lra).
  assert (C1 : close (fmul f_mean_radius (f_cos x)) (Re * cos t) (11 / 1000000000)).
  { apply (close_mul _ _ Re (cos t) _ _ 6371009 1 6371009 _ radius_close CC'); try lra.
    - rewrite Rabs_pos_eq; lra. - pose proof (mul_bounds 0 6371009 0 1 Re (cos t)). rewrite Rabs_pos_eq; lra. - unfold huge. lra. - unfold u, tiny. lra. }
  assert (T2 : 78 / 1000000 * (78 / 1000000) <= t * t <= 475 / 1000 * (475 / 1000)) by (apply mul_bounds; lra).
  assert (HH0 : 6371008.77 * (7 / 10000000000) <= Re * (1 - cos t) <= 6371008.78 * (12 / 100)) by (apply mul_bounds; lra).
  assert (HB : Re * (1 - cos t) <= 7000000 / 8) by lra.
  assert (H0 : 4 / 1000 <= Re * (1 - cos t)) by lra.
  assert (C2 : close (fsub f_mean_radius (fmul f_mean_radius (f_cos x))) (Re - Re * cos t) (14 / 1000000000)).
  { apply (close_sub _ _ Re _ _ _ 875000 _ radius_close C1). - apply Rabs_le. split; lra. - unfold huge. lra. - unfold u, tiny. lra. }
  set (H := fsub f_mean_radius (fmul f_mean_radius (f_cos x))) in *. set (hh := Re - Re * cos t) in *.
  assert (HH : 4 / 1000 <= hh <= 875000) by (unfold hh; lra).
  assert (RH : rel H hh (4 / 1000000)).
  { destruct C2 as [F2 D2]. apply Rabs_le_inv in D2. split; [exact F2|]. nra. }
  assert (PR : 2 * 3.1415926 * 6371008.77 <= 2 * PI * Re <= 2 * 3.1415927 * 6371008.78) by (apply mul_bounds; lra).
  assert (R3 : rel (fmul (fmul (of_Z 2) f_pi) f_mean_radius) (2 * PI * Re) (1 / 1000000000000)).
  { apply (rel_mul _ _ _ _ _ _ (1 / 10000000000000) _ two_pi_rel RR); try lra. - split; unfold small, huge; lra. - unfold u. lra. - unfold u. lra. }
  assert (PH : 40000000 * (4 / 1000) <= 2 * PI * Re * hh <= 41000000 * 875000) by (apply mul_bounds; lra).
  assert (R4 : rel (fmul (fmul (fmul (of_Z 2) f_pi) f_mean_radius) H) (2 * PI * Re * hh) (42 / 10000000)).
  { apply (rel_mul _ _ _ _ _ _ (41 / 10000000) _ R3 RH); try lra. - split; unfold small, huge; lra. - unfold u. lra. - unfold u. lra. }
  set (SA := fmul (fmul (fmul (of_Z 2) f_pi) f_mean_radius) H) in *. set (S := 2 * PI * Re * hh) in *.
  assert (SB : 160000 <= S <= 41000000 * 875000) by (clearbody S; lra).
  assert (RS : rel sa EARTH_SURFACE_AREA (1 / 10000000000000)).
  { split; [exact Fs|]. apply Rabs_le_inv in Ds. split; lra. }
  assert (QB : 10 <= EARTH_SURFACE_AREA / S <= 4000000000).
  { split; apply Rmult_le_reg_r with S; try lra; unfold Rdiv; rewrite ?(Rmult_assoc _ (/ S)), ?Rinv_l by lra; lra. }
  assert (R5 : rel (fdiv sa SA) (EARTH_SURFACE_AREA / S) (45 / 10000000)).
  { apply (rel_div _ _ _ _ _ _ (43 / 10000000) _ RS R4); try lra. - unfold small, huge. lra. - unfold u. lra. - unfold u. lra. }
  assert (NZ : is_zero SA = false).
  { destruct (is_zero SA) eqn:Z; [|reflexivity]. exfalso. destruct R4 as [F4 B4]. apply (is_zero_val SA F4) in Z. lra. }
  destruct R5 as [FQ BQ].
  exists (Btrunc (fdiv sa SA)), (py_trunc (EARTH_SURFACE_AREA / S)). split; [|split].
  - unfold f_number_samples. fold x H SA. rewrite NZ. destruct (fdiv sa SA); try reflexivity; discriminate FQ.
  - unfold compute_number_samples. fold Re t. replace (val d / Re / 2) with t by reflexivity. fold hh S.
    destruct (Req_EM_T S 0); [lra|reflexivity].
  - rewrite Btrunc_val. unfold py_trunc. destruct (Rleb 0 (EARTH_SURFACE_AREA / S)) eqn:L; [|apply Rleb_false in L; lra].
    rewrite Ztrunc_floor by lra. pose proof (Zfloor_lb (val (fdiv sa SA))) as FL. pose proof (Zfloor_ub (val (fdiv sa SA))) as FU.
    destruct (Int_part_bounds (EARTH_SURFACE_AREA / S)) as [I1 I2]. apply Rabs_le. split; lra.
Qed.
End Libm2.

(** Distances so short that the cosine of the half angle rounds to one. *)
Lemma tiny_distance_lemma f_cos sa d : rounds_to_one f_cos -> finite d -> 0 <= val d <= 9 / 100 ->
  f_number_samples f_cos sa d = Raise ZeroDivisionError.
Proof.
  intros HC Fd Bd. destruct mean_radius_val as [FR BR].
  assert (Q1 : 0 <= val d / val f_mean_radius <= 14130 / 1000000000000) by (apply div_bounds; lra).
  destruct (fdiv_fin d f_mean_radius Fd FR) as [F1 V1]; [lra|apply huge_ok; unfold huge; apply Rabs_le; lra|].
  pose proof (rnd_err _ _ _ tiny_ok (Req_le _ _ (Rabs_pos_eq _ (proj1 Q1)))) as E2.
  pose proof (rnd_nonneg _ (proj1 Q1)) as N1. rewrite <- V1 in N1, E2. apply Rabs_le_inv in E2.
  assert (B1 : val (fdiv d f_mean_radius) <= 14131 / 1000000000000) by (unfold u, tiny in E2; lra).
  destruct (of_Z_spec 2) as [F2 V2]; [lia|].
  assert (Q2 : 0 <= val (fdiv d f_mean_radius) / val (of_Z 2) <= 7066 / 1000000000000) by (rewrite V2; lra).
  destruct (fdiv_fin (fdiv d f_mean_radius) (of_Z 2) F1 F2) as [F3 V3]; [lra|apply huge_ok; unfold huge; apply Rabs_le; lra|].
  pose proof (rnd_err _ _ _ tiny_ok (Req_le _ _ (Rabs_pos_eq _ (proj1 Q2)))) as E3.
  pose proof (rnd_nonneg _ (proj1 Q2)) as N3. rewrite <- V3 in N3, E3. apply Rabs_le_inv in E3.
  destruct (HC _ F3) as [FC VC].
  { rewrite Rabs_pos_eq by exact N3. apply Rle_trans with (7067 / 1000000000000); [unfold u, tiny in E3; lra|]. cbn. lra. }
  unfold f_number_samples. set (c := f_cos _) in *.
  destruct (fmul_fin f_mean_radius c FR FC) as [F4 V4]; [rewrite VC; apply huge_ok; unfold huge; apply Rabs_le; lra|].
  rewrite VC, Rmult_1_r, (rnd_id _ (val_fmt _)) in V4.
  destruct (fsub_big f_mean_radius (fmul f_mean_radius c) FR F4) as [F5 V5].
  { rewrite V4, Rminus_diag_eq, Rabs_R0 by reflexivity. apply bpow_ge_0. }
  rewrite V4, Rminus_diag_eq, rnd_0 in V5 by reflexivity.
  destruct (fmul_fin (of_Z 2) f_pi F2 eq_refl) as [F6 V6]; [rewrite V2, pi_val; apply huge_ok; unfold huge; apply Rabs_le; lra|].
  destruct (fmul_fin (fmul (of_Z 2) f_pi) f_mean_radius F6 FR) as [F7 V7].
  { apply huge_ok. destruct two_pi_rel as [_ B]. pose proof pi_tight. unfold huge. apply Rabs_le. nra. }
  destruct (fmul_fin _ (fsub f_mean_radius (fmul f_mean_radius c)) F7 F5) as [F8 V8].
  { rewrite V5, Rmult_0_r, Rabs_R0. apply bpow_ge_0. }
  rewrite V5, Rmult_0_r, rnd_0 in V8. apply (is_zero_val _ F8) in V8. rewrite V8. reflexivity.
Qed.

(** ** A library that meets the contract *)
Definition by_nearest (e : Z) (g : R -> R) (x : b64) : b64 := f_lit (ZnearestE (g (val x) * bpow radix2 e)) (- e).
Lemma f_lit_val m e : (Z.abs m < 2 ^ 53)%Z -> (-1074 <= e <= 0)%Z -> finite (f_lit m e) /\ val (f_lit m e) = IZR m * bpow radix2 e.
Proof.
  intros M E. pose proof (fmt_dy m e M ltac:(lia)) as FM. unfold f_lit.
  pose proof (binary_normalize_correct 53 1024 prec64 emax64 mode_NE m e false) as H. cbv zeta in H.
  assert (V : F2R (Float radix2 m e) = IZR m * bpow radix2 e) by reflexivity. rewrite V in H.
  rewrite round_generic in H by auto with typeclass_instances.
  rewrite Rlt_bool_true in H.
  - destruct H as [H1 [H2 _]]. split; [exact H2|exact H1].
  - rewrite Rabs_mult, (Rabs_pos_eq (bpow _ _)) by apply bpow_ge_0. rewrite <- abs_IZR.
    apply Rle_lt_trans with (bpow radix2 53 * bpow radix2 0).
    + apply Rmult_le_compat; [apply IZR_le; lia|apply bpow_ge_0| |apply bpow_le; lia].
      change (bpow radix2 53) with (IZR (2 ^ 53)). apply IZR_le. lia.
    + rewrite <- bpow_plus. apply bpow_lt. reflexivity.
Qed.
Lemma by_nearest_spec e g x B : (51 <= e <= 1000)%Z -> Rabs (g (val x)) * bpow radix2 e <= IZR B -> (0 <= B < 2 ^ 53)%Z ->
  finite (by_nearest e g x) /\ Rabs (val (by_nearest e g x) - g (val x)) <= bpow radix2 (-52)
  /\ Rabs (val (by_nearest e g x)) <= IZR B * bpow radix2 (- e).
Proof.
  intros E HB RB. set (y := g (val x) * bpow radix2 e) in *.
  assert (Y : Rabs y <= IZR B). { unfold y. rewrite Rabs_mult, (Rabs_pos_eq (bpow _ _)) by apply bpow_ge_0. exact HB. }
  assert (N : (Z.abs (ZnearestE y) <= B)%Z).
  { apply Rabs_le_inv in Y. apply Z.abs_le. split.
    - rewrite <- (Zrnd_IZR ZnearestE (- B)) by auto with typeclass_instances. apply Zrnd_le; [auto with typeclass_instances|rewrite opp_IZR; lra].
    - rewrite <- (Zrnd_IZR ZnearestE B) by auto with typeclass_instances. apply Zrnd_le; [auto with typeclass_instances|lra]. }
  destruct (f_lit_val (ZnearestE y) (- e) ltac:(lia) ltac:(lia)) as [F V]. unfold by_nearest. fold y. split; [exact F|].
  assert (P : bpow radix2 e * bpow radix2 (- e) = 1) by (rewrite <- bpow_plus, Z.add_opp_diag_r; reflexivity). rewrite V. split.
  - replace (g (val x)) with (y * bpow radix2 (- e)) by (unfold y; rewrite Rmult_assoc, P; ring).
    rewrite <- Rmult_minus_distr_r, Rabs_mult, (Rabs_pos_eq (bpow _ _)) by apply bpow_ge_0.
    pose proof (Znearest_half (fun z => negb (Z.even z)) y) as H. rewrite Rabs_minus_sym in H.
    apply Rle_trans with (/ 2 * bpow radix2 (- e)); [apply Rmult_le_compat_r; [apply bpow_ge_0|exact H]|].
    replace (/ 2) with (bpow radix2 (-1)) by (cbn; lra). rewrite <- bpow_plus. apply bpow_le. lia.
  - rewrite Rabs_mult, (Rabs_pos_eq (bpow _ _)) by apply bpow_ge_0. apply Rmult_le_compat_r; [apply bpow_ge_0|]. rewrite <- abs_IZR. apply IZR_le. exact N.
Qed.
Lemma nearest_libm : accurate_libm (by_nearest 52 sin) (by_nearest 52 cos) (by_nearest 52 asin) (by_nearest 51 acos)
  /\ rounds_to_one (by_nearest 52 cos).
Proof.
  pose proof pi_tight as P.
  assert (W : bpow radix2 (-52) <= bpow radix2 (-50)) by (apply bpow_le; lia).
  assert (S : forall x, Rabs (sin (val x)) * bpow radix2 52 <= IZR (2 ^ 52)).
  { intro x. pose proof (SIN_bound (val x)). assert (Rabs (sin (val x)) <= 1) by (apply Rabs_le; lra).
    change (bpow radix2 52) with (IZR (2 ^ 52)). rewrite <- (Rmult_1_l (IZR (2 ^ 52))) at 2. apply Rmult_le_compat_r; [apply IZR_le; lia|assumption]. }
  assert (C : forall x, Rabs (cos (val x)) * bpow radix2 52 <= IZR (2 ^ 52)).
  { intro x. pose proof (COS_bound (val x)). assert (Rabs (cos (val x)) <= 1) by (apply Rabs_le; lra).
    change (bpow radix2 52) with (IZR (2 ^ 52)). rewrite <- (Rmult_1_l (IZR (2 ^ 52))) at 2. apply Rmult_le_compat_r; [apply IZR_le; lia|assumption]. }
  split.
  - split; [|split; [|split; [|split]]].
    + intros x F D. destruct (by_nearest_spec 52 sin x (2 ^ 52) ltac:(lia) (S x) ltac:(lia)) as [F1 [D1 _]]. split; [exact F1|lra].
    + intros x F D. destruct (by_nearest_spec 52 cos x (2 ^ 52) ltac:(lia) (C x) ltac:(lia)) as [F1 [D1 _]]. split; [exact F1|lra].
    + intros x F D. destruct (by_nearest_spec 52 asin x 8000000000000000 ltac:(lia)) as [F1 [D1 _]]; [|lia|split; [exact F1|lra]].
      pose proof (asin_bound (val x)). assert (Rabs (asin (val x)) <= 1.6) by (apply Rabs_le; lra). replace (bpow radix2 52) with 4503599627370496 by (cbn; lra). lra.
    + intros x F D. destruct (by_nearest_spec 51 acos x 8000000000000000 ltac:(lia)) as [F1 [D1 _]]; [|lia|split; [exact F1|lra]].
      pose proof (acos_bound (val x)). assert (Rabs (acos (val x)) <= 3.2) by (apply Rabs_le; lra). replace (bpow radix2 51) with 2251799813685248 by (cbn; lra). lra.
    + intros x F D. destruct (by_nearest_spec 52 sin x (2 ^ 52) ltac:(lia) (S x) ltac:(lia)) as [_ [_ B1]].
      destruct (by_nearest_spec 52 cos x (2 ^ 52) ltac:(lia) (C x) ltac:(lia)) as [_ [_ B2]]. cbn in *. split; lra.
  - intros x F D. destruct (by_nearest_spec 52 cos x (2 ^ 52) ltac:(lia) (C x) ltac:(lia)) as [F1 _]. split; [exact F1|].
    assert (N : ZnearestE (cos (val x) * bpow radix2 52) = (2 ^ 52)%Z).
    { apply Znearest_imp. pose proof (COS_bound (val x)) as CB.
      assert (L : 1 - cos (val x) <= / 36028797018963968).
      { assert (E : cos (val x) = 1 - 2 * sin (val x / 2) * sin (val x / 2)) by (rewrite <- cos_2a_sin; f_equal; field). rewrite E.
        pose proof (sin_abs (val x / 2)) as SA. assert (Rabs (val x / 2) <= / 268435456).
        { unfold Rdiv. rewrite Rabs_mult, (Rabs_pos_eq (/ 2)) by lra. cbn in D. lra. }
        assert (SB : Rabs (sin (val x / 2)) <= / 268435456) by lra. apply Rabs_le_inv in SB. nra. }
      rewrite Rabs_left1; cbn in *; lra. }
    unfold by_nearest. rewrite N. destruct (f_lit_val (2 ^ 52) (-52) ltac:(lia) ltac:(lia)) as [_ V]. change (- (52))%Z with (-52)%Z. rewrite V. cbn. lra.
Qed.

(** ** Witnesses *)
Lemma c179_witness_lemma :
  accurate_libm (by_nearest 52 sin) (by_nearest 52 cos) (by_nearest 52 asin) (by_nearest 51 acos)
  /\ viewing (of_Z 567000) (of_Z 0) /\ angle 0 90 (of_Z 10) /\ angle 0 360 (of_Z 60)
  /\ sin (val (of_Z 60) * (PI / 180) / 2)
       <= 999 / 1000 * ((EARTH_MEAN_RADIUS + val (of_Z 0)) / (EARTH_MEAN_RADIUS + val (of_Z 567000))).
Proof.
  destruct (of_Z_spec 567000 ltac:(lia)) as [F1 V1]. destruct (of_Z_spec 0 ltac:(lia)) as [F2 V2].
  destruct (of_Z_spec 10 ltac:(lia)) as [F3 V3]. destruct (of_Z_spec 60 ltac:(lia)) as [F4 V4].
  unfold viewing, angle. rewrite V1, V2, V3, V4.
  split; [exact (proj1 nearest_libm)|]. split; [repeat split; try assumption; lra|]. split; [split; [assumption|lra]|]. split; [split; [assumption|lra]|].
  replace (60 * (PI / 180) / 2) with (PI / 6) by field. rewrite sin_PI6. pose proof R_bounds as R.
  assert (9 / 10 <= (EARTH_MEAN_RADIUS + 0) / (EARTH_MEAN_RADIUS + 567000)); [|lra].
  apply Rmult_le_reg_r with (EARTH_MEAN_RADIUS + 567000); [lra|]. unfold Rdiv at 2. rewrite Rmult_assoc, Rinv_l by lra. lra.
Qed.
Lemma c180_period_lemma h : orbital h -> exists p, compute_orbit_period (val h) = Some p /\ 0 < p
    /\ close (f_orbit_period h) p (p * (2 / 1000000000000000)).
Proof.
  intro O. destruct (orbit_period_lemma _ O) as [p [E [B RL]]]. exists p. split; [exact E|]. split; [lra|].
  apply (rel_close _ _ _ _ RL); lra.
Qed.
Lemma c180_witness_lemma : orbital (of_Z 400000) /\ angle 0 90 (of_Z 10) /\ angle 0 180 (of_Z 98).
Proof.
  destruct (of_Z_spec 400000 ltac:(lia)) as [F1 V1]. destruct (of_Z_spec 10 ltac:(lia)) as [F2 V2]. destruct (of_Z_spec 98 ltac:(lia)) as [F3 V3].
  unfold orbital, angle. rewrite V1, V2, V3. repeat split; try assumption; lra.
Qed.
Lemma c181_refuted_lemma f_cos sa : rounds_to_one f_cos ->
  exists d n, finite d /\ 0 < val d /\ f_number_samples f_cos sa d = Raise ZeroDivisionError /\ compute_number_samples (val d) = Ok n.
Proof.
  intro H. destruct (f_lit_val 1 (-5) ltac:(lia) ltac:(lia)) as [F V]. assert (E : val (f_lit 1 (-5)) = / 32) by (rewrite V; cbn; lra).
  pose proof R_bounds as R. pose proof pi_tight as P.
  exists (f_lit 1 (-5)). eexists. split; [exact F|]. split; [rewrite E; lra|]. split; [apply tiny_distance_lemma; try assumption; rewrite E; lra|].
  unfold compute_number_samples. destruct (Req_EM_T _ 0) as [Z|]; [exfalso|reflexivity].
  rewrite E in Z. set (t := / 32 / EARTH_MEAN_RADIUS / 2) in *.
  assert (T : 0 < t) by (unfold t; apply Rdiv_lt_0_compat; [apply Rdiv_lt_0_compat; lra|lra]).
  assert (T1 : t <= 1).
  { unfold t. apply Rmult_le_reg_r with (2 * EARTH_MEAN_RADIUS); [lra|]. replace (/ 32 / EARTH_MEAN_RADIUS / 2 * (2 * EARTH_MEAN_RADIUS)) with (/ 32) by (field; lra). lra. }
  pose proof (one_minus_cos t ltac:(lra)) as O. assert (0 < t * t) by nra.
  assert (0 < EARTH_MEAN_RADIUS * (1 - cos t)) by (apply Rmult_lt_0_compat; lra).
  assert (0 < 2 * PI * EARTH_MEAN_RADIUS) by (apply Rmult_lt_0_compat; lra).
  assert (0 < 2 * PI * EARTH_MEAN_RADIUS * (EARTH_MEAN_RADIUS - EARTH_MEAN_RADIUS * cos t)) by (apply Rmult_lt_0_compat; lra). lra.
Qed.
Lemma c181_witness_lemma : rounds_to_one (by_nearest 52 cos) /\ finite (of_Z 100000) /\ 1000 <= val (of_Z 100000) <= 6000000
  /\ exists sa, finite sa /\ Rabs (val sa - EARTH_SURFACE_AREA) <= 1.
Proof.
  destruct (of_Z_spec 100000 ltac:(lia)) as [F V]. split; [exact (proj2 nearest_libm)|]. split; [exact F|]. rewrite V. split; [lra|].
  pose proof area_bounds as AB. exists (of_Z (up EARTH_SURFACE_AREA)). destruct (archimed EARTH_SURFACE_AREA) as [U1 U2].
  destruct (of_Z_spec (up EARTH_SURFACE_AREA)) as [F2 V2].
  { apply Z.abs_le. split; apply le_IZR; [apply Rle_trans with 0; [apply IZR_le; lia|lra]|].
    apply Rle_trans with 520000000000001; [lra|]. apply IZR_le. lia. }
  split; [exact F2|]. rewrite V2. apply Rabs_le. lra.
Qed.
