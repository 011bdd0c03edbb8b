(** Proofs about sun-synchronous orbits in binary64. *)
From Coq Require Import ZArith Reals Lra Lia Bool.
From Flocq Require Import Core IEEE754.BinarySingleNaN.
From Verif Require Import Base RBase RFacts Float_Model Float_Spec Float_Proofs FGrid_Model FGrid_Spec FGrid_Proofs FGrid_Proofs2
  FTime_Model FTime_Spec FTime_Proofs AnomalyRound_Proofs Mog_Proofs Orbit_Model Geom_Model Geom_Proofs FGeom_Model FGeom_Spec FGeom_Proofs FGeom_Proofs2 FSso_Model FSso_Spec.
Open Scope R_scope.

(** ** The limit *)
Definition r_exact : R := 6840818578939205 / 1073741824.
Lemma radius_exact : finite f_mean_radius /\ val f_mean_radius = r_exact.
Proof.
  split; [vm_compute; reflexivity|]. rewrite (sf_val f_mean_radius false 6840818578939205 (-30)) by (vm_compute; reflexivity).
  unfold F2R, r_exact. cbn [Fnum Fexp cond_Zopp]. replace (bpow radix2 (-30)) with (/ 1073741824) by (cbn; lra). reflexivity.
Qed.
Lemma limit_exact : finite f_sso_limit /\ val f_sso_limit = 12352000 - r_exact.
Proof.
  split; [vm_compute; reflexivity|]. rewrite (sf_val f_sso_limit false 6422040431108795 (-30)) by (vm_compute; reflexivity).
  unfold F2R, r_exact. cbn [Fnum Fexp cond_Zopp]. replace (bpow radix2 (-30)) with (/ 1073741824) by (cbn; lra). lra.
Qed.
Lemma altitude_iff x : f_sso_altitude x = true <-> finite x /\ 0 <= val x < 12352000 - r_exact.
Proof.
  destruct limit_exact as [FL VL]. destruct f0 as [F0 V0]. unfold f_sso_altitude. rewrite andb_true_iff.
  destruct (is_finite x) eqn:F.
  - rewrite Bleb_correct, Bltb_correct by assumption. unfold val in *. rewrite V0, VL. split.
    + intros [A B]. split; [exact F|]. destruct (Rle_bool_spec 0 (B2R x)); [|discriminate]. destruct (Rlt_bool_spec (B2R x) (12352000 - r_exact)); [lra|discriminate].
    + intros [_ [A B]]. split; [now apply Rle_bool_true|now apply Rlt_bool_true].
  - split; [|intros [G _]; unfold finite in G; congruence]. intros [A B]. exfalso. revert A B. generalize f_sso_limit FL. intros L _.
    destruct x as [s|[|]| |s m e Hx]; try discriminate; intros A B; try discriminate A; destruct L as [s'|[|]| |s' m' e' HL]; try discriminate B; discriminate F.
Qed.
Lemma r_near : Rabs (r_exact - EARTH_MEAN_RADIUS) <= / 500000000.
Proof. destruct radius_close as [_ D]. destruct radius_exact as [_ V]. rewrite V in D. exact D. Qed.
Lemma altitudes_lemma : exists limit, Rabs (limit - (12352000 - EARTH_MEAN_RADIUS)) <= / 500000000
  /\ forall x, f_sso_altitude x = true <-> finite x /\ 0 <= val x < limit.
Proof.
  exists (12352000 - r_exact). split; [|exact altitude_iff].
  pose proof r_near as N. replace (12352000 - r_exact - (12352000 - EARTH_MEAN_RADIUS)) with (- (r_exact - EARTH_MEAN_RADIUS)) by ring. rewrite Rabs_Ropp. exact N.
Qed.

(** ** The ratio and its power *)
Definition f_ratio (x : b64) : b64 := fdiv (f_radius_at x) (of_Z 12352000).
Definition ratio_of (h : R) : R := (EARTH_MEAN_RADIUS + h) / 12352000.
Lemma altitude_orbital x : f_sso_altitude x = true -> orbital x.
Proof. intro H. apply altitude_iff in H. destruct H as [F B]. split; [exact F|]. unfold r_exact in B. lra. Qed.
Lemma ratio_bounds h : 0 <= h <= 5980991.3 -> 0.515 <= ratio_of h <= 1.00000001.
Proof. intro H. pose proof R_bounds as R. unfold ratio_of. lra. Qed.
Lemma ratio_close x : f_sso_altitude x = true -> close (f_ratio x) (ratio_of (val x)) (7 / 10000000000000000) /\ 1 / 2 <= val (f_ratio x) <= 1.
Proof.
  intro H. pose proof (altitude_orbital x H) as O. destruct (radius_rel _ O) as [FR BR]. destruct (radius_at_val _ O) as [_ VR].
  apply altitude_iff in H. destruct H as [F B].
  assert (B' : 0 <= val x <= 5980991.3) by (unfold r_exact in B; lra). pose proof (ratio_bounds _ B') as Q. pose proof R_bounds as R.
  destruct (of_Z_spec 12352000 ltac:(lia)) as [FZ VZ].
  assert (C : close (f_ratio x) (ratio_of (val x)) (7 / 10000000000000000)).
  { unfold f_ratio, ratio_of.
    assert (CR : close (f_radius_at x) (EARTH_MEAN_RADIUS + val x) (56 / 10000000000)) by (split; [exact FR|]; apply Rabs_le; lra).
    apply (close_div _ _ _ _ (56 / 10000000000) 0 12352000 1.00000001 (46 / 100000000000000000) _ CR (close_Z 12352000 ltac:(lia))); try lra.
    - rewrite Rabs_pos_eq; unfold ratio_of in Q; lra. - unfold huge. lra. - unfold u, tiny. lra. }
  split; [exact C|]. destruct C as [FC DC]. apply Rabs_le_inv in DC. split; [lra|].
  unfold f_ratio in *. destruct radius_exact as [_ VX].
  assert (U : val (f_radius_at x) <= 12352000).
  { rewrite VR, VX. rewrite <- (rd_fmt 12352000) by (apply (fmt_Z 12352000); lia). apply round_le; auto with typeclass_instances. lra. }
  assert (L : 0 <= val (f_radius_at x)) by nra.
  destruct (fdiv_fin (f_radius_at x) (of_Z 12352000) FR FZ) as [_ V]; [rewrite VZ; lra| |].
  { rewrite VZ. apply huge_ok. apply Rabs_le. unfold huge. lra. }
  rewrite V, VZ. rewrite <- (rd_fmt 1) by (apply (fmt_Z 1); lia). apply round_le; auto with typeclass_instances. lra.
Qed.
Lemma power_alt x : 0 < x -> Rpower x (7 / 2) = x ^ 3 * sqrt x.
Proof.
  intro P. replace (7 / 2) with (INR 3 + / 2) by (cbn; lra). rewrite Rpower_plus, Rpower_pow, Rpower_sqrt by exact P. reflexivity.
Qed.
Lemma power_lip x y d : 1 / 2 <= x <= 1.1 -> 1 / 2 <= y <= 1.1 -> Rabs (x - y) <= d -> Rabs (Rpower x (7 / 2) - Rpower y (7 / 2)) <= 7 * d.
Proof.
  intros X Y D. rewrite !power_alt by lra.
  assert (S : forall t, 1 / 2 <= t <= 1.1 -> 0.7 <= sqrt t <= 1.05).
  { intros t T. split.
    - rewrite <- (sqrt_square 0.7) by lra. apply sqrt_le_1; lra.
    - rewrite <- (sqrt_square 1.05) by lra. apply sqrt_le_1; lra. }
  pose proof (S x X) as SX. pose proof (S y Y) as SY.
  assert (EX : sqrt x * sqrt x = x) by (apply sqrt_sqrt; lra). assert (EY : sqrt y * sqrt y = y) by (apply sqrt_sqrt; lra).
  set (a := sqrt x) in *. set (b := sqrt y) in *. clearbody a b. rewrite <- EX, <- EY in D |- *. clear EX EY X Y.
  replace ((a * a) ^ 3 * a - (b * b) ^ 3 * b) with ((a - b) * (a ^ 6 + a ^ 5 * b + a ^ 4 * b ^ 2 + a ^ 3 * b ^ 3 + a ^ 2 * b ^ 4 + a * b ^ 5 + b ^ 6)) by ring.
  replace (a * a - b * b) with ((a - b) * (a + b)) in D by ring. rewrite Rabs_mult in D |- *.
  assert (P : forall n m t s, 0.7 <= t <= 1.05 -> 0.7 <= s <= 1.05 -> 0 <= t ^ n * s ^ m <= 1.05 ^ n * 1.05 ^ m).
  { intros n m t s T U. split; [apply Rmult_le_pos; apply pow_le; lra|]. apply Rmult_le_compat; try (apply pow_le; lra); apply pow_incr; lra. }
  assert (G : 0 <= a ^ 6 + a ^ 5 * b + a ^ 4 * b ^ 2 + a ^ 3 * b ^ 3 + a ^ 2 * b ^ 4 + a * b ^ 5 + b ^ 6 <= 9.4).
  { pose proof (P 6%nat 0%nat a b SX SY). pose proof (P 5%nat 1%nat a b SX SY). pose proof (P 4%nat 2%nat a b SX SY). pose proof (P 3%nat 3%nat a b SX SY).
    pose proof (P 2%nat 4%nat a b SX SY). pose proof (P 1%nat 5%nat a b SX SY). pose proof (P 0%nat 6%nat a b SX SY). cbn [pow] in *. rewrite ?Rmult_1_r, ?Rmult_1_l in *. lra. }
  match type of G with 0 <= ?t <= _ => set (g := t) in *; clearbody g end.
  rewrite (Rabs_pos_eq (a + b)) in D by lra. rewrite (Rabs_pos_eq g) by lra.
  assert (A0 := Rabs_pos (a - b)). set (e := Rabs (a - b)) in *. clearbody e. nra.
Qed.

Section Libm.
Variables (f_power : b64 -> b64 -> b64) (f_acos : b64 -> b64).
Hypothesis PW : accurate_power f_power.
Hypothesis AC : computes (fun x => Rabs x <= 1) acos f_acos.
Definition f_cosine (x : b64) : b64 := Bopp (f_power (f_ratio x) (fdiv (of_Z 7) (of_Z 2))).
Lemma half_seven : finite (fdiv (of_Z 7) (of_Z 2)) /\ val (fdiv (of_Z 7) (of_Z 2)) = 7 / 2.
Proof.
  split; [vm_compute; reflexivity|]. rewrite (sf_val (fdiv (of_Z 7) (of_Z 2)) false 7881299347898368 (-51)) by (vm_compute; reflexivity).
  unfold F2R. cbn [Fnum Fexp cond_Zopp]. replace (bpow radix2 (-51)) with (/ 2251799813685248) by (cbn; lra). lra.
Qed.
Lemma cosine_close x : f_sso_altitude x = true ->
  close (f_cosine x) (sun_cosine (val x)) (6 / 1000000000000000) /\ Rabs (val (f_cosine x)) <= 1
  /\ Rabs (val (f_cosine x) + Rpower (val (f_ratio x)) (7 / 2)) <= bpow radix2 (-50).
Proof.
  intro H. destruct (ratio_close x H) as [[FR DR] BR]. destruct half_seven as [F7 V7]. destruct (PW _ _ FR F7 BR V7) as (FP & DP & BP).
  assert (B' : 0 <= val x <= 5980991.3) by (apply altitude_iff in H; unfold r_exact in H; lra). pose proof (ratio_bounds _ B') as Q.
  unfold f_cosine. unfold close, finite, val in *. rewrite is_finite_Bopp, B2R_Bopp, Rabs_Ropp.
  set (p := B2R (f_power (f_ratio x) (fdiv (of_Z 7) (of_Z 2)))) in *. set (q := B2R (f_ratio x)) in *. clearbody p q.
  split; [split; [exact FP|]|split; [exact BP|]].
  - unfold sun_cosine. fold (ratio_of (B2R x)). pose proof (power_lip q (ratio_of (B2R x)) _ ltac:(lra) ltac:(lra) DR) as L.
    replace (- p - - Rpower (ratio_of (B2R x)) (7 / 2)) with (- ((p - Rpower q (7 / 2)) + (Rpower q (7 / 2) - Rpower (ratio_of (B2R x)) (7 / 2)))) by ring.
    rewrite Rabs_Ropp. eapply Rle_trans; [apply Rabs_triang|]. replace (bpow radix2 (-50)) with (/ 1125899906842624) in DP by (cbn; lra). lra.
  - replace (- p + Rpower q (7 / 2)) with (- (p - Rpower q (7 / 2))) by ring. rewrite Rabs_Ropp. exact DP.
Qed.
Lemma inclination_close x : f_sso_altitude x = true ->
  close (f_sso_inclination f_power f_acos x) (degrees (acos (val (f_cosine x)))) (26 / 100000000000000).
Proof.
  intro H. destruct (cosine_close x H) as [[FC _] [BC _]]. destruct (AC _ FC BC) as [F D].
  apply close_weak with (58 * bpow radix2 (-50) + 2 / 10000000000000); [|cbn; lra]. unfold f_sso_inclination. fold (f_ratio x). fold (f_cosine x).
  apply degrees_close; [split; assumption| |cbn; lra]. pose proof (acos_bound (val (f_cosine x))). pose proof pi_tight. apply Rabs_le. lra.
Qed.
Lemma cos_lip a b : Rabs (cos a - cos b) <= Rabs (a - b).
Proof. rewrite <- !sin_shift. eapply Rle_trans; [apply sin_lip|]. right. rewrite <- Rabs_Ropp. f_equal. ring. Qed.
Lemma condition_lemma x : f_sso_altitude x = true -> finite (f_sso_inclination f_power f_acos x)
  /\ Rabs (cosine_of (val (f_sso_inclination f_power f_acos x)) - sun_cosine (val x)) <= 12 / 1000000000000000.
Proof.
  intro H. destruct (inclination_close x H) as [F D]. split; [exact F|]. destruct (cosine_close x H) as [[_ E] [B _]].
  set (i := val (f_sso_inclination f_power f_acos x)) in *. set (c := val (f_cosine x)) in *. clearbody i c. apply Rabs_le_inv in B.
  assert (S : Rabs (cosine_of i - c) <= 5 / 1000000000000000).
  { unfold cosine_of. replace c with (cos (acos c)) at 1 by (apply cos_acos; lra). eapply Rle_trans; [apply cos_lip|].
    pose proof pi_tight. replace (i * PI / 180 - acos c) with ((i - degrees (acos c)) * (PI / 180)) by (unfold degrees; field; lra).
    rewrite Rabs_mult, (Rabs_pos_eq (PI / 180)) by lra. apply Rle_trans with (26 / 100000000000000 * (PI / 180)); [apply Rmult_le_compat_r; lra|lra]. }
  replace (cosine_of i - sun_cosine (val x)) with ((cosine_of i - c) + (c - sun_cosine (val x))) by ring. eapply Rle_trans; [apply Rabs_triang|]. lra.
Qed.
(** Retrograde. *)
Lemma degrees_lt a b : a < b -> degrees a < degrees b.
Proof. intro H. unfold degrees. apply Rmult_lt_compat_r; [|exact H]. pose proof pi_tight. apply Rdiv_lt_0_compat; lra. Qed.
Lemma degrees_gap a b : a <= b -> 57 * (b - a) <= degrees b - degrees a.
Proof.
  intro H. unfold degrees. pose proof pi_tight. assert (57 <= 180 / PI). { apply Rmult_le_reg_r with PI; [lra|]. unfold Rdiv. rewrite Rmult_assoc, Rinv_l by lra. lra. }
  rewrite <- Rmult_minus_distr_r. rewrite Rmult_comm. apply Rmult_le_compat_l; lra.
Qed.
Lemma acos_gap x y : -1 <= x -> x <= y -> y <= 1 -> y - x <= acos x - acos y.
Proof.
  intros A B C. pose proof (cos_lip (acos x) (acos y)) as L. rewrite !cos_acos in L by lra. pose proof (acos_anti x y A B C) as M.
  rewrite (Rabs_pos_eq (acos x - acos y)), Rabs_minus_sym, (Rabs_pos_eq (y - x)) in L by lra. exact L.
Qed.
Lemma retrograde_lemma x : f_sso_altitude x = true -> 90 < val (f_sso_inclination f_power f_acos x) < 180.000000000001.
Proof.
  intro H. destruct (inclination_close x H) as [F D]. destruct (cosine_close x H) as [_ [B E]]. destruct (ratio_close x H) as [_ [Q1 Q2]].
  assert (P : 0.08 <= Rpower (val (f_ratio x)) (7 / 2)).
  { rewrite power_alt by lra. assert (0.7 <= sqrt (val (f_ratio x))) by (rewrite <- (sqrt_square 0.7) by lra; apply sqrt_le_1; lra).
    assert (1 / 8 <= val (f_ratio x) ^ 3) by (replace (1 / 8) with ((1 / 2) ^ 3) by lra; apply pow_incr; lra). nra. }
  replace (bpow radix2 (-50)) with (/ 1125899906842624) in E by (cbn; lra). apply Rabs_le_inv in E, D, B.
  set (c := val (f_cosine x)) in *. set (i := val (f_sso_inclination f_power f_acos x)) in *. clearbody c i.
  pose proof (acos_gap c 0 ltac:(lra) ltac:(lra) ltac:(lra)) as G. rewrite acos_0 in G. pose proof pi_tight as PT.
  assert (D90 : degrees (PI / 2) = 90) by (unfold degrees; field; lra). assert (D180 : degrees PI = 180) by (unfold degrees; field; lra).
  pose proof (degrees_gap (PI / 2) (acos c) ltac:(lra)) as G2. pose proof (acos_bound c) as AB. pose proof (degrees_gap (acos c) PI ltac:(lra)) as G3. rewrite D90 in G2. rewrite D180 in G3. lra.
Qed.
Lemma inclination_field_iff i : finite i -> (inclination_field i = Ok i <-> 0 <= val i < 180) /\ (inclination_field i = Raise ValidationError <-> ~ 0 <= val i < 180).
Proof.
  intro F. destruct f0 as [F0 V0]. destruct (of_Z_spec 180 ltac:(lia)) as [F1 V1]. unfold inclination_field.
  rewrite Bleb_correct, Bltb_correct by assumption. unfold val in *. rewrite V0, V1.
  destruct (Rle_bool_spec 0 (B2R i)) as [A|A], (Rlt_bool_spec (B2R i) 180) as [B|B]; cbn [andb]; (split; split; intro K; try congruence; try lra; try (exfalso; apply K; lra); try (intros [? ?]; lra); try reflexivity).
Qed.
(** At least a metre below the limit. *)
Lemma accepted_lemma x : f_sso_altitude x = true -> val x <= 5980990 ->
  f_sso_passed f_power f_acos x = Ok (f_sso_inclination f_power f_acos x) /\ 90 < val (f_sso_inclination f_power f_acos x) < 180.
Proof.
  intros H U. destruct (retrograde_lemma x H) as [L _]. destruct (inclination_close x H) as [F D]. destruct (cosine_close x H) as [[_ C] [B _]].
  assert (I : val (f_sso_inclination f_power f_acos x) < 180).
  { assert (B' : 0 <= val x <= 5980991.3) by (apply altitude_iff in H; unfold r_exact in H; lra). pose proof (ratio_bounds _ B') as Q. pose proof R_bounds as R.
    assert (Q2 : ratio_of (val x) <= 1 - 9 / 100000000) by (unfold ratio_of; lra).
    assert (P : Rpower (ratio_of (val x)) (7 / 2) <= 1 - 9 / 100000000).
    { rewrite power_alt by lra. assert (S : sqrt (ratio_of (val x)) <= 1) by (rewrite <- sqrt_1; apply sqrt_le_1; lra). pose proof (sqrt_pos (ratio_of (val x))).
      assert (T : ratio_of (val x) ^ 2 <= 1) by (rewrite <- (pow1 2); apply pow_incr; lra). assert (T0 : 0 <= ratio_of (val x) ^ 2) by (apply pow_le; lra).
      replace (ratio_of (val x) ^ 3 * sqrt (ratio_of (val x))) with (ratio_of (val x) * (ratio_of (val x) ^ 2 * sqrt (ratio_of (val x)))) by ring.
      set (w := ratio_of (val x) ^ 2) in *. set (r := ratio_of (val x)) in *. set (z := sqrt r) in *. clearbody w r z. assert (W : w * z <= 1 * 1) by (apply Rmult_le_compat; lra). nra. }
    unfold sun_cosine in C. fold (ratio_of (val x)) in C. apply Rabs_le_inv in B, C, D.
    set (c := val (f_cosine x)) in *. set (i := val (f_sso_inclination f_power f_acos x)) in *. clearbody c i.
    pose proof (acos_gap (-1) c ltac:(lra) ltac:(lra) ltac:(lra)) as G. pose proof pi_tight as PT.
    assert (D180 : degrees PI = 180) by (unfold degrees; field; lra).
    assert (A1 : acos (-1) = PI). { replace (-1) with (- (1)) by lra. rewrite acos_opp, acos_1. lra. } rewrite A1 in G. pose proof (degrees_gap (acos c) PI ltac:(lra)) as G3. rewrite D180 in G3. lra. }
  split; [|lra]. unfold f_sso_passed. apply (inclination_field_iff _ F). lra.
Qed.
End Libm.

(** ** The highest accepted altitude *)
Definition top_altitude : b64 := f_lit 6422040431108794 (-30).
Lemma top_ratio : f_ratio top_altitude = of_Z 1.
Proof. apply B2SF_inj. vm_compute. reflexivity. Qed.
Lemma top_opp : Bopp (of_Z 1) = of_Z (-1).
Proof. apply B2SF_inj. vm_compute. reflexivity. Qed.
Lemma top_degrees : f_degrees f_pi = of_Z 180.
Proof. apply B2SF_inj. vm_compute. reflexivity. Qed.
Lemma top_accepted : f_sso_altitude top_altitude = true.
Proof. vm_compute. reflexivity. Qed.
Lemma top_lemma f_power f_acos : f_power (of_Z 1) (fdiv (of_Z 7) (of_Z 2)) = of_Z 1 -> f_acos (of_Z (-1)) = f_pi ->
  f_sso_inclination f_power f_acos top_altitude = of_Z 180 /\ f_sso_passed f_power f_acos top_altitude = Raise ValidationError.
Proof.
  intros P A. assert (I : f_sso_inclination f_power f_acos top_altitude = of_Z 180).
  { unfold f_sso_inclination. fold (f_ratio top_altitude). rewrite top_ratio, P, top_opp, A. exact top_degrees. }
  split; [exact I|]. unfold f_sso_passed. rewrite I. destruct (of_Z_spec 180 ltac:(lia)) as [F V]. apply (inclination_field_iff _ F). rewrite V. lra.
Qed.
(** Libraries that meet the contracts. *)
Definition power_near (x y : b64) : b64 := by_nearest 52 (fun t => Rpower t (7 / 2)) x.
Lemma power_unit t : 0 < t <= 1 -> 0 <= Rpower t (7 / 2) <= 1.
Proof.
  intro T. split; [left; apply exp_pos|]. rewrite power_alt by lra. assert (S : sqrt t <= 1) by (rewrite <- sqrt_1; apply sqrt_le_1; lra).
  assert (t ^ 3 <= 1) by (rewrite <- (pow1 3); apply pow_incr; lra). assert (0 <= t ^ 3) by (apply pow_le; lra). pose proof (sqrt_pos t). nra.
Qed.
Lemma power_near_ok : accurate_power power_near.
Proof.
  intros x y Fx Fy X Y. pose proof (power_unit (val x) ltac:(lra)) as U.
  destruct (by_nearest_spec 52 (fun t => Rpower t (7 / 2)) x (2 ^ 52) ltac:(lia)) as [F [D B]]; [|lia|].
  - cbv beta. rewrite Rabs_pos_eq by lra. change (bpow radix2 52) with (IZR (2 ^ 52)). rewrite <- (Rmult_1_l (IZR (2 ^ 52))) at 2. apply Rmult_le_compat_r; [apply IZR_le; lia|lra].
  - unfold power_near. split; [exact F|]. split; [apply Rle_trans with (1 := D); apply bpow_le; lia|].
    apply Rle_trans with (1 := B). right. cbn. lra.
Qed.
Lemma acos_near_ok : computes (fun x => Rabs x <= 1) acos (by_nearest 51 acos).
Proof. exact (proj1 (proj2 (proj2 (proj2 (proj1 nearest_libm))))). Qed.
Lemma power_near_one : power_near (of_Z 1) (fdiv (of_Z 7) (of_Z 2)) = of_Z 1.
Proof.
  unfold power_near, by_nearest. destruct (of_Z_spec 1 ltac:(lia)) as [_ V]. rewrite V. cbv beta.
  replace (Rpower 1 (7 / 2) * bpow radix2 52) with (IZR 4503599627370496).
  - rewrite Zrnd_IZR by auto with typeclass_instances. apply B2SF_inj. vm_compute. reflexivity.
  - rewrite power_alt, sqrt_1 by lra. cbn. lra.
Qed.
Lemma acos_near_one : by_nearest 51 acos (of_Z (-1)) = f_pi.
Proof.
  unfold by_nearest. destruct (of_Z_spec (-1) ltac:(lia)) as [_ V]. rewrite V. replace (IZR (-1)) with (- (1)) by lra. rewrite acos_opp, acos_1.
  replace (ZnearestE ((PI - 0) * bpow radix2 51)) with 7074237752028440%Z; [reflexivity|]. symmetry. apply Znearest_imp.
  pose proof pi_tight. replace (bpow radix2 51) with 2251799813685248 by (cbn; lra). apply Rabs_lt. lra.
Qed.
Lemma refuted_lemma : exists f_power f_acos altitude, accurate_power f_power /\ computes (fun x => Rabs x <= 1) acos f_acos
  /\ f_sso_altitude altitude = true /\ f_sso_passed f_power f_acos altitude = Raise ValidationError.
Proof.
  exists power_near, (by_nearest 51 acos), top_altitude. split; [exact power_near_ok|]. split; [exact acos_near_ok|]. split; [exact top_accepted|].
  apply top_lemma; [exact power_near_one|exact acos_near_one].
Qed.
Lemma every_library : exists altitude, f_sso_altitude altitude = true /\ forall f_power f_acos,
  f_power (of_Z 1) (fdiv (of_Z 7) (of_Z 2)) = of_Z 1 -> f_acos (of_Z (-1)) = f_pi ->
  f_sso_inclination f_power f_acos altitude = of_Z 180 /\ f_sso_passed f_power f_acos altitude = Raise ValidationError.
Proof. exists top_altitude. split; [exact top_accepted|exact top_lemma]. Qed.

(** ** The node *)
Lemma rnd_nonneg x : 0 <= x -> 0 <= rnd x.
Proof. intro H. rewrite <- rd_rnd. rewrite <- (rd_fmt 0) by (apply (fmt_Z 0); lia). apply round_le; auto with typeclass_instances. Qed.
Lemma np_mod_nonneg x : finite x -> 0 <= val x -> finite (np_mod x (of_Z 360)) /\ 0 <= val (np_mod x (of_Z 360)) < 360
  /\ exists k : Z, val x = val (np_mod x (of_Z 360)) + 360 * IZR k.
Proof.
  intros F P. destruct f360 as [F3 V3]. destruct (fmod_spec x (of_Z 360) F F3 ltac:(lra)) as (FM & (k & K) & (B & _)). specialize (B P). rewrite V3 in *.
  assert (E : finite (np_mod x (of_Z 360)) /\ val (np_mod x (of_Z 360)) = val (fmod x (of_Z 360))).
  { unfold np_mod. replace (is_zero (of_Z 360)) with false by (vm_compute; reflexivity). destruct (is_zero (fmod x (of_Z 360))) eqn:Z.
    - apply (is_zero_val _ FM) in Z. rewrite Z. replace (is_neg (of_Z 360)) with false by (vm_compute; reflexivity). split; reflexivity.
    - replace (is_neg (of_Z 360)) with false by (vm_compute; reflexivity). replace (is_neg (fmod x (of_Z 360))) with false; [split; [exact FM|reflexivity]|].
      symmetry. destruct (is_neg (fmod x (of_Z 360))) eqn:N; [|reflexivity]. apply (is_neg_val _ FM) in N. lra. }
  destruct E as [E1 E2]. rewrite E2. split; [exact E1|]. split; [exact B|]. exists k. exact K.
Qed.
Definition f_turned (ra : b64) (t : Z) (asc : bool) : b64 := fadd (fadd ra (fmul (of_Z 360) (td_div t 86400000000))) (of_Z (180 * (if asc then 1 else 0))).
Lemma turned_close ra t asc : angle_ok ra -> (0 <= t < 86400000000)%Z ->
  close (f_turned ra t asc) (val ra + 360 * (IZR t / 86400000000) + IZR (180 * (if asc then 1 else 0))) (/ 1000000000000) /\ 0 <= val (f_turned ra t asc).
Proof.
  intros [F A] T. assert (T1 : 0 <= IZR t / 86400000000 <= 1).
  { assert (0 <= IZR t) by (apply IZR_le; lia). assert (IZR t <= 86400000000) by (apply IZR_le; lia). lra. }
  assert (C1 : close (td_div t 86400000000) (IZR t / 86400000000) (12 / 100000000000000000)).
  { unfold td_div. apply (close_div _ _ _ _ 0 0 86400000000 1 0 _ (close_Z t ltac:(lia)) (close_Z 86400000000 ltac:(lia))); try lra.
    - rewrite Rabs_pos_eq; lra. - unfold huge. lra. - unfold u, tiny. lra. }
  assert (C2 : close (fmul (of_Z 360) (td_div t 86400000000)) (360 * (IZR t / 86400000000)) (9 / 100000000000000)).
  { apply (close_mul _ _ _ _ _ _ 360 1 360 _ (close_Z 360 ltac:(lia)) C1); try lra.
    - rewrite Rabs_pos_eq; lra. - rewrite Rabs_pos_eq; lra. - rewrite Rabs_pos_eq; lra. - unfold huge. lra. - unfold u, tiny. lra. }
  assert (C3 : close (fadd ra (fmul (of_Z 360) (td_div t 86400000000))) (val ra + 360 * (IZR t / 86400000000)) (2 / 10000000000000)).
  { apply (close_add _ _ _ _ _ _ 720 _ (close_self ra F) C2); [apply Rabs_le; lra|unfold huge; lra|unfold u, tiny; lra]. }
  assert (W : 0 <= IZR (180 * (if asc then 1 else 0)) <= 180) by (destruct asc; cbn; lra).
  assert (C4 : close (f_turned ra t asc) (val ra + 360 * (IZR t / 86400000000) + IZR (180 * (if asc then 1 else 0))) (/ 1000000000000)).
  { unfold f_turned. apply (close_add _ _ _ _ _ _ 900 _ C3 (close_Z (180 * (if asc then 1 else 0)) ltac:(destruct asc; lia))); [apply Rabs_le; lra|unfold huge; lra|unfold u, tiny; lra]. }
  split; [exact C4|]. unfold f_turned.
  destruct C1 as [F1 D1]. destruct C2 as [F2 D2]. destruct C3 as [F3 D3]. apply Rabs_le_inv in D1, D2, D3.
  destruct (of_Z_spec 360 ltac:(lia)) as [FZ VZ]. destruct (of_Z_spec t ltac:(lia)) as [Ft Vt]. destruct (of_Z_spec 86400000000 ltac:(lia)) as [Fd Vd].
  destruct (of_Z_spec (180 * (if asc then 1 else 0)) ltac:(destruct asc; lia)) as [Fw Vw].
  assert (P1 : 0 <= val (td_div t 86400000000)).
  { unfold td_div. destruct (fdiv_fin (of_Z t) (of_Z 86400000000) Ft Fd) as [_ V]; [rewrite Vd; lra| |].
    - rewrite Vt, Vd. apply huge_ok. unfold huge. apply Rabs_le. lra.
    - rewrite V, Vt, Vd. apply rnd_nonneg. lra. }
  assert (P2 : 0 <= val (fmul (of_Z 360) (td_div t 86400000000))).
  { destruct (fmul_fin (of_Z 360) (td_div t 86400000000) FZ F1) as [_ V].
    - rewrite VZ. apply huge_ok. unfold huge. apply Rabs_le. lra.
    - rewrite V, VZ. apply rnd_nonneg. lra. }
  assert (P3 : 0 <= val (fadd ra (fmul (of_Z 360) (td_div t 86400000000)))).
  { destruct (fadd_big ra _ F F2) as [_ V]; [apply huge_add; unfold huge; apply Rabs_le; lra|]. rewrite V. apply rnd_nonneg. lra. }
  destruct (fadd_big _ _ F3 Fw) as [_ V]; [apply huge_add; unfold huge; apply Rabs_le; rewrite Vw; lra|]. rewrite V. apply rnd_nonneg. rewrite Vw. lra.
Qed.
Lemma node_lemma ra t asc : angle_ok ra -> (0 <= t < 86400000000)%Z ->
  exists n, f_sso_node_passed ra t asc = Ok n /\ angle_ok n /\ exists k : Z, Rabs (val n + 360 * IZR k - node_for (val ra) t asc) <= / 1000000000000.
Proof.
  intros A T. destruct (turned_close ra t asc A T) as [[F D] P]. destruct (np_mod_nonneg _ F P) as (FN & BN & k & K).
  exists (np_mod (f_turned ra t asc) (of_Z 360)). split; [|split; [split; assumption|]].
  - unfold f_sso_node_passed, f_sso_node. fold (f_turned ra t asc). apply (raan_field_ok _ FN). exact BN.
  - exists (k - (if asc then 1 else 0))%Z. rewrite minus_IZR. unfold node_for.
    set (s := val (f_turned ra t asc)) in *. set (n := val (np_mod (f_turned ra t asc) (of_Z 360))) in *. clearbody s n. subst s. apply Rabs_le_inv in D. apply Rabs_le.
    destruct asc; [change (IZR (180 * 1)) with 180 in D|change (IZR (180 * 0)) with 0 in D]; lra.
Qed.
Lemma witness_lemma : accurate_power power_near /\ computes (fun x => Rabs x <= 1) acos (by_nearest 51 acos)
  /\ f_sso_altitude (of_Z 700000) = true /\ val (of_Z 700000) <= 5980990 /\ angle_ok (of_Z 350)
  /\ power_near (of_Z 1) (fdiv (of_Z 7) (of_Z 2)) = of_Z 1 /\ by_nearest 51 acos (of_Z (-1)) = f_pi.
Proof.
  destruct (of_Z_spec 700000 ltac:(lia)) as [F V]. destruct (of_Z_spec 350 ltac:(lia)) as [F2 V2].
  split; [exact power_near_ok|]. split; [exact acos_near_ok|]. split; [apply altitude_iff; split; [exact F|]; rewrite V; unfold r_exact; lra|].
  split; [rewrite V; lra|]. split; [split; [exact F2|]; rewrite V2; lra|]. split; [exact power_near_one|exact acos_near_one].
Qed.
