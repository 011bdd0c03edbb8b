(** Accuracy of the anomaly conversions in binary64. *)
From Coq Require Import ZArith Reals Lra Lia Bool.
From Flocq Require Import Core Relative IEEE754.BinarySingleNaN.
From Verif Require Import Base RBase RFacts Float_Model Float_Spec Float_Proofs FGrid_Model FTime_Model FTime_Proofs Orbit_Model Anomaly_Proofs AnomalyRound_Proofs Mog_Proofs
  FGeom_Model FGeom_Spec FGeom_Proofs FGeom_Proofs2 FMog_Proofs FMog_Proofs2 FAnom_Model FAnom_Spec.
Open Scope R_scope.

Lemma true_series_eq e r : true_series e r = f_true e r.
Proof. reflexivity. Qed.
Lemma mean_series_eq e r : mean_series e r = f_mean e r.
Proof. reflexivity. Qed.
Lemma qclose a b : (0 < a <= 13)%Z -> (0 < b <= 32)%Z -> (a <= 2 * b)%Z -> close (fdiv (of_Z a) (of_Z b)) (IZR a / IZR b) e15.
Proof.
  intros A B C. destruct (of_Z_spec a ltac:(lia)) as [FA VA]. destruct (of_Z_spec b ltac:(lia)) as [FB VB].
  assert (0 < IZR b) by (apply IZR_lt; lia). assert (0 < IZR a) by (apply IZR_lt; lia). assert (IZR a <= 2 * IZR b) by (rewrite <- mult_IZR; apply IZR_le; lia).
  assert (Q : 0 <= IZR a / IZR b <= 2) by (apply div_bounds; lra).
  destruct (fdiv_fin _ _ FA FB) as [F V]; [rewrite VB; lra|rewrite VA, VB; apply huge_ok; rewrite Rabs_pos_eq by lra; unfold huge; lra|].
  rewrite VA, VB in V. apply (close_rnd _ _ _ 0 2 _ F V); [unfold Rminus; rewrite Rplus_opp_r, Rabs_R0; lra|rewrite Rabs_pos_eq; lra|unfold u, tiny, e15; lra].
Qed.
Lemma gmul x y a b d1 d2 d : close x a d1 -> close y b d2 -> Rabs a <= 2 -> Rabs b <= 2 -> 0 <= d1 <= / 100 -> 0 <= d2 <= / 100 ->
  3 * (d1 + d2) + e15 <= d -> close (fmul x y) (a * b) d.
Proof.
  intros X Y A B H1 H2 H. assert (M : Rabs (a * b) <= 4). { replace 4 with (2 * 2) by ring. rewrite Rabs_mult. apply Rmult_le_compat; auto using Rabs_pos. }
  assert (d1 * d2 <= / 100 * d2) by (apply Rmult_le_compat_r; lra). assert (0 <= d1 * d2) by (apply Rmult_le_pos; lra).
  apply (close_mul _ _ _ _ _ _ 2 2 4 _ X Y A B M); [lra|lra|unfold huge; lra|unfold u, tiny, e15 in *; lra].
Qed.
Lemma gadd x y a b d1 d2 d : close x a d1 -> close y b d2 -> Rabs (a + b) <= 17 -> 0 <= d1 <= / 100 -> 0 <= d2 <= / 100 -> d1 + d2 + 2 * e15 <= d -> close (fadd x y) (a + b) d.
Proof. intros X Y M H1 H2 H. apply (close_add _ _ _ _ _ _ 17 _ X Y M); [unfold huge; lra|unfold u, tiny, e15 in *; lra]. Qed.
Lemma gsub x y a b d1 d2 d : close x a d1 -> close y b d2 -> Rabs (a - b) <= 17 -> 0 <= d1 <= / 100 -> 0 <= d2 <= / 100 -> d1 + d2 + 2 * e15 <= d -> close (fsub x y) (a - b) d.
Proof. intros X Y M H1 H2 H. apply (close_sub _ _ _ _ _ _ 17 _ X Y M); [unfold huge; lra|unfold u, tiny, e15 in *; lra]. Qed.
Lemma degrees17 x r d : close x r d -> Rabs r <= 17 -> 0 <= d <= 1 -> close (f_degrees x) (r * (180 / PI)) (58 * d + 3 / 10000000000000).
Proof.
  intros C HR D. unfold f_degrees. pose proof pi_tight as P.
  assert (Q : 57 <= 180 / PI <= 57.3). { split; apply Rmult_le_reg_r with PI; try lra; unfold Rdiv; rewrite Rmult_assoc, Rinv_l by lra; lra. }
  assert (QA : Rabs (180 / PI) <= 57.3) by (rewrite Rabs_pos_eq; lra).
  apply (close_mul _ _ _ _ _ _ 17 57.3 975 _ C degrees_const); try lra.
  - rewrite Rabs_mult. replace 975 with (17 * (975 / 17)) by field. apply Rmult_le_compat; auto using Rabs_pos. lra.
  - unfold huge. lra. - unfold u, tiny. lra.
Qed.

Section Libm.
Variables (f_sin : b64 -> b64) (f_pow : b64 -> nat -> b64).
Hypothesis SIN : computes (fun x => Rabs x <= 1048576) sin f_sin.
Hypothesis POW : accurate_pow f_pow.

Lemma sin_near x r d : close x r d -> Rabs r <= 1000 -> 0 <= d <= 1 -> close (f_sin x) (sin r) (d + e15).
Proof.
  intros C HR HD. pose proof (close_bound _ _ _ _ C HR) as HV. destruct C as [F D].
  destruct (SIN _ F ltac:(lra)) as [FC DC]. split; [exact FC|].
  replace (val (f_sin x) - sin r) with ((val (f_sin x) - sin (val x)) + (sin (val x) - sin r)) by ring.
  eapply Rle_trans; [apply Rabs_triang|]. pose proof (sin_lip r (val x)). pose proof eps_ok. unfold e15. lra.
Qed.
Section One.
Variables (m e : b64).
Hypothesis M : finite m.
Hypothesis MB : 0 <= val m <= 360.
Hypothesis E : closed e.
Let r := val m * (PI / 180).
Let ev := val e.
Lemma r_range : 0 <= r <= 6.3.
Proof. pose proof pi_tight. unfold r. nra. Qed.
Lemma r_close : close (f_radians m) r (3 * e15).
Proof. apply close_weak with (22 / 10000000000000000); [apply (radians_close m 0 360); [split; [exact M|lra]|lra|lra]|unfold e15; lra]. Qed.
Lemma kr_sin k : (2 <= k <= 4)%Z -> close (f_sin (fmul (of_Z k) (f_radians m))) (sin (IZR k * r)) (17 * e15).
Proof.
  intro K. pose proof r_range as R'. assert (K4 : 2 <= IZR k <= 4) by (split; apply IZR_le; lia).
  assert (KR : 0 <= IZR k * r <= 25.2) by nra.
  assert (C : close (fmul (of_Z k) (f_radians m)) (IZR k * r) (16 * e15)).
  { apply (close_mul _ _ _ _ _ _ 4 6.3 25.2 _ (close_Z k ltac:(lia)) r_close); try (rewrite Rabs_pos_eq; lra); try (unfold e15; lra); unfold huge, e15, u, tiny; lra. }
  apply (close_weak _ _ _ _ (sin_near _ _ _ C ltac:(rewrite Rabs_pos_eq; lra) ltac:(unfold e15; lra))). lra.
Qed.
Lemma r_sin : close (f_sin (f_radians m)) (sin r) (4 * e15).
Proof. pose proof r_range as R'. apply (close_weak _ _ _ _ (sin_near _ _ _ r_close ltac:(rewrite Rabs_pos_eq; lra) ltac:(unfold e15; lra))). lra. Qed.
Lemma e_pow k : (2 <= k <= 4)%nat -> close (f_pow e k) (ev ^ k) e15 /\ 0 <= ev ^ k <= 1.
Proof.
  intro K. destruct E as [F B]. destruct (POW e k F B K) as (FP & _ & D). pose proof eps_ok. split; [split; [exact FP|unfold e15; unfold ev; lra]|].
  unfold ev. split; [apply pow_le; lra|]. rewrite <- (pow1 k). apply pow_incr. exact B.
Qed.
Lemma coef a b k : (0 < a <= 13)%Z -> (0 < b <= 32)%Z -> (a <= 2 * b)%Z -> (2 <= k <= 4)%nat ->
  close (fmul (fdiv (of_Z a) (of_Z b)) (f_pow e k)) (IZR a / IZR b * ev ^ k) (7 * e15) /\ 0 <= IZR a / IZR b * ev ^ k <= IZR a / IZR b.
Proof.
  intros A B C K. destruct (e_pow k K) as [P Q].
  assert (0 < IZR b) by (apply IZR_lt; lia). assert (0 < IZR a) by (apply IZR_lt; lia). assert (IZR a <= 2 * IZR b) by (rewrite <- mult_IZR; apply IZR_le; lia).
  assert (D : 0 <= IZR a / IZR b <= 2) by (apply div_bounds; lra). split; [|nra].
  apply (gmul _ _ _ _ e15 e15); auto using qclose; try (rewrite Rabs_pos_eq; lra); unfold e15; lra.
Qed.
Lemma two_e : close (fmul (of_Z 2) e) (2 * ev) e15.
Proof. destruct E as [F B]. apply (gmul _ _ _ _ 0 0 _ (close_Z 2 ltac:(lia)) (close_self e F)); try (fold ev); try (rewrite Rabs_pos_eq; unfold ev; lra); unfold e15; lra. Qed.
Lemma prod_bound a b A : Rabs a <= A -> Rabs b <= 1 -> Rabs (a * b) <= A.
Proof. intros HA HB. rewrite Rabs_mult. pose proof (Rabs_pos a). pose proof (Rabs_pos b). nra. Qed.
Let s1 := sin r. Let s2 := sin (2 * r). Let s3 := sin (3 * r). Let s4 := sin (4 * r).
Lemma true_near : close (f_mean_to_true f_sin f_pow m e) (true_of (val m) ev) (2 / 100000000000).
Proof.
  pose proof r_range as R'. destruct E as [FE BE]. fold ev in BE. destruct (e_pow 3 ltac:(lia)) as [P3 B3].
  destruct (coef 1 4 3 ltac:(lia) ltac:(lia) ltac:(lia) ltac:(lia)) as [Q1 Q1b]. destruct (coef 5 4 2 ltac:(lia) ltac:(lia) ltac:(lia) ltac:(lia)) as [Q2 Q2b]. destruct (coef 13 12 3 ltac:(lia) ltac:(lia) ltac:(lia) ltac:(lia)) as [Q3 Q3b].
  assert (C1 : close (fsub (fmul (of_Z 2) e) (fmul (fdiv (of_Z 1) (of_Z 4)) (f_pow e 3))) (2 * ev - 1 / 4 * ev ^ 3) (10 * e15)).
  { apply (gsub _ _ _ _ e15 (7 * e15) _ two_e Q1); [apply Rabs_le; lra|unfold e15; lra|unfold e15; lra|unfold e15; lra]. }
  assert (B1 : Rabs (2 * ev - 1 / 4 * ev ^ 3) <= 2) by (apply Rabs_le; lra).
  assert (T1 := gmul _ _ _ _ _ _ (73 * e15) C1 r_sin B1 ltac:(pose proof (sin_abs1 r); lra) ltac:(unfold e15; lra) ltac:(unfold e15; lra) ltac:(unfold e15; lra)).
  assert (T2 := gmul _ _ _ _ _ _ (73 * e15) Q2 (kr_sin 2 ltac:(lia)) ltac:(rewrite Rabs_pos_eq; lra) ltac:(pose proof (sin_abs1 (2 * r)); lra) ltac:(unfold e15; lra) ltac:(unfold e15; lra) ltac:(unfold e15; lra)).
  assert (T3 := gmul _ _ _ _ _ _ (73 * e15) Q3 (kr_sin 3 ltac:(lia)) ltac:(rewrite Rabs_pos_eq; lra) ltac:(pose proof (sin_abs1 (3 * r)); lra) ltac:(unfold e15; lra) ltac:(unfold e15; lra) ltac:(unfold e15; lra)).
  pose proof (prod_bound _ _ _ B1 (sin_abs1 r)) as G1. pose proof (prod_bound (5 / 4 * ev ^ 2) _ 2 ltac:(rewrite Rabs_pos_eq; lra) (sin_abs1 (2 * r))) as G2.
  pose proof (prod_bound (13 / 12 * ev ^ 3) _ 2 ltac:(rewrite Rabs_pos_eq; lra) (sin_abs1 (3 * r))) as G3. apply Rabs_le_inv in G1, G2, G3.
  assert (S1 := gadd _ _ _ _ _ _ (78 * e15) r_close T1 ltac:(apply Rabs_le; lra) ltac:(unfold e15; lra) ltac:(unfold e15; lra) ltac:(unfold e15; lra)).
  assert (S2 := gadd _ _ _ _ _ _ (153 * e15) S1 T2 ltac:(apply Rabs_le; lra) ltac:(unfold e15; lra) ltac:(unfold e15; lra) ltac:(unfold e15; lra)).
  assert (S3 := gadd _ _ _ _ _ _ (228 * e15) S2 T3 ltac:(apply Rabs_le; lra) ltac:(unfold e15; lra) ltac:(unfold e15; lra) ltac:(unfold e15; lra)).
  apply (close_weak _ _ _ _ (degrees17 _ _ _ S3 ltac:(apply Rabs_le; lra) ltac:(unfold e15; lra))). unfold e15; lra.
Qed.
Lemma mean_near : close (f_true_to_mean f_sin f_pow m e) (mean_of (val m) ev) (2 / 100000000000).
Proof.
  pose proof r_range as R'. destruct E as [FE BE]. fold ev in BE.
  destruct (coef 3 4 2 ltac:(lia) ltac:(lia) ltac:(lia) ltac:(lia)) as [Q1 Q1b]. destruct (coef 1 8 4 ltac:(lia) ltac:(lia) ltac:(lia) ltac:(lia)) as [Q2 Q2b].
  destruct (coef 1 3 3 ltac:(lia) ltac:(lia) ltac:(lia) ltac:(lia)) as [Q3 Q3b]. destruct (coef 5 32 4 ltac:(lia) ltac:(lia) ltac:(lia) ltac:(lia)) as [Q4 Q4b].
  assert (C2 : close (fadd (fmul (fdiv (of_Z 3) (of_Z 4)) (f_pow e 2)) (fmul (fdiv (of_Z 1) (of_Z 8)) (f_pow e 4))) (3 / 4 * ev ^ 2 + 1 / 8 * ev ^ 4) (16 * e15)).
  { apply (gadd _ _ _ _ _ _ _ Q1 Q2); [apply Rabs_le; lra|unfold e15; lra|unfold e15; lra|unfold e15; lra]. }
  assert (T1 := gmul _ _ _ _ _ _ (73 * e15) two_e r_sin ltac:(rewrite Rabs_pos_eq; lra) ltac:(pose proof (sin_abs1 r); lra) ltac:(unfold e15; lra) ltac:(unfold e15; lra) ltac:(unfold e15; lra)).
  assert (T2 := gmul _ _ _ _ _ _ (100 * e15) C2 (kr_sin 2 ltac:(lia)) ltac:(rewrite Rabs_pos_eq; lra) ltac:(pose proof (sin_abs1 (2 * r)); lra) ltac:(unfold e15; lra) ltac:(unfold e15; lra) ltac:(unfold e15; lra)).
  assert (T3 := gmul _ _ _ _ _ _ (73 * e15) Q3 (kr_sin 3 ltac:(lia)) ltac:(rewrite Rabs_pos_eq; lra) ltac:(pose proof (sin_abs1 (3 * r)); lra) ltac:(unfold e15; lra) ltac:(unfold e15; lra) ltac:(unfold e15; lra)).
  assert (T4 := gmul _ _ _ _ _ _ (73 * e15) Q4 (kr_sin 4 ltac:(lia)) ltac:(rewrite Rabs_pos_eq; lra) ltac:(pose proof (sin_abs1 (4 * r)); lra) ltac:(unfold e15; lra) ltac:(unfold e15; lra) ltac:(unfold e15; lra)).
  pose proof (prod_bound (2 * ev) _ 2 ltac:(rewrite Rabs_pos_eq; lra) (sin_abs1 r)) as G1. pose proof (prod_bound (3 / 4 * ev ^ 2 + 1 / 8 * ev ^ 4) _ 2 ltac:(rewrite Rabs_pos_eq; lra) (sin_abs1 (2 * r))) as G2.
  pose proof (prod_bound (1 / 3 * ev ^ 3) _ 2 ltac:(rewrite Rabs_pos_eq; lra) (sin_abs1 (3 * r))) as G3. pose proof (prod_bound (5 / 32 * ev ^ 4) _ 2 ltac:(rewrite Rabs_pos_eq; lra) (sin_abs1 (4 * r))) as G4.
  apply Rabs_le_inv in G1, G2, G3, G4.
  assert (S1 := gsub _ _ _ _ _ _ (78 * e15) r_close T1 ltac:(apply Rabs_le; lra) ltac:(unfold e15; lra) ltac:(unfold e15; lra) ltac:(unfold e15; lra)).
  assert (S2 := gadd _ _ _ _ _ _ (180 * e15) S1 T2 ltac:(apply Rabs_le; lra) ltac:(unfold e15; lra) ltac:(unfold e15; lra) ltac:(unfold e15; lra)).
  assert (S3 := gsub _ _ _ _ _ _ (255 * e15) S2 T3 ltac:(apply Rabs_le; lra) ltac:(unfold e15; lra) ltac:(unfold e15; lra) ltac:(unfold e15; lra)).
  assert (S4 := gadd _ _ _ _ _ _ (330 * e15) S3 T4 ltac:(apply Rabs_le; lra) ltac:(unfold e15; lra) ltac:(unfold e15; lra) ltac:(unfold e15; lra)).
  apply (close_weak _ _ _ _ (degrees17 _ _ _ S4 ltac:(apply Rabs_le; lra) ltac:(unfold e15; lra))). unfold e15; lra.
Qed.
End One.
End Libm.
