(** Derived anomalies in binary64. *)
From Coq Require Import ZArith Reals Lra Lia Bool.
From Flocq Require Import Core Relative IEEE754.BinarySingleNaN.
From Verif Require Import Base RBase RFacts Float_Model Float_Spec Float_Proofs FGrid_Model FTime_Model FTime_Proofs Orbit_Model Anomaly_Proofs AnomalyInj_Proofs AnomalyRound_Proofs Mog_Proofs
  FGeom_Model FGeom_Spec FGeom_Proofs FGeom_Proofs2 FMog_Proofs FMog_Proofs2 FAnom_Model FAnom_Spec FAnom_Proofs.
Open Scope R_scope.

(** ** The series in degrees *)
Lemma f_true_upper e r : 0 <= e <= 1 -> 0 <= r <= PI -> r <= f_true e r <= PI + 2.75.
Proof.
  intros He Hr. split; [apply f_true_upper_half; assumption|]. pose proof (sin_ge_0 r (proj1 Hr) (proj2 Hr)) as Hs.
  pose proof (sc_bounds r) as SC. rewrite f_true_g. assert (PI_3 : 3 < PI) by (pose proof PI2_3_2; lra).
  set (s := sin r) in *. set (c := cos r) in *. assert (s <= 1) by nra. assert (-1 <= c <= 1) by nra.
  pose proof (s_c2_bound s c Hs SC) as B2.
  assert (E1 : 2 * e - 4 / 3 * e ^ 3 <= 1).
  { assert (P : 0 <= 1 - 2 * e + 4 / 3 * (e * (e * e))); [|simpl; lra].
    assert (0 <= (e - 7/10) * (e - 7/10) * (e + 14/10)) by (apply Rmult_le_pos; [apply Rle_0_sqr|lra]). lra. }
  assert (E2 : 0 <= e ^ 2 <= 1) by (simpl; nra). assert (E3 : 0 <= e ^ 3 <= 1) by (simpl; nra).
  assert (T1 : s * (2 * e - 4 / 3 * e ^ 3) <= 1) by (apply Rle_trans with (s * 1); [apply Rmult_le_compat_l; assumption|lra]).
  assert (T3 : s * (13 / 3 * e ^ 3 * (c * c)) <= 174 / 100).
  { assert (0 <= c * c) by nra. assert (0 <= s * (c * c)) by nra.
    replace (s * (13 / 3 * e ^ 3 * (c * c))) with (13 / 3 * (e ^ 3 * (s * (c * c)))) by ring.
    assert (e ^ 3 * (s * (c * c)) <= 1 * (s * (c * c))) by (apply Rmult_le_compat_r; lra). lra. }
  destruct (Rle_dec r (PI / 2)) as [Hl|Hl].
  - assert (T2 : s * (5 / 2 * e ^ 2 * c) <= 125 / 100).
    { assert (SCh : s * c <= 1 / 2) by (pose proof (Rle_0_sqr (s - c)) as Q; unfold Rsqr in Q; lra). assert (0 <= c) by (apply cos_ge_0; lra).
      assert (0 <= s * c) by nra. replace (s * (5 / 2 * e ^ 2 * c)) with (5 / 2 * (e ^ 2 * (s * c))) by ring.
      assert (e ^ 2 * (s * c) <= 1 * (s * c)) by (apply Rmult_le_compat_r; lra). lra. }
    lra.
  - assert (T2 : s * (5 / 2 * e ^ 2 * c) <= 0).
    { assert (c <= 0) by (apply cos_le_0; lra). assert (s * c <= 0) by nra.
      replace (s * (5 / 2 * e ^ 2 * c)) with (5 / 2 * (e ^ 2 * (s * c))) by ring.
      assert (0 <= e ^ 2 * - (s * c)) by (apply Rmult_le_pos; lra). lra. }
    lra.
Qed.
Lemma deg_rad x : x * (PI / 180) * (180 / PI) = x.
Proof. pose proof PI_RGT_0. field. lra. Qed.
Lemma deg_le a b : a <= b -> a * (180 / PI) <= b * (180 / PI).
Proof. intro H. pose proof PI_RGT_0. apply Rmult_le_compat_r; [apply Rlt_le, Rdiv_lt_0_compat; lra|exact H]. Qed.
Lemma true_of_range e m d : 0 <= e <= 1 -> 0 <= d <= 1 -> d <= m <= 360 - d -> d <= true_of m e <= 360 - d.
Proof.
  intros E D M. pose proof pi_tight as P. unfold true_of. rewrite true_series_eq. set (r := m * (PI / 180)).
  assert (RM : r * (180 / PI) = m) by apply deg_rad. assert (R1 : 0 <= r <= 2 * PI) by (unfold r; nra).
  assert (TP : (2 * PI) * (180 / PI) = 360) by (field; lra).
  assert (Q : (PI + 2.75) * (180 / PI) <= 359). { apply Rle_trans with (359 * (PI / 180) * (180 / PI)); [apply deg_le; lra|right; apply deg_rad]. }
  destruct (Rle_dec r PI) as [H|H].
  - destruct (f_true_upper e r E ltac:(lra)) as [A B]. apply deg_le in A, B. lra.
  - destruct (f_true_upper e (2 * PI - r) E ltac:(lra)) as [A B]. rewrite f_true_flip in A, B.
    apply deg_le in A, B. rewrite !Rmult_minus_distr_r, TP in A, B. lra.
Qed.
Lemma tri a b c : Rabs (a - c) <= Rabs (a - b) + Rabs (b - c).
Proof. replace (a - c) with ((a - b) + (b - c)) by ring. apply Rabs_triang. Qed.
Lemma sin_k_lip k a b : 0 <= k -> Rabs (sin (k * a) - sin (k * b)) <= k * Rabs (a - b).
Proof.
  intro K. eapply Rle_trans; [apply sin_lip|]. rewrite <- Rmult_minus_distr_l, Rabs_mult, (Rabs_pos_eq k) by exact K. lra.
Qed.
Lemma f_true_lip e a b : 0 <= e <= 1 -> Rabs (f_true e a - f_true e b) <= 9 * Rabs (a - b).
Proof.
  intro E. assert (E2 : 0 <= e ^ 2 <= 1) by (simpl; nra). assert (E3 : 0 <= e ^ 3 <= 1) by (simpl; nra).
  unfold f_true. set (c1 := 2 * e - 1 / 4 * e ^ 3). assert (C1 : 0 <= c1 <= 2) by (unfold c1; assert (e ^ 3 <= e) by (simpl; nra); lra).
  pose proof (sin_lip b a) as L1. pose proof (sin_k_lip 2 a b ltac:(lra)) as L2. pose proof (sin_k_lip 3 a b ltac:(lra)) as L3. pose proof (Rabs_pos (a - b)) as P0.
  replace (a + c1 * sin a + 5 / 4 * e ^ 2 * sin (2 * a) + 13 / 12 * e ^ 3 * sin (3 * a) - (b + c1 * sin b + 5 / 4 * e ^ 2 * sin (2 * b) + 13 / 12 * e ^ 3 * sin (3 * b)))
    with ((a - b) + c1 * (sin a - sin b) + 5 / 4 * e ^ 2 * (sin (2 * a) - sin (2 * b)) + 13 / 12 * e ^ 3 * (sin (3 * a) - sin (3 * b))) by ring.
  assert (M1 : Rabs (c1 * (sin a - sin b)) <= 2 * Rabs (a - b)) by (rewrite Rabs_mult, (Rabs_pos_eq c1) by lra; apply Rmult_le_compat; auto using Rabs_pos; lra).
  assert (M2 : Rabs (5 / 4 * e ^ 2 * (sin (2 * a) - sin (2 * b))) <= 5 / 4 * (2 * Rabs (a - b))) by (rewrite Rabs_mult, (Rabs_pos_eq (5 / 4 * e ^ 2)) by lra; apply Rmult_le_compat; auto using Rabs_pos; lra).
  assert (M3 : Rabs (13 / 12 * e ^ 3 * (sin (3 * a) - sin (3 * b))) <= 13 / 12 * (3 * Rabs (a - b))) by (rewrite Rabs_mult, (Rabs_pos_eq (13 / 12 * e ^ 3)) by lra; apply Rmult_le_compat; auto using Rabs_pos; lra).
  eapply Rle_trans; [apply Rabs_triang|]. eapply Rle_trans; [apply Rplus_le_compat_r, Rabs_triang|]. eapply Rle_trans; [apply Rplus_le_compat_r, Rplus_le_compat_r, Rabs_triang|]. lra.
Qed.
Lemma true_of_lip e a b : 0 <= e <= 1 -> Rabs (true_of a e - true_of b e) <= 9 * Rabs (a - b).
Proof.
  intro E. pose proof PI_RGT_0 as P. unfold true_of. rewrite !true_series_eq, <- Rmult_minus_distr_r, Rabs_mult.
  pose proof (f_true_lip e (a * (PI / 180)) (b * (PI / 180)) E) as L. rewrite <- Rmult_minus_distr_r, Rabs_mult in L.
  assert (K : 0 < 180 / PI) by (apply Rdiv_lt_0_compat; lra). assert (K' : 0 < PI / 180) by lra.
  rewrite (Rabs_pos_eq (180 / PI)) by lra. rewrite (Rabs_pos_eq (PI / 180)) in L by lra.
  apply Rle_trans with (9 * (Rabs (a - b) * (PI / 180)) * (180 / PI)); [apply Rmult_le_compat_r; [lra|exact L]|].
  right. field. lra.
Qed.

Section Libm.
Variables (f_sin : b64 -> b64) (f_pow : b64 -> nat -> b64).
Hypothesis SIN : computes (fun x => Rabs x <= 1048576) sin f_sin.
Hypothesis POW : accurate_pow f_pow.

(** ** Elliptical orbits *)
Lemma derived_near nu e dm r : angle_ok nu -> closed e -> moderate dm -> turn_of (mean_of (val nu) (val e) + val dm) r ->
  / 10000000000 <= r <= 360 - / 10000000000 ->
  exists f, f_derived_anomaly f_sin f_pow nu e dm = Ok f /\ angle_ok f /\ Rabs (val f - true_of r (val e)) <= / 1000000000.
Proof.
  intros [FN BN] CE [FD BD] [_ [k TK]] RB. pose proof (mean_near f_sin f_pow SIN POW nu e FN ltac:(lra) CE) as CM.
  assert (MB : Rabs (mean_of (val nu) (val e) + val dm) <= 40000).
  { assert (Rabs (mean_of (val nu) (val e)) <= 975).
    { unfold mean_of. pose proof pi_tight as P. rewrite Rabs_mult, (Rabs_pos_eq (180 / PI)) by (apply Rlt_le, Rdiv_lt_0_compat; lra).
      assert (Q : 57 <= 180 / PI <= 57.3). { split; apply Rmult_le_reg_r with PI; try lra; unfold Rdiv; rewrite Rmult_assoc, Rinv_l by lra; lra. }
      assert (S : Rabs (mean_series (val e) (val nu * (PI / 180))) <= 17).
      { destruct CE as [_ BE]. set (ev := val e) in *. assert (E2 : 0 <= ev ^ 2 <= 1) by (simpl; nra). assert (E3 : 0 <= ev ^ 3 <= 1) by (simpl; nra). assert (E4 : 0 <= ev ^ 4 <= 1) by (simpl; nra).
        unfold mean_series. set (x := val nu * (PI / 180)). assert (X : 0 <= x <= 6.3) by (unfold x; nra).
        pose proof (prod_bound (2 * ev) _ 2 ltac:(rewrite Rabs_pos_eq; lra) (sin_abs1 x)) as G1. pose proof (prod_bound (3 / 4 * ev ^ 2 + 1 / 8 * ev ^ 4) _ 2 ltac:(rewrite Rabs_pos_eq; lra) (sin_abs1 (2 * x))) as G2.
        pose proof (prod_bound (1 / 3 * ev ^ 3) _ 2 ltac:(rewrite Rabs_pos_eq; lra) (sin_abs1 (3 * x))) as G3. pose proof (prod_bound (5 / 32 * ev ^ 4) _ 2 ltac:(rewrite Rabs_pos_eq; lra) (sin_abs1 (4 * x))) as G4.
        apply Rabs_le_inv in G1, G2, G3, G4. apply Rabs_le. lra. }
      replace 975 with (17 * (975 / 17)) by field. apply Rmult_le_compat; auto using Rabs_pos; lra. }
    eapply Rle_trans; [apply Rabs_triang|]. lra. }
  assert (CS : close (fadd (f_true_to_mean f_sin f_pow nu e) dm) (mean_of (val nu) (val e) + val dm) (26 / 1000000000000)).
  { apply (close_add _ _ _ _ _ _ 40000 _ CM (close_self dm FD) MB); [unfold huge; lra|unfold u, tiny; lra]. }
  destruct CS as [FS DS]. set (s := fadd _ dm) in *. destruct f360 as [F3 V3]. destruct (np_mod_spec s _ FS F3 ltac:(lra)) as [FP VP]. rewrite V3 in VP.
  apply Rabs_le_inv in DS.
  assert (RM : rmod (val s) 360 = r + (val s - (mean_of (val nu) (val e) + val dm))).
  { apply rmod_unique; [lra|lra|]. exists k. rewrite TK. ring. }
  assert (PC : close (np_mod s (of_Z 360)) r (27 / 1000000000000)).
  { apply (close_rnd _ _ r (26 / 1000000000000) 360 _ FP VP); [rewrite RM; apply Rabs_le; lra|rewrite Rabs_pos_eq; lra|unfold u, tiny; lra]. }
  destruct PC as [_ PD]. pose proof PD as PD'. apply Rabs_le_inv in PD. set (p := np_mod s (of_Z 360)) in *.
  pose proof (true_near f_sin f_pow SIN POW p e FP ltac:(lra) CE) as [FT DT].
  pose proof (true_of_range (val e) (val p) (7 / 100000000000) (proj2 CE) ltac:(lra) ltac:(lra)) as TR. pose proof (true_of_lip (val e) (val p) r (proj2 CE)) as TL.
  pose proof DT as DT'. apply Rabs_le_inv in DT'.
  unfold f_derived_anomaly. fold s. fold p. destruct (raan_field_ok _ FT) as [K _]. eexists. split; [apply K; lra|]. split; [split; [exact FT|lra]|].
  eapply Rle_trans; [apply (tri _ (true_of (val p) (val e)))|]. set (w := val (f_mean_to_true f_sin f_pow p e)) in *. clearbody w. lra.
Qed.

(** ** Circular orbits *)
Definition k1 := fdiv f_pi (of_Z 180).
Definition k2 := fdiv (of_Z 180) f_pi.
(** Conversion to radians and back. *)
Definition there (v : R) : R := rnd (rnd (v * val k1) * val k2).
Lemma k_range : finite k1 /\ finite k2 /\ 0 <= val k1 <= 1 /\ 0 <= val k2 <= 58.
Proof.
  pose proof pi_tight as P. destruct radians_const as [F1 D1]. destruct degrees_const as [F2 D2]. apply Rabs_le_inv in D1, D2.
  assert (Q : 57 <= 180 / PI <= 57.3). { split; apply Rmult_le_reg_r with PI; try lra; unfold Rdiv; rewrite Rmult_assoc, Rinv_l by lra; lra. }
  fold k1 in F1, D1. fold k2 in F2, D2. split; [exact F1|]. split; [exact F2|]. lra.
Qed.
Lemma there_mono a b : a <= b -> there a <= there b.
Proof.
  intro H. destruct k_range as (_ & _ & A & B). unfold there, rnd. apply round_le; [auto with typeclass_instances|auto with typeclass_instances|].
  apply Rmult_le_compat_r; [lra|]. apply round_le; [auto with typeclass_instances|auto with typeclass_instances|]. apply Rmult_le_compat_r; lra.
Qed.
Lemma radians_val x : finite x -> 0 <= val x <= 360 -> finite (f_radians x) /\ val (f_radians x) = rnd (val x * val k1) /\ 0 <= val (f_radians x) <= 7.
Proof.
  intros F B. destruct k_range as (F1 & _ & A & _). pose proof (radians_close x 0 360 ltac:(split; [exact F|lra]) ltac:(lra) ltac:(lra)) as [FR D].
  destruct (fmul_fin x k1 F F1) as [_ V]; [apply huge_ok; rewrite Rabs_pos_eq by nra; unfold huge; nra|]. split; [exact FR|]. split; [exact V|].
  apply Rabs_le_inv in D. unfold radians in D. pose proof pi_tight. split; [unfold f_radians; fold k1; rewrite V; apply rnd_nonneg; nra|nra].
Qed.
Lemma degrees_val x : finite x -> 0 <= val x <= 7 -> finite (f_degrees x) /\ val (f_degrees x) = rnd (val x * val k2).
Proof. intros F B. destruct k_range as (_ & F2 & _ & A). exact (fmul_fin x k2 F F2 ltac:(apply huge_ok; rewrite Rabs_pos_eq by nra; unfold huge; nra)). Qed.
Lemma there_val x : finite x -> 0 <= val x <= 360 -> finite (f_degrees (f_radians x)) /\ val (f_degrees (f_radians x)) = there (val x).
Proof.
  intros F B. destruct (radians_val x F B) as (FR & VR & BR). destruct (degrees_val _ FR BR) as [FD VD]. split; [exact FD|]. rewrite VD, VR. reflexivity.
Qed.
(** Terms of the series with eccentricity zero. *)
Lemma zero_mul c s : finite c -> val c = 0 -> finite s -> finite (fmul c s) /\ val (fmul c s) = 0.
Proof.
  intros F V S. destruct (fmul_fin c s F S) as [F' V']; [rewrite V, Rmult_0_l, Rabs_R0; apply bpow_ge_0|]. split; [exact F'|]. rewrite V', V, Rmult_0_l. unfold rnd. apply round_0. auto with typeclass_instances.
Qed.
Lemma mul_zero c s : finite c -> val s = 0 -> finite s -> finite (fmul c s) /\ val (fmul c s) = 0.
Proof.
  intros F V S. destruct (fmul_fin c s F S) as [F' V']; [rewrite V, Rmult_0_r, Rabs_R0; apply bpow_ge_0|]. split; [exact F'|]. rewrite V', V, Rmult_0_r. unfold rnd. apply round_0. auto with typeclass_instances.
Qed.
Lemma same_rnd x : rnd (val x) = val x.
Proof. rewrite <- rd_rnd. apply rd_fmt, val_fmt. Qed.
Lemma add_zero x z : finite x -> finite z -> val z = 0 -> 0 <= val x <= 7 -> finite (fadd x z) /\ val (fadd x z) = val x.
Proof.
  intros F Z V B. destruct (fadd_big x z F Z) as [F' V']; [rewrite V, Rplus_0_r; apply huge_add; rewrite Rabs_pos_eq by lra; unfold huge; lra|]. split; [exact F'|]. rewrite V', V, Rplus_0_r. apply same_rnd.
Qed.
Lemma sub_zero x z : finite x -> finite z -> val z = 0 -> 0 <= val x <= 7 -> finite (fsub x z) /\ val (fsub x z) = val x.
Proof.
  intros F Z V B. destruct (fsub_big x z F Z) as [F' V']; [rewrite V, Rminus_0_r; apply huge_add; rewrite Rabs_pos_eq by lra; unfold huge; lra|]. split; [exact F'|]. rewrite V', V, Rminus_0_r. apply same_rnd.
Qed.
Lemma sub_zeros x z : finite x -> finite z -> val x = 0 -> val z = 0 -> finite (fsub x z) /\ val (fsub x z) = 0.
Proof. intros F Z V W. rewrite <- V. apply sub_zero; auto. lra. Qed.
Lemma add_zeros x z : finite x -> finite z -> val x = 0 -> val z = 0 -> finite (fadd x z) /\ val (fadd x z) = 0.
Proof. intros F Z V W. rewrite <- V. apply add_zero; auto. lra. Qed.
Lemma pow_zero k : (2 <= k <= 4)%nat -> finite (f_pow (of_Z 0) k) /\ val (f_pow (of_Z 0) k) = 0.
Proof. intro K. destruct f0 as [F V]. destruct (POW (of_Z 0) k F ltac:(lra) K) as (FP & B & _). split; [exact FP|lra]. Qed.
Lemma zero_coef a b k : (0 < a <= 13)%Z -> (0 < b <= 32)%Z -> (a <= 2 * b)%Z -> (2 <= k <= 4)%nat ->
  finite (fmul (fdiv (of_Z a) (of_Z b)) (f_pow (of_Z 0) k)) /\ val (fmul (fdiv (of_Z a) (of_Z b)) (f_pow (of_Z 0) k)) = 0.
Proof. intros A B C K. destruct (pow_zero k K) as [F V]. apply mul_zero; auto. apply (qclose a b); assumption. Qed.
Section Angle.
Variable x : b64.
Hypothesis F : finite x.
Hypothesis B : 0 <= val x <= 360.
Lemma closed0 : closed (of_Z 0).
Proof. destruct f0 as [G V]. split; [exact G|lra]. Qed.
Lemma sin_fin : finite (f_sin (f_radians x)). Proof. apply (r_sin f_sin SIN x F B). Qed.
Lemma sink_fin k : (2 <= k <= 4)%Z -> finite (f_sin (fmul (of_Z k) (f_radians x))). Proof. intro K. apply (kr_sin f_sin SIN x F B k K). Qed.
Lemma two_zero : finite (fmul (of_Z 2) (of_Z 0)) /\ val (fmul (of_Z 2) (of_Z 0)) = 0.
Proof. destruct f0 as [G V]. apply mul_zero; auto. Qed.
Lemma true_circular : finite (f_mean_to_true f_sin f_pow x (of_Z 0)) /\ val (f_mean_to_true f_sin f_pow x (of_Z 0)) = there (val x).
Proof.
  destruct (radians_val x F B) as (FR & VR & BR). unfold f_mean_to_true.
  destruct two_zero as [FZ VZ]. destruct (zero_coef 1 4 3) as [Fa Va]; try lia. destruct (sub_zeros _ _ FZ Fa VZ Va) as [Fb Vb].
  destruct (zero_mul _ _ Fb Vb sin_fin) as [Fc Vc]. destruct (add_zero _ _ FR Fc Vc BR) as [F1 V1].
  destruct (zero_coef 5 4 2) as [Fd Vd]; try lia. destruct (zero_mul _ _ Fd Vd (sink_fin 2 ltac:(lia))) as [Fe Ve]. destruct (add_zero _ _ F1 Fe Ve ltac:(rewrite V1; exact BR)) as [F2 V2].
  destruct (zero_coef 13 12 3) as [Fg Vg]; try lia. destruct (zero_mul _ _ Fg Vg (sink_fin 3 ltac:(lia))) as [Fh Vh]. destruct (add_zero _ _ F2 Fh Vh ltac:(rewrite V2, V1; exact BR)) as [F3 V3].
  destruct (degrees_val _ F3 ltac:(rewrite V3, V2, V1; exact BR)) as [FD VD]. split; [exact FD|]. rewrite VD, V3, V2, V1, VR. reflexivity.
Qed.
Lemma mean_circular : finite (f_true_to_mean f_sin f_pow x (of_Z 0)) /\ val (f_true_to_mean f_sin f_pow x (of_Z 0)) = there (val x).
Proof.
  destruct (radians_val x F B) as (FR & VR & BR). unfold f_true_to_mean.
  destruct two_zero as [FZ VZ]. destruct (zero_mul _ _ FZ VZ sin_fin) as [Fc Vc]. destruct (sub_zero _ _ FR Fc Vc BR) as [F1 V1].
  destruct (zero_coef 3 4 2) as [Fa Va]; try lia. destruct (zero_coef 1 8 4) as [Fb Vb]; try lia. destruct (add_zeros _ _ Fa Fb Va Vb) as [Fd Vd].
  destruct (zero_mul _ _ Fd Vd (sink_fin 2 ltac:(lia))) as [Fe Ve]. destruct (add_zero _ _ F1 Fe Ve ltac:(rewrite V1; exact BR)) as [F2 V2].
  destruct (zero_coef 1 3 3) as [Fg Vg]; try lia. destruct (zero_mul _ _ Fg Vg (sink_fin 3 ltac:(lia))) as [Fh Vh]. destruct (sub_zero _ _ F2 Fh Vh ltac:(rewrite V2, V1; exact BR)) as [F3 V3].
  destruct (zero_coef 5 32 4) as [Fi Vi]; try lia. destruct (zero_mul _ _ Fi Vi (sink_fin 4 ltac:(lia))) as [Fj Vj]. destruct (add_zero _ _ F3 Fj Vj ltac:(rewrite V3, V2, V1; exact BR)) as [F4 V4].
  destruct (degrees_val _ F4 ltac:(rewrite V4, V3, V2, V1; exact BR)) as [FD VD]. split; [exact FD|]. rewrite VD, V4, V3, V2, V1, VR. reflexivity.
Qed.
End Angle.
End Libm.
