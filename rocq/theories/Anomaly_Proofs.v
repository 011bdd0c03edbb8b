(** Proofs about the anomaly series. *)
From Coq Require Import Reals ZArith Lra Lia Psatz Bool.
From Verif Require Import Base RBase RFacts Orbit_Model.
Open Scope R_scope.

(** The two series in radians. *)
Definition f_true (e r : R) : R :=
  r + (2 * e - 1 / 4 * e ^ 3) * sin r + 5 / 4 * e ^ 2 * sin (2 * r) + 13 / 12 * e ^ 3 * sin (3 * r).
Definition f_mean (e r : R) : R :=
  r - 2 * e * sin r + (3 / 4 * e ^ 2 + 1 / 8 * e ^ 4) * sin (2 * r)
    - 1 / 3 * e ^ 3 * sin (3 * r) + 5 / 32 * e ^ 4 * sin (4 * r).

Lemma m2t_eq m e : mean_anomaly_to_true_anomaly m e = degrees (f_true e (radians m)).
Proof. reflexivity. Qed.
Lemma t2m_eq m e : true_anomaly_to_mean_anomaly m e = degrees (f_mean e (radians m)).
Proof. reflexivity. Qed.

Lemma sin_3x x : sin (3 * x) = sin x * (4 * cos x * cos x - 1).
Proof.
  replace (3 * x) with (2 * x + x) by lra. rewrite sin_plus, sin_2a, cos_2a.
  pose proof (sin2_cos2 x) as H. unfold Rsqr in H.
  replace (cos x * cos x - sin x * sin x) with (2 * (cos x * cos x) - 1) by lra. ring.
Qed.

Lemma f_true_g e r : f_true e r =
  r + sin r * (2 * e - 4 / 3 * e ^ 3 + 5 / 2 * e ^ 2 * cos r + 13 / 3 * e ^ 3 * (cos r * cos r)).
Proof. unfold f_true. rewrite sin_2a, sin_3x. field. Qed.

Lemma f_true_0 e : f_true e 0 = 0.
Proof. rewrite f_true_g, sin_0. ring. Qed.
Lemma f_true_odd e r : f_true e (- r) = - f_true e r.
Proof. unfold f_true. replace (2 * - r) with (- (2 * r)) by lra. replace (3 * - r) with (- (3 * r)) by lra.
  rewrite !sin_neg. lra. Qed.
Lemma f_mean_odd e r : f_mean e (- r) = - f_mean e r.
Proof.
  unfold f_mean. replace (2 * - r) with (- (2 * r)) by lra. replace (3 * - r) with (- (3 * r)) by lra.
  replace (4 * - r) with (- (4 * r)) by lra. rewrite !sin_neg. lra.
Qed.

Lemma sin_period_Z x k : sin (x + 2 * IZR k * PI) = sin x.
Proof.
  destruct (Z_le_gt_dec 0 k) as [H|H].
  - rewrite <- (Z2Nat.id k H), <- INR_IZR_INZ. apply sin_period.
  - rewrite <- (sin_period (x + 2 * IZR k * PI) (Z.to_nat (- k))). f_equal.
    rewrite INR_IZR_INZ, Z2Nat.id by lia. rewrite opp_IZR. lra.
Qed.
Lemma cos_period_Z x k : cos (x + 2 * IZR k * PI) = cos x.
Proof.
  destruct (Z_le_gt_dec 0 k) as [H|H].
  - rewrite <- (Z2Nat.id k H), <- INR_IZR_INZ. apply cos_period.
  - rewrite <- (cos_period (x + 2 * IZR k * PI) (Z.to_nat (- k))). f_equal.
    rewrite INR_IZR_INZ, Z2Nat.id by lia. rewrite opp_IZR. lra.
Qed.
Lemma sin_mult_period n x k : sin (IZR n * (x + 2 * IZR k * PI)) = sin (IZR n * x).
Proof.
  replace (IZR n * (x + 2 * IZR k * PI)) with (IZR n * x + 2 * IZR (n * k) * PI) by (rewrite mult_IZR; ring).
  apply sin_period_Z.
Qed.
Lemma f_true_period e r k : f_true e (r + 2 * IZR k * PI) = f_true e r + 2 * IZR k * PI.
Proof. unfold f_true. rewrite sin_period_Z, (sin_mult_period 2), (sin_mult_period 3). ring. Qed.
Lemma f_mean_period e r k : f_mean e (r + 2 * IZR k * PI) = f_mean e r + 2 * IZR k * PI.
Proof. unfold f_mean. rewrite sin_period_Z, (sin_mult_period 2), (sin_mult_period 3), (sin_mult_period 4). ring. Qed.

(** The factor of [sin r] is positive for 0 < e <= 1. *)
Lemma g_nonneg e c : 0 <= e <= 1 -> 0 <= 2 * e - 4 / 3 * e ^ 3 + 5 / 2 * e ^ 2 * c + 13 / 3 * e ^ 3 * (c * c).
Proof.
  intros He.
  assert (H : 0 <= e * (2 - 4 / 3 * (e * e) + 5 / 2 * (e * c) + 13 / 3 * (e * c) * (e * c))).
  { apply Rmult_le_pos; [lra|]. set (u := e * c).
    assert (e * e <= 1) by nra. pose proof (Rle_0_sqr (u + 15 / 52)) as Q. unfold Rsqr in Q. lra. }
  replace (2 * e - 4 / 3 * e ^ 3 + 5 / 2 * e ^ 2 * c + 13 / 3 * e ^ 3 * (c * c))
    with (e * (2 - 4 / 3 * (e * e) + 5 / 2 * (e * c) + 13 / 3 * (e * c) * (e * c))) by field.
  exact H.
Qed.

Lemma sc_bounds r : sin r * sin r + cos r * cos r = 1.
Proof. pose proof (sin2_cos2 r). unfold Rsqr in *. lra. Qed.
Lemma s_c2_bound s c : 0 <= s -> s * s + c * c = 1 -> s * (c * c) <= 4 / 10.
Proof.
  intros Hs H. set (u := c * c) in *. assert (0 <= u) by (unfold u; nra).
  assert (u <= 1) by nra.
  assert (E : (s * u) * (s * u) <= 4 / 27).
  { replace (s * u * (s * u)) with ((s * s) * (u * u)) by ring. replace (s * s) with (1 - u) by lra.
    assert (0 <= (u - 2 / 3) * (u - 2 / 3) * (u + 1 / 3)) by (apply Rmult_le_pos; [apply Rle_0_sqr|lra]). lra. }
  assert (0 <= s * u) by nra. nra.
Qed.

Lemma f_true_upper_half e r : 0 <= e <= 1 -> 0 <= r <= PI -> r <= f_true e r < 2 * PI.
Proof.
  intros He Hr. pose proof (sin_ge_0 r (proj1 Hr) (proj2 Hr)) as Hs.
  pose proof (sc_bounds r) as SC. rewrite f_true_g.
  pose proof (g_nonneg e (cos r) He) as G. split; [nra|].
  assert (PI_3 : 3 < PI) by (pose proof PI2_3_2; lra).
  set (s := sin r) in *. set (c := cos r) in *.
  assert (s <= 1) by nra. assert (-1 <= c <= 1) by nra.
  pose proof (s_c2_bound s c Hs SC) as B2.
  assert (E1 : 2 * e - 4 / 3 * e ^ 3 <= 1).
  { assert (0 <= e * e * e + e * e + 1) by nra.
    assert (P : 0 <= 1 - 2 * e + 4 / 3 * (e * (e * e))); [|simpl; lra].
    assert (0 <= (e - 7/10) * (e - 7/10) * (e + 14/10)) by (apply Rmult_le_pos; [apply Rle_0_sqr|lra]). lra. }
  assert (E2 : 0 <= e ^ 2 <= 1) by (simpl; nra).
  assert (E3 : 0 <= e ^ 3 <= 1) by (simpl; nra).
  assert (T1 : s * (2 * e - 4 / 3 * e ^ 3) <= 1).
  { apply Rle_trans with (s * 1); [apply Rmult_le_compat_l; assumption|lra]. }
  assert (T3 : s * (13 / 3 * e ^ 3 * (c * c)) <= 174 / 100).
  { assert (0 <= c * c) by nra. assert (0 <= s * (c * c)) by nra.
    replace (s * (13 / 3 * e ^ 3 * (c * c))) with (13 / 3 * (e ^ 3 * (s * (c * c)))) by ring.
    assert (e ^ 3 * (s * (c * c)) <= 1 * (s * (c * c))) by (apply Rmult_le_compat_r; lra). lra. }
  destruct (Rle_dec r (PI / 2)) as [Hl|Hl].
  - assert (T2 : s * (5 / 2 * e ^ 2 * c) <= 125 / 100).
    { assert (SCh : s * c <= 1 / 2) by (pose proof (Rle_0_sqr (s - c)) as Q; unfold Rsqr in Q; lra). assert (0 <= c) by (apply cos_ge_0; lra).
      assert (0 <= s * c) by nra.
      replace (s * (5 / 2 * e ^ 2 * c)) with (5 / 2 * (e ^ 2 * (s * c))) by ring.
      assert (e ^ 2 * (s * c) <= 1 * (s * c)) by (apply Rmult_le_compat_r; lra). lra. }
    lra.
  - assert (T2 : s * (5 / 2 * e ^ 2 * c) <= 0).
    { assert (c <= 0) by (apply cos_le_0; lra). assert (s * c <= 0) by nra.
      replace (s * (5 / 2 * e ^ 2 * c)) with (5 / 2 * (e ^ 2 * (s * c))) by ring.
      assert (0 <= e ^ 2 * - (s * c)) by (apply Rmult_le_pos; lra). lra. }
    lra.
Qed.

Lemma f_true_flip e r : f_true e (2 * PI - r) = 2 * PI - f_true e r.
Proof.
  replace (2 * PI - r) with (- r + 2 * IZR 1 * PI) by (simpl; lra).
  rewrite f_true_period, f_true_odd. simpl. lra.
Qed.
Lemma f_true_PI e : f_true e PI = PI.
Proof. rewrite f_true_g, sin_PI. ring. Qed.
Lemma f_mean_0 e : f_mean e 0 = 0.
Proof. unfold f_mean. rewrite !Rmult_0_r, sin_0. ring. Qed.
Lemma f_mean_PI e : f_mean e PI = PI.
Proof.
  unfold f_mean. replace (3 * PI) with (PI + 2 * IZR 1 * PI) by (simpl; lra).
  replace (4 * PI) with (0 + 2 * IZR 2 * PI) by (simpl; lra).
  rewrite !sin_period_Z, sin_PI, sin_2PI, sin_0. ring.
Qed.

Lemma f_true_lower_half e r : 0 <= e <= 1 -> PI <= r < 2 * PI -> 0 <= f_true e r <= r.
Proof.
  intros He Hr. pose proof (f_true_upper_half e (2 * PI - r) He ltac:(lra)) as H.
  rewrite f_true_flip in H. lra.
Qed.
Lemma f_true_range e r : 0 <= e <= 1 -> 0 <= r < 2 * PI -> 0 <= f_true e r < 2 * PI.
Proof.
  intros He Hr. destruct (Rle_dec r PI).
  - pose proof (f_true_upper_half e r He ltac:(lra)). lra.
  - pose proof (f_true_lower_half e r He ltac:(lra)). lra.
Qed.

(** In degrees. *)
Lemma m2t_range m e : 0 <= e <= 1 -> 0 <= m < 360 -> 0 <= mean_anomaly_to_true_anomaly m e < 360.
Proof.
  intros He Hm. rewrite m2t_eq. rewrite radians_le, radians_0, (radians_lt _ 360), radians_360, radians_degrees.
  apply f_true_range; [assumption|]. rewrite <- radians_360, <- radians_0. split; [apply -> radians_le|apply -> radians_lt]; lra.
Qed.
Lemma m2t_zero m : mean_anomaly_to_true_anomaly m 0 = m.
Proof. rewrite m2t_eq. unfold f_true. transitivity (degrees (radians m)); [f_equal; ring|apply degrees_radians]. Qed.
Lemma t2m_zero m : true_anomaly_to_mean_anomaly m 0 = m.
Proof. rewrite t2m_eq. unfold f_mean. transitivity (degrees (radians m)); [f_equal; ring|apply degrees_radians]. Qed.
Lemma deg_opp x : degrees (- x) = - degrees x. Proof. unfold degrees. lra. Qed.
Lemma rad_opp x : radians (- x) = - radians x. Proof. unfold radians. lra. Qed.
Lemma rad_turn x k : radians (x + 360 * IZR k) = radians x + 2 * IZR k * PI.
Proof. unfold radians. field. Qed.
Lemma deg_turn x k : degrees (x + 2 * IZR k * PI) = degrees x + 360 * IZR k.
Proof. unfold degrees. pose proof PI_RGT_0. field. lra. Qed.

Lemma anomaly_laws_lemma e x k :
  let T := mean_anomaly_to_true_anomaly in let M := true_anomaly_to_mean_anomaly in
  T (M x 0) 0 = x /\ M (T x 0) 0 = x
  /\ T (- x) e = - T x e /\ M (- x) e = - M x e
  /\ T (x + 360 * IZR k) e = T x e + 360 * IZR k /\ M (x + 360 * IZR k) e = M x e + 360 * IZR k
  /\ T 0 e = 0 /\ M 0 e = 0 /\ T 180 e = 180 /\ M 180 e = 180.
Proof.
  cbv zeta. rewrite !m2t_zero, !t2m_zero. split; [reflexivity|]. split; [reflexivity|].
  rewrite !m2t_eq, !t2m_eq, rad_opp, f_true_odd, f_mean_odd, !deg_opp, rad_turn, f_true_period, f_mean_period, !deg_turn.
  rewrite radians_0, f_true_0, f_mean_0, radians_180, f_true_PI, f_mean_PI, degrees_0, degrees_PI.
  repeat split.
Qed.

Lemma anomaly_range_lemma e x : 0 <= e <= 1 ->
  let T := mean_anomaly_to_true_anomaly in
  (0 <= x < 360 -> 0 <= T x e < 360) /\ (0 <= x <= 180 -> x <= T x e) /\ (180 <= x <= 360 -> T x e <= x).
Proof.
  intros He. cbv zeta. split; [now apply m2t_range|].
  rewrite m2t_eq. split; intro Hx.
  - rewrite radians_le, radians_degrees. apply f_true_upper_half; [assumption|].
    rewrite <- radians_180, <- radians_0. split; apply -> radians_le; lra.
  - rewrite radians_le, radians_degrees.
    destruct (Req_dec x 360) as [->|Hne].
    + rewrite radians_360. pose proof (f_true_flip e 0) as FF. rewrite f_true_0, !Rminus_0_r in FF. lra.
    + apply f_true_lower_half; [assumption|]. assert (180 <= x < 360) as [X1 X2] by lra. apply radians_le in X1. apply radians_lt in X2. rewrite radians_180 in X1. rewrite radians_360 in X2.
      lra.
Qed.
