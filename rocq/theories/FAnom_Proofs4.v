(** C192 and C193. *)
From Coq Require Import ZArith Reals Lra Lia Bool.
From Flocq Require Import Core Relative IEEE754.BinarySingleNaN.
From Verif Require Import Base RBase RFacts Float_Model Float_Spec Float_Proofs FGrid_Model FTime_Model FTime_Proofs Orbit_Model Anomaly_Proofs AnomalyRound_Proofs
  FGeom_Model FGeom_Spec FGeom_Proofs FGeom_Proofs2 FMog_Proofs FMog_Proofs2 FAnom_Model FAnom_Spec FAnom_Proofs FAnom_Proofs2 FAnom_Proofs3.
Open Scope R_scope.

Lemma c192_true_lemma f_sin f_pow m e : series_libm f_sin f_pow -> finite m -> 0 <= val m <= 360 -> closed e ->
  close (f_mean_to_true f_sin f_pow m e) (true_of (val m) (val e)) (2 / 100000000000).
Proof. intros [S P] F B C. exact (true_near f_sin f_pow S P m e F B C). Qed.
Lemma c192_mean_lemma f_sin f_pow nu e : series_libm f_sin f_pow -> finite nu -> 0 <= val nu <= 360 -> closed e ->
  close (f_true_to_mean f_sin f_pow nu e) (mean_of (val nu) (val e)) (2 / 100000000000).
Proof. intros [S P] F B C. exact (mean_near f_sin f_pow S P nu e F B C). Qed.
Lemma c193_keplerian_lemma f_sin f_pow nu e dm r : series_libm f_sin f_pow -> angle_ok nu -> closed e -> moderate dm ->
  turn_of (mean_of (val nu) (val e) + val dm) r -> / 10000000000 <= r <= 360 - / 10000000000 ->
  exists f, f_derived_anomaly f_sin f_pow nu e dm = Ok f /\ angle_ok f /\ Rabs (val f - true_of r (val e)) <= / 1000000000.
Proof. intros [S P]. exact (derived_near f_sin f_pow S P nu e dm r). Qed.
Lemma c193_unchanged_lemma f_sin f_pow nu e : series_libm f_sin f_pow -> angle_ok nu -> closed e ->
  / 10000000000 <= mean_of (val nu) (val e) <= 360 - / 10000000000 ->
  exists f, f_derived_anomaly f_sin f_pow nu e (of_Z 0) = Ok f /\ angle_ok f /\ Rabs (val f - val nu) <= 110 * val e ^ 4 * (180 / PI) + / 1000000000.
Proof.
  intros L A C B. destruct f0 as [F0 V0]. destruct (c193_keplerian_lemma f_sin f_pow nu e (of_Z 0) (mean_of (val nu) (val e)) L A C) as (f & E & AF & D).
  - split; [exact F0|rewrite V0, Rabs_R0; lra].
  - rewrite V0. split; [lra|]. exists 0%Z. lra.
  - exact B.
  - exists f. split; [exact E|]. split; [exact AF|]. pose proof (round_trip_rad (val e) (val nu * (PI / 180)) (proj2 C)) as R. pose proof PI_RGT_0 as P.
    assert (K : 0 < 180 / PI) by (apply Rdiv_lt_0_compat; lra).
    assert (T : Rabs (true_of (mean_of (val nu) (val e)) (val e) - val nu) <= 110 * val e ^ 4 * (180 / PI)).
    { unfold true_of, mean_of. rewrite true_series_eq, mean_series_eq.
      replace (f_mean (val e) (val nu * (PI / 180)) * (180 / PI) * (PI / 180)) with (f_mean (val e) (val nu * (PI / 180))) by (field; lra).
      set (w := f_true _ _) in *. replace (w * (180 / PI) - val nu) with ((w - val nu * (PI / 180)) * (180 / PI)) by (field; lra).
      rewrite Rabs_mult, (Rabs_pos_eq (180 / PI)) by lra. apply Rmult_le_compat_r; [lra|exact R]. }
    eapply Rle_trans; [apply (tri _ (true_of (mean_of (val nu) (val e)) (val e)))|]. lra.
Qed.
Lemma c193_exact_lemma f_sin f_pow nu dm r : series_libm f_sin f_pow -> angle_ok nu -> finite dm ->
  turn_of (rnd (val (f_true_to_mean f_sin f_pow nu (of_Z 0)) + val dm)) r ->
  ((exists f, f_derived_anomaly f_sin f_pow nu (of_Z 0) dm = Ok f) <-> r < 360 - / IZR (2 ^ 45))
  /\ (forall f, f_derived_anomaly f_sin f_pow nu (of_Z 0) dm = Ok f -> angle_ok f)
  /\ (forall e, f_derived_anomaly f_sin f_pow nu (of_Z 0) dm = Raise e -> e = ValidationError).
Proof. intros [S P]. exact (circular_exact f_sin f_pow S P nu dm r). Qed.
Lemma c193_forward_lemma f_sin f_pow nu dm : series_libm f_sin f_pow -> angle_ok nu -> finite dm -> 0 <= val dm ->
  exists f, f_derived_anomaly f_sin f_pow nu (of_Z 0) dm = Ok f /\ angle_ok f.
Proof. intros [S P]. exact (circular_forward f_sin f_pow S P nu dm). Qed.
Lemma c193_near_lemma f_sin f_pow nu dm f : series_libm f_sin f_pow -> angle_ok nu -> moderate dm ->
  f_derived_anomaly f_sin f_pow nu (of_Z 0) dm = Ok f ->
  exists k : Z, Rabs (val f - (val nu + val dm - 360 * IZR k)) <= / 10000000000.
Proof. intros [S P]. exact (circular_near f_sin f_pow S P nu dm f). Qed.
Lemma c193_walker_lemma f_sin f_pow n p f i nu : series_libm f_sin f_pow -> (1 <= p <= n)%Z -> (n <= 2 ^ 20)%Z -> (0 <= f < p)%Z -> (0 <= i < n)%Z -> angle_ok nu ->
  exists g, f_walker_anomaly f_sin f_pow n p f i nu (of_Z 0) = Ok g /\ angle_ok g
    /\ ((p <= 90)%Z -> forall s, (p * (s - 1) < n <= p * s)%Z -> exists k : Z, Rabs (val g - (val nu + walker_phase s n f i - 360 * IZR k)) <= 2 / 10000000000).
Proof.
  intros [S P] H1 H2 H3 H4 A. destruct (walker_accepted f_sin f_pow S P n p f i nu H1 H2 H3 H4 A) as (g & E & AG & N). exists g. split; [exact E|]. split; [exact AG|].
  intros P9 s Hs. replace s with (per_plane n p); [exact (N P9)|]. unfold per_plane.
  pose proof (Z.div_mod (- n) p ltac:(lia)) as D. pose proof (Z.mod_pos_bound (- n) p ltac:(lia)) as M. set (q := (- n / p)%Z) in *. set (m := (- n mod p)%Z) in *. nia.
Qed.
Lemma c193_train_lemma f_sin f_pow : series_libm f_sin f_pow ->
  exists altitude interval i nu, finite altitude /\ (0 < interval)%Z /\ (0 < i)%Z /\ angle_ok nu /\ f_train_anomaly f_sin f_pow altitude interval i nu = Raise ValidationError.
Proof.
  intros [S P]. exists (of_Z 400000), 10000000%Z, 1%Z, nu_train. split; [apply (of_Z_spec 400000); lia|]. split; [lia|]. split; [lia|]. split; [apply nu_train_ok|exact (train_fails f_sin f_pow S P)].
Qed.
Lemma series_met : series_libm (by_nearest 52 sin) mul_pow.
Proof. split; [exact (proj1 (proj1 nearest_libm))|exact mul_pow_ok]. Qed.
Definition half : b64 := f_lit 1 (-1).
Lemma half_val : finite half /\ val half = / 2.
Proof. destruct (f_lit_val 1 (-1) ltac:(lia) ltac:(lia)) as [F V]. split; [exact F|]. unfold half. rewrite V. cbn. lra. Qed.
Lemma c192_witness_lemma : series_libm (by_nearest 52 sin) mul_pow /\ closed half /\ finite (of_Z 180) /\ 0 <= val (of_Z 180) <= 360 /\ true_of (val (of_Z 180)) (val half) = 180.
Proof.
  destruct half_val as [F V]. destruct (of_Z_spec 180 ltac:(lia)) as [F1 V1]. split; [exact series_met|]. split; [split; [exact F|lra]|]. split; [exact F1|]. split; [lra|].
  rewrite V, V1. unfold true_of, true_series. pose proof PI_RGT_0. replace (180 * (PI / 180)) with PI by field.
  assert (S2 : sin (2 * PI) = 0) by apply sin_2PI. assert (S3 : sin (3 * PI) = 0) by (replace (3 * PI) with (PI + 2 * PI) by ring; rewrite sin_plus, sin_PI, sin_2PI; ring).
  rewrite sin_PI, S2, S3. field. lra.
Qed.
Lemma c193_witness_lemma : series_libm (by_nearest 52 sin) mul_pow /\ angle_ok (of_Z 180) /\ closed half /\ moderate (of_Z (-90)) /\ turn_of (mean_of (val (of_Z 180)) (val half) + val (of_Z (-90))) 90 /\ turn_of (rnd (val (of_Z 10) + val (of_Z (-20)))) 350 /\ mean_of (val (of_Z 180)) (val half) = 180.
Proof.
  destruct half_val as [F V]. destruct (of_Z_spec 180 ltac:(lia)) as [F1 V1]. destruct (of_Z_spec (-90) ltac:(lia)) as [F2 V2]. split; [exact series_met|]. split; [apply w_angle; lia|]. split; [split; [exact F|lra]|].
  split; [split; [exact F2|rewrite V2; apply Rabs_le; lra]|].
  assert (MM : mean_of (val (of_Z 180)) (val half) = 180).
    { rewrite V, V1. unfold mean_of, mean_series. pose proof PI_RGT_0. replace (180 * (PI / 180)) with PI by field.
      assert (S2 : sin (2 * PI) = 0) by apply sin_2PI. assert (S3 : sin (3 * PI) = 0) by (replace (3 * PI) with (PI + 2 * PI) by ring; rewrite sin_plus, sin_PI, sin_2PI; ring).
      assert (S4 : sin (4 * PI) = 0) by (replace (4 * PI) with (2 * PI + 2 * PI) by ring; rewrite sin_plus, sin_2PI; ring).
      rewrite sin_PI, S2, S3, S4. field. lra. }
    rewrite MM, V2. split; [split; [lra|exists 0%Z; lra]|]. split; [|reflexivity].
    destruct (of_Z_spec 10 ltac:(lia)) as [_ Va]. destruct (of_Z_spec (-20) ltac:(lia)) as [_ Vb]. rewrite Va, Vb, <- plus_IZR. change (10 + -20)%Z with (-10)%Z.
    assert (R : rnd (-10) = -10) by (rewrite <- (proj2 (of_Z_spec (-10) ltac:(lia))); apply same_rnd). rewrite R. split; [lra|]. exists (-1)%Z. lra.
Qed.
