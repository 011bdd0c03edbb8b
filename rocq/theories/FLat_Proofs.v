(** Proofs about the latitudes of Fibonacci lattices in binary64. *)
From Coq Require Import ZArith Reals Lra Lia Bool List Sorting.Sorted.
From Flocq Require Import Core Relative IEEE754.BinarySingleNaN.
From Verif Require Import Base RBase RFacts Float_Model Float_Spec Float_Proofs FGrid_Model FGrid_Spec FGrid_Proofs FGrid_Proofs2
  FTime_Model FTime_Spec FTime_Proofs AnomalyRound_Proofs Mog_Proofs Grid_Model Orbit_Model Geom_Model Geom_Proofs FGeom_Model FGeom_Spec FGeom_Proofs FGeom_Proofs2 FLat_Spec.
Import ListNotations.
Open Scope R_scope.

Definition argument (i n : Z) : b64 := fadd (fdiv (of_Z (2 * (i + 1))) (of_Z (n + 2))) (of_Z (-1)).
Lemma rung_alt i n : (0 <= i < n)%Z -> IZR (2 * (i + 1)) / IZR (n + 2) + IZR (-1) = rung i n.
Proof. intro I. unfold rung. rewrite mult_IZR, !plus_IZR. lra. Qed.
Lemma ratio i n : (0 <= i < n)%Z -> 0 <= IZR (2 * (i + 1)) / IZR (n + 2) <= 2.
Proof.
  intro I. assert (A : 0 <= IZR (2 * (i + 1))) by (apply IZR_le; lia). assert (B : 0 < IZR (n + 2)) by (apply IZR_lt; lia).
  assert (C : IZR (2 * (i + 1)) <= 2 * IZR (n + 2)) by (rewrite <- mult_IZR; apply IZR_le; lia).
  split; [apply Rmult_le_pos; [lra|]; left; now apply Rinv_0_lt_compat|]. apply (Rmult_le_reg_r (IZR (n + 2))); [lra|]. unfold Rdiv. rewrite Rmult_assoc, Rinv_l by lra. lra.
Qed.
Lemma argument_close i n : (0 <= i < n)%Z -> (n <= 2 ^ 50)%Z -> close (argument i n) (rung i n) (4 / 10000000000000000).
Proof.
  intros I N. rewrite <- rung_alt by exact I. pose proof (ratio i n I) as Q.
  assert (D : close (fdiv (of_Z (2 * (i + 1))) (of_Z (n + 2))) (IZR (2 * (i + 1)) / IZR (n + 2)) (23 / 100000000000000000)).
  { apply (close_div _ _ _ _ 0 0 1 2 0 _ (close_Z (2 * (i + 1)) ltac:(lia)) (close_Z (n + 2) ltac:(lia))); try lra.
    - apply IZR_le. lia. - rewrite Rabs_pos_eq; lra. - unfold huge. lra. - unfold u, tiny. lra. }
  apply (close_add _ _ _ _ _ _ 1 _ D (close_Z (-1) ltac:(lia))); [apply Rabs_le; lra|unfold huge; lra|unfold u, tiny; lra].
Qed.
Lemma asin_gap x y : -1 <= x -> x <= y -> y <= 1 -> y - x <= asin y - asin x.
Proof.
  intros A B C. pose proof (sin_lip (asin x) (asin y)) as L. rewrite !sin_asin in L by lra.
  assert (M : asin x <= asin y).
  { destruct (Rle_or_lt (asin x) (asin y)) as [H|H]; [exact H|]. exfalso. pose proof (asin_bound x). pose proof (asin_bound y).
    assert (K : sin (asin y) < sin (asin x)) by (apply sin_increasing_1; lra). rewrite !sin_asin in K by lra. lra. }
  rewrite !Rabs_pos_eq in L by lra. exact L.
Qed.

Section Asin.
Variable f_asin : b64 -> b64.
Hypothesis A : computes (fun x => Rabs x <= 1) asin f_asin.
Lemma lat_close i n : (0 <= i < n)%Z -> (n <= 2 ^ 50)%Z ->
  close (f_fib_lat f_asin i n) (degrees (asin (val (argument i n)))) (26 / 100000000000000) /\ Rabs (val (argument i n)) <= 1.
Proof.
  intros I N. destruct (asin_argument i n I N) as [F B]. fold (argument i n) in F, B.
  assert (B1 : Rabs (val (argument i n)) <= 1) by (pose proof (bpow_gt_0 radix2 (-50)); lra). split; [|exact B1].
  destruct (A _ F B1) as [F1 D1]. apply close_weak with (58 * bpow radix2 (-50) + 2 / 10000000000000); [|cbn; lra].
  apply degrees_close; [split; [exact F1|exact D1]| |cbn; lra]. pose proof (asin_bound (val (argument i n))). pose proof pi_tight. apply Rabs_le. lra.
Qed.
Lemma sine_lemma i n : (0 <= i < n)%Z -> (n <= 2 ^ 50)%Z -> finite (f_fib_lat f_asin i n)
  /\ Rabs (sine_of (val (f_fib_lat f_asin i n)) - rung i n) <= / 100000000000000.
Proof.
  intros I N. destruct (lat_close i n I N) as [[F D] B]. split; [exact F|]. destruct (argument_close i n I N) as [_ E].
  set (l := val (f_fib_lat f_asin i n)) in *. set (x := val (argument i n)) in *. clearbody l x. apply Rabs_le_inv in B.
  assert (S : Rabs (sine_of l - x) <= 5 / 1000000000000000).
  { unfold sine_of. replace x with (sin (asin x)) by (apply sin_asin; lra). eapply Rle_trans; [apply sin_lip|].
    pose proof pi_tight. replace (l * PI / 180 - asin x) with ((l - degrees (asin x)) * (PI / 180)) by (unfold degrees; field; lra).
    rewrite Rabs_mult, (Rabs_pos_eq (PI / 180)) by lra. apply Rle_trans with (26 / 100000000000000 * (PI / 180)); [apply Rmult_le_compat_r; lra|lra]. }
  replace (sine_of l - rung i n) with ((sine_of l - x) + (x - rung i n)) by ring. eapply Rle_trans; [apply Rabs_triang|]. lra.
Qed.
Lemma ascend_lemma i j n : (0 <= i < j)%Z -> (j < n)%Z -> (n <= 10000000000000)%Z -> val (f_fib_lat f_asin i n) < val (f_fib_lat f_asin j n).
Proof.
  intros I J N. destruct (lat_close i n ltac:(lia) ltac:(lia)) as [[_ D1] B1]. destruct (lat_close j n ltac:(lia) ltac:(lia)) as [[_ D2] B2].
  destruct (argument_close i n ltac:(lia) ltac:(lia)) as [_ E1]. destruct (argument_close j n ltac:(lia) ltac:(lia)) as [_ E2].
  assert (G : rung i n + 19 / 100000000000000 <= rung j n).
  { unfold rung. assert (IJ : IZR i + 1 <= IZR j) by (rewrite <- plus_IZR; apply IZR_le; lia). assert (NN : 0 <= IZR n <= 10000000000000) by (split; apply IZR_le; lia).
    assert (K : 19 / 100000000000000 <= 2 / (IZR n + 2)).
    { apply (Rmult_le_reg_r (IZR n + 2)); [lra|]. unfold Rdiv. rewrite (Rmult_assoc 2), Rinv_l by lra. lra. }
    assert (K2 : 2 / (IZR n + 2) <= 2 * (IZR j + 1) / (IZR n + 2) - 2 * (IZR i + 1) / (IZR n + 2)).
    { replace (2 * (IZR j + 1) / (IZR n + 2) - 2 * (IZR i + 1) / (IZR n + 2)) with ((2 * (IZR j - IZR i)) / (IZR n + 2)) by (field; lra).
      apply Rmult_le_compat_r; [left; apply Rinv_0_lt_compat; lra|lra]. }
    lra. }
  set (li := val (f_fib_lat f_asin i n)) in *. set (lj := val (f_fib_lat f_asin j n)) in *. set (x := val (argument i n)) in *. set (y := val (argument j n)) in *. clearbody li lj x y.
  apply Rabs_le_inv in D1, D2, B1, B2, E1, E2. pose proof (asin_gap x y ltac:(lra) ltac:(lra) ltac:(lra)) as H.
  assert (Q : 57 * (asin y - asin x) <= degrees (asin y) - degrees (asin x)).
  { unfold degrees. pose proof pi_tight. replace (asin y * (180 / PI) - asin x * (180 / PI)) with ((asin y - asin x) * (180 / PI)) by ring.
    rewrite Rmult_comm. apply Rmult_le_compat_l; [lra|]. apply Rmult_le_reg_r with PI; [lra|]. unfold Rdiv. rewrite Rmult_assoc, Rinv_l by lra. lra. }
  lra.
Qed.
Theorem c196_area_lemma n p : (n <= 2 ^ 50)%Z -> In p (f_fib_points f_asin n) ->
  finite (f_lat p) /\ Rabs (sine_of (val (f_lat p)) - rung (f_id p) n) <= / 100000000000000.
Proof. intros N H. apply in_fib in H as (i & I & ->). cbn [f_lat f_id]. exact (sine_lemma i n I N). Qed.
Theorem c196_ascend_lemma n : (n <= 10000000000000)%Z -> StronglySorted (fun p q => val (f_lat p) < val (f_lat q)) (f_fib_points f_asin n).
Proof.
  intro N. unfold f_fib_points, py_range. rewrite map_map. set (k := Z.to_nat (n - 0)). assert (K : (Z.of_nat k <= Z.max 0 n)%Z) by lia. clearbody k.
  assert (G : forall a, (Z.of_nat (a + k) <= Z.max 0 n)%Z -> StronglySorted (fun p q => val (f_lat p) < val (f_lat q))
    (map (fun x : nat => mk_fpoint (0 + Z.of_nat x) (f_fib_lon (0 + Z.of_nat x)) (f_fib_lat f_asin (0 + Z.of_nat x) n)) (seq a k))).
  { clear K. induction k as [|k IH]; intros a L; cbn [seq map]; constructor; [apply IH; lia|]. apply Forall_forall. intros q Q. apply in_map_iff in Q as (b & <- & B). apply in_seq in B.
    cbn [f_lat]. apply ascend_lemma; lia. }
  apply (G 0%nat). lia.
Qed.
End Asin.
Lemma c196_witness_lemma : computes (fun x => Rabs x <= 1) asin (by_nearest 52 asin) /\ length (f_fib_points (by_nearest 52 asin) 1000) = 1000%nat.
Proof.
  split; [exact (proj1 (proj2 (proj2 (proj1 nearest_libm))))|]. unfold f_fib_points, py_range. rewrite !map_length, seq_length. reflexivity.
Qed.
