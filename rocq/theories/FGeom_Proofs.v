(** Error analysis for the binary64 viewing geometry. *)
From Coq Require Import ZArith Reals Lra Lia Bool List.
From Flocq Require Import Core Relative IEEE754.BinarySingleNaN.
From Verif Require Import Base RBase RFacts Float_Model Float_Spec Float_Proofs FGrid_Model FGrid_Spec FGrid_Proofs FGrid_Proofs2
  FTime_Model FTime_Spec FTime_Proofs AnomalyRound_Proofs Mog_Proofs Grid_Model Area_Proofs Orbit_Model Geom_Model Geom_Proofs FGeom_Model FGeom_Spec.
Import ListNotations.
Open Scope R_scope.

Lemma pi_tight : 3.14159265358979323 <= PI <= 3.14159265358979325.
Proof.
  pose proof (PI_2_3_7_ineq 8) as [A B].
  cbn [sum_f_R0 Nat.mul Nat.add] in A, B. unfold tg_alt, PI_2_3_7_tg, Ratan_seq in A, B. cbn [Nat.mul Nat.add pow INR] in A, B.
  split; lra.
Qed.

(** ** Rounding of close numbers *)
Definition tiny := / 1000000000000000000000000000000.
Definition huge := 1000000000000000000000000000000.
Lemma tiny_ok : 1000 * bpow radix2 (-1074) <= 1000 * tiny.
Proof.
  apply Rmult_le_compat_l; [lra|]. apply Rle_trans with (bpow radix2 (-100)); [apply bpow_le; lia|]. unfold tiny. cbn. lra.
Qed.
Lemma huge_ok x : Rabs x <= huge -> Rabs x <= bpow radix2 1023.
Proof. intro H. apply big_bpow with huge; [exact H|unfold huge; lra]. Qed.
Lemma huge_add x : Rabs x <= huge -> Rabs x <= bpow radix2 110.
Proof. intro H. apply Rle_trans with (1 := H). rewrite bp110. unfold huge. lra. Qed.
Lemma close_rnd z w r d0 M d : finite z -> val z = rnd w -> Rabs (w - r) <= d0 -> Rabs r <= M ->
  d0 + u * (M + d0) + tiny <= d -> close z r d.
Proof.
  intros F V D HM H. split; [exact F|]. rewrite V.
  assert (W : Rabs w <= M + d0).
  { replace w with (r + (w - r)) by ring. eapply Rle_trans; [apply Rabs_triang|]. lra. }
  pose proof (rnd_err w _ _ tiny_ok W) as E.
  replace (rnd w - r) with ((rnd w - w) + (w - r)) by ring. eapply Rle_trans; [apply Rabs_triang|].
  replace (1000 * tiny / 1000) with tiny in E by field. lra.
Qed.
Lemma close_bound x r d M : close x r d -> Rabs r <= M -> Rabs (val x) <= M + d.
Proof. intros [_ D] H. replace (val x) with (r + (val x - r)) by ring. eapply Rle_trans; [apply Rabs_triang|]. lra. Qed.
Lemma close_weak x r d d' : close x r d -> d <= d' -> close x r d'.
Proof. intros [F D] H. split; [exact F|lra]. Qed.

Lemma close_add x y a b da db M d : close x a da -> close y b db -> Rabs (a + b) <= M -> M + da + db <= huge ->
  da + db + u * (M + (da + db)) + tiny <= d -> close (fadd x y) (a + b) d.
Proof.
  intros [Fx Dx] [Fy Dy] HM Hh H.
  assert (D : Rabs (val x + val y - (a + b)) <= da + db).
  { replace (val x + val y - (a + b)) with ((val x - a) + (val y - b)) by ring. eapply Rle_trans; [apply Rabs_triang|]. lra. }
  destruct (fadd_big x y Fx Fy) as [F V].
  - apply huge_add. replace (val x + val y) with ((a + b) + (val x + val y - (a + b))) by ring. eapply Rle_trans; [apply Rabs_triang|]. lra.
  - exact (close_rnd _ _ _ _ _ _ F V D HM H).
Qed.
Lemma close_sub x y a b da db M d : close x a da -> close y b db -> Rabs (a - b) <= M -> M + da + db <= huge ->
  da + db + u * (M + (da + db)) + tiny <= d -> close (fsub x y) (a - b) d.
Proof.
  intros [Fx Dx] [Fy Dy] HM Hh H.
  assert (D : Rabs (val x - val y - (a - b)) <= da + db).
  { replace (val x - val y - (a - b)) with ((val x - a) + - (val y - b)) by ring. eapply Rle_trans; [apply Rabs_triang|]. rewrite Rabs_Ropp. lra. }
  destruct (fsub_big x y Fx Fy) as [F V].
  - apply huge_add. replace (val x - val y) with ((a - b) + (val x - val y - (a - b))) by ring. eapply Rle_trans; [apply Rabs_triang|]. lra.
  - exact (close_rnd _ _ _ _ _ _ F V D HM H).
Qed.
Lemma close_mul x y a b da db A B M d : close x a da -> close y b db -> Rabs a <= A -> Rabs b <= B -> Rabs (a * b) <= M ->
  0 <= da -> 0 <= db -> M + (A * db + B * da + da * db) <= huge ->
  (A * db + B * da + da * db) + u * (M + (A * db + B * da + da * db)) + tiny <= d -> close (fmul x y) (a * b) d.
Proof.
  intros [Fx Dx] [Fy Dy] HA HB HM Pa Pb Hh H.
  assert (D : Rabs (val x * val y - a * b) <= A * db + B * da + da * db).
  { replace (val x * val y - a * b) with (a * (val y - b) + b * (val x - a) + (val x - a) * (val y - b)) by ring.
    eapply Rle_trans; [apply Rabs_triang|]. apply Rplus_le_compat.
    - eapply Rle_trans; [apply Rabs_triang|]. rewrite !Rabs_mult. apply Rplus_le_compat; apply Rmult_le_compat; auto using Rabs_pos.
    - rewrite Rabs_mult. apply Rmult_le_compat; auto using Rabs_pos. }
  destruct (fmul_fin x y Fx Fy) as [F V].
  - apply huge_ok. replace (val x * val y) with (a * b + (val x * val y - a * b)) by ring. eapply Rle_trans; [apply Rabs_triang|]. lra.
  - exact (close_rnd _ _ _ _ _ _ F V D HM H).
Qed.
Lemma close_div x y a b da db L Q d0 d : close x a da -> close y b db -> L <= b -> db < L -> Rabs (a / b) <= Q ->
  0 <= da -> 0 <= db -> 0 <= d0 -> da + Q * db <= d0 * (L - db) -> Q + d0 <= huge ->
  d0 + u * (Q + d0) + tiny <= d -> close (fdiv x y) (a / b) d.
Proof.
  intros [Fx Dx] [Fy Dy] HL HQ0 HQ Pa Pb P0 Hd Hh H.
  assert (Dy' := Dy). apply Rabs_le_inv in Dy'.
  assert (Y : L - db <= val y) by lra. assert (Y0 : 0 < val y) by lra.
  assert (D : Rabs (val x / val y - a / b) <= d0).
  { apply Rmult_le_reg_r with (val y); [lra|]. rewrite <- (Rabs_pos_eq (val y)) at 2 by lra. rewrite <- Rabs_mult.
    replace ((val x / val y - a / b) * val y) with ((val x - a) - a / b * (val y - b)) by (field; lra).
    apply Rle_trans with (da + Q * db).
    - unfold Rminus at 1. eapply Rle_trans; [apply Rabs_triang|]. rewrite Rabs_Ropp, Rabs_mult.
      apply Rplus_le_compat; [exact Dx|]. apply Rmult_le_compat; auto using Rabs_pos.
    - apply Rle_trans with (1 := Hd). apply Rmult_le_compat_l; lra. }
  destruct (fdiv_fin x y Fx Fy) as [F V].
  - lra.
  - apply huge_ok. replace (val x / val y) with (a / b + (val x / val y - a / b)) by ring. eapply Rle_trans; [apply Rabs_triang|]. lra.
  - exact (close_rnd _ _ _ _ _ _ F V D HQ H).
Qed.
Lemma fsqrt_val x : finite x -> 0 <= val x -> finite (fsqrt x) /\ val (fsqrt x) = rnd (sqrt (val x)).
Proof.
  intros F P. destruct (Bsqrt_correct 53 1024 prec64 emax64 mode_NE x) as [V [Fi _]]. unfold fsqrt. split; [|exact V].
  unfold finite in *. rewrite Fi. destruct x as [s|s| |s m e B]; try reflexivity; try discriminate F.
  destruct s; [|reflexivity]. exfalso. unfold val in P. cbn in P.
  assert (F2R (Float radix2 (Z.neg m) e) < 0) by (apply F2R_lt_0; cbn; lia). lra.
Qed.
Lemma close_sqrt x a da s M d0 d : close x a da -> da <= a -> 0 < s -> s <= sqrt a -> sqrt a <= M -> 0 <= da -> da <= d0 * s ->
  d0 + u * (M + d0) + tiny <= d -> close (fsqrt x) (sqrt a) d.
Proof.
  intros [Fx Dx] Ha Ps Hs HM Pa Hd H. assert (Dx' := Dx). apply Rabs_le_inv in Dx'. assert (X0 : 0 <= val x) by lra.
  destruct (fsqrt_val x Fx X0) as [F V].
  assert (D : Rabs (sqrt (val x) - sqrt a) <= d0).
  { pose proof (sqrt_pos (val x)). apply Rmult_le_reg_r with (sqrt (val x) + sqrt a); [lra|].
    rewrite <- (Rabs_pos_eq (sqrt (val x) + sqrt a)) at 1 by lra. rewrite <- Rabs_mult.
    replace ((sqrt (val x) - sqrt a) * (sqrt (val x) + sqrt a)) with (val x - a).
    - apply Rle_trans with (1 := Dx). apply Rle_trans with (1 := Hd). apply Rmult_le_compat_l; [|lra].
      apply Rmult_le_reg_r with s; lra.
    - replace ((sqrt (val x) - sqrt a) * (sqrt (val x) + sqrt a)) with (sqrt (val x) * sqrt (val x) - sqrt a * sqrt a) by ring.
      rewrite !sqrt_sqrt by lra. reflexivity. }
  refine (close_rnd _ _ _ _ M _ F V D _ H). rewrite Rabs_pos_eq by apply sqrt_pos. exact HM.
Qed.

Lemma close_Z n : (Z.abs n <= 2 ^ 53)%Z -> close (of_Z n) (IZR n) 0.
Proof. intro H. destruct (of_Z_spec n H) as [F V]. split; [exact F|]. rewrite V, Rminus_diag_eq by reflexivity. rewrite Rabs_R0. lra. Qed.
Lemma close_self x : finite x -> close x (val x) 0.
Proof. intro F. split; [exact F|]. rewrite Rminus_diag_eq by reflexivity. rewrite Rabs_R0. lra. Qed.

(** ** Constants *)
Lemma sf_val x s m e : B2SF x = SpecFloat.S754_finite s m e -> val x = F2R (Float radix2 (cond_Zopp s (Zpos m)) e).
Proof. destruct x; try discriminate. cbn. intro H. injection H as -> -> ->. reflexivity. Qed.
Lemma pi_close : close f_pi PI (2 / 10000000000000000).
Proof.
  split; [reflexivity|].
  assert (V : val f_pi = 7074237752028440 / 2251799813685248).
  { rewrite (sf_val f_pi false 7074237752028440 (-51)) by (vm_compute; reflexivity). unfold F2R. cbn. lra. }
  rewrite V. pose proof pi_tight. apply Rabs_le. lra.
Qed.
Lemma radius_close : close f_mean_radius EARTH_MEAN_RADIUS (/ 500000000).
Proof.
  split; [reflexivity|].
  let r := eval vm_compute in (B2SF f_mean_radius) in
  match r with SpecFloat.S754_finite ?s ?m ?e =>
    rewrite (sf_val f_mean_radius s m e) by (vm_compute; reflexivity) end.
  unfold F2R, EARTH_MEAN_RADIUS, EARTH_EQUATORIAL_RADIUS, EARTH_POLAR_RADIUS. cbn. apply Rabs_le. lra.
Qed.
Lemma sidereal_close : close f_sidereal EARTH_SIDEREAL_DAY_S (/ 100000000000).
Proof.
  split; [reflexivity|].
  rewrite (sf_val f_sidereal false 5921151212593349 (-36)) by (vm_compute; reflexivity).
  unfold F2R, EARTH_SIDEREAL_DAY_S. cbn. apply Rabs_le. lra.
Qed.
Lemma mu_close : close f_mu EARTH_MU 0.
Proof. apply (close_Z 398600441800000). lia. Qed.
Lemma R_bounds : 6371008.77 <= EARTH_MEAN_RADIUS <= 6371008.78.
Proof. unfold EARTH_MEAN_RADIUS, EARTH_EQUATORIAL_RADIUS, EARTH_POLAR_RADIUS. lra. Qed.

(** ** Inverse sine and cosine of close numbers *)
Lemma sin_half t : 0 <= t <= PI / 2 -> t / 2 <= sin t.
Proof.
  intros [A B]. pose proof pi_tight as P. pose proof (sin_minus_x_cubic t) as H. apply Rabs_le_inv in H. rewrite (Rabs_pos_eq t A) in H.
  assert (t ^ 3 / 6 <= t / 2); [|lra].
  assert (t * t <= 3); [nra|]. replace (t ^ 3) with (t * t * t) by ring. nra.
Qed.
Lemma cos_diff a b : cos a - cos b = 2 * (sin ((a + b) / 2) * sin ((b - a) / 2)).
Proof.
  replace (cos a) with (cos ((a + b) / 2 - (b - a) / 2)) by (f_equal; lra).
  replace (cos b) with (cos ((a + b) / 2 + (b - a) / 2)) by (f_equal; lra).
  rewrite cos_minus, cos_plus. ring.
Qed.
Lemma angles_close a b : 0 <= a <= b -> b <= PI -> (b - a) ^ 2 <= 8 * (cos a - cos b).
Proof.
  intros [A AB] B. rewrite cos_diff. pose proof (sin_half ((b - a) / 2) ltac:(lra)) as H.
  assert (H2 : sin ((b - a) / 2) <= sin ((a + b) / 2)).
  { destruct (Rle_dec ((a + b) / 2) (PI / 2)).
    - apply sin_incr_1; lra.
    - rewrite <- (sin_PI_x ((a + b) / 2)). apply sin_incr_1; lra. }
  assert (0 <= (b - a) / 2 / 2) by lra. 
  assert ((b - a) / 2 / 2 * ((b - a) / 2 / 2) <= sin ((a + b) / 2) * sin ((b - a) / 2)) by (apply Rmult_le_compat; lra).
  nra.
Qed.
Lemma angles_close_far a b s : 0 <= a <= b -> b <= PI -> 0 <= s -> s <= sin a -> s <= sin b -> s * (b - a) <= 2 * (cos a - cos b).
Proof.
  intros [A AB] B S0 S1 S2. rewrite cos_diff. pose proof (sin_half ((b - a) / 2) ltac:(lra)) as H.
  assert (H2 : s <= sin ((a + b) / 2)).
  { assert (E : sin a + sin b = 2 * (sin ((a + b) / 2) * cos ((b - a) / 2))).
    { replace (sin a) with (sin ((a + b) / 2 - (b - a) / 2)) by (f_equal; lra).
      replace (sin b) with (sin ((a + b) / 2 + (b - a) / 2)) by (f_equal; lra). rewrite sin_minus, sin_plus. ring. }
    pose proof (COS_bound ((b - a) / 2)). assert (0 <= sin ((a + b) / 2)) by (apply sin_ge_0; lra). nra. }
  assert (s * ((b - a) / 2 / 2) <= sin ((a + b) / 2) * sin ((b - a) / 2)) by (apply Rmult_le_compat; lra).
  lra.
Qed.
Lemma acos_anti x y : -1 <= x -> x <= y -> y <= 1 -> acos y <= acos x.
Proof. intros. rewrite !acos_asin by lra. pose proof (asin_le x y). lra. Qed.
Lemma acos_holder x y d : -1 <= x <= 1 -> -1 <= y <= 1 -> Rabs (x - y) <= d -> 0 <= d -> (acos x - acos y) ^ 2 <= 8 * d.
Proof.
  assert (L : forall x y d, -1 <= x <= 1 -> -1 <= y <= 1 -> x <= y -> Rabs (x - y) <= d -> (acos x - acos y) ^ 2 <= 8 * d).
  { intros x0 y0 d0 Hx Hy L D. apply Rabs_le_inv in D.
    pose proof (angles_close (acos y0) (acos x0)) as H. rewrite !cos_acos in H by lra.
    pose proof (acos_bound x0). pose proof (acos_bound y0). pose proof (acos_anti x0 y0). lra. }
  intros Hx Hy D D0. destruct (Rle_dec x y) as [H|H].
  - apply L; assumption.
  - replace ((acos x - acos y) ^ 2) with ((acos y - acos x) ^ 2) by ring. apply L; try lra. rewrite Rabs_minus_sym. exact D.
Qed.
Lemma sq_abs x e : 0 <= e -> x ^ 2 <= e * e -> Rabs x <= e.
Proof. intros E H. apply Rabs_le. nra. Qed.
Lemma acos_close x y d e : -1 <= x <= 1 -> -1 <= y <= 1 -> Rabs (x - y) <= d -> 0 <= d -> 0 <= e -> 8 * d <= e * e -> Rabs (acos x - acos y) <= e.
Proof. intros. apply sq_abs; [assumption|]. pose proof (acos_holder x y d). lra. Qed.
Lemma asin_acos_abs x y : -1 <= x <= 1 -> -1 <= y <= 1 -> Rabs (asin x - asin y) = Rabs (acos x - acos y).
Proof. intros. rewrite !acos_asin by lra. rewrite <- Rabs_Ropp. f_equal. ring. Qed.
Lemma asin_close x y d e : -1 <= x <= 1 -> -1 <= y <= 1 -> Rabs (x - y) <= d -> 0 <= d -> 0 <= e -> 8 * d <= e * e -> Rabs (asin x - asin y) <= e.
Proof. intros. rewrite asin_acos_abs by assumption. eapply acos_close; eassumption. Qed.
Lemma acos_close_far x y d s m : 0 <= m <= 1 -> Rabs x <= m -> Rabs y <= m -> Rabs (x - y) <= d -> 0 < s -> s * s <= 1 - m * m ->
  Rabs (acos x - acos y) <= 2 * d / s.
Proof.
  intros Hm Hx Hy D S0 S.
  assert (SA : forall z, Rabs z <= m -> s <= sin (acos z)).
  { intros z Hz. apply Rabs_le_inv in Hz. rewrite sin_acos by lra. apply Rsqr_incr_0_var; [|apply sqrt_pos].
    rewrite Rsqr_sqrt; unfold Rsqr; nra. }
  assert (L : forall x0 y0, Rabs x0 <= m -> Rabs y0 <= m -> x0 <= y0 -> Rabs (x0 - y0) <= d -> Rabs (acos x0 - acos y0) <= 2 * d / s).
  { intros x0 y0 Hx0 Hy0 L D0. pose proof (SA _ Hx0) as S1. pose proof (SA _ Hy0) as S2. apply Rabs_le_inv in D0, Hx0, Hy0.
    pose proof (acos_bound x0). pose proof (acos_bound y0). pose proof (acos_anti x0 y0 ltac:(lra) L ltac:(lra)).
    pose proof (angles_close_far (acos y0) (acos x0) s) as H'. rewrite !cos_acos in H' by lra.
    rewrite Rabs_pos_eq by lra. apply Rmult_le_reg_r with s; [lra|]. replace (2 * d / s * s) with (2 * d) by (field; lra). lra. }
  destruct (Rle_dec x y) as [H|H].
  - apply L; assumption.
  - rewrite Rabs_minus_sym. apply L; try assumption; try lra. rewrite Rabs_minus_sym. exact D.
Qed.
Lemma min_close a b c d e : Rabs (a - c) <= e -> Rabs (b - d) <= e -> Rabs (Rmin a b - Rmin c d) <= e.
Proof. intros A B. apply Rabs_le_inv in A, B. apply Rabs_le. unfold Rmin. destruct (Rle_dec a b), (Rle_dec c d); lra. Qed.

(** ** Angles, radii *)
Lemma radians_const : close (fdiv f_pi (of_Z 180)) (PI / 180) (4 / 1000000000000000000).
Proof.
  pose proof pi_tight as P.
  apply (close_div _ _ PI 180 (2 / 10000000000000000) 0 180 (18 / 1000) (112 / 100000000000000000000) _ pi_close (close_Z 180 ltac:(lia)));
    try lra. - rewrite Rabs_pos_eq; lra. - unfold huge. lra. - unfold u, tiny. lra.
Qed.
Lemma degrees_const : close (fdiv (of_Z 180) f_pi) (180 / PI) (11 / 1000000000000000).
Proof.
  pose proof pi_tight as P.
  assert (Q : 57 <= 180 / PI <= 58). { split; apply Rmult_le_reg_r with PI; try lra; unfold Rdiv; rewrite Rmult_assoc, Rinv_l by lra; lra. }
  apply (close_div _ _ 180 PI 0 (2 / 10000000000000000) 3 58 (4 / 1000000000000000) _ (close_Z 180 ltac:(lia)) pi_close); try lra.
  - rewrite Rabs_pos_eq; lra. - unfold huge. lra. - unfold u, tiny. lra.
Qed.
Lemma radians_close x lo hi : angle lo hi x -> -360 <= lo -> hi <= 360 -> close (f_radians x) (radians (val x)) (22 / 10000000000000000).
Proof.
  intros [F B] L H. unfold f_radians, radians. pose proof pi_tight as P.
  apply (close_mul _ _ _ _ _ _ 360 (18 / 1000) 6.3 _ (close_self x F) radians_const); try lra.
  - apply Rabs_le. lra. - rewrite Rabs_pos_eq; lra. - apply Rabs_le. nra. - unfold huge. lra. - unfold u, tiny. lra.
Qed.
Lemma degrees_close x r d : close x r d -> Rabs r <= 7 -> 0 <= d <= 1 -> close (f_degrees x) (degrees r) (58 * d + 2 / 10000000000000).
Proof.
  intros C HR D. unfold f_degrees, degrees. pose proof pi_tight as P.
  assert (Q : 57 <= 180 / PI <= 57.3). { split; apply Rmult_le_reg_r with PI; try lra; unfold Rdiv; rewrite Rmult_assoc, Rinv_l by lra; lra. }
  assert (QA : Rabs (180 / PI) <= 57.3) by (rewrite Rabs_pos_eq; lra).
  apply (close_mul _ _ _ _ _ _ 7 57.3 402 _ C degrees_const); try lra.
  - rewrite Rabs_mult. replace 402 with (7 * (402 / 7)) by field. apply Rmult_le_compat; auto using Rabs_pos. lra.
  - unfold huge. lra. - unfold u, tiny. lra.
Qed.
Lemma radius_at_close x : orbital x -> close (f_radius_at x) (EARTH_MEAN_RADIUS + val x) (/ 100000000).
Proof.
  intros [F B]. pose proof R_bounds as R. unfold f_radius_at.
  apply (close_add _ _ _ _ _ _ 56371009 _ radius_close (close_self x F)).
  - rewrite Rabs_pos_eq; lra. - unfold huge. lra. - unfold u, tiny. lra.
Qed.
Lemma viewing_orbital h el : viewing h el -> orbital h /\ orbital el.
Proof. intros [F [G [A B]]]. split; split; try assumption; lra. Qed.
(** The sine of the angular radius of the Earth. *)
Definition rho_of (h el : R) := (EARTH_MEAN_RADIUS + el) / (EARTH_MEAN_RADIUS + h).
Lemma rho_of_range h el : viewing h el -> 0.112 <= rho_of (val h) (val el) <= 1.
Proof.
  intros [F [G [A B]]]. pose proof R_bounds as R. unfold rho_of.
  split; apply Rmult_le_reg_r with (EARTH_MEAN_RADIUS + val h); try lra; unfold Rdiv; rewrite Rmult_assoc, Rinv_l by lra; lra.
Qed.
Lemma earth_sin_of h el : viewing h el -> earth_sin (val h) (val el) = Some (rho_of (val h) (val el)).
Proof. intros [F [G [A B]]]. pose proof R_bounds as R. unfold earth_sin. rewrite rdiv_ok by lra. reflexivity. Qed.
Lemma radius_at_val x : orbital x -> finite (f_radius_at x) /\ val (f_radius_at x) = rnd (val f_mean_radius + val x).
Proof.
  intros [F B]. destruct mean_radius_val as [FM VM]. apply fadd_big; [exact FM|exact F|]. apply huge_add. unfold huge. apply Rabs_le. lra.
Qed.
Lemma sin_rho_close h el : viewing h el ->
  close (f_sin_rho h el) (rho_of (val h) (val el)) (33 / 10000000000000000) /\ 0.11 <= val (f_sin_rho h el) <= 1.
Proof.
  intro V. pose proof (rho_of_range _ _ V) as RG. destruct (viewing_orbital _ _ V) as [Oh Oe]. pose proof V as [F [G [A B]]]. pose proof R_bounds as R.
  pose proof (radius_at_close _ Oh) as Ch. pose proof (radius_at_close _ Oe) as Ce.
  assert (C : close (f_sin_rho h el) (rho_of (val h) (val el)) (33 / 10000000000000000)).
  { unfold f_sin_rho, rho_of.
    apply (close_div _ _ _ _ _ _ 6361008 1 (3145 / 1000000000000000000) _ Ce Ch); try lra.
    - fold (rho_of (val h) (val el)). rewrite Rabs_pos_eq; lra. - unfold huge. lra. - unfold u, tiny. lra. }
  split; [exact C|]. destruct C as [FC DC]. apply Rabs_le_inv in DC. split; [lra|].
  unfold f_sin_rho in *. destruct (radius_at_val _ Oh) as [Fh Vh]. destruct (radius_at_val _ Oe) as [Fe Ve].
  assert (M : val (f_radius_at el) <= val (f_radius_at h)) by (rewrite Vh, Ve; apply rnd_mono; lra).
  destruct Ch as [_ Dh], Ce as [_ De]. apply Rabs_le_inv in Dh, De.
  assert (Q : val (f_radius_at el) / val (f_radius_at h) <= 1).
  { apply Rmult_le_reg_r with (val (f_radius_at h)); [lra|]. unfold Rdiv. rewrite Rmult_assoc, Rinv_l by lra. lra. }
  assert (Q0 : 0 <= val (f_radius_at el) / val (f_radius_at h)).
  { apply Rmult_le_pos; [lra|]. apply Rlt_le, Rinv_0_lt_compat. lra. }
  destruct (fdiv_fin (f_radius_at el) (f_radius_at h) Fe Fh) as [_ E]; [lra| |rewrite E; exact (rnd_le_Z _ 1 ltac:(lia) Q)].
  apply huge_ok. unfold huge. apply Rabs_le. lra.
Qed.

Lemma cos_lip a b : Rabs (cos b - cos a) <= Rabs (b - a).
Proof. rewrite !cos_sin. replace (b - a) with (PI / 2 + b - (PI / 2 + a)) by ring. apply sin_lip. Qed.

Section Libm.
Variables f_sin f_cos f_asin f_acos : b64 -> b64.
Hypothesis LM : accurate_libm f_sin f_cos f_asin f_acos.
Let eps := 9 / 10000000000000000.
Lemma eps_ok : bpow radix2 (-50) <= eps. Proof. unfold eps. cbn. lra. Qed.

Lemma cos_radians_close x : angle 0 90 x ->
  close (f_cos (f_radians x)) (cos (radians (val x))) (4 / 1000000000000000) /\ Rabs (val (f_cos (f_radians x))) <= 1.
Proof.
  intro A. pose proof (radians_close _ _ _ A ltac:(lra) ltac:(lra)) as C. destruct A as [F B].
  assert (HB : Rabs (radians (val x)) <= 2). { unfold radians. pose proof pi_tight. rewrite Rabs_pos_eq; nra. }
  pose proof (close_bound _ _ _ _ C HB) as HV. destruct C as [FR D]. destruct LM as [_ [HC [_ [_ HR]]]].
  destruct (HC _ FR ltac:(lra)) as [FC DC]. split; [|apply (HR _ FR); lra].
  split; [exact FC|]. replace (val (f_cos (f_radians x)) - cos (radians (val x)))
    with ((val (f_cos (f_radians x)) - cos (val (f_radians x))) + (cos (val (f_radians x)) - cos (radians (val x)))) by ring.
  eapply Rle_trans; [apply Rabs_triang|].
  pose proof (cos_lip (radians (val x)) (val (f_radians x))). pose proof eps_ok. unfold eps in *. lra.
Qed.
Lemma half_radians_close x : angle 0 360 x ->
  close (fdiv (f_radians x) (of_Z 2)) (radians (val x) / 2) (16 / 10000000000000000) /\ Rabs (radians (val x) / 2) <= 3.2.
Proof.
  intro A. pose proof (radians_close _ _ _ A ltac:(lra) ltac:(lra)) as C. destruct A as [F B].
  assert (HB : Rabs (radians (val x) / 2) <= 3.2). { unfold radians. pose proof pi_tight. rewrite Rabs_pos_eq; nra. }
  split; [|exact HB].
  apply (close_div _ _ _ _ _ _ 2 3.2 (11 / 10000000000000000) _ C (close_Z 2 ltac:(lia))); try lra.
  - unfold huge. lra. - unfold u, tiny. lra.
Qed.
Lemma sin_eta_close x : angle 0 360 x ->
  close (f_sin_eta f_sin x) (sin (radians (val x) / 2)) (25 / 10000000000000000) /\ Rabs (val (f_sin_eta f_sin x)) <= 1.
Proof.
  intro A. destruct (half_radians_close _ A) as [C HB]. unfold f_sin_eta.
  pose proof (close_bound _ _ _ _ C HB) as HV. destruct C as [FR D]. destruct LM as [HC [_ [_ [_ HR]]]].
  destruct (HC _ FR ltac:(lra)) as [FC DC]. split; [|apply (HR _ FR); lra].
  split; [exact FC|]. set (y := fdiv (f_radians x) (of_Z 2)) in *. set (r := radians (val x) / 2) in *.
  replace (val (f_sin y) - sin r) with ((val (f_sin y) - sin (val y)) + (sin (val y) - sin r)) by ring.
  eapply Rle_trans; [apply Rabs_triang|].
  pose proof (sin_lip r (val y)). pose proof eps_ok. unfold eps in *. lra.
Qed.
Lemma sin_eta_range x : angle 0 360 x -> 0 <= sin (radians (val x) / 2) <= 1.
Proof.
  intros [F B]. pose proof (SIN_bound (radians (val x) / 2)). split; [|lra]. unfold radians. pose proof PI_RGT_0.
  apply sin_ge_0; nra.
Qed.

Lemma field_of_regard_lemma h e el : viewing h el -> angle 0 90 e ->
  exists r, compute_field_of_regard (val h) (val e) (val el) = Some r /\ close (f_field_of_regard f_cos f_asin h e el) r (/ 10000).
Proof.
  intros V A. destruct (sin_rho_close _ _ V) as [CR BR]. destruct (cos_radians_close _ A) as [CC BC]. pose proof (rho_of_range _ _ V) as RG.
  unfold compute_field_of_regard. rewrite (earth_sin_of _ _ V). cbn [obind].
  set (rho := rho_of (val h) (val el)) in *. set (c := cos (radians (val e))) in *.
  assert (CB : -1 <= c <= 1) by apply COS_bound. assert (CBA : Rabs c <= 1) by (apply Rabs_le; lra).
  assert (PB : -1 <= rho * c <= 1) by nra. assert (PBA : Rabs (rho * c) <= 1) by (apply Rabs_le; lra).
  rewrite np_arcsin_in by exact PB. cbn [obind]. eexists. split; [reflexivity|].
  unfold f_field_of_regard. set (fr := f_sin_rho h el) in *. set (fc := f_cos (f_radians e)) in *.
  assert (C : close (fmul fr fc) (rho * c) (8 / 1000000000000000)).
  { apply (close_mul _ _ _ _ _ _ 1 1 1 _ CR CC); try lra. - rewrite Rabs_pos_eq; lra. - unfold huge. lra. - unfold u, tiny. lra. }
  assert (FB : Rabs (val (fmul fr fc)) <= 1).
  { destruct CR as [FR _], CC as [FC _]. assert (PV : Rabs (val fr * val fc) <= 1).
    { rewrite Rabs_mult. replace 1 with (1 * 1) by ring. apply Rmult_le_compat; auto using Rabs_pos. rewrite Rabs_pos_eq; lra. }
    destruct (fmul_fin fr fc FR FC) as [_ E]; [apply huge_ok; unfold huge; lra|]. rewrite E. apply Rabs_le_inv in PV. apply Rabs_le. split.
    - apply (rnd_ge_fmt _ (IZR (-1))); [apply (fmt_Z (-1)); lia|lra].
    - apply (rnd_le_Z _ 1); [lia|lra]. }
  destruct C as [FP DP]. destruct LM as [_ [_ [HA [_ _]]]]. destruct (HA _ FP FB) as [FS DS]. apply Rabs_le_inv in FB.
  pose proof (asin_close (val (fmul fr fc)) (rho * c) _ (3 / 10000000) ltac:(lra) ltac:(lra) DP ltac:(lra) ltac:(lra) ltac:(lra)) as DA.
  assert (CS : close (f_asin (fmul fr fc)) (asin (rho * c)) (4 / 10000000)).
  { split; [exact FS|]. replace (val (f_asin (fmul fr fc)) - asin (rho * c))
      with ((val (f_asin (fmul fr fc)) - asin (val (fmul fr fc))) + (asin (val (fmul fr fc)) - asin (rho * c))) by ring.
    eapply Rle_trans; [apply Rabs_triang|]. pose proof eps_ok. unfold eps in *. lra. }
  pose proof (asin_bound (rho * c)) as AB. pose proof pi_tight as P.
  assert (C2 : close (fmul (f_asin (fmul fr fc)) (of_Z 2)) (asin (rho * c) * 2) (9 / 10000000)).
  { apply (close_mul _ _ _ _ _ _ 2 2 4 _ CS (close_Z 2 ltac:(lia))); try lra.
    - apply Rabs_le. lra. - rewrite Rabs_pos_eq; lra. - apply Rabs_le. lra. - unfold huge. lra. - unfold u, tiny. lra. }
  eapply close_weak; [apply (degrees_close _ _ _ C2); [apply Rabs_le; lra|lra]|lra].
Qed.

(** cos_epsilon of a sine at most near the sine of the horizon. *)
Lemma cos_eps_close s x h el : viewing h el -> close x s (33 / 10000000000000000) -> 0 <= s <= 1 ->
  close (fdiv x (f_sin_rho h el)) (s / rho_of (val h) (val el)) (1 / 1000000000000).
Proof.
  intros V C B. destruct (sin_rho_close _ _ V) as [CR BR]. pose proof (rho_of_range _ _ V) as RG.
  set (rho := rho_of (val h) (val el)) in *.
  assert (Q0 : 0 <= s / rho) by (apply Rmult_le_pos; [lra|apply Rlt_le, Rinv_0_lt_compat; lra]).
  assert (Q : s / rho <= 9) by (apply Rmult_le_reg_r with rho; [lra|]; unfold Rdiv; rewrite Rmult_assoc, Rinv_l by lra; nra).
  apply (close_div _ _ _ _ _ _ 0.112 9 (5 / 10000000000000) _ C CR); try lra.
  - rewrite Rabs_pos_eq; lra. - unfold huge. lra. - unfold u, tiny. lra.
Qed.
Lemma min_elevation_lemma h f el : viewing h el -> angle 0 360 f ->
  exists r, compute_min_elevation_angle (val h) (val f) (val el) = Some r
    /\ close (f_min_elevation_angle f_sin f_acos h f el) r (/ 1000).
Proof.
  intros V A. destruct (sin_eta_close _ A) as [CE BE]. pose proof (sin_eta_range _ A) as SE. pose proof (rho_of_range _ _ V) as RG.
  assert (CE' : close (f_sin_eta f_sin f) (sin (radians (val f) / 2)) (33 / 10000000000000000)) by (eapply close_weak; [exact CE|lra]).
  pose proof (cos_eps_close _ _ _ _ V CE' SE) as CX.
  unfold compute_min_elevation_angle. rewrite (earth_sin_of _ _ V). cbn [obind]. rewrite rdiv_ok by lra. cbn [obind].
  unfold f_min_elevation_angle. set (x := fdiv (f_sin_eta f_sin f) (f_sin_rho h el)) in *.
  set (y := sin (radians (val f) / 2) / rho_of (val h) (val el)) in *.
  assert (Y0 : 0 <= y) by (apply Rmult_le_pos; [lra|apply Rlt_le, Rinv_0_lt_compat; lra]).
  destruct CX as [FX DX]. rewrite ltb_val by (try exact FX; apply (of_Z_spec 1); lia). destruct (of_Z_spec 1 ltac:(lia)) as [_ V1]. rewrite V1.
  assert (DX' := DX). apply Rabs_le_inv in DX'. pose proof (close_Z 0 ltac:(lia)) as [F0 D0]. pose proof pi_tight as P.
  assert (A1 : acos 1 = 0) by (rewrite <- cos_0; apply acos_cos; lra).
  assert (DEG : forall r, 0 <= r <= 3 / 1000000 -> 0 <= degrees r <= 174 / 1000000).
  { intros r Hr. unfold degrees. assert (57 <= 180 / PI <= 57.3).
    { split; apply Rmult_le_reg_r with PI; try lra; unfold Rdiv; rewrite Rmult_assoc, Rinv_l by lra; lra. } nra. }
  destruct LM as [_ [_ [_ [HA _]]]].
  case Rlt_bool_spec; intro Hx.
  - destruct (Rltb 1 y) eqn:E.
    + exists 0. split; [reflexivity|]. split; [exact F0|]. apply Rabs_le_inv in D0. apply Rabs_le. lra.
    + apply Rltb_false in E. rewrite np_arccos_in by lra. cbn [obind]. eexists. split; [reflexivity|]. split; [exact F0|].
      pose proof (acos_close y 1 (1 / 1000000000000) (3 / 1000000) ltac:(lra) ltac:(lra)) as HC. rewrite A1 in HC.
      specialize (HC ltac:(apply Rabs_le; lra) ltac:(lra) ltac:(lra) ltac:(lra)). apply Rabs_le_inv in HC. pose proof (acos_bound y).
      pose proof (DEG (acos y) ltac:(lra)). apply Rabs_le_inv in D0. apply Rabs_le. lra.
  - assert (HX1 : Rabs (val x) <= 1) by (apply Rabs_le; lra). destruct (HA _ FX HX1) as [FA DA].
    destruct (Rltb 1 y) eqn:E.
    + apply Rltb_spec in E. exists 0. split; [reflexivity|].
      pose proof (acos_close (val x) 1 (1 / 1000000000000) (3 / 1000000) ltac:(lra) ltac:(lra)) as HC. rewrite A1 in HC.
      specialize (HC ltac:(apply Rabs_le; lra) ltac:(lra) ltac:(lra) ltac:(lra)).
      assert (CA : close (f_acos x) 0 (4 / 1000000)).
      { split; [exact FA|]. replace (val (f_acos x) - 0) with ((val (f_acos x) - acos (val x)) + (acos (val x) - 0)) by ring.
        eapply Rle_trans; [apply Rabs_triang|]. pose proof eps_ok. unfold eps in *. lra. }
      pose proof (degrees_close _ _ _ CA ltac:(rewrite Rabs_R0; lra) ltac:(lra)) as CD. unfold degrees in CD. rewrite Rmult_0_l in CD.
      eapply close_weak; [exact CD|lra].
    + apply Rltb_false in E. rewrite np_arccos_in by lra. cbn [obind]. eexists. split; [reflexivity|].
      pose proof (acos_close (val x) y _ (3 / 1000000) ltac:(lra) ltac:(lra) DX ltac:(lra) ltac:(lra) ltac:(lra)) as HC.
      assert (CA : close (f_acos x) (acos y) (4 / 1000000)).
      { split; [exact FA|]. replace (val (f_acos x) - acos y) with ((val (f_acos x) - acos (val x)) + (acos (val x) - acos y)) by ring.
        eapply Rle_trans; [apply Rabs_triang|]. pose proof eps_ok. unfold eps in *. lra. }
      pose proof (acos_bound y).
      eapply close_weak; [apply (degrees_close _ _ _ CA); [apply Rabs_le; lra|lra]|lra].
Qed.

(** ** Swath widths *)
Lemma f_min_val a b : finite a -> finite b -> finite (f_min a b) /\ val (f_min a b) = Rmin (val a) (val b).
Proof.
  intros Fa Fb. unfold f_min. rewrite ltb_val by assumption. case Rlt_bool_spec; intro H; split; try assumption.
  - rewrite Rmin_right by lra. reflexivity. - rewrite Rmin_left by lra. reflexivity.
Qed.
Lemma half_pi : close (fdiv f_pi (of_Z 2)) (PI / 2) (4 / 10000000000000000).
Proof.
  pose proof pi_tight as P.
  apply (close_div _ _ PI 2 (2 / 10000000000000000) 0 2 1.6 (1 / 10000000000000000) _ pi_close (close_Z 2 ltac:(lia))); try lra.
  - rewrite Rabs_pos_eq; lra. - unfold huge. lra. - unfold u, tiny. lra.
Qed.
(** The sine and the cosine that the swath is computed from. *)
Section Swath.
Variables h f el : b64.
Hypothesis V : viewing h el.
Hypothesis A : angle 0 360 f.
Let rho := rho_of (val h) (val el).
Let s := Rmin rho (sin (radians (val f) / 2)).
Let fs := f_min (f_sin_rho h el) (f_sin_eta f_sin f).
Lemma swath_parts :
  (0 <= s <= rho) /\ (0 <= s / rho <= 1) /\ close fs s (33 / 10000000000000000) /\ Rabs (val fs) <= 1
  /\ close (fdiv fs (f_sin_rho h el)) (s / rho) (6 / 100000000000000) /\ Rabs (val (fdiv fs (f_sin_rho h el))) <= 1.
Proof.
  destruct (sin_eta_close _ A) as [CE BE]. pose proof (sin_eta_range _ A) as SE. pose proof (rho_of_range _ _ V) as RG.
  destruct (sin_rho_close _ _ V) as [CR BR]. fold rho in CR, RG.
  assert (S : 0 <= s <= rho). { unfold s. split; [apply Rmin_glb; lra|apply Rmin_l]. }
  assert (Q0 : 0 <= s / rho) by (apply Rmult_le_pos; [lra|apply Rlt_le, Rinv_0_lt_compat; lra]).
  assert (Q : s / rho <= 1) by (apply Rmult_le_reg_r with rho; [lra|]; unfold Rdiv; rewrite Rmult_assoc, Rinv_l by lra; lra).
  destruct (f_min_val (f_sin_rho h el) (f_sin_eta f_sin f) (proj1 CR) (proj1 CE)) as [FS VS]. fold fs in FS, VS.
  assert (CS : close fs s (33 / 10000000000000000)).
  { split; [exact FS|]. rewrite VS. unfold s. apply min_close; [apply CR|]. destruct CE as [_ D]. lra. }
  assert (SB : Rabs (val fs) <= val (f_sin_rho h el) /\ Rabs (val fs) <= 1).
  { pose proof (Rmin_l (val (f_sin_rho h el)) (val (f_sin_eta f_sin f))) as M. rewrite <- VS in M.
    destruct CS as [_ D]. apply Rabs_le_inv in D. split; apply Rabs_le; lra. }
  split; [exact S|]. split; [lra|]. split; [exact CS|]. split; [apply SB|]. split.
  - apply (close_div _ _ _ _ _ _ 0.112 1 (59 / 1000000000000000) _ CS CR); try lra.
    + rewrite Rabs_pos_eq; lra. + unfold huge. lra. + unfold u, tiny. lra.
  - assert (QB : Rabs (val fs / val (f_sin_rho h el)) <= 1).
    { unfold Rdiv. rewrite Rabs_mult, (Rabs_pos_eq (/ _)) by (apply Rlt_le, Rinv_0_lt_compat; lra).
      apply Rmult_le_reg_r with (val (f_sin_rho h el)); [lra|]. rewrite Rmult_assoc, Rinv_l by lra. lra. }
    destruct (fdiv_fin fs (f_sin_rho h el) FS (proj1 CR)) as [_ E]; [lra|apply huge_ok; unfold huge; lra|]. rewrite E.
    apply Rabs_le_inv in QB. apply Rabs_le. split.
    + apply (rnd_ge_fmt _ (IZR (-1))); [apply (fmt_Z (-1)); lia|lra].
    + apply (rnd_le_Z _ 1); [lia|lra].
Qed.
Lemma swath_from e1 e2 d : 0 <= e1 <= 1 / 100000 -> 0 <= e2 <= 1 / 100000 ->
  Rabs (asin (val fs) - asin s) <= e1 -> Rabs (acos (val (fdiv fs (f_sin_rho h el))) - acos (s / rho)) <= e2 ->
  13000000 * (e1 + e2 + 1 / 100000000000000) <= d ->
  exists r, field_of_regard_to_swath_width (val h) (val f) (val el) = Some r /\ close (f_swath_width f_sin f_asin f_acos h f el) r d.
Proof.
  intros E1 E2 D1 D2 HD. destruct swath_parts as [S [Q [CS [BS [CC BC]]]]]. pose proof (rho_of_range _ _ V) as RG. fold rho in RG.
  unfold field_of_regard_to_swath_width. rewrite (earth_sin_of _ _ V). cbn [obind]. fold rho s. rewrite rdiv_ok by lra. cbn [obind].
  rewrite np_arcsin_in by lra. cbn [obind]. rewrite np_arccos_in by lra. cbn [obind]. eexists. split; [reflexivity|].
  unfold f_swath_width. fold fs. set (c := fdiv fs (f_sin_rho h el)) in *.
  destruct LM as [_ [_ [HA [HC _]]]]. destruct (HA _ (proj1 CS) BS) as [FA DA]. destruct (HC _ (proj1 CC) BC) as [FC DC].
  pose proof eps_ok as EP. unfold eps in EP.
  assert (CA : close (f_asin fs) (asin s) (e1 + 9 / 10000000000000000)).
  { split; [exact FA|]. replace (val (f_asin fs) - asin s) with ((val (f_asin fs) - asin (val fs)) + (asin (val fs) - asin s)) by ring.
    eapply Rle_trans; [apply Rabs_triang|]. lra. }
  assert (CB : close (f_acos c) (acos (s / rho)) (e2 + 9 / 10000000000000000)).
  { split; [exact FC|]. replace (val (f_acos c) - acos (s / rho)) with ((val (f_acos c) - acos (val c)) + (acos (val c) - acos (s / rho))) by ring.
    eapply Rle_trans; [apply Rabs_triang|]. lra. }
  pose proof (asin_bound s) as AB. pose proof (acos_range01 _ Q) as CR. pose proof pi_tight as P. pose proof (asin_nonneg s ltac:(lra)) as A0.
  assert (C1 : close (fsub (fdiv f_pi (of_Z 2)) (f_asin fs)) (PI / 2 - asin s) (e1 + 16 / 10000000000000000)).
  { apply (close_sub _ _ _ _ _ _ 1.6 _ half_pi CA). - apply Rabs_le. lra. - unfold huge. lra. - unfold u, tiny. lra. }
  assert (C2 : close (fsub (fsub (fdiv f_pi (of_Z 2)) (f_asin fs)) (f_acos c)) (PI / 2 - asin s - acos (s / rho)) (e1 + e2 + 28 / 10000000000000000)).
  { apply (close_sub _ _ _ _ _ _ 1.6 _ C1 CB). - apply Rabs_le. lra. - unfold huge. lra. - unfold u, tiny. lra. }
  destruct (viewing_orbital _ _ V) as [Oh Oe]. pose proof (radius_at_close _ Oe) as CRA. pose proof V as [_ [_ [BE _]]]. pose proof R_bounds as RB.
  assert (C3 : close (fmul (of_Z 2) (f_radius_at el)) (2 * (EARTH_MEAN_RADIUS + val el)) (22 / 1000000000)).
  { apply (close_mul _ _ _ _ _ _ 2 7000000 14000000 _ (close_Z 2 ltac:(lia)) CRA); try lra.
    - rewrite Rabs_pos_eq; lra. - rewrite Rabs_pos_eq; lra. - rewrite Rabs_pos_eq; lra. - unfold huge. lra. - unfold u, tiny. lra. }
  assert (LB : Rabs (PI / 2 - asin s - acos (s / rho)) <= 1.6) by (apply Rabs_le; lra).
  apply (close_mul _ _ _ _ _ _ 12942018 1.6 21000000 _ C3 C2); try lra.
  - rewrite Rabs_pos_eq; lra.
  - rewrite Rabs_mult. replace 21000000 with (13125000 * 1.6) by lra. apply Rmult_le_compat; auto using Rabs_pos. rewrite Rabs_pos_eq; lra.
  - unfold huge. lra.
  - unfold u, tiny. lra.
Qed.
Lemma swath_lemma : exists r, field_of_regard_to_swath_width (val h) (val f) (val el) = Some r /\ close (f_swath_width f_sin f_asin f_acos h f el) r 20.
Proof.
  destruct swath_parts as [S [Q [CS [BS [CC BC]]]]]. pose proof (rho_of_range _ _ V) as RG. fold rho in RG.
  apply Rabs_le_inv in BS, BC. apply (swath_from (2 / 10000000) (8 / 10000000)); try lra.
  - apply (asin_close _ _ (33 / 10000000000000000)); try lra. apply CS.
  - apply (acos_close _ _ (6 / 100000000000000)); try lra. apply CC.
Qed.
(** Clear of the horizon the error is far smaller. *)
Lemma swath_clear_lemma : sin (radians (val f) / 2) <= 999 / 1000 * rho ->
  exists r, field_of_regard_to_swath_width (val h) (val f) (val el) = Some r /\ close (f_swath_width f_sin f_asin f_acos h f el) r (/ 10000).
Proof.
  intro HC. destruct swath_parts as [S [Q [CS [BS [CC BC]]]]]. pose proof (rho_of_range _ _ V) as RG. fold rho in RG.
  assert (S9 : s <= 999 / 1000 * rho) by (eapply Rle_trans; [apply Rmin_r|exact HC]).
  assert (Q9 : s / rho <= 999 / 1000) by (apply Rmult_le_reg_r with rho; [lra|]; unfold Rdiv; rewrite Rmult_assoc, Rinv_l by lra; lra).
  assert (CS' := CS). assert (CC' := CC). destruct CS' as [_ DS], CC' as [_ DC]. assert (DS' := DS). assert (DC' := DC). apply Rabs_le_inv in DS', DC'. apply Rabs_le_inv in BS, BC.
  apply (swath_from (2 / 10000000000000) (4 / 1000000000000)); try lra.
  - rewrite asin_acos_abs by lra.
    eapply Rle_trans; [apply (acos_close_far _ _ (33 / 10000000000000000) (4 / 100) (9991 / 10000)); try lra; apply Rabs_le; lra|]. lra.
  - eapply Rle_trans; [apply (acos_close_far _ _ (6 / 100000000000000) (4 / 100) (9991 / 10000)); try lra; apply Rabs_le; lra|]. lra.
Qed.
End Swath.
End Libm.
