(** Facts about the two-argument inverse tangent. *)
From Coq Require Import Reals Lra Psatz.
From Verif Require Import RBase RFacts RTrig.
Open Scope R_scope.

Lemma arctan2_range y x : - PI < arctan2 y x <= PI.
Proof.
  pose proof PI_RGT_0 as P. unfold arctan2. pose proof (atan_bound (y / x)) as B.
  destruct (Rltb 0 x) eqn:E1; [lra|]. destruct (Rltb x 0) eqn:E2.
  - apply Rltb_spec in E2. destruct (Rleb 0 y) eqn:E3.
    + apply Rleb_spec in E3. assert (y / x <= 0).
      { assert (/ x < 0) by (apply Rinv_lt_0_compat; lra). unfold Rdiv. nra. }
      assert (atan (y / x) <= 0). { rewrite <- atan_0. destruct H as [H|H]; [apply Rlt_le, atan_increasing; exact H|rewrite H; lra]. }
      lra.
    + apply Rleb_false in E3. assert (0 < y / x).
      { assert (/ x < 0) by (apply Rinv_lt_0_compat; lra). unfold Rdiv. nra. }
      assert (0 < atan (y / x)) by (rewrite <- atan_0; apply atan_increasing; exact H). lra.
  - destruct (Rltb 0 y); [lra|]. destruct (Rltb y 0); lra.
Qed.
Lemma atan_polar t : cos (atan t) * sqrt (1 + t * t) = 1 /\ sin (atan t) * sqrt (1 + t * t) = t.
Proof.
  pose proof (atan_bound t) as B. set (a := atan t) in *. assert (C : 0 < cos a) by (apply cos_gt_0; lra).
  assert (T : sin a = t * cos a) by (pose proof (tan_atan t) as T; fold a in T; unfold tan in T; rewrite <- T; field; lra).
  pose proof (sin2_cos2 a) as Q. unfold Rsqr in Q. rewrite T in Q.
  assert (S0 : 0 < sqrt (1 + t * t)) by (apply sqrt_lt_R0; nra).
  assert (S2 : sqrt (1 + t * t) * sqrt (1 + t * t) = 1 + t * t) by (apply sqrt_sqrt; nra).
  assert (E : cos a * sqrt (1 + t * t) = 1).
  { assert ((cos a * sqrt (1 + t * t)) * (cos a * sqrt (1 + t * t)) = 1).
    { replace ((cos a * sqrt (1 + t * t)) * (cos a * sqrt (1 + t * t))) with (cos a * cos a * (sqrt (1 + t * t) * sqrt (1 + t * t))) by ring. rewrite S2. nra. }
    assert (0 < cos a * sqrt (1 + t * t)) by (apply Rmult_lt_0_compat; lra). nra. }
  split; auto. rewrite T. replace (t * cos a * sqrt (1 + t * t)) with (t * (cos a * sqrt (1 + t * t))) by ring. rewrite E. ring.
Qed.
(** Polar decomposition. *)
Lemma arctan2_polar y x : let r := sqrt (x * x + y * y) in x = r * cos (arctan2 y x) /\ y = r * sin (arctan2 y x).
Proof.
  pose proof PI_RGT_0 as P. unfold arctan2.
  assert (K : forall x, x <> 0 -> sqrt (x * x + y * y) = Rabs x * sqrt (1 + y / x * (y / x))).
  { intros z Z. rewrite <- (sqrt_Rsqr_abs z), <- sqrt_mult_alt by apply Rle_0_sqr. f_equal. unfold Rsqr. field. exact Z. }
  destruct (atan_polar (y / x)) as [C S].
  destruct (Rltb 0 x) eqn:E1; cbv zeta.
  - apply Rltb_spec in E1. rewrite K by lra. rewrite Rabs_pos_eq by lra. split.
    + rewrite Rmult_assoc, (Rmult_comm (sqrt _)), C. ring.
    + rewrite Rmult_assoc, (Rmult_comm (sqrt _)), S. field. lra.
  - apply Rltb_false in E1. destruct (Rltb x 0) eqn:E2.
    + apply Rltb_spec in E2. rewrite K by lra. rewrite Rabs_left by lra. 
      assert (G : forall b, cos b = - cos (atan (y / x)) -> sin b = - sin (atan (y / x)) ->
         x = - x * sqrt (1 + y / x * (y / x)) * cos b /\ y = - x * sqrt (1 + y / x * (y / x)) * sin b).
      { intros b -> ->. split.
        - replace (- x * sqrt (1 + y / x * (y / x)) * - cos (atan (y / x))) with (x * (cos (atan (y / x)) * sqrt (1 + y / x * (y / x)))) by ring. rewrite C. ring.
        - replace (- x * sqrt (1 + y / x * (y / x)) * - sin (atan (y / x))) with (x * (sin (atan (y / x)) * sqrt (1 + y / x * (y / x)))) by ring. rewrite S. field. lra. }
      destruct (Rleb 0 y); apply G.
      * apply neg_cos. * apply neg_sin.
      * rewrite cos_minus, cos_PI, sin_PI. ring. * rewrite sin_minus, cos_PI, sin_PI. ring.
    + apply Rltb_false in E2. assert (x = 0) by lra. subst x. rewrite Rmult_0_l, Rplus_0_l.
      destruct (Rltb 0 y) eqn:E3; [apply Rltb_spec in E3|apply Rltb_false in E3; destruct (Rltb y 0) eqn:E4; [apply Rltb_spec in E4|apply Rltb_false in E4]].
      * rewrite sqrt_square by lra. rewrite cos_PI2, sin_PI2. lra.
      * replace (y * y) with ((- y) * (- y)) by ring. rewrite sqrt_square by lra. rewrite cos_neg, sin_neg, cos_PI2, sin_PI2. lra.
      * assert (y = 0) by lra. subst y. rewrite Rmult_0_l, sqrt_0. lra.
Qed.
Lemma arctan2_unit y x : x * x + y * y = 1 -> cos (arctan2 y x) = x /\ sin (arctan2 y x) = y.
Proof. intro H. destruct (arctan2_polar y x) as [C S]. rewrite H, sqrt_1 in C, S. lra. Qed.
