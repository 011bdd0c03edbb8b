(** Proofs about the mutual orbiting group. *)
From Coq Require Import Reals ZArith List Bool Lia Lra Psatz Nsatz.
From Verif Require Import Base RBase RFacts RTrig RTrigFacts Tle_Model Orbit_Model Orbit_Spec Orbit_Proofs Anomaly_Proofs Const_Model Const_Spec Const_Proofs Const_Proofs2
  Geom_Spec Geom_Proofs Geom_Proofs2 Access_Proofs Mog_Model Mog_Spec.
Import ListNotations.
Open Scope R_scope.

(** ** The Kepler loop *)
Lemma sin_lip_le a b : a <= b -> Rabs (sin b - sin a) <= b - a.
Proof.
  intros [H|H]; [|subst; replace (sin b - sin b) with 0 by ring; rewrite Rabs_R0; lra].
  destruct (MVT_cor2 sin cos a b H) as [c [E _]]; [intros; apply derivable_pt_lim_sin|].
  rewrite E, Rabs_mult, (Rabs_pos_eq (b - a)) by lra. pose proof (COS_bound c). assert (Rabs (cos c) <= 1) by (apply Rabs_le; lra). nra.
Qed.
Lemma sin_lip a b : Rabs (sin b - sin a) <= Rabs (b - a).
Proof.
  destruct (Rle_dec a b) as [H|H].
  - rewrite (Rabs_pos_eq (b - a)) by lra. now apply sin_lip_le.
  - rewrite Rabs_minus_sym, (Rabs_minus_sym b a), (Rabs_pos_eq (a - b)) by lra. apply sin_lip_le. lra.
Qed.
Lemma loop_more fuel n e a b r : kepler_loop fuel n e a b = Some r -> kepler_loop (S fuel) n e a b = Some r.
Proof.
  revert a b. induction fuel as [|f IH]; intros a b H; [discriminate|].
  change (kepler_loop (S f) n e a b) with (if Rltb (1 / 1000000) (Rabs (b - a)) then kepler_loop f n e b (n + e * sin b) else Some b) in H.
  change (kepler_loop (S (S f)) n e a b) with (if Rltb (1 / 1000000) (Rabs (b - a)) then kepler_loop (S f) n e b (n + e * sin b) else Some b).
  destruct (Rltb (1 / 1000000) (Rabs (b - a))); auto.
Qed.
Lemma loop_mono f f' n e a b r : (f <= f')%nat -> kepler_loop f n e a b = Some r -> kepler_loop f' n e a b = Some r.
Proof. induction 1; auto. intro H1. apply loop_more. auto. Qed.
Lemma step_contracts n e a : 0 <= e -> Rabs (n + e * sin (n + e * sin a) - (n + e * sin a)) <= e * Rabs (n + e * sin a - a).
Proof.
  intro He. replace (n + e * sin (n + e * sin a) - (n + e * sin a)) with (e * (sin (n + e * sin a) - sin a)) by ring.
  rewrite Rabs_mult, (Rabs_pos_eq e) by lra. apply Rmult_le_compat_l; auto. apply sin_lip.
Qed.
Lemma loop_from n e : 0 <= e -> forall k a, Rabs (n + e * sin a - a) * e ^ k <= 1 / 1000000 ->
  exists r, kepler_loop (S k) n e a (n + e * sin a) = Some r.
Proof.
  intros He. induction k as [|k IH]; intros a H.
  - cbn [kepler_loop]. replace (Rltb (1 / 1000000) (Rabs (n + e * sin a - a))) with false; [eauto|].
    symmetry. apply Rltb_false. simpl in H. lra.
  - change (kepler_loop (S (S k)) n e a (n + e * sin a)) with
      (if Rltb (1 / 1000000) (Rabs (n + e * sin a - a)) then kepler_loop (S k) n e (n + e * sin a) (n + e * sin (n + e * sin a)) else Some (n + e * sin a)).
    destruct (Rltb (1 / 1000000) (Rabs (n + e * sin a - a))); [|eauto]. apply IH.
    eapply Rle_trans; [|exact H]. pose proof (step_contracts n e a He) as S1.
    assert (0 <= e ^ k) by (apply pow_le; auto). simpl. replace (Rabs (n + e * sin a - a) * (e * e ^ k)) with (e * Rabs (n + e * sin a - a) * e ^ k) by ring.
    apply Rmult_le_compat_r; auto.
Qed.
Lemma loop_post fuel n e a r : kepler_loop fuel n e a (n + e * sin a) = Some r ->
  exists b, r = n + e * sin b /\ Rabs (r - b) <= 1 / 1000000.
Proof.
  revert a. induction fuel as [|f IH]; intros a H; [discriminate|]. cbn [kepler_loop] in H.
  destruct (Rltb (1 / 1000000) (Rabs (n + e * sin a - a))) eqn:E.
  - now apply IH in H.
  - injection H as <-. exists a. split; auto. now apply Rltb_false in E.
Qed.
Lemma loop_start fuel n e : kepler_loop (S fuel) n e 0 (1 / 10) = kepler_loop fuel n e (1 / 10) (n + e * sin (1 / 10)).
Proof.
  cbn [kepler_loop]. replace (Rltb (1 / 1000000) (Rabs (1 / 10 - 0))) with true; auto.
  symmetry. apply Rltb_spec. rewrite Rabs_pos_eq; lra.
Qed.
Lemma loop_terminates_lemma n e : 0 <= e < 1 -> exists fuel0 psi, (forall fuel, (fuel0 <= fuel)%nat -> kepler_loop fuel n e 0 (1 / 10) = Some psi)
  /\ Rabs (psi - (n + e * sin psi)) <= e * (1 / 1000000)
  /\ forall x, x = n + e * sin x -> Rabs (psi - x) <= e * (1 / 1000000) / (1 - e).
Proof.
  intro He. set (d := Rabs (n + e * sin (1 / 10) - 1 / 10)). assert (D : 0 <= d) by apply Rabs_pos.
  destruct (pow_lt_1_zero e ltac:(rewrite Rabs_pos_eq; lra) (1 / 1000000 / (d + 1))) as [N HN]; [apply Rdiv_lt_0_compat; lra|].
  specialize (HN N (le_n N)). rewrite Rabs_pos_eq in HN by (apply pow_le; lra).
  assert (Q : d * e ^ N <= 1 / 1000000).
  { apply (Rmult_lt_compat_r (d + 1)) in HN; [|lra]. replace (1 / 1000000 / (d + 1) * (d + 1)) with (1 / 1000000) in HN by (field; lra).
    assert (0 <= e ^ N) by (apply pow_le; lra). nra. }
  destruct (loop_from n e ltac:(lra) N (1 / 10) Q) as [psi E]. destruct (loop_post _ _ _ _ _ E) as (b & Eb & Hb).
  exists (S (S N)), psi. assert (P : Rabs (psi - (n + e * sin psi)) <= e * (1 / 1000000)).
  { rewrite Eb at 1. replace (n + e * sin b - (n + e * sin psi)) with (e * (sin b - sin psi)) by ring.
    rewrite Rabs_mult, (Rabs_pos_eq e) by lra. apply Rmult_le_compat_l; [lra|]. eapply Rle_trans; [apply sin_lip|]. now rewrite Rabs_minus_sym. }
  split; [|split; auto].
  - intros fuel Hf. apply (loop_mono (S (S N))); auto. rewrite loop_start. exact E.
  - intros x Hx. assert (K : Rabs (psi - x) <= e * (1 / 1000000) + e * Rabs (psi - x)).
    { rewrite Hx at 1. replace (psi - (n + e * sin x)) with ((psi - (n + e * sin psi)) + e * (sin psi - sin x)) by ring.
      eapply Rle_trans; [apply Rabs_triang|]. apply Rplus_le_compat; auto. rewrite Rabs_mult, (Rabs_pos_eq e) by lra.
      apply Rmult_le_compat_l; [lra|apply sin_lip]. }
    apply Rmult_le_reg_r with (1 - e); [lra|]. unfold Rdiv. rewrite (Rmult_assoc (e * (1 * / 1000000))), Rinv_l by lra. lra.
Qed.
(** Nontermination at eccentricity PI/2 (accepted by the schema). *)
Lemma cos_lower x : 0 <= x -> 1 - x * x / 2 <= cos x.
Proof.
  intro H. replace x with (2 * (x / 2)) at 3 by field. rewrite cos_2a_sin. pose proof (sine_le (x / 2) ltac:(lra)) as S1.
  pose proof (SIN_bound (x / 2)). destruct (Rle_dec x PI) as [L|L].
  - assert (0 <= sin (x / 2)) by (apply sin_ge_0; lra). nra.
  - pose proof PI2_3_2 as P. unfold PI2 in P. assert (3 < x) by lra. assert (-1 <= sin (x / 2) <= 1) by auto. nra.
Qed.
Lemma loop_diverges_from : forall fuel d d', 0 <= d <= 1 / 5 -> 3 / 2 <= d' <= PI / 2 ->
  kepler_loop fuel (PI / 2) (PI / 2) (PI / 2 + d) (PI / 2 + d') = None
  /\ kepler_loop fuel (PI / 2) (PI / 2) (PI / 2 + d') (PI / 2 + d) = None.
Proof.
  induction fuel as [|f IH]; intros d d' Hd Hd'; [auto|]. cbn [kepler_loop].
  replace (Rltb (1 / 1000000) (Rabs (PI / 2 + d' - (PI / 2 + d)))) with true by (symmetry; apply Rltb_spec; rewrite Rabs_pos_eq; lra).
  replace (Rltb (1 / 1000000) (Rabs (PI / 2 + d - (PI / 2 + d')))) with true by (symmetry; apply Rltb_spec; rewrite Rabs_left; lra).
  pose proof PI2_3_2 as P. unfold PI2 in P. pose proof PI_tight as PT.
  replace (sin (PI / 2 + d')) with (cos d') by (rewrite cos_sin; reflexivity).
  replace (sin (PI / 2 + d)) with (cos d) by (rewrite cos_sin; reflexivity).
  split; [refine (proj2 (IH (PI / 2 * cos d') d' _ Hd'))|refine (proj1 (IH d (PI / 2 * cos d) Hd _))].
  - split; [apply Rmult_le_pos; [lra|apply cos_ge_0; lra]|]. rewrite <- sin_shift. pose proof (sine_le (PI / 2 - d') ltac:(lra)). nra.
  - pose proof (cos_lower d ltac:(lra)). pose proof (COS_bound d). assert (d * d <= 1 / 25) by nra. assert (49 / 50 <= cos d <= 1) by lra.
    assert (49 / 50 * (PI / 2) <= cos d * (PI / 2) <= 1 * (PI / 2)) by (split; apply Rmult_le_compat_r; lra). lra.
Qed.
Lemma loop_diverges fuel : kepler_loop fuel (PI / 2) (PI / 2) 0 (1 / 10) = None.
Proof.
  destruct fuel as [|f]; [reflexivity|]. rewrite loop_start. destruct f as [|f]; [reflexivity|]. cbn [kepler_loop].
  pose proof PI2_3_2 as P. unfold PI2 in P. pose proof PI_tight as PT.
  assert (S2 : sin (1 / 10) <= 1 / 10) by (apply sine_le; lra). assert (S1 : 0 <= sin (1 / 10)) by (apply sin_ge_0; lra). set (y := sin (1 / 10)) in *.
  assert (Y : 0 <= PI / 2 * y <= 1 / 5) by nra. set (d := PI / 2 * y) in *.
  replace (Rltb (1 / 1000000) (Rabs (PI / 2 + d - 1 / 10))) with true by (symmetry; apply Rltb_spec; rewrite Rabs_pos_eq; lra).
  replace (sin (PI / 2 + d)) with (cos d) by (rewrite cos_sin; reflexivity).
  refine (proj1 (loop_diverges_from f d (PI / 2 * cos d) Y _)). pose proof (cos_lower d ltac:(lra)). pose proof (COS_bound d). assert (d * d <= 1 / 25) by nra. assert (49 / 50 <= cos d <= 1) by lra.
    assert (49 / 50 * (PI / 2) <= cos d * (PI / 2) <= 1 * (PI / 2)) by (split; apply Rmult_le_compat_r; lra). lra.
Qed.

(** ** Frames *)
(** Turn about the third axis. *)
Definition rz (a : R) (v : vec) : vec := mk_vec (cos a * vx v - sin a * vy v) (sin a * vx v + cos a * vy v) (vz v).
Lemma rz_dot a u v : dot (rz a u) (rz a v) = dot u v.
Proof.
  unfold dot, rz. cbn [vx vy vz]. pose proof (sin2_cos2 a) as Q. unfold Rsqr in Q.
  transitivity ((sin a * sin a + cos a * cos a) * (vx u * vx v + vy u * vy v) + vz u * vz v); [ring|]. rewrite Q. ring.
Qed.
Lemma wrap_range x : 0 <= wrap_degrees x < 360.
Proof. apply rmod_range. lra. Qed.
Lemma wrap_trig x : cos (deg (wrap_degrees x)) = cos x /\ sin (deg (wrap_degrees x)) = sin x.
Proof.
  destruct (rmod_eqm (360 + degrees x) 360) as [k E]. unfold wrap_degrees. rewrite E. unfold deg.
  assert (Q : (360 + degrees x + IZR k * 360) * (PI / 180) = x + 2 * IZR (k + 1) * PI).
  { rewrite plus_IZR. unfold degrees. field. apply PI_neq0. }
  first [rewrite Q | replace ((360 + degrees x + 360 * IZR k) * (PI / 180)) with (x + 2 * IZR (k + 1) * PI) by (rewrite plus_IZR; unfold degrees; field; apply PI_neq0)].
  rewrite cos_period_Z, sin_period_Z. auto.
Qed.
Lemma wrap_small x : 0 <= x < 2 * PI -> wrap_degrees x = degrees x.
Proof.
  intro H. unfold wrap_degrees. apply rmod_unique; [lra| |].
  - rewrite <- degrees_2PI, <- degrees_0. split; [apply (proj1 (degrees_le _ _)); lra|apply (proj1 (degrees_lt _ _)); lra].
  - replace (360 + degrees x) with (degrees x + 360) by ring. apply eqm_sym. eexists (-1)%Z. simpl. lra.
Qed.

Section Members.
Context {I : Type}.
Variable m : @mog I.
Let i0 := radians (c_inc (mg_orbit m)).
Let om0 := radians (c_raan (mg_orbit m)).
Let dl := mog_delta m.
Hypothesis Hsin : sin dl <> 0.
Variable theta : R.

Lemma l_comp : mog_l m theta = V3 (sin dl * sin theta) (sin dl * cos theta * cos i0 - cos dl * sin i0) (cos dl * cos i0 + sin dl * cos theta * sin i0).
Proof.
  unfold mog_l, mog_l0, v_add, v_scale, v_cross, ax, ay, az. cbn [v_x v_y v_z]. fold i0 dl. f_equal; ring.
Qed.
Lemma t_comp : mog_t m theta = V3 (cos theta) (- (sin theta * cos i0)) (- (sin theta * sin i0)).
Proof.
  unfold mog_t. rewrite l_comp. unfold mog_l0, v_add, v_scale, v_cross, ay, az. cbn [v_x v_y v_z]. fold i0 dl.
  pose proof (sin2_cos2 i0) as Q. unfold Rsqr in Q. f_equal.
  - transitivity (/ sin dl * (sin dl * cos theta * (sin i0 * sin i0 + cos i0 * cos i0))); [ring|]. rewrite Q. field. exact Hsin.
  - field. exact Hsin. - field. exact Hsin.
Qed.
Definition ps := mog_s m.
Lemma s_sq : ps * ps = 1. Proof. unfold ps, mog_s. destruct (mg_clockwise m); ring. Qed.
Definition px := ps * - (cos dl * sin theta).
Definition py := ps * (- (sin dl * sin i0) - cos dl * cos theta * cos i0).
Definition pz := ps * (sin dl * cos i0 - cos dl * cos theta * sin i0).
Lemma p_comp : v_scale (mog_s m) (v_cross (mog_t m theta) (mog_l m theta)) = V3 px py pz.
Proof.
  rewrite t_comp, l_comp. unfold v_scale, v_cross. cbn [v_x v_y v_z]. fold ps. unfold px, py, pz.
  pose proof (sin2_cos2 i0) as Q. pose proof (sin2_cos2 theta) as Q2. unfold Rsqr in Q, Q2. f_equal; f_equal; nsatz.
Qed.
Lemma n_trig : cos (mog_n m theta) = - (ps * sin theta) /\ sin (mog_n m theta) = ps * cos theta.
Proof.
  unfold mog_n. rewrite t_comp. unfold mog_l0, v_add, v_scale, v_cross, v_dot, ax, ay, az. cbn [v_x v_y v_z]. fold i0 ps.
  pose proof (sin2_cos2 i0) as Q. pose proof (sin2_cos2 theta) as Q2. unfold Rsqr in Q, Q2. pose proof s_sq as S2.
  match goal with |- cos (arctan2 ?y ?x) = _ /\ _ => assert (Ey : y = ps * cos theta) by ring; assert (Ex : x = - (ps * sin theta)) by nsatz; rewrite Ey, Ex end.
  apply arctan2_unit. nsatz.
Qed.
Let inc := acos (v_dot (mog_l m theta) az).
Let phi := mog_node m theta.
Lemma lz_val : v_dot (mog_l m theta) az = cos dl * cos i0 + sin dl * cos theta * sin i0.
Proof. rewrite l_comp. unfold v_dot, az. cbn [v_x v_y v_z]. ring. Qed.
Lemma lz_range : -1 <= v_dot (mog_l m theta) az <= 1.
Proof.
  rewrite lz_val. pose proof (sin2_cos2 i0) as Q. pose proof (sin2_cos2 theta) as Q2. pose proof (sin2_cos2 dl) as Q3. unfold Rsqr in Q, Q2, Q3.
  set (lz := cos dl * cos i0 + sin dl * cos theta * sin i0).
  assert (E : (sin dl * sin theta) * (sin dl * sin theta) + (sin dl * cos theta * cos i0 - cos dl * sin i0) * (sin dl * cos theta * cos i0 - cos dl * sin i0) + lz * lz = 1) by (unfold lz; nsatz).
  pose proof (Rle_0_sqr (sin dl * sin theta)). pose proof (Rle_0_sqr (sin dl * cos theta * cos i0 - cos dl * sin i0)). unfold Rsqr in *. nra.
Qed.
Lemma inc_trig : cos inc = cos dl * cos i0 + sin dl * cos theta * sin i0
  /\ sin inc * sin phi = sin dl * sin theta /\ sin inc * cos phi = cos dl * sin i0 - sin dl * cos theta * cos i0 /\ 0 <= inc <= PI.
Proof.
  pose proof lz_range as B. assert (C : cos inc = v_dot (mog_l m theta) az) by (apply cos_acos; exact B). pose proof (acos_bound (v_dot (mog_l m theta) az)) as A. fold inc in A.
  assert (S0 : 0 <= sin inc) by (apply sin_ge_0; lra). rewrite lz_val in C.
  destruct (arctan2_polar (v_dot (mog_l m theta) ax) (v_dot (v_scale (-1) (mog_l m theta)) ay)) as [PC PS].
  fold (mog_node m theta) in PC, PS. fold phi in PC, PS. rewrite l_comp in PC, PS. unfold v_dot, v_scale, ax, ay in PC, PS. cbn [v_x v_y v_z] in PC, PS.
  pose proof (sin2_cos2 i0) as Q. pose proof (sin2_cos2 theta) as Q2. pose proof (sin2_cos2 dl) as Q3. pose proof (sin2_cos2 inc) as Q4. unfold Rsqr in Q, Q2, Q3, Q4.
  match goal with H : _ = sqrt ?e * cos phi |- _ => assert (R2 : sqrt e = sin inc) end.
  { rewrite <- (sqrt_square (sin inc)) by auto. f_equal. rewrite C in Q4. nsatz. }
  rewrite R2 in PC, PS. split; [exact C|]. split; [lra|]. split; [lra|]. lra.
Qed.
(** The perigee direction in the plane of the member. *)
Let w := mog_w m theta.
Lemma w_frame : cos w * cos phi - sin w * (cos inc * sin phi) = px /\ cos w * sin phi + sin w * (cos inc * cos phi) = py /\ sin w * sin inc = pz
  /\ - sin w * cos phi - cos w * (cos inc * sin phi) = ps * cos theta /\ - sin w * sin phi + cos w * (cos inc * cos phi) = - (ps * (sin theta * cos i0))
  /\ cos w * sin inc = - (ps * (sin theta * sin i0)).
Proof.
  destruct inc_trig as (C & S1 & S2 & _). pose proof s_sq as Ss.
  pose proof (sin2_cos2 i0) as Q. pose proof (sin2_cos2 theta) as Q2. pose proof (sin2_cos2 dl) as Q3. pose proof (sin2_cos2 inc) as Q4. pose proof (sin2_cos2 phi) as Q5. unfold Rsqr in Q, Q2, Q3, Q4, Q5.
  assert (PL : px * (sin inc * sin phi) - py * (sin inc * cos phi) + pz * cos inc = 0).
  { rewrite S1, S2, C. unfold px, py, pz. nsatz. }
  assert (P1 : px * px + py * py + pz * pz = 1) by (unfold px, py, pz; nsatz).
  assert (W : cos w = px * cos phi + py * sin phi /\ sin w = - px * (cos inc * sin phi) + py * (cos inc * cos phi) + pz * sin inc).
  { unfold w, mog_w. rewrite p_comp. fold phi. rewrite l_comp. unfold v_add, v_scale, v_cross, v_dot, ax, ay. cbn [v_x v_y v_z].
    match goal with |- cos (arctan2 ?y ?x) = _ /\ _ =>
      assert (Ey : y = - px * (cos inc * sin phi) + py * (cos inc * cos phi) + pz * sin inc);
      [|assert (Ex : x = px * cos phi + py * sin phi) by ring; rewrite Ey, Ex; apply arctan2_unit; nsatz] end.
    rewrite <- C. rewrite <- S1. replace (sin dl * cos theta * cos i0 - cos dl * sin i0) with (- (sin inc * cos phi)) by lra. nsatz. }
  destruct W as [W1 W2].
  assert (A1 : cos w * cos phi - sin w * (cos inc * sin phi) = px) by (rewrite W1, W2; nsatz).
  assert (A2 : cos w * sin phi + sin w * (cos inc * cos phi) = py) by (rewrite W1, W2; nsatz).
  assert (A3 : sin w * sin inc = pz) by (rewrite W1, W2 || rewrite W2; nsatz).
  split; [exact A1|]. split; [exact A2|]. split; [exact A3|].
  (* l x p = s t *)
  assert (B1 : (- (sin inc * cos phi)) * pz - cos inc * py = ps * cos theta).
  { rewrite S2, C. unfold py, pz. nsatz. }
  assert (B2 : cos inc * px - (sin inc * sin phi) * pz = - (ps * (sin theta * cos i0))).
  { rewrite S1, C. unfold px, pz. nsatz. }
  assert (B3 : (sin inc * sin phi) * py - (- (sin inc * cos phi)) * px = - (ps * (sin theta * sin i0))).
  { rewrite S1, S2. unfold px, py. nsatz. }
  rewrite <- B1, <- B2, <- B3, <- A1, <- A2, <- A3. repeat split; nsatz.
Qed.
End Members.
