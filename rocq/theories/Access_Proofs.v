(** Proofs about the maximum access time. *)
From Coq Require Import Reals ZArith List Bool Lia Lra Psatz.
From Verif Require Import Base RBase RFacts Orbit_Model Geom_Model Geom_Spec Geom_Proofs Geom_Proofs2.
Open Scope R_scope.

(** ** Value *)
Lemma access_value h e : - EARTH_MEAN_RADIUS < h ->
  compute_max_access_time h e = Some ((PI - 2 * radians e) / kepler_rate h).
Proof.
  intro H. unfold compute_max_access_time. set (a := EARTH_MEAN_RADIUS + h). assert (Ha : 0 < a) by (unfold a; lra). pose proof MU_pos as M.
  rewrite rdiv_ok by lra. cbn [obind]. assert (Q : 0 < EARTH_MU / a) by (apply Rdiv_lt_0_compat; lra).
  rewrite np_sqrt_ok by lra. cbn [obind]. pose proof (sqrt_lt_R0 _ Q) as S. rewrite rdiv_ok by lra. f_equal.
  destruct (mean_motion_value h H) as [_ N]. apply Rmult_eq_reg_r with (sqrt (EARTH_MU / a) * kepler_rate h); [|nra].
  transitivity (a * (PI - 2 * radians e) * kepler_rate h); [field; lra|].
  transitivity ((PI - 2 * radians e) * sqrt (EARTH_MU / a)); [|field; lra].
  assert (E : a * kepler_rate h = sqrt (EARTH_MU / a)); [|rewrite <- E; ring].
  unfold kepler_rate. fold a. replace a with (sqrt (a * a)) at 1 by (apply sqrt_square; lra).
  rewrite <- sqrt_mult_alt by nra. f_equal. field. lra.
Qed.
Lemma access_props h : - EARTH_MEAN_RADIUS < h ->
  (forall e, e <= 90 -> exists m, compute_max_access_time h e = Some m /\ 0 <= m)
  /\ (forall e e' m m', compute_max_access_time h e = Some m -> compute_max_access_time h e' = Some m' -> (e < e' <-> m' < m))
  /\ (exists p m, compute_orbit_period h = Some p /\ compute_max_access_time h 0 = Some m /\ m = p / 2)
  /\ compute_max_access_time h 90 = Some 0.
Proof.
  intro H. destruct (mean_motion_value h H) as [_ N]. split; [|split; [|split]].
  - intros e He. rewrite access_value by auto. eexists. split; [reflexivity|]. apply Rmult_le_pos; [|apply Rlt_le, Rinv_0_lt_compat; auto].
    assert (radians e <= radians 90) by (apply (proj1 (radians_le _ _)); lra). rewrite radians_90 in H0. lra.
  - intros e e' m m' E E'. rewrite access_value in E, E' by auto. injection E as <-. injection E' as <-. rewrite radians_lt. split; intro L.
    + apply Rmult_lt_compat_r; [apply Rinv_0_lt_compat; auto|lra].
    + apply (Rmult_lt_compat_r (kepler_rate h)) in L; auto. unfold Rdiv in L. rewrite !Rmult_assoc, Rinv_l, !Rmult_1_r in L by lra. lra.
  - exists (2 * PI / kepler_rate h), (PI / kepler_rate h). split; [|split].
    + unfold compute_orbit_period. replace (Rltb 0 (EARTH_MEAN_RADIUS + h)) with true by (symmetry; apply Rltb_spec; lra). reflexivity.
    + rewrite access_value by auto. f_equal. rewrite radians_0. field. lra.
    + field. lra.
  - rewrite access_value by auto. f_equal. rewrite radians_90. field. lra.
Qed.

(** ** Angles between directions *)
Lemma gram u v w : unit u -> unit v -> unit w ->
  (dot u w - dot u v * dot v w) * (dot u w - dot u v * dot v w) <= (1 - dot u v * dot u v) * (1 - dot v w * dot v w).
Proof.
  unfold unit, dot. destruct u as [u1 u2 u3], v as [v1 v2 v3], w as [w1 w2 w3]. cbn [vx vy vz]. intros U V W.
  set (det := u1 * (v2 * w3 - v3 * w2) - u2 * (v1 * w3 - v3 * w1) + u3 * (v1 * w2 - v2 * w1)).
  pose proof (Rle_0_sqr det) as D. unfold Rsqr in D.
  assert (G : det * det = (u1*u1+u2*u2+u3*u3) * (v1*v1+v2*v2+v3*v3) * (w1*w1+w2*w2+w3*w3)
     + 2 * (u1*v1+u2*v2+u3*v3) * (v1*w1+v2*w2+v3*w3) * (u1*w1+u2*w2+u3*w3)
     - (u1*u1+u2*u2+u3*u3) * ((v1*w1+v2*w2+v3*w3)*(v1*w1+v2*w2+v3*w3))
     - (v1*v1+v2*v2+v3*v3) * ((u1*w1+u2*w2+u3*w3)*(u1*w1+u2*w2+u3*w3))
     - (w1*w1+w2*w2+w3*w3) * ((u1*v1+u2*v2+u3*v3)*(u1*v1+u2*v2+u3*v3))) by (unfold det; ring).
  rewrite U, V, W in G. nra.
Qed.
Lemma dot_bound u v : unit u -> unit v -> -1 <= dot u v <= 1.
Proof.
  unfold unit, dot. destruct u as [u1 u2 u3], v as [v1 v2 v3]. cbn [vx vy vz]. intros U V.
  pose proof (Rle_0_sqr (u1 - v1)). pose proof (Rle_0_sqr (u2 - v2)). pose proof (Rle_0_sqr (u3 - v3)).
  pose proof (Rle_0_sqr (u1 + v1)). pose proof (Rle_0_sqr (u2 + v2)). pose proof (Rle_0_sqr (u3 + v3)). unfold Rsqr in *. nra.
Qed.
Lemma dot_comm u v : dot u v = dot v u. Proof. unfold dot. ring. Qed.
Lemma acos_antitone x y : -1 <= x -> x <= y -> y <= 1 -> acos y <= acos x.
Proof.
  intros. pose proof (acos_bound x). pose proof (acos_bound y). destruct (Rle_dec (acos y) (acos x)); auto.
  assert (cos (acos y) < cos (acos x)) by (apply cos_decreasing_1; lra). rewrite !cos_acos in H4 by lra. lra.
Qed.
Lemma triangle u v w : unit u -> unit v -> unit w -> acos (dot u w) <= acos (dot u v) + acos (dot v w).
Proof.
  intros U V W. pose proof (gram u v w U V W) as G. pose proof (dot_bound u v U V) as B1. pose proof (dot_bound v w V W) as B2. pose proof (dot_bound u w U W) as B3.
  set (a := acos (dot u v)). set (b := acos (dot v w)). pose proof (acos_bound (dot u v)) as A1. pose proof (acos_bound (dot v w)) as A2. fold a in A1. fold b in A2.
  pose proof (acos_bound (dot u w)) as A3. destruct (Rle_dec PI (a + b)) as [|N]; [lra|].
  assert (Ca : cos a = dot u v) by (apply cos_acos; lra). assert (Cb : cos b = dot v w) by (apply cos_acos; lra).
  assert (Sa : 0 <= sin a) by (apply sin_ge_0; lra). assert (Sb : 0 <= sin b) by (apply sin_ge_0; lra).
  pose proof (sin2_cos2 a) as Pa. pose proof (sin2_cos2 b) as Pb. unfold Rsqr in Pa, Pb.
  rewrite <- Ca, <- Cb in G. set (c := dot u w) in *.
  assert (K : cos (a + b) <= c).
  { rewrite cos_plus. set (x := c - cos a * cos b) in *. assert (XX : x * x <= (sin a * sin b) * (sin a * sin b)).
    { replace ((sin a * sin b) * (sin a * sin b)) with ((sin a * sin a) * (sin b * sin b)) by ring.
      replace (sin a * sin a) with (1 - cos a * cos a) by lra. replace (sin b * sin b) with (1 - cos b * cos b) by lra. exact G. }
    assert (0 <= sin a * sin b) by (apply Rmult_le_pos; auto). assert (- (sin a * sin b) <= x) by nra. unfold x in *. lra. }
  rewrite <- (acos_cos (a + b)) by lra. apply acos_antitone; [apply COS_bound|exact K|lra].
Qed.

(** ** Visibility *)
(** Seen at elevation at least [eps], the satellite is within the visibility circle. *)
Lemma view_angle r eps c : 0 < r < 1 -> 0 <= eps <= PI / 2 -> c <= 1 ->
  sin eps * sqrt (1 - 2 * r * c + r * r) <= c - r -> sin (eps + asin (r * cos eps)) <= c.
Proof.
  intros Hr He Hc H. pose proof PI_RGT_0 as P.
  assert (Se : 0 <= sin eps) by (apply sin_ge_0; lra). assert (Ce : 0 <= cos eps <= 1) by (split; [apply cos_ge_0; lra|apply COS_bound]).
  pose proof (sin2_cos2 eps) as Pe. unfold Rsqr in Pe.
  set (eta := asin (r * cos eps)). assert (RC : 0 <= r * cos eps < 1) by nra.
  assert (Sn : sin eta = r * cos eps) by (apply sin_asin; lra). pose proof (asin_bound_lt (r * cos eps) ltac:(lra)) as Bn. fold eta in Bn.
  assert (Cn : 0 < cos eta) by (apply cos_gt_0; lra). pose proof (sin2_cos2 eta) as Pn. unfold Rsqr in Pn.
  assert (D : 0 < 1 - 2 * r * c + r * r) by nra. set (d := sqrt (1 - 2 * r * c + r * r)) in *.
  assert (Dd : d * d = 1 - 2 * r * c + r * r) by (apply sqrt_sqrt; lra). assert (D0 : 0 < d) by (apply sqrt_lt_R0; lra).
  rewrite sin_plus, Sn. set (x := c - r). assert (X0 : 0 <= x) by (unfold x; nra).
  assert (X2 : sin eps * sin eps * (1 - r * r - 2 * r * x) <= x * x).
  { assert ((sin eps * d) * (sin eps * d) <= x * x) by (apply Rmult_le_compat; try nra; exact H).
    replace ((sin eps * d) * (sin eps * d)) with (sin eps * sin eps * (d * d)) in H0 by ring. rewrite Dd in H0. unfold x in *. nra. }
  assert (E : sin eps * cos eta + cos eps * (r * cos eps) = r + (sin eps * cos eta - r * (sin eps * sin eps))) by nra.
  rewrite E. set (x0 := sin eps * cos eta - r * (sin eps * sin eps)). assert (x0 <= x); [|unfold x in *; lra].
  assert (F : (x - x0) * (x + r * (sin eps * sin eps) + sin eps * cos eta) >= 0).
  { unfold x0. replace ((x - (sin eps * cos eta - r * (sin eps * sin eps))) * (x + r * (sin eps * sin eps) + sin eps * cos eta))
      with ((x + r * (sin eps * sin eps)) * (x + r * (sin eps * sin eps)) - (sin eps * sin eps) * (cos eta * cos eta)) by ring.
    replace (cos eta * cos eta) with (1 - r * r * (cos eps * cos eps)) by (rewrite Sn in Pn; nra).
    replace (cos eps * cos eps) with (1 - sin eps * sin eps) by lra. nra. }
  destruct (Rle_dec x0 x) as [|N]; auto. exfalso. apply Rnot_le_lt in N.
  assert (Y : 0 <= x + r * (sin eps * sin eps) + sin eps * cos eta).
  { assert (0 <= sin eps * cos eta) by (apply Rmult_le_pos; lra). assert (0 <= r * (sin eps * sin eps)) by (apply Rmult_le_pos; [lra|nra]). lra. }
  assert (Z : x + r * (sin eps * sin eps) + sin eps * cos eta <= 0) by nra.
  assert (0 <= sin eps * cos eta) by (apply Rmult_le_pos; lra). assert (0 <= r * (sin eps * sin eps)) by (apply Rmult_le_pos; [lra|nra]).
  assert (sin eps * cos eta = 0) by lra. assert (r * (sin eps * sin eps) = 0) by lra. unfold x0 in N. lra.
Qed.
Lemma sqrt_sq_mult k x : 0 <= k -> 0 <= x -> sqrt (k * k * x) = k * sqrt x.
Proof. intros Hk Hx. rewrite sqrt_mult by nra. now rewrite sqrt_square. Qed.
Lemma in_view_angle a R0 eps u v : 0 < R0 < a -> 0 <= eps <= PI / 2 -> unit u -> unit v ->
  in_view eps (scale a u) (scale R0 v) -> acos (dot u v) <= PI / 2 - eps - asin (R0 / a * cos eps).
Proof.
  intros Hr He U V H. pose proof (dot_bound u v U V) as B. pose proof PI_RGT_0 as P. set (r := R0 / a).
  assert (Hr1 : 0 < r < 1).
  { unfold r. split; [apply Rdiv_lt_0_compat; lra|]. apply Rmult_lt_reg_r with a; [lra|]. unfold Rdiv. rewrite Rmult_assoc, Rinv_l; lra. }
  assert (RA : R0 = r * a) by (unfold r; field; lra).
  assert (Ce : 0 <= cos eps <= 1) by (split; [apply cos_ge_0; lra|apply COS_bound]).
  assert (K : sin (eps + asin (r * cos eps)) <= dot u v).
  { apply view_angle; auto; try lra. unfold in_view in H.
    assert (E1 : dot (sub (scale a u) (scale R0 v)) (sub (scale a u) (scale R0 v)) = a * a * (1 - 2 * r * dot u v + r * r)).
    { transitivity (a * a * dot u u - 2 * a * R0 * dot u v + R0 * R0 * dot v v).
      - unfold dot, sub, scale. cbn [vx vy vz]. ring. - unfold unit in U, V. rewrite U, V, RA. ring. }
    assert (E2 : dot (scale R0 v) (scale R0 v) = R0 * R0).
    { transitivity (R0 * R0 * dot v v); [unfold dot, scale; cbn [vx vy vz]; ring|]. unfold unit in V. rewrite V. ring. }
    assert (E3 : dot (sub (scale a u) (scale R0 v)) (scale R0 v) = a * R0 * (dot u v - r)).
    { transitivity (a * R0 * dot u v - R0 * R0 * dot v v); [unfold dot, sub, scale; cbn [vx vy vz]; ring|]. unfold unit in V. rewrite V, RA. ring. }
    rewrite E1, E2, E3 in H. rewrite sqrt_sq_mult, sqrt_square in H by nra.
    apply Rmult_le_reg_r with (a * R0); [apply Rmult_lt_0_compat; lra|].
    rewrite (Rmult_comm (dot u v - r)). eapply Rle_trans; [|exact H]. right. ring. }
  set (eta := asin (r * cos eps)) in *. pose proof (asin_nonneg (r * cos eps) ltac:(nra)) as N. fold eta in N.
  assert (NE : eta <= PI / 2 - eps).
  { unfold eta. rewrite <- (asin_sin (PI / 2 - eps)) by lra. rewrite sin_shift. apply asin_le; nra. }
  rewrite <- (acos_cos (PI / 2 - eps - eta)) by lra. 
  replace (PI / 2 - eps - eta) with (PI / 2 - (eps + eta)) by lra. rewrite cos_shift.
  apply acos_antitone; [apply SIN_bound|exact K|lra].
Qed.

(** ** A pass cannot outlast the bound below 10,000 km *)
Definition odir n e1 e2 t := orbit_pos 1 n e1 e2 t.
Definition gdir w p t := ground_pos 1 w p t.
Lemma orbit_scale a n e1 e2 t : orbit_pos a n e1 e2 t = scale a (odir n e1 e2 t).
Proof. unfold orbit_pos, odir, orbit_pos, add, scale. cbn [vx vy vz]. f_equal; ring. Qed.
Lemma ground_scale r w p t : ground_pos r w p t = scale r (gdir w p t).
Proof. unfold ground_pos, gdir, ground_pos, scale. cbn [vx vy vz]. f_equal; ring. Qed.
Lemma odir_dot n e1 e2 t t' : unit e1 -> unit e2 -> dot e1 e2 = 0 -> dot (odir n e1 e2 t) (odir n e1 e2 t') = cos (n * (t' - t)).
Proof.
  intros U1 U2 O. unfold unit in *. unfold odir, orbit_pos.
  transitivity (cos (n * t) * cos (n * t') * dot e1 e1 + (cos (n * t) * sin (n * t') + sin (n * t) * cos (n * t')) * dot e1 e2 + sin (n * t) * sin (n * t') * dot e2 e2).
  - unfold dot, add, scale. cbn [vx vy vz]. ring.
  - rewrite U1, U2, O. replace (n * (t' - t)) with (n * t' - n * t) by ring. rewrite cos_minus. ring.
Qed.
Lemma odir_unit n e1 e2 t : unit e1 -> unit e2 -> dot e1 e2 = 0 -> unit (odir n e1 e2 t).
Proof. intros. unfold unit. rewrite odir_dot by auto. replace (n * (t - t)) with 0 by ring. apply cos_0. Qed.
Lemma gdir_unit w p t : unit p -> unit (gdir w p t).
Proof.
  unfold unit, gdir, ground_pos, dot, scale. cbn [vx vy vz]. intro U. pose proof (sin2_cos2 (w * t)) as Q. unfold Rsqr in Q.
  transitivity ((sin (w * t) * sin (w * t) + cos (w * t) * cos (w * t)) * (vx p * vx p + vy p * vy p) + vz p * vz p); [ring|]. rewrite Q. lra.
Qed.
Lemma gdir_dot w p t t' : unit p -> cos (w * (t' - t)) <= dot (gdir w p t) (gdir w p t').
Proof.
  unfold unit, gdir, ground_pos, dot, scale. cbn [vx vy vz]. intro U.
  replace (1 * (cos (w * t) * vx p - sin (w * t) * vy p) * (1 * (cos (w * t') * vx p - sin (w * t') * vy p))
    + 1 * (sin (w * t) * vx p + cos (w * t) * vy p) * (1 * (sin (w * t') * vx p + cos (w * t') * vy p)) + 1 * vz p * (1 * vz p))
   with ((cos (w * t') * cos (w * t) + sin (w * t') * sin (w * t)) * (vx p * vx p + vy p * vy p) + vz p * vz p) by ring.
  replace (w * (t' - t)) with (w * t' - w * t) by ring. rewrite <- cos_minus. set (c := cos (w * t' - w * t)).
  pose proof (COS_bound (w * t' - w * t)) as B. fold c in B. replace (vx p * vx p + vy p * vy p) with (1 - vz p * vz p) by lra. nra.
Qed.
(** Between two times of one pass, at most half an orbit apart. *)
Lemma pass_arc a R0 n w eps e1 e2 p t1 t2 : 0 < R0 < a -> 0 <= eps <= PI / 2 -> 0 < w < n -> unit e1 -> unit e2 -> dot e1 e2 = 0 -> unit p ->
  0 <= t2 - t1 -> n * (t2 - t1) <= PI ->
  in_view eps (orbit_pos a n e1 e2 t1) (ground_pos R0 w p t1) -> in_view eps (orbit_pos a n e1 e2 t2) (ground_pos R0 w p t2) ->
  (n - w) * (t2 - t1) <= 2 * (PI / 2 - eps - asin (R0 / a * cos eps)).
Proof.
  intros Hr He Hw U1 U2 O Up Ht Hn V1 V2. set (d := t2 - t1) in *. rewrite orbit_scale, ground_scale in V1, V2.
  pose proof (odir_unit n e1 e2 t1 U1 U2 O) as S1. pose proof (odir_unit n e1 e2 t2 U1 U2 O) as S2.
  pose proof (gdir_unit w p t1 Up) as G1. pose proof (gdir_unit w p t2 Up) as G2.
  apply (in_view_angle a R0 eps) in V1; auto. apply (in_view_angle a R0 eps) in V2; auto.
  pose proof (triangle _ _ _ S1 G1 S2) as T1. pose proof (triangle _ _ _ G1 G2 S2) as T2. rewrite (dot_comm (gdir w p t2)) in T2.
  assert (A : acos (dot (odir n e1 e2 t1) (odir n e1 e2 t2)) = n * d).
  { rewrite odir_dot by auto. fold d. apply acos_cos. split; [apply Rmult_le_pos; lra|lra]. }
  assert (B : acos (dot (gdir w p t1) (gdir w p t2)) <= w * d).
  { assert (w * d <= n * d) by (apply Rmult_le_compat_r; lra). assert (0 <= w * d) by (apply Rmult_le_pos; lra).
    rewrite <- (acos_cos (w * d)) by lra. apply acos_antitone; [apply COS_bound|apply gdir_dot; auto|apply dot_bound; auto]. }
  lra.
Qed.
Lemma sine_chord x : 0 <= x <= PI / 2 -> 2 / PI * x <= sin x.
Proof.
  intro H. pose proof PI_RGT_0 as P. destruct (Req_dec x 0) as [->|N]; [rewrite sin_0; lra|].
  (* concavity through asin_spread-free argument: derivative comparison by contradiction on the half-angle chain is avoided
     by the mean value theorem on [0,x] and [x,PI/2] *)
  destruct (Req_dec x (PI / 2)) as [->|N2]; [rewrite sin_PI2; right; field; lra|].
  destruct (MVT_cor2 sin cos 0 x ltac:(lra)) as [c1 [E1 C1]]; [intros; apply derivable_pt_lim_sin|].
  destruct (MVT_cor2 sin cos x (PI / 2) ltac:(lra)) as [c2 [E2 C2]]; [intros; apply derivable_pt_lim_sin|].
  rewrite sin_0 in E1. rewrite sin_PI2 in E2.
  assert (K : cos c2 <= cos c1) by (apply cos_decr_1; lra).
  assert (S0 : sin x = cos c1 * x) by lra.
  assert (M : (1 - sin x) * x <= sin x * (PI / 2 - x)).
  { rewrite E2, S0. replace (cos c2 * (PI / 2 - x) * x) with (cos c2 * ((PI / 2 - x) * x)) by ring.
    replace (cos c1 * x * (PI / 2 - x)) with (cos c1 * ((PI / 2 - x) * x)) by ring. apply Rmult_le_compat_r; [nra|exact K]. }
  apply Rmult_le_reg_r with (PI / 2); [lra|]. replace (2 / PI * x * (PI / 2)) with x by (field; lra). nra.
Qed.
Lemma sine_le x : 0 <= x -> sin x <= x.
Proof.
  intro H. destruct H as [H|<-]; [apply Rlt_le, sin_lt_x; exact H|rewrite sin_0; lra].
Qed.
Lemma pass_bound_general a R0 n w eps e1 e2 p t1 t2 : 0 < R0 < a -> 0 <= eps <= PI / 2 -> 0 < w -> PI * w < 2 * (R0 / a) * n ->
  unit e1 -> unit e2 -> dot e1 e2 = 0 -> unit p ->
  pass eps (orbit_pos a n e1 e2) (ground_pos R0 w p) t1 t2 -> t2 - t1 <= (PI - 2 * eps) / n.
Proof.
  intros Hr He Hw HK U1 U2 O Up [Ht V]. pose proof PI_RGT_0 as P. set (r := R0 / a) in *.
  assert (Hr1 : 0 < r < 1).
  { unfold r. split; [apply Rdiv_lt_0_compat; lra|]. apply Rmult_lt_reg_r with a; [lra|]. unfold Rdiv. rewrite Rmult_assoc, Rinv_l; lra. }
  assert (P2 : 2 < PI) by (pose proof PI2_1; lra).
  assert (Hn : 0 < n).
  { assert (0 < PI * w) by (apply Rmult_lt_0_compat; lra). destruct (Rlt_dec 0 n); auto. exfalso. nra. }
  assert (Hwn : w < n) by nra.
  destruct (Rle_dec (t2 - t1) ((PI - 2 * eps) / n)) as [|N]; auto. exfalso. apply Rnot_le_lt in N.
  set (m := (PI - 2 * eps) / n) in *. set (d := Rmin (t2 - t1) (PI / n)).
  assert (M0 : 0 <= m) by (unfold m; apply Rmult_le_pos; [lra|apply Rlt_le, Rinv_0_lt_compat; lra]).
  assert (Mn : n * m = PI - 2 * eps) by (unfold m; field; lra).
  assert (Pn : n * (PI / n) = PI) by (field; lra).
  assert (MP : m <= PI / n) by (unfold m; apply Rmult_le_compat_r; [apply Rlt_le, Rinv_0_lt_compat; lra|lra]).
  assert (Dm : m <= d) by (unfold d; apply Rmin_glb; lra).
  assert (D2 : d <= t2 - t1) by apply Rmin_l. assert (D3 : d <= PI / n) by apply Rmin_r.
  assert (PN : 0 < PI / n) by (apply Rdiv_lt_0_compat; lra).
  assert (Dp : 0 < d) by (unfold d; apply Rmin_glb_lt; lra).
  assert (Dn : n * d <= PI) by (rewrite <- Pn; apply Rmult_le_compat_l; lra).
  assert (A : (n - w) * (t1 + d - t1) <= 2 * (PI / 2 - eps - asin (R0 / a * cos eps))).
  { apply (pass_arc a R0 n w eps e1 e2 p); auto; try lra.
    all: apply V; lra. }
  replace (t1 + d - t1) with d in A by lra. fold r in A.
  assert (Ce : 0 <= cos eps <= 1) by (split; [apply cos_ge_0; lra|apply COS_bound]).
  set (eta := asin (r * cos eps)) in *. set (c := PI / 2 - eps) in *.
  assert (E0 : r * (2 / PI * c) <= eta).
  { apply Rle_trans with (r * cos eps).
    - apply Rmult_le_compat_l; [lra|]. rewrite <- sin_shift. fold c. apply sine_chord. unfold c. lra.
    - assert (S : sin eta = r * cos eps) by (apply sin_asin; nra). rewrite <- S. apply sine_le. apply asin_nonneg. nra. }
  assert (C0 : 0 <= c) by (unfold c; lra).
  (* (n - w) d <= 2 (c - eta), n m = 2 c *)
  assert (Mc : n * m = 2 * c) by (unfold c; lra).
  destruct C0 as [C0|C0].
  - assert (W1 : (n - w) * m <= 2 * (c - eta)) by (apply Rle_trans with ((n - w) * d); [apply Rmult_le_compat_l; lra|lra]).
    assert (W2 : 2 * eta <= w * m) by nra.
    assert (W3 : n * (2 * eta) <= w * (2 * c)) by (rewrite <- Mc; replace (w * (n * m)) with (n * (w * m)) by ring; apply Rmult_le_compat_l; lra).
    assert (W4 : n * (r * (2 / PI * c)) <= n * eta) by (apply Rmult_le_compat_l; lra).
    assert (W5 : PI * (n * (r * (2 / PI * c))) = 2 * r * n * c) by (field; lra).
    assert (W6 : PI * (n * (r * (2 / PI * c))) <= PI * (w * c)) by (apply Rmult_le_compat_l; nra).
    rewrite W5 in W6. replace (PI * (w * c)) with (PI * w * c) in W6 by ring.
    assert (PI * w * c < 2 * r * n * c) by (apply Rmult_lt_compat_r; lra). lra.
  - assert (0 <= eta) by (apply asin_nonneg; nra). assert (0 < (n - w) * d) by (apply Rmult_lt_0_compat; lra). lra.
Qed.
Lemma low_orbit_rates h : 0 < h <= 10000000 -> PI * earth_rate < 2 * (EARTH_MEAN_RADIUS / (EARTH_MEAN_RADIUS + h)) * kepler_rate h.
Proof.
  intro H. pose proof EMR_bounds as B. pose proof rate_bounds as W. pose proof PI_tight as P.
  assert (R1 : 38916 / 100000 < EARTH_MEAN_RADIUS / (EARTH_MEAN_RADIUS + h)).
  { apply Rmult_lt_reg_r with (EARTH_MEAN_RADIUS + h); [lra|]. replace (EARTH_MEAN_RADIUS / (EARTH_MEAN_RADIUS + h) * (EARTH_MEAN_RADIUS + h)) with EARTH_MEAN_RADIUS by (field; lra). lra. }
  assert (N : 3013 / 10000000 < kepler_rate h).
  { apply kepler_rate_lower; try lra. apply Rle_lt_trans with (3013 / 10000000 * (3013 / 10000000) * 16371009 ^ 3).
    - apply Rmult_le_compat_l; [lra|]. apply cube_le; lra. - unfold EARTH_MU. lra. }
  apply Rlt_trans with (31417 / 10000 * (7293 / 100000000)); [apply Rmult_gt_0_lt_compat; lra|].
  apply Rlt_trans with (2 * (38916 / 100000) * (3013 / 10000000)); [lra|]. apply Rmult_gt_0_lt_compat; lra.
Qed.
Lemma access_bound_lemma h e m e1 e2 p t1 t2 : 0 < h <= 10000000 -> 0 <= e <= 90 -> compute_max_access_time h e = Some m ->
  unit e1 -> unit e2 -> dot e1 e2 = 0 -> unit p ->
  pass (e * (PI / 180)) (orbit_pos (EARTH_MEAN_RADIUS + h) (kepler_rate h) e1 e2) (ground_pos EARTH_MEAN_RADIUS earth_rate p) t1 t2 ->
  t2 - t1 <= m.
Proof.
  intros H He Em U1 U2 O Up V. pose proof EMR_bounds as B. rewrite access_value in Em by lra. injection Em as <-. fold (radians e) in V.
  assert (0 <= radians e <= PI / 2).
  { rewrite <- radians_90, <- radians_0. split; apply (proj1 (radians_le _ _)); lra. }
  apply (pass_bound_general (EARTH_MEAN_RADIUS + h) EARTH_MEAN_RADIUS (kepler_rate h) earth_rate (radians e) e1 e2 p t1 t2); auto; try lra.
  - apply rate_pos. - apply low_orbit_rates; auto.
Qed.
(** ** The bound fails for navigation-satellite altitudes *)
Definition ex := mk_vec 1 0 0.
Definition ey := mk_vec 0 1 0.
Lemma access_refuted_lemma : exists h m t1 t2 e1 e2 p, 0 < h /\ unit e1 /\ unit e2 /\ dot e1 e2 = 0 /\ unit p
  /\ compute_max_access_time h 0 = Some m
  /\ pass 0 (orbit_pos (EARTH_MEAN_RADIUS + h) (kepler_rate h) e1 e2) (ground_pos EARTH_MEAN_RADIUS earth_rate p) t1 t2
  /\ m < t2 - t1.
Proof.
  pose proof EMR_bounds as B. pose proof rate_bounds as W. pose proof PI_tight as P.
  set (h := 20200000). set (n := kepler_rate h).
  assert (N1 : 14 / 100000 < n).
  { apply kepler_rate_lower; unfold h; try lra. apply Rle_lt_trans with (14 / 100000 * (14 / 100000) * 26571009 ^ 3).
    - apply Rmult_le_compat_l; [lra|]. apply cube_le; lra. - unfold EARTH_MU. lra. }
  assert (N2 : n < 15 / 100000).
  { apply kepler_rate_upper; unfold h; try lra. apply Rlt_le_trans with (15 / 100000 * (15 / 100000) * 26571008 ^ 3).
    - unfold EARTH_MU. lra. - apply Rmult_le_compat_l; [lra|]. apply cube_le; lra. }
  set (T := PI / 3 / (n - earth_rate)).
  exists h, (PI / n), (- T), T, ex, ey, ex.
  assert (D : 0 < n - earth_rate) by lra. assert (T0 : 0 < T) by (unfold T; apply Rdiv_lt_0_compat; lra).
  split; [unfold h; lra|]. split; [unfold unit, dot, ex; simpl; ring|]. split; [unfold unit, dot, ey; simpl; ring|].
  split; [unfold dot, ex, ey; simpl; ring|]. split; [unfold unit, dot, ex; simpl; ring|]. split; [|split].
  - rewrite access_value by (unfold h; lra). f_equal. rewrite radians_0. fold n. field. lra.
  - split; [lra|]. intros t Ht. unfold in_view. rewrite sin_0, !Rmult_0_l. fold n.
    unfold orbit_pos, ground_pos, sub, add, scale, dot, ex, ey. cbn [vx vy vz].
    set (a := EARTH_MEAN_RADIUS + h). set (R0 := EARTH_MEAN_RADIUS) in *.
    assert (C : 1 / 2 <= cos ((n - earth_rate) * t)).
    { rewrite <- cos_PI3. assert (TT : (n - earth_rate) * T = PI / 3) by (unfold T; field; lra).
      assert (X : - (PI / 3) <= (n - earth_rate) * t <= PI / 3).
      { rewrite <- TT. split; [replace (- ((n - earth_rate) * T)) with ((n - earth_rate) * - T) by ring|]; apply Rmult_le_compat_l; lra. }
      destruct (Rle_dec 0 ((n - earth_rate) * t)).
      - apply cos_decr_1; lra.
      - rewrite <- (cos_neg ((n - earth_rate) * t)). apply cos_decr_1; lra. }
    replace ((n - earth_rate) * t) with (n * t - earth_rate * t) in C by ring. rewrite cos_minus in C.
    pose proof (sin2_cos2 (earth_rate * t)) as Q. unfold Rsqr in Q.
    set (cn := cos (n * t)) in *. set (sn := sin (n * t)) in *. set (cw := cos (earth_rate * t)) in *. set (sw := sin (earth_rate * t)) in *.
    match goal with |- _ <= ?X => replace X with (R0 * (a * (cn * cw + sn * sw) - R0 * (sw * sw + cw * cw))) by ring end.
    rewrite Q. apply Rmult_le_pos; [lra|]. assert (a * (1 / 2) <= a * (cn * cw + sn * sw)) by (apply Rmult_le_compat_l; [unfold a, h; lra|lra]).
    unfold a, h in *. lra.
  - replace (T - - T) with (2 * T) by lra. unfold T. apply Rmult_lt_reg_r with (n * (n - earth_rate)); [apply Rmult_lt_0_compat; lra|].
    replace (PI / n * (n * (n - earth_rate))) with (PI * (n - earth_rate)) by (field; lra).
    replace (2 * (PI / 3 / (n - earth_rate)) * (n * (n - earth_rate))) with (PI * (2 / 3 * n)) by (field; lra).
    apply Rmult_lt_compat_l; lra.
Qed.
Lemma short_pass : exists t, 0 < t /\
  pass 0 (orbit_pos (EARTH_MEAN_RADIUS + 400000) (kepler_rate 400000) ex ey) (ground_pos EARTH_MEAN_RADIUS earth_rate ex) 0 t.
Proof.
  pose proof EMR_bounds as B. pose proof rate_bounds as W. pose proof PI_tight as P. set (n := kepler_rate 400000).
  assert (N1 : 1 / 1000 < n).
  { apply kepler_rate_lower; try lra. apply Rle_lt_trans with (1 / 1000 * (1 / 1000) * 6771009 ^ 3).
    - apply Rmult_le_compat_l; [lra|]. apply cube_le; lra. - unfold EARTH_MU. lra. }
  set (T := 1 / 5 / (n - earth_rate)). exists T.
  assert (D : 0 < n - earth_rate) by lra. assert (T0 : 0 < T) by (unfold T; apply Rdiv_lt_0_compat; lra).
  split; auto. split; [lra|]. intros t Ht. unfold in_view. rewrite sin_0, !Rmult_0_l. fold n.
  unfold orbit_pos, ground_pos, sub, add, scale, dot, ex, ey. cbn [vx vy vz].
  set (a := EARTH_MEAN_RADIUS + 400000). set (R0 := EARTH_MEAN_RADIUS) in *.
  assert (C : 95 / 100 <= cos ((n - earth_rate) * t)).
  { assert (TT : (n - earth_rate) * T = 1 / 5) by (unfold T; field; lra).
    assert (X : 0 <= (n - earth_rate) * t <= 1 / 5) by (rewrite <- TT; split; [apply Rmult_le_pos; lra|apply Rmult_le_compat_l; lra]).
    set (x := (n - earth_rate) * t) in *. pose proof (sin2_cos2 x) as Q. unfold Rsqr in Q. pose proof (sine_le x ltac:(lra)) as S1.
    assert (0 <= sin x) by (apply sin_ge_0; lra). assert (0 <= cos x) by (apply cos_ge_0; lra). nra. }
  replace ((n - earth_rate) * t) with (n * t - earth_rate * t) in C by ring. rewrite cos_minus in C.
  pose proof (sin2_cos2 (earth_rate * t)) as Q. unfold Rsqr in Q.
  set (cn := cos (n * t)) in *. set (sn := sin (n * t)) in *. set (cw := cos (earth_rate * t)) in *. set (sw := sin (earth_rate * t)) in *.
  match goal with |- _ <= ?X => replace X with (R0 * (a * (cn * cw + sn * sw) - R0 * (sw * sw + cw * cw))) by ring end.
  rewrite Q. apply Rmult_le_pos; [lra|]. assert (a * (95 / 100) <= a * (cn * cw + sn * sw)) by (apply Rmult_le_compat_l; [unfold a; lra|lra]).
  unfold a in *. lra.
Qed.
