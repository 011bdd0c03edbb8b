(** Proofs about the lines of sight and the limb points of footprints. *)
From Coq Require Import Reals ZArith List Bool Lra Lia Psatz.
From Verif Require Import Base BaseFacts RBase RFacts RTrig RTrigFacts Mog_Model Geom_Spec Instr_Model Instr_Spec Instr_Proofs Instr_Proofs2 Poly_Model Poly_Spec Poly_Proofs Poly_Proofs2 Foot_Model Foot_Spec Foot_Proofs.
Import ListNotations.
Open Scope R_scope.

(** ** The plane of the limb points *)
Definition limb_normal (pos vel : v3) (angle : R) : v3 :=
  v_add (v_scale (sin (PI / 2 + angle)) (ray_v vel)) (v_scale (cos (PI / 2 + angle)) (ray_n pos vel)).
Lemma normal_eq pos vel angle : tov (limb_normal pos vel angle) = add (scale (cos angle) (forward vel)) (scale (- sin angle) (left pos vel)).
Proof.
  unfold limb_normal. rewrite tov_add, !tov_scale, v_forward, n_left. rewrite sin_plus, cos_plus, sin_PI2, cos_PI2.
  f_equal; f_equal; ring.
Qed.
Lemma dot_add_l u v w : dot (add u v) w = dot u w + dot v w. Proof. unfold dot, add. cbn. ring. Qed.
Lemma dot_scale_l k u w : dot (scale k u) w = k * dot u w. Proof. unfold dot, scale. cbn. ring. Qed.
Lemma dot_add_r u v w : dot w (add u v) = dot w u + dot w v. Proof. unfold dot, add. cbn. ring. Qed.
Lemma dot_scale_r k u w : dot w (scale k u) = k * dot w u. Proof. unfold dot, scale. cbn. ring. Qed.
Lemma dot_zero w : dot (mk_vec 0 0 0) w = 0. Proof. unfold dot. cbn. ring. Qed.
Lemma dot_self_zero w : dot w w = 0 -> w = mk_vec 0 0 0.
Proof. destruct w as [x y z]. unfold dot. cbn. intro H. f_equal; nra. Qed.
Lemma pos_down pos vel : level pos vel -> tov pos = scale (- norm (tov pos)) (down pos).
Proof.
  intros (N & _). pose proof (norm_pos _ N) as P. unfold down, up, direction. rewrite !scale_scale.
  replace (- norm (tov pos) * -1 * / norm (tov pos)) with 1 by (field; lra). unfold scale. destruct (tov pos) as [x y z]. cbn [vx vy vz]. now rewrite !Rmult_1_l.
Qed.
Lemma normal_unit pos vel angle : level pos vel -> dot (tov (limb_normal pos vel angle)) (tov (limb_normal pos vel angle)) = 1.
Proof.
  intro L. destruct (frame_lemma pos vel L) as (D1 & F1 & L1 & DF & DL & FL). rewrite normal_eq, !dot_add_l, !dot_scale_l, !dot_add_r, !dot_scale_r.
  rewrite F1, L1, FL, (dot_comm (left pos vel)), FL. pose proof (sin2_cos2 angle) as S. unfold Rsqr in S. lra.
Qed.
Lemma normal_pos pos vel angle : level pos vel -> dot (tov (limb_normal pos vel angle)) (tov pos) = 0.
Proof.
  intro L. destruct (frame_lemma pos vel L) as (D1 & F1 & L1 & DF & DL & FL). rewrite (pos_down pos vel L), normal_eq, dot_scale_r, !dot_add_l, !dot_scale_l.
  rewrite (dot_comm (forward vel)), (dot_comm (left pos vel)), DF, DL. ring.
Qed.
Lemma sight_plane pos vel r x y : level pos vel -> sights pos vel r x y -> cross (tov r) (down pos) = add (scale y (left pos vel)) (scale (- x) (forward vel)).
Proof.
  intros L S1. unfold sights in S1. rewrite S1.
  transitivity (add (scale y (cross (forward vel) (down pos))) (scale x (cross (left pos vel) (down pos)))).
  - unfold cross, add, scale. destruct (down pos), (forward vel), (left pos vel). cbn. f_equal; ring.
  - rewrite (cross_forward_down pos vel L), (cross_left_down pos vel L), scale_scale. f_equal. f_equal. ring.
Qed.
Lemma sight_parallel pos vel r x y angle : level pos vel -> sights pos vel r x y -> y * cos angle = x * sin angle ->
  exists k, cross (tov r) (down pos) = scale k (tov (limb_normal pos vel angle)).
Proof.
  intros L S1 E. exists (- (x * cos angle + y * sin angle)). rewrite (sight_plane _ _ _ _ _ L S1), normal_eq.
  pose proof (sin2_cos2 angle) as S. unfold Rsqr in S.
  assert (X : x = (x * cos angle + y * sin angle) * cos angle).
  { transitivity (x * (cos angle * cos angle) + (y * cos angle) * sin angle); [|ring]. rewrite E. transitivity (x * (sin angle * sin angle + cos angle * cos angle)); [rewrite S|]; ring. }
  assert (Y : y = (x * cos angle + y * sin angle) * sin angle).
  { transitivity ((x * sin angle) * cos angle + y * (sin angle * sin angle)); [|ring]. rewrite <- E. transitivity (y * (sin angle * sin angle + cos angle * cos angle)); [rewrite S|]; ring. }
  set (k := x * cos angle + y * sin angle) in *. rewrite X, Y. unfold add, scale. cbn. f_equal; ring.
Qed.
(** Rectangles: away from the corners the ray is in the direction of its angle. *)
Lemma rect_dir th ta tc phi : 0 < th < PI / 2 -> - th <= phi < 2 * PI - th -> phi <> th -> phi <> PI - th -> phi <> PI + th ->
  rect_v th ta tc phi * cos phi = rect_n th ta tc phi * sin phi.
Proof.
  intros T R0 N1 N2 N3. pose proof PI_RGT_0 as P. unfold rect_v, rect_n.
  assert (TR : forall x y, Rleb x y = true \/ y < x).
  { intros x y. destruct (Rle_lt_dec x y); [left; now apply Rleb_spec|now right]. }
  assert (F1 : forall x y, y < x -> Rleb x y = false) by (intros x y H; destruct (Rleb x y) eqn:E; [apply Rleb_spec in E; lra|reflexivity]).
  assert (T1 : forall x y, x <= y -> Rleb x y = true) by (intros; now apply Rleb_spec).
  assert (F2 : forall x y, y <= x -> Rltb x y = false) by (intros x y H; destruct (Rltb x y) eqn:E; [apply Rltb_spec in E; lra|reflexivity]).
  assert (T2 : forall x y, x < y -> Rltb x y = true) by (intros; now apply Rltb_spec).
  destruct (Rlt_le_dec phi th) as [C1|C1].
  { rewrite (F1 th phi), (F1 (PI + th) phi), (T2 phi th), (T1 phi th) by lra. cbn [andb orb]. unfold tan.
    assert (0 < cos phi) by (apply cos_gt_0; lra). field. lra. }
  destruct (Rlt_le_dec phi (PI - th)) as [C2|C2].
  { rewrite (T1 th phi), (T1 phi (PI - th)), (F1 phi th), (F1 (2 * PI - th) phi), (F1 (PI - th) phi) by lra. cbn [andb orb].
    assert (0 < sin phi) by (apply sin_gt_0; lra). destruct (Rlt_le_dec phi (PI / 2)) as [C3|C3].
    - rewrite (T2 phi (PI / 2)) by lra. unfold tan. rewrite sin_shift, cos_shift. field. lra.
    - rewrite (F2 phi (PI / 2)), (T2 phi (PI - th)) by lra. unfold tan. rewrite sin_minus, cos_minus, sin_PI2, cos_PI2. field. lra. }
  destruct (Rlt_le_dec phi (PI + th)) as [C3|C3].
  { rewrite (T1 th phi), (F1 phi (PI - th)), (F1 (PI + th) phi), (F1 phi th), (F1 (2 * PI - th) phi), (T1 (PI - th) phi), (T1 phi (PI + th)) by lra. cbn [andb orb].
    assert (cos phi < 0) by (apply cos_lt_0; lra). rewrite (F2 phi th) by lra. destruct (Rlt_le_dec phi PI) as [C4|C4].
    - rewrite (T2 phi PI) by lra. unfold tan. rewrite sin_minus, cos_minus, sin_PI, cos_PI. field. lra.
    - rewrite (F2 phi PI), (T2 phi (PI + th)) by lra. unfold tan. rewrite sin_minus, cos_minus, sin_PI, cos_PI. field. lra. }
  rewrite (T1 th phi), (F1 phi (PI - th)), (T1 (PI + th) phi), (T1 phi (2 * PI - th)), (F1 phi th), (F1 (2 * PI - th) phi), (T1 (PI - th) phi), (F1 phi (PI + th)) by lra. cbn [andb orb].
  assert (sin phi < 0) by (apply sin_lt_0; lra). rewrite (F2 phi (PI / 2)), (F2 phi (PI - th)) by lra.
  assert (S3 : sin (3 * PI / 2) = -1) by (replace (3 * PI / 2) with (3 * (PI / 2)) by field; apply sin_3PI2).
  assert (C32 : cos (3 * PI / 2) = 0) by (replace (3 * PI / 2) with (PI / 2 + PI) by field; rewrite neg_cos, cos_PI2; ring).
  destruct (Rlt_le_dec phi (3 * PI / 2)) as [C4|C4].
  - rewrite (T2 phi (3 * PI / 2)) by lra. unfold tan. rewrite sin_minus, cos_minus, S3, C32. field. lra.
  - rewrite (F2 phi (3 * PI / 2)) by lra. unfold tan. rewrite sin_minus, cos_minus, S3, C32. field. lra.
Qed.
Lemma straight_ray pos vel C A rect angle : level pos vel -> straight C A rect angle ->
  exists k, cross (tov (ray pos vel C A 0 0 rect angle)) (down pos) = scale k (tov (limb_normal pos vel angle)).
Proof.
  intros L S. pose proof (ray_sights pos vel C A 0 0 rect angle) as S1. rewrite tan_deg_0, !Rplus_0_l in S1.
  eapply sight_parallel; [exact L|exact S1|]. destruct rect; cbn in S.
  - destruct S as (HC & HA & B & N1 & N2 & N3). destruct (theta_range A C ltac:(lra) ltac:(lra)) as [T _]. now apply rect_dir.
  - subst A. ring.
Qed.
Section Limb.
Variables (surfpt : v3 -> v3 -> R -> R -> R -> option v3) (limb_points : v3 -> R -> R -> R -> v3 -> v3 * v3).
Hypothesis found : forall pos r a c pt, surfpt pos r a a c = Some pt -> hit pos r a c pt.
Hypothesis missed : forall pos r a c pt, surfpt pos r a a c = None -> ~ hit pos r a c pt.
Hypothesis limbs : limb_in_plane limb_points.
Lemma limb_point_lemma pos vel C A roll pitch rect angle h : level pos vel -> - EARTH_POLAR_RADIUS < h ->
  let a := EARTH_EQUATORIAL_RADIUS + h in let c := EARTH_POLAR_RADIUS + h in
  1 < quad a c (tov pos) ->
  let r := ray pos vel C A roll pitch rect angle in
  let pt := projected_point surfpt limb_points pos vel C A roll pitch rect angle h in
  ~ (exists q, hit pos r a c q) ->
  on_horizon a c (tov pos) (tov pt) /\ dot (tov (limb_normal pos vel angle)) (sub (tov pt) (tov pos)) = 0.
Proof.
  intros L E a c O r pt M. destruct (radii_pos h E) as [HA HC]. fold a in HA. fold c in HC.
  destruct (projection_lemma surfpt limb_points found missed pos vel C A roll pitch rect angle h) as [_ K]. specialize (K M). cbv zeta in K.
  assert (NZ : tov (limb_normal pos vel angle) <> mk_vec 0 0 0).
  { intro Z. pose proof (normal_unit pos vel angle L) as U. rewrite Z, dot_zero in U. lra. }
  destruct (limbs a c pos (limb_normal pos vel angle) HA HC O NZ (normal_pos pos vel angle L) pt K) as (Q & P & D).
  split; [now apply horizon_lemma|exact D].
Qed.
Lemma limb_plane pos vel C A rect angle h : level pos vel -> - EARTH_POLAR_RADIUS < h -> straight C A rect angle ->
  let a := EARTH_EQUATORIAL_RADIUS + h in let c := EARTH_POLAR_RADIUS + h in
  1 < quad a c (tov pos) ->
  let r := ray pos vel C A 0 0 rect angle in
  let pt := projected_point surfpt limb_points pos vel C A 0 0 rect angle h in
  ~ (exists q, hit pos r a c q) ->
  on_horizon a c (tov pos) (tov pt) /\ coplanar (sub (tov pt) (tov pos)) (tov r) (down pos).
Proof.
  intros L E S a c O r pt M. destruct (limb_point_lemma pos vel C A 0 0 rect angle h L E O M) as [H D]. split; [exact H|].
  destruct (straight_ray pos vel C A rect angle L S) as (k & K). unfold coplanar. fold r in K. rewrite K, dot_scale_r, dot_comm. fold pt in D. rewrite D. ring.
Qed.
(** A pitched line of sight that misses the Earth is moved out of its plane. *)
Lemma pitched_off pos vel pitch h : level pos vel -> - EARTH_POLAR_RADIUS < h -> tan_deg pitch <> 0 ->
  let a := EARTH_EQUATORIAL_RADIUS + h in let c := EARTH_POLAR_RADIUS + h in
  1 < quad a c (tov pos) ->
  let r := ray pos vel 0 0 0 pitch false 0 in
  let pt := projected_point surfpt limb_points pos vel 0 0 0 pitch false 0 h in
  ~ (exists q, hit pos r a c q) ->
  ~ coplanar (sub (tov pt) (tov pos)) (tov r) (down pos).
Proof.
  intros L E T a c O r pt M CP. destruct (limb_point_lemma pos vel 0 0 0 pitch false 0 h L E O M) as [H D].
  pose proof (ray_sights pos vel 0 0 0 pitch false 0) as S1. rewrite tan_deg_0 in S1.
  replace (half_width 0) with 0 in S1 by (unfold half_width; replace (0 / 2 * (PI / 180)) with 0 by (unfold Rdiv; ring); now rewrite tan_0). rewrite !Rmult_0_r, !Rplus_0_r in S1.
  fold r in S1. unfold coplanar in CP. rewrite (sight_plane _ _ _ _ _ L S1) in CP. rewrite normal_eq, cos_0, sin_0 in D.
  rewrite dot_add_l, !dot_scale_l in D. rewrite dot_add_r, !dot_scale_r in CP. fold pt in D, H. set (u := sub (tov pt) (tov pos)) in *.
  assert (DF : dot u (forward vel) = 0) by (rewrite dot_comm; lra).
  assert (DL : dot u (left pos vel) = 0) by (rewrite DF in CP; nra).
  destruct (frame_lemma pos vel L) as (B1 & F1 & L1 & BF & BL & FL).
  (* u is along the nadir *)
  set (b := down pos) in *. set (k := dot u b).
  assert (Z : add u (scale (- k) b) = mk_vec 0 0 0).
  { set (w := add u (scale (- k) b)).
    assert (WB : dot w b = 0) by (unfold w; rewrite dot_add_l, dot_scale_l, B1; unfold k; ring).
    assert (WF : dot w (forward vel) = 0) by (unfold w; rewrite dot_add_l, dot_scale_l, BF, DF; ring).
    assert (WL : dot w (left pos vel) = 0) by (unfold w; rewrite dot_add_l, dot_scale_l, BL, DL; ring).
    apply dot_self_zero. set (f := forward vel) in *.
    assert (EL : left pos vel = scale (-1) (cross b f)).
    { unfold left, b, down, f. unfold cross, scale. cbn. f_equal; ring. }
    rewrite EL, dot_scale_r in WL. assert (G : dot w (cross b f) * dot w (cross b f) =
      dot w w * (dot b b * dot f f - dot b f * dot b f) - dot w b * (dot w b * dot f f - dot w f * dot b f) + dot w f * (dot w b * dot b f - dot w f * dot b b)).
    { destruct w, b, f. unfold dot, cross. cbn. ring. }
    rewrite B1, F1, BF, WB, WF in G. assert (dot w (cross b f) = 0) as WL0 by lra. rewrite WL0 in G. lra. }
  assert (U : u = scale (k * / - norm (tov pos)) (tov pos)).
  { rewrite (pos_down pos vel L) at 2. rewrite scale_scale. pose proof (norm_pos _ (proj1 L)) as NP.
    replace (k * / - norm (tov pos) * - norm (tov pos)) with k by (field; lra). fold b.
    destruct u as [ux uy uz], b as [bx by0 bz]. unfold add, scale in *. cbn in *. injection Z as Z1 Z2 Z3. f_equal; lra. }
  exact (horizon_not_nadir _ _ _ _ _ H U).
Qed.
End Limb.

(** ** Oracles meeting the contracts *)
Lemma quad_scaled a c p : 0 < a -> 0 < c -> quad a c p = (vx p / a) * (vx p / a) + (vy p / a) * (vy p / a) + (vz p / c) * (vz p / c).
Proof. intros A C. unfold quad. field. lra. Qed.
Lemma vec_dec (u : vec) : {u = mk_vec 0 0 0} + {u <> mk_vec 0 0 0}.
Proof.
  destruct u as [x y z]. destruct (Req_EM_T x 0) as [->|N]; [|right; intro E; injection E; auto].
  destruct (Req_EM_T y 0) as [->|N]; [|right; intro E; injection E; auto]. destruct (Req_EM_T z 0) as [->|N]; [now left|right; intro E; injection E; auto].
Qed.
Lemma chord a c e w : 0 < a -> 0 < c -> 1 < quad a c e -> w <> mk_vec 0 0 0 -> polar a c w e = 0 ->
  let p := add (scale (/ quad a c e) e) (scale (sqrt ((1 - / quad a c e) / quad a c w)) w) in
  quad a c p = 1 /\ polar a c p e = 1.
Proof.
  intros A C O N Z p. pose proof (quad_pos a c w A C N) as W. set (Q := quad a c e) in *. assert (IQ : 0 < / Q < 1).
  { split; [apply Rinv_0_lt_compat; lra|]. apply Rmult_lt_reg_l with Q; [lra|]. rewrite Rinv_r by lra. lra. }
  set (s := sqrt ((1 - / Q) / quad a c w)) in *.
  assert (SS : s * s * quad a c w = 1 - / Q).
  { unfold s. rewrite sqrt_sqrt; [field; lra|]. apply Rlt_le, Rdiv_lt_0_compat; lra. }
  assert (PE : polar a c p e = 1).
  { unfold p. rewrite polar_add, !polar_scale, Z, quad_polar. fold Q. field. lra. }
  split; [|exact PE]. rewrite <- quad_polar. unfold p at 1. rewrite polar_add, !polar_scale, (polar_sym a c e p), PE, (polar_sym a c w p).
  unfold p. rewrite polar_add, !polar_scale, (polar_sym a c e w), Z, quad_polar. transitivity (/ Q + s * s * quad a c w); [ring|]. rewrite SS. ring.
Qed.
Definition of_vec (u : vec) : v3 := V3 (vx u) (vy u) (vz u).
Lemma tov_of u : tov (of_vec u) = u. Proof. now destruct u. Qed.
Lemma limb_points_exist : exists limb_points, limb_in_plane limb_points.
Proof.
  exists (fun pos a _ c m =>
    let e := tov pos in let w0 := cross (tov m) e in
    let w := add w0 (scale (- polar a c w0 e / quad a c e) e) in
    let s := sqrt ((1 - / quad a c e) / quad a c w) in
    (of_vec (add (scale (/ quad a c e) e) (scale s w)), of_vec (add (scale (/ quad a c e) e) (scale (- s) w)))).
  intros a c pos m A C O N D p. cbv zeta. set (e := tov pos) in *. set (n := tov m) in *. set (w0 := cross n e). set (w := add w0 _).
  assert (ZW : polar a c w e = 0).
  { unfold w. rewrite polar_add, polar_scale, quad_polar. field. lra. }
  assert (NW0 : dot n w0 = 0) by (unfold w0; destruct n, e; unfold dot, cross; cbn; ring).
  assert (NW : dot n w = 0) by (unfold w; rewrite dot_add_r, dot_scale_r, NW0, D; ring).
  assert (EW0 : dot e w0 = 0) by (unfold w0; destruct n, e; unfold dot, cross; cbn; ring).
  assert (EP : 0 < dot e e).
  { destruct (vec_dec e) as [Z|Z]; [rewrite Z in O; unfold quad in O; cbn in O; unfold Rdiv in O; lra|]. rewrite <- norm_sq. pose proof (norm_pos e Z). nra. }
  assert (NP : 0 < dot n n). { rewrite <- norm_sq. pose proof (norm_pos n N). nra. }
  assert (WN : w <> mk_vec 0 0 0).
  { intro Z. assert (G : dot w0 w0 = dot n n * dot e e - dot n e * dot n e) by (unfold w0; destruct n, e; unfold dot, cross; cbn; ring).
    assert (W0 : dot w0 w = dot w0 w0). { unfold w. rewrite dot_add_r, dot_scale_r, (dot_comm w0 e), EW0. ring. }
    rewrite Z, dot_comm, dot_zero, G, D in W0. nra. }
  assert (WN2 : scale (-1) w <> mk_vec 0 0 0).
  { intro Z. apply WN. destruct w as [x y z]. unfold scale in Z. cbn in Z. injection Z as Z1 Z2 Z3. f_equal; lra. }
  assert (QM : quad a c (scale (-1) w) = quad a c w) by (unfold quad, scale, Rdiv; cbn; ring).
  destruct (chord a c e w A C O WN ZW) as [K1 K2].
  destruct (chord a c e (scale (-1) w) A C O WN2) as [M1 M2]; [rewrite polar_scale, ZW; ring|]. rewrite QM, scale_scale in M1, M2.
  set (s := sqrt ((1 - / quad a c e) / quad a c w)) in *. replace (s * -1) with (- s) in M1, M2 by ring.
  cbn [fst snd]. assert (PL : forall k, dot n (sub (add (scale (/ quad a c e) e) (scale k w)) e) = 0).
  { intro k. transitivity (/ quad a c e * dot n e + k * dot n w - dot n e); [unfold dot, sub, add, scale; cbn; ring|]. rewrite D, NW. ring. }
  intros [-> | ->]; rewrite tov_of; (split; [|split]); auto.
Qed.
Lemma edlimb_exists : exists edlimb, limb_ellipse edlimb.
Proof.
  (* conjugate semi-diameters from an orthogonal frame in scaled coordinates *)
  exists (fun a _ c pos =>
    let e := tov pos in
    let u1 := if Req_EM_T (vx e * vx e + vy e * vy e) 0 then mk_vec a 0 0 else mk_vec (- vy e) (vx e) 0 in
    let s1 := mk_vec (vx u1 / a) (vy u1 / a) (vz u1 / c) in
    let se := mk_vec (vx e / a) (vy e / a) (vz e / c) in
    let s2 := cross se s1 in
    let u2 := mk_vec (a * vx s2) (a * vy s2) (c * vz s2) in
    (of_vec (scale (/ quad a c e) e), of_vec (scale (sqrt ((1 - / quad a c e) / quad a c u1)) u1), of_vec (scale (sqrt ((1 - / quad a c e) / quad a c u2)) u2))).
  intros a c pos t A C O. cbv beta iota zeta. rewrite !tov_of. set (e := tov pos) in *. clearbody e.
  set (u1 := if Req_EM_T _ _ then _ else _).
  assert (U1 : u1 <> mk_vec 0 0 0 /\ polar a c u1 e = 0).
  { unfold u1. destruct (Req_EM_T (vx e * vx e + vy e * vy e) 0) as [Z|Z].
    - split; [intro K; injection K; lra|]. assert (vx e = 0) by nra. unfold polar. cbn. rewrite H. unfold Rdiv. ring.
    - split; [intro K; injection K; intros; apply Z; nra|]. unfold polar. cbn. unfold Rdiv. ring. }
  destruct U1 as [N1 P1]. set (s1 := mk_vec (vx u1 / a) (vy u1 / a) (vz u1 / c)). set (se := mk_vec (vx e / a) (vy e / a) (vz e / c)).
  set (s2 := cross se s1). set (u2 := mk_vec _ _ _).
  assert (PD : forall p q, polar a c p q = dot (mk_vec (vx p / a) (vy p / a) (vz p / c)) (mk_vec (vx q / a) (vy q / a) (vz q / c))).
  { intros p q. unfold polar, dot. cbn. field. lra. }
  assert (S2 : mk_vec (vx u2 / a) (vy u2 / a) (vz u2 / c) = s2).
  { unfold u2. cbn [vx vy vz]. destruct s2 as [x y z]. cbn. f_equal; field; lra. }
  assert (P2 : polar a c u2 e = 0).
  { rewrite PD, S2. fold se. unfold s2. destruct se, s1. unfold dot, cross. cbn. ring. }
  assert (P12 : polar a c u1 u2 = 0).
  { rewrite PD, S2. fold s1. unfold s2. destruct se, s1. unfold dot, cross. cbn. ring. }
  assert (Q2 : quad a c u2 = quad a c e * quad a c u1).
  { rewrite <- !quad_polar, !PD, S2. fold s1 se. rewrite PD in P1. fold s1 se in P1. unfold s2.
    transitivity (dot se se * dot s1 s1 - dot s1 se * dot s1 se); [destruct se, s1; unfold dot, cross; cbn; ring|]. rewrite P1. ring. }
  pose proof (quad_pos a c u1 A C N1) as Q1. set (Q := quad a c e) in *. assert (IQ : 0 < / Q < 1).
  { split; [apply Rinv_0_lt_compat; lra|]. apply Rmult_lt_reg_l with Q; [lra|]. rewrite Rinv_r by lra. lra. }
  set (k1 := sqrt ((1 - / Q) / quad a c u1)). set (k2 := sqrt ((1 - / Q) / quad a c u2)).
  assert (K1 : k1 * k1 * quad a c u1 = 1 - / Q). { unfold k1. rewrite sqrt_sqrt; [field; lra|]. apply Rlt_le, Rdiv_lt_0_compat; lra. }
  assert (K2 : k2 * k2 * quad a c u2 = 1 - / Q). { assert (0 < quad a c u2) by (rewrite Q2; nra). unfold k2. rewrite sqrt_sqrt; [field; lra|]. apply Rlt_le, Rdiv_lt_0_compat; lra. }
  set (p := add _ _). assert (PE : polar a c p e = 1).
  { unfold p. rewrite !polar_add, !polar_scale, P1, P2, quad_polar. fold Q. field. lra. }
  split; [|exact PE].
  assert (PU1 : polar a c p u1 = cos t * k1 * quad a c u1).
  { unfold p. rewrite !polar_add, !polar_scale, (polar_sym a c e u1), P1, (polar_sym a c u2 u1), P12, quad_polar. ring. }
  assert (PU2 : polar a c p u2 = sin t * k2 * quad a c u2).
  { unfold p. rewrite !polar_add, !polar_scale, (polar_sym a c e u2), P2, P12, quad_polar. ring. }
  rewrite <- quad_polar. unfold p at 1. rewrite !polar_add, !polar_scale, (polar_sym a c e p), (polar_sym a c u1 p), (polar_sym a c u2 p), PE, PU1, PU2.
  transitivity (/ Q + cos t * cos t * (k1 * k1 * quad a c u1) + sin t * sin t * (k2 * k2 * quad a c u2)); [ring|]. rewrite K1, K2.
  pose proof (sin2_cos2 t) as S. unfold Rsqr in S. transitivity (/ Q + (sin t * sin t + cos t * cos t) * (1 - / Q)); [ring|]. rewrite S. ring.
Qed.
