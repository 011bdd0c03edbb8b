(** Proofs about footprints as a whole: vertices, coverage, circular fields of regard and pixels. *)
From Coq Require Import Reals ZArith List Bool Lra Lia Psatz.
From Verif Require Import Base BaseFacts RBase RFacts RTrig RTrigFacts Orbit_Model Mog_Model Geom_Spec Instr_Model Instr_Spec Instr_Proofs Instr_Proofs2 Poly_Model Poly_Spec Poly_Proofs Poly_Proofs2 Geom_Proofs2 Foot_Model Foot_Spec Foot_Proofs Foot_Proofs2.
Import ListNotations.
Open Scope R_scope.

Lemma Forall2_len {A B} (P : A -> B -> Prop) l m : Forall2 P l m -> length l = length m.
Proof. induction 1; cbn; congruence. Qed.
Lemma polygon_outlines l p : polygon l = Ok p -> outlines l p.
Proof.
  unfold polygon, outlines. destruct l as [|a l]; [intro H; injection H as <-; now split|]. set (z := last (a :: l) a).
  destruct (Req_EM_T (fst a) (fst z)) as [E1|E1]; [destruct (Req_EM_T (snd a) (snd z)) as [E2|E2]|]; intro H.
  - destruct (Nat.ltb_spec (length (a :: l)) 4) as [K|K]; [discriminate|]. injection H as <-. split; [reflexivity|]. split; [now left|]. cbn [p_ext].
    destruct (@exists_last _ l) as (mid & y & ->); [intros ->; cbn in K; lia|]. cbn [map]. exists (map (fun q => xy (fst q) (snd q)) mid).
    rewrite map_app. cbn [map]. f_equal. f_equal. f_equal. unfold z in *. rewrite app_comm_cons, last_last in *. now rewrite E1, E2.
  - destruct (length ((a :: l) ++ [a]) <? 4)%nat; [discriminate|]. injection H as <-. split; [reflexivity|]. split; [now right|]. cbn [p_ext]. rewrite map_app. cbn. eauto.
  - destruct (length ((a :: l) ++ [a]) <? 4)%nat; [discriminate|]. injection H as <-. split; [reflexivity|]. split; [now right|]. cbn [p_ext]. rewrite map_app. cbn. eauto.
Qed.

Section Whole.
Variables (surfpt : v3 -> v3 -> R -> R -> R -> option v3) (limb_points : v3 -> R -> R -> R -> v3 -> v3 * v3) (edlimb : R -> R -> R -> v3 -> v3 * v3 * v3)
  (recgeo : v3 -> R -> R -> R * R * R) (split : shape -> pyres shape) (ne ns : nat).
Hypothesis found : forall pos r a c pt, surfpt pos r a a c = Some pt -> hit pos r a c pt.
Hypothesis missed : forall pos r a c pt, surfpt pos r a a c = None -> ~ hit pos r a c pt.
Hypothesis limbs : limb_in_plane limb_points.
Notation place := (fun pt => (g_lon (geographic recgeo pt), g_lat (geographic recgeo pt))).
Lemma seen_lemma pos vel C A roll pitch rect angle h : level pos vel -> - EARTH_POLAR_RADIUS < h ->
  1 < quad (EARTH_EQUATORIAL_RADIUS + h) (EARTH_POLAR_RADIUS + h) (tov pos) ->
  seen_at pos (EARTH_EQUATORIAL_RADIUS + h) (EARTH_POLAR_RADIUS + h) (ray pos vel C A roll pitch rect angle)
    (projected_point surfpt limb_points pos vel C A roll pitch rect angle h).
Proof.
  intros L E O. unfold seen_at.
  pose proof (limb_point_lemma surfpt limb_points found missed limbs pos vel C A roll pitch rect angle h L E O) as K.
  destruct (projection_lemma surfpt limb_points found missed pos vel C A roll pitch rect angle h) as [K1 _].
  unfold projected_point in *. cbv zeta in *. set (r := ray pos vel C A roll pitch rect angle) in *.
  destruct (surfpt pos r _ _ _) as [pt|] eqn:S.
  - left. eapply found. exact S.
  - right. assert (M : ~ exists q, hit pos r (EARTH_EQUATORIAL_RADIUS + h) (EARTH_POLAR_RADIUS + h) q) by (intros (q & Q); exact (missed _ _ _ _ q S Q)).
    split; [exact M|]. exact (proj1 (K M)).
Qed.
Lemma vertices_lemma s C A roll pitch rect n e sh : level (s_pos s) (s_vel s) -> - EARTH_POLAR_RADIUS < e ->
  1 < quad (EARTH_EQUATORIAL_RADIUS + e) (EARTH_POLAR_RADIUS + e) (tov (s_pos s)) ->
  compute_footprint surfpt limb_points recgeo split ne ns (TOne s) C A roll pitch rect n e = Ok (One sh) ->
  exists pts p t,
    Forall2 (seen_at (s_pos s) (EARTH_EQUATORIAL_RADIUS + e) (EARTH_POLAR_RADIUS + e))
      (footprint_rays (s_pos s) (s_vel s) C A roll pitch rect (match n with Some n => n | None => if rect then ns else ne end)) pts
    /\ outlines (map place pts) p /\ split (SPoly p) = Ok t /\ sh = project_polygon_to_elevation t e /\ at_elevation e sh.
Proof.
  intros L E O H. rewrite footprint_one in H. apply bind_ok in H. destruct H as (sh' & H & F). injection F as ->.
  apply finish_ok in H. destruct H as (p & t & P & T & ->). set (N := match n with Some _ => _ | None => _ end) in *.
  exists (map (fun angle => projected_point surfpt limb_points (s_pos s) (s_vel s) C A roll pitch rect angle e) (footprint_angles rect A C N)), p, t.
  split; [|split; [|split; [exact T|split; [reflexivity|apply project_at]]]].
  - unfold footprint_rays. clear P. induction (footprint_angles rect A C N) as [|x l IH]; cbn; constructor; auto. now apply seen_lemma.
  - rewrite map_map. apply polygon_outlines. exact P.
Qed.

(** ** A circular field of regard *)
Lemma acos_scaled u v k : 0 < k -> between (scale k u) v = between u v.
Proof.
  intro K. unfold between. f_equal. rewrite dot_scale_l. assert (N : norm (scale k u) = k * norm u).
  { unfold norm. rewrite dot_scale_l, dot_scale_r, <- Rmult_assoc, sqrt_mult; [|nra|unfold dot; nra]. now rewrite sqrt_square by lra. }
  rewrite N.
  destruct (Req_dec (norm u * norm v) 0) as [Z|Z].
  - rewrite Z. assert (k * norm u * norm v = 0) as Z2 by nra. rewrite ?Z2, ?Rmult_0_r. destruct (Req_dec (norm u) 0) as [U|U].
    + assert (u = mk_vec 0 0 0) as -> by (apply dot_self_zero; rewrite <- norm_sq, U; ring). unfold Rdiv. rewrite !dot_zero, ?Rmult_0_r, ?Rmult_0_l. reflexivity.
    + assert (norm v = 0) by (destruct (Rmult_integral _ _ Z); [contradiction|assumption]). assert (v = mk_vec 0 0 0) as -> by (apply dot_self_zero; rewrite <- norm_sq, H; ring).
      unfold Rdiv. rewrite !(dot_comm u), !dot_zero, ?Rmult_0_r, ?Rmult_0_l. reflexivity.
  - field. repeat split; intro; apply Z; nra.
Qed.
Lemma circle_angle pos vel F angle : level pos vel -> 0 < F < 180 -> between (tov (ray pos vel F F 0 0 false angle)) (down pos) = F / 2 * (PI / 180).
Proof.
  intros L HF. pose proof (ray_sights pos vel F F 0 0 false angle) as S1. rewrite tan_deg_0, !Rplus_0_l in S1. pose proof PI_RGT_0 as P.
  eapply off_boresight; [exact L|exact S1|split; nra|]. fold (half_width F). pose proof (sin2_cos2 angle) as S. unfold Rsqr in S.
  transitivity ((sin angle * sin angle + cos angle * cos angle) * (half_width F * half_width F)); [ring|rewrite S; ring].
Qed.
Lemma circle_wide pos vel F angle : level pos vel -> 180 < F <= 360 -> between (tov (ray pos vel F F 0 0 false angle)) (down pos) = (360 - F) / 2 * (PI / 180).
Proof.
  intros L HF. pose proof (ray_sights pos vel F F 0 0 false angle) as S1. rewrite tan_deg_0, !Rplus_0_l in S1. pose proof PI_RGT_0 as P.
  eapply off_boresight; [exact L|exact S1|split; nra|]. pose proof (sin2_cos2 angle) as S. unfold Rsqr in S.
  transitivity ((sin angle * sin angle + cos angle * cos angle) * (half_width F * half_width F)); [ring|rewrite S].
  assert (K : half_width F = - tan ((360 - F) / 2 * (PI / 180))).
  { unfold half_width. rewrite <- tan_neg. replace (F / 2 * (PI / 180)) with (- ((360 - F) / 2 * (PI / 180)) + PI) by field.
    unfold tan. rewrite neg_sin, neg_cos. assert (0 < cos (- ((360 - F) / 2 * (PI / 180)))) by (apply cos_gt_0; nra). field. lra. }
  rewrite K. ring.
Qed.
Lemma hit_angle pos a c r pt b : 1 < quad a c (tov pos) -> hit pos r a c pt -> between (sub (tov pt) (tov pos)) b = between (tov r) b.
Proof.
  intros O ((t & T & E) & Q). destruct (Req_dec t 0) as [->|N].
  - exfalso. assert (tov pt = tov pos) as K. { rewrite E. unfold add, scale. destruct (tov pos), (tov r). cbn. f_equal; ring. }
    assert (quad a c (tov pt) = 1) by exact Q. rewrite K in H. lra.
  - replace (sub (tov pt) (tov pos)) with (scale t (tov r)); [apply acos_scaled; lra|].
    rewrite E. unfold sub, add, scale. destruct (tov pos), (tov r). cbn. f_equal; ring.
Qed.
Lemma regard_lemma s F n e sh : level (s_pos s) (s_vel s) -> - EARTH_POLAR_RADIUS < e ->
  let a := EARTH_EQUATORIAL_RADIUS + e in let c := EARTH_POLAR_RADIUS + e in
  1 < quad a c (tov (s_pos s)) -> 0 < F <= 360 -> F <> 180 ->
  instrument_footprint surfpt limb_points recgeo split ne ns F (TOne s) n e = Ok (One sh) ->
  exists pts p t, length pts = match n with Some n => n | None => ne end
    /\ Forall (fun pt => quad a c (tov pt) = 1 /\ (between (sub (tov pt) (tov (s_pos s))) (down (s_pos s)) = Rmin F (360 - F) / 2 * (PI / 180) \/ on_horizon a c (tov (s_pos s)) (tov pt))) pts
    /\ outlines (map place pts) p /\ split (SPoly p) = Ok t /\ sh = project_polygon_to_elevation t e.
Proof.
  intros L E a c O HF NF H. unfold instrument_footprint in H. apply vertices_lemma in H; [|assumption..]. destruct H as (pts & p & t & V & P & T & EQ & _).
  exists pts, p, t. split; [|split; [|split; [exact P|split; [exact T|exact EQ]]]].
  - assert (V' := V). apply Forall2_len in V'. rewrite <- V'. unfold footprint_rays. rewrite map_length, angles_length. now destruct n.
  - unfold footprint_rays in V. apply Forall_forall. intros pt I. apply In_nth_error in I. destruct I as (i & I).
    assert (exists r, In r (map (ray (s_pos s) (s_vel s) F F 0 0 false) (footprint_angles false F F (match n with Some n => n | None => ne end))) /\ seen_at (s_pos s) a c r pt) as (r & R0 & S).
    { clear - V I. revert i I. induction V as [|r q l m S V IH]; intros [|i] I; cbn in I; try discriminate.
      - injection I as <-. exists r. split; [now left|exact S].
      - destruct (IH i I) as (r' & R' & S'). exists r'. split; [now right|exact S']. }
    apply in_map_iff in R0. destruct R0 as (angle & <- & _). destruct S as [S|[_ S]].
    + split; [exact (proj2 S)|]. left. rewrite (hit_angle _ a c _ _ _ O S). destruct (Rle_lt_dec F 180).
      * rewrite Rmin_left by lra. apply circle_angle; [exact L|lra].
      * rewrite Rmin_right by lra. apply circle_wide; [exact L|lra].
    + split; [exact (proj1 S)|now right].
Qed.
End Whole.

(** ** Coverage *)
Lemma project_geoms t e : geoms (project_polygon_to_elevation t e) = map (project_poly e) (geoms t).
Proof. destruct t; reflexivity. Qed.
Lemma flat_places cov e l X : flat_coverage cov -> (places_of cov (map (project_poly e) l) X <-> places_of cov l X).
Proof.
  intro F. unfold places_of, covered_by. split; intros (x & y & (q & Q & C) & K); exists x, y; (split; [|exact K]).
  - apply in_map_iff in Q. destruct Q as (q0 & <- & Q). exists q0. split; [exact Q|]. now apply (F e).
  - exists (project_poly e q). split; [now apply in_map|]. now apply F.
Qed.
Section Cover.
Variables (iv : shape -> bool) (mv : shape -> list piece + shape) (cr : piece -> coord * coord -> bool) (pe : piece -> piece -> bool)
  (sp : piece -> coord * coord -> list piece) (so : list R -> bool) (ss : list (R * R) -> list (R * R)) (cov : poly -> R -> R -> Prop).
Hypothesis cov_moves : moves_coverage cov.
Hypothesis cov_splits : splits_coverage cov sp.
Hypothesis cov_equal : equal_coverage cov pe.
Hypothesis cov_repairs : repairs_coverage cov mv.
Hypothesis cov_flat : flat_coverage cov.
Notation split := (split_polygon iv mv cr pe sp so ss).
Lemma covers s t e : split s = Ok t -> exists us, Forall2 (fun p u => laid_out (so (map cx (p_ext p))) p u) (geoms s) us
  /\ forall X, places_of cov (geoms (project_polygon_to_elevation t e)) X <-> places_of cov us X.
Proof.
  intro H. destruct (coverage_lemma iv mv cr pe sp so ss cov cov_moves cov_splits cov_equal s t cov_repairs H) as (us & F & K).
  exists us. split; [exact F|]. intro X. now rewrite project_geoms, flat_places.
Qed.
Lemma covers_one p t e : split (SPoly p) = Ok t -> exists u, laid_out (so (map cx (p_ext p))) p u
  /\ forall X, places_of cov (geoms (project_polygon_to_elevation t e)) X <-> places_of cov [u] X.
Proof. intro H. destruct (covers _ _ e H) as (us & F & K). cbn in F. inversion F as [|? u ? m L N]; subst. inversion N; subst. eauto. Qed.
Lemma footprint_covers surfpt limb_points recgeo ne ns s C A roll pitch rect n e sh :
  compute_footprint surfpt limb_points recgeo split ne ns (TOne s) C A roll pitch rect n e = Ok (One sh) ->
  exists p u, outlines (map (fun angle => lonlat (ray_position surfpt limb_points recgeo C A roll pitch rect angle e s))
      (footprint_angles rect A C (match n with Some n => n | None => if rect then ns else ne end))) p
    /\ laid_out (so (map cx (p_ext p))) p u /\ (forall X, places_of cov (geoms sh) X <-> places_of cov [u] X) /\ at_elevation e sh.
Proof.
  intro H. rewrite footprint_one in H. apply bind_ok in H. destruct H as (sh' & H & F). injection F as ->.
  apply finish_ok in H. destruct H as (p & t & P & T & ->). destruct (covers_one p t e T) as (u & L & K). exists p, u.
  split; [now apply polygon_outlines|]. split; [exact L|]. split; [exact K|apply project_at].
Qed.
Lemma limb_covers edlimb recgeo s n e sh :
  compute_limb edlimb recgeo split (TOne s) n e = Ok (One sh) ->
  exists p u, outlines (map (fun v => lonlat (geographic recgeo v)) (limb_ring edlimb n e (s_pos s))) p
    /\ laid_out (so (map cx (p_ext p))) p u /\ (forall X, places_of cov (geoms sh) X <-> places_of cov [u] X) /\ at_elevation e sh.
Proof.
  intro H. cbn in H. apply bind_ok in H. destruct H as (sh' & H & F). injection F as ->.
  apply finish_ok in H. destruct H as (p & t & P & T & ->). destruct (covers_one p t e T) as (u & L & K). exists p, u.
  split; [now apply polygon_outlines|]. split; [exact L|]. split; [exact K|apply project_at].
Qed.
Lemma buffer_covers G (buffered : G -> R -> shape) g w e sh : buffer_footprint split G buffered g w e = Ok sh ->
  exists us, Forall2 (fun p u => laid_out (so (map cx (p_ext p))) p u) (geoms (buffered g (w / 2))) us
    /\ (forall X, places_of cov (geoms sh) X <-> places_of cov us X) /\ at_elevation e sh.
Proof.
  intro H. unfold buffer_footprint in H. apply bind_ok in H. destruct H as (t & T & F). injection F as <-.
  destruct (covers _ t e T) as (us & F & K). exists us. split; [exact F|]. split; [exact K|apply project_at].
Qed.
End Cover.

(** ** Pixels are inside the field of view *)
Lemma cos_low x : -2 <= x <= 2 -> 1 - x * x / 2 <= cos x <= 1 - x * x / 2 + x * x * (x * x) / 24.
Proof.
  intro H. destruct (pre_cos_bound x 0 ltac:(lra) ltac:(lra)) as [L U]. unfold cos_approx, cos_term in L, U. cbn in L, U. lra.
Qed.
Lemma small_tan w : 0 < w < PI / 2 -> w * w <= (1 - 35 / 100 * (w * w)) * (tan w * tan w).
Proof.
  intro H. pose proof PI_tight as P. assert (C : 0 < cos w) by (apply cos_gt_0; lra). destruct (cos_low w ltac:(lra)) as [_ U].
  unfold tan. pose proof (sin2_cos2 w) as S. unfold Rsqr in S. set (X := w * w) in *. assert (X0 : 0 < X) by (unfold X; nra).
  assert (X1 : X < 2468 / 1000) by (unfold X; nra).
  assert (K : cos w * cos w * (1 + 65 / 100 * X) <= 1 - 35 / 100 * X).
  { apply Rle_trans with ((1 - X / 2 + X * X / 24) * (1 - X / 2 + X * X / 24) * (1 + 65 / 100 * X)).
    - apply Rmult_le_compat_r; [lra|]. apply Rmult_le_compat; lra.
    - assert (Q : - (19/60) + 175/1000 * X - 73/2880 * (X * X) + 65/57600 * (X * X * X) <= 0).
      { assert (0 <= (2468/1000 - X)) by lra. assert (0 <= X * (2468/1000 - X)) by nra. assert (0 <= X * X * (2468 / 1000 - X)) by nra. nra. }
      assert (0 <= X * X) by nra. nra. }
  apply Rmult_le_reg_r with (cos w * cos w); [nra|]. replace ((1 - 35 / 100 * X) * (sin w / cos w * (sin w / cos w)) * (cos w * cos w)) with ((1 - 35 / 100 * X) * (sin w * sin w)) by (field; lra).
  replace (sin w * sin w) with (1 - cos w * cos w) by lra. lra.
Qed.
Lemma half_tan u : 0 < u -> u * u <= PI * PI / 8 -> (tan u * tan u) * (1 / 2 - 35 / 100 * (u * u)) <= u * u /\ 0 < cos u.
Proof.
  intros H B. pose proof PI_tight as P. set (X := u * u) in *. assert (X1 : X < 1234 / 1000) by nra. assert (U2 : u < 2) by (unfold X in *; nra).
  destruct (cos_low u ltac:(lra)) as [L _]. fold X in L. assert (C : 0 < cos u) by lra. split; [|exact C].
  assert (SN : sin u * sin u <= X). { assert (u < PI) by lra. pose proof (sin_gt_0 u H ltac:(lra)). pose proof (sin_lt_x u H). unfold X. nra. }
  unfold tan. apply Rmult_le_reg_r with (cos u * cos u); [nra|].
  replace (sin u / cos u * (sin u / cos u) * (1 / 2 - 35 / 100 * X) * (cos u * cos u)) with (sin u * sin u * (1 / 2 - 35 / 100 * X)) by (field; lra).
  apply Rle_trans with (X * (1 / 2 - 35 / 100 * X)); [apply Rmult_le_compat_r; lra|]. apply Rmult_le_compat_l; [unfold X; nra|].
  apply Rle_trans with ((1 - X / 2) * (1 - X / 2)); [nra|]. apply Rmult_le_compat; lra.
Qed.
Lemma pixel_inside p pos vel i j : pointed_valid p = true -> pi_cross p < 180 -> pi_along p < 180 -> (i < pi_cross_pixels p)%nat -> (j < pi_along_pixels p)%nat ->
  exists x y, sights pos vel (pixel_ray p pos vel i j) (tan_deg (pi_roll p) + x) (tan_deg (pi_pitch p) + y)
    /\ (x / half_width (pi_cross p)) * (x / half_width (pi_cross p)) + (y / half_width (pi_along p)) * (y / half_width (pi_along p)) < 1.
Proof.
  intros V HC HA I J. pose proof (pixel_sights p pos vel i j) as S1. destruct (pixels_lemma p V) as (_ & _ & XC & XA & PC).
  destruct (XC i I) as [_ BX]. destruct (XA j J) as [_ BY]. destruct (PC i j) as [P1 P2]. destruct (pointed_spec p V) as (VC & VA & _).
  assert (C0 : 0 <= fst (cone_clock p i j)) by apply sqrt_pos. destruct (cone_clock p i j) as [cone clock]. cbn [fst snd] in *.
  exists (cos clock * half_width cone), (sin clock * half_width cone). split; [exact S1|]. clear S1.
  set (dx := cross_offset p i) in *. set (dy := along_offset p j) in *. set (C := pi_cross p) in *. set (A := pi_along p) in *.
  set (hc := half_width C). set (ha := half_width A). assert (HC0 : 0 < hc) by (apply half_width_pos; lra). assert (HA0 : 0 < ha) by (apply half_width_pos; lra).
  destruct (Req_dec cone 0) as [Z|N].
  { subst cone. assert (half_width 0 = 0) as -> by (unfold half_width; replace (0 / 2 * (PI / 180)) with 0 by (unfold Rdiv; ring); apply tan_0). rewrite !Rmult_0_r. unfold Rdiv. rewrite !Rmult_0_l. lra. }
  pose proof (sin2_cos2 clock) as SC. unfold Rsqr in SC. pose proof PI_RGT_0 as PP.
  assert (DX2 : dx * dx < (C / 2) * (C / 2)) by (unfold Rabs in BX; destruct (Rcase_abs dx); nra).
  assert (DY2 : dy * dy < (A / 2) * (A / 2)) by (unfold Rabs in BY; destruct (Rcase_abs dy); nra).
  assert (CC : cone * cone = dx * dx + dy * dy).
  { rewrite <- P1, <- P2. transitivity (cone * cone * (sin clock * sin clock + cos clock * cos clock)); [rewrite SC|]; ring. }
  set (d := PI / 180) in *. assert (D0 : 0 < d) by (unfold d; lra).
  set (u := cone / 2 * d). set (w1 := C / 2 * d). set (w2 := A / 2 * d).
  assert (W1 : 0 < w1 < PI / 2) by (unfold w1, d; split; nra). assert (W2 : 0 < w2 < PI / 2) by (unfold w2, d; split; nra).
  assert (U0 : 0 < u) by (unfold u; nra).
  assert (U4 : 4 * (u * u) < w1 * w1 + w2 * w2).
  { unfold u, w1, w2. replace (4 * (cone / 2 * d * (cone / 2 * d))) with ((cone * cone) * (d * d)) by field. rewrite CC.
    replace (C / 2 * d * (C / 2 * d) + A / 2 * d * (A / 2 * d)) with ((C / 2 * (C / 2) + A / 2 * (A / 2)) * (d * d)) by ring. apply Rmult_lt_compat_r; nra. }
  destruct (half_tan u U0 ltac:(nra)) as [HT CU]. pose proof (small_tan w1 W1) as T1. pose proof (small_tan w2 W2) as T2.
  assert (TW1 : tan w1 = hc) by reflexivity. assert (TW2 : tan w2 = ha) by reflexivity. assert (TU : half_width cone = tan u) by reflexivity.
  rewrite TW1 in T1. rewrite TW2 in T2. rewrite TU. set (T := tan u) in *.
  (* offsets as fractions of the cone *)
  set (X := w1 * w1) in *. set (Y := w2 * w2) in *.
  assert (QC : cos clock * cos clock * (4 * (u * u)) <= X).
  { replace (cos clock * cos clock * (4 * (u * u))) with ((cone * cos clock) * (cone * cos clock) * (d * d)) by (unfold u; field). rewrite P1.
    replace X with (C / 2 * (C / 2) * (d * d)) by (unfold X, w1; ring). apply Rmult_le_compat_r; nra. }
  assert (QS : sin clock * sin clock * (4 * (u * u)) <= Y).
  { replace (sin clock * sin clock * (4 * (u * u))) with ((cone * sin clock) * (cone * sin clock) * (d * d)) by (unfold u; field). rewrite P2.
    replace Y with (A / 2 * (A / 2) * (d * d)) by (unfold Y, w2; ring). apply Rmult_le_compat_r; nra. }
  assert (G1 : X / (hc * hc) <= 1 - 35 / 100 * X) by (apply Rmult_le_reg_r with (hc * hc); [nra|]; replace (X / (hc * hc) * (hc * hc)) with X by (field; lra); exact T1).
  assert (G2 : Y / (ha * ha) <= 1 - 35 / 100 * Y) by (apply Rmult_le_reg_r with (ha * ha); [nra|]; replace (Y / (ha * ha) * (ha * ha)) with Y by (field; lra); exact T2).
  assert (IC : 0 < / (hc * hc)) by (apply Rinv_0_lt_compat; nra). assert (IA : 0 < / (ha * ha)) by (apply Rinv_0_lt_compat; nra).
  assert (UU : 0 < 4 * (u * u)) by nra. apply Rmult_lt_reg_r with (4 * (u * u)); [exact UU|].
  replace ((cos clock * T / hc * (cos clock * T / hc) + sin clock * T / ha * (sin clock * T / ha)) * (4 * (u * u)))
    with (T * T * ((cos clock * cos clock * (4 * (u * u))) * / (hc * hc) + (sin clock * sin clock * (4 * (u * u))) * / (ha * ha))) by (field; lra).
  assert (TT : 0 <= T * T) by nra.
  apply Rle_lt_trans with (T * T * (X * / (hc * hc) + Y * / (ha * ha))).
  { apply Rmult_le_compat_l; [exact TT|]. apply Rplus_le_compat; (apply Rmult_le_compat_r; [lra|assumption]). }
  apply Rle_lt_trans with (T * T * (2 - 35 / 100 * (X + Y))).
  { apply Rmult_le_compat_l; [exact TT|]. unfold Rdiv in G1, G2. lra. }
  assert (T0 : 0 < T).
  { unfold T, tan. apply Rdiv_lt_0_compat; [|exact CU]. pose proof PI_tight. apply sin_gt_0; nra. }
  apply Rlt_le_trans with (T * T * (2 - 35 / 100 * (4 * (u * u)))).
  { apply Rmult_lt_compat_l; [nra|]. lra. }
  lra.
Qed.

(** ** Concrete cases *)
Definition far_pos : v3 := V3 8000000 0 0.
Definition far : sample := mk_sample far_pos ex_vel.
Definition slanted : pointed := mk_pointed 40 20 0 60 true 1 1 0 0.
Lemma slanted_valid : pointed_valid slanted = true.
Proof. unfold pointed_valid. rewrite !andb_true_iff, !Rltb_spec, !Rleb_spec, !Nat.leb_le. cbn. repeat split; try lra; lia. Qed.
Lemma far_level : level far_pos ex_vel.
Proof. unfold level, tov, far_pos, ex_vel, dot. cbn [v_x v_y v_z vx vy vz]. split; [|split; [|ring]]; intro H; injection H; intros; lra. Qed.
Lemma far_out : 1 < quad (EARTH_EQUATORIAL_RADIUS + 0) (EARTH_POLAR_RADIUS + 0) (tov far_pos).
Proof. unfold quad, tov, far_pos, EARTH_EQUATORIAL_RADIUS, EARTH_POLAR_RADIUS. cbn [v_x v_y v_z vx vy vz]. lra. Qed.
Lemma slant_tan : tan_deg 60 = sqrt 3.
Proof. unfold tan_deg. replace (60 * (PI / 180)) with (PI / 3) by field. apply tan_PI3. Qed.
Lemma far_frame : down far_pos = mk_vec (-1) 0 0 /\ forward ex_vel = mk_vec 0 1 0.
Proof.
  unfold down, up, forward, direction, norm, tov, far_pos, ex_vel, dot, scale. cbn [vx vy vz v_x v_y v_z].
  replace (8000000 * 8000000 + 0 * 0 + 0 * 0) with (8000000 * 8000000) by ring. replace (0 * 0 + 7500 * 7500 + 0 * 0) with (7500 * 7500) by ring.
  rewrite !sqrt_square by lra. split; f_equal; field.
Qed.
Lemma slant_misses r y : sights far_pos ex_vel r 0 y -> y * y = 3 -> ~ exists q, hit far_pos r (EARTH_EQUATORIAL_RADIUS + 0) (EARTH_POLAR_RADIUS + 0) q.
Proof.
  intros S Y (q & (t & T & E) & Q). unfold sights in S. rewrite S in E. destruct far_frame as [D F]. rewrite D, F in E. set (l := left far_pos ex_vel) in *. clearbody l. unfold tov, add, scale, far_pos in E. cbn [vx vy vz v_x v_y v_z] in E.
  injection E as E1 E2 E3.
  replace (v_x q) with (8000000 - t) in Q by (rewrite E1; ring). replace (v_y q) with (t * y) in Q by (rewrite E2; ring). replace (v_z q) with 0 in Q by (rewrite E3; ring). revert Q. unfold EARTH_EQUATORIAL_RADIUS, EARTH_POLAR_RADIUS. intro Q.
  assert (K : (8000000 - t) * (8000000 - t) + t * y * (t * y) = 6378137 * 6378137).
  { apply Rmult_eq_reg_r with (/ ((6378137 + 0) * (6378137 + 0))); [|apply Rinv_neq_0_compat; lra]. replace (6378137 * 6378137 * / ((6378137 + 0) * (6378137 + 0))) with 1 by field. rewrite <- Q. unfold Rdiv. ring. }
  replace (t * y * (t * y)) with (t * t * (y * y)) in K by ring. rewrite Y in K. assert (0 <= (t - 2000000) * (t - 2000000)) by (apply Rle_0_sqr). lra.
Qed.
Lemma slant_ray p : pi_roll p = 0 -> sights far_pos ex_vel (centre_ray p far_pos ex_vel) 0 (tan_deg (pi_pitch p)).
Proof. intro H. pose proof (centre_sights p far_pos ex_vel) as S. rewrite H, tan_deg_0 in S. exact S. Qed.
Lemma sqrt3 : sqrt 3 * sqrt 3 = 3. Proof. apply sqrt_sqrt. lra. Qed.
Lemma wide_ray : sights far_pos ex_vel (ray far_pos ex_vel 120 120 0 0 false (PI / 2)) 0 (sqrt 3).
Proof.
  pose proof (ray_sights far_pos ex_vel 120 120 0 0 false (PI / 2)) as S. rewrite tan_deg_0, cos_PI2, sin_PI2, !Rplus_0_l, Rmult_0_l, Rmult_1_l in S.
  replace (half_width 120) with (sqrt 3) in S; [exact S|]. rewrite <- slant_tan. unfold half_width, tan_deg. f_equal. field.
Qed.
Lemma plain_footprint surfpt limb_points s C A roll pitch e : exists sh,
  compute_footprint surfpt limb_points (fun _ _ _ => (0, 0, 0)) Ok 10 10 (TOne s) C A roll pitch false (Some 4%nat) e = Ok (One sh).
Proof.
  rewrite footprint_one. unfold footprint_angles, linspace_closed. cbn [seq map]. unfold lonlat, ray_position, geographic. cbn [g_lon g_lat]. unfold finish, polygon. cbn [last fst snd].
  destruct (Req_EM_T (degrees 0) (degrees 0)) as [_|N]; [|congruence]. cbn. eauto.
Qed.
Lemma plain_limb edlimb s e : exists sh, compute_limb edlimb (fun _ _ _ => (0, 0, 0)) Ok (TOne s) 4 e = Ok (One sh).
Proof.
  cbn [compute_limb]. unfold limb_polygon, limb_ring. destruct (edlimb _ _ _ _) as [[c ma] mi]. unfold linspace_closed. cbn [seq map]. unfold lonlat, geographic. cbn [g_lon g_lat]. unfold finish, polygon. cbn [last fst snd].
  destruct (Req_EM_T (degrees 0) (degrees 0)) as [_|N]; [|congruence]. cbn. eauto.
Qed.
Lemma vertex_flat : flat_coverage vertex_cov.
Proof.
  intros e p x y. unfold vertex_cov. assert (V : vertices (project_poly e p) = map (project_coord e) (vertices p)).
  { unfold vertices, project_poly. cbn. now rewrite map_app, concat_map. }
  rewrite V. split.
  - intros (v & I & E). apply in_map_iff in I. destruct I as (u & <- & U). exists u. now split.
  - intros (v & I & E). exists (project_coord e v). split; [now apply in_map|exact E].
Qed.

(** *** The limb point that is used *)
Lemma dot_square a b : dot a b * dot a b <= dot a a * dot b b.
Proof.
  destruct a as [a1 a2 a3], b as [b1 b2 b3]. unfold dot. cbn [vx vy vz].
  pose proof (Rle_0_sqr (a1 * b2 - a2 * b1)). pose proof (Rle_0_sqr (a1 * b3 - a3 * b1)). pose proof (Rle_0_sqr (a2 * b3 - a3 * b2)). unfold Rsqr in *. nra.
Qed.
Lemma angle_value a b : 0 < v_norm a -> 0 < v_norm b -> np_arccos (v_dot a b / v_norm a / v_norm b) = Some (between (tov a) (tov b)).
Proof.
  intros A B. assert (E : v_dot a b / v_norm a / v_norm b = dot (tov a) (tov b) / (norm (tov a) * norm (tov b))).
  { rewrite !norm_tov. change (dot (tov a) (tov b)) with (v_dot a b). field. lra. }
  rewrite E. unfold between. set (x := dot (tov a) (tov b) / (norm (tov a) * norm (tov b))).
  assert (X : -1 <= x <= 1).
  { assert (P : 0 < norm (tov a) * norm (tov b)) by (rewrite !norm_tov; now apply Rmult_lt_0_compat).
    assert (Q : norm (tov a) * norm (tov b) * (norm (tov a) * norm (tov b)) = dot (tov a) (tov a) * dot (tov b) (tov b)).
    { unfold norm. replace (sqrt (dot (tov a) (tov a)) * sqrt (dot (tov b) (tov b)) * (sqrt (dot (tov a) (tov a)) * sqrt (dot (tov b) (tov b))))
        with ((sqrt (dot (tov a) (tov a)) * sqrt (dot (tov a) (tov a))) * (sqrt (dot (tov b) (tov b)) * sqrt (dot (tov b) (tov b)))) by ring.
      assert (S0 : forall v, 0 <= dot v v) by (intro v; unfold dot; nra). now rewrite !sqrt_sqrt. }
    pose proof (dot_square (tov a) (tov b)) as D. rewrite <- Q in D. set (n := norm (tov a) * norm (tov b)) in *. set (d := dot (tov a) (tov b)) in *.
    assert (- n <= d <= n) by nra. unfold x. fold n d. split; [apply (Rmult_le_reg_r n); [exact P|]|apply (Rmult_le_reg_r n); [exact P|]]; replace (d / n * n) with d by (field; lra); lra. }
  unfold np_arccos. destruct (Rleb _ _ && Rleb _ _) eqn:F; [reflexivity|]. exfalso. apply andb_false_iff in F. rewrite !Rleb_false in F. lra.
Qed.
Lemma nearer_lemma : forall (surfpt : v3 -> v3 -> R -> R -> R -> option v3) limb_points,
  (forall pos r a c pt, surfpt pos r a a c = Some pt -> hit pos r a c pt) ->
  forall pos vel C A roll pitch rect angle h,
  let r := ray pos vel C A roll pitch rect angle in
  let a := EARTH_EQUATORIAL_RADIUS + h in let c := EARTH_POLAR_RADIUS + h in
  let pt := projected_point surfpt limb_points pos vel C A roll pitch rect angle h in
  ~ (exists q, hit pos r a c q) -> 0 < norm (tov r) ->
  forall p q, limb_points pos a a c (v_add (v_scale (sin (PI / 2 + angle)) (ray_v vel)) (v_scale (cos (PI / 2 + angle)) (ray_n pos vel))) = (p, q) ->
  0 < norm (tov p) -> 0 < norm (tov q) ->
  between (tov r) (tov pt) = Rmin (between (tov r) (tov p)) (between (tov r) (tov q)).
Proof.
  intros surfpt limb_points found pos vel C A roll pitch rect angle h r a c pt M NR p q E NP NQ. rewrite norm_tov in NR, NP, NQ.
  unfold pt, projected_point. fold r a c. destruct (surfpt pos r a a c) as [x|] eqn:F; [exfalso; apply M; exists x; now apply found|].
  rewrite E, !angle_value by assumption. destruct (Rleb _ _) eqn:L.
  - apply Rleb_spec in L. now rewrite Rmin_left.
  - apply Rleb_false in L. rewrite Rmin_right; [reflexivity|lra].
Qed.

(** *** Direction of the rays of a rectangle *)
Lemma rect_forward th ta tc phi : 0 < th < PI / 2 -> 0 < ta -> 0 < tc -> - th <= phi < 2 * PI - th -> phi <> th -> phi <> PI - th -> phi <> PI + th ->
  0 < rect_n th ta tc phi * cos phi + rect_v th ta tc phi * sin phi.
Proof.
  intros T HA HC R0 N1 N2 N3. pose proof (rect_dir th ta tc phi T R0 N1 N2 N3) as D. pose proof PI_RGT_0 as P.
  assert (SC := sin2_cos2 phi). unfold Rsqr in SC. set (n := rect_n th ta tc phi) in *. set (v := rect_v th ta tc phi) in *.
  assert (G : (0 < n * cos phi) \/ (0 < v * sin phi)).
  { assert (F1 : forall x y, y < x -> Rleb x y = false) by (intros x y H; apply Rleb_false; lra).
    assert (T1 : forall x y, x <= y -> Rleb x y = true) by (intros; now apply Rleb_spec).
    destruct (Rlt_le_dec phi th) as [C1|C1]; [|destruct (Rlt_le_dec phi (PI - th)) as [C2|C2]; [|destruct (Rlt_le_dec phi (PI + th)) as [C3|C3]]].
    - left. unfold n, rect_n. rewrite (T1 phi th) by lra. cbn. apply Rmult_lt_0_compat; [exact HC|apply cos_gt_0; lra].
    - right. unfold v, rect_v. rewrite (T1 th phi), (T1 phi (PI - th)) by lra. cbn. apply Rmult_lt_0_compat; [exact HA|apply sin_gt_0; lra].
    - left. unfold n, rect_n. rewrite (F1 phi th), (F1 (2 * PI - th) phi), (T1 (PI - th) phi), (T1 phi (PI + th)) by lra. cbn.
      assert (cos phi < 0) by (apply cos_lt_0; lra). nra.
    - right. unfold v, rect_v. rewrite (T1 th phi), (F1 phi (PI - th)), (T1 (PI + th) phi), (T1 phi (2 * PI - th)) by lra. cbn.
      assert (sin phi < 0) by (apply sin_lt_0; lra). nra. }
  assert (K1 : n = (n * cos phi + v * sin phi) * cos phi) by (transitivity (n * (cos phi * cos phi) + (v * cos phi) * sin phi); [rewrite D; transitivity (n * (sin phi * sin phi + cos phi * cos phi)); [rewrite SC; ring|ring]|ring]).
  assert (K2 : v = (n * cos phi + v * sin phi) * sin phi) by (transitivity ((n * sin phi) * cos phi + v * (sin phi * sin phi)); [rewrite <- D; transitivity (v * (sin phi * sin phi + cos phi * cos phi)); [rewrite SC; ring|ring]|ring]).
  set (k := n * cos phi + v * sin phi) in *. destruct G as [G|G]; [rewrite K1 in G|rewrite K2 in G]; nra.
Qed.
Lemma direction_lemma : forall pos vel C A roll pitch angle, straight C A true angle ->
  exists x y, sights pos vel (ray pos vel C A roll pitch true angle) (tan_deg roll + x) (tan_deg pitch + y)
    /\ y * cos angle = x * sin angle /\ 0 < x * cos angle + y * sin angle
    /\ ((Rabs x = half_width C /\ Rabs y <= Rmax (half_width A) (half_width C * (A / C)))
        \/ (Rabs y = half_width A /\ Rabs x <= Rmax (half_width C) (half_width A * (C / A)))).
Proof.
  intros pos vel C A roll pitch angle S. cbn in S. destruct S as (HC & HA & B & N1 & N2 & N3). destruct (theta_range A C ltac:(lra) ltac:(lra)) as [T E].
  pose proof (half_width_pos C HC). pose proof (half_width_pos A HA).
  eexists _, _. split; [apply (ray_sights pos vel C A roll pitch true angle)|]. split; [now apply rect_dir|]. split; [now apply rect_forward|].
  pose proof (rect_bound (rect_theta A C) (half_width A) (half_width C) angle T ltac:(lra) ltac:(lra) ltac:(lra)) as K.
  rewrite E in K. replace (/ (A / C)) with (C / A) in K by (field; lra). exact K.
Qed.
