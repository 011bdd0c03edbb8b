(** Proofs about the geodetic coordinates of projected positions. *)
From Coq Require Import Reals ZArith List Bool Lra Lia Psatz.
From Verif Require Import Base BaseFacts RBase RFacts Mog_Model Geom_Spec Instr_Model Instr_Spec Instr_Proofs Instr_Proofs2 Poly_Model Foot_Model Foot_Spec Foot_Proofs Foot_Proofs2 Foot_Proofs3.
Import ListNotations.
Open Scope R_scope.

(** ** The contract can be met *)
Section Exists.
Variables (a f : R).
Hypotheses (PA : 0 < a) (PF : 0 <= f < 1).
Notation ee := (f * (2 - f)).
Lemma ee_bounds : 0 <= ee < 1. Proof. nra. Qed.
Lemma radicand lat : 0 < 1 - ee * (sin lat * sin lat).
Proof. pose proof (sin2_cos2 lat) as S. unfold Rsqr in S. pose proof ee_bounds. pose proof (Rle_0_sqr (cos lat)) as C. unfold Rsqr in C. pose proof (Rle_0_sqr (sin lat)) as D. unfold Rsqr in D. nra. Qed.
Notation n lat := (a / sqrt (1 - ee * (sin lat * sin lat))).
Definition balance (rho z lat : R) : R := rho * sin lat - z * cos lat - ee * n lat * (sin lat * cos lat).
Lemma balance_continuous rho z : continuity (balance rho z).
Proof.
  intro x. unfold balance, Rdiv. pose proof (radicand x) as P.
  assert (CS : continuity_pt sin x) by apply continuity_sin. assert (CC : continuity_pt cos x) by apply continuity_cos.
  assert (CK : forall k, continuity_pt (fun _ => k) x) by (intros k; apply continuity_pt_const; intros u v; reflexivity).
  assert (CR : continuity_pt (fun lat => 1 - ee * (sin lat * sin lat)) x).
  { apply continuity_pt_minus; [apply CK|]. apply continuity_pt_mult; [apply CK|]. now apply continuity_pt_mult. }
  assert (CQ : continuity_pt (fun lat => sqrt (1 - ee * (sin lat * sin lat))) x).
  { apply (continuity_pt_comp (fun lat => 1 - ee * (sin lat * sin lat)) sqrt); [exact CR|]. apply continuity_pt_sqrt. lra. }
  apply continuity_pt_minus; [apply continuity_pt_minus; apply continuity_pt_mult; auto|].
  apply continuity_pt_mult; [|apply continuity_pt_mult; auto]. apply continuity_pt_mult; [apply CK|]. apply continuity_pt_mult; [apply CK|].
  apply continuity_pt_inv; [exact CQ|]. apply Rgt_not_eq. now apply sqrt_lt_R0.
Qed.
Lemma root rho z : 0 <= rho -> 0 <= z -> {lat | 0 <= lat <= PI / 2 /\ balance rho z lat = 0}.
Proof.
  intros Hr Hz. pose proof PI_RGT_0. apply (IVT_cor (balance rho z) 0 (PI / 2)); [apply balance_continuous|lra|].
  assert (B0 : balance rho z 0 = - z) by (unfold balance; rewrite sin_0, cos_0; ring).
  assert (B1 : balance rho z (PI / 2) = rho) by (unfold balance; rewrite sin_PI2, cos_PI2; ring).
  rewrite B0, B1. nra.
Qed.
End Exists.
Definition lon_of (x y : R) : R := let r := sqrt (x * x + y * y) in if Req_EM_T r 0 then 0 else if Rle_dec 0 y then acos (x / r) else - acos (x / r).
Lemma lon_of_spec x y : let r := sqrt (x * x + y * y) in - PI <= lon_of x y <= PI /\ x = r * cos (lon_of x y) /\ y = r * sin (lon_of x y).
Proof.
  intro r. unfold lon_of. fold r. pose proof PI_RGT_0. assert (Q : 0 <= x * x + y * y) by nra. assert (RR : r * r = x * x + y * y) by (apply sqrt_sqrt; exact Q). pose proof (sqrt_pos (x * x + y * y)) as RP. fold r in RP.
  destruct (Req_EM_T r 0) as [Z|Z].
  - split; [lra|]. rewrite Z in *. assert (x = 0 /\ y = 0) as [-> ->] by (split; nra). split; ring.
  - assert (0 < r) by lra. assert (B : -1 <= x / r <= 1).
    { split; [apply (Rmult_le_reg_r r); [lra|]; unfold Rdiv; rewrite Rmult_assoc, Rinv_l by lra; nra|apply (Rmult_le_reg_r r); [lra|]; unfold Rdiv; rewrite Rmult_assoc, Rinv_l by lra; nra]. }
    assert (CA : r * cos (acos (x / r)) = x) by (rewrite cos_acos by exact B; field; lra).
    assert (SA : r * sin (acos (x / r)) = Rabs y).
    { rewrite sin_acos by exact B. apply Rsqr_inj; [|apply Rabs_pos|].
      - apply Rmult_le_pos; [lra|apply sqrt_pos].
      - rewrite <- Rsqr_abs. rewrite Rsqr_mult, Rsqr_sqrt by (unfold Rsqr; nra). unfold Rsqr. replace (r * r * (1 - x / r * (x / r))) with (r * r - x * x) by (field; lra). lra. }
    pose proof (acos_bound (x / r)) as AB. destruct (Rle_dec 0 y) as [P|P].
    + split; [lra|]. rewrite SA, Rabs_right by lra. split; [now symmetry|reflexivity].
    + split; [lra|]. rewrite cos_neg, sin_neg. split; [now symmetry|]. replace (r * - sin (acos (x / r))) with (- (r * sin (acos (x / r)))) by ring. rewrite SA, Rabs_left by lra. ring.
Qed.
Lemma converts_point p a f : 0 < a -> 0 <= f < 1 -> {t : R * R * R | let '(lon, lat, alt) := t in
  tov p = geodetic_point a f lon lat alt /\ - PI <= lon <= PI /\ - (PI / 2) <= lat <= PI / 2 /\ 0 <= v_x p * cos lon + v_y p * sin lon /\ 0 <= v_z p * sin lat}.
Proof.
  intros PA PF. destruct p as [x y z]. cbn [v_x v_y v_z]. destruct (lon_of_spec x y) as (L & X & Y). set (r := sqrt (x * x + y * y)) in *. set (lon := lon_of x y) in *.
  assert (RP : 0 <= r) by apply sqrt_pos. destruct (root a f PF r (Rabs z) RP (Rabs_pos z)) as (lat & LB & B). pose proof PI_RGT_0.
  pose proof (sin2_cos2 lon) as SC. unfold Rsqr in SC.
  set (N := a / sqrt (1 - f * (2 - f) * (sin lat * sin lat))).
  assert (A : forall alt, alt = r * cos lat + Rabs z * sin lat - N * (1 - f * (2 - f) * (sin lat * sin lat)) -> r = (N + alt) * cos lat /\ Rabs z = ((1 - f) * (1 - f) * N + alt) * sin lat).
  { intros alt ->. unfold balance in B. fold N in B. pose proof (sin2_cos2 lat) as S. unfold Rsqr in S. clear -B S. set (s := sin lat) in *. set (k := cos lat) in *. set (w := Rabs z) in *.
    assert (C2 : k * k = 1 - s * s) by lra. set (ee := f * (2 - f)) in *. assert (EF : (1 - f) * (1 - f) = 1 - ee) by (unfold ee; ring). rewrite EF. clear EF. split.
    - replace ((N + (r * k + w * s - N * (1 - ee * (s * s)))) * k) with (r * (k * k) + s * (w * k + ee * N * (s * k))) by ring. rewrite C2. replace (w * k + ee * N * (s * k)) with (r * s) by lra. ring.
    - replace (((1 - ee) * N + (r * k + w * s - N * (1 - ee * (s * s)))) * s) with (w * (s * s) + k * (r * s) - N * ee * s * (1 - s * s)) by ring.
      replace (r * s) with (w * k + ee * N * (s * k)) by lra. replace (1 - s * s) with (k * k) by lra. replace (s * s) with (1 - k * k) by lra. ring. }
  destruct (A _ eq_refl) as [A1 A2]. set (alt := r * cos lat + Rabs z * sin lat - N * (1 - f * (2 - f) * (sin lat * sin lat))) in *. clearbody alt. clear A.
  assert (SP : 0 <= sin lat) by (apply sin_ge_0; lra). assert (XY : 0 <= x * cos lon + y * sin lon) by (replace (x * cos lon + y * sin lon) with r; [exact RP|]; rewrite X, Y at 1; replace r with (r * 1) at 1 by ring; rewrite <- SC; ring).
  destruct (Rle_dec 0 z) as [P|P].
  - exists (lon, lat, alt). unfold geodetic_point, tov. cbn. fold N. rewrite Rabs_right in A2 by lra. repeat split; try lra; [|nra]. f_equal; [now rewrite <- A1|now rewrite <- A1|exact A2].
  - exists (lon, - lat, alt). unfold geodetic_point, tov. cbn. rewrite cos_neg, sin_neg. replace (- sin lat * - sin lat) with (sin lat * sin lat) by ring. fold N. rewrite Rabs_left in A2 by lra.
    repeat split; try lra; [|nra]. f_equal; [now rewrite <- A1|now rewrite <- A1|lra].
Qed.
Lemma recgeo_exists : exists recgeo, converts recgeo.
Proof.
  exists (fun p a f => match Rlt_dec 0 a, Rle_dec 0 f, Rlt_dec f 1 with
    | Specif.left A, Specif.left B, Specif.left C => proj1_sig (converts_point p a f A (conj B C)) | _, _, _ => (0, 0, 0) end).
  intros p a f A [B C]. destruct (Rlt_dec 0 a); [|lra]. destruct (Rle_dec 0 f); [|lra]. destruct (Rlt_dec f 1); [|lra]. apply proj2_sig.
Qed.

(** ** Positions *)
Lemma constants_eq : EARTH_EQUATORIAL_RADIUS = 6378137 /\ EARTH_FLATTENING = 1 / (298257223563 / 1000000000) /\ 0 <= EARTH_FLATTENING < 1.
Proof. unfold EARTH_EQUATORIAL_RADIUS, EARTH_FLATTENING. repeat split; lra. Qed.
Lemma geographic_wgs84 recgeo pt : converts recgeo -> wgs84 (geographic recgeo pt) = tov pt /\ in_range (geographic recgeo pt).
Proof.
  intro C. destruct constants_eq as (EA & EF & FB). assert (AP : 0 < EARTH_EQUATORIAL_RADIUS) by (rewrite EA; lra). specialize (C pt _ _ AP FB). unfold geographic. destruct (recgeo pt _ _) as [[lon lat] alt].
  destruct C as (E & L & T & S1 & S2). unfold in_range, wgs84. cbn [g_lon g_lat g_elev]. rewrite <- EA, <- EF. unfold degrees. pose proof PI_RGT_0 as P.
  replace (lon * (180 / PI) * (PI / 180)) with lon by (field; lra). replace (lat * (180 / PI) * (PI / 180)) with lat by (field; lra). split; [now symmetry|].
  rewrite <- E. unfold tov at 1 2 3. cbn [vx vy vz].
  assert (K : forall u v, u <= v -> u * (180 / PI) <= v * (180 / PI)) by (intros u v H; apply Rmult_le_compat_r; [apply Rlt_le; apply Rdiv_lt_0_compat; lra|exact H]).
  assert (K1 : PI * (180 / PI) = 180) by (field; lra). assert (K2 : PI / 2 * (180 / PI) = 90) by (field; lra).
  pose proof (K _ _ (proj1 L)). pose proof (K _ _ (proj2 L)). pose proof (K _ _ (proj1 T)). pose proof (K _ _ (proj2 T)). lra.
Qed.
Section Located.
Variables (surfpt : v3 -> v3 -> R -> R -> R -> option v3) (limb_points : v3 -> R -> R -> R -> v3 -> v3 * v3) (edlimb : R -> R -> R -> v3 -> v3 * v3 * v3)
  (recgeo : v3 -> R -> R -> R * R * R) (split : shape -> pyres shape) (ne ns : nat).
Hypothesis found : forall pos r a c pt, surfpt pos r a a c = Some pt -> hit pos r a c pt.
Hypothesis missed : forall pos r a c pt, surfpt pos r a a c = None -> ~ hit pos r a c pt.
Hypothesis limbs : limb_in_plane limb_points.
Hypothesis conv : converts recgeo.
Lemma ray_located s e C A roll pitch rect angle : clear_of s e ->
  locates (s_pos s) e (ray (s_pos s) (s_vel s) C A roll pitch rect angle) (ray_position surfpt limb_points recgeo C A roll pitch rect angle e s).
Proof.
  intros (L & E & O). exists (projected_point surfpt limb_points (s_pos s) (s_vel s) C A roll pitch rect angle e). split; [now apply seen_lemma|]. now apply geographic_wgs84.
Qed.
Lemma pointed_located p s e g : clear_of s e -> pointed_center surfpt limb_points recgeo p (TOne s) e = One g -> locates (s_pos s) e (centre_ray p (s_pos s) (s_vel s)) g.
Proof. intros K H. injection H as <-. now apply ray_located. Qed.
Lemma instrument_located s e g : clear_of s e -> instrument_center surfpt limb_points recgeo (TOne s) e = One g ->
  locates (s_pos s) e (ray (s_pos s) (s_vel s) 0 0 0 0 false 0) g.
Proof. intros K H. injection H as <-. now apply ray_located. Qed.
Lemma pixels_located p s e gs : clear_of s e -> pixel_array surfpt limb_points recgeo p (TOne s) e = Ok (One gs) ->
  forall i j, (i < pi_cross_pixels p)%nat -> (j < pi_along_pixels p)%nat ->
  exists g, nth_error gs (i * pi_along_pixels p + j) = Some g /\ locates (s_pos s) e (pixel_ray p (s_pos s) (s_vel s) i j) g.
Proof.
  intros K H i j I J. destruct (pixels_lemma2 surfpt limb_points recgeo p s e) as (gs' & E & _ & N). rewrite H in E. injection E as <-. destruct (N i j I J) as (g & G & P). exists g. split; [exact G|].
  unfold pixel_position, pixel_ray in *. cbn [fst snd] in P. destruct (cone_clock p i j). injection P as <-. now apply ray_located.
Qed.
Lemma outline_located s C A roll pitch rect n e sh : clear_of s e ->
  compute_footprint surfpt limb_points recgeo split ne ns (TOne s) C A roll pitch rect n e = Ok (One sh) ->
  exists gs p t, Forall2 (locates (s_pos s) e) (footprint_rays (s_pos s) (s_vel s) C A roll pitch rect (match n with Some n => n | None => if rect then ns else ne end)) gs
    /\ outlines (map (fun g => (g_lon g, g_lat g)) gs) p /\ split (SPoly p) = Ok t /\ sh = project_polygon_to_elevation t e /\ at_elevation e sh.
Proof.
  intros K H. destruct K as (L & E & O). destruct (vertices_lemma surfpt limb_points recgeo split ne ns found missed limbs s C A roll pitch rect n e sh L E O H) as (pts & p & t & V & P & T).
  exists (map (geographic recgeo) pts), p, t. split; [|rewrite map_map; now split]. clear -V conv. induction V as [|r pt rs pts S V IH]; cbn; constructor; [|exact IH]. exists pt. split; [exact S|]. now apply geographic_wgs84.
Qed.
Lemma limb_located s n e sh : limb_ellipse edlimb -> - EARTH_POLAR_RADIUS < e -> 1 < quad (EARTH_EQUATORIAL_RADIUS + e) (EARTH_POLAR_RADIUS + e) (tov (s_pos s)) ->
  compute_limb edlimb recgeo split (TOne s) n e = Ok (One sh) ->
  exists gs p t, length gs = n /\ Forall (fun g => on_horizon (EARTH_EQUATORIAL_RADIUS + e) (EARTH_POLAR_RADIUS + e) (tov (s_pos s)) (wgs84 g) /\ in_range g) gs
    /\ (forall center major minor, edlimb (EARTH_EQUATORIAL_RADIUS + e) (EARTH_EQUATORIAL_RADIUS + e) (EARTH_POLAR_RADIUS + e) (s_pos s) = (center, major, minor) ->
        forall k, (k < n)%nat -> exists g, nth_error gs k = Some g /\
        let t := INR k / INR (n - 1) * (2 * PI) in wgs84 g = add (tov center) (add (scale (cos t) (tov major)) (scale (sin t) (tov minor))))
    /\ outlines (map (fun g => (g_lon g, g_lat g)) gs) p /\ split (SPoly p) = Ok t /\ sh = project_polygon_to_elevation t e /\ at_elevation e sh.
Proof.
  intros H E O K. cbn in K. apply bind_ok in K. destruct K as (sh' & K & F). injection F as ->. unfold limb_polygon in K.
  apply finish_ok in K. destruct K as (p & t & P & T & ->). exists (map (geographic recgeo) (limb_ring edlimb n e (s_pos s))), p, t.
  split; [unfold limb_ring; destruct (edlimb _ _ _ _) as [[? ?] ?]; unfold linspace_closed; now rewrite !map_length, seq_length|]. split; [|split].
  - apply Forall_forall. intros g G. apply in_map_iff in G. destruct G as (v & <- & V). destruct (geographic_wgs84 recgeo v conv) as [W R0]. rewrite W. split; [|exact R0]. eapply limb_ring_lemma; eassumption.
  - intros center major minor ED k Hk. unfold limb_ring. rewrite ED. unfold linspace_closed. rewrite !map_map, nth_error_map.
    assert (SK : nth_error (seq 0 n) k = Some k).
    { rewrite (nth_error_nth' _ 0%nat) by (now rewrite seq_length). now rewrite seq_nth. }
    rewrite SK. eexists. split; [reflexivity|]. cbv zeta. rewrite (proj1 (geographic_wgs84 _ _ conv)).
    replace (0 + INR k * ((2 * PI - 0) / INR (n - 1))) with (INR k / INR (n - 1) * (2 * PI)) by (unfold Rdiv; ring). set (q := INR k / INR (n - 1) * (2 * PI)).
    destruct center, major, minor. unfold tov, add, scale, v_add, v_scale. cbn. f_equal; ring.
  - rewrite map_map. split; [now apply polygon_outlines|]. split; [exact T|]. split; [reflexivity|apply project_at].
Qed.
End Located.

(** ** Elevation *)
Lemma weights P Q U V : (P = 0 \/ 0 <= U) -> (Q = 0 \/ 0 <= V) -> P * P + Q * Q = 1 -> U < 1 -> V < 1 -> P * P * (U * U) + Q * Q * (V * V) = 1 -> False.
Proof.
  assert (K : forall X Y, X = 0 \/ 0 <= Y -> Y < 1 -> X * X * (Y * Y) <= X * X /\ (X <> 0 -> X * X * (Y * Y) < X * X)).
  { intros X Y H L. destruct (Req_dec X 0) as [-> | N]; [split; [lra|easy]|]. destruct H as [H|H]; [easy|]. assert (0 < X * X) by (apply Rsqr_pos_lt in N; exact N). assert (Y * Y < 1) by nra.
    set (x := X * X) in *. set (y := Y * Y) in *. clearbody x y. split; [nra|intros _; nra]. }
  intros UP VP PQ H1 H2 E. destruct (K P U UP H1) as [A1 A2]. destruct (K Q V VP H2) as [B1 B2]. destruct (Req_dec P 0) as [Z|N]; [|specialize (A2 N); lra].
  destruct (Req_dec Q 0) as [Z'|N]; [rewrite Z, Z' in PQ; lra|specialize (B2 N); lra].
Qed.
Lemma altitude_bounds a f c h n alt P Q : 0 < a -> 0 <= f < 1 -> 0 < a + h -> 0 < c + h -> 0 < n ->
  (P = 0 \/ 0 <= n + alt) -> (Q = 0 \/ 0 <= (1 - f) * (1 - f) * n + alt) -> P * P + Q * Q = 1 ->
  P * (a + alt * (a / n)) / (a + h) * (P * (a + alt * (a / n)) / (a + h)) + Q * (a * (1 - f) + alt * (a / n / (1 - f))) / (c + h) * (Q * (a * (1 - f) + alt * (a / n / (1 - f))) / (c + h)) = 1 ->
  let d := c - a * (1 - f) in
  (alt * (a / n) <= h \/ alt * (a / n) <= (h + d) * (1 - f)) /\ (h <= alt * (a / n) \/ (h + d) * (1 - f) <= alt * (a / n)).
Proof.
  intros PA PF PH PC PN NP NQ PQ EQ d. set (m := alt * (a / n)) in *. replace (alt * (a / n / (1 - f))) with (m / (1 - f)) in EQ by (unfold m; field; lra).
  assert (U0 : P = 0 \/ 0 <= a + m).
  { destruct NP as [H|H]; [now left|right]. unfold m. replace (a + alt * (a / n)) with ((n + alt) * (a / n)) by (field; lra). apply Rmult_le_pos; [exact H|]. apply Rlt_le. now apply Rdiv_lt_0_compat. }
  assert (V0 : Q = 0 \/ 0 <= a * (1 - f) + m / (1 - f)).
  { destruct NQ as [H|H]; [now left|right]. unfold m. replace (a * (1 - f) + alt * (a / n) / (1 - f)) with (((1 - f) * (1 - f) * n + alt) * (a / n / (1 - f))) by (field; lra).
    apply Rmult_le_pos; [exact H|]. apply Rlt_le. apply Rdiv_lt_0_compat; [now apply Rdiv_lt_0_compat|lra]. }
  set (U := (a + m) / (a + h)) in *. set (V := (a * (1 - f) + m / (1 - f)) / (c + h)) in *.
  assert (EQ' : P * P * (U * U) + Q * Q * (V * V) = 1) by (rewrite <- EQ; unfold U, V; field; lra).
  assert (UP : P = 0 \/ 0 <= U) by (destruct U0 as [H|H]; [now left|right; unfold U; apply Rmult_le_pos; [exact H|apply Rlt_le; now apply Rinv_0_lt_compat]]).
  assert (VP : Q = 0 \/ 0 <= V) by (destruct V0 as [H|H]; [now left|right; unfold V; apply Rmult_le_pos; [exact H|apply Rlt_le; now apply Rinv_0_lt_compat]]).
  assert (UG : 1 < U <-> h < m).
  { unfold U. split; intro H.
    - apply (Rmult_lt_compat_r (a + h)) in H; [|exact PH]. unfold Rdiv in H. rewrite Rmult_assoc, Rinv_l in H by lra. lra.
    - apply (Rmult_lt_reg_r (a + h)); [exact PH|]. unfold Rdiv. rewrite Rmult_assoc, Rinv_l by lra. lra. }
  assert (UL : U < 1 <-> m < h).
  { unfold U. split; intro H.
    - apply (Rmult_lt_compat_r (a + h)) in H; [|exact PH]. unfold Rdiv in H. rewrite Rmult_assoc, Rinv_l in H by lra. lra.
    - apply (Rmult_lt_reg_r (a + h)); [exact PH|]. unfold Rdiv. rewrite Rmult_assoc, Rinv_l by lra. lra. }
  assert (MF : m / (1 - f) * (1 - f) = m) by (field; lra). set (w := m / (1 - f)) in *.
  assert (VG : (h + d) * (1 - f) < m -> 1 < V).
  { intro H. apply (Rmult_lt_reg_r (c + h)); [exact PC|]. unfold V, Rdiv. rewrite Rmult_assoc, Rinv_l by lra. assert (h + d < w) by (apply (Rmult_lt_reg_r (1 - f)); lra). unfold d in *. lra. }
  assert (VL : m < (h + d) * (1 - f) -> V < 1).
  { intro H. apply (Rmult_lt_reg_r (c + h)); [exact PC|]. unfold V, Rdiv. rewrite Rmult_assoc, Rinv_l by lra. assert (w < h + d) by (apply (Rmult_lt_reg_r (1 - f)); lra). unfold d in *. lra. }
  assert (SQ : 0 <= P * P /\ 0 <= Q * Q) by (split; apply Rle_0_sqr). clearbody U V. split.
  - destruct (Rle_lt_dec m h) as [|H1]; [now left|]. destruct (Rle_lt_dec m ((h + d) * (1 - f))) as [|H2]; [now right|]. exfalso. apply UG in H1. apply VG in H2.
    assert (SG : forall x, 1 < x -> 1 < x * x) by (intros x X; rewrite <- (Rmult_1_l 1); apply Rmult_le_0_lt_compat; lra). pose proof (SG U H1) as SU. pose proof (SG V H2) as SV. set (u := U * U) in *. set (v := V * V) in *. set (p := P * P) in *. set (q := Q * Q) in *. clearbody u v p q.
    assert (p * (u - 1) + q * (v - 1) = 0) by lra. assert (0 <= p * (u - 1)) by (apply Rmult_le_pos; lra). assert (0 <= q * (v - 1)) by (apply Rmult_le_pos; lra).
    destruct (Rmult_integral p (u - 1)); [lra| |lra]. destruct (Rmult_integral q (v - 1)); lra.
  - destruct (Rle_lt_dec h m) as [|H1]; [now left|]. destruct (Rle_lt_dec ((h + d) * (1 - f)) m) as [|H2]; [now right|]. exfalso. apply UL in H1. apply VL in H2.
    exact (weights P Q U V UP VP PQ H1 H2 EQ').
Qed.

Lemma spread h d f m0 alt : 0 <= f < 1 / 2 -> 1 - f <= m0 <= 1 ->
  (alt * m0 <= h \/ alt * m0 <= (h + d) * (1 - f)) /\ (h <= alt * m0 \/ (h + d) * (1 - f) <= alt * m0) ->
  Rabs (alt - h) <= Rabs h * (f / (1 - f)) + 2 * Rabs d.
Proof.
  intros F M [U L]. set (x := f / (1 - f)). assert (X : x * (1 - f) = f) by (unfold x; field; lra). assert (XP : f <= x) by (unfold x; apply (Rmult_le_reg_r (1 - f)); [lra|]; fold x; rewrite X; nra).
  set (t := / m0). assert (T : t * m0 = 1) by (unfold t; field; lra). assert (TB : 1 <= t <= 1 + x).
  { split; (apply (Rmult_le_reg_r m0); [lra|]); rewrite T; [lra|]. assert ((1 + x) * (1 - f) = 1) by nra. nra. }
  set (w := (1 - f) * t). assert (WB : 1 - f <= w <= 1).
  { unfold w. split; [nra|]. assert ((1 - f) * (1 + x) = 1) by nra. nra. }
  assert (AT : alt = alt * m0 * t) by (rewrite Rmult_assoc, (Rmult_comm m0), T; ring).
  assert (KU : alt <= h * t \/ alt <= (h + d) * w).
  { destruct U as [U|U]; [left|right]; rewrite AT; [|unfold w; rewrite <- Rmult_assoc]; apply Rmult_le_compat_r; lra. }
  assert (KL : h * t <= alt \/ (h + d) * w <= alt).
  { destruct L as [L|L]; [left|right]; rewrite AT at 1; [|unfold w; rewrite <- Rmult_assoc]; apply Rmult_le_compat_r; lra. }
  clearbody t w x. assert (ND : 0 <= Rabs d) by apply Rabs_pos. assert (NH : 0 <= Rabs h) by apply Rabs_pos.
  pose proof (Rle_abs d) as D1. pose proof (Rle_abs (- d)) as D2. rewrite Rabs_Ropp in D2. pose proof (Rle_abs h) as H1. pose proof (Rle_abs (- h)) as H2. rewrite Rabs_Ropp in H2.
  assert (B1 : Rabs (h * t - h) <= Rabs h * x).
  { replace (h * t - h) with (h * (t - 1)) by ring. rewrite Rabs_mult. apply Rmult_le_compat_l; [exact NH|]. rewrite Rabs_right; lra. }
  assert (B2 : Rabs ((h + d) * w - h) <= Rabs h * x + 2 * Rabs d).
  { replace ((h + d) * w - h) with (- (h * (1 - w)) + d * w) by ring. eapply Rle_trans; [apply Rabs_triang|]. rewrite Rabs_Ropp, !Rabs_mult. rewrite (Rabs_right (1 - w)), (Rabs_right w) by lra. nra. }
  assert (INV : forall u v, Rabs u <= v -> - v <= u <= v) by (intros u v H; pose proof (Rle_abs u); pose proof (Rle_abs (- u)) as N; rewrite Rabs_Ropp in N; lra).
  apply INV in B1. apply INV in B2. apply Rabs_le. destruct KU, KL; lra.
Qed.
Lemma elevation_bounds g e : in_range g -> - EARTH_POLAR_RADIUS < e -> quad (EARTH_EQUATORIAL_RADIUS + e) (EARTH_POLAR_RADIUS + e) (wgs84 g) = 1 ->
  Rabs (g_elev g - e) <= Rabs e / 297 + 1 / 100000000.
Proof.
  intros (_ & LB & S1 & S2) E QE. unfold wgs84 in *. destruct constants_eq as (EA & _). rewrite EA in QE. set (a := 6378137) in *. set (f := 1 / (298257223563 / 1000000000)) in *. set (lon := g_lon g * (PI / 180)) in *.
  assert (FB : 0 <= f < 1 / 2) by (unfold f; lra). set (lat := g_lat g * (PI / 180)) in *. set (alt := g_elev g) in *.
  assert (CL : 0 <= cos lat). { pose proof PI_RGT_0. assert (0 <= PI / 180) by lra. apply cos_ge_0; unfold lat; [replace (- (PI / 2)) with (-90 * (PI / 180)) by field|replace (PI / 2) with (90 * (PI / 180)) by field]; apply Rmult_le_compat_r; lra. }
  unfold geodetic_point in *. cbn [vx vy vz] in *. assert (FB1 : 0 <= f < 1) by lra. pose proof (radicand f FB1 lat) as RP. set (q := 1 - f * (2 - f) * (sin lat * sin lat)) in *.
  set (m0 := sqrt q) in *. assert (MP : 0 < m0) by (unfold m0; now apply sqrt_lt_R0). assert (MM : m0 * m0 = q) by (unfold m0; apply sqrt_sqrt; lra).
  pose proof (sin2_cos2 lat) as SC. unfold Rsqr in SC. pose proof (sin2_cos2 lon) as SL. unfold Rsqr in SL. set (s := sin lat) in *. set (k := cos lat) in *.
  assert (QV : q = k * k + (1 - f) * (1 - f) * (s * s)) by (unfold q; nra).
  set (n := a / m0) in *. assert (NP : 0 < n) by (apply Rdiv_lt_0_compat; [unfold a; lra|exact MP]). assert (AN : a / n = m0) by (unfold n; field; repeat split; unfold a; lra).
  assert (MB : 1 - f <= m0 <= 1).
  { assert (0 <= s * s) by apply Rle_0_sqr. assert (0 <= k * k) by apply Rle_0_sqr. assert (HF : 0 <= (1 - f) * (1 - f) <= 1) by nra. set (y := (1 - f) * (1 - f)) in *. set (s2 := s * s) in *. assert (KK : k * k = 1 - s2) by lra. split; apply Rsqr_incr_0; unfold Rsqr; try lra; rewrite MM, QV; fold y; rewrite KK; clear -HF H H0 KK; nra. }
  set (P := k / m0). set (Q := (1 - f) * s / m0).
  assert (B := altitude_bounds a f EARTH_POLAR_RADIUS e n alt P Q). cbv zeta in B. rewrite AN in B. apply (spread e (EARTH_POLAR_RADIUS - a * (1 - f)) f m0 alt FB MB) in B.
  - eapply Rle_trans; [exact B|]. apply Rplus_le_compat.
    + unfold Rdiv at 2. apply Rmult_le_compat_l; [apply Rabs_pos|]. unfold f. lra.
    + assert (Rabs (EARTH_POLAR_RADIUS - a * (1 - f)) <= 1 / 1000000000); [|lra]. apply Rabs_le. unfold EARTH_POLAR_RADIUS, a, f. lra.
  - unfold a. lra.
  - lra.
  - unfold EARTH_POLAR_RADIUS, a in *. lra.
  - lra.
  - exact NP.
  - destruct (Req_dec k 0) as [Z|Z]; [left; unfold P; rewrite Z; unfold Rdiv; ring|right]. assert (0 <= (n + alt) * k) by (replace ((n + alt) * k) with ((n + alt) * k * (sin lon * sin lon + cos lon * cos lon)) by (rewrite SL; ring); lra). nra.
  - destruct (Req_dec s 0) as [Z|Z]; [left; unfold Q; rewrite Z; unfold Rdiv; ring|right]. assert (0 < s * s) by (apply Rsqr_pos_lt in Z; exact Z). set (y := (1 - f) * (1 - f) * n + alt) in *. clearbody y. nra.
  - unfold P, Q. replace (k / m0 * (k / m0) + (1 - f) * s / m0 * ((1 - f) * s / m0)) with ((k * k + (1 - f) * (1 - f) * (s * s)) / (m0 * m0)) by (field; lra). rewrite MM, <- QV. field. lra.
  - refine (eq_trans _ QE). unfold quad. cbn [vx vy vz].
    assert (K1 : P * (a + alt * m0) = (n + alt) * k) by (unfold P, n; field; lra).
    assert (K2 : Q * (a * (1 - f) + alt * (m0 / (1 - f))) = ((1 - f) * (1 - f) * n + alt) * s) by (unfold Q, n; field; lra).
    rewrite K1, K2. set (u := (n + alt) * k). set (v := ((1 - f) * (1 - f) * n + alt) * s).
    replace (u * cos lon * (u * cos lon) / ((a + e) * (a + e)) + u * sin lon * (u * sin lon) / ((a + e) * (a + e))) with (u * u * (sin lon * sin lon + cos lon * cos lon) / ((a + e) * (a + e))) by (unfold Rdiv; ring).
    rewrite SL. unfold EARTH_POLAR_RADIUS, a in *. field. lra.
Qed.
Lemma located_elevation pos e r g : - EARTH_POLAR_RADIUS < e -> locates pos e r g -> Rabs (g_elev g - e) <= Rabs e / 297 + 1 / 100000000.
Proof.
  intros E (pt & S & W & R0). apply elevation_bounds; [exact R0|exact E|]. rewrite W. destruct S as [S|[_ S]]; [exact (proj2 S)|exact (proj1 S)].
Qed.

Section Elevations.
Variables (surfpt : v3 -> v3 -> R -> R -> R -> option v3) (limb_points : v3 -> R -> R -> R -> v3 -> v3 * v3) (recgeo : v3 -> R -> R -> R * R * R).
Hypothesis found : forall pos r a c pt, surfpt pos r a a c = Some pt -> hit pos r a c pt.
Hypothesis missed : forall pos r a c pt, surfpt pos r a a c = None -> ~ hit pos r a c pt.
Hypothesis limbs : limb_in_plane limb_points.
Hypothesis conv : converts recgeo.
Lemma nadir_located s e g : clear_of s e -> instrument_center surfpt limb_points recgeo (TOne s) e = One g -> exists r, tov r = down (s_pos s) /\ locates (s_pos s) e r g.
Proof.
  intros K H. exists (ray (s_pos s) (s_vel s) 0 0 0 0 false 0). split; [|eapply instrument_located; eassumption].
  pose proof (ray_sights (s_pos s) (s_vel s) 0 0 0 0 false 0) as S1. cbn in S1.
  replace (half_width 0) with 0 in S1 by (unfold half_width; replace (0 / 2 * (PI / 180)) with 0 by (unfold Rdiv; ring); now rewrite tan_0). rewrite tan_deg_0, !Rmult_0_r, !Rplus_0_r in S1. unfold sights in S1. rewrite S1.
  unfold add, scale. destruct (down (s_pos s)). cbn. f_equal; ring.
Qed.
Lemma elevations_located p s e : clear_of s e ->
  (forall g, pointed_center surfpt limb_points recgeo p (TOne s) e = One g -> Rabs (g_elev g - e) <= Rabs e / 297 + 1 / 100000000)
  /\ (forall g, instrument_center surfpt limb_points recgeo (TOne s) e = One g -> Rabs (g_elev g - e) <= Rabs e / 297 + 1 / 100000000)
  /\ (forall gs, pixel_array surfpt limb_points recgeo p (TOne s) e = Ok (One gs) -> Forall (fun g => Rabs (g_elev g - e) <= Rabs e / 297 + 1 / 100000000) gs).
Proof.
  intro K. pose proof K as (_ & E & _). split; [|split].
  - intros g G. eapply located_elevation; [exact E|]. eapply pointed_located; eassumption.
  - intros g G. eapply located_elevation; [exact E|]. eapply instrument_located; eassumption.
  - intros gs G. rewrite pixels_one in G. injection G as <-. apply Forall_forall. intros g G. apply in_map_iff in G. destruct G as ([i j] & <- & _). unfold pixel_at. cbn [fst snd]. destruct (cone_clock p i j).
    eapply located_elevation; [exact E|]. now apply ray_located.
Qed.
End Elevations.
Lemma far_out_1000 : 1 < quad (EARTH_EQUATORIAL_RADIUS + 1000) (EARTH_POLAR_RADIUS + 1000) (tov far_pos).
Proof. unfold quad, tov, far_pos, EARTH_EQUATORIAL_RADIUS, EARTH_POLAR_RADIUS. cbn [v_x v_y v_z vx vy vz]. lra. Qed.
