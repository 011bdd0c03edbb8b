(** Property theorems C34, C37-C45, C175, C182 and the streets-of-coverage part of C27. *)
From Coq Require Import String Reals ZArith List Bool Lra Lia.
From Verif Require Import Base RBase RFacts Tle_Model Orbit_Model Orbit_Spec Orbit_Proofs2 Const_Model Const_Spec
  Geom_Model Geom_Spec Geom_Proofs Geom_Proofs2 Access_Proofs Geom_Proofs3 Geom_Proofs4.
Import ListNotations.
Open Scope R_scope.

(** *** C27 *)
Theorem c27_soc_members : forall I sun (s : @soc I), soc_valid s = true -> circ_valid (soc_orbit s) = true -> 0 < c_alt (soc_orbit s) ->
  soc_swath s <= 2 * EARTH_MEAN_RADIUS * horizon (c_alt (soc_orbit s)) 0 ->
  exists w ms, soc_walker s = Ok w /\ soc_members sun s = Ok ms /\ Z.of_nat (length ms) = w_number w
  /\ (forall i m, nth_error ms i = Some m -> mb_instruments m = soc_instruments s
        /\ altitude_epoch (mb_orbit m) = Some (c_alt (soc_orbit s), c_epoch (soc_orbit s))
        /\ exists d, mb_name m = soc_name s ++ [32%Z] ++ d
             /\ Forall (fun c => 48 <= c <= 57)%Z d /\ decimal_value d = (Z.of_nat i + 1)%Z)
  /\ (forall i j m m', (i < j)%nat -> nth_error ms i = Some m -> nth_error ms j = Some m' ->
        str_lt (mb_name m) (mb_name m') /\ mb_name m <> mb_name m').
Proof. exact @soc_members_lemma. Qed.
Print Assumptions c27_soc_members.

(** *** C34 *)
(** [gf] and [gp] are the angles whose half chords are the packing fraction of the footprint radius
    (times sqrt 3 / 2 for the planes); [k] satellites in each of the planes are the fewest that keep
    the spacing within them, and the spacing never exceeds one swath. *)
Theorem c34_soc_sizing : forall I (s : @soc I), soc_valid s = true -> 0 < c_alt (soc_orbit s) ->
  soc_swath s <= 2 * EARTH_MEAN_RADIUS * horizon (c_alt (soc_orbit s)) 0 ->
  exists w k gf gp, soc_walker s = Ok w /\ walker_ok w
    /\ w_orbit w = LCirc (soc_orbit s) /\ w_name w = soc_name s /\ w_instruments w = soc_instruments s /\ w_config w = Delta /\ w_spacing w = 0%Z
    /\ w_number w = (k * w_planes w)%Z /\ per_plane w = k
    /\ 0 < gf < PI /\ sin (gf / 2) = soc_packing s * sin (soc_swath s / 2 / EARTH_MEAN_RADIUS) /\ least_steps gf k
    /\ 0 < gp < PI /\ sin (gp / 2) = sqrt 3 / 2 * (soc_packing s * sin (soc_swath s / 2 / EARTH_MEAN_RADIUS)) /\ least_steps gp (w_planes w)
    /\ gf <= soc_swath s / EARTH_MEAN_RADIUS.
Proof. exact @soc_walker_lemma. Qed.
Print Assumptions c34_soc_sizing.

Theorem c34_soc_footprint : forall I (s : @soc I), 0 < c_alt (soc_orbit s) ->
  0 < soc_swath s <= 2 * EARTH_MEAN_RADIUS * horizon (c_alt (soc_orbit s)) 0 ->
  soc_gamma s = Ok (degrees (soc_swath s / 2 / EARTH_MEAN_RADIUS)) /\ 0 < soc_swath s / 2 / EARTH_MEAN_RADIUS < PI / 2.
Proof. exact @soc_gamma_value. Qed.
Print Assumptions c34_soc_footprint.

Theorem c34_soc_members : forall I sun (s : @soc I), soc_valid s = true -> circ_valid (soc_orbit s) = true -> 0 < c_alt (soc_orbit s) ->
  soc_swath s <= 2 * EARTH_MEAN_RADIUS * horizon (c_alt (soc_orbit s)) 0 ->
  exists ms k p, soc_members sun s = Ok ms /\ (1 <= k)%Z /\ (1 <= p)%Z /\ Z.of_nat (length ms) = (k * p)%Z
    /\ 360 / IZR k <= degrees (soc_swath s / EARTH_MEAN_RADIUS)
    /\ forall q j, (0 <= q < p)%Z -> (0 <= j < k)%Z -> exists m, nth_error ms (Z.to_nat (q * k + j)) = Some m
        /\ advanced sun (IZR j * (360 / IZR k)) (IZR q * (360 / IZR p)) (LCirc (soc_orbit s)) (mb_orbit m).
Proof. exact @soc_spacing_lemma. Qed.
Print Assumptions c34_soc_members.

Definition soc_a : @soc Z := mk_soc (lit "S") circ_a [1%Z] (1000 * 1000) (9 / 10).
Example c34_witness : soc_valid soc_a = true /\ circ_valid (soc_orbit soc_a) = true /\ 0 < c_alt (soc_orbit soc_a)
  /\ soc_swath soc_a <= 2 * EARTH_MEAN_RADIUS * horizon (c_alt (soc_orbit soc_a)) 0.
Proof.
  split; [unfold soc_valid, soc_a; simpl; rewrite !andb_true_iff, !Rltb_spec, Rleb_spec; lra|].
  split; [exact circ_a_valid|]. split; [simpl; lra|]. simpl.
  pose proof EMR_bounds as B. assert (L : 1 / 10 <= horizon 400000 0); [|nra].
  unfold horizon. assert (R : 0 < rho 400000 0 <= 95 / 100).
  { unfold rho. split; [apply Rdiv_lt_0_compat; lra|]. apply Rmult_le_reg_r with (EARTH_MEAN_RADIUS + 400000); [lra|].
    replace ((EARTH_MEAN_RADIUS + 0) / (EARTH_MEAN_RADIUS + 400000) * (EARTH_MEAN_RADIUS + 400000)) with EARTH_MEAN_RADIUS by (field; lra). lra. }
  destruct (Rle_dec (1 / 10) (acos (rho 400000 0))) as [|N]; auto. exfalso. apply Rnot_le_lt in N.
  pose proof (acos_bound (rho 400000 0)) as AB. pose proof PI_tight.
  assert (K : cos (1 / 10) < cos (acos (rho 400000 0))) by (apply cos_decreasing_1; lra). rewrite cos_acos in K by lra.
  pose proof (sin2_cos2 (1 / 10)) as Q. unfold Rsqr in Q. pose proof (sine_le (1 / 10) ltac:(lra)) as S1.
  assert (0 <= sin (1 / 10)) by (apply sin_ge_0; lra). assert (0 <= cos (1 / 10)) by (apply cos_ge_0; lra). nra.
Qed.

(** *** C37 *)
Theorem c37_swath_roundtrip : forall h w el, above h el -> 0 <= w <= 2 * (EARTH_MEAN_RADIUS + el) * horizon h el ->
  exists f, swath_width_to_field_of_regard h w el = Some f /\ 0 <= f < 180
    /\ off_nadir (rho h el) (w / 2 / (EARTH_MEAN_RADIUS + el)) (radians f / 2)
    /\ field_of_regard_to_swath_width h f el = Some w.
Proof. exact swath_for_swath. Qed.
Print Assumptions c37_swath_roundtrip.

Theorem c37_field_of_regard_roundtrip : forall h f el, above h el -> 0 <= radians f / 2 <= asin (rho h el) ->
  exists w, field_of_regard_to_swath_width h f el = Some w
    /\ 0 <= w <= 2 * (EARTH_MEAN_RADIUS + el) * horizon h el
    /\ off_nadir (rho h el) (w / 2 / (EARTH_MEAN_RADIUS + el)) (radians f / 2)
    /\ swath_width_to_field_of_regard h w el = Some f.
Proof. exact for_swath_for. Qed.
Print Assumptions c37_field_of_regard_roundtrip.

Example c37_witness : above EARTH_MEAN_RADIUS 0 /\ 0 <= wit_w <= 2 * (EARTH_MEAN_RADIUS + 0) * horizon EARTH_MEAN_RADIUS 0
  /\ 0 <= radians 60 / 2 <= asin (rho EARTH_MEAN_RADIUS 0).
Proof.
  split; [exact wit_above|]. pose proof EMR_bounds. pose proof PI_RGT_0. unfold horizon. rewrite wit_rho, acos_half, asin_half. unfold wit_w, radians. split; split; nra.
Qed.

(** *** C38 *)
Theorem c38_elevation_roundtrip : forall h eps el, above h el -> 0 <= eps <= 90 ->
  exists f, compute_field_of_regard h eps el = Some f /\ 0 <= f < 180
    /\ compute_min_elevation_angle h f el = Some eps.
Proof. exact elevation_for_elevation. Qed.
Print Assumptions c38_elevation_roundtrip.

(** The elevation angle, the off-nadir angle and the central angle add up to a right angle. *)
Theorem c38_field_of_regard_roundtrip : forall h f el, above h el -> 0 <= radians f / 2 <= asin (rho h el) ->
  exists eps, compute_min_elevation_angle h f el = Some eps /\ 0 <= eps <= 90
    /\ (exists lam, off_nadir (rho h el) lam (radians f / 2) /\ lam + radians f / 2 + radians eps = PI / 2)
    /\ compute_field_of_regard h eps el = Some f.
Proof. exact for_elevation_for. Qed.
Print Assumptions c38_field_of_regard_roundtrip.

Theorem c38_beyond_horizon : forall h f el, above h el -> 0 <= f <= 180 -> asin (rho h el) <= radians f / 2 ->
  compute_min_elevation_angle h f el = Some 0
  /\ field_of_regard_to_swath_width h f el = Some (2 * (EARTH_MEAN_RADIUS + el) * horizon h el).
Proof. exact beyond_horizon. Qed.
Print Assumptions c38_beyond_horizon.

Example c38_witness : above EARTH_MEAN_RADIUS 0 /\ 0 <= radians 60 / 2 <= asin (rho EARTH_MEAN_RADIUS 0)
  /\ asin (rho EARTH_MEAN_RADIUS 0) <= radians 90 / 2.
Proof.
  split; [exact wit_above|]. pose proof PI_RGT_0. rewrite wit_rho, asin_half. unfold radians. split; [split|]; nra.
Qed.

(** *** C39 *)
(** Full statement: for all fields of regard in (0,360].  True up to 180 degrees only. *)
Theorem c39_swath_monotone_partial : forall h f f' el w w', above h el -> 0 <= f -> f <= f' -> f' <= 180 ->
  field_of_regard_to_swath_width h f el = Some w -> field_of_regard_to_swath_width h f' el = Some w' -> w <= w'.
Proof. exact swath_monotone. Qed.
Print Assumptions c39_swath_monotone_partial.

Theorem c39_elevation_antitone_partial : forall h f f' el e e', above h el -> 0 <= f -> f <= f' -> f' <= 180 ->
  compute_min_elevation_angle h f el = Some e -> compute_min_elevation_angle h f' el = Some e' -> e' <= e.
Proof. exact elevation_antitone. Qed.
Print Assumptions c39_elevation_antitone_partial.
Example c39_witness : above 400000 0 /\ exists w w' e e', field_of_regard_to_swath_width 400000 30 0 = Some w
  /\ field_of_regard_to_swath_width 400000 60 0 = Some w' /\ compute_min_elevation_angle 400000 30 0 = Some e
  /\ compute_min_elevation_angle 400000 60 0 = Some e'.
Proof.
  assert (A : above 400000 0) by (unfold above; pose proof EMR_bounds; lra). split; [exact A|].
  destruct (bounded 400000 30 0 A) as [(w & E1 & _) (e & E2 & _)]; [lra|].
  destruct (bounded 400000 60 0 A) as [(w' & E3 & _) (e' & E4 & _)]; [lra|]. exists w, w', e, e'. auto.
Qed.

Theorem c39_wider_sees_less_refuted : forall h el, above h el -> exists f f' w w' e e',
  0 < f /\ f < f' /\ f' <= 360
  /\ field_of_regard_to_swath_width h f el = Some w /\ field_of_regard_to_swath_width h f' el = Some w' /\ w' < w
  /\ compute_min_elevation_angle h f el = Some e /\ compute_min_elevation_angle h f' el = Some e' /\ e < e'.
Proof. exact wider_refuted. Qed.
Print Assumptions c39_wider_sees_less_refuted.

(** *** C40 *)
Theorem c40_bounded : forall h f el, above h el -> 0 <= f <= 180 ->
  (exists w, field_of_regard_to_swath_width h f el = Some w /\ 0 <= w <= 2 * (EARTH_MEAN_RADIUS + el) * horizon h el)
  /\ (exists e, compute_min_elevation_angle h f el = Some e /\ 0 <= e <= 90).
Proof. exact bounded. Qed.
Print Assumptions c40_bounded.

Theorem c40_bounded_full_range : forall h f el, above h el -> 0 <= f <= 360 ->
  (exists w, field_of_regard_to_swath_width h f el = Some w /\ w <= 2 * (EARTH_MEAN_RADIUS + el) * horizon h el /\ 0 <= w)
  /\ (exists e, compute_min_elevation_angle h f el = Some e /\ 0 <= e <= 90).
Proof. exact bounded_full. Qed.
Print Assumptions c40_bounded_full_range.

Theorem c40_on_surface : forall h f, - EARTH_MEAN_RADIUS < h -> 0 <= f <= 180 ->
  field_of_regard_to_swath_width h f h = Some 0
  /\ (exists e, compute_min_elevation_angle h f h = Some e /\ 0 <= e <= 90 /\ e = 90 - f / 2).
Proof. exact on_surface. Qed.
Print Assumptions c40_on_surface.

Example c40_witness : above 400000 0 /\ above 400000 8849. Proof. unfold above. pose proof EMR_bounds. lra. Qed.

(** *** C41 *)
Theorem c41_nadir_field_of_view : forall h w el, above h el ->
  swath_width_to_field_of_view h w 0 el = swath_width_to_field_of_regard h w el.
Proof. exact nadir_fov. Qed.
Print Assumptions c41_nadir_field_of_view.

Theorem c41_nadir_defined : forall h w el, above h el -> exists f, swath_width_to_field_of_view h w 0 el = Some f.
Proof. exact nadir_fov_defined. Qed.
Print Assumptions c41_nadir_defined.
Example c41_witness : above 400000 0 /\ above 35786000 8849.
Proof. unfold above. pose proof EMR_bounds. lra. Qed.

(** *** C42 *)
(** Full statement: the swath is centred at off-nadir angle [look].  The code centres it at [look / 2]. *)
Theorem c42_half_look_angle_partial : forall h w look el, above h el -> 0 <= w -> 0 <= radians look / 2 <= asin (rho h el) ->
  exists lc, 0 <= lc <= horizon h el /\ off_nadir (rho h el) lc (radians look / 2)
    /\ (lc + w / 2 / (EARTH_MEAN_RADIUS + el) <= PI / 2 ->
        exists f, swath_width_to_field_of_view h w look el = Some f /\ subtends h el w lc f).
Proof. exact half_look. Qed.
Print Assumptions c42_half_look_angle_partial.
Example c42_witness : above EARTH_MEAN_RADIUS 0 /\ 0 <= wit_w /\ 0 <= radians 40 / 2 <= asin (rho EARTH_MEAN_RADIUS 0)
  /\ forall lc, lc <= horizon EARTH_MEAN_RADIUS 0 -> lc + wit_w / 2 / (EARTH_MEAN_RADIUS + 0) <= PI / 2.
Proof.
  split; [exact wit_above|]. pose proof EMR_bounds. pose proof PI_RGT_0. unfold horizon. rewrite wit_rho, wit_half, acos_half, asin_half.
  unfold wit_w, radians. split; [nra|]. split; [lra|]. intros lc L. lra.
Qed.

Theorem c42_look_angle_refuted : exists h w look el lc f f',
  above h el /\ 0 < w /\ 0 < look < 90 /\ 0 <= lc <= horizon h el
  /\ off_nadir (rho h el) lc (look * (PI / 180)) /\ subtends h el w lc f
  /\ swath_width_to_field_of_view h w look el = Some f' /\ f < f'.
Proof. exact look_angle_refuted_lemma. Qed.
Print Assumptions c42_look_angle_refuted.

(** *** C43 *)
(** Full statement: compute_ground_velocity h i = Some (ground_speed h i) for every inclination. *)
Theorem c43_polar_refuted : forall h, - EARTH_MEAN_RADIUS < h -> exists v, compute_ground_velocity h 90 = Some v /\ v <> ground_speed h 90
  /\ ground_speed h 90 = EARTH_MEAN_RADIUS * kepler_rate h.
Proof. exact polar_refuted_lemma. Qed.
Print Assumptions c43_polar_refuted.

Theorem c43_error_bounded_partial : forall h i, - EARTH_MEAN_RADIUS < h -> exists v, compute_ground_velocity h i = Some v
  /\ Rabs (v - ground_speed h i) <= 2 * EARTH_MEAN_RADIUS * earth_rate
  /\ (cos (degrees i) = cos (radians i) -> v = ground_speed h i)
  /\ (v = ground_speed h i -> cos (degrees i) = cos (radians i)).
Proof. exact ground_velocity_close. Qed.
Print Assumptions c43_error_bounded_partial.

Theorem c43_equatorial_partial : forall h, - EARTH_MEAN_RADIUS < h -> compute_ground_velocity h 0 = Some (ground_speed h 0).
Proof. exact equatorial_ok. Qed.
Print Assumptions c43_equatorial_partial.
Example c43_witness : - EARTH_MEAN_RADIUS < 500000.
Proof. pose proof EMR_bounds. lra. Qed.

(** *** C44 *)
Theorem c44_inverse : forall h i, - EARTH_MEAN_RADIUS < h <= 35000000 ->
  (forall d, exists t, along_track_distance_to_access_time h i d = Some t /\ access_time_to_along_track_distance h i t = Some d)
  /\ (forall t, exists d, access_time_to_along_track_distance h i t = Some d /\ along_track_distance_to_access_time h i d = Some t).
Proof. exact along_track_inverse_lemma. Qed.
Print Assumptions c44_inverse.

Theorem c44_monotone : forall h i d d' t t', - EARTH_MEAN_RADIUS < h <= 35000000 ->
  along_track_distance_to_access_time h i d = Some t -> along_track_distance_to_access_time h i d' = Some t' -> (d < d' <-> t < t').
Proof. exact along_track_monotone_lemma. Qed.
Print Assumptions c44_monotone.

Theorem c44_velocity : forall h i d v t, - EARTH_MEAN_RADIUS < h <= 35000000 -> compute_ground_velocity h i = Some v ->
  along_track_distance_to_access_time h i d = Some t -> 0 < v /\ d = v * t.
Proof. exact along_track_velocity. Qed.
Print Assumptions c44_velocity.

Example c44_witness : - EARTH_MEAN_RADIUS < 400000 <= 35000000. Proof. pose proof EMR_bounds. lra. Qed.

(** *** C45 *)
(** Full statement: no pass outlasts the bound, at every altitude.  True up to 10,000 km. *)
Theorem c45_access_bound_partial : forall h e m e1 e2 p t1 t2, 0 < h <= 10000000 -> 0 <= e <= 90 -> compute_max_access_time h e = Some m ->
  unit e1 -> unit e2 -> dot e1 e2 = 0 -> unit p ->
  pass (e * (PI / 180)) (orbit_pos (EARTH_MEAN_RADIUS + h) (kepler_rate h) e1 e2) (ground_pos EARTH_MEAN_RADIUS earth_rate p) t1 t2 ->
  t2 - t1 <= m.
Proof. exact access_bound_lemma. Qed.
Print Assumptions c45_access_bound_partial.

Theorem c45_access_bound_refuted : exists h m t1 t2 e1 e2 p, 0 < h /\ unit e1 /\ unit e2 /\ dot e1 e2 = 0 /\ unit p
  /\ compute_max_access_time h 0 = Some m
  /\ pass 0 (orbit_pos (EARTH_MEAN_RADIUS + h) (kepler_rate h) e1 e2) (ground_pos EARTH_MEAN_RADIUS earth_rate p) t1 t2
  /\ m < t2 - t1.
Proof. exact access_refuted_lemma. Qed.
Print Assumptions c45_access_bound_refuted.

Theorem c45_shape : forall h, - EARTH_MEAN_RADIUS < h ->
  (forall e, e <= 90 -> exists m, compute_max_access_time h e = Some m /\ 0 <= m)
  /\ (forall e e' m m', compute_max_access_time h e = Some m -> compute_max_access_time h e' = Some m' -> (e < e' <-> m' < m))
  /\ (exists p m, compute_orbit_period h = Some p /\ compute_max_access_time h 0 = Some m /\ m = p / 2)
  /\ compute_max_access_time h 90 = Some 0.
Proof. exact access_props. Qed.
Print Assumptions c45_shape.

(** A pass of positive length: a satellite at 400 km overhead of an equatorial point. *)
Example c45_witness : exists t, 0 < t /\
  pass 0 (orbit_pos (EARTH_MEAN_RADIUS + 400000) (kepler_rate 400000) ex ey) (ground_pos EARTH_MEAN_RADIUS earth_rate ex) 0 t.
Proof. exact short_pass. Qed.

(** *** C175: what raising an orbit changes *)
(** The same field of regard covers a wider swath, *)
Theorem c175_swath_wider : forall h h' f el w w', above h el -> h < h' -> 0 < f <= 180 ->
  field_of_regard_to_swath_width h f el = Some w -> field_of_regard_to_swath_width h' f el = Some w' -> w < w'.
Proof. exact higher_swath. Qed.
Print Assumptions c175_swath_wider.
(** and reaches lower elevation angles, until it reaches the horizon; *)
Theorem c175_elevation_lower : forall h h' f el e e', above h el -> h < h' -> 0 < f <= 180 ->
  compute_min_elevation_angle h f el = Some e -> compute_min_elevation_angle h' f el = Some e' ->
  e' <= e /\ (0 < e -> e' < e).
Proof. exact higher_elevation. Qed.
Print Assumptions c175_elevation_lower.
(** a smaller field of regard is enough for the same elevation angle, *)
Theorem c175_field_narrower : forall h h' eps el f f', above h el -> h < h' -> 0 <= eps < 90 ->
  compute_field_of_regard h eps el = Some f -> compute_field_of_regard h' eps el = Some f' -> f' < f.
Proof. exact higher_field. Qed.
Print Assumptions c175_field_narrower.
(** and for the same swath; *)
Theorem c175_swath_field_narrower : forall h h' w el f f', above h el -> h < h' -> 0 < w <= 2 * (EARTH_MEAN_RADIUS + el) * horizon h el ->
  swath_width_to_field_of_regard h w el = Some f -> swath_width_to_field_of_regard h' w el = Some f' -> f' < f.
Proof. exact higher_swath_field. Qed.
Print Assumptions c175_swath_field_narrower.
(** the bound on the access time grows; *)
Theorem c175_access_longer : forall h h' e m m', - EARTH_MEAN_RADIUS < h -> h < h' -> 0 <= e < 90 ->
  compute_max_access_time h e = Some m -> compute_max_access_time h' e = Some m' -> m < m'.
Proof. exact higher_access. Qed.
Print Assumptions c175_access_longer.
(** the ground velocity shrinks. *)
Theorem c175_velocity_lower : forall h h' i v v', - EARTH_MEAN_RADIUS < h -> h < h' ->
  compute_ground_velocity h i = Some v -> compute_ground_velocity h' i = Some v' -> v' < v.
Proof. exact higher_velocity. Qed.
Print Assumptions c175_velocity_lower.
Example c175_witness : above 400000 0 /\ 400000 < 800000 /\ - EARTH_MEAN_RADIUS < 400000
  /\ (exists w w', field_of_regard_to_swath_width 400000 60 0 = Some w /\ field_of_regard_to_swath_width 800000 60 0 = Some w')
  /\ exists e, compute_min_elevation_angle 400000 60 0 = Some e.
Proof. exact higher_witness. Qed.

(** *** C182: how the size of a streets-of-coverage constellation depends on its swath *)
(** As long as the swaths end within the horizon, a wider swath (or a larger packing distance, at any
    altitude) never needs more planes, satellites in a plane or satellites. *)
Theorem c182_wider_never_more : forall I (s s' : @soc I) w w', soc_valid s = true -> soc_valid s' = true -> 0 < c_alt (soc_orbit s) -> 0 < c_alt (soc_orbit s') ->
  soc_packing s <= soc_packing s' -> soc_swath s <= soc_swath s' ->
  soc_swath s <= 2 * EARTH_MEAN_RADIUS * horizon (c_alt (soc_orbit s)) 0 ->
  soc_swath s' <= 2 * EARTH_MEAN_RADIUS * horizon (c_alt (soc_orbit s')) 0 ->
  soc_walker s = Ok w -> soc_walker s' = Ok w' ->
  (w_planes w' <= w_planes w)%Z /\ (per_plane w' <= per_plane w)%Z /\ (w_number w' <= w_number w)%Z.
Proof. exact @soc_mono_lemma. Qed.
Print Assumptions c182_wider_never_more.
(** Beyond the horizon that fails: to every constellation there is a wider swath, still accepted, that
    needs more satellites. *)
Theorem c182_wider_more_refuted : forall I (s : @soc I) w, soc_valid s = true -> 0 < c_alt (soc_orbit s) ->
  soc_swath s <= 2 * EARTH_MEAN_RADIUS * horizon (c_alt (soc_orbit s)) 0 -> soc_walker s = Ok w ->
  exists x w', soc_swath s < x < 2 * PI * EARTH_MEAN_RADIUS
    /\ soc_walker (mk_soc (soc_name s) (soc_orbit s) (soc_instruments s) x (soc_packing s)) = Ok w' /\ (w_number w < w_number w')%Z.
Proof. exact @soc_wider_more_lemma. Qed.
Print Assumptions c182_wider_more_refuted.
(** A swath and the rest of the circumference give the same constellation or the same error. *)
Theorem c182_reflection : forall I (s : @soc I),
  soc_walker (mk_soc (soc_name s) (soc_orbit s) (soc_instruments s) (2 * PI * EARTH_MEAN_RADIUS - soc_swath s) (soc_packing s)) = soc_walker s.
Proof. exact @soc_reflect_lemma. Qed.
Print Assumptions c182_reflection.
(** The footprint of radius [g] (an Earth central angle) the constellation is sized for: the half swath
    within the horizon; beyond it the near point on the line of sight to the edge of the swath, which
    lies before the horizon. *)
Theorem c182_any_swath : forall I (s : @soc I), soc_valid s = true -> 0 < c_alt (soc_orbit s) -> 0 < sin (soc_swath s / 2 / EARTH_MEAN_RADIUS) ->
  exists w k g eta gf gp, soc_walker s = Ok w /\ soc_gamma s = Ok (degrees g) /\ walker_ok w
    /\ 0 < g <= horizon (c_alt (soc_orbit s)) 0
    /\ off_nadir (rho (c_alt (soc_orbit s)) 0) g eta /\ off_nadir (rho (c_alt (soc_orbit s)) 0) (asin (sin (soc_swath s / 2 / EARTH_MEAN_RADIUS))) eta
    /\ (asin (sin (soc_swath s / 2 / EARTH_MEAN_RADIUS)) <= horizon (c_alt (soc_orbit s)) 0 -> g = asin (sin (soc_swath s / 2 / EARTH_MEAN_RADIUS)))
    /\ (horizon (c_alt (soc_orbit s)) 0 < asin (sin (soc_swath s / 2 / EARTH_MEAN_RADIUS)) -> g < horizon (c_alt (soc_orbit s)) 0)
    /\ w_number w = (k * w_planes w)%Z /\ per_plane w = k
    /\ 0 < gf < PI /\ sin (gf / 2) = soc_packing s * sin g /\ least_steps gf k
    /\ 0 < gp < PI /\ sin (gp / 2) = sqrt 3 / 2 * (soc_packing s * sin g) /\ least_steps gp (w_planes w)
    /\ gf <= 2 * g.
Proof. exact @soc_any_lemma. Qed.
Print Assumptions c182_any_swath.
(** A swath of whole circumferences divides by zero, *)
Theorem c182_whole_turns : forall I (s : @soc I), 0 < c_alt (soc_orbit s) -> sin (soc_swath s / 2 / EARTH_MEAN_RADIUS) = 0 ->
  soc_walker s = Raise ZeroDivisionError.
Proof. exact @soc_turn_lemma. Qed.
Print Assumptions c182_whole_turns.
(** and one between one and two circumferences gives negative counts, which the walker rejects. *)
Theorem c182_beyond_a_turn : forall I (s : @soc I), soc_valid s = true -> 0 < c_alt (soc_orbit s) -> sin (soc_swath s / 2 / EARTH_MEAN_RADIUS) < 0 ->
  soc_walker s = Raise ValidationError.
Proof. exact @soc_far_lemma. Qed.
Print Assumptions c182_beyond_a_turn.
(** A 400 km orbit with swaths of half, one and one and a half circumferences. *)
Definition soc_turns (x : R) : @soc nat := mk_soc (soc_name soc_a) (soc_orbit soc_a) [] (x * (PI * EARTH_MEAN_RADIUS)) (soc_packing soc_a).
Example c182_witness : soc_valid (soc_turns 1) = true /\ soc_valid (soc_turns 3) = true /\ 0 < c_alt (soc_orbit (soc_turns 1))
  /\ 0 < sin (soc_swath (soc_turns 1) / 2 / EARTH_MEAN_RADIUS) /\ horizon (c_alt (soc_orbit (soc_turns 1))) 0 < asin (sin (soc_swath (soc_turns 1) / 2 / EARTH_MEAN_RADIUS))
  /\ sin (soc_swath (soc_turns 2) / 2 / EARTH_MEAN_RADIUS) = 0 /\ sin (soc_swath (soc_turns 3) / 2 / EARTH_MEAN_RADIUS) < 0.
Proof.
  pose proof EMR_bounds as B. pose proof PI_RGT_0 as P.
  assert (E : forall x, soc_swath (soc_turns x) / 2 / EARTH_MEAN_RADIUS = x * (PI / 2)) by (intro x; unfold soc_turns; cbn [soc_swath]; field; lra).
  rewrite !E, Rmult_1_l, sin_PI2. assert (PR : 0 < PI * EARTH_MEAN_RADIUS) by (apply Rmult_lt_0_compat; lra).
  split; [unfold soc_valid, soc_turns, soc_a; cbn [soc_swath soc_packing]; rewrite !andb_true_iff, !Rltb_spec, Rleb_spec; lra|].
  split; [unfold soc_valid, soc_turns, soc_a; cbn [soc_swath soc_packing]; rewrite !andb_true_iff, !Rltb_spec, Rleb_spec; lra|].
  split; [simpl; lra|]. split; [lra|]. split.
  - rewrite asin_1. unfold horizon. assert (R : 0 < rho (c_alt (soc_orbit (soc_turns 1))) 0 < 1) by (apply rho_range; unfold above; simpl; lra).
    rewrite acos_asin by lra. pose proof (asin_lt_PI2 _ R). lra.
  - split; [replace (2 * (PI / 2)) with PI by lra; apply sin_PI|]. replace (3 * (PI / 2)) with (PI / 2 + PI) by lra. rewrite neg_sin, sin_PI2. lra.
Qed.
