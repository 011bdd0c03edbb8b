(** Properties of footprints, limbs and pixel arrays: C130-C136 and C143-C145, and further parts of C51 and C109. *)
From Coq Require Import Reals ZArith List Bool Lra Lia.
From Verif Require Import Base RBase RFacts Mog_Model Geom_Spec Geom_Proofs Instr_Model Instr_Spec Instr_Proofs Instr_Proofs2 Poly_Model Poly_Spec Poly_Proofs Poly_Proofs2 Foot_Model Foot_Spec Foot_Proofs Foot_Proofs2 Foot_Proofs3 Foot_Proofs4 Foot_Proofs5.
Import ListNotations.
Open Scope R_scope.

(** *** C130 *)
(** For every implementation of SPICE's surfpt, edlimb and inelpl that meets its contract.  A level instrument
    that looks past the Earth is projected to a point of the horizon in the plane of its line of sight and the
    nadir: circular fields of view in every direction, rectangular ones away from the corners. *)
Theorem c130_limb_plane_partial : forall surfpt limb_points,
  (forall pos r a c pt, surfpt pos r a a c = Some pt -> hit pos r a c pt) ->
  (forall pos r a c pt, surfpt pos r a a c = None -> ~ hit pos r a c pt) -> limb_in_plane limb_points ->
  forall pos vel C A rect angle h, level pos vel -> - EARTH_POLAR_RADIUS < h -> straight C A rect angle ->
  let a := EARTH_EQUATORIAL_RADIUS + h in let c := EARTH_POLAR_RADIUS + h in
  1 < quad a c (tov pos) ->
  let r := ray pos vel C A 0 0 rect angle in
  let pt := projected_point surfpt limb_points pos vel C A 0 0 rect angle h in
  ~ (exists q, hit pos r a c q) ->
  on_horizon a c (tov pos) (tov pt) /\ coplanar (sub (tov pt) (tov pos)) (tov r) (down pos).
Proof. exact limb_plane. Qed.
Print Assumptions c130_limb_plane_partial.
(** The centre of an instrument pitched so far that it looks past the Earth is projected out of that plane. *)
Theorem c130_limb_plane_refuted : exists p pos vel, pointed_valid p = true /\ level pos vel
  /\ 1 < quad (EARTH_EQUATORIAL_RADIUS + 0) (EARTH_POLAR_RADIUS + 0) (tov pos)
  /\ ~ (exists q, hit pos (centre_ray p pos vel) (EARTH_EQUATORIAL_RADIUS + 0) (EARTH_POLAR_RADIUS + 0) q)
  /\ forall surfpt limb_points,
     (forall pos r a c pt, surfpt pos r a a c = Some pt -> hit pos r a c pt) ->
     (forall pos r a c pt, surfpt pos r a a c = None -> ~ hit pos r a c pt) -> limb_in_plane limb_points ->
     exists pt, pointed_center surfpt limb_points (fun p _ _ => (v_x p, v_y p, v_z p)) p (TOne (mk_sample pos vel)) 0 = One (mk_geo (degrees (v_x pt)) (degrees (v_y pt)) (v_z pt))
       /\ ~ coplanar (sub (tov pt) (tov pos)) (tov (centre_ray p pos vel)) (down pos).
Proof.
  exists slanted, far_pos, ex_vel. split; [exact slanted_valid|]. split; [exact far_level|]. split; [exact far_out|].
  assert (M : ~ exists q, hit far_pos (centre_ray slanted far_pos ex_vel) (EARTH_EQUATORIAL_RADIUS + 0) (EARTH_POLAR_RADIUS + 0) q).
  { apply (slant_misses _ (tan_deg 60)); [exact (slant_ray slanted eq_refl)|]. rewrite slant_tan. exact sqrt3. }
  split; [exact M|]. intros surfpt limb_points F N L. eexists. split; [reflexivity|].
  apply (pitched_off surfpt limb_points F N L far_pos ex_vel 60 0); [exact far_level|unfold EARTH_POLAR_RADIUS; lra| |exact far_out|exact M].
  rewrite slant_tan. intro Z. pose proof sqrt3. rewrite Z in H. lra.
Qed.
Print Assumptions c130_limb_plane_refuted.
Example c130_witness : (exists surfpt limb_points,
    (forall pos r a c pt, surfpt pos r a a c = Some pt -> hit pos r a c pt)
    /\ (forall pos r a c pt, surfpt pos r a a c = None -> ~ hit pos r a c pt) /\ limb_in_plane limb_points)
  /\ level far_pos ex_vel /\ straight 120 120 false (PI / 2)
  /\ 1 < quad (EARTH_EQUATORIAL_RADIUS + 0) (EARTH_POLAR_RADIUS + 0) (tov far_pos)
  /\ ~ (exists q, hit far_pos (ray far_pos ex_vel 120 120 0 0 false (PI / 2)) (EARTH_EQUATORIAL_RADIUS + 0) (EARTH_POLAR_RADIUS + 0) q).
Proof.
  split.
  - destruct surfpt_exists as (s & F & N & _). destruct limb_points_exist as (l & L). now exists s, l.
  - split; [exact far_level|]. split; [reflexivity|]. split; [exact far_out|]. apply (slant_misses _ (sqrt 3)); [exact wide_ray|exact sqrt3].
Qed.

(** *** C131 *)
Theorem c131_limb : forall edlimb recgeo split s n e sh, limb_ellipse edlimb -> - EARTH_POLAR_RADIUS < e ->
  1 < quad (EARTH_EQUATORIAL_RADIUS + e) (EARTH_POLAR_RADIUS + e) (tov (s_pos s)) ->
  compute_limb edlimb recgeo split (TOne s) n e = Ok (One sh) ->
  exists ring p t, length ring = n
    /\ (forall v, In v ring -> on_horizon (EARTH_EQUATORIAL_RADIUS + e) (EARTH_POLAR_RADIUS + e) (tov (s_pos s)) (tov v))
    /\ polygon (map (fun v => (g_lon (geographic recgeo v), g_lat (geographic recgeo v))) ring) = Ok p
    /\ split (SPoly p) = Ok t /\ sh = project_polygon_to_elevation t e /\ at_elevation e sh.
Proof. exact limb_lemma. Qed.
Print Assumptions c131_limb.
Theorem c131_limb_times : forall edlimb recgeo split l n e,
  (forall shs, compute_limb edlimb recgeo split (TMany l) n e = Ok (Many shs) <->
     Forall2 (fun s sh => compute_limb edlimb recgeo split (TOne s) n e = Ok (One sh)) l shs)
  /\ (forall x, compute_limb edlimb recgeo split (TMany l) n e = Ok x -> exists shs, x = Many shs).
Proof. exact limb_times. Qed.
Print Assumptions c131_limb_times.
Example c131_witness : (exists edlimb, limb_ellipse edlimb)
  /\ 1 < quad (EARTH_EQUATORIAL_RADIUS + 0) (EARTH_POLAR_RADIUS + 0) (tov far_pos)
  /\ forall edlimb, exists sh, compute_limb edlimb (fun _ _ _ => (0, 0, 0)) Ok (TOne far) 4 0 = Ok (One sh).
Proof. split; [exact edlimb_exists|]. split; [exact far_out|]. intro edlimb. apply plain_limb. Qed.

(** *** C132 *)
(** Every vertex of the footprint of an instrument is half the field of regard off nadir, or on the horizon,
    if the field of regard is below 180 degrees; above, the angle decreases again. *)
Theorem c132_field_of_regard_partial : forall surfpt limb_points recgeo split ne ns,
  (forall pos r a c pt, surfpt pos r a a c = Some pt -> hit pos r a c pt) ->
  (forall pos r a c pt, surfpt pos r a a c = None -> ~ hit pos r a c pt) -> limb_in_plane limb_points ->
  forall s F n e sh, level (s_pos s) (s_vel s) -> - EARTH_POLAR_RADIUS < e ->
  let a := EARTH_EQUATORIAL_RADIUS + e in let c := EARTH_POLAR_RADIUS + e in
  1 < quad a c (tov (s_pos s)) -> 0 < F <= 360 -> F <> 180 ->
  instrument_footprint surfpt limb_points recgeo split ne ns F (TOne s) n e = Ok (One sh) ->
  exists pts p t, length pts = match n with Some n => n | None => ne end
    /\ Forall (fun pt => quad a c (tov pt) = 1
         /\ (between (sub (tov pt) (tov (s_pos s))) (down (s_pos s)) = Rmin F (360 - F) / 2 * (PI / 180) \/ on_horizon a c (tov (s_pos s)) (tov pt))) pts
    /\ outlines (map (fun pt => (g_lon (geographic recgeo pt), g_lat (geographic recgeo pt))) pts) p /\ split (SPoly p) = Ok t /\ sh = project_polygon_to_elevation t e.
Proof. intros surfpt limb_points recgeo split ne ns F N L. exact (regard_lemma surfpt limb_points recgeo split ne ns F N L). Qed.
Print Assumptions c132_field_of_regard_partial.
(** "The lines of sight of a footprint are half the field of regard off nadir" is false above 180 degrees. *)
Theorem c132_field_of_regard_refuted : exists F, regard_valid F = true
  /\ forall pos vel angle, level pos vel -> between (tov (ray pos vel F F 0 0 false angle)) (down pos) <> F / 2 * (PI / 180).
Proof.
  exists 240. split; [unfold regard_valid; rewrite andb_true_iff, Rltb_spec, Rleb_spec; lra|]. intros pos vel angle L.
  rewrite circle_wide by (assumption || lra). pose proof PI_RGT_0. nra.
Qed.
Print Assumptions c132_field_of_regard_refuted.
Example c132_witness : level (s_pos far) (s_vel far) /\ 1 < quad (EARTH_EQUATORIAL_RADIUS + 0) (EARTH_POLAR_RADIUS + 0) (tov (s_pos far))
  /\ forall surfpt limb_points, exists sh, instrument_footprint surfpt limb_points (fun _ _ _ => (0, 0, 0)) Ok 10 10 60 (TOne far) (Some 4%nat) 0 = Ok (One sh).
Proof. split; [exact far_level|]. split; [exact far_out|]. intros. apply plain_footprint. Qed.

(** *** C133 *)
Theorem c133_footprint_times : forall surfpt limb_points recgeo split ne ns l C A roll pitch rect n e, (2 <= length l)%nat ->
  (forall shs, compute_footprint surfpt limb_points recgeo split ne ns (TMany l) C A roll pitch rect n e = Ok (Many shs) <->
     Forall2 (fun s sh => compute_footprint surfpt limb_points recgeo split ne ns (TOne s) C A roll pitch rect n e = Ok (One sh)) l shs)
  /\ (forall x, compute_footprint surfpt limb_points recgeo split ne ns (TMany l) C A roll pitch rect n e = Ok x -> exists shs, x = Many shs).
Proof. exact footprint_times. Qed.
Print Assumptions c133_footprint_times.
Theorem c133_footprint_single : forall surfpt limb_points recgeo split ne ns s C A roll pitch rect n e,
  compute_footprint surfpt limb_points recgeo split ne ns (TMany [s]) C A roll pitch rect n e
  = compute_footprint surfpt limb_points recgeo split ne ns (TOne s) C A roll pitch rect n e.
Proof. exact footprint_single. Qed.
Print Assumptions c133_footprint_single.
Theorem c133_vertices : forall surfpt limb_points recgeo split ne ns,
  (forall pos r a c pt, surfpt pos r a a c = Some pt -> hit pos r a c pt) ->
  (forall pos r a c pt, surfpt pos r a a c = None -> ~ hit pos r a c pt) -> limb_in_plane limb_points ->
  forall s C A roll pitch rect n e sh, level (s_pos s) (s_vel s) -> - EARTH_POLAR_RADIUS < e ->
  1 < quad (EARTH_EQUATORIAL_RADIUS + e) (EARTH_POLAR_RADIUS + e) (tov (s_pos s)) ->
  compute_footprint surfpt limb_points recgeo split ne ns (TOne s) C A roll pitch rect n e = Ok (One sh) ->
  exists pts p t,
    Forall2 (seen_at (s_pos s) (EARTH_EQUATORIAL_RADIUS + e) (EARTH_POLAR_RADIUS + e))
      (footprint_rays (s_pos s) (s_vel s) C A roll pitch rect (match n with Some n => n | None => if rect then ns else ne end)) pts
    /\ outlines (map (fun pt => (g_lon (geographic recgeo pt), g_lat (geographic recgeo pt))) pts) p
    /\ split (SPoly p) = Ok t /\ sh = project_polygon_to_elevation t e /\ at_elevation e sh.
Proof. intros surfpt limb_points recgeo split ne ns F N L. exact (vertices_lemma surfpt limb_points recgeo split ne ns F N L). Qed.
Print Assumptions c133_vertices.
Example c133_witness : exists surfpt limb_points,
    (forall pos r a c pt, surfpt pos r a a c = Some pt -> hit pos r a c pt)
    /\ (forall pos r a c pt, surfpt pos r a a c = None -> ~ hit pos r a c pt) /\ limb_in_plane limb_points
    /\ exists sh, compute_footprint surfpt limb_points (fun _ _ _ => (0, 0, 0)) Ok 10 10 (TOne far) 120 90 5 10 false (Some 4%nat) 0 = Ok (One sh).
Proof. destruct surfpt_exists as (s & F & N & _). destruct limb_points_exist as (l & L). exists s, l. split; [exact F|]. split; [exact N|]. split; [exact L|]. apply plain_footprint. Qed.

(** *** C134 *)
Theorem c134_pixel_array : forall surfpt limb_points recgeo p s e, exists gs, pixel_array surfpt limb_points recgeo p (TOne s) e = Ok (One gs)
  /\ length gs = (pi_cross_pixels p * pi_along_pixels p)%nat
  /\ (forall i j, (i < pi_cross_pixels p)%nat -> (j < pi_along_pixels p)%nat ->
       exists g, nth_error gs (i * pi_along_pixels p + j) = Some g /\ pixel_position surfpt limb_points recgeo p (TOne s) e (i, j) = One g).
Proof. exact pixels_lemma2. Qed.
Print Assumptions c134_pixel_array.
Theorem c134_pixel_array_times : forall surfpt limb_points recgeo p l e, (2 <= length l)%nat ->
  exists gss, pixel_array surfpt limb_points recgeo p (TMany l) e = Ok (Many gss)
  /\ Forall2 (fun s gs => pixel_array surfpt limb_points recgeo p (TOne s) e = Ok (One gs)) l gss.
Proof. exact pixels_times. Qed.
Print Assumptions c134_pixel_array_times.
Theorem c134_pixel_array_single : forall surfpt limb_points recgeo p s e,
  pixel_array surfpt limb_points recgeo p (TMany [s]) e = pixel_array surfpt limb_points recgeo p (TOne s) e.
Proof. exact pixels_single. Qed.
Print Assumptions c134_pixel_array_single.
Example c134_witness : (2 <= length [far; far])%nat /\ (1 < pi_cross_pixels ex_pointed)%nat /\ (0 < pi_along_pixels ex_pointed)%nat.
Proof. cbn. lia. Qed.

(** *** C135 *)
Theorem c135_footprint_coverage : forall iv mv cr pe sp so ss cov, moves_coverage cov -> splits_coverage cov sp -> equal_coverage cov pe ->
  repairs_coverage cov mv -> flat_coverage cov ->
  forall surfpt limb_points recgeo ne ns s C A roll pitch rect n e sh,
  compute_footprint surfpt limb_points recgeo (split_polygon iv mv cr pe sp so ss) ne ns (TOne s) C A roll pitch rect n e = Ok (One sh) ->
  exists p u, outlines (map (fun angle => lonlat (ray_position surfpt limb_points recgeo C A roll pitch rect angle e s))
      (footprint_angles rect A C (match n with Some n => n | None => if rect then ns else ne end))) p
    /\ laid_out (so (map cx (p_ext p))) p u /\ (forall X, places_of cov (geoms sh) X <-> places_of cov [u] X) /\ at_elevation e sh.
Proof. exact footprint_covers. Qed.
Print Assumptions c135_footprint_coverage.
Theorem c135_limb_coverage : forall iv mv cr pe sp so ss cov, moves_coverage cov -> splits_coverage cov sp -> equal_coverage cov pe ->
  repairs_coverage cov mv -> flat_coverage cov ->
  forall edlimb recgeo s n e sh, compute_limb edlimb recgeo (split_polygon iv mv cr pe sp so ss) (TOne s) n e = Ok (One sh) ->
  exists p u, outlines (map (fun v => lonlat (geographic recgeo v)) (limb_ring edlimb n e (s_pos s))) p
    /\ laid_out (so (map cx (p_ext p))) p u /\ (forall X, places_of cov (geoms sh) X <-> places_of cov [u] X) /\ at_elevation e sh.
Proof. exact limb_covers. Qed.
Print Assumptions c135_limb_coverage.
Theorem c135_buffer_coverage : forall iv mv cr pe sp so ss cov, moves_coverage cov -> splits_coverage cov sp -> equal_coverage cov pe ->
  repairs_coverage cov mv -> flat_coverage cov ->
  forall G (buffered : G -> R -> shape) g w e sh, buffer_footprint (split_polygon iv mv cr pe sp so ss) G buffered g w e = Ok sh ->
  exists us, Forall2 (fun p u => laid_out (so (map cx (p_ext p))) p u) (geoms (buffered g (w / 2))) us
    /\ (forall X, places_of cov (geoms sh) X <-> places_of cov us X) /\ at_elevation e sh.
Proof. exact buffer_covers. Qed.
Print Assumptions c135_buffer_coverage.
Example c135_witness : moves_coverage vertex_cov /\ splits_coverage vertex_cov side_split /\ equal_coverage vertex_cov (fun _ _ => false)
  /\ repairs_coverage vertex_cov (fun s => inr s) /\ flat_coverage vertex_cov
  /\ exists sh, buffer_footprint (split_polygon (fun _ => true) (fun s => inr s) (fun _ _ => true) (fun _ _ => false) side_split (fun _ => false) (fun l => l))
       bool (fun _ _ => SPoly ex_over) true 100 5 = Ok sh.
Proof.
  split; [exact vertex_moves|]. split; [exact side_splits|]. split; [intros g h K; discriminate|]. split; [intros s x y; reflexivity|]. split; [exact vertex_flat|].
  destruct ex_over_split as (t & E & _). unfold buffer_footprint. rewrite E. cbn. eauto.
Qed.

(** *** C136 *)
Theorem c136_pixels_inside : forall p pos vel i j, pointed_valid p = true -> pi_cross p < 180 -> pi_along p < 180 ->
  (i < pi_cross_pixels p)%nat -> (j < pi_along_pixels p)%nat ->
  exists x y, sights pos vel (pixel_ray p pos vel i j) (tan_deg (pi_roll p) + x) (tan_deg (pi_pitch p) + y)
    /\ (x / half_width (pi_cross p)) * (x / half_width (pi_cross p)) + (y / half_width (pi_along p)) * (y / half_width (pi_along p)) < 1.
Proof. exact pixel_inside. Qed.
Print Assumptions c136_pixels_inside.
Example c136_witness : pointed_valid ex_pointed = true /\ pi_cross ex_pointed < 180 /\ pi_along ex_pointed < 180 /\ (1 < pi_cross_pixels ex_pointed)%nat /\ (0 < pi_along_pixels ex_pointed)%nat.
Proof. split; [exact ex_pointed_valid|]. cbn. repeat split; try lra; lia. Qed.

(** *** C109 (continued) *)
(** The limb point that is used is the nearer one, by the angle between the line of sight and the position on the limb. *)
Theorem c109_nearer_limb : forall (surfpt : v3 -> v3 -> R -> R -> R -> option v3) limb_points,
  (forall pos r a c pt, surfpt pos r a a c = Some pt -> hit pos r a c pt) ->
  forall pos vel C A roll pitch rect angle h,
  let r := ray pos vel C A roll pitch rect angle in
  let a := EARTH_EQUATORIAL_RADIUS + h in let c := EARTH_POLAR_RADIUS + h in
  let pt := projected_point surfpt limb_points pos vel C A roll pitch rect angle h in
  ~ (exists q, hit pos r a c q) -> 0 < norm (tov r) ->
  forall p q, limb_points pos a a c (v_add (v_scale (sin (PI / 2 + angle)) (ray_v vel)) (v_scale (cos (PI / 2 + angle)) (ray_n pos vel))) = (p, q) ->
  0 < norm (tov p) -> 0 < norm (tov q) ->
  between (tov r) (tov pt) = Rmin (between (tov r) (tov p)) (between (tov r) (tov q)).
Proof. exact nearer_lemma. Qed.
Print Assumptions c109_nearer_limb.
Example c109_nearer_witness : (exists surfpt : v3 -> v3 -> R -> R -> R -> option v3, forall pos r a c pt, surfpt pos r a a c = Some pt -> hit pos r a c pt)
  /\ ~ (exists q, hit far_pos (ray far_pos ex_vel 120 120 0 0 false (PI / 2)) (EARTH_EQUATORIAL_RADIUS + 0) (EARTH_POLAR_RADIUS + 0) q)
  /\ 0 < norm (tov (ray far_pos ex_vel 120 120 0 0 false (PI / 2))) /\ 0 < norm (tov (V3 1 0 0)) /\ 0 < norm (tov (V3 0 0 2)).
Proof.
  split; [destruct surfpt_exists as (s & F & _); now exists s|]. split; [apply (slant_misses _ (sqrt 3)); [exact wide_ray|exact sqrt3]|]. split.
  - pose proof wide_ray as W. unfold sights in W. destruct far_frame as [D F]. rewrite D, F in W. rewrite W. unfold norm, dot, add, scale. cbn. apply sqrt_lt_R0. pose proof sqrt3. pose proof (Rle_0_sqr (sqrt 3)). nra.
  - unfold norm, dot. cbn. split; apply sqrt_lt_R0; lra.
Qed.

(** *** C51 (continued) *)
(** Away from the corners the line of sight of a rectangle points in the direction of its clock angle. *)
Theorem c51_direction_partial : forall pos vel C A roll pitch angle, straight C A true angle ->
  exists x y, sights pos vel (ray pos vel C A roll pitch true angle) (tan_deg roll + x) (tan_deg pitch + y)
    /\ y * cos angle = x * sin angle /\ 0 < x * cos angle + y * sin angle
    /\ ((Rabs x = half_width C /\ Rabs y <= Rmax (half_width A) (half_width C * (A / C)))
        \/ (Rabs y = half_width A /\ Rabs x <= Rmax (half_width C) (half_width A * (C / A)))).
Proof. exact direction_lemma. Qed.
Print Assumptions c51_direction_partial.
Example c51_direction_witness : straight 60 60 true (PI / 2).
Proof.
  unfold straight, rect_theta. replace (60 / 60) with 1 by lra. rewrite atan_1. pose proof PI_RGT_0. lra.
Qed.

(** *** C143 *)
(** For every implementation of SPICE's functions that meets their contracts: the longitudes, latitudes and elevations
    of centres, pixels, outlines and limbs are the WGS 84 coordinates of the points seen. *)
Theorem c143_center : forall surfpt limb_points recgeo,
  (forall pos r a c pt, surfpt pos r a a c = Some pt -> hit pos r a c pt) ->
  (forall pos r a c pt, surfpt pos r a a c = None -> ~ hit pos r a c pt) -> limb_in_plane limb_points -> converts recgeo ->
  forall p s e g, clear_of s e -> pointed_center surfpt limb_points recgeo p (TOne s) e = One g ->
  locates (s_pos s) e (centre_ray p (s_pos s) (s_vel s)) g.
Proof. exact pointed_located. Qed.
Print Assumptions c143_center.

Theorem c143_nadir : forall surfpt limb_points recgeo,
  (forall pos r a c pt, surfpt pos r a a c = Some pt -> hit pos r a c pt) ->
  (forall pos r a c pt, surfpt pos r a a c = None -> ~ hit pos r a c pt) -> limb_in_plane limb_points -> converts recgeo ->
  forall s e g, clear_of s e -> instrument_center surfpt limb_points recgeo (TOne s) e = One g ->
  exists r, tov r = down (s_pos s) /\ locates (s_pos s) e r g.
Proof. exact nadir_located. Qed.
Print Assumptions c143_nadir.

Theorem c143_pixels : forall surfpt limb_points recgeo,
  (forall pos r a c pt, surfpt pos r a a c = Some pt -> hit pos r a c pt) ->
  (forall pos r a c pt, surfpt pos r a a c = None -> ~ hit pos r a c pt) -> limb_in_plane limb_points -> converts recgeo ->
  forall p s e gs, clear_of s e -> pixel_array surfpt limb_points recgeo p (TOne s) e = Ok (One gs) ->
  forall i j, (i < pi_cross_pixels p)%nat -> (j < pi_along_pixels p)%nat ->
  exists g, nth_error gs (i * pi_along_pixels p + j) = Some g /\ locates (s_pos s) e (pixel_ray p (s_pos s) (s_vel s) i j) g.
Proof. exact pixels_located. Qed.
Print Assumptions c143_pixels.

Theorem c143_outline : forall surfpt limb_points recgeo split ne ns,
  (forall pos r a c pt, surfpt pos r a a c = Some pt -> hit pos r a c pt) ->
  (forall pos r a c pt, surfpt pos r a a c = None -> ~ hit pos r a c pt) -> limb_in_plane limb_points -> converts recgeo ->
  forall s C A roll pitch rect n e sh, clear_of s e ->
  compute_footprint surfpt limb_points recgeo split ne ns (TOne s) C A roll pitch rect n e = Ok (One sh) ->
  exists gs p t, Forall2 (locates (s_pos s) e) (footprint_rays (s_pos s) (s_vel s) C A roll pitch rect (match n with Some n => n | None => if rect then ns else ne end)) gs
    /\ outlines (map (fun g => (g_lon g, g_lat g)) gs) p /\ split (SPoly p) = Ok t /\ sh = project_polygon_to_elevation t e /\ at_elevation e sh.
Proof. exact outline_located. Qed.
Print Assumptions c143_outline.

Theorem c143_pointed_outline : forall surfpt limb_points recgeo split ne ns,
  (forall pos r a c pt, surfpt pos r a a c = Some pt -> hit pos r a c pt) ->
  (forall pos r a c pt, surfpt pos r a a c = None -> ~ hit pos r a c pt) -> limb_in_plane limb_points -> converts recgeo ->
  forall p s n e sh, clear_of s e -> pointed_footprint surfpt limb_points recgeo split ne ns p (TOne s) n e = Ok (One sh) ->
  exists gs poly t, Forall2 (locates (s_pos s) e) (footprint_rays (s_pos s) (s_vel s) (pi_cross p) (pi_along p) (pi_roll p) (pi_pitch p) (pi_rect p) (match n with Some n => n | None => if pi_rect p then ns else ne end)) gs
    /\ outlines (map (fun g => (g_lon g, g_lat g)) gs) poly /\ split (SPoly poly) = Ok t /\ sh = project_polygon_to_elevation t e /\ at_elevation e sh.
Proof. exact pointed_outline. Qed.
Print Assumptions c143_pointed_outline.

Theorem c143_instrument_outline : forall surfpt limb_points recgeo split ne ns,
  (forall pos r a c pt, surfpt pos r a a c = Some pt -> hit pos r a c pt) ->
  (forall pos r a c pt, surfpt pos r a a c = None -> ~ hit pos r a c pt) -> limb_in_plane limb_points -> converts recgeo ->
  forall F s n e sh, clear_of s e -> instrument_footprint surfpt limb_points recgeo split ne ns F (TOne s) n e = Ok (One sh) ->
  exists gs poly t, Forall2 (locates (s_pos s) e) (footprint_rays (s_pos s) (s_vel s) F F 0 0 false (match n with Some n => n | None => ne end)) gs
    /\ outlines (map (fun g => (g_lon g, g_lat g)) gs) poly /\ split (SPoly poly) = Ok t /\ sh = project_polygon_to_elevation t e /\ at_elevation e sh.
Proof. exact instrument_outline. Qed.
Print Assumptions c143_instrument_outline.

Theorem c143_limb : forall edlimb recgeo split, converts recgeo -> forall s n e sh, limb_ellipse edlimb -> - EARTH_POLAR_RADIUS < e ->
  1 < quad (EARTH_EQUATORIAL_RADIUS + e) (EARTH_POLAR_RADIUS + e) (tov (s_pos s)) ->
  compute_limb edlimb recgeo split (TOne s) n e = Ok (One sh) ->
  exists gs p t, length gs = n /\ Forall (fun g => on_horizon (EARTH_EQUATORIAL_RADIUS + e) (EARTH_POLAR_RADIUS + e) (tov (s_pos s)) (wgs84 g) /\ in_range g) gs
    /\ (forall center major minor, edlimb (EARTH_EQUATORIAL_RADIUS + e) (EARTH_EQUATORIAL_RADIUS + e) (EARTH_POLAR_RADIUS + e) (s_pos s) = (center, major, minor) ->
        forall k, (k < n)%nat -> exists g, nth_error gs k = Some g /\
        let t := INR k / INR (n - 1) * (2 * PI) in wgs84 g = add (tov center) (add (scale (cos t) (tov major)) (scale (sin t) (tov minor))))
    /\ outlines (map (fun g => (g_lon g, g_lat g)) gs) p /\ split (SPoly p) = Ok t /\ sh = project_polygon_to_elevation t e /\ at_elevation e sh.
Proof. exact limb_located. Qed.
Print Assumptions c143_limb.

Example c143_witness : (exists surfpt limb_points edlimb recgeo,
    (forall pos r a c pt, surfpt pos r a a c = Some pt -> hit pos r a c pt)
    /\ (forall pos r a c pt, surfpt pos r a a c = None -> ~ hit pos r a c pt) /\ limb_in_plane limb_points /\ limb_ellipse edlimb /\ converts recgeo)
  /\ clear_of far 0.
Proof.
  split; [|split; [exact far_level|split; [unfold EARTH_POLAR_RADIUS; lra|exact far_out]]].
  destruct surfpt_exists as (s & F & N & _). destruct limb_points_exist as (l & L). destruct edlimb_exists as (d & D). destruct recgeo_exists as (g & G). now exists s, l, d, g.
Qed.

(** *** C144 *)
Theorem c144_elevation : forall pos e r g, - EARTH_POLAR_RADIUS < e -> locates pos e r g ->
  Rabs (g_elev g - e) <= Rabs e / 297 + 1 / 100000000.
Proof. exact located_elevation. Qed.
Print Assumptions c144_elevation.

Theorem c144_center_and_pixels : forall surfpt limb_points recgeo,
  (forall pos r a c pt, surfpt pos r a a c = Some pt -> hit pos r a c pt) ->
  (forall pos r a c pt, surfpt pos r a a c = None -> ~ hit pos r a c pt) -> limb_in_plane limb_points -> converts recgeo ->
  forall p s e, clear_of s e ->
  (forall g, pointed_center surfpt limb_points recgeo p (TOne s) e = One g -> Rabs (g_elev g - e) <= Rabs e / 297 + 1 / 100000000)
  /\ (forall g, instrument_center surfpt limb_points recgeo (TOne s) e = One g -> Rabs (g_elev g - e) <= Rabs e / 297 + 1 / 100000000)
  /\ (forall gs, pixel_array surfpt limb_points recgeo p (TOne s) e = Ok (One gs) -> Forall (fun g => Rabs (g_elev g - e) <= Rabs e / 297 + 1 / 100000000) gs).
Proof. exact elevations_located. Qed.
Print Assumptions c144_center_and_pixels.

Example c144_witness : clear_of far 1000.
Proof.
  split; [exact far_level|]. split; [unfold EARTH_POLAR_RADIUS; lra|]. exact far_out_1000.
Qed.

(** *** C145 *)
(** Full statement: for every field of regard in (0,360].  True up to 180 degrees only. *)
Theorem c145_swath_partial : forall F h lam eta, regard_valid F = true -> F <= 180 -> 0 < h ->
  0 <= lam <= horizon h 0 -> 0 <= eta < PI / 2 -> off_nadir (rho h 0) lam eta ->
  exists w eps, get_swath_width F h = Some w /\ get_min_elevation_angle F h = Some eps
    /\ (EARTH_MEAN_RADIUS * lam <= w / 2 <-> eta <= radians F / 2)
    /\ (eta <= radians F / 2 <-> radians eps <= PI / 2 - eta - lam).
Proof. exact swath_seen. Qed.
Print Assumptions c145_swath_partial.

(** Which fields of regard are accepted. *)
Theorem c145_accepted_fields : forall F, regard_valid F = true <-> 0 < F <= 360.
Proof. exact regard_iff. Qed.
Print Assumptions c145_accepted_fields.
Theorem c145_swath_refuted : exists F h lam eta w eps, regard_valid F = true /\ 0 < h
  /\ 0 <= lam <= horizon h 0 /\ 0 <= eta < PI / 2 /\ off_nadir (rho h 0) lam eta
  /\ get_swath_width F h = Some w /\ get_min_elevation_angle F h = Some eps
  /\ eta <= radians F / 2 /\ ~ EARTH_MEAN_RADIUS * lam <= w / 2 /\ ~ radians eps <= PI / 2 - eta - lam.
Proof.
  pose proof EMR_bounds as B. assert (Ha : above EARTH_MEAN_RADIUS 0) by (unfold above; lra). pose proof (rho_range _ _ Ha) as Hr.
  assert (L : 0 < horizon EARTH_MEAN_RADIUS 0) by (unfold horizon; rewrite acos_asin by lra; pose proof (asin_lt_PI2 _ Hr); lra).
  destruct (edge_angles _ (horizon EARTH_MEAN_RADIUS 0) Hr) as (E & O & _); [unfold horizon in *; lra|].
  exists 360, EARTH_MEAN_RADIUS, (horizon EARTH_MEAN_RADIUS 0). eexists. exists 0, 90.
  destruct (all_round EARTH_MEAN_RADIUS _ _ ltac:(lra) (conj L (Rle_refl _)) E O) as (A1 & A2 & A3 & A4 & A5 & A6).
  split; [exact A1|]. split; [lra|]. split; [lra|]. split; [exact E|]. split; [exact O|]. split; [exact A2|]. split; [exact A3|]. split; [exact A4|]. split; [exact A5|exact A6].
Qed.
Print Assumptions c145_swath_refuted.

Example c145_witness : regard_valid 60 = true /\ 60 <= 180 /\ 0 < EARTH_MEAN_RADIUS
  /\ exists eta, 0 <= PI / 6 <= horizon EARTH_MEAN_RADIUS 0 /\ 0 <= eta < PI / 2 /\ off_nadir (rho EARTH_MEAN_RADIUS 0) (PI / 6) eta.
Proof.
  pose proof EMR_bounds as B. assert (Ha : above EARTH_MEAN_RADIUS 0) by (unfold above; lra). pose proof (rho_range _ _ Ha) as Hr.
  split; [unfold regard_valid; rewrite andb_true_iff, Rltb_spec, Rleb_spec; lra|]. split; [lra|]. split; [lra|].
  assert (L : 0 <= PI / 6 <= horizon EARTH_MEAN_RADIUS 0).
  { pose proof PI_RGT_0. unfold horizon. replace (rho EARTH_MEAN_RADIUS 0) with (1 / 2) by (unfold rho; field; lra).
    replace (1 / 2) with (cos (PI / 3)) by apply cos_PI3. rewrite acos_cos; lra. }
  eexists. split; [exact L|]. destruct (edge_angles _ (PI / 6) Hr) as (E & O & _); [exact L|]. split; [exact E|exact O].
Qed.
