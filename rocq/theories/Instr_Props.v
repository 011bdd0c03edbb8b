(** Properties of instruments: C47-C51, C106-C109 and C169. *)
From Coq Require Import Reals ZArith List Bool Lra Lia.
From Verif Require Import Base RBase Mog_Model Geom_Spec Instr_Model Instr_Spec Instr_Proofs Instr_Proofs2.
Import ListNotations.
Open Scope R_scope.

(** *** C47 *)
Theorem c47_validity : forall q track, track <> [] ->
  (forall s, track = [s] -> exists b, is_valid_observation q track = Ok (One b)
      /\ (b = true <-> meets (req_self q) (fst s = true) /\ meets (req_target q) (0 < snd s)))
  /\ ((2 <= length track)%nat -> exists l, is_valid_observation q track = Ok (Many l) /\ length l = length track
       /\ forall i s, nth_error track i = Some s -> exists b, nth_error l i = Some b
            /\ (b = true <-> meets (req_self q) (fst s = true) /\ meets (req_target q) (0 < snd s))
            /\ is_valid_observation q [s] = Ok (One b)).
Proof. exact validity_lemma. Qed.
Print Assumptions c47_validity.
Example c47_witness : let q := mk_req (Some false) (Some true) in
  is_valid_observation q [(false, 1); (true, 1)] = Ok (Many [true; false]) /\ meets (req_self q) (false = true) /\ meets (req_target q) (0 < 1).
Proof.
  cbn. split; [|split; [discriminate|lra]]. unfold is_valid_observation. cbn. assert (E : Rltb 0 1 = true) by (apply RFacts.Rltb_spec; lra). now rewrite E.
Qed.

(** *** C48 *)
Theorem c48_pixels : forall p, pointed_valid p = true ->
  (forall i i', (i < i' < pi_cross_pixels p)%nat -> cross_offset p i < cross_offset p i')
  /\ (forall j j', (j < j' < pi_along_pixels p)%nat -> along_offset p j' < along_offset p j)
  /\ (forall i, (i < pi_cross_pixels p)%nat -> cross_offset p (pi_cross_pixels p - 1 - i) = - cross_offset p i /\ Rabs (cross_offset p i) < pi_cross p / 2)
  /\ (forall j, (j < pi_along_pixels p)%nat -> along_offset p (pi_along_pixels p - 1 - j) = - along_offset p j /\ Rabs (along_offset p j) < pi_along p / 2)
  /\ (forall i j, fst (cone_clock p i j) * cos (snd (cone_clock p i j)) = cross_offset p i
        /\ fst (cone_clock p i j) * sin (snd (cone_clock p i j)) = along_offset p j).
Proof. exact pixels_lemma. Qed.
Print Assumptions c48_pixels.
Example c48_witness : pointed_valid over_pointed = true /\ pi_cross_pixels over_pointed = 2%nat.
Proof. split; [exact over_pointed_valid|reflexivity]. Qed.

(** *** C49 *)
(** "Adjacent pixels are spaced (1 - oversampling) times the instantaneous field of view" is false: *)
Theorem c49_overlap_refuted : exists p i, pointed_valid p = true /\ (S i < pi_cross_pixels p)%nat
  /\ cross_offset p (S i) - cross_offset p i <> (1 - pi_cross_over p) * cross_ifov p.
Proof.
  exists over_pointed, 0%nat. split; [exact over_pointed_valid|]. split; [cbn; lia|]. unfold cross_offset, cross_ifov, over_pointed. cbn. lra.
Qed.
Print Assumptions c49_overlap_refuted.
(** The factor is applied twice. *)
Theorem c49_overlap_partial : forall p i, pointed_valid p = true ->
  cross_offset p (S i) - cross_offset p i = (1 - pi_cross_over p) * (1 - pi_cross_over p) * cross_ifov p
  /\ along_offset p i - along_offset p (S i) = (1 - pi_along_over p) * (1 - pi_along_over p) * along_ifov p.
Proof. exact spacing_lemma. Qed.
Print Assumptions c49_overlap_partial.
Example c49_witness : pointed_valid ex_pointed = true. Proof. exact ex_pointed_valid. Qed.

(** *** C50 *)
(** "The ray of a pixel makes the pixel's cone angle with the boresight" is false for a nadir-pointed
    instrument: *)
Theorem c50_pixel_ray_refuted : exists p pos vel i j, pointed_valid p = true /\ level pos vel /\ pi_roll p = 0 /\ pi_pitch p = 0
  /\ (i < pi_cross_pixels p)%nat /\ (j < pi_along_pixels p)%nat
  /\ between (tov (pixel_ray p pos vel i j)) (down pos) <> fst (cone_clock p i j) * (PI / 180).
Proof.
  exists ex_pointed, ex_pos, ex_vel, 0%nat, 0%nat. split; [exact ex_pointed_valid|]. split; [exact ex_level|].
  do 2 (split; [reflexivity|]). do 2 (split; [cbn; lia|]).
  rewrite (pixel_angle_lemma ex_pointed ex_pos ex_vel 0 0 ex_level eq_refl eq_refl); rewrite (ex_cone 0 ltac:(lia)); pose proof PI_RGT_0; lra.
Qed.
Print Assumptions c50_pixel_ray_refuted.
(** It makes half that angle. *)
Theorem c50_pixel_ray_partial : forall p pos vel i j, level pos vel -> pi_roll p = 0 -> pi_pitch p = 0 -> fst (cone_clock p i j) < 180 ->
  between (tov (pixel_ray p pos vel i j)) (down pos) = fst (cone_clock p i j) / 2 * (PI / 180).
Proof. exact pixel_angle_lemma. Qed.
Print Assumptions c50_pixel_ray_partial.
Example c50_witness : level ex_pos ex_vel /\ fst (cone_clock ex_pointed 1 0) < 180.
Proof. split; [exact ex_level|]. rewrite ex_cone by lia. lra. Qed.

(** *** C51 *)
Theorem c51_ellipse_partial : forall pos vel C A roll pitch angle, 0 < C < 180 -> 0 < A < 180 ->
  exists x y, sights pos vel (ray pos vel C A roll pitch false angle) (tan_deg roll + x) (tan_deg pitch + y)
    /\ on_ellipse (half_width C) (half_width A) x y
    /\ x / half_width C = cos angle /\ y / half_width A = sin angle.
Proof. exact ellipse_lemma. Qed.
Print Assumptions c51_ellipse_partial.
Theorem c51_ring_closes_partial : forall pos vel C A roll pitch n, (2 <= n)%nat ->
  exists r mid, footprint_rays pos vel C A roll pitch false n = r :: mid ++ [r].
Proof. exact ellipse_ring. Qed.
Print Assumptions c51_ring_closes_partial.
(** Squares are right. *)
Theorem c51_square_partial : forall pos vel F roll pitch n r, 0 < F < 180 -> In r (footprint_rays pos vel F F roll pitch true n) ->
  exists x y, sights pos vel r (tan_deg roll + x) (tan_deg pitch + y) /\ on_rectangle (half_width F) (half_width F) x y.
Proof. exact square_lemma. Qed.
Print Assumptions c51_square_partial.
(** Other rectangles: every vertex is on one of the four side lines, but may overshoot the corner. *)
Theorem c51_rectangle_partial : forall pos vel C A roll pitch angle, 0 < C < 180 -> 0 < A < 180 -> - rect_theta A C <= angle <= 2 * PI - rect_theta A C ->
  exists x y, sights pos vel (ray pos vel C A roll pitch true angle) (tan_deg roll + x) (tan_deg pitch + y)
    /\ ((Rabs x = half_width C /\ Rabs y <= Rmax (half_width A) (half_width C * (A / C)))
        \/ (Rabs y = half_width A /\ Rabs x <= Rmax (half_width C) (half_width A * (C / A)))).
Proof. exact rectangle_lemma. Qed.
Print Assumptions c51_rectangle_partial.
(** "Every vertex is on the rectangle" is false for every rectangle that is wider than long: the first
    vertex is outside. *)
Theorem c51_rectangle_refuted : forall pos vel C A roll pitch n r rest, 0 < A -> A < C -> C < 180 ->
  footprint_rays pos vel C A roll pitch true n = r :: rest ->
  exists x y, sights pos vel r (tan_deg roll + x) (tan_deg pitch + y) /\ Rabs x = half_width C /\ half_width A < Rabs y.
Proof. exact first_vertex_lemma. Qed.
Print Assumptions c51_rectangle_refuted.
Example c51_witness : 0 < 20 /\ 20 < 40 /\ 40 < 180 /\ exists r rest, footprint_rays ex_pos ex_vel 40 20 0 0 true 8 = r :: rest.
Proof. do 3 (split; [lra|]). eexists _, _. unfold footprint_rays, footprint_angles, linspace_open. cbn [seq map app]. reflexivity. Qed.

(** *** C106 *)
(** "No pixel sees more than the whole field of view" is false: *)
Theorem c106_ifov_refuted : exists p, pointed_valid p = true /\ pi_cross p < cross_ifov p.
Proof. exists one_pointed. split; [exact one_pointed_valid|]. unfold cross_ifov, one_pointed. cbn. lra. Qed.
Print Assumptions c106_ifov_refuted.
Theorem c106_ifov_partial : forall p, pointed_valid p = true ->
  (cross_ifov p <= pi_cross p <-> 1 <= INR (pi_cross_pixels p) * (1 - pi_cross_over p))
  /\ (along_ifov p <= pi_along p <-> 1 <= INR (pi_along_pixels p) * (1 - pi_along_over p)).
Proof. exact ifov_lemma. Qed.
Print Assumptions c106_ifov_partial.
Example c106_witness : pointed_valid ex_pointed = true /\ 1 <= INR (pi_cross_pixels ex_pointed) * (1 - pi_cross_over ex_pointed).
Proof. split; [exact ex_pointed_valid|]. cbn. lra. Qed.

(** *** C107 *)
(** "Cross-track pixel indices run from left to right" is false: the second pixel is further left. *)
Theorem c107_pixel_order_refuted : exists p pos vel i i', pointed_valid p = true /\ level pos vel /\ pi_roll p = 0 /\ pi_pitch p = 0
  /\ (i < i' < pi_cross_pixels p)%nat
  /\ dot (tov (pixel_ray p pos vel i 0)) (left pos vel) < dot (tov (pixel_ray p pos vel i' 0)) (left pos vel).
Proof.
  exists ex_pointed, ex_pos, ex_vel, 0%nat, 1%nat. split; [exact ex_pointed_valid|]. split; [exact ex_level|]. do 2 (split; [reflexivity|]). split; [cbn; lia|].
  destruct (pixel_side_lemma ex_pointed ex_pos ex_vel 0 0 ex_pointed_valid ex_level eq_refl eq_refl ltac:(rewrite ex_cone by lia; lra)) as (k & K & E & _).
  destruct (pixel_side_lemma ex_pointed ex_pos ex_vel 1 0 ex_pointed_valid ex_level eq_refl eq_refl ltac:(rewrite ex_cone by lia; lra)) as (k' & K' & E' & _).
  rewrite E, E'. destruct ex_offsets as (O0 & O1 & _). rewrite O0, O1. lra.
Qed.
Print Assumptions c107_pixel_order_refuted.
(** Indices run from right to left and from fore to aft. *)
Theorem c107_pixel_order_partial : forall p pos vel i j, pointed_valid p = true -> level pos vel -> pi_roll p = 0 -> pi_pitch p = 0 -> 0 < fst (cone_clock p i j) < 180 ->
  exists k, 0 < k /\ dot (tov (pixel_ray p pos vel i j)) (left pos vel) = k * cross_offset p i
    /\ dot (tov (pixel_ray p pos vel i j)) (forward vel) = k * along_offset p j.
Proof. exact pixel_side_lemma. Qed.
Print Assumptions c107_pixel_order_partial.
Theorem c107_array_order_partial : forall p, length (pixel_indices p) = (pi_cross_pixels p * pi_along_pixels p)%nat
  /\ forall i j, (i < pi_cross_pixels p)%nat -> (j < pi_along_pixels p)%nat -> nth_error (pixel_indices p) (i * pi_along_pixels p + j) = Some (i, j).
Proof. exact indices_lemma. Qed.
Print Assumptions c107_array_order_partial.
Example c107_witness : pointed_valid ex_pointed = true /\ level ex_pos ex_vel /\ 0 < fst (cone_clock ex_pointed 1 0) < 180.
Proof. split; [exact ex_pointed_valid|]. split; [exact ex_level|]. rewrite ex_cone by lia. lra. Qed.

(** *** C108 *)
(** Roll is right-handed about the velocity, up to a right angle. *)
Theorem c108_roll_partial : forall p pos vel, level pos vel -> pi_pitch p = 0 -> -90 < pi_roll p < 90 ->
  same_direction (tov (centre_ray p pos vel)) (rotate (forward vel) (pi_roll p * (PI / 180)) (down pos)).
Proof. exact roll_lemma. Qed.
Print Assumptions c108_roll_partial.
(** Pitch is left-handed about the orbit normal. *)
Theorem c108_pitch_partial : forall p pos vel, level pos vel -> pi_roll p = 0 -> -90 < pi_pitch p < 90 ->
  same_direction (tov (centre_ray p pos vel)) (rotate (left pos vel) (- pi_pitch p * (PI / 180)) (down pos)).
Proof. exact pitch_lemma. Qed.
Print Assumptions c108_pitch_partial.
Theorem c108_pitch_refuted : exists p pos vel, pointed_valid p = true /\ level pos vel /\ pi_roll p = 0
  /\ ~ same_direction (tov (centre_ray p pos vel)) (rotate (left pos vel) (pi_pitch p * (PI / 180)) (down pos)).
Proof. exists pitched, ex_pos, ex_vel. split; [exact pitched_valid|]. split; [exact ex_level|]. split; [reflexivity|exact pitch_wrong]. Qed.
Print Assumptions c108_pitch_refuted.
(** An instrument rolled by 180 degrees looks down instead of up. *)
Theorem c108_roll_refuted : exists p pos vel, pointed_valid p = true /\ level pos vel /\ pi_pitch p = 0
  /\ tov (centre_ray p pos vel) = down pos /\ rotate (forward vel) (pi_roll p * (PI / 180)) (down pos) = up pos.
Proof. exists upside, ex_pos, ex_vel. split; [exact upside_valid|]. split; [exact ex_level|]. split; [reflexivity|exact upside_down]. Qed.
Print Assumptions c108_roll_refuted.
Example c108_witness : level ex_pos ex_vel /\ pi_pitch ex_pointed = 0 /\ -90 < pi_roll ex_pointed < 90.
Proof. split; [exact ex_level|]. cbn. lra. Qed.

(** *** C109 *)
(** For every implementation of SPICE's surfpt that finds the point of the ellipsoid on the half line
    of sight whenever there is one. *)
Theorem c109_projection : forall (surfpt : v3 -> v3 -> R -> R -> R -> option v3) limb_points,
  (forall pos r a c pt, surfpt pos r a a c = Some pt -> hit pos r a c pt) ->
  (forall pos r a c pt, surfpt pos r a a c = None -> ~ hit pos r a c pt) ->
  forall pos vel C A roll pitch rect angle h,
  let r := ray pos vel C A roll pitch rect angle in
  let a := EARTH_EQUATORIAL_RADIUS + h in let c := EARTH_POLAR_RADIUS + h in
  let pt := projected_point surfpt limb_points pos vel C A roll pitch rect angle h in
  ((exists q, hit pos r a c q) -> hit pos r a c pt)
  /\ (~ (exists q, hit pos r a c q) ->
      let l := limb_points pos a a c (v_add (v_scale (sin (PI / 2 + angle)) (ray_v vel)) (v_scale (cos (PI / 2 + angle)) (ray_n pos vel))) in
      pt = fst l \/ pt = snd l).
Proof. exact projection_lemma. Qed.
Print Assumptions c109_projection.
Example c109_witness : exists surfpt : v3 -> v3 -> R -> R -> R -> option v3,
  (forall pos r a c pt, surfpt pos r a a c = Some pt -> hit pos r a c pt)
  /\ (forall pos r a c pt, surfpt pos r a a c = None -> ~ hit pos r a c pt)
  /\ exists q, hit ex_pos (ray ex_pos ex_vel 0 0 0 0 false 0) (EARTH_EQUATORIAL_RADIUS + 0) (EARTH_POLAR_RADIUS + 0) q.
Proof. exact surfpt_exists. Qed.

(** *** C169 *)
(** "The clock angle of a pixel is in degrees" is false: *)
Theorem c169_clock_degrees_refuted : exists p i j, pointed_valid p = true /\ (i < pi_cross_pixels p)%nat /\ (j < pi_along_pixels p)%nat
  /\ ~ at_clock (fst (cone_clock p i j)) (snd (cone_clock p i j)) (cross_offset p i) (along_offset p j).
Proof.
  exists ex_pointed, 0%nat, 0%nat. split; [exact ex_pointed_valid|]. split; [cbn; lia|]. split; [cbn; lia|]. intro H.
  apply clock_lemma in H; [|rewrite ex_cone by lia; lra]. rewrite ex_clock in H. pose proof PI_RGT_0. lra.
Qed.
Print Assumptions c169_clock_degrees_refuted.
(** It is in radians, in (-pi, pi]; read as degrees it gives the direction of no pixel that is off the
    right-hand half of the cross-track axis. *)
Theorem c169_clock_radians_partial : forall p i j, 0 < fst (cone_clock p i j) ->
  - PI < snd (cone_clock p i j) <= PI
  /\ at_clock (fst (cone_clock p i j)) (snd (cone_clock p i j) * (180 / PI)) (cross_offset p i) (along_offset p j)
  /\ (at_clock (fst (cone_clock p i j)) (snd (cone_clock p i j)) (cross_offset p i) (along_offset p j) <-> snd (cone_clock p i j) = 0).
Proof. intros p i j K. split; [apply clock_range_lemma|now apply clock_lemma]. Qed.
Print Assumptions c169_clock_radians_partial.
Example c169_witness : 0 < fst (cone_clock ex_pointed 0 0) /\ snd (cone_clock ex_pointed 0 0) = PI.
Proof. split; [rewrite ex_cone by lia; lra|exact ex_clock]. Qed.
