(** Specification vocabulary for footprints and limbs. *)
From Coq Require Import Reals List.
From Verif Require Import RBase Mog_Model Geom_Spec Instr_Model Instr_Spec Poly_Model Foot_Model.
Import ListNotations.
Open Scope R_scope.

(** The ellipsoid with equatorial radius [a] and polar radius [c]: its points have [quad a c p = 1], those
    inside have [quad a c p < 1]. *)
Definition quad (a c : R) (p : vec) : R := vx p * vx p / (a * a) + vy p * vy p / (a * a) + vz p * vz p / (c * c).
(** The associated bilinear form; the points [p] of the ellipsoid with [polar a c p eye = 1] are those whose
    tangent plane passes through [eye]. *)
Definition polar (a c : R) (p q : vec) : R := vx p * vx q / (a * a) + vy p * vy q / (a * a) + vz p * vz q / (c * c).
(** The line from [eye] to the point [p] of the ellipsoid touches the ellipsoid in that point only: [p] is on
    the horizon. *)
Definition on_horizon (a c : R) (eye p : vec) : Prop :=
  quad a c p = 1 /\ forall s, quad a c (add eye (scale s (sub p eye))) <= 1 -> s = 1.
(** [u], [v] and [w] lie in one plane. *)
Definition coplanar (u v w : vec) : Prop := dot u (cross v w) = 0.
(** Contract of SPICE's edlimb: the ellipse it returns consists of points of the ellipsoid whose tangent
    planes pass through the eye. *)
Definition limb_ellipse (edlimb : R -> R -> R -> v3 -> v3 * v3 * v3) : Prop :=
  forall a c pos t, 0 < a -> 0 < c -> 1 < quad a c (tov pos) ->
  let '(center, major, minor) := edlimb a a c pos in
  let p := add (tov center) (add (scale (cos t) (tov major)) (scale (sin t) (tov minor))) in
  quad a c p = 1 /\ polar a c p (tov pos) = 1.
(** Contract of inelpl applied to that ellipse: for a plane through the eye and the centre of the ellipsoid it
    returns points of the limb in that plane. *)
Definition limb_in_plane (limb_points : v3 -> R -> R -> R -> v3 -> v3 * v3) : Prop :=
  forall a c pos m, 0 < a -> 0 < c -> 1 < quad a c (tov pos) -> tov m <> mk_vec 0 0 0 -> dot (tov m) (tov pos) = 0 ->
  forall p, p = fst (limb_points pos a a c m) \/ p = snd (limb_points pos a a c m) ->
  quad a c (tov p) = 1 /\ polar a c (tov p) (tov pos) = 1 /\ dot (tov m) (sub (tov p) (tov pos)) = 0.
(** Coverage does not depend on elevations. *)
Definition flat_coverage (cov : poly -> R -> R -> Prop) : Prop := forall e p x y, cov (project_poly e p) x y <-> cov p x y.
(** All vertices of a shape at an elevation. *)
Definition at_elevation (e : R) (s : shape) : Prop :=
  forall q, In q (geoms s) -> forall r, r = p_ext q \/ In r (p_ints q) -> forall v, In v r -> cz v = Some e.
(** A closed outline through the given longitudes and latitudes, in order, without holes. *)
Definition outlines (l : list (R * R)) (p : poly) : Prop :=
  p_ints p = [] /\
  match l with
  | [] => p_ext p = []
  | a :: _ => let ring := map (fun q => xy (fst q) (snd q)) in
      (p_ext p = ring l \/ p_ext p = ring (l ++ [a])) /\ exists mid, p_ext p = xy (fst a) (snd a) :: mid ++ [xy (fst a) (snd a)]
  end.
(** Where a line of sight [r] from [pos] is projected: to the point of the ellipsoid it meets, or to the
    horizon if it meets none. *)
Definition seen_at (pos : v3) (a c : R) (r pt : v3) : Prop :=
  hit pos r a c pt \/ (~ (exists q, hit pos r a c q) /\ on_horizon a c (tov pos) (tov pt)).
(** Lines of sight that leave the nadir at the clock angle [angle]: those of a circular field of view, and
    those of a rectangular one away from its corners. *)
Definition straight (C A : R) (rect : bool) (angle : R) : Prop :=
  if rect then 0 < C < 180 /\ 0 < A < 180 /\ - rect_theta A C <= angle < 2 * PI - rect_theta A C
               /\ angle <> rect_theta A C /\ angle <> PI - rect_theta A C /\ angle <> PI + rect_theta A C
  else C = A.
(** The point with geodetic longitude, latitude (radians) and altitude for an ellipsoid with equatorial radius [a]
    and flattening [f]. *)
Definition geodetic_point (a f lon lat alt : R) : vec :=
  let n := a / sqrt (1 - f * (2 - f) * (sin lat * sin lat)) in
  mk_vec ((n + alt) * cos lat * cos lon) ((n + alt) * cos lat * sin lon) (((1 - f) * (1 - f) * n + alt) * sin lat).
(** Contract of SPICE's recgeo: geodetic coordinates of the point, on its side of the axis and of the equator. *)
Definition converts (recgeo : v3 -> R -> R -> R * R * R) : Prop :=
  forall p a f, 0 < a -> 0 <= f < 1 ->
  let '(lon, lat, alt) := recgeo p a f in
  tov p = geodetic_point a f lon lat alt /\ - PI <= lon <= PI /\ - (PI / 2) <= lat <= PI / 2
  /\ 0 <= v_x p * cos lon + v_y p * sin lon /\ 0 <= v_z p * sin lat.
(** The point with the WGS 84 longitude and latitude (degrees) and elevation of a position. *)
Definition wgs84 (g : geo) : vec := geodetic_point 6378137 (1 / (298257223563 / 1000000000)) (g_lon g * (PI / 180)) (g_lat g * (PI / 180)) (g_elev g).
(** Longitudes and latitudes in the usual ranges, and of the side of the axis and of the equator the point is on. *)
Definition in_range (g : geo) : Prop := -180 <= g_lon g <= 180 /\ -90 <= g_lat g <= 90
  /\ 0 <= vx (wgs84 g) * cos (g_lon g * (PI / 180)) + vy (wgs84 g) * sin (g_lon g * (PI / 180)) /\ 0 <= vz (wgs84 g) * sin (g_lat g * (PI / 180)).
(** The position [g] is that of the point where the line of sight [r] is projected. *)
Definition locates (pos : v3) (e : R) (r : v3) (g : geo) : Prop :=
  exists pt, seen_at pos (EARTH_EQUATORIAL_RADIUS + e) (EARTH_POLAR_RADIUS + e) r pt /\ wgs84 g = tov pt /\ in_range g.
(** A satellite that moves horizontally above the ellipsoid at the elevation [e]. *)
Definition clear_of (s : sample) (e : R) : Prop := level (s_pos s) (s_vel s) /\ - EARTH_POLAR_RADIUS < e /\ 1 < quad (EARTH_EQUATORIAL_RADIUS + e) (EARTH_POLAR_RADIUS + e) (tov (s_pos s)).
