(** Model of footprints, limbs and pixel arrays as geometries: compute_projected_ray_position,
    compute_footprint, compute_limb and buffer_footprint (src/tatc/utils.py:358-707) and the methods of
    Instrument and PointedInstrument built on them (src/tatc/schemas/instrument.py:61-137, 248-300, 367-413).
    Lines of sight and the choice of surface or limb points are in Instr_Model.v, splitting in Poly_Model.v. *)
From Coq Require Import Reals ZArith List Bool.
From Verif Require Import Base RBase RTrig Mog_Model Geom_Model Instr_Model Poly_Model.
Import ListNotations.
Open Scope R_scope.

(** EARTH_FLATTENING, constants.py:27. *)
Definition EARTH_FLATTENING : R := / (298257223563 / 1000000000).

(** A satellite's Earth-fixed position (m) and velocity (m/s), frame_xyz_and_velocity(itrs) at
    utils.py:391; the rotation to the Earth-fixed frame is skyfield's and not modelled. *)
Record sample := mk_sample { s_pos : v3; s_vel : v3 }.
(** A Geocentric object at a scalar time or at an array of times, utils.py:391-397. *)
Inductive track := TOne (s : sample) | TMany (l : list sample).
(** A scalar or a list of results, one per time, utils.py:595-617, 640-673; instrument.py:392-413. *)
Inductive result (A : Type) := One (a : A) | Many (l : list A).
Arguments One {A}. Arguments Many {A}.
(** A GeographicPosition: longitude and latitude in degrees and elevation in metres, utils.py:527-529. *)
Record geo := mk_geo { g_lon : R; g_lat : R; g_elev : R }.

Section Foot.
(** SPICE: surfpt and edlimb with inelpl as in Instr_Model.v; [edlimb]: centre, semi-major and semi-minor
    axis of the limb of an ellipsoid seen from a point; [recgeo]: geodetic longitude and latitude (radians)
    and altitude of a point for an equatorial radius and a flattening. *)
Variable surfpt : v3 -> v3 -> R -> R -> R -> option v3.
Variable limb_points : v3 -> R -> R -> R -> v3 -> v3 * v3.
Variable edlimb : R -> R -> R -> v3 -> v3 * v3 * v3.
Variable recgeo : v3 -> R -> R -> R * R * R.
(** split_polygon, utils.py:1140-1164, modelled in Poly_Model.v. *)
Variable split_polygon : shape -> pyres shape.
(** config.rc.footprint_points_elliptical and footprint_points_rectangular_side, utils.py:563-565. *)
Variables rc_elliptical rc_side : nat.

(** The geographic position of a rectangular point, utils.py:480-484 and 516-520 with 527-529. *)
Definition geographic (p : v3) : geo :=
  let '(lon, lat, alt) := recgeo p EARTH_EQUATORIAL_RADIUS EARTH_FLATTENING in mk_geo (degrees lon) (degrees lat) alt.
(** One column of compute_projected_ray_position, utils.py:467-526. *)
Definition ray_position (cross along roll pitch : R) (rect : bool) (angle elevation : R) (s : sample) : geo :=
  geographic (projected_point surfpt limb_points (s_pos s) (s_vel s) cross along roll pitch rect angle elevation).
(** compute_projected_ray_position, utils.py:358-529: arrays of times give arrays of positions. *)
Definition compute_projected_ray_position (t : track) (cross along roll pitch : R) (rect : bool) (angle elevation : R) : result geo :=
  match t with
  | TOne s => One (ray_position cross along roll pitch rect angle elevation s)
  | TMany l => Many (map (ray_position cross along roll pitch rect angle elevation) l)
  end.

(** point.longitude.degrees[i], point.latitude.degrees[i], utils.py:602 and instrument.py:396-400: an index
    into an array of positions ([np.size(t) > 1] excludes scalars). *)
Definition at_index (i : nat) (g : result geo) : pyres geo :=
  match g with
  | One _ => Raise TypeError
  | Many l => match nth_error l i with Some x => Ok x | None => Raise IndexError end
  end.
(** float(point.longitude.degrees) as shapely takes it, utils.py:613 and instrument.py:407-411: a scalar or an
    array of one element; other arrays are a TypeError. *)
Definition as_scalar (g : result geo) : pyres geo :=
  match g with
  | One x => Ok x
  | Many [x] => Ok x
  | Many _ => Raise TypeError
  end.
(** shapely.geometry.Polygon(coordinates), utils.py:599-605, 611-615 and 650-668: the ring is closed if its
    ends differ (compared as reals here, as doubles there), and needs four coordinates if any. *)
Definition polygon (l : list (R * R)) : pyres poly :=
  match l with
  | [] => Ok (mk_poly [] [])
  | a :: _ =>
      let z := last l a in
      let ring := if Req_EM_T (fst a) (fst z) then if Req_EM_T (snd a) (snd z) then l else l ++ [a] else l ++ [a] in
      if (length ring <? 4)%nat then Raise ValueError
      else Ok (mk_poly (map (fun q => xy (fst q) (snd q)) ring) [])
  end.
(** Split and projected to an elevation, utils.py:597-607, 609-617 and 649-669. *)
Definition finish (elevation : R) (l : list (R * R)) : pyres shape :=
  bind (polygon l) (fun p => bind (split_polygon (SPoly p)) (fun t => Ok (project_polygon_to_elevation t elevation))).
(** Longitude and latitude, utils.py:602, 613. *)
Definition lonlat (g : geo) : R * R := (g_lon g, g_lat g).
(** np.size(orbit_track.t), utils.py:595, 607. *)
Definition size (t : track) : nat := match t with TOne _ => 1 | TMany l => length l end.

(** compute_footprint, utils.py:532-617. *)
Definition compute_footprint (t : track) (cross along roll pitch : R) (rect : bool) (number_points : option nat) (elevation : R) : pyres (result shape) :=
  let n := match number_points with Some n => n | None => if rect then rc_side else rc_elliptical end in
  let points := map (fun angle => compute_projected_ray_position t cross along roll pitch rect angle elevation) (footprint_angles rect along cross n) in
  if (1 <? size t)%nat
  then bind (mapM (fun i => bind (mapM (at_index i) points) (fun gs => finish elevation (map lonlat gs))) (seq 0 (size t))) (fun l => Ok (Many l))
  else bind (mapM as_scalar points) (fun gs => bind (finish elevation (map lonlat gs)) (fun s => Ok (One s))).

(** The rectangular points of compute_limb, utils.py:654-658. *)
Definition limb_ring (n : nat) (elevation : R) (pos : v3) : list v3 :=
  let '(center, major, minor) := edlimb (EARTH_EQUATORIAL_RADIUS + elevation) (EARTH_EQUATORIAL_RADIUS + elevation) (EARTH_POLAR_RADIUS + elevation) pos in
  map (fun i => v_add (v_add center (v_scale (cos i) major)) (v_scale (sin i) minor)) (linspace_closed 0 (2 * PI) n).
(** One polygon of compute_limb, utils.py:640-669. *)
Definition limb_polygon (n : nat) (elevation : R) (s : sample) : pyres shape :=
  finish elevation (map (fun p => lonlat (geographic p)) (limb_ring n elevation (s_pos s))).
(** compute_limb, utils.py:620-673: a list for an array of times, whatever its size. *)
Definition compute_limb (t : track) (number_points : nat) (elevation : R) : pyres (result shape) :=
  match t with
  | TOne s => bind (limb_polygon number_points elevation s) (fun p => Ok (One p))
  | TMany l => bind (mapM (limb_polygon number_points elevation) l) (fun ps => Ok (Many ps))
  end.

(** pyproj transformers and shapely's transform and buffer, utils.py:697-706: the geometry in the buffering
    coordinate system enlarged by a distance and transformed back. *)
Variable geometry : Type.
Variable buffered : geometry -> R -> shape.
(** buffer_footprint, utils.py:676-707. *)
Definition buffer_footprint (g : geometry) (swath_width elevation : R) : pyres shape :=
  bind (split_polygon (buffered g (swath_width / 2))) (fun t => Ok (project_polygon_to_elevation t elevation)).

(** ** Methods of instruments *)
(** Instrument.get_swath_width, instrument.py:61-71. *)
Definition get_swath_width (field_of_regard height : R) : option R := field_of_regard_to_swath_width height field_of_regard 0.
(** Instrument.get_min_elevation_angle, instrument.py:73-83. *)
Definition get_min_elevation_angle (field_of_regard height : R) : option R := compute_min_elevation_angle height field_of_regard 0.
(** The bounds of Instrument.field_of_regard, instrument.py:35-41. *)
Definition regard_valid (f : R) : bool := Rltb 0 f && Rleb f 360.
(** Instrument.compute_footprint, instrument.py:85-111. *)
Definition instrument_footprint (field_of_regard : R) (t : track) (number_points : option nat) (elevation : R) : pyres (result shape) :=
  compute_footprint t field_of_regard field_of_regard 0 0 false number_points elevation.
(** Instrument.compute_footprint_center, instrument.py:113-137. *)
Definition instrument_center (t : track) (elevation : R) : result geo := compute_projected_ray_position t 0 0 0 0 false 0 elevation.
(** PointedInstrument.compute_footprint, instrument.py:248-274. *)
Definition pointed_footprint (p : pointed) (t : track) (number_points : option nat) (elevation : R) : pyres (result shape) :=
  compute_footprint t (pi_cross p) (pi_along p) (pi_roll p) (pi_pitch p) (pi_rect p) number_points elevation.
(** PointedInstrument.compute_footprint_center, instrument.py:276-300. *)
Definition pointed_center (p : pointed) (t : track) (elevation : R) : result geo :=
  compute_projected_ray_position t 0 0 (pi_roll p) (pi_pitch p) false 0 elevation.
(** PointedInstrument.compute_projected_pixel_position, instrument.py:302-334. *)
Definition pixel_position (p : pointed) (t : track) (elevation : R) (ij : nat * nat) : result geo :=
  let (cone, clock) := cone_clock p (fst ij) (snd ij) in
  compute_projected_ray_position t cone cone (pi_roll p) (pi_pitch p) false clock elevation.
(** PointedInstrument.compute_footprint_pixel_array, instrument.py:367-413; a MultiPoint is the list of its
    points. *)
Definition pixel_array (p : pointed) (t : track) (elevation : R) : pyres (result (list geo)) :=
  let points := map (pixel_position p t elevation) (pixel_indices p) in
  if (1 <? size t)%nat
  then bind (mapM (fun i => mapM (at_index i) points) (seq 0 (size t))) (fun l => Ok (Many l))
  else bind (mapM as_scalar points) (fun gs => Ok (One gs)).
End Foot.
