(** Model of orbit and ground tracks, src/tatc/analysis/track.py. *)
From Coq Require Import String Reals ZArith List Bool.
From Verif Require Import Base RBase Tle_Model Geom_Model Instr_Model Poly_Model.
Import ListNotations.
Open Scope R_scope.

(** The fields of Instrument and Satellite that are read: name, field_of_regard and the requirements
    (schemas/instrument.py:29-56), the subclass fields of a PointedInstrument (instrument.py:182-220), and
    satellite.name and satellite.instruments (schemas/satellite.py). *)
Record instrument := mk_instr { in_name : pystr; in_for : R; in_req : requirement; in_pointed : option pointed }.
(** See above. satellite.py:21-44. *)
Record sat := mk_sat { sa_name : pystr; sa_instruments : list instrument }.
(** satellite.instruments[instrument_index], track.py:117, 333, 650 (negative indices count from the end). *)
Definition py_index {A} (l : list A) (i : Z) : pyres A :=
  let k := (if i <? 0 then i + Z.of_nat (length l) else i)%Z in
  if (k <? 0)%Z then Raise IndexError
  else match nth_error l (Z.to_nat k) with Some x => Ok x | None => Raise IndexError end.
(** OrbitCoordinate, track.py:56-63 (any other value is treated as ECI, line 153). *)
Inductive coordinates := WGS84 | ECEF | ECI.
(** valid_obs as a vector, track.py:159-162 and 382-385: a scalar occurs exactly for a single time
    (instrument.py:172-174). *)
Definition as_vector (a : answer) : list bool := match a with One b => [b] | Many l => l end.
(** A three-dimensional shapely point. track.py:139-157. *)
Definition pt := (R * R * R)%type.
(** Coordinates of such a point. track.py:139-157, 396-398. *)
Definition px (p : pt) : R := fst (fst p).
(** Coordinates of such a point. track.py:139-157. *)
Definition py (p : pt) : R := snd (fst p).
(** Coordinates of such a point. track.py:139-157. *)
Definition pz (p : pt) : R := snd p.

(** A record of collect_orbit_track, track.py:165-179 and 193-208 (velocity: only with
    OrbitOutput.POSITION_VELOCITY) with the optional columns of lines 211-233. *)
Record orow := mk_orow { o_time : Z; o_sat : pystr; o_instr : pystr; o_swath : option R; o_valid : bool; o_geom : pt;
  o_vel : option pt; o_sunlit : option bool; o_solar : option (R * R); o_beta : option R }.

(** Series.mean(), used at track.py:554: missing values are skipped, the mean of nothing is NaN. *)
Definition mean_skipna (l : list (option R)) : option R :=
  match filter_some l with [] => None | v => Some (fold_right Rplus 0 v / INR (length v)) end.

(** The running identifier (valid_obs != valid_obs.shift()).astype("int").cumsum(), track.py:541-543: the
    first comparison is with a missing value and holds. *)
Fixpoint track_ids (prev : option bool) (acc : Z) (l : list bool) : list Z :=
  match l with
  | [] => []
  | v :: r => let acc' := (match prev with Some p => if Bool.eqb v p then acc else acc + 1 | None => acc + 1 end)%Z in
              acc' :: track_ids (Some v) acc' r
  end.
(** track.groupby(["orbit_id", "track_id"]), track.py:548 and 601: groups in lexicographic order of the keys. *)
Definition group2 {A} (l : list (Z * Z * A)) : list (list A) :=
  flat_map (fun g => map (map snd) (group_by (fun x => snd (fst x)) g)) (group_by (fun x => fst (fst x)) l).
(** orbit_id, track_id and the filter on validity, track.py:536-545; (time - times[0]) // period is the
    floor of the quotient.  [times0] is times[0] and [period] the orbit period in microseconds. *)
Definition identify (times0 period : Z) (rows : list orow) : list (Z * Z * orow) :=
  filter (fun x => o_valid (snd x))
    (combine (combine (map (fun r => ((o_time r - times0) / period)%Z) rows) (track_ids None 0 (map o_valid rows))) rows).
(** The groups of the line method, track.py:536-548. *)
Definition line_groups (times0 period : Z) (rows : list orow) : list (list orow) := group2 (identify times0 period rows).

(** The libraries: everything the modelled functions get from skyfield, pyproj, shapely, geopandas and SPICE is
    a field of this record (arbitrary functions; contracts are hypotheses of the theorems that need them).
    [St] is the state of a satellite at one time and [G] the type of geometries. track.py:75-757. *)
Record world := mk_world {
  w_St : Type;
  (* the orbit propagation of get_orbit_track *)
  w_state : Z -> w_St;
  (* skyfield's utc_datetime() of the time it was given (it rounds to milliseconds) *)
  w_reported : Z -> Z;
  (* longitude, latitude (degrees) and elevation (m) below the satellite *)
  w_ssp : w_St -> pt;
  (* Earth-fixed and inertial positions (m) and velocities (m/s) *)
  w_itrs_xyz : w_St -> pt;
  w_eci_xyz : w_St -> pt;
  w_itrs_vel : w_St -> pt;
  w_eci_vel : w_St -> pt;
  (* is_sunlit; solar altitude and azimuth and beta angle (degrees) *)
  w_sunlit : w_St -> bool;
  w_solar : w_St -> R * R;
  w_beta : w_St -> R;
  (* the solar altitude (degrees) at a target position *)
  w_solar_alt_at : pt -> w_St -> R;
  w_G : Type;
  (* compute_footprint and compute_footprint_center of an instrument at an elevation (m), and
     compute_projected_pixel_position *)
  w_footprint : instrument -> R -> w_St -> w_G;
  w_footprint_center : instrument -> R -> w_St -> pt;
  w_pixel_position : pointed -> R -> w_St -> nat * nat -> pt;
  (* buffer_footprint of a single point or of a line with the given swath width (m) and elevation, in the
     given coordinate reference system (code) *)
  w_buffer_point : pystr -> R -> pt -> option R -> w_G;
  w_buffer_line : pystr -> R -> list pt -> option R -> w_G;
  (* the union of geometries computed by GeoDataFrame.dissolve *)
  w_union : list w_G -> w_G;
  (* shapely's split of a line of points along a meridian *)
  w_split_line : list pt -> R -> list (list pt);
  (* the order in which gpd.clip returns the rows it keeps (unspecified) *)
  w_clip_order : forall A, list A -> list A }.

(** A mask: contains and intersects of a point (for a frame or series any() over its rows), contains of the
    mask enlarged by buffer_target, intersects of a footprint, and the part of a geometry that gpd.clip keeps
    (None: the row is dropped). track.py:234-235, 334-378, 655-699, 754-755. *)
Record mask G := mk_mask { m_contains : R -> R -> bool; m_intersects : R -> R -> bool; m_buffered : R -> R -> bool;
  m_meets : G -> bool; m_cut : G -> option G }.
Arguments mk_mask {G}.
Arguments m_contains {G}.
Arguments m_intersects {G}.
Arguments m_buffered {G}.
Arguments m_meets {G}.
Arguments m_cut {G}.
(** A record of collect_ground_track, track.py:438-447. *)
Record grow G := mk_grow { g_time : Z; g_sat : pystr; g_instr : pystr; g_valid : bool; g_geom : G }.
Arguments mk_grow {G}.
Arguments g_time {G}.
Arguments g_sat {G}.
Arguments g_instr {G}.
Arguments g_valid {G}.
Arguments g_geom {G}.

Section Track.
Variable W : world.
Local Notation St := (w_St W).
Local Notation state := (w_state W).
Local Notation reported := (w_reported W).
Local Notation ssp := (w_ssp W).
Local Notation itrs_xyz := (w_itrs_xyz W).
Local Notation eci_xyz := (w_eci_xyz W).
Local Notation itrs_vel := (w_itrs_vel W).
Local Notation eci_vel := (w_eci_vel W).
Local Notation sunlit := (w_sunlit W).
Local Notation solar := (w_solar W).
Local Notation beta := (w_beta W).
Local Notation solar_alt_at := (w_solar_alt_at W).
Local Notation G := (w_G W).
Local Notation footprint := (w_footprint W).
Local Notation footprint_center := (w_footprint_center W).
Local Notation pixel_position := (w_pixel_position W).
Local Notation buffer_point := (w_buffer_point W).
Local Notation buffer_line := (w_buffer_line W).
Local Notation union := (w_union W).
Local Notation split_line := (w_split_line W).
Local Notation clip_order := (w_clip_order W).
(** gpd.clip(frame, mask) for a frame of points, track.py:234-235 and 755: rows whose point the mask intersects. *)
Definition clip_points {A} (m : mask G) (f : A -> pt) (rows : list A) : list A :=
  clip_order A (filter (fun r => m_intersects m (px (f r)) (py (f r))) rows).

(** Evaluation of is_valid_observation(orbit_track, target), instrument.py:139-174. *)
Definition validity (i : instrument) (target : St -> pt) (track : list St) : pyres (list bool) :=
  bind (is_valid_observation (in_req i) (map (fun s => (sunlit s, solar_alt_at (target s) s)) track)) (fun a => Ok (as_vector a)).
(** The point of one sample, track.py:139-157. *)
Definition point_in (c : coordinates) (s : St) : pt :=
  match c with WGS84 => ssp s | ECEF => itrs_xyz s | ECI => eci_xyz s end.
(** The velocity of one sample, track.py:182-191. *)
Definition velocity_in (c : coordinates) (s : St) : pt := match c with ECI => eci_vel s | _ => itrs_vel s end.
(** One record, track.py:161-173 and 193-208, and the columns of lines 211-233. *)
Definition orbit_row (sa : sat) (i : instrument) (elevation : R) (c : coordinates) (vel f_sunlit f_solar f_beta : bool)
    (x : (Z * St) * bool) : orow :=
  let '((t, s), v) := x in
  mk_orow (reported t) (sa_name sa) (in_name i) (field_of_regard_to_swath_width (pz (ssp s)) (in_for i) elevation) v (point_in c s)
    (if vel then Some (velocity_in c s) else None) (if f_sunlit then Some (sunlit s) else None)
    (if f_solar then Some (solar s) else None) (if f_beta then Some (beta s) else None).
(** satellite.orbit.to_tle().get_orbit_track(times), track.py:119, 331, 648. *)
Definition orbit_track (times : list Z) : list (Z * St) := map (fun t => (t, state t)) times.
(** collect_orbit_track, track.py:75-236.  The target of is_valid_observation is the sub-satellite point
    (instrument.py:151-153). *)
Definition collect_orbit_track (sa : sat) (times : list Z) (idx : Z) (elevation : R) (m : option (mask G)) (c : coordinates)
    (vel f_sunlit f_solar f_beta : bool) : pyres (list orow) :=
  if Nat.eqb (length times) 0 then Ok []
  else bind (py_index (sa_instruments sa) idx) (fun i =>
    let track0 := orbit_track times in
    let track := match m with
      | Some k => filter (fun x => m_contains k (px (ssp (snd x))) (py (ssp (snd x)))) track0
      | None => track0
      end in
    if match m with Some k => negb (existsb (fun x => m_contains k (px (ssp (snd x))) (py (ssp (snd x)))) track0) | None => false end then Ok []
    else bind (validity i ssp (map snd track)) (fun valid =>
      let rows := map (orbit_row sa i elevation c vel f_sunlit f_solar f_beta) (combine track valid) in
      Ok (match m with Some k => clip_points k o_geom rows | None => rows end))).

(** gpd.clip(frame, mask) for a frame of areas, track.py:466-467 and 604-605. *)
Definition clip_rows (m : mask G) (rows : list (grow G)) : list (grow G) :=
  clip_order (grow G) (filter_some (map (fun r => match m_cut m (g_geom r) with
    | Some g => Some (mk_grow (g_time r) (g_sat r) (g_instr r) (g_valid r) g) | None => None end) rows)).
(** The two culling steps, track.py:334-378 and 655-699; None: the early return of an empty frame. *)
Definition cull (i : instrument) (elevation : R) (m : mask G) (track : list (Z * St)) : option (list (Z * St)) :=
  let t1 := filter (fun x => m_buffered m (px (ssp (snd x))) (py (ssp (snd x)))) track in
  if Nat.eqb (length t1) 0 then None
  else let t2 := filter (fun x => m_meets m (footprint i elevation (snd x))) t1 in
       if Nat.eqb (length t2) 0 then None else Some t2.
(** The footprint source: crs="spice" or a code ("utm" picks one per row, which is a property of
    [buffer_point] here), track.py:386-437. *)
Inductive source := Spice | Crs (code : pystr).
(** One geometry.  Outside spice the orbit is propagated again at the reported time, track.py:396-398. *)
Definition ground_geometry (src : source) (i : instrument) (elevation : R) (x : Z * St) : G :=
  match src with
  | Spice => footprint i elevation (snd x)
  | Crs code => let s := state (reported (fst x)) in
                buffer_point code elevation (ssp s) (field_of_regard_to_swath_width (pz (ssp s)) (in_for i) elevation)
  end.
(** collect_ground_track, track.py:287-468 (the optional altitude and azimuth columns are in Altaz_Model). *)
Definition collect_ground_track (sa : sat) (times : list Z) (idx : Z) (elevation : R) (m : option (mask G)) (src : source) : pyres (list (grow G)) :=
  if Nat.eqb (length times) 0 then Ok []
  else bind (py_index (sa_instruments sa) idx) (fun i =>
    let track0 := orbit_track times in
    match (match m with
           | Some k => if Nat.ltb 1 (length times) then cull i elevation k track0 else Some track0
           | None => Some track0
           end) with
    | None => Ok []
    | Some track =>
        bind (validity i (footprint_center i elevation) (map snd track)) (fun valid =>
          let rows := map (fun x => mk_grow (reported (fst (fst x))) (sa_name sa) (in_name i) (snd x) (ground_geometry src i elevation (fst x)))
                          (combine track valid) in
          Ok (match m with Some k => clip_rows k rows | None => rows end))
    end).

(** GeoDataFrame.dissolve: the attributes of the first row of a group and the union of its geometries.
    track.py:554, 601. *)
Definition dissolve (rows : list (grow G)) : list (grow G) :=
  match rows with
  | [] => []
  | r :: _ => [mk_grow (g_time r) (g_sat r) (g_instr r) (g_valid r) (union (map g_geom rows))]
  end.
(** The point method of compute_ground_track, track.py:514-530. *)
Definition point_track (sa : sat) (times : list Z) (idx : Z) (elevation : R) (m : option (mask G)) (src : source) (period : Z)
    (dissolve_orbits : bool) : pyres (list (grow G)) :=
  bind (collect_ground_track sa times idx elevation m src) (fun track =>
    let t0 := hd 0%Z times in
    let per_orbit := flat_map dissolve (group_by (fun r => (g_time r - t0) / period)%Z (filter g_valid track)) in
    Ok (if dissolve_orbits then dissolve per_orbit else per_orbit)).

(** The points of one group at the elevation, track.py:550. *)
Definition at_elevation (elevation : R) (g : list orow) : list pt := map (fun r => (px (o_geom r), py (o_geom r), elevation)) g.
(** A part of a split line mapped back to [-180, 180], track.py:574-591. *)
Definition map_back (line : list pt) : list pt :=
  if forallb (fun p => Rleb (px p) (-180)) line then map (fun p => (px p + 360, py p, pz p)) line
  else if forallb (fun p => Rleb 180 (px p)) line then map (fun p => (px p - 360, py p, pz p)) line
  else line.
(** The segments of one group, track.py:549-591.  LineString of a single point is an error of GEOS. *)
Definition segments_of (elevation : R) (g : list orow) : pyres (list (list pt)) :=
  let points := at_elevation elevation g in
  let lon := map px points in
  if no_crossing lon then (if Nat.eqb (length points) 1 then Raise GEOSError else Ok [points])
  else
    let s := shifts lon in
    let moved := map (fun q => (px (fst q) - 360 * IZR (snd q), py (fst q), pz (fst q))) (combine points s) in
    Ok (map map_back (split_line moved (shift_dir s))).
(** The line method of compute_ground_track, track.py:531-608.  An empty list of times or no valid sample
    at all is taken to give an empty result (simplification: pandas' behaviour on empty frames is not
    modelled). *)
Definition line_track (sa : sat) (times : list Z) (idx : Z) (elevation : R) (m : option (mask G)) (code : pystr) (period : Z)
    (dissolve_orbits : bool) : pyres (list (grow G)) :=
  bind (collect_orbit_track sa times idx elevation None WGS84 false false false false) (fun track =>
    let groups := line_groups (hd 0%Z times) period track in
    bind (mapM (segments_of elevation) groups) (fun segs =>
      let segments := concat segs in
      let widths := map (fun g => mean_skipna (map o_swath g)) groups in
      let polygons := map (fun x => buffer_line code elevation (fst x) (snd x)) (combine segments widths) in
      if negb (Nat.eqb (length polygons) (length groups)) then Raise ValueError
      else
        let rows := flat_map (fun x => match fst x with [] => [] | r :: _ => [mk_grow (o_time r) (o_sat r) (o_instr r) (o_valid r) (snd x)] end)
                             (combine groups polygons) in
        let rows := match m with Some k => clip_rows k rows | None => rows end in
        Ok (if dissolve_orbits then dissolve rows else rows))).
(** The method argument, track.py:512-514 and 530. *)
Inductive method := MPoint | MLine | MOther.
(** compute_ground_track, track.py:471-608. *)
Definition compute_ground_track (sa : sat) (times : list Z) (idx : Z) (elevation : R) (m : option (mask G)) (src : source) (meth : method)
    (period : Z) (dissolve_orbits : bool) : pyres (list (grow G)) :=
  match meth with
  | MOther => Raise ValueError
  | MPoint => point_track sa times idx elevation m src period dissolve_orbits
  | MLine => match src with Spice => Raise ValueError | Crs code => line_track sa times idx elevation m code period dissolve_orbits end
  end.

(** A record of collect_ground_pixels, track.py:706-720. *)
Record prow := mk_prow { p_time : Z; p_sat : pystr; p_instr : pystr; p_valid : bool; p_geom : pt }.
(** One record with the validity at the pixel, track.py:706-720 (orbit_track[i] is a single time). *)
Definition pixel_row (sa : sat) (i : instrument) (x : Z * St) (p : pt) : pyres prow :=
  bind (validity i (fun _ => p) [snd x]) (fun v =>
    Ok (mk_prow (reported (fst x)) (sa_name sa) (in_name i) (hd false v) p)).
(** collect_ground_pixels, track.py:611-756 (the optional altitude and azimuth columns are in Altaz_Model). *)
Definition collect_ground_pixels (sa : sat) (times : list Z) (idx : Z) (elevation : R) (m : option (mask G)) : pyres (list prow) :=
  if Nat.eqb (length times) 0 then Ok []
  else bind (py_index (sa_instruments sa) idx) (fun i =>
    match in_pointed i with
    | None => Raise ValueError
    | Some p =>
        if negb (pi_rect p) then Raise ValueError
        else
          let track0 := orbit_track times in
          match (match m with
                 | Some k => if Nat.ltb 1 (length times) then cull i elevation k track0 else Some track0
                 | None => Some track0
                 end) with
          | None => Ok []
          | Some track =>
              bind (mapM (fun x => mapM (fun ij => pixel_row sa i x (pixel_position p elevation (snd x) ij)) (pixel_indices p)) track)
                (fun rows => Ok (match m with Some k => clip_points k p_geom (concat rows) | None => concat rows end))
          end
    end).
End Track.

(** ** _get_utm_epsg_code, track.py:256-284 *)
(** The buffered point has the bounds x -+ r, y -+ r with r in degrees, track.py:268.  [clipped] gives the bounds
    of clip_by_rect(polygon, -180, -90, 180, 90) (None: empty, and AreaOfInterest refuses the NaN bounds with
    a ValueError) and [query] the codes found by pyproj; both are oracles. *)
Definition get_utm_epsg_code (clipped : R -> R -> R -> option (R * R * R * R)) (query : R * R * R * R -> list pystr)
    (x y swath_width : R) : pyres pystr :=
  let r := degrees (swath_width / 2 / EARTH_MEAN_RADIUS) in
  match clipped x y r with
  | None => Raise ValueError
  | Some b =>
      let results := query b in
      Ok (if Rltb 84 (y + r) then lit "EPSG:5041"%string
          else if Rltb (y - r) (-80) then lit "EPSG:5042"%string
          else match results with c :: _ => lit "EPSG:"%string ++ c | [] => lit "EPSG:4087"%string end)
  end.

(** ** buffer_target, utils.py:710-747 *)
(** The buffer distance (m), utils.py:740-742. *)
Definition buffer_distance (altitude inclination field_of_regard time_step scaling : R) : option R :=
  obind (field_of_regard_to_swath_width altitude field_of_regard 0) (fun w =>
    obind (compute_ground_velocity altitude inclination) (fun v => Some ((v * time_step + w / 2) * scaling))).
(** Membership in the buffer of a single target point computed in EPSG:4087 (equidistant cylindrical, taken
    as the spherical projection x = radius * longitude, y = radius * latitude in radians), with the part
    beyond the antimeridian mapped back by whole turns (split_polygon), utils.py:738-747. *)
Definition in_target_buffer (radius distance : R) (target point : R * R) : Prop :=
  exists k : Z, (radius * radians (fst point + 360 * IZR k - fst target)) ^ 2 + (radius * radians (snd point - snd target)) ^ 2 <= distance ^ 2.
