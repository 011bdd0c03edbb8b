(** Model of the polygon functions of src/tatc/utils.py:750-1190. *)
From Coq Require Import Reals ZArith List Bool.
From Verif Require Import Base RBase.
Import ListNotations.
Open Scope R_scope.

(** A shapely coordinate tuple: longitude, latitude and, for three-dimensional geometries, elevation.
    utils.py:750-1137. *)
Record coord := mk_coord { cx : R; cy : R; cz : option R }.
(** A shapely Polygon: exterior.coords and the coords of its interiors (closed rings).  shapely's
    constructor is taken as the identity on rings of at least four coordinates whose first and last
    coordinates agree; the rings below are images of such rings. utils.py:750-1137. *)
Record poly := mk_poly { p_ext : list coord; p_ints : list (list coord) }.
(** Polygon or MultiPolygon. utils.py:750-752, 1140-1142. *)
Inductive shape := SPoly (p : poly) | SMulti (l : list poly).
(** p.geoms if isinstance(p, MultiPolygon) else [p], utils.py:827, 870, 930, 973, 1022, 1134. *)
Definition geoms (s : shape) : list poly := match s with SPoly p => [p] | SMulti l => l end.
(** Recursion over the parts of a multipolygon, utils.py:820-829 (863-872, 923-932, 966-975, 1015-1024,
    1127-1136): the first exception wins. *)
Definition over_parts (f : poly -> pyres shape) (s : shape) : pyres shape :=
  match s with
  | SPoly p => f p
  | SMulti l => bind (mapM f l) (fun ps => Ok (SMulti (flat_map geoms ps)))
  end.

(** project_polygon_to_elevation, utils.py:750-770. *)
Definition project_coord (elevation : R) (c : coord) : coord := mk_coord (cx c) (cy c) (Some elevation).
(** The Polygon branch of project_polygon_to_elevation, utils.py:763-767. *)
Definition project_poly (elevation : R) (p : poly) : poly :=
  mk_poly (map (project_coord elevation) (p_ext p)) (map (map (project_coord elevation)) (p_ints p)).
(** project_polygon_to_elevation, utils.py:750-770. *)
Definition project_polygon_to_elevation (s : shape) (elevation : R) : shape :=
  match s with
  | SPoly p => SPoly (project_poly elevation p)
  | SMulti l => SMulti (map (project_poly elevation) l)
  end.

(** np.around(np.diff(lon) / 360), utils.py:1101 and track.py:563. *)
Fixpoint turns (prev : R) (lon : list R) : list Z :=
  match lon with [] => [] | x :: r => round_half_even ((x - prev) / 360) :: turns x r end.
(** np.cumsum, utils.py:1101. *)
Fixpoint cumsum (acc : Z) (l : list Z) : list Z :=
  match l with [] => [] | x :: r => (acc + x)%Z :: cumsum (acc + x) r end.
(** shift = np.insert(np.cumsum(...), 0, 0), utils.py:1101 and track.py:563. *)
Definition shifts (lon : list R) : list Z :=
  match lon with [] => [0%Z] | x :: r => 0%Z :: cumsum 0 (turns x r) end.
(** c[0] - 360 * shift[i], utils.py:1104 and track.py:565. *)
Definition unwrap (lon : list R) : list R := map (fun p => fst p - 360 * IZR (snd p)) (combine lon (shifts lon)).
(** all(np.abs(np.diff(lon)) < 180), utils.py:1069 and track.py:557. *)
Fixpoint steps_small (prev : R) (lon : list R) : bool :=
  match lon with [] => true | x :: r => Rltb (Rabs (x - prev)) 180 && steps_small x r end.
(** The same for a whole array, utils.py:1069 and track.py:557. *)
Definition no_crossing (lon : list R) : bool := match lon with [] => true | x :: r => steps_small x r end.
(** -180 if shift.max() >= 1 else 180, utils.py:1120 and track.py:568. *)
Definition shift_dir (s : list Z) : R := if existsb (fun k => (1 <=? k)%Z) s then -180 else 180.

(** The search of np.interp: the last index whose abscissa does not exceed [x], starting from
    the segment [(x0, y0)] (numpy searches short arrays linearly and long ones by bisection, which
    agree on sorted abscissae). utils.py:1081-1085, 1111. *)
Fixpoint interp_from (x x0 y0 : R) (l : list (R * R)) : R :=
  match l with
  | [] => y0
  | (x1, y1) :: r =>
      if Rleb x1 x then interp_from x x1 y1 r
      else if Req_EM_T x0 x then y0 else (y1 - y0) / (x1 - x0) * (x - x0) + y0
  end.
(** np.interp(x, xp, fp), used at utils.py:1081-1083 and 1111: beyond the last abscissa the last value,
    before the first the first value. *)
Definition np_interp (x : R) (l : list (R * R)) : R :=
  match l with
  | [] => 0
  | (x0, y0) :: r =>
      let '(xn, yn) := last l (x0, y0) in
      if Rltb xn x then yn else if Rltb x x0 then y0 else interp_from x x0 y0 r
  end.

(** coords.sort(key=lambda r: r[0]) (stable), utils.py:1077. *)
Fixpoint insert_lon (c : coord) (l : list coord) : list coord :=
  match l with [] => [c] | d :: r => if Rleb (cx c) (cx d) then c :: l else d :: insert_lon c r end.
(** The sort of utils.py:1077. *)
Definition sort_lon (l : list coord) : list coord := fold_right insert_lon [] l.
(** polygon.exterior.coords[0:-1] sorted by longitude, utils.py:1076-1077. *)
Definition pole_coords (p : poly) : list coord := sort_lon (removelast (p_ext p)).
(** np.array(coords)[:, 1].mean() > 0, utils.py:1079. *)
Definition n_s (coords : list coord) : R :=
  if Rltb 0 (fold_right Rplus 0 (map cy coords) / INR (length coords)) then 1 else -1.
(** The latitude at the antimeridian, utils.py:1081-1083. *)
Definition pole_lat (coords : list coord) : R :=
  match coords with
  | [] => 0
  | c0 :: _ => let cn := last coords c0 in np_interp 180 [(cx cn, cy cn); (cx c0 + 180, cy c0)]
  end.
(** The polygon around a pole with the added coordinates, utils.py:1086-1091. *)
Definition pole_polygon (p : poly) : poly :=
  let coords := pole_coords p in
  let n := n_s coords in
  let lat := pole_lat coords in
  mk_poly ([mk_coord (-180) (90 * n) None; mk_coord (-180) lat None] ++ coords
           ++ [mk_coord 180 lat None; mk_coord 180 (90 * n) None; mk_coord (-180) (90 * n) None]) (p_ints p).

(** A geometry of a GeometryCollection. utils.py:1028-1048. *)
Inductive piece := PShape (s : shape) | POther.
(** _convert_collection_to_polygon, utils.py:1028-1048. *)
Definition convert_collection (l : list piece) : shape :=
  let pgons := flat_map (fun g => match g with PShape (SPoly p) => [p] | _ => [] end) l
               ++ flat_map (fun g => match g with PShape (SMulti ps) => ps | _ => [] end) l in
  match pgons with [p] => SPoly p | _ => SMulti pgons end.

Section Shapely.
(** shapely's is_valid, make_valid, crosses, equality of geometries and split along a straight line, and
    contains(Point(0, 0)) of the polygon on the unit circle at utils.py:1072-1074 (arbitrary functions
    here; contracts are hypotheses of the theorems that need them).  A line is given by its end points. *)
Variable is_valid : shape -> bool.
Variable make_valid : shape -> list piece + shape.
Variable crosses : piece -> coord * coord -> bool.
Variable piece_eqb : piece -> piece -> bool.
Variable split : piece -> coord * coord -> list piece.
Variable surrounds_origin : list R -> bool.
(** The sorted longitudes with their shifts, np.sort(lon) and shift[np.argsort(lon)], utils.py:1111
    (numpy's sort is not stable, so the order among equal longitudes is arbitrary). *)
Variable sorted_shifts : list (R * R) -> list (R * R).

(** A planar point, as in LineString([(x, y), ...]). utils.py:850, 853, 953, 956, 1093, 1121. *)
Definition xy (x y : R) : coord := mk_coord x y None.

(** The coordinates of one ring wrapped over the north pole, utils.py:798-804 and 806-812. *)
Definition wrap_north_coord (lat_shift : R) (c : coord) : coord :=
  if Rleb 90 (cy c) then xy (cx c + lat_shift) (180 - cy c) else xy (cx c) (cy c).
(** _wrap_polygon_over_north_pole on a Polygon, utils.py:791-819. *)
Definition wrap_north_poly (p : poly) : pyres shape :=
  if forallb (fun c => Rleb (cy c) 90) (p_ext p) then Ok (SPoly p)
  else
    let lat_shift := if forallb (fun c => Rleb (cx c) 0) (p_ext p) then 180 else -180 in
    let pgon := mk_poly (map (wrap_north_coord lat_shift) (p_ext p)) (map (map (wrap_north_coord lat_shift)) (p_ints p)) in
    if is_valid (SPoly pgon) then Ok (SPoly pgon) else Ok (SPoly p).
(** _wrap_polygon_over_north_pole, utils.py:773-830. *)
Definition wrap_north (s : shape) : pyres shape := over_parts wrap_north_poly s.
(** The loop over the parts beyond a pole, utils.py:852-857 and 955-960: it runs over the parts produced by
    the first split while replacing those that cross the prime meridian. *)
Definition split_meridian (line : coord * coord) (parts0 : list piece) : list piece :=
  fold_left (fun parts part =>
    if crosses part line then filter (fun g => negb (piece_eqb g part)) parts ++ split part line else parts) parts0 parts0.
(** _split_polygon_north_pole on a Polygon, utils.py:845-862. *)
Definition split_north_poly (p : poly) : pyres shape :=
  if forallb (fun c => Rleb (cy c) 90) (p_ext p) then Ok (SPoly p)
  else wrap_north (convert_collection (split_meridian (xy 0 90, xy 0 180)
                     (split (PShape (SPoly p)) (xy (-360) 90, xy 360 90)))).
(** _split_polygon_north_pole, utils.py:833-873. *)
Definition split_north (s : shape) : pyres shape := over_parts split_north_poly s.

(** The coordinates of the exterior wrapped over the south pole, utils.py:901-907. *)
Definition wrap_south_coord (lat_shift : R) (c : coord) : coord :=
  if Rleb (cy c) (-90) then xy (cx c + lat_shift) (-180 - cy c) else xy (cx c) (cy c).
(** _wrap_polygon_over_south_pole on a Polygon, utils.py:894-922.  At line 911 the trailing comma puts a
    one-element tuple where the longitude of an interior coordinate belongs, so shapely is handed an
    array that is not homogeneous and raises ValueError as soon as an interior has a coordinate. *)
Definition wrap_south_poly (p : poly) : pyres shape :=
  if forallb (fun c => Rleb (-90) (cy c)) (p_ext p) then Ok (SPoly p)
  else
    let lat_shift := if forallb (fun c => Rleb (cx c) 0) (p_ext p) then 180 else -180 in
    if existsb (fun i => negb (Nat.eqb (length i) 0)) (p_ints p) then Raise ValueError
    else
      let pgon := mk_poly (map (wrap_south_coord lat_shift) (p_ext p)) (p_ints p) in
      if is_valid (SPoly pgon) then Ok (SPoly pgon) else Ok (SPoly p).
(** _wrap_polygon_over_south_pole, utils.py:876-933. *)
Definition wrap_south (s : shape) : pyres shape := over_parts wrap_south_poly s.
(** _split_polygon_south_pole on a Polygon, utils.py:948-965. *)
Definition split_south_poly (p : poly) : pyres shape :=
  if forallb (fun c => Rleb (-90) (cy c)) (p_ext p) then Ok (SPoly p)
  else wrap_south (convert_collection (split_meridian (xy 0 (-90), xy 0 (-180))
                     (split (PShape (SPoly p)) (xy (-360) (-90), xy 360 (-90))))).
(** _split_polygon_south_pole, utils.py:936-976. *)
Definition split_south (s : shape) : pyres shape := over_parts split_south_poly s.

(** Every coordinate moved by [k] degrees of longitude (and made planar), utils.py:1001-1004, 1007-1010. *)
Definition move_poly (k : R) (p : poly) : poly :=
  let f := fun c => xy (cx c + k) (cy c) in mk_poly (map f (p_ext p)) (map (map f) (p_ints p)).
(** _wrap_polygon_over_antimeridian on a Polygon, utils.py:995-1014.  When neither test at lines 999 and
    1005 succeeds, pgon is unbound at line 1012; when both do, the second assignment wins. *)
Definition wrap_antimeridian_poly (p : poly) : pyres shape :=
  if forallb (fun c => Rleb (-180) (cx c) && Rleb (cx c) 180) (p_ext p) then Ok (SPoly p)
  else
    let pgon := if forallb (fun c => Rleb (cx c) (-180)) (p_ext p) then Some (move_poly 360 p) else None in
    let pgon := if forallb (fun c => Rleb 180 (cx c)) (p_ext p) then Some (move_poly (-360) p) else pgon in
    match pgon with
    | None => Raise UnboundLocalError
    | Some q => if is_valid (SPoly q) then Ok (SPoly q) else Ok (SPoly p)
    end.
(** _wrap_polygon_over_antimeridian, utils.py:979-1025. *)
Definition wrap_antimeridian (s : shape) : pyres shape := over_parts wrap_antimeridian_poly s.

(** The polygon with its longitudes unwrapped, utils.py:1098-1118. *)
Definition unwrap_poly (p : poly) : poly :=
  let lon := map cx (p_ext p) in
  let s := shifts lon in
  let sp := sorted_shifts (combine lon (map IZR s)) in
  mk_poly (map (fun q => xy (cx (fst q) - 360 * IZR (snd q)) (cy (fst q))) (combine (p_ext p) s))
          (map (map (fun ic => xy (cx ic - 360 * np_interp (cx ic) sp) (cy ic))) (p_ints p)).
(** _split_polygon_antimeridian on a Polygon, utils.py:1065-1126. *)
Definition split_antimeridian_poly (p : poly) : pyres shape :=
  let lon := map cx (p_ext p) in
  if no_crossing lon then Ok (SPoly p)
  else if surrounds_origin lon then
    Ok (convert_collection (split (PShape (SPoly (pole_polygon p))) (xy 0 (-180), xy 0 180)))
  else
    let d := shift_dir (shifts lon) in
    wrap_antimeridian (convert_collection (split (PShape (SPoly (unwrap_poly p))) (xy d (-180), xy d 180))).
(** _split_polygon_antimeridian, utils.py:1051-1137. *)
Definition split_antimeridian (s : shape) : pyres shape := over_parts split_antimeridian_poly s.

(** split_polygon, utils.py:1140-1164 (a geometry that stays invalid is repaired by make_valid). *)
Definition split_polygon (s : shape) : pyres shape :=
  bind (split_antimeridian s) (fun s1 => bind (split_south s1) (fun s2 => bind (split_north s2) (fun s3 =>
    if is_valid s3 then Ok s3
    else match make_valid s3 with
         | inl l => Ok (convert_collection l)
         | inr s4 => Ok s4
         end))).

(** ** normalize_geometry, utils.py:1167-1190 *)
(** The argument: a bare shape, a series of shapes or a frame.  A frame is a mutable object; it is
    represented by its geometry column (the other columns are not touched). utils.py:1167-1190. *)
Inductive geom_arg := AShape (s : shape) | ASeries (l : list shape) | AFrame (l : list shape) | AOther.
(** What normalize_geometry returns: a frame, or the argument itself when it is none of the above.
    utils.py:1167-1190. *)
Inductive geom_res := RFrame (l : list shape) | ROther.
(** The result together with the argument object as the caller sees it afterwards.  Line 1186 assigns the
    column of the frame that was passed in; lines 1182 and 1184 build a new frame first. *)
Definition normalize_geometry (a : geom_arg) : pyres (geom_res * geom_arg) :=
  match a with
  | AShape s => if is_valid s then bind (split_polygon s) (fun t => Ok (RFrame [t], a)) else Raise ValueError
  | ASeries l => bind (mapM split_polygon l) (fun ts => Ok (RFrame ts, a))
  | AFrame l => bind (mapM split_polygon l) (fun ts => Ok (RFrame ts, AFrame ts))
  | AOther => Ok (ROther, a)
  end.
End Shapely.
