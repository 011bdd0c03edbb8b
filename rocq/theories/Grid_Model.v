(** Model of point and cell generation: src/tatc/generation/points.py, src/tatc/generation/cells.py,
    and compute_number_samples (src/tatc/utils.py:82-104), over exact reals. *)
From Coq Require Import Reals ZArith List Bool.
From Verif Require Import Base RBase.
Import ListNotations.
Open Scope R_scope.

(** Python [int(x)]: truncation towards zero (points.py:197, 254-276; utils.py:104). *)
Definition py_trunc (x : R) : Z := if Rleb 0 x then Int_part x else (- Int_part (- x))%Z.
(** Python [range(a, b)] (points.py:253-277). *)
Definition py_range (a b : Z) : list Z := map (fun k => (a + Z.of_nat k)%Z) (seq 0 (Z.to_nat (b - a))).
(** numpy integer [np.mod(i, n)]; zero for a zero divisor, as numpy and numba compute it
    (points.py:197). *)
Definition np_mod (i n : Z) : Z := if Z.eqb n 0 then 0%Z else (i mod n)%Z.

(** ** Masks *)
(** Bounds of a geometry: minimum and maximum longitude and latitude (shapely [bounds]). points.py:200-221. *)
Record bounds := mk_bounds { min_lon : R; min_lat : R; max_lon : R; max_lat : R }.
(** A Polygon or MultiPolygon mask as far as the generators look at it: [is_valid], [bounds], and
    the set of points it covers (shapely's [intersects] with a point).
    points.py:84-95, 137-143, 200-221, 334; cells.py:103-181. *)
Record mask := mk_mask { mk_valid : bool; mk_bnds : bounds; mk_covers : R -> R -> Prop }.
(** The default bounds, points.py:89 and 216. *)
Definition globe : bounds := mk_bounds (-180) (-90) 180 90.
(** _get_bounds, points.py:200-221; also the head of generate_fibonacci_lattice_points,
    points.py:84-95.  Masks that are neither polygon type nor None are not modelled. *)
Definition get_bounds (m : option mask) : pyres bounds :=
  match m with
  | None => Ok globe
  | Some k =>
      if mk_valid k then
        let b := mk_bnds k in
        Ok (mk_bounds (min_lon b) (min_lat b) (if Req_EM_T (max_lon b) (-180) then 180 else max_lon b) (max_lat b))
      else Raise ValueError
  end.

(** ** Equally spaced grid *)
(** The [strips] option, points.py:240-241. *)
Inductive strips := NoStrips | LatStrips | LonStrips.
(** Column range of the bounds: the two int(np.round(...)), points.py:262-265, 274-277. *)
Definition col_range (th : R) (b : bounds) : list Z :=
  py_range (round_half_even ((min_lon b + 180) / th)) (round_half_even ((max_lon b + 180) / th)).
(** Row range of the bounds, points.py:253-256, 270-273. *)
Definition row_range (th : R) (b : bounds) : list Z :=
  py_range (round_half_even ((min_lat b + 90) / th)) (round_half_even ((max_lat b + 90) / th)).
(** _generate_equally_spaced_indices, points.py:224-278.  Divisions by a zero step are not modelled. *)
Definition grid_indices (thi thj : R) (b : bounds) (s : strips) : list (Z * Z) :=
  match s with
  | LatStrips => map (fun j => (0%Z, j)) (row_range thj b)
  | LonStrips => map (fun i => (i, 0%Z)) (col_range thi b)
  | NoStrips => flat_map (fun j => map (fun i => (i, j)) (col_range thi b)) (row_range thj b)
  end.
(** _compute_equally_spaced_point_id, points.py:179-197. *)
Definition point_id (i j : Z) (thi thj : R) : Z :=
  (j * py_trunc (360 / thj) + np_mod i (py_trunc (360 / thi)))%Z.
(** One generated point (point_id, longitude, latitude), points.py:316-329; the elevation is passed
    through unchanged and not modelled. *)
Record gpoint := mk_gpoint { g_id : Z; g_lon : R; g_lat : R }.
(** The frame before clipping, points.py:314-331. *)
Definition grid_point (thi thj : R) (ij : Z * Z) : gpoint :=
  mk_gpoint (point_id (fst ij) (snd ij) thi thj) (-180 + (IZR (fst ij) + 1 / 2) * thi) (-90 + (IZR (snd ij) + 1 / 2) * thj).

(** One generated cell before clipping, cells.py:96-176: the id and the corners in order
    (the closing corner repeated). *)
Record gcell := mk_gcell { cell_id : Z; corners : list (R * R) }.
(** cells.py:102-173. *)
Definition grid_cell (thi thj : R) (b : bounds) (s : strips) (ij : Z * Z) : gcell :=
  let i := fst ij in let j := snd ij in
  let east := match s with LatStrips => max_lon b | _ => -180 + (IZR i + 1) * thi end in
  let west := match s with LatStrips => min_lon b | _ => -180 + IZR i * thi end in
  let south := match s with LonStrips => min_lat b | _ => -90 + IZR j * thj end in
  let north := match s with LonStrips => max_lat b | _ => -90 + (IZR j + 1) * thj end in
  mk_gcell (point_id i j thi thj)
    [(east, south); (east, north); (west, north); (west, south); (east, south)].

Section Clip.
(** gpd.clip of a point frame by the mask (points.py:143, 334): rows whose point the mask covers, in
    an order that geopandas does not promise. *)
Variable clip_points : (R -> R -> Prop) -> list gpoint -> list gpoint.
(** _generate_equally_spaced_points, points.py:281-336. *)
Definition gen_points (thi thj : R) (m : option mask) : pyres (list gpoint) :=
  bind (get_bounds m) (fun b =>
    let l := map (grid_point thi thj) (grid_indices thi thj b NoStrips) in
    Ok (match m with None => l | Some k => clip_points (mk_covers k) l end)).
(** The angular step of a distance, points.py:172-173 and cells.py:49-50. *)
Definition step (distance : R) : R := degrees (distance / EARTH_MEAN_RADIUS).
(** generate_equally_spaced_points, points.py:148-176. *)
Definition generate_equally_spaced_points (distance : R) (m : option mask) : pyres (list gpoint) :=
  gen_points (step distance) (step distance) m.

(** A cell after clipping: id and the set of points of its geometry. cells.py:96-181. *)
Record shape := mk_shape { sh_id : Z; sh_set : R -> R -> Prop }.
(** The set of points of a rectangle given by its corners, cells.py:103-171. *)
Definition rect_set (c : gcell) (x y : R) : Prop :=
  match corners c with
  | (e, s) :: (_, n) :: (w, _) :: _ => w <= x <= e /\ s <= y <= n
  | _ => False
  end.
(** gpd.clip of the cell frame and the convex hull of every geometry (cells.py:179-181). *)
Variable clip_cells : (R -> R -> Prop) -> list shape -> list shape.
Variable convex_hull : (R -> R -> Prop) -> (R -> R -> Prop).
(** _generate_equally_spaced_cells, cells.py:56-183. *)
Definition gen_cells (thi thj : R) (m : option mask) (s : strips) : pyres (list shape) :=
  bind (get_bounds m) (fun b =>
    let l := map (fun ij => let c := grid_cell thi thj b s ij in mk_shape (cell_id c) (rect_set c)) (grid_indices thi thj b s) in
    Ok (match m with
        | None => l
        | Some k => map (fun r => mk_shape (sh_id r) (convex_hull (sh_set r))) (clip_cells (mk_covers k) l)
        end)).
(** generate_equally_spaced_cells, cells.py:23-53. *)
Definition generate_equally_spaced_cells (distance : R) (m : option mask) (s : strips) : pyres (list shape) :=
  gen_cells (step distance) (step distance) m s.

(** ** Fibonacci lattice *)
(** _compute_fibonacci_lattice_point_latitude, points.py:19-33 (the argument of arcsin is in
    (-1,1) for 0 <= index < count). *)
Definition fib_lat (i count : Z) : R := degrees (asin (2 * (IZR i + 1) / (IZR count + 2) - 1)).
(** _compute_fibonacci_lattice_point_longitude, points.py:36-52. *)
Definition golden : R := (1 + sqrt 5) / 2.
(** points.py:49-52. *)
Definition fib_lon (i : Z) : R :=
  let l := rmod (360 * IZR i / golden) 360 in if Rltb 180 l then l - 360 else l.
(** The longitude as used with a mask, points.py:111-116, 126-132. *)
Definition fib_lon_shifted (mx : R) (i : Z) : R :=
  if Rltb 180 mx && Rltb (fib_lon i) 0 then fib_lon i + 360 else fib_lon i.
(** The bounding box test, points.py:101-119. *)
Definition fib_in_box (b : bounds) (n i : Z) : bool :=
  Rleb (min_lat b) (fib_lat i n) && Rleb (fib_lat i n) (max_lat b)
  && Rleb (min_lon b) (fib_lon_shifted (max_lon b) i) && Rleb (fib_lon_shifted (max_lon b) i) (max_lon b).
(** generate_fibonacci_lattice_points for a given number of samples, points.py:84-145. *)
Definition fib_points (n : Z) (m : option mask) : pyres (list gpoint) :=
  bind (get_bounds m) (fun b =>
    Ok (match m with
        | None => map (fun i => mk_gpoint i (fib_lon i) (fib_lat i n)) (py_range 0 n)
        | Some k => clip_points (mk_covers k)
            (map (fun i => mk_gpoint i (fib_lon_shifted (max_lon b) i) (fib_lat i n)) (filter (fib_in_box b n) (py_range 0 n)))
        end)).

(** EARTH_FLATTENING, constants.py:27. *)
Definition EARTH_FLATTENING : R := 1000000000 / 298257223563.
(** EARTH_ECCENTRICITY, constants.py:33. *)
Definition EARTH_ECCENTRICITY : R := sqrt (2 * EARTH_FLATTENING - EARTH_FLATTENING ^ 2).
(** EARTH_SURFACE_AREA, constants.py:36-42. *)
Definition EARTH_SURFACE_AREA : R :=
  2 * PI * EARTH_EQUATORIAL_RADIUS ^ 2
  + PI * EARTH_POLAR_RADIUS ^ 2 / EARTH_ECCENTRICITY * ln ((1 + EARTH_ECCENTRICITY) / (1 - EARTH_ECCENTRICITY)).
(** compute_number_samples, utils.py:82-104 (a zero sample area is a division by zero). *)
Definition compute_number_samples (distance : R) : pyres Z :=
  let theta := distance / EARTH_MEAN_RADIUS in
  let radius := EARTH_MEAN_RADIUS * cos (theta / 2) in
  let height := EARTH_MEAN_RADIUS - radius in
  let sample_area := 2 * PI * EARTH_MEAN_RADIUS * height in
  if Req_EM_T sample_area 0 then Raise ZeroDivisionError
  else Ok (py_trunc (EARTH_SURFACE_AREA / sample_area)).
(** generate_fibonacci_lattice_points, points.py:55-145. *)
Definition generate_fibonacci_lattice_points (distance : R) (m : option mask) : pyres (list gpoint) :=
  bind (compute_number_samples distance) (fun n => fib_points n m).
End Clip.

(** Whether the schema Point accepts a generated point (id, longitude, latitude), point.py:17-33. *)
Definition point_accepted (g : gpoint) : bool :=
  (0 <=? g_id g)%Z && Rleb (-90) (g_lat g) && Rleb (g_lat g) 90 && Rleb (-180) (g_lon g) && Rleb (g_lon g) 180.
