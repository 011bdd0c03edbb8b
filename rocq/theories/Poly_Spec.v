(** Specification vocabulary for polygons on the globe. *)
From Coq Require Import Reals ZArith List Bool Sorting.Permutation Sorting.Sorted.
From Verif Require Import Base RBase Poly_Model.
Import ListNotations.
Open Scope R_scope.

(** Cartesian coordinates on the unit sphere of a longitude and latitude in degrees. *)
Definition on_globe (c : coord) : R * R * R :=
  (cos (radians (cy c)) * cos (radians (cx c)), cos (radians (cy c)) * sin (radians (cx c)), sin (radians (cy c))).
(** The same place on the globe. *)
Definition same_place (c d : coord) : Prop := on_globe c = on_globe d.
(** Two polygons correspond ring by ring and vertex by vertex. *)
Definition same_rings (R : coord -> coord -> Prop) (p q : poly) : Prop :=
  Forall2 R (p_ext p) (p_ext q) /\ Forall2 (Forall2 R) (p_ints p) (p_ints q).
(** Two shapes are of the same kind and correspond part by part. *)
Definition same_parts (R : poly -> poly -> Prop) (s t : shape) : Prop :=
  match s, t with
  | SPoly p, SPoly q => R p q
  | SMulti l, SMulti m => Forall2 R l m
  | _, _ => False
  end.
(** Bounds on the exterior. *)
Definition lon_within (a b : R) (p : poly) : Prop := forall c, In c (p_ext p) -> a <= cx c <= b.
Definition lat_within (a b : R) (p : poly) : Prop := forall c, In c (p_ext p) -> a <= cy c <= b.
(** All longitudes of the exterior on one side of the prime meridian. *)
Definition one_side (p : poly) : Prop := lon_within (-180) 0 p \/ lon_within 0 180 p.
(** Consecutive elements of a list. *)
Definition consecutive {A} (l : list A) (a b : A) : Prop := exists l1 l2, l = l1 ++ a :: b :: l2.
(** An ordinary polygon: latitudes in bounds and no step of 180 degrees of longitude or more. *)
Definition ordinary (p : poly) : Prop :=
  lat_within (-90) 90 p /\ forall a b, consecutive (map cx (p_ext p)) a b -> Rabs (b - a) < 180.
(** The polygons of a collection. *)
Definition polygons_of (l : list piece) : list poly := flat_map (fun g => match g with PShape s => geoms s | POther => [] end) l.
(** Contracts of shapely functions: validity does not change when a polygon is moved in longitude or made
    planar; *)
Definition move_invariant (is_valid : shape -> bool) : Prop :=
  forall k p, is_valid (SPoly (move_poly k p)) = is_valid (SPoly p).
(** splitting along a meridian yields parts on one side of it, within the bounds of the whole. *)
Definition splits_sides (split : piece -> coord * coord -> list piece) : Prop :=
  forall p x a b lo hi q, lon_within lo hi p -> In q (polygons_of (split (PShape (SPoly p)) (xy x a, xy x b))) ->
    lon_within lo hi q /\ (lon_within lo x q \/ lon_within x hi q).
(** The straight line between two vertices, the second one given 360 degrees further east. *)
Definition latitude_at (lon : R) (west east : coord) : R :=
  cy west + (cy east - cy west) / (cx east + 360 - cx west) * (lon - cx west).
(** ** Coverage *)
(** All coordinates of a polygon. *)
Definition vertices (p : poly) : list coord := p_ext p ++ concat (p_ints p).
(** Every coordinate of a polygon moved by [f]. *)
Definition map_poly (f : coord -> coord) (p : poly) : poly := mk_poly (map f (p_ext p)) (map (map f) (p_ints p)).
(** All vertices at or south (north) of a parallel. *)
Definition south_of (c : R) (p : poly) : Prop := forall v, In v (vertices p) -> cy v <= c.
Definition north_of (c : R) (p : poly) : Prop := forall v, In v (vertices p) -> c <= cy v.
(** The points covered by a list of polygons, given those covered by a polygon. *)
Definition covered_by (cov : poly -> R -> R -> Prop) (l : list poly) (x y : R) : Prop := exists q, In q l /\ cov q x y.
(** The places on the globe covered. *)
Definition places_of (cov : poly -> R -> R -> Prop) (l : list poly) (X : R * R * R) : Prop :=
  exists x y, covered_by cov l x y /\ on_globe (xy x y) = X.
(** Shifting or mirroring a polygon shifts or mirrors what it covers. *)
Definition moves_coverage (cov : poly -> R -> R -> Prop) : Prop :=
  (forall k p x y, cov (map_poly (fun c => xy (cx c + k) (cy c)) p) x y <-> cov p (x - k) y)
  /\ (forall k c p x y, cov (map_poly (fun v => xy (cx v + k) (c - cy v)) p) x y <-> cov p (x - k) (c - y)).
(** Splitting a geometry: the parts cover what the whole covers, lie on one side of a parallel, and stay
    north (south) of a parallel that the whole is north (south) of. *)
Definition splits_coverage (cov : poly -> R -> R -> Prop) (split : piece -> coord * coord -> list piece) : Prop :=
  (forall g line x y, covered_by cov (polygons_of (split g line)) x y <-> covered_by cov (polygons_of [g]) x y)
  /\ (forall p a b c q, In q (polygons_of (split (PShape (SPoly p)) (xy a c, xy b c))) -> south_of c q \/ north_of c q)
  /\ (forall g line h q c, In h (split g line) -> In q (polygons_of [h]) ->
        ((forall p, In p (polygons_of [g]) -> south_of c p \/ north_of c p) -> south_of c q \/ north_of c q)).
(** Equal geometries cover the same. *)
Definition equal_coverage (cov : poly -> R -> R -> Prop) (piece_eqb : piece -> piece -> bool) : Prop :=
  forall g h, piece_eqb g h = true -> forall x y, covered_by cov (polygons_of [g]) x y <-> covered_by cov (polygons_of [h]) x y.
(** Repairing a geometry does not change what it covers. *)
Definition repairs_coverage (cov : poly -> R -> R -> Prop) (make_valid : shape -> list piece + shape) : Prop :=
  forall s x y, covered_by cov (match make_valid s with inl l => polygons_of l | inr t => geoms t end) x y <-> covered_by cov (geoms s) x y.
(** np.sort(lon) with shift[np.argsort(lon)]: a permutation in order of longitude. *)
Definition sorts_pairs (sorted_shifts : list (R * R) -> list (R * R)) : Prop :=
  forall l, Permutation (sorted_shifts l) l /\ StronglySorted (fun a b => fst a <= fst b) (sorted_shifts l).
(** Every vertex of a ring is moved in longitude only, by [a] turns if it is at or west of longitude [w] and by
    [b] turns if it is at or east of [e]. *)
Definition turned_ring (w e : R) (a b : Z) (r r' : list coord) : Prop :=
  Forall2 (fun c d => cy d = cy c /\ (cx c <= w -> cx d = cx c + 360 * IZR a) /\ (e <= cx c -> cx d = cx c + 360 * IZR b)) r r'.
(** What a polygon given by longitudes and latitudes stands for in the plane: itself when no step between
    consecutive vertices reaches 180 degrees of longitude; otherwise, when the outline does not surround the
    pole, an outline through the same places whose steps are at most 180 degrees, with holes at the same
    latitudes; otherwise the polygon closed over the pole. *)
Definition laid_out (surrounds_pole : bool) (p u : poly) : Prop :=
  ((forall a b, consecutive (map cx (p_ext p)) a b -> Rabs (b - a) < 180) /\ u = p)
  \/ ((exists a b, consecutive (map cx (p_ext p)) a b /\ 180 <= Rabs (b - a))
      /\ if surrounds_pole then u = pole_polygon p
         else Forall2 same_place (p_ext p) (p_ext u)
              /\ (forall a b, consecutive (map cx (p_ext u)) a b -> Rabs (b - a) <= 180)
              /\ (forall c r, p_ext p = c :: r -> exists r', p_ext u = xy (cx c) (cy c) :: r')
              /\ Forall2 (Forall2 (fun c d => cy d = cy c)) (p_ints p) (p_ints u)).
(** ** Bounds of the parts of a split *)
(** A polygon within a box of longitudes and latitudes. *)
Definition in_box (lo hi la lb : R) (p : poly) : Prop := lon_within lo hi p /\ lat_within la lb p.
(** All polygons of a piece. *)
Definition piece_all (P : poly -> Prop) (g : piece) : Prop := forall p, In p (polygons_of [g]) -> P p.
(** Contract of shapely's split: the parts stay within the box of the whole and have no new holes; a line across
    all longitudes (latitudes) of the whole leaves every part on one side of it. *)
Definition splits_box (split : piece -> coord * coord -> list piece) : Prop :=
  (forall g line lo hi la lb h, piece_all (in_box lo hi la lb) g -> In h (split g line) -> piece_all (in_box lo hi la lb) h)
  /\ (forall g line h, piece_all (fun p => p_ints p = []) g -> In h (split g line) -> piece_all (fun p => p_ints p = []) h)
  /\ (forall g a b c lo hi la lb h, a < b -> a <= lo -> hi <= b -> piece_all (in_box lo hi la lb) g -> In h (split g (xy a c, xy b c)) ->
        piece_all (in_box lo hi la c) h \/ piece_all (in_box lo hi c lb) h)
  /\ (forall g x a b lo hi la lb h, a <> b -> Rmin a b <= la -> lb <= Rmax a b -> piece_all (in_box lo hi la lb) g -> In h (split g (xy x a, xy x b)) ->
        piece_all (in_box lo x la lb) h \/ piece_all (in_box x hi la lb) h).
(** Contract of shapely's crosses: a geometry that a line along a meridian does not cross, though the line goes from
    beyond its latitudes on one side to (at least) their end on the other, lies on one side of the meridian. *)
Definition crosses_meridian (crosses : piece -> coord * coord -> bool) : Prop :=
  forall g x a b lo hi la lb, (a <= la /\ lb < b) \/ (b < la /\ lb <= a) -> piece_all (in_box lo hi la lb) g ->
    crosses g (xy x a, xy x b) = false -> piece_all (fun p => in_box lo x la lb p \/ in_box x hi la lb p) g.
(** A polygon in bounds, or one whose copy in bounds (at the same places) shapely calls invalid. *)
Definition bounded_or_invalid (is_valid : shape -> bool) (lo hi : R) (q : poly) : Prop :=
  in_box (-180) 180 lo hi q \/ exists w, same_rings same_place q w /\ in_box (-180) 180 lo hi w /\ is_valid (SPoly w) = false.
(** An outline that crosses the antimeridian, if at all, in one direction only before it comes back: seen from the first
    vertex, no vertex is more than one turn away and all turns are to the same side. *)
Definition one_way (p : poly) : Prop :=
  (forall k, In k (shifts (map cx (p_ext p))) -> k = 0%Z \/ k = 1%Z) \/ (forall k, In k (shifts (map cx (p_ext p))) -> k = 0%Z \/ k = (-1)%Z).
(** Contract of make_valid: what it returns stays within the bounds of the whole. *)
Definition repairs_box (make_valid : shape -> list piece + shape) : Prop :=
  forall s lo hi la lb, (forall p, In p (geoms s) -> in_box lo hi la lb p) ->
    forall q, In q (match make_valid s with inl l => polygons_of l | inr t => geoms t end) -> in_box lo hi la lb q.
