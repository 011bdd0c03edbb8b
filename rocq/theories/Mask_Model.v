(** Model of the mask argument of the track functions, src/tatc/analysis/track.py:75-236, 287-468 and 611-756: a shapely
    geometry, a GeoDataFrame or a GeoSeries. *)
From Coq Require Import Reals ZArith List Bool.
From Verif Require Import Base RBase Tle_Model Geom_Model Instr_Model Poly_Model Track_Model.
Import ListNotations.
Open Scope R_scope.

(** A mask argument over geometries [S], track.py:79, 291, 615: Polygon or MultiPolygon, GeoDataFrame, GeoSeries.
    Simplified: of a frame or series only the geometries, in row order. *)
Inductive mask_arg (S : Type) := MGeometry (g : S) | MFrame (rows : list S) | MSeries (rows : list S).
Arguments MGeometry {S}.
Arguments MFrame {S}.
Arguments MSeries {S}.

(** The calls of shapely and geopandas on mask geometries, with [G] the geometries of footprints: contains and
    intersects of a point, intersects of a footprint, the part of a footprint that gpd.clip keeps (None: the row is
    dropped), the union of geometries computed by dissolve and by gpd.clip, and buffer_target for the satellite,
    instrument and times of the call (utils.py:710-747; simplified: it never raises). *)
Record geo_ops (G S : Type) := mk_geo { contains : S -> R -> R -> bool; intersects : S -> R -> R -> bool;
  meets : S -> G -> bool; cut : S -> G -> option G; union : list S -> S; buffer_target : S -> S }.
Arguments mk_geo {G S}.
Arguments contains {G S}.
Arguments intersects {G S}.
Arguments meets {G S}.
Arguments cut {G S}.
Arguments union {G S}.
Arguments buffer_target {G S}.

Section Masks.
Variables (W : world) (S : Type) (O : geo_ops (w_G W) S).

(** The geometries that any(mask.contains(...)) and any(mask.intersects(...)) run over, track.py:125-133, 366-373. *)
Definition rows_of (m : mask_arg S) : list S := match m with MGeometry g => [g] | MFrame l => l | MSeries l => l end.
(** The area gpd.clip clips to, track.py:234-235, 466-467, 754-755: the geometry, or the union of all rows. *)
Definition area_of (m : mask_arg S) : S := match m with MGeometry g => g | MFrame l => union O l | MSeries l => union O l end.
(** The geometry given to buffer_target, track.py:337-345 and 658-666: mask, mask.dissolve().iloc[0].geometry or
    mask.iloc[0]. *)
Definition buffered_of (m : mask_arg S) : pyres S :=
  match m with
  | MGeometry g => Ok g
  | MFrame [] => Raise IndexError
  | MFrame l => Ok (union O l)
  | MSeries [] => Raise IndexError
  | MSeries (g :: _) => Ok g
  end.
(** The mask of Track_Model that an argument amounts to, with [b] the geometry to be enlarged. *)
Definition mask_of (b : S) (m : mask_arg S) : mask (w_G W) :=
  mk_mask (fun x y => existsb (fun g => contains O g x y) (rows_of m)) (intersects O (area_of m))
    (contains O (buffer_target O b)) (fun f => existsb (fun g => meets O g f) (rows_of m)) (cut O (area_of m)).
(** collect_orbit_track with a mask, track.py:75-236 (the mask is not enlarged). *)
Definition orbit_track_in (sa : sat) (times : list Z) (idx : Z) (elevation : R) (m : mask_arg S) (c : coordinates)
    (vel f_sunlit f_solar f_beta : bool) : pyres (list orow) :=
  collect_orbit_track W sa times idx elevation (Some (mask_of (area_of m) m)) c vel f_sunlit f_solar f_beta.
(** collect_ground_track with a mask, track.py:287-468: the mask is enlarged if there is more than one time. *)
Definition ground_track_in (sa : sat) (times : list Z) (idx : Z) (elevation : R) (m : mask_arg S) (src : source) : pyres (list (grow (w_G W))) :=
  if Nat.eqb (length times) 0 then Ok []
  else bind (py_index (sa_instruments sa) idx) (fun _ =>
    bind (if Nat.ltb 1 (length times) then buffered_of m else Ok (area_of m)) (fun b =>
      collect_ground_track W sa times idx elevation (Some (mask_of b m)) src)).
(** collect_ground_pixels with a mask, track.py:611-756; the instrument is checked before the mask is enlarged. *)
Definition ground_pixels_in (sa : sat) (times : list Z) (idx : Z) (elevation : R) (m : mask_arg S) : pyres (list prow) :=
  if Nat.eqb (length times) 0 then Ok []
  else bind (py_index (sa_instruments sa) idx) (fun i =>
    match in_pointed i with
    | None => Raise ValueError
    | Some p =>
        if negb (pi_rect p) then Raise ValueError
        else bind (if Nat.ltb 1 (length times) then buffered_of m else Ok (area_of m)) (fun b =>
          collect_ground_pixels W sa times idx elevation (Some (mask_of b m)))
    end).
End Masks.
