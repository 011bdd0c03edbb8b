(** Specification vocabulary for point and cell generation: statements about coordinates only. *)
From Coq Require Import Reals ZArith List Permutation.
From Verif Require Import Base RBase Grid_Model.
Import ListNotations.
Open Scope R_scope.

(** A number of whole steps that fits an extent up to half a step. *)
Definition fits (n : Z) (th extent : R) : Prop := (0 <= n)%Z /\ Rabs (IZR n * th - extent) <= th / 2.
(** The closed axis-parallel rectangle. *)
Definition rect (w e s n x y : R) : Prop := w <= x <= e /\ s <= y <= n.
(** Same set of points. *)
Definition same_set (A B : R -> R -> Prop) : Prop := forall x y, A x y <-> B x y.
(** What gpd.clip does to a point frame: it keeps exactly the covered rows, in some order. *)
Definition clips_points (clip : (R -> R -> Prop) -> list gpoint -> list gpoint) : Prop :=
  forall P l, exists rest, Permutation l (clip P l ++ rest)
    /\ Forall (fun g => P (g_lon g) (g_lat g)) (clip P l)
    /\ Forall (fun g => ~ P (g_lon g) (g_lat g)) rest.
(** What gpd.clip does to a polygon frame: every row that meets the mask is replaced by its
    intersection with the mask; the others are dropped. *)
Definition clips_cells (clip : (R -> R -> Prop) -> list shape -> list shape) : Prop :=
  forall P l r', In r' (clip P l) <->
    exists r, In r l /\ (exists x y, sh_set r x y /\ P x y)
      /\ r' = mk_shape (sh_id r) (fun x y => sh_set r x y /\ P x y).
(** Convex set of the plane. *)
Definition convex (A : R -> R -> Prop) : Prop :=
  forall x1 y1 x2 y2 t, A x1 y1 -> A x2 y2 -> 0 <= t <= 1 ->
    A (t * x1 + (1 - t) * x2) (t * y1 + (1 - t) * y2).
(** The convex hull is the least convex superset. *)
Definition hulls (hull : (R -> R -> Prop) -> R -> R -> Prop) : Prop :=
  forall A x y, hull A x y <-> forall B, convex B -> (forall u v, A u v -> B u v) -> B x y.
(** The bounds of a mask bound it. *)
Definition bounded_mask (m : mask) : Prop :=
  forall x y, mk_covers m x y ->
    rect (min_lon (mk_bnds m)) (max_lon (mk_bnds m)) (min_lat (mk_bnds m)) (max_lat (mk_bnds m)) x y.
(** A mask inside the usual coordinate ranges, not wholly at longitude -180. *)
Definition regular_mask (m : mask) : Prop :=
  mk_valid m = true /\ bounded_mask m
  /\ -180 <= min_lon (mk_bnds m) /\ max_lon (mk_bnds m) <= 180 /\ max_lon (mk_bnds m) <> -180
  /\ -90 <= min_lat (mk_bnds m) /\ max_lat (mk_bnds m) <= 90.
(** The point at the middle of grid square (i,j). *)
Definition center (thi thj : R) (i j : Z) (g : gpoint) : Prop :=
  g_lon g = -180 + thi / 2 + IZR i * thi /\ g_lat g = -90 + thj / 2 + IZR j * thj.
(** Interior of a planar set. *)
Definition interior (A : R -> R -> Prop) (x y : R) : Prop :=
  exists d, 0 < d /\ forall u v, Rabs (u - x) < d -> Rabs (v - y) < d -> A u v.
(** The grid square of an index, or the strip across the bounds of the mask. *)
Definition square_of (thi thj : R) (b : bounds) (s : strips) (i j : Z) : R -> R -> Prop :=
  let band_lon := (-180 + IZR i * thi, -180 + (IZR i + 1) * thi) in
  let band_lat := (-90 + IZR j * thj, -90 + (IZR j + 1) * thj) in
  match s with
  | NoStrips => rect (fst band_lon) (snd band_lon) (fst band_lat) (snd band_lat)
  | LatStrips => rect (min_lon b) (max_lon b) (fst band_lat) (snd band_lat)
  | LonStrips => rect (fst band_lon) (snd band_lon) (min_lat b) (max_lat b)
  end.
