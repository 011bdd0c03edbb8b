(** Specification vocabulary for masks. *)
From Coq Require Import Reals ZArith List Bool Sorting.Permutation.
From Verif Require Import Base Tle_Model Track_Model Mask_Model.
Import ListNotations.
Open Scope R_scope.

(** Contract of the geometry calls: [on g x y] says that a place belongs to a mask geometry (with its border) and
    [foot f x y] that it belongs to a footprint. *)
Record geometry_laws {G S} (O : geo_ops G S) (on : S -> R -> R -> Prop) (foot : G -> R -> R -> Prop) : Prop := {
  l_intersects : forall g x y, intersects O g x y = true <-> on g x y;
  l_contains : forall g x y, contains O g x y = true -> on g x y;
  l_contains_more : forall g h x y, (forall a b, on g a b -> on h a b) -> contains O g x y = true -> contains O h x y = true;
  l_meets : forall g f, meets O g f = true <-> exists x y, on g x y /\ foot f x y;
  l_cut_none : forall g f, cut O g f = None <-> ~ exists x y, on g x y /\ foot f x y;
  l_cut : forall g f c, cut O g f = Some c -> forall x y, foot c x y <-> on g x y /\ foot f x y;
  l_union : forall l x y, on (union O l) x y <-> exists g, In g l /\ on g x y;
  l_buffer : forall g h, (forall x y, on g x y -> on h x y) -> forall x y, on (buffer_target O g) x y -> on (buffer_target O h) x y }.

(** A place belongs to a mask. *)
Definition in_mask {S} (on : S -> R -> R -> Prop) (m : mask_arg S) (x y : R) : Prop :=
  match m with MGeometry g => on g x y | MFrame l => exists g, In g l /\ on g x y | MSeries l => exists g, In g l /\ on g x y end.
(** A geometry, a frame with at least one row, or a series with exactly one. *)
Definition one_piece {S} (m : mask_arg S) : Prop :=
  match m with MGeometry _ => True | MFrame l => l <> [] | MSeries l => exists g, l = [g] end.
(** A mask with at least one geometry. *)
Definition some_rows {S} (m : mask_arg S) : Prop :=
  match m with MGeometry _ => True | MFrame l => l <> [] | MSeries l => l <> [] end.
(** Two rows of a ground track that say the same. *)
Definition same_row {G} (foot : G -> R -> R -> Prop) (r s : grow G) : Prop :=
  g_time r = g_time s /\ g_sat r = g_sat s /\ g_instr r = g_instr s /\ g_valid r = g_valid s
  /\ forall x y, foot (g_geom r) x y <-> foot (g_geom s) x y.
(** Two results that list the same rows in some order. *)
Definition same_rows {A} (same : A -> A -> Prop) (a b : pyres (list A)) : Prop :=
  match a, b with
  | Ok l, Ok k => exists k', Permutation k k' /\ Forall2 same l k'
  | Raise e, Raise f => e = f
  | _, _ => False
  end.
(** A result every row of which is in the other. *)
Definition within_rows {A} (same : A -> A -> Prop) (a b : pyres (list A)) : Prop :=
  match a, b with
  | Ok l, Ok k => forall r, In r l -> exists s, In s k /\ same r s
  | Raise e, Raise f => e = f
  | _, _ => False
  end.
