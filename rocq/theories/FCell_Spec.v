(** Specification vocabulary for cells in binary64. *)
From Coq Require Import ZArith Reals List.
From Verif Require Import Float_Spec FGrid_Model FCell_Model.
Open Scope R_scope.

(** The place is in the cell, its western and southern edges included. *)
Definition holds (c : fcell) (longitude latitude : R) : Prop :=
  val (c_west c) <= longitude < val (c_east c) /\ val (c_south c) <= latitude < val (c_north c).
(** The point is inside the cell, off its edges. *)
Definition inside (c : fcell) (p : fpoint) : Prop :=
  val (c_west c) < val (f_lon p) < val (c_east c) /\ val (c_south c) < val (f_lat p) < val (c_north c).
(** Every place west of [e] and south of [n] is in exactly one row. *)
Definition tiles (cells : list fcell) (e n : R) : Prop :=
  (forall longitude latitude, -180 <= longitude < e /\ -90 <= latitude < n <-> exists c, In c cells /\ holds c longitude latitude)
  /\ (forall longitude latitude k1 k2 c1 c2, nth_error cells k1 = Some c1 -> nth_error cells k2 = Some c2 ->
       holds c1 longitude latitude -> holds c2 longitude latitude -> k1 = k2).
