(** Independent specification used by the coverage theorems.  Nothing here is
    taken from the code: it says what visibility, coverage and clusters are. *)
From Coq Require Import String ZArith QArith List Bool Sorting.Sorted.
From Verif Require Import Base Coverage_Model.
Import ListNotations.
Open Scope Z_scope.

(** ** Visibility *)

(** Strictly chronological events inside the window. *)
Definition chronological (ev : events) : Prop :=
  StronglySorted (fun a b => fst a < fst b) ev.
Definition in_window (start end_ : Z) (ev : events) : Prop :=
  Forall (fun e => start <= fst e <= end_) ev.

(** A physically consistent event sequence starting from visibility [b]: a
    satellite rises only when below, culminates and sets only when above. *)
Fixpoint alternates (b : bool) (ev : events) : Prop :=
  match ev with
  | [] => True
  | (_, Rise) :: r => b = false /\ alternates true r
  | (_, Culminate) :: r => b = true /\ alternates true r
  | (_, SetEv) :: r => b = true /\ alternates false r
  end.

(** Is the satellite above the limit immediately before instant [t], given that
    it is above at the start of the window iff [b]? *)
Fixpoint above (b : bool) (ev : events) (t : Z) : bool :=
  match ev with
  | [] => b
  | (te, e) :: r =>
      if te <? t
      then above (match e with SetEv => false | _ => true end) r t
      else b
  end.

(** Every complete pass (rise followed by its set) is shorter than [d]. *)
Fixpoint short_passes (d : Z) (since : option Z) (ev : events) : Prop :=
  match ev with
  | [] => True
  | (t, Rise) :: r => short_passes d (Some t) r
  | (_, Culminate) :: r => short_passes d since r
  | (t, SetEv) :: r =>
      match since with Some r0 => t < r0 + d | None => True end
      /\ short_passes d None r
  end.

(** Instant [t] belongs to a returned interval (pandas intervals are open on
    the left and closed on the right). *)
Definition in_some (iv : list (Z * Z)) (t : Z) : Prop :=
  exists i, In i iv /\ fst i < t <= snd i.

(** Consecutive intervals follow each other without overlapping. *)
Definition disjoint_ordered (iv : list (Z * Z)) : Prop :=
  StronglySorted (fun a b => snd a <= fst b) iv.

(** ** Coverage sets *)

(** A rational instant is covered by a list of closed intervals. *)
Definition covered (iv : list (Z * Z)) (t : Q) : Prop :=
  exists i, In i iv /\ (inject_Z (fst i) <= t)%Q /\ (t <= inject_Z (snd i))%Q.

(** Closed intervals in order, separated by gaps of positive length. *)
Definition separated (iv : list (Z * Z)) : Prop :=
  Forall (fun i => fst i <= snd i) iv
  /\ StronglySorted (fun a b => snd a < fst b) iv.

(** The intervals observed for one point, before and after aggregation. *)
Definition obs_intervals (p : Z) (rows : list obs) : list (Z * Z) :=
  map (fun o => (o_start o, o_end o)) (filter (fun o => o_point o =? p) rows).
Definition agg_intervals (p : Z) (rows : list agg) : list (Z * Z) :=
  map (fun a => (a_start a, a_end a)) (filter (fun a => a_point a =? p) rows).

(** Observations end no earlier than they start. *)
Definition proper (rows : list obs) : Prop := Forall (fun o => o_start o <= o_end o) rows.

(** [m] is the least / greatest element of a list. *)
Definition is_min (m : Z) (l : list Z) : Prop := In m l /\ Forall (fun x => m <= x) l.
Definition is_max (m : Z) (l : list Z) : Prop := In m l /\ Forall (fun x => x <= m) l.

(** The revisit column of one point: missing first, then the gap to the end of
    the previous record. *)
Fixpoint revisits (prev : option Z) (rows : list agg) : Prop :=
  match rows with
  | [] => True
  | a :: r =>
      match prev, a_revisit a with
      | None, None => True
      | Some e, Some g => g = a_start a - e /\ 0 < g
      | _, _ => False
      end /\ revisits (Some (a_end a)) r
  end.

Definition revisit_or_zero (a : agg) : Z :=
  match a_revisit a with None => 0 | Some g => g end.

(** ** Means *)
Definition is_mean (m : Q) (l : list Z) : Prop :=
  l <> [] /\ (m * inject_Z (Z.of_nat (length l)) == inject_Z (fold_right Z.add 0%Z l))%Q.

(** ** Provenance and grids *)

(** Intervals of positive length. *)
Definition nonempty_iv (i : Z * Z) : bool := fst i <? snd i.

(** Re-reading an aggregated record as an observation. *)
Definition as_obs (epoch : agg -> Z) (a : agg) : obs :=
  mk_obs (a_point a) (a_sat a) (a_inst a) (a_start a) (epoch a) (a_end a).

(** Record [a] summarises exactly the observations [part]: all of its point, all
    inside its interval, whose bounds, mean epoch and names are those of [part]. *)
Definition contributes (part : list obs) (a : agg) : Prop :=
  part <> []
  /\ Forall (fun o => o_point o = a_point a /\ a_start a <= o_start o /\ o_end o <= a_end a) part
  /\ is_min (a_start a) (map o_start part) /\ is_max (a_end a) (map o_end part)
  /\ a_sat a = String.concat ", " (map o_sat part)
  /\ a_inst a = String.concat ", " (map o_inst part)
  /\ is_mean (a_epoch a) (map o_epoch part).

(** The aggregated records of point [p]. *)
Definition rows_of (p : Z) (rows : list agg) : list agg := filter (fun a => a_point a =? p) rows.

(** The rows located in a cell, and in how many cells a row is located. *)
Definition in_cell {G R} (contains : G -> R -> bool) (c : cell G) (rows : list R) : list R := filter (contains (c_geom c)) rows.
Definition times_covered {G} (contains : G -> red -> bool) (cells : list (cell G)) (r : red) : nat :=
  length (filter (fun c => contains (c_geom c) r) cells).
