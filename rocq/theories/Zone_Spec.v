(** Specification of datetimes in time zones. *)
From Coq Require Import ZArith List Bool.
From Verif Require Import Base Zone_Model.
Import ListNotations.
Open Scope Z_scope.

(** The aware datetime [a] denotes the instant [t]: what its clock shows is [t] plus the offset of its zone.
    A zone with the identity of UTC is UTC. *)
Definition denotes (a : dt) (t : Z) : Prop :=
  exists z, d_zone a = Some z /\ d_wall a = t + z_off z (d_wall a)
    /\ (z_id z = 0 -> forall w, z_off z w = 0).
(** A datetime without zone. *)
Definition naive (a : dt) : Prop := d_zone a = None.
(** Two datetimes with the same tzinfo object have the same offsets. *)
Definition same_object (a b : dt) : Prop :=
  forall za zb, d_zone a = Some za -> d_zone b = Some zb -> z_id za = z_id zb -> forall w, z_off za w = z_off zb w.
(** The clock of [start] has the same offset a cycle later and at the end of the period. *)
Definition no_clock_change (start end_ : dt) (cycle : Z) : Prop :=
  forall z, d_zone start = Some z ->
    z_off z (d_wall start + cycle) = z_off z (d_wall start)
    /\ (forall z', d_zone end_ = Some z' -> z_id z' = z_id z -> z_off z (d_wall end_) = z_off z (d_wall start)).
(** A zone with a fixed offset. *)
Definition fixed (a : dt) : Prop := forall z, d_zone a = Some z -> forall w w', z_off z w = z_off z w'.
