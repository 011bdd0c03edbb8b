(** Specification vocabulary for sun-synchronous orbits in binary64. *)
From Coq Require Import ZArith Reals.
From Flocq Require Import Core IEEE754.BinarySingleNaN.
From Verif Require Import RBase Float_Spec FGeom_Spec.
Open Scope R_scope.

(** The power function at the exponent 3.5, on numbers from 1/2 to 1: an error of at most 2^-50, and never above 1. *)
Definition accurate_power (f : float -> float -> float) : Prop :=
  forall x y, finite x -> finite y -> 1 / 2 <= val x <= 1 -> val y = 7 / 2 ->
    finite (f x y) /\ Rabs (val (f x y) - Rpower (val x) (7 / 2)) <= bpow radix2 (-50) /\ Rabs (val (f x y)) <= 1.
(** The cosine an inclination must have for the node to follow the Sun, at an altitude (circular orbits, J2 only;
    12352 km is the semimajor axis at which only an orbit with an inclination of 180 degrees does). *)
Definition sun_cosine (altitude : R) : R := - Rpower ((EARTH_MEAN_RADIUS + altitude) / 12352000) (7 / 2).
(** The cosine of an angle in degrees. *)
Definition cosine_of (degrees : R) : R := cos (degrees * PI / 180).
(** Where the node is to be: local solar time 12:00 at the node is the direction of the Sun; for descending crossings the
    ascending node is opposite. *)
Definition node_for (sun : R) (ect_us : Z) (ascending : bool) : R :=
  sun + 15 * (IZR ect_us / 3600000000 - 12) + (if ascending then 0 else 180).
