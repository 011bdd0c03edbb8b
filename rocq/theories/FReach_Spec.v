(** Specification of the conversions between along-track distances and access times. *)
From Coq Require Import ZArith Reals.
From Flocq Require Import Core IEEE754.BinarySingleNaN.
From Verif Require Import RBase Float_Spec FGeom_Spec.
Open Scope R_scope.

(** The ground velocity (m/s, positive eastwards of the rotating Earth): the mean motion less the Earth's rotation,
    as far as utils.py applies it, at the surface. *)
Definition velocity (altitude inclination : R) : R :=
  EARTH_MEAN_RADIUS * (sqrt (EARTH_MU / (EARTH_MEAN_RADIUS + altitude) ^ 3) - 2 * PI * cos (inclination * (180 / PI)) / EARTH_SIDEREAL_DAY_S).
(** From a millimetre to a million kilometres, or a millisecond to thirty years, in either direction. *)
Definition measurable (x : float) : Prop := finite x /\ / 1000 <= Rabs (val x) <= 1000000000.
