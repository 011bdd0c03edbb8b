(** Specification vocabulary for streets of coverage in binary64. *)
From Coq Require Import ZArith Reals.
From Flocq Require Import Core IEEE754.BinarySingleNaN.
From Verif Require Import RBase Float_Model Float_Spec FGrid_Model FGeom_Spec Geom_Spec FSoc_Model.
Open Scope R_scope.

(** A function of the library that leaves numbers of at most 2^-27 as they are, as a correctly rounded sine and arc sine do. *)
Definition keeps_small (f : float -> float) : Prop := forall x, finite x -> Rabs (val x) <= bpow radix2 (-27) -> f x = x.
(** Correctly rounded values: sines and arc sines of small numbers, the cosine of zero and of the number nearest to pi / 2
    (6.123233995736766e-17), the arc tangent and arc cosine of zero. *)
Definition usual_values (f_sin f_cos f_asin f_acos f_atan : float -> float) : Prop :=
  keeps_small f_sin /\ keeps_small f_asin /\ f_cos (of_Z 0) = of_Z 1 /\ f_cos (fdiv f_pi (of_Z 2)) = f_lit 4967757600021511 (-106)
  /\ f_atan (of_Z 0) = of_Z 0 /\ f_acos (of_Z 0) = fdiv f_pi (of_Z 2).
(** An arc tangent with an error of at most 2^-50. *)
Definition accurate_atan (f_atan : float -> float) : Prop := computes (fun x => Rabs x <= 1048576) atan f_atan.
(** Altitudes from 200 to 50000 km, swaths from 100 km, packing from a quarter to one; the edge of the swath, at the angle
    [lam] from the subsatellite point, is above the horizon and sees the satellite at 2.6 degrees of elevation or more (the
    cosine of the elevation is [sin lam] over the distance of the satellite, by the law of cosines, in units of its radius). *)
Definition usual_streets (s : fsoc) : Prop :=
  let rho := EARTH_MEAN_RADIUS / (EARTH_MEAN_RADIUS + val (fs_altitude s)) in
  let lam := val (fs_swath s) / 2 / EARTH_MEAN_RADIUS in
  finite (fs_altitude s) /\ 200000 <= val (fs_altitude s) <= 50000000
  /\ finite (fs_swath s) /\ 100000 <= val (fs_swath s)
  /\ finite (fs_packing s) /\ 1 / 4 <= val (fs_packing s) <= 1
  /\ lam <= acos rho /\ sin lam * sin lam <= 0.998 * (1 - 2 * rho * cos lam + rho * rho).
(** A count that differs by at most one from the least number of steps, around a turn, of at most the angle whose half has the
    sine [q]. *)
Definition near_least (q : R) (k : Z) : Prop :=
  exists g n, 0 < g < PI /\ sin (g / 2) = q /\ least_steps g n /\ (Z.abs (k - n) <= 1)%Z.
