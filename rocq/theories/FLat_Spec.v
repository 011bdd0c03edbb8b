(** Specification vocabulary for the latitudes of the lattice. *)
From Coq Require Import ZArith Reals.
Open Scope R_scope.

(** The sine of the latitude of point [i] of [n]: a ladder with rungs 2 / (n + 2) apart, so that between any two neighbouring
    circles of latitude lies the same area (the area of a zone is proportional to the difference of the sines). *)
Definition rung (i n : Z) : R := 2 * (IZR i + 1) / (IZR n + 2) - 1.
(** The sine of an angle in degrees. *)
Definition sine_of (degrees : R) : R := sin (degrees * PI / 180).
