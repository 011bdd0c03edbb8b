(** Specification of the surface area of an ellipsoid of revolution, independent of the constants of
    the library: the profile of the ellipsoid and the area its rotation sweeps. *)
From Coq Require Import Reals.
Open Scope R_scope.

(** Distance from the axis at height [z] of the ellipsoid with equatorial radius [a] and polar radius [b]. *)
Definition profile (a b z : R) : R := a * sqrt (1 - z ^ 2 / b ^ 2).
(** Area per height of the ring at height [z]: 2 pi r sqrt (1 + r'^2), which for this profile is: *)
Definition ring (a b z : R) : R := 2 * PI * a * sqrt (1 + (a ^ 2 - b ^ 2) / b ^ 4 * z ^ 2).
(** [S] is the area swept between the poles. *)
Definition surface_area (a b S : R) : Prop :=
  exists pr : Riemann_integrable (ring a b) (- b) b, RiemannInt pr = S.
