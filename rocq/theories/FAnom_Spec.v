(** Specification of anomalies in binary64. *)
From Coq Require Import ZArith Reals.
From Flocq Require Import Core IEEE754.BinarySingleNaN.
From Verif Require Import RBase Float_Spec FGeom_Spec.
Open Scope R_scope.

(** Powers of numbers of [0, 1], never negative and never above the base. *)
Definition accurate_pow (f : float -> nat -> float) : Prop :=
  forall x k, finite x -> 0 <= val x <= 1 -> (2 <= k <= 4)%nat ->
    finite (f x k) /\ 0 <= val (f x k) <= val x /\ Rabs (val (f x k) - val x ^ k) <= bpow radix2 (-50).
(** The truncated series of the documentation, in radians. *)
Definition true_series (e r : R) : R :=
  r + (2 * e - 1 / 4 * e ^ 3) * sin r + 5 / 4 * e ^ 2 * sin (2 * r) + 13 / 12 * e ^ 3 * sin (3 * r).
Definition mean_series (e r : R) : R :=
  r - 2 * e * sin r + (3 / 4 * e ^ 2 + 1 / 8 * e ^ 4) * sin (2 * r) - 1 / 3 * e ^ 3 * sin (3 * r) + 5 / 32 * e ^ 4 * sin (4 * r).
(** In degrees. *)
Definition true_of (m e : R) : R := true_series e (m * (PI / 180)) * (180 / PI).
Definition mean_of (nu e : R) : R := mean_series e (nu * (PI / 180)) * (180 / PI).
(** An elliptical (or circular) orbit's eccentricity. *)
Definition closed (e : float) : Prop := finite e /\ 0 <= val e <= 1.
(** Up to 100 turns in either direction. *)
Definition moderate (d : float) : Prop := finite d /\ Rabs (val d) <= 36000.
(** What the conversions and the powers of the mathematics library must do. *)
Definition series_libm (f_sin : float -> float) (f_pow : float -> nat -> float) : Prop :=
  computes (fun x => Rabs x <= 1048576) sin f_sin /\ accurate_pow f_pow.
(** The change of mean anomaly of member [i] of a Walker constellation, [s] to a plane: evenly spaced in the plane,
    and 360 f / n from a plane to the next. *)
Definition walker_phase (s n f i : Z) : R := IZR (i mod s) * (360 / IZR s) + IZR (i / s) * (IZR (360 * f) / IZR n).
