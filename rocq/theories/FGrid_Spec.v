(** Specification vocabulary for grids in binary64 arithmetic. *)
From Coq Require Import ZArith Reals.
From Flocq Require Import Core IEEE754.BinarySingleNaN.
From Verif Require Import Float_Spec.
Open Scope R_scope.

(** Angular steps between a millionth of a degree and 256 degrees. *)
Definition usual_step (theta : binary_float 53 1024) : Prop :=
  finite theta /\ / 1048576 <= val theta <= 256.

(** Distances between one metre and 28,000 km. *)
Definition usual_distance (d : binary_float 53 1024) : Prop :=
  finite d /\ 1 <= val d <= 28000000.

(** The quotient of [span] and the step, as the machine computes it, is not
    exactly half way between two integers. *)
Definition not_half_way (span : R) (theta : binary_float 53 1024) : Prop :=
  forall k : Z, rnd (span / val theta) <> IZR k + 1 / 2.

(** What is assumed of the platform's arc sine: a number for every argument between -1 and 1, no greater
    than the double nearest to pi/2; *)
Definition asin_range (half_pi : R) (f : binary_float 53 1024 -> binary_float 53 1024) : Prop :=
  forall x, finite x -> -1 <= val x <= 1 -> finite (f x) /\ Rabs (val (f x)) <= half_pi.
(** and less than that by 2^-26 for arguments that are 2^-50 away from -1 and 1 (the exact arc sine is
    less by 2^-25). *)
Definition asin_interior (half_pi : R) (f : binary_float 53 1024 -> binary_float 53 1024) : Prop :=
  forall x, finite x -> Rabs (val x) <= 1 - bpow radix2 (-50) -> Rabs (val (f x)) <= half_pi - bpow radix2 (-26).
(** The golden ratio. *)
Definition golden : R := (1 + sqrt 5) / 2.
