(** Specification vocabulary for the fields of groups and members. *)
From Coq Require Import ZArith Reals.
From Flocq Require Import Core IEEE754.BinarySingleNaN.
From Verif Require Import Float_Spec FGeom_Spec.
Open Scope R_scope.

(** A number or infinity above zero. *)
Definition above_zero (x : float) : Prop := finite x /\ 0 < val x \/ x = B754_infinity false.
(** A number or infinity, zero or above. *)
Definition not_negative (x : float) : Prop := finite x /\ 0 <= val x \/ x = B754_infinity false.
(** A number from zero to below [hi]. *)
Definition turn_below (hi : R) (x : float) : Prop := finite x /\ 0 <= val x < hi.
