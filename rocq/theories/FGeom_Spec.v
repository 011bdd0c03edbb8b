(** Specification of the accuracy of binary64 viewing geometry. *)
From Coq Require Import ZArith Reals.
From Flocq Require Import Core IEEE754.BinarySingleNaN.
From Verif Require Import Float_Spec.
Open Scope R_scope.

Definition float := binary_float 53 1024.
(** A library function [f] that computes [g] with an absolute error of at most 2^-50 on arguments that meet
    [dom]. *)
Definition computes (dom : R -> Prop) (g : R -> R) (f : float -> float) : Prop :=
  forall x, finite x -> dom (val x) -> finite (f x) /\ Rabs (val (f x) - g (val x)) <= bpow radix2 (-50).
(** Sine and cosine are accurate and stay within [-1, 1]; the inverse functions are accurate on [-1, 1]. *)
Definition accurate_libm (f_sin f_cos f_asin f_acos : float -> float) : Prop :=
  computes (fun x => Rabs x <= 1048576) sin f_sin /\ computes (fun x => Rabs x <= 1048576) cos f_cos
  /\ computes (fun x => Rabs x <= 1) asin f_asin /\ computes (fun x => Rabs x <= 1) acos f_acos
  /\ (forall x, finite x -> Rabs (val x) <= 1048576 -> Rabs (val (f_sin x)) <= 1 /\ Rabs (val (f_cos x)) <= 1).
(** A float close to a real number. *)
Definition close (x : float) (r d : R) : Prop := finite x /\ Rabs (val x - r) <= d.
(** Altitudes up to 50000 km above a surface between 10 km below and 100 km above the mean sphere. *)
Definition viewing (altitude elevation : float) : Prop :=
  finite altitude /\ finite elevation /\ -10000 <= val elevation <= 100000
  /\ val elevation <= val altitude <= 50000000.
(** Altitudes from 10 km below the mean sphere to 50000 km. *)
Definition orbital (altitude : float) : Prop := finite altitude /\ -10000 <= val altitude <= 50000000.
(** A finite angle of [lo] to [hi] degrees. *)
Definition angle (lo hi : R) (x : float) : Prop := finite x /\ lo <= val x <= hi.
(** A cosine that is one for arguments of at most 2^-27, as every correctly rounded cosine is (the cosine is
    then within 2^-55 of one). *)
Definition rounds_to_one (f_cos : float -> float) : Prop :=
  forall x, finite x -> Rabs (val x) <= bpow radix2 (-27) -> finite (f_cos x) /\ val (f_cos x) = 1.
