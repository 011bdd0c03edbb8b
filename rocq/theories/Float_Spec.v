(** Specification vocabulary for C16: what a user expects of angle arithmetic,
    in terms of the real values of the floats. *)
From Coq Require Import ZArith Reals.
From Flocq Require Import Core IEEE754.BinarySingleNaN.
From Verif Require Import RBase.
Open Scope R_scope.

(** The real number a float denotes. *)
Definition val (x : binary_float 53 1024) : R := B2R x.

(** A float that is neither infinite nor NaN. *)
Definition finite (x : binary_float 53 1024) : Prop := is_finite x = true.

(** A right ascension the schema documents as valid. *)
Definition angle_ok (x : binary_float 53 1024) : Prop := finite x /\ 0 <= val x < 360.

(** Nearest binary64 value, ties to even. *)
Definition rnd (x : R) : R := round radix2 (FLT_exp (-1074) 53) ZnearestE x.

(** The angle of [0,360) that differs from [x] by whole turns, as a relation. *)
Definition turn_of (x r : R) : Prop := 0 <= r < 360 /\ exists k : Z, x = r + 360 * IZR k.
