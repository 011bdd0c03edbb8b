(** Binary64 model of the right ascension arithmetic of [get_derived_orbit]
    (src/tatc/schemas/orbit.py:760-788).  Floating-point numbers are Flocq's
    [binary_float 53 1024]; the three operations involved are numpy/C
    operations: [+] (correctly rounded, ties to even), [fmod] (exact) and the
    sign fix-up of numpy's [remainder]. *)
From Coq Require Import ZArith Bool List.
From Flocq Require Import Core IEEE754.BinarySingleNaN.
From Verif Require Import Base.
Import ListNotations.
Open Scope Z_scope.

(** Instances needed by Flocq's binary64 operations; no counterpart in /repo
    beyond Python's [float] being IEEE binary64. satellite.py:109, orbit.py:760-762. *)
Global Instance prec64 : Prec_gt_0 53 := eq_refl.
(** See above, orbit.py:760-762. *)
Global Instance emax64 : Prec_lt_emax 53 1024 := eq_refl.

(** Python [float]: every numeric field of orbit.py (e.g. 760-762). *)
Definition b64 := binary_float 53 1024.

(** Integer literals promoted to float, orbit.py:761 (0, 360) and 781 (360). *)
Definition of_Z (n : Z) : b64 := binary_normalize 53 1024 prec64 emax64 mode_NE n 0 false.

(** The [+] of orbit.py:781. *)
Definition fadd (x y : b64) : b64 := Bplus (prec_gt_0_ := prec64) (prec_lt_emax_ := emax64) mode_NE x y.

(** C [fmod], called by numpy's remainder at orbit.py:781: the remainder of the
    truncated quotient, computed exactly, with the sign of the dividend. *)
Definition fmod (x y : b64) : b64 :=
  match x, y with
  | B754_nan, _ | _, B754_nan => B754_nan
  | B754_infinity _, _ => B754_nan
  | _, B754_zero _ => B754_nan
  | B754_zero _, _ => x
  | _, B754_infinity _ => x
  | B754_finite sx mx ex _, B754_finite _ my ey _ =>
      let e := Z.min ex ey in
      let r := (Zpos mx * 2 ^ (ex - e)) mod (Zpos my * 2 ^ (ey - e)) in
      binary_normalize 53 1024 prec64 emax64 mode_NE (cond_Zopp sx r) e sx
  end.

(** C truth value [mod != 0] inside numpy's remainder (orbit.py:781). *)
Definition is_zero (x : b64) : bool :=
  match x with B754_zero _ => true | _ => false end.

(** C comparison [x < 0] inside numpy's remainder (orbit.py:781). *)
Definition is_neg (x : b64) : bool := Bltb x (B754_zero false).

(** [np.mod] (numpy's remainder loop for doubles) as called at orbit.py:781,
    891, 971, 1089 and 1174. *)
Definition np_mod (a b : b64) : b64 :=
  let m := fmod a b in
  if is_zero b then m
  else if is_zero m then B754_zero (is_neg b)
  else if xorb (is_neg b) (is_neg m) then fadd m b
  else m.

(** Field constraint [ge=0, lt=360], orbit.py:760-762.  Comparisons with NaN
    are false, so NaN is rejected. *)
Definition raan_field (x : b64) : pyres b64 :=
  if Bleb (of_Z 0) x && Bltb x (of_Z 360) then Ok x else Raise ValidationError.

(** The right ascension part of [CircularOrbit.get_derived_orbit], orbit.py
    781-788.  The other fields are copied or treated in Orbit_Model. *)
Definition derived_raan (raan delta : b64) : pyres b64 :=
  raan_field (np_mod (fadd raan delta) (of_Z 360)).

(** Float [*] and [/] of satellite.py:109, 236-239 and 254-258. *)
Definition fmul (x y : b64) : b64 := Bmult (prec_gt_0_ := prec64) (prec_lt_emax_ := emax64) mode_NE x y.
(** See above, satellite.py:109, 236-239, 254-258. *)
Definition fdiv (x y : b64) : b64 := Bdiv (prec_gt_0_ := prec64) (prec_lt_emax_ := emax64) mode_NE x y.

(** [WalkerConfiguration.DELTA] selects 360, [STAR] selects 180:
    [get_delta_raan_between_planes], satellite.py:229-239.  Python's [int/int]
    is correctly rounded; [of_Z] is exact for up to 2^53 planes. *)
Definition walker_delta_raan (star : bool) (planes : Z) : b64 :=
  fdiv (of_Z (if star then 180 else 360)) (of_Z planes).

(** Right ascension of a member in plane [p] (zero-based) of a Walker
    constellation with a circular lead orbit, satellite.py:249-263. *)
Definition walker_raan (star : bool) (planes p : Z) (raan : b64) : pyres b64 :=
  derived_raan raan (fmul (of_Z p) (walker_delta_raan star planes)).

(** [TrainConstellation.get_delta_raan], satellite.py:100-110; the interval is
    in microseconds, timedelta division is the correctly rounded quotient (the
    model is exact for intervals below 2^53 microseconds, 285 years). *)
Definition train_delta_raan (repeat : bool) (interval_us : Z) : b64 :=
  if repeat then fmul (of_Z 360) (fdiv (of_Z interval_us) (of_Z 86400000000))
  else of_Z 0.

(** Right ascension of member [i] of a train with a circular lead orbit,
    satellite.py:119-129. *)
Definition train_raan (repeat : bool) (interval_us i : Z) (raan : b64) : pyres b64 :=
  derived_raan raan (fmul (of_Z i) (train_delta_raan repeat interval_us)).
