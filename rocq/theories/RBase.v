(** Real-number helpers shared by the geometric models.  All arithmetic is exact:
    rounding of binary64 is not modelled here. *)
From Coq Require Import Reals ZArith.
Open Scope R_scope.

(** Python/numpy [mod x m] for m > 0 (sign of the divisor).
    orbit.py:369-372, 781-786; satellite.py:119-129, 249-263; utils.py:750-1137. *)
Definition rmod (x m : R) : R := x - m * IZR (Int_part (x / m)).
(** math.degrees / np.degrees and math.radians / np.radians. utils.py:37-251. *)
Definition degrees (x : R) : R := x * (180 / PI).
(** See above, utils.py:37-251. *)
Definition radians (x : R) : R := x * (PI / 180).
(** Boolean comparisons (pydantic bounds). orbit.py:707-712, 759-762; satellite.py:280-293. *)
Definition Rleb (x y : R) : bool := if Rle_dec x y then true else false.
(** See above, orbit.py:708, 760-762. *)
Definition Rltb (x y : R) : bool := if Rlt_dec x y then true else false.

(** src/tatc/constants.py:23-43.  The binary64 literals are taken at their decimal
    values. *)
Definition EARTH_EQUATORIAL_RADIUS : R := 6378137.
(** constants.py:29. *)
Definition EARTH_POLAR_RADIUS : R := 6356752314245179 / 1000000000.
(** constants.py:43. *)
Definition EARTH_MEAN_RADIUS : R := (2 * EARTH_EQUATORIAL_RADIUS + EARTH_POLAR_RADIUS) / 3.
(** constants.py:30. *)
Definition EARTH_MU : R := 398600441800000.
(** constants.py:24. *)
Definition EARTH_SIDEREAL_DAY_S : R := 861640905 / 10000.

(** Round half to even of a real number, as done by [timedelta(...)] on the number of
    microseconds. orbit.py:279, 748; coverage.py:405-408. *)
Definition round_half_even (x : R) : Z :=
  let f := Int_part x in
  let d := x - IZR f in
  if Rltb d (1 / 2) then f else if Rltb (1 / 2) d then (f + 1)%Z
  else if Z.even f then f else (f + 1)%Z.
