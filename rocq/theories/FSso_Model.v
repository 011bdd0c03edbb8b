(** Binary64 model of the inclination and node of sun-synchronous orbits (src/tatc/schemas/orbit.py:818-929).
    Orbit_Model treats the same functions over exact reals. *)
From Coq Require Import ZArith Bool.
From Flocq Require Import Core IEEE754.BinarySingleNaN.
From Verif Require Import Base Float_Model FGrid_Model FTime_Model FGeom_Model.
Open Scope Z_scope.

(** [12352000 - constants.EARTH_MEAN_RADIUS], computed on import, orbit.py:828. *)
Definition f_sso_limit : b64 := fsub (of_Z 12352000) f_mean_radius.
(** Field constraint of the altitude [ge=0, lt=...], orbit.py:824-829. *)
Definition f_sso_altitude (altitude : b64) : bool := Bleb (of_Z 0) altitude && Bltb altitude f_sso_limit.
(** Field constraint of the inclination of circular and Keplerian orbits [ge=0, lt=180], orbit.py:759. *)
Definition inclination_field (x : b64) : pyres b64 :=
  if Bleb (of_Z 0) x && Bltb x (of_Z 180) then Ok x else Raise ValidationError.

Section Libm.
(** np.power and np.arccos. *)
Variables (f_power : b64 -> b64 -> b64) (f_acos : b64 -> b64).
(** get_inclination, orbit.py:838-847, with get_semimajor_axis, orbit.py:723-730. *)
Definition f_sso_inclination (altitude : b64) : b64 :=
  f_degrees (f_acos (Bopp (f_power (fdiv (f_radius_at altitude) (of_Z 12352000)) (fdiv (of_Z 7) (of_Z 2))))).
(** The inclination that get_derived_orbit (orbit.py:895-901) and to_tle (orbit.py:919-925) hand to the orbit they
    construct. *)
Definition f_sso_passed (altitude : b64) : pyres b64 := inclination_field (f_sso_inclination altitude).
End Libm.

(** get_right_ascension_ascending_node, orbit.py:849-872.  [sun_ra] is skyfield's right ascension of the Sun in degrees,
    a numpy float (so that [%] is numpy's remainder); [ect_us] is the crossing time in microseconds after midnight;
    [180 * bool] is an int. *)
Definition f_sso_node (sun_ra : b64) (ect_us : Z) (ascending : bool) : b64 :=
  np_mod (fadd (fadd sun_ra (fmul (of_Z 360) (td_div ect_us 86400000000))) (of_Z (180 * (if ascending then 1 else 0)))) (of_Z 360).
(** The node that to_tle hands to the Keplerian orbit it constructs, orbit.py:919-925. *)
Definition f_sso_node_passed (sun_ra : b64) (ect_us : Z) (ascending : bool) : pyres b64 := raan_field (f_sso_node sun_ra ect_us ascending).
