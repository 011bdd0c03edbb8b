(** Binary64 model of the viewing geometry and orbit functions of src/tatc/utils.py:82-307 and of
    OrbitBase.get_orbit_period (src/tatc/schemas/orbit.py:741-748).  Geom_Model and Orbit_Model treat the
    same functions over exact reals.  numba compiles the same operations in the same order (no fast-math). *)
From Coq Require Import ZArith Bool List.
From Flocq Require Import Core IEEE754.BinarySingleNaN.
From Verif Require Import Base Float_Model FGrid_Model FTime_Model.
Import ListNotations.
Open Scope Z_scope.

(** EARTH_MU = 3.986004418e14, constants.py:30. *)
Definition f_mu : b64 := of_Z 398600441800000.
(** EARTH_SIDEREAL_DAY_S = 86164.0905, constants.py:24. *)
Definition f_sidereal : b64 := f_lit 5921151212593349 (-36).
(** [np.radians(x)]: x * (pi / 180).  utils.py:157, 192, 216, 241, 281. *)
Definition f_radians (x : b64) : b64 := fmul x (fdiv f_pi (of_Z 180)).
(** min(a, b), utils.py:157, 192. *)
Definition f_min (a b : b64) : b64 := if Bltb b a then b else a.
(** EARTH_MEAN_RADIUS + x, utils.py:123-126 and alike. *)
Definition f_radius_at (x : b64) : b64 := fadd f_mean_radius x.
(** sin_rho, utils.py:123-125 and alike. *)
Definition f_sin_rho (altitude elevation : b64) : b64 := fdiv (f_radius_at elevation) (f_radius_at altitude).

Section Libm.
(** The C library's (or numba's) sin, cos, arcsin and arccos. *)
Variables f_sin f_cos f_asin f_acos : b64 -> b64.

(** compute_field_of_regard, utils.py:199-222. *)
Definition f_field_of_regard (altitude min_elevation_angle elevation : b64) : b64 :=
  let sin_rho := f_sin_rho altitude elevation in
  let cos_epsilon := f_cos (f_radians min_elevation_angle) in
  f_degrees (fmul (f_asin (fmul sin_rho cos_epsilon)) (of_Z 2)).

(** sin_eta before clipping, utils.py:192, 241. *)
Definition f_sin_eta (field_of_regard : b64) : b64 := f_sin (fdiv (f_radians field_of_regard) (of_Z 2)).

(** compute_min_elevation_angle, utils.py:225-250. *)
Definition f_min_elevation_angle (altitude field_of_regard elevation : b64) : b64 :=
  let cos_epsilon := fdiv (f_sin_eta field_of_regard) (f_sin_rho altitude elevation) in
  if Bltb (of_Z 1) cos_epsilon then of_Z 0 else f_degrees (f_acos cos_epsilon).

(** field_of_regard_to_swath_width, utils.py:171-196. *)
Definition f_swath_width (altitude field_of_regard elevation : b64) : b64 :=
  let sin_rho := f_sin_rho altitude elevation in
  let sin_eta := f_min sin_rho (f_sin_eta field_of_regard) in
  let cos_epsilon := fdiv sin_eta sin_rho in
  let lambda := fsub (fsub (fdiv f_pi (of_Z 2)) (f_asin sin_eta)) (f_acos cos_epsilon) in
  fmul (fmul (of_Z 2) (f_radius_at elevation)) lambda.

(** mean_motion_rad_s, utils.py:264-265, 302-303 (a**3 is a * a * a). *)
Definition f_mean_motion (altitude : b64) : b64 :=
  let a := f_radius_at altitude in fsqrt (fdiv f_mu (fmul (fmul a a) a)).
(** compute_orbit_period, utils.py:253-266. *)
Definition f_orbit_period (altitude : b64) : b64 := fdiv (fmul (of_Z 2) f_pi) (f_mean_motion altitude).
(** OrbitBase.get_orbit_period in microseconds, orbit.py:741-748. *)
Definition f_get_orbit_period (altitude : b64) : pyres Z := td_seconds (f_orbit_period altitude).
(** compute_max_access_time, utils.py:269-287. *)
Definition f_max_access_time (altitude min_elevation_angle : b64) : b64 :=
  let orbital_distance := fmul (f_radius_at altitude)
    (fsub f_pi (fmul (of_Z 2) (f_radians min_elevation_angle))) in
  let orbital_velocity := fsqrt (fdiv f_mu (f_radius_at altitude)) in
  fdiv orbital_distance orbital_velocity.
(** compute_ground_velocity, utils.py:290-307. *)
Definition f_ground_velocity (altitude inclination : b64) : b64 :=
  fmul f_mean_radius
    (fsub (f_mean_motion altitude)
       (fdiv (fmul (fmul (of_Z 2) f_pi) (f_cos (f_degrees inclination))) f_sidereal)).

(** compute_number_samples, utils.py:82-104, with EARTH_SURFACE_AREA (constants.py:36-42) as computed on
    import.  A float division by zero raises; int() of NaN is a ValueError and of infinity an OverflowError
    (modelled as ValueError). *)
Definition f_number_samples (surface_area distance : b64) : pyres Z :=
  let theta := fdiv distance f_mean_radius in
  let radius := fmul f_mean_radius (f_cos (fdiv theta (of_Z 2))) in
  let height := fsub f_mean_radius radius in
  let sample_area := fmul (fmul (fmul (of_Z 2) f_pi) f_mean_radius) height in
  if is_zero sample_area then Raise ZeroDivisionError
  else match fdiv surface_area sample_area with
       | B754_nan | B754_infinity _ => Raise ValueError
       | x => Ok (Btrunc x)
       end.
End Libm.
