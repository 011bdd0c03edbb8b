(** Model of the viewing-geometry functions of src/tatc/utils.py:107-355 and of
    SOCConstellation.generate_walker (src/tatc/schemas/satellite.py:400-482), over exact reals.
    A result [None] stands for NaN, or for the ZeroDivisionError that numba raises. *)
From Coq Require Import Reals ZArith List Bool.
From Verif Require Import Base RBase Tle_Model Orbit_Model Const_Model.
Import ListNotations.
Open Scope R_scope.

(** Sequencing of computations that may produce no number.
    The NaN-propagating numpy arithmetic of utils.py:108-251. *)
Definition obind {A B} (x : option A) (f : A -> option B) : option B :=
  match x with Some a => f a | None => None end.
(** np.arcsin: NaN outside [-1,1]. utils.py:129, 158, 166-167, 195, 222. *)
Definition np_arcsin (x : R) : option R :=
  if Rleb (-1) x && Rleb x 1 then Some (asin x) else None.
(** Float division: no number for a zero divisor. utils.py:129, 166-167, 304. *)
Definition rdiv (x y : R) : option R := if Req_EM_T y 0 then None else Some (x / y).
(** np.sqrt: NaN for a negative argument. utils.py:265, 284, 303, 326, 350. *)
Definition np_sqrt (x : R) : option R := if Rleb 0 x then Some (sqrt x) else None.

(** The sine of the angular radius of the Earth, utils.py:123 and alike. *)
Definition earth_sin (altitude elevation : R) : option R :=
  rdiv (EARTH_MEAN_RADIUS + elevation) (EARTH_MEAN_RADIUS + altitude).
(** tan_eta of utils.py:129 and 166-167. *)
Definition tan_eta (sin_rho sin_lambda : R) : option R :=
  obind (np_arcsin sin_lambda) (fun l => rdiv (sin_rho * sin_lambda) (1 - sin_rho * cos l)).

(** swath_width_to_field_of_regard, utils.py:107-130. *)
Definition swath_width_to_field_of_regard (altitude swath_width elevation : R) : option R :=
  obind (earth_sin altitude elevation) (fun sin_rho =>
  obind (rdiv (swath_width / 2) (EARTH_MEAN_RADIUS + elevation)) (fun l =>
  obind (tan_eta sin_rho (sin l)) (fun t =>
  Some (degrees (2 * atan t))))).

(** swath_width_to_field_of_view, utils.py:133-168. *)
Definition swath_width_to_field_of_view (altitude swath_width look_angle elevation : R) : option R :=
  obind (earth_sin altitude elevation) (fun sin_rho =>
  let sin_eta := Rmin sin_rho (sin (radians look_angle / 2)) in
  obind (rdiv sin_eta sin_rho) (fun cos_epsilon =>
  obind (np_arcsin sin_eta) (fun eta =>
  obind (np_arccos cos_epsilon) (fun epsilon =>
  let lambda := PI / 2 - eta - epsilon in
  obind (rdiv (swath_width / 2) (EARTH_MEAN_RADIUS + elevation)) (fun half =>
  obind (tan_eta sin_rho (sin (lambda - half))) (fun t1 =>
  obind (tan_eta sin_rho (sin (lambda + half))) (fun t2 =>
  Some (degrees (atan t2 - atan t1))))))))).

(** field_of_regard_to_swath_width, utils.py:171-196. *)
Definition field_of_regard_to_swath_width (altitude field_of_regard elevation : R) : option R :=
  obind (earth_sin altitude elevation) (fun sin_rho =>
  let sin_eta := Rmin sin_rho (sin (radians field_of_regard / 2)) in
  obind (rdiv sin_eta sin_rho) (fun cos_epsilon =>
  obind (np_arcsin sin_eta) (fun eta =>
  obind (np_arccos cos_epsilon) (fun epsilon =>
  Some (2 * (EARTH_MEAN_RADIUS + elevation) * (PI / 2 - eta - epsilon)))))).

(** compute_field_of_regard, utils.py:199-222. *)
Definition compute_field_of_regard (altitude min_elevation_angle elevation : R) : option R :=
  obind (earth_sin altitude elevation) (fun sin_rho =>
  obind (np_arcsin (sin_rho * cos (radians min_elevation_angle))) (fun eta =>
  Some (degrees (eta * 2)))).

(** compute_min_elevation_angle, utils.py:225-250. *)
Definition compute_min_elevation_angle (altitude field_of_regard elevation : R) : option R :=
  let sin_eta := sin (radians field_of_regard / 2) in
  obind (earth_sin altitude elevation) (fun sin_rho =>
  obind (rdiv sin_eta sin_rho) (fun cos_epsilon =>
  if Rltb 1 cos_epsilon then Some 0
  else obind (np_arccos cos_epsilon) (fun e => Some (degrees e)))).

(** compute_max_access_time, utils.py:269-287. *)
Definition compute_max_access_time (altitude min_elevation_angle : R) : option R :=
  let orbital_distance := (EARTH_MEAN_RADIUS + altitude) * (PI - 2 * radians min_elevation_angle) in
  obind (rdiv EARTH_MU (EARTH_MEAN_RADIUS + altitude)) (fun q =>
  obind (np_sqrt q) (fun orbital_velocity => rdiv orbital_distance orbital_velocity)).

(** The mean motion in radians per second, utils.py:302-303 and alike. *)
Definition mean_motion_rad (altitude : R) : option R :=
  obind (rdiv EARTH_MU ((EARTH_MEAN_RADIUS + altitude) ^ 3)) np_sqrt.
(** compute_ground_velocity, utils.py:290-307. *)
Definition compute_ground_velocity (altitude inclination : R) : option R :=
  obind (mean_motion_rad altitude) (fun n =>
  Some (EARTH_MEAN_RADIUS * (n - 2 * PI * cos (degrees inclination) / EARTH_SIDEREAL_DAY_S))).
(** along_track_distance_to_access_time, utils.py:310-331 (it repeats the body of
    compute_ground_velocity). *)
Definition along_track_distance_to_access_time (altitude inclination along_track : R) : option R :=
  obind (mean_motion_rad altitude) (fun n =>
  rdiv along_track (EARTH_MEAN_RADIUS * (n - 2 * PI * cos (degrees inclination) / EARTH_SIDEREAL_DAY_S))).
(** access_time_to_along_track_distance, utils.py:334-355. *)
Definition access_time_to_along_track_distance (altitude inclination access_time : R) : option R :=
  obind (mean_motion_rad altitude) (fun n =>
  Some (EARTH_MEAN_RADIUS * (n - 2 * PI * cos (degrees inclination) / EARTH_SIDEREAL_DAY_S) * access_time)).

(** ** Streets of coverage *)
(** math.ceil. satellite.py:463, 469. *)
Definition py_ceil (x : R) : Z := (- Int_part (- x))%Z.
(** math.asin: ValueError outside [-1,1]. satellite.py:441, 460, 466. *)
Definition math_asin (x : R) : pyres R :=
  if Rleb (-1) x && Rleb x 1 then Ok (asin x) else Raise ValueError.
(** Python float division. satellite.py:441-442, 463, 469. *)
Definition py_div (x y : R) : pyres R := if Req_EM_T y 0 then Raise ZeroDivisionError else Ok (x / y).

Section Soc.
(** Instruments are carried along. *)
Context {I : Type}.
(** Fields of SOCConstellation, satellite.py:411-420. *)
Record soc := mk_soc { soc_name : pystr; soc_orbit : circular; soc_instruments : list I;
  soc_swath : R; soc_packing : R }.
(** Field bounds, satellite.py:415-420. *)
Definition soc_valid (s : soc) : bool := Rltb 0 (soc_swath s) && Rltb 0 (soc_packing s) && Rleb (soc_packing s) 1.
(** The minimum elevation angle, satellite.py:431-436 (a NaN fails later in math.ceil with
    ValueError; it is raised here). *)
Definition soc_elevation (s : soc) : pyres R :=
  match obind (swath_width_to_field_of_regard (c_alt (soc_orbit s)) (soc_swath s) 0)
              (fun f => compute_min_elevation_angle (c_alt (soc_orbit s)) f 0) with
  | Some e => Ok e
  | None => Raise ValueError
  end.
(** gamma in degrees, satellite.py:440-448. *)
Definition soc_gamma (s : soc) : pyres R :=
  bind (soc_elevation s) (fun e =>
  bind (py_div EARTH_MEAN_RADIUS (EARTH_MEAN_RADIUS + c_alt (soc_orbit s))) (fun q =>
  bind (math_asin (q * cos (radians e))) (fun a =>
  Ok (90 - e - degrees a)))).
(** generate_walker, satellite.py:422-479 (configuration and relative spacing take their defaults,
    satellite.py:149-172). *)
Definition soc_walker (s : soc) : pyres (@walker I) :=
  bind (soc_gamma s) (fun gamma =>
  let r_foot := EARTH_MEAN_RADIUS * sin (radians gamma) in
  let d_f := 2 * r_foot * soc_packing s in
  let d_p := sqrt 3 * r_foot * soc_packing s in
  bind (math_asin (1 / 2 * d_f / EARTH_MEAN_RADIUS)) (fun af =>
  bind (py_div (2 * PI) (2 * af)) (fun qf =>
  bind (math_asin (1 / 2 * d_p / EARTH_MEAN_RADIUS)) (fun ap =>
  bind (py_div (2 * PI) (2 * ap)) (fun qp =>
  make_walker (mk_walker (soc_name s) (LCirc (soc_orbit s)) (soc_instruments s) Delta
    (py_ceil qf * py_ceil qp) (py_ceil qp) 0)))))).
(** generate_members, satellite.py:481-482. *)
Definition soc_members (sun : Z -> R) (s : soc) : pyres (list (@member I)) :=
  bind (soc_walker s) (walker_members sun).
End Soc.
