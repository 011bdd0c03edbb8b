(** C179-C181: the viewing geometry, the orbit functions and the sample count in binary64 (FGeom_Model) against
    the exact functions (Geom_Model, Orbit_Model, Grid_Model), for every accurate mathematical library. *)
From Coq Require Import ZArith Reals Lra Lia List.
From Flocq Require Import Core IEEE754.BinarySingleNaN.
From Verif Require Import Base RBase Float_Model Float_Spec FGrid_Model Grid_Model Orbit_Model Geom_Model
  FGeom_Model FGeom_Spec FGeom_Proofs FGeom_Proofs2.
Import ListNotations.
Open Scope R_scope.

(** * C179: viewing geometry *)
Theorem c179_field_of_regard : forall f_sin f_cos f_asin f_acos, accurate_libm f_sin f_cos f_asin f_acos ->
  forall altitude angle_of_elevation elevation, viewing altitude elevation -> angle 0 90 angle_of_elevation ->
  exists r, compute_field_of_regard (val altitude) (val angle_of_elevation) (val elevation) = Some r
    /\ close (f_field_of_regard f_cos f_asin altitude angle_of_elevation elevation) r (/ 10000).
Proof. exact field_of_regard_lemma. Qed.
Print Assumptions c179_field_of_regard.

Theorem c179_min_elevation_angle : forall f_sin f_cos f_asin f_acos, accurate_libm f_sin f_cos f_asin f_acos ->
  forall altitude field_of_regard elevation, viewing altitude elevation -> angle 0 360 field_of_regard ->
  exists r, compute_min_elevation_angle (val altitude) (val field_of_regard) (val elevation) = Some r
    /\ close (f_min_elevation_angle f_sin f_acos altitude field_of_regard elevation) r (/ 1000).
Proof. exact min_elevation_lemma. Qed.
Print Assumptions c179_min_elevation_angle.

Theorem c179_swath_width : forall f_sin f_cos f_asin f_acos, accurate_libm f_sin f_cos f_asin f_acos ->
  forall altitude field_of_regard elevation, viewing altitude elevation -> angle 0 360 field_of_regard ->
  exists r, field_of_regard_to_swath_width (val altitude) (val field_of_regard) (val elevation) = Some r
    /\ close (f_swath_width f_sin f_asin f_acos altitude field_of_regard elevation) r 20.
Proof. exact swath_lemma. Qed.
Print Assumptions c179_swath_width.

(** Clear of the horizon the error is at most a tenth of a millimetre. *)
Theorem c179_swath_clear : forall f_sin f_cos f_asin f_acos, accurate_libm f_sin f_cos f_asin f_acos ->
  forall altitude field_of_regard elevation, viewing altitude elevation -> angle 0 360 field_of_regard ->
  sin (val field_of_regard * (PI / 180) / 2)
    <= 999 / 1000 * ((EARTH_MEAN_RADIUS + val elevation) / (EARTH_MEAN_RADIUS + val altitude)) ->
  exists r, field_of_regard_to_swath_width (val altitude) (val field_of_regard) (val elevation) = Some r
    /\ close (f_swath_width f_sin f_asin f_acos altitude field_of_regard elevation) r (/ 10000).
Proof. exact swath_clear_lemma. Qed.
Print Assumptions c179_swath_clear.

(** Non-vacuity: a library that meets the contract, and an imager at 567 km with a field of regard of 60
    degrees, which is clear of the horizon. *)
Example c179_witness :
  accurate_libm (by_nearest 52 sin) (by_nearest 52 cos) (by_nearest 52 asin) (by_nearest 51 acos)
  /\ viewing (of_Z 567000) (of_Z 0) /\ angle 0 90 (of_Z 10) /\ angle 0 360 (of_Z 60)
  /\ sin (val (of_Z 60) * (PI / 180) / 2)
       <= 999 / 1000 * ((EARTH_MEAN_RADIUS + val (of_Z 0)) / (EARTH_MEAN_RADIUS + val (of_Z 567000))).
Proof. exact c179_witness_lemma. Qed.

(** * C180: periods, access times, velocities *)
Theorem c180_orbit_period : forall altitude, orbital altitude ->
  exists p, compute_orbit_period (val altitude) = Some p /\ 0 < p
    /\ close (f_orbit_period altitude) p (p * (2 / 1000000000000000)).
Proof. exact c180_period_lemma. Qed.
Print Assumptions c180_orbit_period.

(** In microseconds: within one of the exact rounding, and equal to it unless the exact period lies about half
    way between two microseconds. *)
Theorem c180_period_microseconds : forall altitude, orbital altitude ->
  exists p r z, compute_orbit_period (val altitude) = Some p
    /\ get_orbit_period (val altitude) = Ok z /\ f_get_orbit_period altitude = Ok r
    /\ Rabs (IZR r - 1000000 * p) <= 52 / 100 /\ (Z.abs (r - z) <= 1)%Z
    /\ (forall n, Rabs (1000000 * p - IZR n) <= 39 / 100 -> r = n /\ z = n).
Proof. exact get_orbit_period_lemma. Qed.
Print Assumptions c180_period_microseconds.

Theorem c180_max_access_time : forall altitude min_elevation_angle, orbital altitude -> angle 0 90 min_elevation_angle ->
  exists t, compute_max_access_time (val altitude) (val min_elevation_angle) = Some t
    /\ close (f_max_access_time altitude min_elevation_angle) t (/ 100000000).
Proof. exact max_access_lemma. Qed.
Print Assumptions c180_max_access_time.

Theorem c180_ground_velocity : forall f_sin f_cos f_asin f_acos, accurate_libm f_sin f_cos f_asin f_acos ->
  forall altitude inclination, orbital altitude -> angle 0 180 inclination ->
  exists v, compute_ground_velocity (val altitude) (val inclination) = Some v
    /\ close (f_ground_velocity f_cos altitude inclination) v (/ 100000000).
Proof. exact ground_velocity_lemma. Qed.
Print Assumptions c180_ground_velocity.

Example c180_witness : orbital (of_Z 400000) /\ angle 0 90 (of_Z 10) /\ angle 0 180 (of_Z 98).
Proof. exact c180_witness_lemma. Qed.

(** * C181: the number of samples *)
(** Every correctly rounded cosine makes distances up to 9 cm fail, though the exact count exists. *)
Theorem c181_every_distance_refuted : forall f_cos surface_area, rounds_to_one f_cos ->
  exists distance n, finite distance /\ 0 < val distance
    /\ f_number_samples f_cos surface_area distance = Raise ZeroDivisionError
    /\ compute_number_samples (val distance) = Ok n.
Proof. exact c181_refuted_lemma. Qed.
Print Assumptions c181_every_distance_refuted.

Theorem c181_short_distances : forall f_cos surface_area distance, rounds_to_one f_cos ->
  finite distance -> 0 <= val distance <= 9 / 100 ->
  f_number_samples f_cos surface_area distance = Raise ZeroDivisionError.
Proof. exact tiny_distance_lemma. Qed.
Print Assumptions c181_short_distances.

(** From one kilometre on the count is within ten parts per million of the exact one, plus two. *)
Theorem c181_usual_distances_partial : forall f_sin f_cos f_asin f_acos, accurate_libm f_sin f_cos f_asin f_acos ->
  forall surface_area distance, finite distance -> 1000 <= val distance <= 6000000 ->
  finite surface_area -> Rabs (val surface_area - EARTH_SURFACE_AREA) <= 1 ->
  exists m n, f_number_samples f_cos surface_area distance = Ok m /\ compute_number_samples (val distance) = Ok n
    /\ Rabs (IZR m - IZR n) <= 2 + IZR n / 100000.
Proof. exact samples_lemma. Qed.
Print Assumptions c181_usual_distances_partial.

Example c181_witness : rounds_to_one (by_nearest 52 cos) /\ finite (of_Z 100000) /\ 1000 <= val (of_Z 100000) <= 6000000
  /\ exists surface_area, finite surface_area /\ Rabs (val surface_area - EARTH_SURFACE_AREA) <= 1.
Proof. exact c181_witness_lemma. Qed.
