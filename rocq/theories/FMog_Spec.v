(** Specification of the floating-point functions that mutual orbiting groups use, and of the groups considered. *)
From Coq Require Import ZArith Reals.
From Flocq Require Import Core IEEE754.BinarySingleNaN.
From Verif Require Import RBase Float_Spec FGeom_Spec FMog_Model.
Open Scope R_scope.

(** A four-quadrant arc tangent: never infinite, never beyond half a turn, and accurate for points above the
    horizontal axis (where the angle from the vertical is atan (x / y)). *)
Definition accurate_atan2 (f : float -> float -> float) : Prop :=
  (forall y x, f y x = B754_nan \/ (finite (f y x) /\ Rabs (val (f y x)) <= PI))
  /\ (forall y x, finite y -> finite x -> finite (f y x))
  /\ (forall y x, finite y -> finite x -> / 2 <= val y <= 2 -> Rabs (val x) <= 2 ->
        Rabs (val (f y x) - (PI / 2 - atan (val x / val y))) <= bpow radix2 (-50)).
(** Finite components of size up to 2^j. *)
Definition within3 (a : fv3) (j : Z) : Prop :=
  (finite (f_x a) /\ finite (f_y a) /\ finite (f_z a))
  /\ Rabs (val (f_x a)) <= bpow radix2 j /\ Rabs (val (f_y a)) <= bpow radix2 j /\ Rabs (val (f_z a)) <= bpow radix2 j.
(** The sum of the products of the components, in whatever order and with or without fused operations. *)
Definition accurate_dot (f : fv3 -> fv3 -> float) : Prop :=
  forall a b j k, (0 <= j)%Z -> (0 <= k)%Z -> (j + k <= 60)%Z -> within3 a j -> within3 b k ->
    finite (f a b)
    /\ Rabs (val (f a b) - (val (f_x a) * val (f_x b) + val (f_y a) * val (f_y b) + val (f_z a) * val (f_z b))) <= bpow radix2 (j + k - 48).
(** Kepler's equation. *)
Definition solves_kepler (n e x : R) : Prop := x = n + e * sin x.

(** Fields within the bounds of the schema, with the reference orbit at -10 to 50000 km. *)
Definition referenced (m : f_mog) : Prop :=
  orbital (fm_altitude m) /\ finite (fm_inclination m) /\ 0 <= val (fm_inclination m) < 180
  /\ finite (fm_raan m) /\ 0 <= val (fm_raan m) < 360 /\ finite (fm_parallel m) /\ 0 < val (fm_parallel m)
  /\ finite (fm_transverse m) /\ 0 < val (fm_transverse m) /\ (0 < fm_number m)%nat.
(** The distance of the reference satellite from the centre of the Earth. *)
Definition distance_of (m : f_mog) : R := EARTH_MEAN_RADIUS + val (fm_altitude m).
(** A parallel axis short enough for members to orbit on ellipses of eccentricity up to about 0.999998. *)
Definition elliptic (m : f_mog) : Prop := val (fm_parallel m) <= 4 * (1 - / 524288) * distance_of m.
(** A transverse axis of about 130 m or more per 6400 km distance, up to three radians of tilt. *)
Definition tilt_of (m : f_mog) : R := val (fm_transverse m) / (2 * distance_of m).
Definition tilted (m : f_mog) : Prop := / 100000 <= tilt_of m <= 3.
(** The inclination of a member in degrees: the tilted pole's angle from the Earth's pole by the cosine law. *)
Definition member_inclination (m : f_mog) (theta i : R) : Prop :=
  0 <= i <= 180 /\ cos (i * (PI / 180)) = cos (tilt_of m) * cos (val (fm_inclination m) * (PI / 180))
                                         + sin (tilt_of m) * cos theta * sin (val (fm_inclination m) * (PI / 180)).
(** Up to about a million members. *)
Definition counted (m : f_mog) : Prop := (Z.of_nat (fm_number m) <= 1048576)%Z.
(** The k-th of equally spaced positions. *)
Definition position_of (m : f_mog) (k : nat) : R := INR k * (2 * PI / INR (fm_number m)).
(** An angle of the schema: from 0 up to but not including 360 degrees. *)
Definition in_turn (x : float) : Prop := finite x /\ 0 <= val x < 360.
(** A member as wanted: at the group's altitude, with the exact inclination and eccentricity up to the errors given. *)
Definition acceptable (m : f_mog) (i : R) (o : f_kep) : Prop :=
  fk_altitude o = fm_altitude m
  /\ (finite (fk_inclination o) /\ Rabs (val (fk_inclination o) - i) <= / 10000)
  /\ (finite (fk_eccentricity o) /\ Rabs (val (fk_eccentricity o) - val (fm_parallel m) / (4 * distance_of m)) <= / 10000000000000)
  /\ in_turn (fk_raan o) /\ in_turn (fk_perigee o) /\ in_turn (fk_anomaly o).
