(** Specification vocabulary for the mutual orbiting group: directions given by orbital elements. *)
From Coq Require Import Reals.
From Verif Require Import RBase Orbit_Model Mog_Model Geom_Spec.
Open Scope R_scope.

Definition deg (x : R) : R := x * (PI / 180).
(** Direction of the orbit's angular momentum, from inclination and node (degrees). *)
Definition pole (inc raan : R) : vec :=
  mk_vec (sin (deg inc) * sin (deg raan)) (- (sin (deg inc) * cos (deg raan))) (cos (deg inc)).
(** Direction of the ascending node. *)
Definition node_dir (raan : R) : vec := mk_vec (cos (deg raan)) (sin (deg raan)) 0.
(** Direction a quarter of a revolution past the node. *)
Definition apex_dir (inc raan : R) : vec :=
  mk_vec (- (sin (deg raan) * cos (deg inc))) (cos (deg raan) * cos (deg inc)) (sin (deg inc)).
(** Direction at argument of latitude [u] (radians). *)
Definition at_latitude (inc raan u : R) : vec := add (scale (cos u) (node_dir raan)) (scale (sin u) (apex_dir inc raan)).
(** [psi] is the eccentric anomaly of the true anomaly [nu] (radians). *)
Definition eccentric_true (e psi nu : R) : Prop :=
  (1 - e * cos psi) * cos nu = cos psi - e /\ (1 - e * cos psi) * sin nu = sqrt (1 - e * e) * sin psi.

(** One member of a mutual orbiting group of tilt [tilt] and eccentricity [e] about a circular
    reference orbit, at phase [theta] around the group ([sg] = 1: clockwise, -1: counter-clockwise):
    the plane is turned by [tilt] away from the reference plane, towards the direction [theta];
    perigee is at the extreme of the out-of-plane motion; and the mean position at epoch lies within
    [tilt] of the reference's ascending node. *)
Record mog_member_ok (inc0 raan0 tilt e sg theta : R) (inc raan argp nu ecc : R) : Prop := {
  mm_ranges : 0 <= inc < 180 /\ 0 <= raan < 360 /\ 0 <= argp < 360 /\ 0 <= nu < 360;
  mm_ecc : ecc = e;
  mm_tilt : dot (pole inc raan) (pole inc0 raan0) = cos tilt;
  mm_turn_node : dot (pole inc raan) (node_dir raan0) = sin tilt * sin theta;
  mm_turn_apex : dot (pole inc raan) (apex_dir inc0 raan0) = sin tilt * cos theta;
  mm_perigee : dot (at_latitude inc raan (deg argp)) (pole inc0 raan0) = sg * sin tilt;
  mm_epoch : exists M psi, Rabs (psi - (M + e * sin psi)) <= e * (1 / 1000000)
    /\ eccentric_true e psi (deg nu)
    /\ dot (at_latitude inc raan (deg argp + M)) (node_dir raan0) = 1 - (1 - cos tilt) * (sin theta * sin theta) }.

(** Groups for which the members exist: accepted by the schemas, semimajor axis positive, tilt below
    180 degrees, eccentricity below one, and no plane turned to an inclination of exactly 180 degrees
    (which the orbit schema rejects). *)
Definition mog_regular {I} (m : @mog I) : Prop :=
  circ_valid (mg_orbit m) = true /\ mog_valid m = true /\ 0 < c_alt (mg_orbit m) + EARTH_MEAN_RADIUS
  /\ mg_transverse m < 2 * PI * (c_alt (mg_orbit m) + EARTH_MEAN_RADIUS)
  /\ mg_parallel m < 4 * (c_alt (mg_orbit m) + EARTH_MEAN_RADIUS)
  /\ deg (c_inc (mg_orbit m)) + mg_transverse m / (2 * (c_alt (mg_orbit m) + EARTH_MEAN_RADIUS)) <> PI.
(** The same group about a reference satellite with another true anomaly. *)
Definition with_nu {I} (m : @mog I) (nu : R) : mog :=
  mk_mog (mg_name m) (mk_circ (c_alt (mg_orbit m)) nu (c_epoch (mg_orbit m)) (c_inc (mg_orbit m)) (c_raan (mg_orbit m)))
    (mg_instruments m) (mg_parallel m) (mg_transverse m) (mg_clockwise m) (mg_number m).
