(** Specification vocabulary for instruments: the local frame of a satellite and lines of sight. *)
From Coq Require Import Reals Bool.
From Verif Require Import Mog_Model Geom_Spec.
Open Scope R_scope.

(** Standard vectors. *)
Definition tov (a : v3) : vec := mk_vec (v_x a) (v_y a) (v_z a).
Definition cross (a b : vec) : vec := mk_vec (vy a * vz b - vz a * vy b) (vz a * vx b - vx a * vz b) (vx a * vy b - vy a * vx b).
Definition norm (a : vec) : R := sqrt (dot a a).
Definition direction (a : vec) : vec := scale (/ norm a) a.
Definition between (a b : vec) : R := acos (dot a b / (norm a * norm b)).
(** Right-handed rotation of [u] about the unit vector [k] (Rodrigues). *)
Definition rotate (k : vec) (x : R) (u : vec) : vec :=
  add (add (scale (cos x) u) (scale (sin x) (cross k u))) (scale ((1 - cos x) * dot k u) k).
(** [a] is a positive multiple of [b]. *)
Definition same_direction (a b : vec) : Prop := exists t, 0 < t /\ a = scale t b.

(** Local frame: away from the Earth's centre, along the motion, and to the left of somebody who
    stands upright and looks along the motion. *)
Definition up (pos : v3) : vec := direction (tov pos).
Definition down (pos : v3) : vec := scale (-1) (up pos).
Definition forward (vel : v3) : vec := direction (tov vel).
Definition left (pos vel : v3) : vec := cross (up pos) (forward vel).
(** A usable track sample: position and velocity nonzero and perpendicular. *)
Definition level (pos vel : v3) : Prop := tov pos <> mk_vec 0 0 0 /\ tov vel <> mk_vec 0 0 0 /\ dot (tov pos) (tov vel) = 0.
(** The line of sight [r] meets the plane one unit below the satellite [x] to the left and [y] ahead
    of the nadir. *)
Definition sights (pos vel : v3) (r : v3) (x y : R) : Prop :=
  tov r = add (down pos) (add (scale y (forward vel)) (scale x (left pos vel))).
(** Half widths of a field of view in that plane. *)
Definition half_width (fov : R) : R := tan (fov / 2 * (PI / 180)).
Definition tan_deg (x : R) : R := tan (x * (PI / 180)).
Definition on_ellipse (a b x y : R) : Prop := (x / a) * (x / a) + (y / b) * (y / b) = 1.
Definition on_rectangle (a b x y : R) : Prop := (Rabs x = a /\ Rabs y <= b) \/ (Rabs y = b /\ Rabs x <= a).

(** Meaning of a sunlight requirement. *)
Definition meets (req : option bool) (state : Prop) : Prop :=
  match req with None => True | Some true => state | Some false => ~ state end.

(** A point is a hit: on the half line of sight and on the ellipsoid. *)
Definition hit (pos r : v3) (a c : R) (pt : v3) : Prop :=
  (exists t, 0 <= t /\ tov pt = add (tov pos) (scale t (tov r))) /\ v_x pt * v_x pt / (a * a) + v_y pt * v_y pt / (a * a) + v_z pt * v_z pt / (c * c) = 1.
(** The offset (cross-track, along-track) lies at [cone] from the boresight in the direction that is [clock]
    degrees counter-clockwise from the cross-track axis. *)
Definition at_clock (cone clock x y : R) : Prop := x = cone * cos (clock * (PI / 180)) /\ y = cone * sin (clock * (PI / 180)).
