(** Specification vocabulary for the viewing geometry: plane and space geometry on a spherical Earth. *)
From Coq Require Import Reals ZArith.
From Verif Require Import Base RBase.
Open Scope R_scope.

(** Ratio of the radius of the observed sphere to the orbit radius. *)
Definition rho (altitude elevation : R) : R := (EARTH_MEAN_RADIUS + elevation) / (EARTH_MEAN_RADIUS + altitude).
(** Altitudes and elevations the formulas are meant for. *)
Definition above (altitude elevation : R) : Prop := - EARTH_MEAN_RADIUS < elevation < altitude.
(** In the plane with the satellite at (0,1), nadir direction (0,-1) and the observed sphere of radius
    [r] about the origin, the surface point at Earth central angle [lam] is seen at off-nadir angle [eta]. *)
Definition off_nadir (r lam eta : R) : Prop :=
  exists d, 0 < d /\ r * sin lam = d * sin eta /\ 1 - r * cos lam = d * cos eta.
(** The Earth central angle of the visible horizon. *)
Definition horizon (altitude elevation : R) : R := acos (rho altitude elevation).

(** ** Passes of a satellite over a ground point *)
(** Vectors of space. *)
Record vec := mk_vec { vx : R; vy : R; vz : R }.
Definition dot (a b : vec) : R := vx a * vx b + vy a * vy b + vz a * vz b.
Definition sub (a b : vec) : vec := mk_vec (vx a - vx b) (vy a - vy b) (vz a - vz b).
Definition scale (k : R) (a : vec) : vec := mk_vec (k * vx a) (k * vy a) (k * vz a).
Definition add (a b : vec) : vec := mk_vec (vx a + vx b) (vy a + vy b) (vz a + vz b).
Definition unit (a : vec) : Prop := dot a a = 1.
(** Uniform motion on a circle of radius [a] spanned by two orthonormal vectors. *)
Definition orbit_pos (a n : R) (e1 e2 : vec) (t : R) : vec :=
  add (scale (a * cos (n * t)) e1) (scale (a * sin (n * t)) e2).
(** A point of a sphere of radius [r] turning about the third axis at rate [w]. *)
Definition ground_pos (r w : R) (p : vec) (t : R) : vec :=
  scale r (mk_vec (cos (w * t) * vx p - sin (w * t) * vy p) (sin (w * t) * vx p + cos (w * t) * vy p) (vz p)).
(** The satellite at [s] stands at elevation angle at least [eps] (radians) over the ground point [g]:
    the line of sight makes an angle of at most 90 degrees minus [eps] with the local vertical. *)
Definition in_view (eps : R) (s g : vec) : Prop :=
  sin eps * sqrt (dot (sub s g) (sub s g)) * sqrt (dot g g) <= dot (sub s g) g.
(** The satellite stays in view from [t1] to [t2]. *)
Definition pass (eps : R) (s g : R -> vec) (t1 t2 : R) : Prop :=
  t1 <= t2 /\ forall t, t1 <= t <= t2 -> in_view eps (s t) (g t).
(** Rate of rotation of the Earth (radians per second) and mean motion of a circular orbit. *)
Definition earth_rate : R := 2 * PI / EARTH_SIDEREAL_DAY_S.
Definition kepler_rate (altitude : R) : R := sqrt (EARTH_MU / (EARTH_MEAN_RADIUS + altitude) ^ 3).

(** ** Off-nadir pointing, ground velocity, streets of coverage *)
(** The angle (degrees) subtended at the satellite by a swath of width [w] centred at Earth central
    angle [lc] from the sub-satellite point. *)
Definition subtends (altitude elevation w lc f : R) : Prop :=
  let half := w / 2 / (EARTH_MEAN_RADIUS + elevation) in
  exists e1 e2, - (PI / 2) < e1 < PI / 2 /\ - (PI / 2) < e2 < PI / 2
    /\ off_nadir (rho altitude elevation) (lc - half) e1 /\ off_nadir (rho altitude elevation) (lc + half) e2
    /\ f * (PI / 180) = e2 - e1.
(** Speed of the sub-satellite point along the track, with the eastward rotation of the Earth at the
    given inclination (degrees) taken off. *)
Definition ground_speed (altitude inclination : R) : R :=
  EARTH_MEAN_RADIUS * (kepler_rate altitude - earth_rate * cos (inclination * (PI / 180))).
(** [k] is the least number of equal steps around the circle that keeps each step at most [g] radians. *)
Definition least_steps (g : R) (k : Z) : Prop :=
  (1 <= k)%Z /\ 2 * PI / IZR k <= g /\ forall j, (1 <= j < k)%Z -> g < 2 * PI / IZR j.
