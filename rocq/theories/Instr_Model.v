(** Model of instruments: observation validity and pixels (src/tatc/schemas/instrument.py) and the
    lines of sight of footprints (src/tatc/utils.py:358-617). *)
From Coq Require Import Reals ZArith List Bool.
From Verif Require Import Base RBase RTrig Orbit_Model Mog_Model.
Import ListNotations.
Open Scope R_scope.

(** ** Observation validity, instrument.py:139-174 *)
(** The two requirement fields, instrument.py:47-56. *)
Record requirement := mk_req { req_self : option bool; req_target : option bool }.
(** is_valid_observation returns a numpy array or a single bool (instrument.py:172-174). *)
Inductive answer := One (b : bool) | Many (l : list bool).
(** [array == requirement] then np.logical_and with the running array; no requirement leaves the
    array alone, instrument.py:155-158 and 159-171. *)
Definition require (req : option bool) (valid states : list bool) : list bool :=
  match req with
  | None => valid
  | Some r => map (fun p => fst p && Bool.eqb (snd p) r) (combine valid states)
  end.
(** is_valid_observation, instrument.py:139-174.  The track is given by the skyfield results at each
    time: the satellite's sunlit state (orbit_track.is_sunlit) and the solar altitude in degrees at
    the target (altaz()[0].degrees); both are oracles.  [is_valid[0]] of an empty array is an IndexError. *)
Definition is_valid_observation (q : requirement) (track : list (bool * R)) : pyres answer :=
  let valid0 := map (fun _ => true) track in
  let valid1 := require (req_self q) valid0 (map fst track) in
  let valid2 := require (req_target q) valid1 (map (fun p => Rltb 0 (snd p)) track) in
  if Nat.ltb 1 (length track) then Ok (Many valid2)
  else match valid2 with [] => Raise IndexError | b :: _ => Ok (One b) end.

(** ** Pixels, instrument.py:177-365 *)
(** Fields of PointedInstrument, instrument.py:182-220. *)
Record pointed := mk_pointed { pi_cross : R; pi_along : R; pi_roll : R; pi_pitch : R; pi_rect : bool;
  pi_cross_pixels : nat; pi_along_pixels : nat; pi_cross_over : R; pi_along_over : R }.
(** Field bounds, instrument.py:182-220. *)
Definition pointed_valid (p : pointed) : bool :=
  Rltb 0 (pi_cross p) && Rleb (pi_cross p) 180 && Rltb 0 (pi_along p) && Rleb (pi_along p) 180
  && Rleb (-180) (pi_roll p) && Rleb (pi_roll p) 180 && Rleb (-180) (pi_pitch p) && Rleb (pi_pitch p) 180
  && Nat.leb 1 (pi_cross_pixels p) && Nat.leb 1 (pi_along_pixels p)
  && Rleb 0 (pi_cross_over p) && Rltb (pi_cross_over p) 1 && Rleb 0 (pi_along_over p) && Rltb (pi_along_over p) 1.
(** get_cross_track_instantaneous_field_of_view, instrument.py:222-233. *)
Definition cross_ifov (p : pointed) : R := pi_cross p / INR (pi_cross_pixels p) / (1 - pi_cross_over p).
(** get_along_track_instantaneous_field_of_view, instrument.py:235-246. *)
Definition along_ifov (p : pointed) : R := pi_along p / INR (pi_along_pixels p) / (1 - pi_along_over p).
(** cross_track_offset, instrument.py:350-355. *)
Definition cross_offset (p : pointed) (i : nat) : R :=
  (1 / 2 + INR i - INR (pi_cross_pixels p) / 2) * (1 - pi_cross_over p) * pi_cross p / INR (pi_cross_pixels p).
(** along_track_offset, instrument.py:356-361. *)
Definition along_offset (p : pointed) (j : nat) : R :=
  (INR (pi_along_pixels p) / 2 - 1 / 2 - INR j) * (1 - pi_along_over p) * pi_along p / INR (pi_along_pixels p).
(** get_pixel_cone_and_clock_angle, instrument.py:336-365. *)
Definition cone_clock (p : pointed) (i j : nat) : R * R :=
  (sqrt (cross_offset p i ^ 2 + along_offset p j ^ 2), arctan2 (along_offset p j) (cross_offset p i)).

(** ** Lines of sight, utils.py:358-469 *)
(** np.linalg.norm, utils.py:393. *)
Definition v_norm (a : v3) : R := sqrt (v_dot a a).
(** v, b and n, utils.py:392-400 (for a zero position or velocity Python gets NaN and a warning; such
    tracks are outside the theorems). *)
Definition ray_v (vel : v3) : v3 := v_scale (/ v_norm vel) vel.
(** b, utils.py:394-395. *)
Definition ray_b (pos : v3) : v3 := v_scale (/ v_norm pos) (v_scale (-1) pos).
(** n, utils.py:396-400. *)
Definition ray_n (pos vel : v3) : v3 := v_cross (ray_v vel) (ray_b pos).
(** theta, utils.py:403-404 and 567. *)
Definition rect_theta (along cross : R) : R := atan (along / cross).
(** Factor of v for a rectangle, utils.py:414-435. *)
Definition rect_v (theta ta tc angle : R) : R :=
  if Rleb theta angle && Rleb angle (PI - theta) then ta
  else if Rleb (PI + theta) angle && Rleb angle (2 * PI - theta) then - ta
  else if Rltb angle theta then tc * tan angle
  else if Rltb angle PI then tc * tan (PI - angle)
  else if Rltb angle (PI + theta) then - tc * tan (angle - PI)
  else - tc * tan (2 * PI - angle).
(** Factor of n for a rectangle, utils.py:436-457. *)
Definition rect_n (theta ta tc angle : R) : R :=
  if Rleb angle theta || Rleb (2 * PI - theta) angle then tc
  else if Rleb (PI - theta) angle && Rleb angle (PI + theta) then - tc
  else if Rltb angle (PI / 2) then ta * tan (PI / 2 - angle)
  else if Rltb angle (PI - theta) then - ta * tan (angle - PI / 2)
  else if Rltb angle (3 * PI / 2) then - ta * tan (3 * PI / 2 - angle)
  else ta * tan (angle - 3 * PI / 2).
(** ray, utils.py:401-466. *)
Definition ray (pos vel : v3) (cross along roll pitch : R) (rect : bool) (angle : R) : v3 :=
  let ta := tan (radians (along / 2)) in
  let tc := tan (radians (cross / 2)) in
  let th := rect_theta along cross in
  let fv := if rect then rect_v th ta tc angle else sin angle * ta in
  let fn := if rect then rect_n th ta tc angle else cos angle * tc in
  v_add (v_add (v_add (v_add (ray_b pos) (v_scale (tan (radians pitch)) (ray_v vel)))
                      (v_scale (tan (radians roll)) (ray_n pos vel)))
               (v_scale fv (ray_v vel))) (v_scale fn (ray_n pos vel)).
(** np.linspace(a, b, n, endpoint=False) and np.linspace(a, b, n), utils.py:570-581.  With n = 1 the
    latter is [a]. *)
Definition linspace_open (a b : R) (n : nat) : list R := map (fun k => a + INR k * ((b - a) / INR n)) (seq 0 n).
(** np.linspace(a, b, n) with both ends, utils.py:581. *)
Definition linspace_closed (a b : R) (n : nat) : list R := map (fun k => a + INR k * ((b - a) / INR (n - 1))) (seq 0 n).
(** angles, utils.py:566-581 (number_points already resolved, utils.py:560-565). *)
Definition footprint_angles (rect : bool) (along cross : R) (n : nat) : list R :=
  if rect then
    let th := rect_theta along cross in
    linspace_open (- th) th n ++ linspace_open th (PI - th) n ++ linspace_open (PI - th) (PI + th) n
    ++ linspace_open (PI + th) (2 * PI - th) n
  else linspace_closed 0 (2 * PI) n.
(** The rays of compute_footprint at one time, utils.py:582-594. *)
Definition footprint_rays (pos vel : v3) (cross along roll pitch : R) (rect : bool) (n : nat) : list v3 :=
  map (ray pos vel cross along roll pitch rect) (footprint_angles rect along cross n).
(** The ray of compute_footprint_center, instrument.py:276-300. *)
Definition centre_ray (p : pointed) (pos vel : v3) : v3 := ray pos vel 0 0 (pi_roll p) (pi_pitch p) false 0.
(** The ray of compute_projected_pixel_position, instrument.py:302-334. *)
Definition pixel_ray (p : pointed) (pos vel : v3) (i j : nat) : v3 :=
  let (cone, clock) := cone_clock p i j in ray pos vel cone cone (pi_roll p) (pi_pitch p) false clock.
(** The comprehension of compute_footprint_pixel_array, instrument.py:382-391. *)
Definition pixel_indices (p : pointed) : list (nat * nat) :=
  flat_map (fun i => map (fun j => (i, j)) (seq 0 (pi_along_pixels p))) (seq 0 (pi_cross_pixels p)).

(** ** Projection to the surface, utils.py:467-526 *)
Section Projection.
(** SPICE: surfpt (point of a triaxial ellipsoid hit by a ray, None: NotFoundError); edlimb with
    inelpl and nvp2pl (two limb points in the plane through the position with the given normal). *)
Variable surfpt : v3 -> v3 -> R -> R -> R -> option v3.
Variable limb_points : v3 -> R -> R -> R -> v3 -> v3 * v3.
(** Rectangular point handed to recgeo, utils.py:467-526: the surface point, or for a ray that misses
    the limb point nearer to the ray. *)
Definition projected_point (pos vel : v3) (cross along roll pitch : R) (rect : bool) (angle elevation : R) : v3 :=
  let r := ray pos vel cross along roll pitch rect angle in
  let a := EARTH_EQUATORIAL_RADIUS + elevation in
  let c := EARTH_POLAR_RADIUS + elevation in
  match surfpt pos r a a c with
  | Some pt => pt
  | None =>
      let normal := v_add (v_scale (sin (PI / 2 + angle)) (ray_v vel)) (v_scale (cos (PI / 2 + angle)) (ray_n pos vel)) in
      let (p1, p2) := limb_points pos a a c normal in
      match np_arccos (v_dot r p1 / v_norm r / v_norm p1), np_arccos (v_dot r p2 / v_norm r / v_norm p2) with
      | Some a1, Some a2 => if Rleb a1 a2 then p1 else p2
      | _, _ => p2
      end
  end.
End Projection.
