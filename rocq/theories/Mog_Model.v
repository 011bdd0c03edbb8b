(** Model of the mutual orbiting group constellation, src/tatc/schemas/satellite.py:266-397. *)
From Coq Require Import Reals ZArith List Bool.
From Verif Require Import Base RBase RTrig Tle_Model Orbit_Model Const_Model.
Import ListNotations.
Open Scope R_scope.

(** ** Three-component numpy arrays, satellite.py:326-365 *)
(** np.array([x, y, z]), as at satellite.py:326. *)
Record v3 := V3 { v_x : R; v_y : R; v_z : R }.
(** a + b of two arrays, satellite.py:332-336. *)
Definition v_add (a b : v3) : v3 := V3 (v_x a + v_x b) (v_y a + v_y b) (v_z a + v_z b).
(** scalar * array, satellite.py:326. *)
Definition v_scale (k : R) (a : v3) : v3 := V3 (k * v_x a) (k * v_y a) (k * v_z a).
(** np.dot of two 3-vectors, satellite.py:339. *)
Definition v_dot (a b : v3) : R := v_x a * v_x b + v_y a * v_y b + v_z a * v_z b.
(** np.cross of two 3-vectors, satellite.py:334. *)
Definition v_cross (a b : v3) : v3 :=
  V3 (v_y a * v_z b - v_z a * v_y b) (v_z a * v_x b - v_x a * v_z b) (v_x a * v_y b - v_y a * v_x b).
(** The literal axes np.array([1,0,0]), np.array([0,1,0]), np.array([0,0,1]), satellite.py:326-347. *)
Definition ax : v3 := V3 1 0 0.
(** See above, satellite.py:326-347. *)
Definition ay : v3 := V3 0 1 0.
(** See above, satellite.py:326-347. *)
Definition az : v3 := V3 0 0 1.

Section Mog.
(** Instruments are carried along. *)
Context {I : Type}.
(** Fields of MOGConstellation, satellite.py:276-293 (and the inherited name and instruments). *)
Record mog := mk_mog { mg_name : pystr; mg_orbit : circular; mg_instruments : list I;
  mg_parallel : R; mg_transverse : R; mg_clockwise : bool; mg_number : nat }.
(** Field bounds, satellite.py:280-293. *)
Definition mog_valid (m : mog) : bool :=
  Rltb 0 (mg_parallel m) && Rltb 0 (mg_transverse m) && Nat.ltb 0 (mg_number m).

(** a = altitude + EARTH_MEAN_RADIUS, satellite.py:304-306. *)
Definition mog_a (m : mog) : R := c_alt (mg_orbit m) + EARTH_MEAN_RADIUS.
(** delta, satellite.py:308-309. *)
Definition mog_delta (m : mog) : R := mg_transverse m / (2 * mog_a m).
(** e, satellite.py:311-312. *)
Definition mog_e (m : mog) : R := mg_parallel m / (4 * mog_a m).
(** s, satellite.py:314-315. *)
Definition mog_s (m : mog) : R := if mg_clockwise m then 1 else -1.
(** l_0, satellite.py:317-326 (via i_0). *)
Definition mog_l0 (m : mog) : v3 :=
  let i_0 := radians (c_inc (mg_orbit m)) in
  v_add (v_scale (cos i_0) az) (v_scale (- sin i_0) ay).
(** l, satellite.py:331-336. *)
Definition mog_l (m : mog) (theta : R) : v3 :=
  let d := mog_delta m in
  v_add (v_add (v_scale (cos d) (mog_l0 m)) (v_scale (sin d * cos theta) (v_cross (mog_l0 m) ax)))
        (v_scale (sin d * sin theta) ax).
(** omega - omega_0, satellite.py:341-344. *)
Definition mog_node (m : mog) (theta : R) : R :=
  arctan2 (v_dot (mog_l m theta) ax) (v_dot (v_scale (-1) (mog_l m theta)) ay).
(** t, satellite.py:351-352. *)
Definition mog_t (m : mog) (theta : R) : v3 :=
  v_scale (/ sin (mog_delta m)) (v_cross (mog_l m theta) (mog_l0 m)).
(** w, satellite.py:346-358 (with p_node and p_peri). *)
Definition mog_w (m : mog) (theta : R) : R :=
  let p_node := v_add (v_scale (cos (mog_node m theta)) ax) (v_scale (sin (mog_node m theta)) ay) in
  let p_peri := v_scale (mog_s m) (v_cross (mog_t m theta) (mog_l m theta)) in
  arctan2 (v_dot p_peri (v_cross (mog_l m theta) p_node)) (v_dot p_peri p_node).
(** n, satellite.py:360-365. *)
Definition mog_n (m : mog) (theta : R) : R :=
  arctan2 (mog_s m * v_dot (mog_t m theta) ax) (mog_s m * v_dot (mog_t m theta) (v_cross (mog_l0 m) ax)).
(** The while loop, satellite.py:367-372; None: not finished after [fuel] tests of the condition. *)
Fixpoint kepler_loop (fuel : nat) (n e psi_ psi : R) : option R :=
  match fuel with
  | O => None
  | S fuel' => if Rltb (1 / 1000000) (Rabs (psi - psi_)) then kepler_loop fuel' n e psi (n + e * sin psi)
               else Some psi
  end.
(** (360 + np.degrees(x)) % 360, satellite.py:381-385. *)
Definition wrap_degrees (x : R) : R := rmod (360 + degrees x) 360.
(** One pass of the loop over theta, satellite.py:329-388.  NaN (division by sin delta = 0, the square
    root of a negative number, arccos outside [-1,1]) reaches KeplerianOrbit and is rejected there;
    with a NaN mean anomaly the while loop stops at once. *)
Definition mog_orbit (fuel : nat) (m : mog) (theta : R) : option (pyres keplerian) :=
  if Req_EM_T (sin (mog_delta m)) 0 then Some (Raise ValidationError)
  else
    match kepler_loop fuel (mog_n m theta) (mog_e m) 0 (1 / 10) with
    | None => None
    | Some psi => Some (
        match np_arccos (v_dot (mog_l m theta) az) with
        | None => Raise ValidationError
        | Some i =>
            if Rltb 1 (mog_e m * mog_e m) then Raise ValidationError
            else
              let nu := arctan2 (sin psi * sqrt (1 - mog_e m * mog_e m)) (cos psi - mog_e m) in
              make_keplerian (mk_kep (mk_circ (c_alt (mg_orbit m)) (wrap_degrees nu) (c_epoch (mg_orbit m)) (wrap_degrees i)
                  (wrap_degrees (radians (c_raan (mg_orbit m)) + mog_node m theta)))
                (mog_e m) (wrap_degrees (mog_w m theta)))
        end)
    end.
(** np.linspace(0, 2*np.pi, number_satellites, endpoint=False)[k], satellite.py:329. *)
Definition mog_theta (m : mog) (k : nat) : R := INR k * (2 * PI / INR (mg_number m)).
(** The loop over theta, satellite.py:329-388. *)
Fixpoint mog_orbits (fuel : nat) (m : mog) (ks : list nat) : option (pyres (list keplerian)) :=
  match ks with
  | [] => Some (Ok [])
  | k :: r =>
      match mog_orbit fuel m (mog_theta m k) with
      | None => None
      | Some (Raise x) => Some (Raise x)
      | Some (Ok o) =>
          match mog_orbits fuel m r with
          | None => None
          | Some (Raise x) => Some (Raise x)
          | Some (Ok os) => Some (Ok (o :: os))
          end
      end
  end.
(** generate_members, satellite.py:295-397.  None: not finished with the given number of loop tests
    per satellite. *)
Definition mog_members (fuel : nat) (m : mog) : option (pyres (list (@member I))) :=
  if Req_EM_T (mog_a m) 0 then Some (Raise ZeroDivisionError)
  else
    match mog_orbits fuel m (seq 0 (mg_number m)) with
    | None => None
    | Some (Raise x) => Some (Raise x)
    | Some (Ok os) => Some (Ok (map (fun p => mk_member (zero_pad (mg_name m) (Z.of_nat (mg_number m)) (Z.of_nat (fst p) + 1))
                                            (LKep (snd p)) (mg_instruments m)) (combine (seq 0 (length os)) os)))
    end.
End Mog.
