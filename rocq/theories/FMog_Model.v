(** Binary64 model of MOGConstellation.generate_members (src/tatc/schemas/satellite.py:295-397).  Mog_Model
    treats the same function over exact reals, with names and instruments. *)
From Coq Require Import ZArith Bool List.
From Flocq Require Import Core IEEE754.BinarySingleNaN.
From Verif Require Import Base Float_Model FGrid_Model FTime_Model FGeom_Model.
Import ListNotations.
Open Scope Z_scope.

(** ** Arrays of three floats *)
(** np.array([x, y, z]), satellite.py:326. *)
Record fv3 := FV3 { f_x : b64; f_y : b64; f_z : b64 }.
(** a + b, satellite.py:332-336. *)
Definition fv_add (a b : fv3) : fv3 := FV3 (fadd (f_x a) (f_x b)) (fadd (f_y a) (f_y b)) (fadd (f_z a) (f_z b)).
(** a - b, satellite.py:326. *)
Definition fv_sub (a b : fv3) : fv3 := FV3 (fsub (f_x a) (f_x b)) (fsub (f_y a) (f_y b)) (fsub (f_z a) (f_z b)).
(** scalar * array, satellite.py:326. *)
Definition fv_scale (k : b64) (a : fv3) : fv3 := FV3 (fmul k (f_x a)) (fmul k (f_y a)) (fmul k (f_z a)).
(** array / scalar, satellite.py:352 (numpy: no exception when the scalar is zero). *)
Definition fv_div (a : fv3) (k : b64) : fv3 := FV3 (fdiv (f_x a) k) (fdiv (f_y a) k) (fdiv (f_z a) k).
(** -array, satellite.py:343. *)
Definition fv_neg (a : fv3) : fv3 := FV3 (Bopp (f_x a)) (Bopp (f_y a)) (Bopp (f_z a)).
(** np.cross, satellite.py:334. *)
Definition fv_cross (a b : fv3) : fv3 :=
  FV3 (fsub (fmul (f_y a) (f_z b)) (fmul (f_z a) (f_y b))) (fsub (fmul (f_z a) (f_x b)) (fmul (f_x a) (f_z b)))
      (fsub (fmul (f_x a) (f_y b)) (fmul (f_y a) (f_x b))).
(** np.array([1, 0, 0]), np.array([0, 1, 0]) and np.array([0, 0, 1]), satellite.py:326-347. *)
Definition f_ax : fv3 := FV3 (of_Z 1) (of_Z 0) (of_Z 0).
(** See above, satellite.py:326-347. *)
Definition f_ay : fv3 := FV3 (of_Z 0) (of_Z 1) (of_Z 0).
(** See above, satellite.py:326-347. *)
Definition f_az : fv3 := FV3 (of_Z 0) (of_Z 0) (of_Z 1).

(** The numeric fields of MOGConstellation and of its reference orbit, satellite.py:276-293 and orbit.py:759-762. *)
Record f_mog := mk_f_mog { fm_altitude : b64; fm_inclination : b64; fm_raan : b64;
  fm_parallel : b64; fm_transverse : b64; fm_clockwise : bool; fm_number : nat }.
(** The numeric fields of KeplerianOrbit, orbit.py:707-712, 759-762, 939-942. *)
Record f_kep := mk_f_kep { fk_altitude : b64; fk_inclination : b64; fk_eccentricity : b64; fk_raan : b64;
  fk_perigee : b64; fk_anomaly : b64 }.
(** ge=0, lt=hi.  orbit.py:707-712, 759-762, 940-942.  Comparisons with NaN are false. *)
Definition f_in_bound (hi : Z) (x : b64) : bool := Bleb (of_Z 0) x && Bltb x (of_Z hi).
(** The fields of the reference orbit, orbit.py:759-762, and gt=0 of satellite.py:280-293. *)
Definition f_mog_valid (m : f_mog) : bool :=
  f_in_bound 180 (fm_inclination m) && f_in_bound 360 (fm_raan m) && Bltb (of_Z 0) (fm_parallel m)
  && Bltb (of_Z 0) (fm_transverse m) && Nat.ltb 0 (fm_number m).
(** The validating constructor KeplerianOrbit(...), orbit.py:931-942. *)
Definition f_make_keplerian (k : f_kep) : pyres f_kep :=
  if (f_in_bound 360 (fk_anomaly k) && f_in_bound 180 (fk_inclination k) && f_in_bound 360 (fk_raan k)
         && Bleb (of_Z 0) (fk_eccentricity k) && f_in_bound 360 (fk_perigee k)) then Ok k else Raise ValidationError.

(** a, satellite.py:304-306. *)
Definition f_mog_a (m : f_mog) : b64 := fadd (fm_altitude m) f_mean_radius.
(** delta, satellite.py:308-309. *)
Definition f_mog_delta (m : f_mog) : b64 := fdiv (fm_transverse m) (fmul (of_Z 2) (f_mog_a m)).
(** e, satellite.py:311-312. *)
Definition f_mog_e (m : f_mog) : b64 := fdiv (fm_parallel m) (fmul (of_Z 4) (f_mog_a m)).
(** s, satellite.py:314-315. *)
Definition f_mog_s (m : f_mog) : b64 := of_Z (if fm_clockwise m then 1 else -1).
(** omega_0, satellite.py:321-323. *)
Definition f_mog_omega0 (m : f_mog) : b64 := f_radians (fm_raan m).
(** np.linspace(0, 2 * np.pi, number_satellites, endpoint=False)[k], satellite.py:329: k * step + 0. *)
Definition f_mog_theta (m : f_mog) (k : nat) : b64 :=
  fadd (fmul (of_Z (Z.of_nat k)) (fdiv (fmul (of_Z 2) f_pi) (of_Z (Z.of_nat (fm_number m))))) (of_Z 0).
(** 0.1, satellite.py:369. *)
Definition f_guess : b64 := f_lit 7205759403792794 (-56).
(** 1e-6, satellite.py:370. *)
Definition f_tolerance : b64 := f_lit 4722366482869645 (-72).
(** (360 + np.degrees(x)) % 360, satellite.py:381-385. *)
Definition f_wrap (x : b64) : b64 := np_mod (fadd (of_Z 360) (f_degrees x)) (of_Z 360).

Section Libm.
(** numpy's sin, cos, arccos, arctan2 and dot (of arrays of three floats). *)
Variables (f_sin f_cos f_acos : b64 -> b64) (f_atan2 : b64 -> b64 -> b64) (f_dot : fv3 -> fv3 -> b64).

(** The while loop, satellite.py:367-372; None: not finished after [fuel] tests of the condition. *)
Fixpoint f_kepler_loop (fuel : nat) (n e psi_ psi : b64) : option b64 :=
  match fuel with
  | O => None
  | S fuel' => if Bltb f_tolerance (Babs (fsub psi psi_))
               then f_kepler_loop fuel' n e psi (fadd n (fmul e (f_sin psi))) else Some psi
  end.

(** l_0, satellite.py:317-326 (via i_0). *)
Definition f_mog_l0 (m : f_mog) : fv3 :=
  let i_0 := f_radians (fm_inclination m) in fv_sub (fv_scale (f_cos i_0) f_az) (fv_scale (f_sin i_0) f_ay).
(** l, satellite.py:331-336. *)
Definition f_mog_l (m : f_mog) (theta : b64) : fv3 :=
  let d := f_mog_delta m in
  fv_add (fv_add (fv_scale (f_cos d) (f_mog_l0 m)) (fv_scale (fmul (f_sin d) (f_cos theta)) (fv_cross (f_mog_l0 m) f_ax)))
         (fv_scale (fmul (f_sin d) (f_sin theta)) f_ax).
(** i, satellite.py:338-339. *)
Definition f_mog_i (m : f_mog) (theta : b64) : b64 := f_acos (f_dot (f_mog_l m theta) f_az).
(** omega, satellite.py:341-344. *)
Definition f_mog_omega (m : f_mog) (theta : b64) : b64 :=
  fadd (f_mog_omega0 m) (f_atan2 (f_dot (f_mog_l m theta) f_ax) (f_dot (fv_neg (f_mog_l m theta)) f_ay)).
(** t, satellite.py:351-352. *)
Definition f_mog_t (m : f_mog) (theta : b64) : fv3 := fv_div (fv_cross (f_mog_l m theta) (f_mog_l0 m)) (f_sin (f_mog_delta m)).
(** w, satellite.py:346-358 (with p_node and p_peri). *)
Definition f_mog_w (m : f_mog) (theta : b64) : b64 :=
  let phi := fsub (f_mog_omega m theta) (f_mog_omega0 m) in
  let p_node := fv_add (fv_scale (f_cos phi) f_ax) (fv_scale (f_sin phi) f_ay) in
  let p_peri := fv_scale (f_mog_s m) (fv_cross (f_mog_t m theta) (f_mog_l m theta)) in
  f_atan2 (f_dot p_peri (fv_cross (f_mog_l m theta) p_node)) (f_dot p_peri p_node).
(** n, satellite.py:360-365. *)
Definition f_mog_n (m : f_mog) (theta : b64) : b64 :=
  f_atan2 (fmul (f_mog_s m) (f_dot (f_mog_t m theta) f_ax))
          (fmul (f_mog_s m) (f_dot (f_mog_t m theta) (fv_cross (f_mog_l0 m) f_ax))).
(** nu, satellite.py:374-375.  e**2 of a Python float is pow(e, 2), modelled as e * e. *)
Definition f_mog_nu (e psi : b64) : b64 :=
  f_atan2 (fmul (f_sin psi) (fsqrt (fsub (of_Z 1) (fmul e e)))) (fsub (f_cos psi) e).
(** One pass of the loop over theta, satellite.py:329-388. *)
Definition f_mog_orbit (fuel : nat) (m : f_mog) (theta : b64) : option (pyres f_kep) :=
  match f_kepler_loop fuel (f_mog_n m theta) (f_mog_e m) (of_Z 0) f_guess with
  | None => None
  | Some psi => Some (f_make_keplerian (mk_f_kep (fm_altitude m) (f_wrap (f_mog_i m theta)) (f_mog_e m)
                  (f_wrap (f_mog_omega m theta)) (f_wrap (f_mog_w m theta)) (f_wrap (f_mog_nu (f_mog_e m) psi))))
  end.
(** The loop over theta, satellite.py:329-388. *)
Fixpoint f_mog_orbits (fuel : nat) (m : f_mog) (ks : list nat) : option (pyres (list f_kep)) :=
  match ks with
  | [] => Some (Ok [])
  | k :: r =>
      match f_mog_orbit fuel m (f_mog_theta m k) with
      | None => None
      | Some (Raise x) => Some (Raise x)
      | Some (Ok o) =>
          match f_mog_orbits fuel m r with
          | None => None
          | Some (Raise x) => Some (Raise x)
          | Some (Ok os) => Some (Ok (o :: os))
          end
      end
  end.
(** The orbits of generate_members, satellite.py:295-388 (lines 390-397 wrap them in satellites, see Mog_Model).
    The divisions of satellite.py:309 and 312 are of Python floats and raise.  None: not finished with the
    given number of loop tests per satellite. *)
Definition f_mog_members (fuel : nat) (m : f_mog) : option (pyres (list f_kep)) :=
  if is_zero (fmul (of_Z 2) (f_mog_a m)) then Some (Raise ZeroDivisionError)
  else f_mog_orbits fuel m (seq 0 (fm_number m)).
End Libm.
