(** Anomaly conversions and the anomalies of derived orbits in binary64.
    Modelled: utils.py:36-79, the anomaly part of get_derived_orbit (orbit.py:714-721, 764-779, 876-890, 944-970),
    of WalkerConstellation (satellite.py:200-227, 249-258) and TrainConstellation (satellite.py:86-98, 119-124). *)
From Coq Require Import ZArith Bool.
From Flocq Require Import Core IEEE754.BinarySingleNaN.
From Verif Require Import Base Float_Model FGrid_Model FTime_Model FGeom_Model.

Section Libm.
(** np.sin, and ** of a float with the exponents 2, 3 and 4 (numba multiplies, CPython calls pow). *)
Variables (f_sin : b64 -> b64) (f_pow : b64 -> nat -> b64).

(** mean_anomaly_to_true_anomaly, utils.py:36-55. *)
Definition f_mean_to_true (mean_anomaly eccentricity : b64) : b64 :=
  let r := f_radians mean_anomaly in
  f_degrees
    (fadd (fadd (fadd r
      (fmul (fsub (fmul (of_Z 2) eccentricity) (fmul (fdiv (of_Z 1) (of_Z 4)) (f_pow eccentricity 3))) (f_sin r)))
      (fmul (fmul (fdiv (of_Z 5) (of_Z 4)) (f_pow eccentricity 2)) (f_sin (fmul (of_Z 2) r))))
      (fmul (fmul (fdiv (of_Z 13) (of_Z 12)) (f_pow eccentricity 3)) (f_sin (fmul (of_Z 3) r)))).
(** true_anomaly_to_mean_anomaly, utils.py:58-79. *)
Definition f_true_to_mean (true_anomaly eccentricity : b64) : b64 :=
  let r := f_radians true_anomaly in
  f_degrees
    (fadd (fsub (fadd (fsub r
      (fmul (fmul (of_Z 2) eccentricity) (f_sin r)))
      (fmul (fadd (fmul (fdiv (of_Z 3) (of_Z 4)) (f_pow eccentricity 2)) (fmul (fdiv (of_Z 1) (of_Z 8)) (f_pow eccentricity 4)))
            (f_sin (fmul (of_Z 2) r))))
      (fmul (fmul (fdiv (of_Z 1) (of_Z 3)) (f_pow eccentricity 3)) (f_sin (fmul (of_Z 3) r))))
      (fmul (fmul (fdiv (of_Z 5) (of_Z 32)) (f_pow eccentricity 4)) (f_sin (fmul (of_Z 4) r)))).

(** The true anomaly of get_derived_orbit and its field constraint [ge=0, lt=360] (orbit.py:707-712):
    orbit.py:778-780, 888-890 (no eccentricity given: 0) and 967-970.  raan_field is that constraint. *)
Definition f_derived_anomaly (true_anomaly eccentricity delta : b64) : pyres b64 :=
  raan_field (f_mean_to_true (np_mod (fadd (f_true_to_mean true_anomaly eccentricity) delta) (of_Z 360)) eccentricity).

(** get_satellites_per_plane, satellite.py:200-207: the ceiling of the (correctly rounded) quotient; the model
    takes the exact ceiling, the same for fewer than 2^52 satellites. *)
Definition per_plane (satellites planes : Z) : Z := (- ((- satellites) / planes))%Z.
(** The change of the mean anomaly of member [i] (zero-based) of a Walker constellation, satellite.py:209-227,
    253-256.  int / int is correctly rounded; of_Z is exact up to 2^53. *)
Definition f_walker_delta (satellites planes spacing i : Z) : b64 :=
  let s := per_plane satellites planes in
  fadd (fmul (of_Z (i mod s)) (fdiv (of_Z 360) (of_Z s))) (fmul (of_Z (i / s)) (fdiv (of_Z (360 * spacing)) (of_Z satellites))).
(** The true anomaly of member [i] of a Walker constellation, satellite.py:249-258. *)
Definition f_walker_anomaly (satellites planes spacing i : Z) (true_anomaly eccentricity : b64) : pyres b64 :=
  f_derived_anomaly true_anomaly eccentricity (f_walker_delta satellites planes spacing i).

(** The change of the mean anomaly of member [i] of a train, satellite.py:98 and 122: get_mean_motion (orbit.py:732-739)
    of the orbit period in microseconds; timedelta quotients are correctly rounded. *)
Definition f_train_delta (altitude : b64) (interval_us i : Z) : pyres b64 :=
  bind (f_get_orbit_period altitude) (fun period =>
  if (period =? 0)%Z then Raise ZeroDivisionError else
  let day := of_Z 86400000000 in
  let mean_motion := fdiv (of_Z 1) (fdiv (of_Z period) day) in
  Ok (fmul (of_Z i) (fmul (fmul (of_Z (-360)) mean_motion) (fdiv (of_Z interval_us) day)))).
(** The true anomaly of member [i] of a train of circular orbits, satellite.py:119-124. *)
Definition f_train_anomaly (altitude : b64) (interval_us i : Z) (true_anomaly : b64) : pyres b64 :=
  bind (f_train_delta altitude interval_us i) (f_derived_anomaly true_anomaly (of_Z 0)).
End Libm.
