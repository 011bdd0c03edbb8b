(** Conversions between along-track distances and access times in binary64.
    Modelled: utils.py:310-355. *)
From Coq Require Import ZArith Bool.
From Flocq Require Import Core IEEE754.BinarySingleNaN.
From Verif Require Import Base Float_Model FGrid_Model FTime_Model FGeom_Model.

Section Libm.
Variable f_cos : b64 -> b64.
(** along_track_distance_to_access_time, utils.py:310-331; it repeats the body of compute_ground_velocity.  A float
    division by zero raises in nopython mode. *)
Definition f_along_track_time (altitude inclination along_track : b64) : pyres b64 :=
  let ground_velocity := f_ground_velocity f_cos altitude inclination in
  if is_zero ground_velocity then Raise ZeroDivisionError else Ok (fdiv along_track ground_velocity).
(** access_time_to_along_track_distance, utils.py:334-355. *)
Definition f_along_track_distance (altitude inclination access_time : b64) : b64 :=
  fmul (f_ground_velocity f_cos altitude inclination) access_time.
End Libm.
