(** Binary64 model of SOCConstellation.generate_walker (src/tatc/schemas/satellite.py:401-479) with
    swath_width_to_field_of_regard (src/tatc/utils.py:107-130).  Geom_Model treats the same functions over exact reals. *)
From Coq Require Import ZArith Bool.
From Flocq Require Import Core IEEE754.BinarySingleNaN.
From Verif Require Import Base Float_Model FGrid_Model FTime_Model FGeom_Model.
Open Scope Z_scope.

(** math.ceil: a ValueError for NaN, an OverflowError (modelled as ValueError) for infinity.  satellite.py:463, 469. *)
Definition math_ceil (x : b64) : pyres Z :=
  match x with B754_nan | B754_infinity _ => Raise ValueError | _ => Ok (np_ceil x) end.
(** Python's (and numba's) float division.  utils.py:128, satellite.py:441-442, 460, 463, 466, 469. *)
Definition pdiv (x y : b64) : pyres b64 := if is_zero y then Raise ZeroDivisionError else Ok (fdiv x y).
(** Fields of SOCConstellation, satellite.py:411-420: only those that generate_walker computes with. *)
Record fsoc := mk_fsoc { fs_altitude : b64; fs_swath : b64; fs_packing : b64 }.
(** Field constraints [gt=0] and [gt=0, le=1], satellite.py:415-420. *)
Definition f_soc_valid (s : fsoc) : bool :=
  Bltb (of_Z 0) (fs_swath s) && Bltb (of_Z 0) (fs_packing s) && Bleb (fs_packing s) (of_Z 1).

Section Libm.
(** sin, cos, asin, acos and atan of numpy, numba and the math module, which may differ in reality; one library is assumed. *)
Variables f_sin f_cos f_asin f_acos f_atan : b64 -> b64.
(** math.asin: ValueError outside [-1, 1] (NaN is returned).  satellite.py:440, 460, 466. *)
Definition math_asin (x : b64) : pyres b64 :=
  if Bltb x (of_Z (-1)) || Bltb (of_Z 1) x then Raise ValueError else Ok (f_asin x).
(** swath_width_to_field_of_regard, utils.py:107-130. *)
Definition f_swath_to_regard (altitude swath elevation : b64) : pyres b64 :=
  let sin_rho := f_sin_rho altitude elevation in
  bind (pdiv (fdiv swath (of_Z 2)) (f_radius_at elevation)) (fun lambda =>
  let sin_lambda := f_sin lambda in
  bind (pdiv (fmul sin_rho sin_lambda) (fsub (of_Z 1) (fmul sin_rho (f_cos (f_asin sin_lambda))))) (fun tan_eta =>
  Ok (f_degrees (fmul (of_Z 2) (f_atan tan_eta))))).
(** gamma, satellite.py:431-448 (in compute_min_elevation_angle the divisor, sin_rho, is not zero). *)
Definition f_soc_gamma (altitude swath : b64) : pyres b64 :=
  bind (f_swath_to_regard altitude swath (of_Z 0)) (fun regard =>
  let e := f_min_elevation_angle f_sin f_acos altitude regard (of_Z 0) in
  bind (pdiv f_mean_radius (f_radius_at altitude)) (fun ratio =>
  bind (math_asin (fmul ratio (f_cos (f_radians e)))) (fun a =>
  Ok (fsub (fsub (of_Z 90) e) (f_degrees a))))).
(** The number of steps of an angle in a turn, satellite.py:460-463 and 466-469: [0.5 * d] is exact or underflows. *)
Definition f_soc_count (d : b64) : pyres Z :=
  bind (pdiv (fmul (fdiv (of_Z 1) (of_Z 2)) d) f_mean_radius) (fun q =>
  bind (math_asin q) (fun a =>
  bind (pdiv (fmul (of_Z 2) f_pi) (fmul (of_Z 2) a)) math_ceil)).
(** generate_walker: satellites per plane and planes, satellite.py:450-471. *)
Definition f_soc_counts (s : fsoc) : pyres (Z * Z) :=
  bind (f_soc_gamma (fs_altitude s) (fs_swath s)) (fun gamma =>
  let r_foot := fmul f_mean_radius (f_sin (f_radians gamma)) in
  bind (f_soc_count (fmul (fmul (of_Z 2) r_foot) (fs_packing s))) (fun per_plane =>
  bind (f_soc_count (fmul (fmul (fsqrt (of_Z 3)) r_foot) (fs_packing s))) (fun planes =>
  Ok (per_plane, planes)))).
(** The constraints of the WalkerConstellation that is constructed, satellite.py:158-198, 473-479. *)
Definition f_soc_walker (s : fsoc) : pyres (Z * Z) :=
  bind (f_soc_counts s) (fun kp =>
  let number := fst kp * snd kp in
  if (1 <=? number) && (1 <=? snd kp) && (snd kp <=? number) then Ok kp else Raise ValidationError).
End Libm.
