(** Binary64 model of generate_equally_spaced_points without a mask
    (src/tatc/generation/points.py:148-336) and of the coordinate bounds of the
    Point schema (src/tatc/schemas/point.py:20-31).  Grid_Model treats the same
    functions, with masks and cells, over exact reals. *)
From Coq Require Import ZArith Bool List.
From Flocq Require Import Core IEEE754.BinarySingleNaN.
From Verif Require Import Base Float_Model Grid_Model.
Import ListNotations.
Open Scope Z_scope.

(** A float literal with significand [m] and exponent [e] (constants.py:28-29; points.py:323-324). *)
Definition f_lit (m e : Z) : b64 := binary_normalize 53 1024 prec64 emax64 mode_NE m e false.
(** EARTH_EQUATORIAL_RADIUS = 6378137.0, constants.py:28. *)
Definition f_equatorial_radius : b64 := of_Z 6378137.
(** EARTH_POLAR_RADIUS = 6356752.314245179, constants.py:29. *)
Definition f_polar_radius : b64 := f_lit 6825510824613840 (-30).
(** EARTH_MEAN_RADIUS, constants.py:43. *)
Definition f_mean_radius : b64 :=
  fdiv (fadd (fmul (of_Z 2) f_equatorial_radius) f_polar_radius) (of_Z 3).
(** The double nearest to pi, inside numpy's degrees (points.py:172-173). *)
Definition f_pi : b64 := f_lit 7074237752028440 (-51).
(** [np.degrees(x)]: numpy computes x * (180.0 / pi).  points.py:172-173. *)
Definition f_degrees (x : b64) : b64 := fmul x (fdiv (of_Z 180) f_pi).
(** The angular step of a distance, points.py:172-173. *)
Definition f_step (distance : b64) : b64 := f_degrees (fdiv distance f_mean_radius).

(** [int(np.round(x))], points.py:254-276: nearest integer, ties to even. *)
Definition f_round (x : b64) : Z := Btrunc (Bnearbyint mode_NE x).
(** The number of columns or rows for an extent of [span] degrees starting at
    zero: range(int(np.round(0 / theta)), int(np.round(span / theta))),
    points.py:269-278 with the default bounds of points.py:216. *)
Definition f_range (span : Z) (theta : b64) : list Z :=
  py_range (f_round (fdiv (of_Z 0) theta)) (f_round (fdiv (of_Z span) theta)).
(** _generate_equally_spaced_indices without mask and strips, points.py:268-278. *)
Definition f_indices (thi thj : b64) : list (Z * Z) :=
  flat_map (fun j => map (fun i => (i, j)) (f_range 360 thi)) (f_range 180 thj).
(** _compute_equally_spaced_point_id, points.py:179-197. *)
Definition f_point_id (i j : Z) (thi thj : b64) : Z :=
  j * Btrunc (fdiv (of_Z 360) thj) + Grid_Model.np_mod i (Btrunc (fdiv (of_Z 360) thi)).
(** [-180 + (i + 0.5) * theta] and [-90 + (j + 0.5) * theta], points.py:323-324. *)
Definition f_coord (lo i : Z) (theta : b64) : b64 :=
  fadd (of_Z lo) (fmul (fadd (of_Z i) (f_lit 1 (-1))) theta).
(** One row of the frame, points.py:316-329 (id, longitude, latitude). *)
Record fpoint := mk_fpoint { f_id : Z; f_lon : b64; f_lat : b64 }.
(** _generate_equally_spaced_points without mask, points.py:308-336. *)
Definition f_gen_points (thi thj : b64) : list fpoint :=
  map (fun ij => mk_fpoint (f_point_id (fst ij) (snd ij) thi thj)
                   (f_coord (-180) (fst ij) thi) (f_coord (-90) (snd ij) thj))
      (f_indices thi thj).
(** generate_equally_spaced_points without mask, points.py:148-176. *)
Definition f_generate_points (distance : b64) : list fpoint :=
  f_gen_points (f_step distance) (f_step distance).

(** The bounds of Point.longitude and Point.latitude, point.py:20-31; NaN is rejected. *)
Definition point_accepts (p : fpoint) : bool :=
  (Bleb (of_Z (-90)) (f_lat p) && Bleb (f_lat p) (of_Z 90))
  && (Bleb (of_Z (-180)) (f_lon p) && Bleb (f_lon p) (of_Z 180)).

(** ** Fibonacci lattice without a mask, points.py:19-145 *)
(** np.sqrt: correctly rounded, points.py:47. *)
Definition fsqrt (x : b64) : b64 := Bsqrt (prec_gt_0_ := prec64) (prec_lt_emax_ := emax64) mode_NE x.
(** phi = (1 + np.sqrt(5)) / 2, points.py:47. *)
Definition f_golden : b64 := fdiv (fadd (of_Z 1) (fsqrt (of_Z 5))) (of_Z 2).
(** _compute_fibonacci_lattice_point_longitude, points.py:36-52.  360 * index is an exact integer (numba's
    int64 has room for every index below 2^54) that the division turns into a float. *)
Definition f_fib_lon (i : Z) : b64 :=
  let l := Float_Model.np_mod (fdiv (of_Z (360 * i)) f_golden) (of_Z 360) in
  if Bltb (of_Z 180) l then fadd l (of_Z (-360)) else l.
Section Asin.
(** np.arcsin, points.py:33. *)
Variable f_asin : b64 -> b64.
(** _compute_fibonacci_lattice_point_latitude, points.py:19-33. *)
Definition f_fib_lat (i n : Z) : b64 :=
  f_degrees (f_asin (fadd (fdiv (of_Z (2 * (i + 1))) (of_Z (n + 2))) (of_Z (-1)))).
(** The rows of generate_fibonacci_lattice_points for [n] samples without a mask, points.py:96-97 and
    118-145.  The number of samples (compute_number_samples) is a parameter; Grid_Model treats it. *)
Definition f_fib_points (n : Z) : list fpoint :=
  map (fun i => mk_fpoint i (f_fib_lon i) (f_fib_lat i n)) (py_range 0 n).
End Asin.
