(** From which place and which element sets compute_dop looks at the satellites, src/tatc/analysis/dop.py:57-77.
    Dop_Model treats the rest, for what is seen. *)
From Coq Require Import Reals ZArith List Bool.
From Verif Require Import Base Dop_Model.
Import ListNotations.
Open Scope R_scope.

(** The fields of Point that locate it, point.py:19-36. *)
Record place := mk_place { pl_latitude : R; pl_longitude : R; pl_elevation : R }.

Section Dopat.
(** A line of a two-line element set and an orbit of any type. *)
Variables (Line Orbit : Type).
(** to_tle().tle of an orbit, orbit.py:692-699, 790-820, 903-930, 982-1030, 1100-1150: modelled in Fleet_Model and
    Config_Model, here any function. *)
Variable to_tle : Orbit -> pyres (list Line).
(** (EarthSatellite(line 1, line 2) - wgs84.latlon(latitude, longitude, elevation)).at(time).altaz(): skyfield. dop.py:58-77. *)
Variable altaz : Line * Line -> place -> Z -> sight.
(** np.linalg.solve, dop.py:105. *)
Variable solve : mat4 -> option mat4.

(** l[k] for k = 0 or 1.  dop.py:60-61. *)
Definition line_at (l : list Line) (k : nat) : pyres Line := match nth_error l k with Some x => Ok x | None => Raise IndexError end.
(** The element set of one satellite: to_tle is called once for each line. dop.py:58-65. *)
Definition dop_lines (o : Orbit) : pyres (Line * Line) :=
  bind (bind (to_tle o) (fun l => line_at l 0)) (fun l1 => bind (bind (to_tle o) (fun l => line_at l 1)) (fun l2 => Ok (l1, l2))).
(** wgs84.latlon(point.latitude, point.longitude): elevation_m is left at its default, 0.  dop.py:71. *)
Definition sk_position (p : place) : place := mk_place (pl_latitude p) (pl_longitude p) 0.
(** compute_dop, dop.py:34-137. *)
Definition dop_at (times : list Z) (point : place) (satellites : list Orbit) (min_elevation : R) (method : dop_method)
    (min_count_visible : Z) : pyres (list dop_row) :=
  bind (mapM dop_lines satellites) (fun sk_sats =>
    compute_dop solve (fun s t => altaz s (sk_position point) t) times (pl_latitude point) (pl_longitude point) sk_sats
      min_elevation method min_count_visible).
End Dopat.
