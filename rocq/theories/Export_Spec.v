(** Specification vocabulary for conversions between orbits and two-line elements:
    ranges of elements, contracts of sgp4's printer and reader, agreement of readings. *)
From Coq Require Import String ZArith QArith Reals Qreals List Bool.
From Verif Require Import Base RBase Tle_Model Tle_Spec Orbit_Model Orbit_Spec Export_Model.
Import ListNotations.
Open Scope R_scope.

(** Elements of a closed orbit, angles in their ranges. *)
Definition usable (s : elset) : Prop :=
  0 <= e_ecc s < 1 /\ 0 <= e_inc s <= PI /\ 0 <= e_argp s <= 2 * PI /\ 0 <= e_mo s <= 2 * PI
  /\ 0 <= e_node s <= 2 * PI /\ 0 < e_no s.

(** Radians per minute (and its powers) to revolutions per day (and its powers). *)
Definition rev_per_day (k : nat) (x : R) : R := x * 1440 ^ k / (2 * PI).
(** Numbers that five digits with a one-digit exponent can show. *)
Definition five_digits (x : R) : Prop := x = 0 \/ 1 / 10 ^ 10 <= x < 1.
(** Elements that fit in the columns; epochs from 1957 to 2056 (days since 1949-12-31). *)
Definition printable (s : elset) : Prop :=
  2558 <= e_epoch s < 39083 /\ e_ecc s <= 9999999 / 10000000 /\ rev_per_day 1 (e_no s) < 9999 / 100
  /\ five_digits (e_bstar s) /\ five_digits (rev_per_day 3 (e_nddot s))
  /\ Rabs (rev_per_day 2 (e_ndot s)) <= 99999999 / 100000000.

(** The distance of a printed number from a real number. *)
Definition off (q : Q) (x : R) : R := Rabs (Q2R q - x).
(** Lines printed for an element set: well formed but for a missing classification (code 0
    in column 7), every element to half a unit of its last digit; drag terms to four digits. *)
Record exported (satnum : Z) (s : elset) (l1 l2 : pystr) (el : elements) : Prop := {
  ex_nul : forall k, nth_error l1 k = Some 0%Z <-> k = 7%nat;
  ex_line1 : line1_format (replace_at 7 85%Z l1);
  ex_line2 : line2_format l2;
  ex_check1 : checksum_ok l1;
  ex_check2 : checksum_ok l2;
  ex_prints : prints l1 l2 el;
  ex_catalog : el_catalog el = satnum;
  ex_inc : off (el_incl el) (degrees (e_inc s)) <= 1 / 20000;
  ex_raan : off (el_raan el) (degrees (e_node s)) <= 1 / 20000;
  ex_argp : off (el_argp el) (degrees (e_argp s)) <= 1 / 20000;
  ex_mo : off (el_anomaly el) (degrees (e_mo s)) <= 1 / 20000;
  ex_ecc : off (el_ecc el) (e_ecc s) <= 1 / 20000000;
  ex_no : off (el_motion el) (rev_per_day 1 (e_no s)) <= 1 / 200000000;
  ex_bstar : off (el_bstar el) (e_bstar s) <= e_bstar s / 10000;
  ex_ndot : off (el_ndot el) (rev_per_day 2 (e_ndot s)) <= 1 / 200000000;
  ex_nddot : off (el_nddot el) (rev_per_day 3 (e_nddot s)) <= rev_per_day 3 (e_nddot s) / 10000
}.
(** The printer prints whatever fits. *)
Definition printer_contract (export_tle : Z -> elset -> pyres (pystr * pystr)) : Prop :=
  forall satnum s, (0 <= satnum < 100000)%Z -> usable s -> printable s ->
  exists l1 l2 el, export_tle satnum s = Ok (l1, l2) /\ exported satnum s l1 l2 el.
(** The epoch of printed lines is the epoch printed: to half of 1e-8 days and a microsecond,
    later epochs reading no earlier. *)
Definition epoch_contract (epoch : pystr -> pystr -> pyres Z) (export_tle : Z -> elset -> pyres (pystr * pystr)) : Prop :=
  exists stamp : R -> Z,
    (forall x y, 2558 <= x -> x <= y -> y < 39083 -> (stamp x <= stamp y)%Z)
    /\ (forall x, 2558 <= x < 39083 -> Rabs (IZR (stamp x) - x * 86400000000) <= 433)
    /\ (forall satnum s l1 l2, (0 <= satnum < 100000)%Z -> usable s -> printable s -> export_tle satnum s = Ok (l1, l2) ->
         epoch (replace_at 7 85%Z l1) l2 = Ok (stamp (e_epoch s))).
(** The reader decodes what is printed. *)
Definition reader_contract (twoline2rv : pystr -> pystr -> pyres elset) : Prop :=
  forall l1 l2 el, line1_format l1 -> line2_format l2 -> prints l1 l2 el ->
  exists s, twoline2rv l1 l2 = Ok s
    /\ e_inc s = radians (Q2R (el_incl el)) /\ e_node s = radians (Q2R (el_raan el))
    /\ e_argp s = radians (Q2R (el_argp el)) /\ e_mo s = radians (Q2R (el_anomaly el))
    /\ e_ecc s = Q2R (el_ecc el) /\ rev_per_day 1 (e_no s) = Q2R (el_motion el)
    /\ e_bstar s = Q2R (el_bstar el) /\ rev_per_day 2 (e_ndot s) = Q2R (el_ndot el)
    /\ rev_per_day 3 (e_nddot s) = Q2R (el_nddot el).

(** A call gave a number within [tol] of [x]. *)
Definition reads (c : pyres Q) (x tol : R) : Prop := exists q, c = Ok q /\ off q x <= tol.
Definition reads_R (c : pyres R) (x tol : R) : Prop := exists r, c = Ok r /\ Rabs (r - x) <= tol.
(** The same up to whole turns. *)
Definition reads_angle (c : pyres Q) (x tol : R) : Prop := exists y, same_degrees y x /\ 0 <= y < 360 /\ reads c y tol.

(** Printed elements within the ranges of element sets. *)
Definition elements_ok (el : elements) : Prop :=
  0 <= Q2R (el_incl el) <= 180 /\ 0 <= Q2R (el_argp el) <= 360
  /\ 0 <= Q2R (el_ecc el) <= 9999999 / 10000000 /\ Rabs (Q2R (el_ndot el)) <= 99999999 / 100000000
  /\ 0 < Q2R (el_motion el) < 9999 / 100
  /\ five_digits (Q2R (el_bstar el)) /\ five_digits (Q2R (el_nddot el)).

(** Epochs from 1957 to 2056, in microseconds since 1949-12-31. *)
Definition in_window (t : Z) : Prop := (2558 * 86400000000 <= t < 39083 * 86400000000)%Z.

(** Readings of the printed orbit. *)
Record reads_orbit (v : list pystr) (inc raan argp ecc mo n : R) : Prop := {
  ro_count : get_tle_count v = 1%nat;
  ro_inc : reads (get_inclination v 0) inc (1 / 20000);
  ro_raan : reads (get_raan v 0) raan (1 / 20000);
  ro_argp : reads (get_perigee_argument v 0) argp (1 / 20000);
  ro_mo : reads (Tle_Model.get_mean_anomaly v 0) mo (1 / 20000);
  ro_ecc : reads (get_eccentricity v 0) ecc (1 / 20000000);
  ro_no : reads (Tle_Model.get_mean_motion v 0) n (1 / 200000000);
  ro_drag : reads (get_b_star v 0) 0 0 /\ reads (get_second_derivative v 0) 0 0 /\ reads (get_first_derivative v 0) 0 (1 / 200000000);
  ro_name : get_catalog_number v 0 = Ok 0%Z /\ get_classification v 0 = Ok 85%Z
}.

(** The numbers printed in a list of lines, pair by pair. *)
Inductive shows : list pystr -> list elements -> Prop :=
| shows_nil : shows [] []
| shows_cons a b r el els : prints a b el -> elements_ok el -> shows r els -> shows (a :: b :: r) (el :: els).
(** Readings of the i-th pair after a change of anomaly and node. *)
Record reads_changed (w : list pystr) (i : nat) (el : elements) (dm draan : R) : Prop := {
  rc_inc : reads (get_inclination w i) (Q2R (el_incl el)) (1 / 20000);
  rc_raan : reads_angle (get_raan w i) (Q2R (el_raan el) + draan) (1 / 20000);
  rc_argp : reads (get_perigee_argument w i) (Q2R (el_argp el)) (1 / 20000);
  rc_mo : reads_angle (Tle_Model.get_mean_anomaly w i) (Q2R (el_anomaly el) + dm) (1 / 20000);
  rc_ecc : reads (get_eccentricity w i) (Q2R (el_ecc el)) (1 / 20000000);
  rc_no : reads (Tle_Model.get_mean_motion w i) (Q2R (el_motion el)) (1 / 200000000);
  rc_bstar : reads (get_b_star w i) (Q2R (el_bstar el)) (Q2R (el_bstar el) / 10000);
  rc_ndot : reads (get_first_derivative w i) (Q2R (el_ndot el)) (1 / 200000000);
  rc_nddot : reads (get_second_derivative w i) (Q2R (el_nddot el)) (Q2R (el_nddot el) / 10000)
}.
