(** Model of the conversions between orbits and two-line elements
    (src/tatc/schemas/orbit.py:294-376, 790-815, 903-928, 982-1019, 1100-1137).
    The element sets of Orbit_Model are printed, validated and read by Tle_Model. *)
From Coq Require Import String ZArith QArith Reals Qreals List Bool.
From Verif Require Import Base RBase Tle_Model Orbit_Model.
Import ListNotations.
Open Scope R_scope.

(** s.replace(a, b) for one-character strings, orbit.py:374, 1017, 1135. *)
Definition replace_char (a b : Z) (s : pystr) : pystr := map (fun c => if Z.eqb c a then b else c) s.

Section Sgp4.
(** sat_epoch_datetime(Satrec.twoline2rv(l1, l2)), in microseconds since 1949-12-31. *)
Variable epoch : pystr -> pystr -> pyres Z.
(** Satrec().sgp4init(WGS72, "i", satnum, ...) followed by exporter.export_tle. *)
Variable export_tle : Z -> elset -> pyres (pystr * pystr).
(** Satrec.twoline2rv: the numbers decoded from two lines (its epoch is not used). *)
Variable twoline2rv : pystr -> pystr -> pyres elset.

(** sgp4init with satellite number 0, export, and the classification put in place of
    the missing one. orbit.py:355-374, 998-1017, 1116-1135. *)
Definition print_elset (s : elset) : pyres (pystr * pystr) :=
  bind (export_tle 0 s) (fun l => Ok (replace_char 0 85 (fst l), snd l)).
(** TwoLineElements(tle=[tle1.replace(...), tle2]), orbit.py:1016-1017, 1134-1135. *)
Definition new_tle (s : elset) : pyres (list pystr) :=
  bind (print_elset s) (fun l => construct_tle epoch [fst l; snd l]).

(** The arguments of sgp4init in TwoLineElements.get_derived_orbit, orbit.py:356-372. *)
Definition shifted (t : Z) (s : elset) (dm draan : R) : elset :=
  mk_elset (IZR t / IZR DAY_US) (e_bstar s) (e_ndot s) (e_nddot s) (e_ecc s) (e_argp s) (e_inc s)
    (rmod (e_mo s + radians dm) (2 * PI)) (e_no s) (rmod (e_node s + radians draan) (2 * PI)).
(** The loop of TwoLineElements.get_derived_orbit, orbit.py:350-375. *)
Fixpoint derive_lines (dm draan : R) (v : list pystr) : pyres (list pystr) :=
  match v with
  | a :: b :: r =>
      bind (twoline2rv a b) (fun s => bind (epoch a b) (fun t =>
      bind (print_elset (shifted t s dm draan)) (fun l =>
      bind (derive_lines dm draan r) (fun w => Ok (fst l :: snd l :: w)))))
  | _ => Ok v
  end.
(** TwoLineElements.get_derived_orbit, orbit.py:336-376. *)
Definition tle_get_derived (v : list pystr) (dm draan : R) : pyres (list pystr) :=
  bind (derive_lines dm draan v) (construct_tle epoch).
End Sgp4.

(** TwoLineElements.get_altitude of the printed mean motion, orbit.py:294-320 (a printed
    mean motion of zero, for which numpy gives infinity, is not modelled). *)
Definition tle_get_altitude (v : list pystr) (i : nat) : pyres R :=
  bind (Tle_Model.get_mean_motion v i) (fun n => Ok (tle_altitude (Q2R n))).
(** TwoLineElements.get_true_anomaly, orbit.py:322-334. *)
Definition tle_get_true_anomaly (v : list pystr) (i : nat) : pyres R :=
  bind (Tle_Model.get_mean_anomaly v i) (fun m => bind (Tle_Model.get_eccentricity v i) (fun e =>
    Ok (mean_anomaly_to_true_anomaly (Q2R m) (Q2R e)))).
(** TwoLineElements.get_orbit_period, orbit.py:269-279 (microseconds). *)
Definition tle_get_orbit_period (v : list pystr) (i : nat) : pyres Z :=
  bind (Tle_Model.get_mean_motion v i) (fun n => Ok (tle_orbit_period (Q2R n))).
