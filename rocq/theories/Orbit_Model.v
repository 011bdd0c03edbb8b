(** Model of the orbit schemas (src/tatc/schemas/orbit.py:269-376, 692-1183) and the
    anomaly conversions (src/tatc/utils.py:36-79), over exact real numbers.
    Epochs are integer microseconds since 1949-12-31T00:00Z. *)
From Coq Require Import Reals ZArith List Bool.
From Verif Require Import Base RBase.
Import ListNotations.
Open Scope R_scope.

(** NaN-propagating inverse cosine (np.arccos outside [-1,1] is NaN = None). *)
Definition np_arccos (x : R) : option R :=
  if Rleb (-1) x && Rleb x 1 then Some (acos x) else None.

(** utils.py:36-55. *)
Definition mean_anomaly_to_true_anomaly (m e : R) : R :=
  let r := radians m in
  degrees (r + (2 * e - 1 / 4 * e ^ 3) * sin r + 5 / 4 * e ^ 2 * sin (2 * r)
             + 13 / 12 * e ^ 3 * sin (3 * r)).
(** utils.py:58-79. *)
Definition true_anomaly_to_mean_anomaly (nu e : R) : R :=
  let r := radians nu in
  degrees (r - 2 * e * sin r + (3 / 4 * e ^ 2 + 1 / 8 * e ^ 4) * sin (2 * r)
             - 1 / 3 * e ^ 3 * sin (3 * r) + 5 / 32 * e ^ 4 * sin (4 * r)).

(** pydantic [ge=0, lt=b]. orbit.py:708, 759-762, 936-942. *)
Definition in_bound (b x : R) : bool := Rleb 0 x && Rltb x b.
(** A failed field constraint, orbit.py:707-712. *)
Definition guard {A} (c : bool) (e : exn) (v : A) : pyres A := if c then Ok v else Raise e.

(** ** Circular orbits, orbit.py:702-815 *)
Record circular := mk_circ { c_alt : R; c_nu : R; c_epoch : Z; c_inc : R; c_raan : R }.
(** Field bounds, orbit.py:707-712 and 759-762. *)
Definition circ_valid (c : circular) : bool :=
  in_bound 360 (c_nu c) && in_bound 180 (c_inc c) && in_bound 360 (c_raan c).
(** The validating constructor CircularOrbit(...). orbit.py:751-762. *)
Definition make_circular (c : circular) : pyres circular := guard (circ_valid c) ValidationError c.
(** OrbitBase.get_mean_anomaly, orbit.py:714-721. *)
Definition circ_mean_anomaly (c : circular) : R := true_anomaly_to_mean_anomaly (c_nu c) 0.
(** CircularOrbit.get_derived_orbit, orbit.py:764-788. *)
Definition circ_derived (c : circular) (dm draan : R) : pyres circular :=
  make_circular (mk_circ (c_alt c)
    (mean_anomaly_to_true_anomaly (rmod (circ_mean_anomaly c + dm) 360) 0)
    (c_epoch c) (c_inc c) (rmod (c_raan c + draan) 360)).

(** utils.compute_orbit_period, utils.py:253-266 (None: NaN or division by zero when
    the semimajor axis is not positive). *)
Definition compute_orbit_period (alt : R) : option R :=
  let a := EARTH_MEAN_RADIUS + alt in
  if Rltb 0 a then Some (2 * PI / sqrt (EARTH_MU / a ^ 3)) else None.
(** timedelta(seconds=x) in microseconds; Python's OverflowError for more than
    999999999 days is not modelled. orbit.py:279, 748. *)
Definition timedelta_seconds (x : R) : Z := round_half_even (x * 1000000).
(** OrbitBase.get_orbit_period, orbit.py:741-748. *)
Definition get_orbit_period (alt : R) : pyres Z :=
  match compute_orbit_period alt with
  | Some p => Ok (timedelta_seconds p)
  | None => Raise ValueError
  end.
(** One day in microseconds, orbit.py:849-872. *)
Definition DAY_US : Z := 86400000000.
(** OrbitBase.get_mean_motion (revolutions per day), orbit.py:732-739. *)
Definition get_mean_motion (alt : R) : pyres R :=
  bind (get_orbit_period alt) (fun p =>
    if Z.eqb p 0 then Raise ZeroDivisionError else Ok (1 / (IZR p / IZR DAY_US))).

(** ** Sun-synchronous orbits, orbit.py:818-928 *)
(** [s_ect]: equator crossing time in microseconds after midnight. orbit.py:818-836. *)
Record sso := mk_sso { s_alt : R; s_nu : R; s_epoch : Z; s_ect : Z; s_asc : bool }.
(** Field bounds, orbit.py:707-712, 824-829, and Python's [time] range. *)
Definition sso_valid (s : sso) : bool :=
  in_bound 360 (s_nu s) && in_bound (12352000 - EARTH_MEAN_RADIUS) (s_alt s)
  && (0 <=? s_ect s)%Z && (s_ect s <? DAY_US)%Z.
(** get_inclination, orbit.py:838-847. *)
Definition sso_inclination (s : sso) : option R :=
  option_map degrees (np_arccos (- Rpower ((EARTH_MEAN_RADIUS + s_alt s) / 12352000) (7 / 2))).
Section Sun.
(** The Sun's right ascension (degrees) at an epoch: skyfield and the de421 ephemeris. *)
Variable sun_ra : Z -> R.
(** get_right_ascension_ascending_node, orbit.py:849-872. *)
Definition sso_raan (s : sso) : R :=
  rmod (sun_ra (s_epoch s) + 360 * (IZR (s_ect s) / IZR DAY_US) + 180 * (if s_asc s then 1 else 0)) 360.
(** get_derived_orbit, orbit.py:874-901.  A NaN inclination fails the field bounds. *)
Definition sso_derived (s : sso) (dm draan : R) : pyres circular :=
  match sso_inclination s with
  | None => Raise ValidationError
  | Some inc =>
      make_circular (mk_circ (s_alt s)
        (mean_anomaly_to_true_anomaly (rmod (true_anomaly_to_mean_anomaly (s_nu s) 0 + dm) 360) 0)
        (s_epoch s) inc (rmod (sso_raan s + draan) 360))
  end.
End Sun.

(** ** Keplerian orbits, orbit.py:931-1019 *)
Record keplerian := mk_kep { k_circ : circular; k_ecc : R; k_argp : R }.
(** The field constraints of KeplerianOrbit, orbit.py:931-942. *)
Definition kep_valid (k : keplerian) : bool :=
  circ_valid (k_circ k) && Rleb 0 (k_ecc k) && in_bound 360 (k_argp k).
(** The validating constructor KeplerianOrbit(...), orbit.py:931-942. *)
Definition make_keplerian (k : keplerian) : pyres keplerian := guard (kep_valid k) ValidationError k.
(** get_mean_anomaly, orbit.py:944-951. *)
Definition kep_mean_anomaly (k : keplerian) : R := true_anomaly_to_mean_anomaly (c_nu (k_circ k)) (k_ecc k).
(** get_derived_orbit, orbit.py:953-980. *)
Definition kep_derived (k : keplerian) (dm draan : R) : pyres keplerian :=
  let c := k_circ k in
  make_keplerian (mk_kep (mk_circ (c_alt c)
      (mean_anomaly_to_true_anomaly (rmod (kep_mean_anomaly k + dm) 360) (k_ecc k))
      (c_epoch c) (c_inc c) (rmod (c_raan c + draan) 360))
    (k_ecc k) (k_argp k)).

(** ** Molniya and Tundra orbits, orbit.py:1022-1183 *)
(** [m_ecc] is Some for a Tundra orbit (the [eccentricity] field) and None for a
    Molniya orbit (no such field). orbit.py:1022-1035, 1140-1151. *)
Record molniya := mk_mol { m_circ : circular; m_period : R; m_argp : R; m_ecc : option R }.
(** Their field constraints, orbit.py:1022-1035, 1140-1151. *)
Definition mol_valid (m : molniya) : bool :=
  circ_valid (m_circ m) && Rltb 0 (m_period m) && in_bound 360 (m_argp m)
  && match m_ecc m with Some e => Rleb 0 e | None => true end.
(** Their validating constructor, orbit.py:1022-1035, 1140-1151. *)
Definition make_molniya (m : molniya) : pyres molniya := guard (mol_valid m) ValidationError m.
(** gravitational_constant * earth_mass = 6.6743e-11 * 5.9736e24, orbit.py:1037-1046. *)
Definition GM : R := 398695984800000.
(** get_semimajor_axis, orbit.py:1037-1046 (the argument of cbrt is positive). *)
Definition mol_semimajor (m : molniya) : R := Rpower (GM * m_period m ^ 2 / (4 * PI ^ 2)) (1 / 3).
(** get_eccentricity, orbit.py:1048-1058 and 1153-1154. *)
Definition mol_eccentricity (m : molniya) : R :=
  match m_ecc m with
  | Some e => e
  | None => (mol_semimajor m - (c_alt (m_circ m) + EARTH_EQUATORIAL_RADIUS)) / mol_semimajor m
  end.
(** get_mean_anomaly, orbit.py:1060-1069. *)
Definition mol_mean_anomaly (m : molniya) : R :=
  true_anomaly_to_mean_anomaly (c_nu (m_circ m)) (mol_eccentricity m).
(** Default periods, orbit.py:1032 and 1147. *)
Definition default_period (m : molniya) : R := match m_ecc m with Some _ => 86400 | None => 43080 end.
(** get_derived_orbit, orbit.py:1071-1098 and 1156-1183: the [orbital_period] argument
    is not passed on; the [eccentricity] argument is ignored by MolniyaOrbit. *)
Definition mol_derived (m : molniya) (dm draan : R) : pyres molniya :=
  let c := m_circ m in
  make_molniya (mk_mol (mk_circ (c_alt c)
      (mean_anomaly_to_true_anomaly (rmod (mol_mean_anomaly m + dm) 360) (mol_eccentricity m))
      (c_epoch c) (c_inc c) (rmod (c_raan c + draan) 360))
    (default_period m) (m_argp m) (m_ecc m)).
(** get_orbit_period, inherited from OrbitBase (orbit.py:741-748). *)
Definition mol_orbit_period (m : molniya) : pyres Z := get_orbit_period (c_alt (m_circ m)).

(** ** Element sets handed to SGP4 *)
(** The numeric arguments of Satrec.sgp4init: epoch (days), drag terms, eccentricity,
    argument of perigee, inclination, mean anomaly, mean motion (radians, minutes), node.
    orbit.py:798-811, 911-924, 990-1015, 1108-1133. *)
Record elset := mk_elset { e_epoch : R; e_bstar : R; e_ndot : R; e_nddot : R; e_ecc : R; e_argp : R;
  e_inc : R; e_mo : R; e_no : R; e_node : R }.
(** KeplerianOrbit.to_tle before the export, orbit.py:999-1014. *)
Definition kep_elset (k : keplerian) : pyres elset :=
  let c := k_circ k in
  bind (get_mean_motion (c_alt c)) (fun n =>
    Ok (mk_elset (IZR (c_epoch c) / IZR DAY_US) 0 0 0 (k_ecc k) (radians (k_argp k)) (radians (c_inc c))
          (radians (kep_mean_anomaly k)) (n * 2 * PI / 1440) (radians (c_raan c)))).
(** MolniyaOrbit.to_tle before the export, orbit.py:1117-1132. *)
Definition mol_elset (m : molniya) : elset :=
  let c := m_circ m in
  mk_elset (IZR (c_epoch c) / IZR DAY_US) 0 0 0 (mol_eccentricity m) (radians (m_argp m)) (radians (c_inc c))
    (radians (mol_mean_anomaly m)) (2 * PI / (m_period m / 60)) (radians (c_raan c)).
(** TwoLineElements.get_derived_orbit on the decoded element sets, orbit.py:352-375.
    twoline2rv and export_tle (decoding, printing) are not modelled. *)
Definition tle_derived (l : list elset) (dm draan : R) : list elset :=
  map (fun s => mk_elset (e_epoch s) (e_bstar s) (e_ndot s) (e_nddot s) (e_ecc s) (e_argp s) (e_inc s)
                  (rmod (e_mo s + radians dm) (2 * PI)) (e_no s) (rmod (e_node s + radians draan) (2 * PI))) l.

(** TwoLineElements.get_orbit_period, orbit.py:269-279, of a mean motion (rev/day). *)
Definition tle_orbit_period (n : R) : Z := round_half_even (1 / n * IZR DAY_US).
(** TwoLineElements.get_semimajor_axis, orbit.py:294-308. *)
Definition tle_semimajor (n : R) : R := Rpower (EARTH_MU / (n * 2 * PI / 86400) ^ 2) (1 / 3).
(** TwoLineElements.get_altitude, orbit.py:310-320. *)
Definition tle_altitude (n : R) : R := tle_semimajor n - EARTH_MEAN_RADIUS.

(** ** Lazily loaded conversion: to_tle, orbit.py:790-815, 903-928, 982-1019, 1100-1137 *)
Section ToTle.
Context {F T : Type}.
(** Conversion of the current field values. *)
Variable conv : F -> pyres T.
(** config.rc.orbit_tle_lazy_load. *)
Variable rc_lazy : bool.
(** The object: its fields and its __dict__ entry, orbit.py:790-815. *)
Record object := mk_object { fields : F; tle_cache : option T }.
(** to_tle, orbit.py:790-815 (and 903-928, 982-1019, 1100-1137). *)
Definition to_tle (lazy : option bool) (o : object) : object * pyres T :=
  let lz := match lazy with Some b => b | None => rc_lazy end in
  match (if lz then tle_cache o else None) with
  | Some t => (o, Ok t)
  | None => match conv (fields o) with
            | Ok t => (mk_object (fields o) (Some t), Ok t)
            | Raise e => (o, Raise e)
            end
  end.
(** Field assignment on the (mutable, not revalidating) pydantic model. orbit.py:707-712. *)
Inductive obj_action := SetFields (f : F) | ToTle (lazy : option bool).
(** A history of assignments and to_tle calls, orbit.py:790-815. *)
Fixpoint run_obj (o : object) (l : list obj_action) : list (pyres T) :=
  match l with
  | [] => []
  | SetFields f :: r => run_obj (mk_object f (tle_cache o)) r
  | ToTle lz :: r => let (o', a) := to_tle lz o in a :: run_obj o' r
  end.
End ToTle.

Section Export.
Context {T : Type}.
(** exporter.export_tle followed by TwoLineElements(...). *)
Variable export : elset -> pyres T.
Variable rc_lazy : bool.
(** KeplerianOrbit conversion, orbit.py:998-1018. *)
Definition kep_conv (k : keplerian) : pyres T := bind (kep_elset k) export.
(** CircularOrbit conversion through a fresh KeplerianOrbit, orbit.py:806-813. *)
Definition circ_conv (c : circular) : pyres T :=
  bind (make_keplerian (mk_kep c 0 0)) (fun k =>
    snd (to_tle kep_conv rc_lazy None (mk_object k None))).
(** SunSynchronousOrbit conversion, orbit.py:919-926. *)
Definition sso_conv (sun_ra : Z -> R) (s : sso) : pyres T :=
  match sso_inclination s with
  | None => Raise ValidationError
  | Some inc =>
      bind (make_keplerian (mk_kep (mk_circ (s_alt s) (s_nu s) (s_epoch s) inc (sso_raan sun_ra s)) 0 0))
        (fun k => snd (to_tle kep_conv rc_lazy None (mk_object k None)))
  end.
(** MolniyaOrbit / TundraOrbit conversion, orbit.py:1116-1136. *)
Definition mol_conv (m : molniya) : pyres T := export (mol_elset m).
End Export.
