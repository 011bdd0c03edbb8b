(** Model of the train and Walker constellations (src/tatc/schemas/satellite.py:47-263)
    and of the member naming helper (src/tatc/utils.py:1193-1206). *)
From Coq Require Import Reals ZArith List Bool.
From Verif Require Import Base RBase Tle_Model Orbit_Model.
Import ListNotations.
Open Scope Z_scope.

(** ** Names *)
(** Decimal digits of a non-negative integer, most significant first (Python [str] of an int,
    called at utils.py:1205-1206).  The fuel bounds the number of digits. *)
Fixpoint dec_fuel (f : nat) (n : Z) : pystr :=
  match f with
  | O => []
  | S f' => if n <? 10 then [48 + n] else dec_fuel f' (n / 10) ++ [48 + n mod 10]
  end.
(** Python [str(n)] for an int (utils.py:1205-1206). *)
Definition py_str (n : Z) : pystr :=
  if n <? 0 then 45 :: dec_fuel (S (Z.to_nat (Z.log2 (- n)))) (- n)
  else dec_fuel (S (Z.to_nat (Z.log2 n))) n.
(** Python [s.zfill(w)] (utils.py:1206): zeros are inserted after a leading sign. *)
Definition zfill (w : nat) (s : pystr) : pystr :=
  let pad := repeat 48 (w - length s) in
  match s with
  | c :: r => if (c =? 43) || (c =? 45) then c :: pad ++ r else pad ++ s
  | [] => pad
  end.
(** utils.zero_pad, utils.py:1193-1206. *)
Definition zero_pad (object_name : pystr) (max_number current_number : Z) : pystr :=
  object_name ++ [32] ++ zfill (length (py_str max_number)) (py_str current_number).

(** ** Lead orbits *)
(** The orbit types allowed in a constellation, satellite.py:40-42, 74-76, 153-155.  For two-line
    elements: the mean motion read from the first pair and the decoded element sets. *)
Inductive lead :=
| LCirc (c : circular) | LSso (s : sso) | LKep (k : keplerian) | LTle (mean_motion : R) (l : list elset).

Section Members.
Context {I : Type}.
(** The Sun's right ascension, as in Orbit_Model (orbit.py:858-866). *)
Variable sun_ra : Z -> R.

(** get_mean_motion of each orbit type, orbit.py:256-267 and 732-739. *)
Definition lead_mean_motion (o : lead) : pyres R :=
  match o with
  | LCirc c => get_mean_motion (c_alt c)
  | LSso s => get_mean_motion (s_alt s)
  | LKep k => get_mean_motion (c_alt (k_circ k))
  | LTle n _ => Ok n
  end.
(** get_derived_orbit of each orbit type, orbit.py:336-376, 764-788, 874-901, 953-980. *)
Definition lead_derived (o : lead) (dm draan : R) : pyres lead :=
  match o with
  | LCirc c => bind (circ_derived c dm draan) (fun x => Ok (LCirc x))
  | LSso s => bind (sso_derived sun_ra s dm draan) (fun x => Ok (LCirc x))
  | LKep k => bind (kep_derived k dm draan) (fun x => Ok (LKep x))
  | LTle n l => Ok (LTle n (tle_derived l dm draan))
  end.

(** One member satellite (satellite.py:119-129, 249-263): name, orbit, instruments.  Deep copies
    are equal values; aliasing between members is in Share_Model. *)
Record member := mk_member { mb_name : pystr; mb_orbit : lead; mb_instruments : list I }.

(** ** Train, satellite.py:66-129 *)
(** Fields of TrainConstellation, satellite.py:71-85; the interval is in microseconds. *)
Record train := mk_train { tr_name : pystr; tr_orbit : lead; tr_instruments : list I;
  tr_number : nat; tr_interval : Z; tr_repeat : bool }.
(** number_satellites: ge=1, satellite.py:77-79. *)
Definition train_valid (t : train) : bool := (1 <=? tr_number t)%nat.
(** get_delta_mean_anomaly, satellite.py:89-98. *)
Definition train_dm (t : train) : pyres R :=
  bind (lead_mean_motion (tr_orbit t)) (fun n => Ok (-360 * n * (IZR (tr_interval t) / IZR DAY_US))%R).
(** get_delta_raan, satellite.py:100-110. *)
Definition train_draan (t : train) : R :=
  if tr_repeat t then (360 * (IZR (tr_interval t) / IZR DAY_US))%R else 0%R.
(** generate_members, satellite.py:112-129. *)
Definition train_members (t : train) : pyres (list member) :=
  mapM (fun i =>
    bind (train_dm t) (fun dm =>
    bind (lead_derived (tr_orbit t) (INR i * dm) (INR i * train_draan t)) (fun o =>
      Ok (mk_member (zero_pad (tr_name t) (Z.of_nat (tr_number t)) (Z.of_nat i + 1)) o (tr_instruments t)))))
    (seq 0 (tr_number t)).

(** ** Walker, satellite.py:141-263 *)
(** WalkerConfiguration, satellite.py:132-138. *)
Inductive wconfig := Delta | Star.
(** Fields of WalkerConstellation, satellite.py:145-172. *)
Record walker := mk_walker { w_name : pystr; w_orbit : lead; w_instruments : list I;
  w_config : wconfig; w_number : Z; w_planes : Z; w_spacing : Z }.
(** Construction: field bounds (satellite.py:156-172) then the validators in order
    (satellite.py:174-198); pydantic turns their ValueError into ValidationError. *)
Definition make_walker (w : walker) : pyres walker :=
  if (1 <=? w_number w) && (1 <=? w_planes w) && (0 <=? w_spacing w) then
    if w_number w <? w_planes w then Raise ValidationError
    else if w_planes w <=? w_spacing w then Raise ValidationError
    else Ok w
  else Raise ValidationError.
(** get_satellites_per_plane, satellite.py:200-207.  [math.ceil] of the exact quotient (the float
    division is exact enough below 2**53). *)
Definition per_plane (w : walker) : Z := - ((- w_number w) / w_planes w).
(** get_delta_mean_anomaly_within_planes, satellite.py:209-217. *)
Definition dm_within (w : walker) : R := (360 / IZR (per_plane w))%R.
(** get_delta_mean_anomaly_between_planes, satellite.py:219-227. *)
Definition dm_between (w : walker) : R := (360 * IZR (w_spacing w) / IZR (w_number w))%R.
(** get_delta_raan_between_planes, satellite.py:229-239. *)
Definition draan_between (w : walker) : R :=
  match w_config w with Delta => (360 / IZR (w_planes w))%R | Star => (180 / IZR (w_planes w))%R end.
(** generate_members, satellite.py:241-263. *)
Definition walker_members (w : walker) : pyres (list member) :=
  mapM (fun n =>
    let i := Z.of_nat n in
    bind (lead_derived (w_orbit w)
            (IZR (i mod per_plane w) * dm_within w + IZR (i / per_plane w) * dm_between w)
            (IZR (i / per_plane w) * draan_between w)) (fun o =>
      Ok (mk_member (zero_pad (w_name w) (w_number w) (i + 1)) o (w_instruments w))))
    (seq 0 (Z.to_nat (w_number w))).
(** Satellite.generate_members, satellite.py:56-63. *)
Definition satellite_members (m : member) : list member := [m].
End Members.
