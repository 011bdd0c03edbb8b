(** Model of src/tatc/analysis/ro_coverage.py: radio occultation observations. *)
From Coq Require Import Reals ZArith List Bool.
From Verif Require Import Base RBase RTrig Mog_Model Instr_Model.
Import ListNotations.
Open Scope R_scope.

(** Subtraction of two position or velocity vectors, ro_coverage.py:38, 41, 98, 101, 105. *)
Definition v_sub (a b : v3) : v3 := V3 (v_x a - v_x b) (v_y a - v_y b) (v_z a - v_z b).
(** One time sample of a propagated orbit (get_orbit_track, ro_coverage.py:35 and 224): position (m)
    and velocity (m/s). *)
Record pv := mk_pv { pv_pos : v3; pv_vel : v3 }.
(** skyfield's geographic position: longitude and latitude (degrees) and elevation (m),
    ro_coverage.py:139. *)
Record geo := mk_geo { g_lon : R; g_lat : R; g_elev : R }.

(** rx_tx_pv, ro_coverage.py:38. *)
Definition rx_tx_pv (rx tx : pv) : pv := mk_pv (v_sub (pv_pos tx) (pv_pos rx)) (v_sub (pv_vel tx) (pv_vel rx)).
(** tp_p, ro_coverage.py:41-48 (one column of the array).  A transmitter at the receiver's own position
    gives NaN in Python; the theorems exclude it. *)
Definition tp_p (rx tx : pv) : v3 :=
  let d := pv_pos (rx_tx_pv rx tx) in v_sub (pv_pos tx) (v_scale (v_dot (pv_pos tx) d / v_dot d d) d).
(** tp_v, ro_coverage.py:55-95. *)
Definition tp_v (rx tx : pv) : v3 :=
  let d := pv_pos (rx_tx_pv rx tx) in
  let w := pv_vel (rx_tx_pv rx tx) in
  v_sub (v_sub (pv_vel tx) (v_scale (v_dot (pv_pos tx) d / v_dot d d) w))
        (v_scale ((v_dot (pv_vel tx) d + v_dot (pv_pos tx) w) / v_dot d d
                  - 2 * ((v_dot w d * v_dot (pv_pos tx) d) / (v_dot d d) ^ 2)) d).
(** The argument of np.sign, ro_coverage.py:97-99; np.sign(x) < 0 is x < 0. *)
Definition tp_product (rx tx : pv) : R :=
  v_dot (v_sub (tp_p rx tx) (pv_pos tx)) (v_sub (tp_p rx tx) (pv_pos rx)).

(** rx_v_u, ro_coverage.py:226-228. *)
Definition rx_v_u (rx : pv) : v3 := v_scale (/ v_norm (pv_vel rx)) (pv_vel rx).
(** rx_n_u, ro_coverage.py:230-231. *)
Definition rx_n_u (rx : pv) : v3 :=
  let n := v_cross (pv_pos rx) (pv_vel rx) in v_scale (/ v_norm n) n.
(** rx_b_u, ro_coverage.py:233. *)
Definition rx_b_u (rx : pv) : v3 := v_scale (/ v_norm (pv_pos rx)) (pv_pos rx).
(** Removal of the component along a unit vector, ro_coverage.py:101-107. *)
Definition off_axis (u d : v3) : v3 := v_sub d (v_scale (v_dot u d) u).
(** rx_tx_pitch, ro_coverage.py:101-103 and 109-114. *)
Definition rx_tx_pitch (rx tx : pv) : R :=
  let q := off_axis (rx_n_u rx) (pv_pos (rx_tx_pv rx tx)) in
  degrees (arctan2 (v_dot q (rx_b_u rx)) (v_dot q (rx_v_u rx))).
(** rx_tx_yaw, ro_coverage.py:105-107 and 116-121. *)
Definition rx_tx_yaw (rx tx : pv) : R :=
  let q := off_axis (rx_b_u rx) (pv_pos (rx_tx_pv rx tx)) in
  degrees (arctan2 (v_dot q (rx_n_u rx)) (v_dot q (rx_v_u rx))).
(** np.abs(rx_tx_yaw) % (180 - max_yaw) < max_yaw, ro_coverage.py:127.  numpy's remainder by zero is
    NaN, which compares false. *)
Definition yaw_ok (max_yaw yaw : R) : bool :=
  if Req_EM_T (180 - max_yaw) 0 then false else Rltb (rmod (Rabs yaw) (180 - max_yaw)) max_yaw.
(** valid, ro_coverage.py:127. *)
Definition ro_valid (max_yaw : R) (rx tx : pv) : bool :=
  Rltb (tp_product rx tx) 0 && yaw_ok max_yaw (rx_tx_yaw rx tx).

(** An entry of occ_arc["points"], ro_coverage.py:161-169. *)
Record opoint := mk_opoint { op_time : Z; op_tp : geo; op_pitch : R; op_yaw : R; op_azimuth : R }.
(** occ_arc, ro_coverage.py:147-151. *)
Record arc := mk_arc { arc_tx : Z; arc_rising : bool; arc_points : list opoint }.

(** One column of the arrays computed before the loop, together with the two values computed in the
    loop body (they depend on the column only). ro_coverage.py:24-178. *)
Record column := mk_column { c_valid : bool; c_point : opoint }.

(** is_event[j] = np.diff(valid)[j] (exclusive or on booleans), ro_coverage.py:129, read at line 170 only
    for j + 1 < len(times). *)
Definition is_event (l : list bool) (j : nat) : bool := xorb (nth j l false) (nth (S j) l false).
(** The body of the loop, ro_coverage.py:131-177, acting on (occ_obs, occ_arc). *)
Definition loop_body (name : Z) (lo hi : R) (cols : list column) (dflt : column)
    (s : list arc * option arc) (j : nat) : list arc * option arc :=
  let '(occ_obs, occ_arc) := s in
  let c := nth j cols dflt in
  let h := g_elev (op_tp (c_point c)) in
  if Rltb lo h && Rltb h hi then
    let a := match occ_arc with
             | None => mk_arc name (Rltb (-90) (op_pitch (c_point c))) []
             | Some a => a
             end in
    let a := mk_arc (arc_tx a) (arc_rising a) (arc_points a ++ [c_point c]) in
    if (length cols <=? S j)%nat || is_event (map c_valid cols) j then (occ_obs ++ [a], None)
    else (occ_obs, Some a)
  else match occ_arc with
       | Some a => (occ_obs ++ [a], None)
       | None => (occ_obs, None)
       end.
(** The loop over np.nonzero(valid)[0], ro_coverage.py:122-178. *)
Definition ro_arcs (name : Z) (lo hi : R) (cols : list column) (dflt : column) : list arc :=
  fst (fold_left (loop_body name lo hi cols dflt)
         (filter (fun j => nth j (map c_valid cols) false) (seq 0 (length cols))) ([], None)).

Section Sky.
(** wgs84.geographic_position_of(Geocentric(position, velocity, time)), ro_coverage.py:133-139 (skyfield;
    an arbitrary function here). *)
Variable geographic_position_of : v3 -> v3 -> Z -> geo.
(** The azimuth of transmitter [name] seen from a geographic position at a time, ro_coverage.py:154-159
    (skyfield; an arbitrary function here). *)
Variable azimuth_of : Z -> geo -> Z -> R.
(** get_orbit_track of a satellite, ro_coverage.py:35 and 224 (sgp4 and skyfield; an arbitrary function
    of the satellite and the time here).  Satellites are identified by a number that stands for the
    object and its name. *)
Variable track : Z -> Z -> pv.

(** The columns of the arrays, ro_coverage.py:35-127, and of the values computed at 133-159. *)
Definition ro_column (receiver transmitter : Z) (max_yaw : R) (t : Z) : column :=
  let rx := track receiver t in
  let tx := track transmitter t in
  let g := geographic_position_of (tp_p rx tx) (tp_v rx tx) t in
  mk_column (ro_valid max_yaw rx tx)
    (mk_opoint t g (rx_tx_pitch rx tx) (rx_tx_yaw rx tx) (azimuth_of transmitter g t)).
(** _collect_ro_series, ro_coverage.py:24-178. *)
Definition collect_ro_series (receiver transmitter : Z) (times : list Z) (max_yaw lo hi : R) : list arc :=
  ro_arcs transmitter lo hi (map (ro_column receiver transmitter max_yaw) times)
    (ro_column receiver transmitter max_yaw 0%Z).

(** min(range(len(points)), key=...), ro_coverage.py:286-292: the first index with the least key.
    [best] is the best index so far. *)
Fixpoint argmin (key : nat -> R) (best : nat) (l : list nat) : nat :=
  match l with
  | [] => best
  | i :: r => argmin key (if Rltb (key i) (key best) then i else best) r
  end.
(** A row of the returned frame, ro_coverage.py:259-284 (Point and MultiPoint as their coordinates). *)
Record ro_row := mk_ro_row { rr_receiver : Z; rr_transmitter : Z; rr_rising : bool; rr_geometry : list (R * R * R);
  rr_position : R * R * R; rr_pitch : R; rr_yaw : R; rr_azimuth : R; rr_start : Z; rr_end : Z; rr_time : Z }.
(** The coordinates of a tangent point, ro_coverage.py:265-269 and 273-277. *)
Definition coords (p : opoint) : R * R * R := (g_lon (op_tp p), g_lat (op_tp p), g_elev (op_tp p)).
(** The row of one observation, ro_coverage.py:259-293.  Python raises (min of an empty range) on an
    observation without points. *)
Definition ro_row_of (receiver : Z) (sample_elevation : R) (o : arc) : pyres ro_row :=
  match arc_points o with
  | [] => Raise ValueError
  | p0 :: _ =>
      let key := fun i => Rabs (g_elev (op_tp (nth i (arc_points o) p0)) - sample_elevation) in
      let si := argmin key 0%nat (seq 1 (length (arc_points o) - 1)) in
      let p := nth si (arc_points o) p0 in
      Ok (mk_ro_row receiver (arc_tx o) (arc_rising o) (map coords (arc_points o)) (coords p)
            (op_pitch p) (op_yaw p) (op_azimuth p) (op_time p0) (op_time (last (arc_points o) p0)) (op_time p))
  end.
(** sort_values("time"), ro_coverage.py:296. *)
Variable srt : list ro_row -> list ro_row.
(** collect_ro_observations, ro_coverage.py:204-296; the empty frame of lines 181-201 is the empty list.
    The caller's single transmitter (line 249) is the one-element list. *)
Definition collect_ro_observations (receiver : Z) (transmitters times : list Z)
    (sample_elevation max_yaw lo hi : R) : pyres (list ro_row) :=
  let obs := flat_map (fun tx => collect_ro_series receiver tx times max_yaw lo hi) transmitters in
  match obs with
  | [] => Ok []
  | _ => bind (mapM (ro_row_of receiver sample_elevation) obs) (fun rows => Ok (srt rows))
  end.
End Sky.
