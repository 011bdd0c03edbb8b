(** Specification vocabulary for radio occultation: runs of samples, lines of sight and angles. *)
From Coq Require Import Reals ZArith List Bool Sorting.Sorted.
From Verif Require Import Base Mog_Model Geom_Spec Instr_Spec Ro_Model.
Import ListNotations.
Open Scope R_scope.

(** The [m] samples from number [i] on all have property [P] and no longer stretch of samples around
    them does ([P] is false beyond the last sample). *)
Definition maximal_run (P : nat -> Prop) (i m : nat) : Prop :=
  (0 < m)%nat /\ (forall j, (i <= j < i + m)%nat -> P j) /\ ~ P (i + m)%nat /\ (i = 0%nat \/ ~ P (i - 1)%nat).
(** Stretches listed from the first to the last, with a gap between neighbours. *)
Definition in_order (runs : list (nat * nat)) : Prop :=
  StronglySorted (fun a b => (fst a + snd a < fst b)%nat) runs.

(** Points of the line through two points. *)
Definition on_line (a b p : vec) : Prop := exists s, p = add a (scale s (sub b a)).
(** Strictly between the two points. *)
Definition strictly_between (a b p : vec) : Prop := exists s, 0 < s < 1 /\ p = add a (scale s (sub b a)).
(** The point of the line through [a] and [b] that is closest to the origin. *)
Definition closest_point (a b p : vec) : Prop :=
  on_line a b p /\ forall q, on_line a b q -> dot p p <= dot q q /\ (dot q q = dot p p -> q = p).
(** Differentiability of a moving point. *)
Definition moves_with (x : R -> vec) (t : R) (v : vec) : Prop :=
  derivable_pt_lim (fun s => vx (x s)) t (vx v) /\ derivable_pt_lim (fun s => vy (x s)) t (vy v)
  /\ derivable_pt_lim (fun s => vz (x s)) t (vz v).

(** Within [m] degrees of straight ahead (0) or straight back (180) for an angle in (-180, 180]. *)
Definition near_fore_or_aft (m yaw : R) : Prop := Rabs yaw < m \/ 180 - Rabs yaw < m.
(** [p] is the first element of [l] at the least distance of [h] from [x]. *)
Definition first_closest {A} (h : A -> R) (x : R) (l : list A) (p : A) : Prop :=
  exists l1 l2, l = l1 ++ p :: l2
    /\ (forall q, In q l1 -> Rabs (h p - x) < Rabs (h q - x))
    /\ (forall q, In q l2 -> Rabs (h p - x) <= Rabs (h q - x)).

(** The sample of time [t] belongs to an occultation: the line of sight and the yaw angle are valid and the
    tangent point lies strictly within the range of elevations. *)
Definition sample_ok (gp : v3 -> v3 -> Z -> geo) (track : Z -> Z -> pv) (rx tx : Z) (my lo hi : R) (t : Z) : Prop :=
  ro_valid my (track rx t) (track tx t) = true
  /\ lo < g_elev (gp (tp_p (track rx t) (track tx t)) (tp_v (track rx t) (track tx t)) t) < hi.
(** The same for sample number [j] of a list of times. *)
Definition sample_ok_at gp track rx tx my lo hi (times : list Z) (j : nat) : Prop :=
  exists t, nth_error times j = Some t /\ sample_ok gp track rx tx my lo hi t.
(** What is reported about the sample of time [t]. *)
Definition point_at (gp : v3 -> v3 -> Z -> geo) (az : Z -> geo -> Z -> R) (track : Z -> Z -> pv) (rx tx t : Z) : opoint :=
  let g := gp (tp_p (track rx t) (track tx t)) (tp_v (track rx t) (track tx t)) t in
  mk_opoint t g (rx_tx_pitch (track rx t) (track tx t)) (rx_tx_yaw (track rx t) (track tx t)) (az tx g t).
(** Longitude, latitude and elevation, in the order of a geometry. *)
Definition lon_lat_elev (p : opoint) : R * R * R := let g := op_tp p in (g_lon g, g_lat g, g_elev g).
(** What a row says about its observation. *)
Definition row_matches (receiver : Z) (x : R) (o : arc) (r : ro_row) : Prop :=
  rr_receiver r = receiver /\ rr_transmitter r = arc_tx o /\ rr_rising r = arc_rising o
  /\ rr_geometry r = map lon_lat_elev (arc_points o)
  /\ (exists p, first_closest (fun q => g_elev (op_tp q)) x (arc_points o) p
       /\ rr_position r = lon_lat_elev p /\ rr_pitch r = op_pitch p /\ rr_yaw r = op_yaw p /\ rr_azimuth r = op_azimuth p /\ rr_time r = op_time p)
  /\ (exists p l, arc_points o = p :: l /\ rr_start r = op_time p) /\ (exists p l, arc_points o = l ++ [p] /\ rr_end r = op_time p).

(** The direction [d] is seen at [a] degrees from the axis [x] on the side of the axis [y]. *)
Definition seen_at (d x y : vec) (a : R) : Prop :=
  -180 < a <= 180 /\ exists k, 0 <= k /\ dot d x = k * cos (a * (PI / 180)) /\ dot d y = k * sin (a * (PI / 180)).
(** From the receiver to the transmitter. *)
Definition towards (rx tx : pv) : vec := sub (tov (pv_pos tx)) (tov (pv_pos rx)).
(** The part of the velocity that is perpendicular to the local vertical. *)
Definition horizontal (pos vel : v3) : vec := sub (tov vel) (scale (dot (tov vel) (up pos)) (up pos)).
