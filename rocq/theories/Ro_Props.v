(** Properties of radio occultation analysis: C93-C96, C110, C168. *)
From Coq Require Import Reals ZArith List Bool Lra Lia Sorting.Permutation Sorting.Sorted.
From Verif Require Import Base BaseFacts RBase Mog_Model Geom_Spec Instr_Spec Ro_Model Ro_Spec Ro_Proofs Ro_Proofs2 Ro_Proofs3.
Import ListNotations.
Open Scope R_scope.

(** *** C93 *)
Theorem c93_maximal_arcs : forall gp az track rx tx my lo hi times,
  exists runs, in_order runs
    /\ (forall i m, In (i, m) runs <-> maximal_run (sample_ok_at gp track rx tx my lo hi times) i m)
    /\ map (fun a => (arc_tx a, arc_points a)) (collect_ro_series gp az track rx tx times my lo hi)
       = map (fun r => (tx, map (point_at gp az track rx tx) (firstn (snd r) (skipn (fst r) times)))) runs.
Proof. exact series_lemma. Qed.
Print Assumptions c93_maximal_arcs.
Example c93_witness : let P := sample_ok_at ex_gp ex_track 0 1 65 (-200) 60 [0; 2; 3; 4]%Z in maximal_run P 0 2 /\ maximal_run P 3 1.
Proof. exact ex_runs. Qed.

(** *** C94 *)
Theorem c94_tangent_point : forall rx tx, tov (pv_pos rx) <> tov (pv_pos tx) ->
  closest_point (tov (pv_pos rx)) (tov (pv_pos tx)) (tov (tp_p rx tx))
  /\ (tp_product rx tx < 0 <-> strictly_between (tov (pv_pos rx)) (tov (pv_pos tx)) (tov (tp_p rx tx))).
Proof. exact tp_lemma. Qed.
Print Assumptions c94_tangent_point.
Theorem c94_tangent_velocity : forall rx tx t, tov (pv_pos (rx t)) <> tov (pv_pos (tx t)) ->
  moves_with (fun s => tov (pv_pos (rx s))) t (tov (pv_vel (rx t))) -> moves_with (fun s => tov (pv_pos (tx s))) t (tov (pv_vel (tx t))) ->
  moves_with (fun s => tov (tp_p (rx s) (tx s))) t (tov (tp_v (rx t) (tx t))).
Proof. exact velocity_lemma. Qed.
Print Assumptions c94_tangent_velocity.
Example c94_witness : tov (pv_pos ex_rx) <> tov (pv_pos ex_ahead) /\ tp_product ex_rx ex_ahead < 0
  /\ (forall t, moves_with (fun s => tov (pv_pos (ex_moving s))) t (tov (pv_vel (ex_moving t))))
  /\ forall x t, moves_with (fun s => tov (pv_pos (mk_pv x (V3 0 0 0)))) t (tov (pv_vel (mk_pv x (V3 0 0 0)))).
Proof.
  split; [intro H; apply (f_equal vx) in H; cbn in H; lra|]. split; [rewrite ex_ahead_product; lra|].
  split; [exact ex_moves|exact ex_still].
Qed.

(** *** C95 *)
(** "Valid exactly when the transmitter is within max_yaw of the fore or aft direction" is false: a
    transmitter straight behind is rejected, *)
Theorem c95_straight_behind_refuted : exists rx tx, strictly_between (tov (pv_pos rx)) (tov (pv_pos tx)) (tov (tp_p rx tx))
  /\ near_fore_or_aft 65 (rx_tx_yaw rx tx) /\ ro_valid 65 rx tx = false.
Proof.
  exists ex_rx, ex_behind. split; [|split; [|exact ex_behind_invalid]].
  - apply tp_lemma; [intro H; apply (f_equal vx) in H; cbn in H; lra|]. rewrite ex_behind_product. lra.
  - right. rewrite ex_behind_yaw, Rabs_pos_eq by lra. lra.
Qed.
Print Assumptions c95_straight_behind_refuted.
(** and with the limit of 180 degrees nothing is ever valid. *)
Theorem c95_no_limit_partial : forall rx tx, ro_valid 180 rx tx = false.
Proof. exact yaw_180_lemma. Qed.
Print Assumptions c95_no_limit_partial.
(** The window that is applied: open at max_yaw, closed at 180 - max_yaw, open at 180. *)
Theorem c95_window_partial : forall m yaw, 0 < m <= 90 -> -180 < yaw <= 180 ->
  (yaw_ok m yaw = true <-> Rabs yaw < m \/ (180 - m <= Rabs yaw /\ (Rabs yaw < 180 \/ m = 90))).
Proof. exact yaw_lemma. Qed.
Print Assumptions c95_window_partial.
Theorem c95_wide_partial : forall m yaw, 90 <= m < 180 -> yaw_ok m yaw = true.
Proof. exact yaw_wide_lemma. Qed.
Print Assumptions c95_wide_partial.
Example c95_witness : rx_tx_yaw ex_rx ex_ahead = 0 /\ rx_tx_yaw ex_rx ex_behind = 180.
Proof. split; [exact ex_ahead_yaw|exact ex_behind_yaw]. Qed.

(** *** C96 *)
Theorem c96_records : forall gp az track srt rx txs times x my lo hi, is_sort rr_time srt ->
  exists rows unsorted, collect_ro_observations gp az track srt rx txs times x my lo hi = Ok rows
    /\ Forall2 (row_matches rx x) (flat_map (fun tx => collect_ro_series gp az track rx tx times my lo hi) txs) unsorted
    /\ Permutation rows unsorted /\ StronglySorted (fun a b => (rr_time a <= rr_time b)%Z) rows.
Proof. exact records_lemma. Qed.
Print Assumptions c96_records.
Example c96_witness : is_sort rr_time (sort_by rr_time)
  /\ exists a, In a (collect_ro_series ex_gp ex_az ex_track 0 1 [0; 2; 3; 4]%Z 65 (-200) 60) /\ map op_time (arc_points a) = [0; 2]%Z.
Proof.
  split; [apply sort_by_is_sort|].
  destruct (series_lemma ex_gp ex_az ex_track 0 1 65 (-200) 60 [0; 2; 3; 4]%Z) as (runs & _ & M & E).
  destruct ex_runs as [R1 _]. apply M in R1.
  assert (I : In (1%Z, map (point_at ex_gp ex_az ex_track 0 1) [0; 2]%Z) (map (fun a => (arc_tx a, arc_points a)) (collect_ro_series ex_gp ex_az ex_track 0 1 [0; 2; 3; 4]%Z 65 (-200) 60))).
  { rewrite E. apply in_map_iff. exists (0%nat, 2%nat). split; [reflexivity|exact R1]. }
  apply in_map_iff in I. destruct I as (a & Q & I). exists a. split; [exact I|]. apply (f_equal snd) in Q. cbn [snd] in Q. rewrite Q. reflexivity.
Qed.

(** *** C110 *)
Theorem c110_rising : forall gp az track rx tx my lo hi times a,
  (forall t, In t times -> tov (pv_pos (track rx t)) <> mk_vec 0 0 0 /\ tov (pv_vel (track rx t)) <> mk_vec 0 0 0
                           /\ tov (pv_pos (track rx t)) <> tov (pv_pos (track tx t))) ->
  In a (collect_ro_series gp az track rx tx times my lo hi) ->
  (forall p, In p (arc_points a) -> -180 < op_pitch p < 0)
  /\ exists p l, arc_points a = p :: l
       /\ (arc_rising a = true <->
           0 < dot (sub (tov (pv_pos (track tx (op_time p)))) (tov (pv_pos (track rx (op_time p))))) (tov (pv_vel (track rx (op_time p))))).
Proof. exact series_rising_lemma. Qed.
Print Assumptions c110_rising.
Example c110_witness : (forall t, let rx := ex_track 0 t in let tx := ex_track 1 t in tov (pv_pos rx) <> mk_vec 0 0 0 /\ tov (pv_vel rx) <> mk_vec 0 0 0
                           /\ tov (pv_pos rx) <> tov (pv_pos tx))
  /\ 0 < dot (sub (tov (pv_pos ex_ahead)) (tov (pv_pos ex_rx))) (tov (pv_vel ex_rx)).
Proof.
  split; [|unfold dot; cbn; lra]. intro t. cbv zeta. unfold ex_track. cbn. split; [intro H; apply (f_equal vx) in H; cbn in H; lra|].
  split; [intro H; apply (f_equal vy) in H; cbn in H; lra|]. destruct (Z.even t); intro H; apply (f_equal vx) in H; cbn in H; lra.
Qed.

(** *** C168 *)
(** "The pitch and yaw of a record are the direction of the transmitter in the orthonormal frame of the
    receiver" is false of a receiver that climbs or descends: straight ahead is not at pitch zero. *)
Theorem c168_pitch_refuted : exists rx tx, cross (tov (pv_pos rx)) (tov (pv_vel rx)) <> mk_vec 0 0 0
  /\ same_direction (towards rx tx) (forward (pv_vel rx)) /\ rx_tx_pitch rx tx <> 0.
Proof. exists ex_climbing, ex_in_front. split; [intro H; apply (f_equal vz) in H; cbn in H; lra|exact climbing_lemma]. Qed.
Print Assumptions c168_pitch_refuted.
(** It holds of every receiver whose velocity is perpendicular to its position. *)
Theorem c168_angles_partial : forall rx tx, level (pv_pos rx) (pv_vel rx) ->
  seen_at (towards rx tx) (forward (pv_vel rx)) (left (pv_pos rx) (pv_vel rx)) (rx_tx_yaw rx tx)
  /\ seen_at (towards rx tx) (forward (pv_vel rx)) (up (pv_pos rx)) (rx_tx_pitch rx tx).
Proof. exact angles_lemma. Qed.
Print Assumptions c168_angles_partial.
(** Of every other receiver the yaw is measured about the local vertical with the forward axis shortened. *)
Theorem c168_yaw_partial : forall rx tx, cross (tov (pv_pos rx)) (tov (pv_vel rx)) <> mk_vec 0 0 0 ->
  seen_at (towards rx tx) (scale (/ norm (tov (pv_vel rx))) (horizontal (pv_pos rx) (pv_vel rx)))
    (direction (cross (tov (pv_pos rx)) (tov (pv_vel rx)))) (rx_tx_yaw rx tx).
Proof. exact yaw_nonparallel. Qed.
Print Assumptions c168_yaw_partial.
Example c168_witness : level (pv_pos ex_rx) (pv_vel ex_rx) /\ cross (tov (pv_pos ex_climbing)) (tov (pv_vel ex_climbing)) <> mk_vec 0 0 0
  /\ dot (towards ex_rx ex_ahead) (forward (pv_vel ex_rx)) <> 0.
Proof. exact ex_angles. Qed.
