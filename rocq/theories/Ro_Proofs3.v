(** The pitch and yaw angles reported with an occultation. *)
From Coq Require Import Reals ZArith List Bool Lra Lia.
From Verif Require Import Base RBase RFacts RTrig RTrigFacts Mog_Model Geom_Spec Instr_Model Instr_Spec Instr_Proofs Instr_Proofs2 Ro_Model Ro_Spec Ro_Proofs Ro_Proofs2.
Open Scope R_scope.

Lemma arctan2_seen d x y c s k : 0 < k -> dot d x = k * c -> dot d y = k * s -> seen_at d x y (degrees (arctan2 s c)).
Proof.
  intros K C S. pose proof PI_RGT_0 as P. pose proof (arctan2_range s c) as G. destruct (arctan2_polar s c) as [PC PS].
  assert (E : degrees (arctan2 s c) * (PI / 180) = arctan2 s c) by (unfold degrees; field; lra).
  split.
  - unfold degrees. assert (W : PI * (180 / PI) = 180) by (field; lra). set (w := 180 / PI) in *.
    assert (Q : 0 < w) by (apply Rdiv_lt_0_compat; lra). split; nra.
  - rewrite E. exists (k * sqrt (c * c + s * s)). split; [apply Rmult_le_pos; [lra|apply sqrt_pos]|]. rewrite C, S. split.
    + rewrite PC at 1. ring.
    + rewrite PS at 1. ring.
Qed.
Lemma frame_yaw rx tx : tov (pv_pos rx) <> mk_vec 0 0 0 -> tov (pv_vel rx) <> mk_vec 0 0 0 -> 
  let q := off_axis (rx_b_u rx) (pv_pos (rx_tx_pv rx tx)) in
  v_dot q (rx_n_u rx) = dot (towards rx tx) (direction (cross (tov (pv_pos rx)) (tov (pv_vel rx))))
  /\ v_norm (pv_vel rx) * v_dot q (rx_v_u rx) = dot (towards rx tx) (horizontal (pv_pos rx) (pv_vel rx)).
Proof.
  intros N1 N2 q. pose proof (v_norm_pos _ N1) as P1. pose proof (v_norm_pos _ N2) as P2. clear N1 N2. unfold q, rx_n_u, rx_b_u, rx_v_u, rx_tx_pv, horizontal, up, direction. cbn [pv_pos pv_vel].
  replace (norm (cross (tov (pv_pos rx)) (tov (pv_vel rx)))) with (v_norm (v_cross (pv_pos rx) (pv_vel rx))) by reflexivity.
  replace (norm (tov (pv_pos rx))) with (v_norm (pv_pos rx)) by reflexivity.
  set (n1 := v_norm (pv_pos rx)) in *. set (n2 := v_norm (pv_vel rx)) in *. clearbody n1 n2.
  set (kn := / v_norm (v_cross (pv_pos rx) (pv_vel rx))). clearbody kn.
  destruct rx as [[a b c] [u v w]], tx as [[a' b' c'] tv]. unfold towards, off_axis, v_sub, v_scale, v_dot, v_cross, dot, sub, tov, scale, cross. cbn. split; field; lra.
Qed.

(** For every receiver: the yaw is an angle about the local vertical, but its forward component is
    foreshortened. *)
Lemma yaw_any_lemma : forall rx tx, tov (pv_pos rx) <> mk_vec 0 0 0 -> tov (pv_vel rx) <> mk_vec 0 0 0 ->
  seen_at (towards rx tx) (scale (/ norm (tov (pv_vel rx))) (horizontal (pv_pos rx) (pv_vel rx)))
    (direction (cross (tov (pv_pos rx)) (tov (pv_vel rx)))) (rx_tx_yaw rx tx).
Proof.
  intros rx tx N1 N2. destruct (frame_yaw rx tx N1 N2) as [A B]. pose proof (v_norm_pos _ N2) as P2. unfold rx_tx_yaw.
  apply (arctan2_seen _ _ _ _ _ 1); [lra| |].
  - rewrite Rmult_1_l. apply (Rmult_eq_reg_l (v_norm (pv_vel rx))); [|lra]. rewrite B.
    replace (norm (tov (pv_vel rx))) with (v_norm (pv_vel rx)) by reflexivity. unfold dot, scale. cbn [vx vy vz]. field. lra.
  - now rewrite Rmult_1_l, A.
Qed.
Lemma level_horizontal pos vel : level pos vel -> horizontal pos vel = tov vel.
Proof.
  intros (N1 & N2 & O). unfold horizontal, up, direction. assert (E : dot (tov vel) (scale (/ norm (tov pos)) (tov pos)) = 0).
  { transitivity (/ norm (tov pos) * dot (tov pos) (tov vel)); [unfold dot, scale; cbn; ring|]. rewrite O. ring. }
  rewrite E. unfold sub, scale, tov. cbn. f_equal; ring.
Qed.
Lemma level_left pos vel : level pos vel -> direction (cross (tov pos) (tov vel)) = left pos vel.
Proof.
  intros (N1 & N2 & O). pose proof (norm_pos _ N1) as P1. pose proof (norm_pos _ N2) as P2. pose proof (norm_sq (tov pos)) as Q1. pose proof (norm_sq (tov vel)) as Q2.
  assert (E : norm (cross (tov pos) (tov vel)) = norm (tov pos) * norm (tov vel)).
  { unfold norm at 1. replace (dot (cross (tov pos) (tov vel)) (cross (tov pos) (tov vel))) with ((norm (tov pos) * norm (tov vel)) * (norm (tov pos) * norm (tov vel))).
    - apply sqrt_square. apply Rmult_le_pos; lra.
    - transitivity ((norm (tov pos) * norm (tov pos)) * (norm (tov vel) * norm (tov vel)) - dot (tov pos) (tov vel) * dot (tov pos) (tov vel)); [rewrite O; ring|].
      rewrite Q1, Q2. unfold dot, cross. cbn. ring. }
  unfold left, up, forward, direction. rewrite E. set (n1 := norm (tov pos)) in *. set (n2 := norm (tov vel)) in *. unfold cross, scale. cbn. f_equal; field; lra.
Qed.
Lemma angles_lemma : forall rx tx, level (pv_pos rx) (pv_vel rx) ->
  seen_at (towards rx tx) (forward (pv_vel rx)) (left (pv_pos rx) (pv_vel rx)) (rx_tx_yaw rx tx)
  /\ seen_at (towards rx tx) (forward (pv_vel rx)) (up (pv_pos rx)) (rx_tx_pitch rx tx).
Proof.
  intros rx tx L. pose proof L as (N1 & N2 & O). split.
  - pose proof (yaw_any_lemma rx tx N1 N2) as Y. rewrite level_horizontal, level_left in Y by exact L. exact Y.
  - destruct (frame_pitch rx tx N1 N2) as [B V]. unfold rx_tx_pitch. rewrite B, V. change (dvec rx tx) with (towards rx tx).
    pose proof (v_norm_pos _ N1) as P1. pose proof (v_norm_pos _ N2) as P2. apply (arctan2_seen _ _ _ _ _ 1); [lra| |]; rewrite Rmult_1_l.
    + unfold forward, direction. replace (norm (tov (pv_vel rx))) with (v_norm (pv_vel rx)) by reflexivity. unfold dot, scale. cbn [vx vy vz]. field. lra.
    + unfold up, direction. replace (norm (tov (pv_pos rx))) with (v_norm (pv_pos rx)) by reflexivity. unfold dot, scale. cbn [vx vy vz]. field. lra.
Qed.

(** A receiver that climbs: the transmitter is straight ahead. *)
Definition ex_climbing : pv := mk_pv (V3 1 0 0) (V3 1 1 0).
Definition ex_in_front : pv := mk_pv (V3 2 1 0) (V3 0 1 0).
Lemma climbing_lemma : same_direction (towards ex_climbing ex_in_front) (forward (pv_vel ex_climbing)) /\ rx_tx_pitch ex_climbing ex_in_front <> 0.
Proof.
  assert (N1 : tov (pv_pos ex_climbing) <> mk_vec 0 0 0) by (intro H; apply (f_equal vx) in H; cbn in H; lra).
  assert (N2 : tov (pv_vel ex_climbing) <> mk_vec 0 0 0) by (intro H; apply (f_equal vx) in H; cbn in H; lra).
  pose proof (norm_pos _ N2) as P2. pose proof (v_norm_pos _ N1) as P1. split.
  - exists (norm (tov (pv_vel ex_climbing))). split; [exact P2|]. unfold forward, direction. set (n := norm _) in *. clearbody n. unfold towards, sub, scale, tov. cbn. f_equal; field; lra.
  - intro H. destruct (frame_pitch ex_climbing ex_in_front N1 N2) as [B V]. unfold rx_tx_pitch in H. rewrite B, V in H. 
    set (s := dot _ _ / v_norm (pv_pos ex_climbing)) in H. set (c := _ / v_norm (pv_vel ex_climbing)) in H.
    assert (S : 0 < s) by (unfold s; apply Rdiv_lt_0_compat; [unfold dot; cbn; lra|exact P1]).
    destruct (arctan2_polar s c) as [_ PS]. assert (Z : arctan2 s c = 0).
    { unfold degrees in H. apply Rmult_integral in H. destruct H as [H|H]; [exact H|]. exfalso. pose proof PI_RGT_0. assert (0 < 180 / PI) by (apply Rdiv_lt_0_compat; lra). lra. }
    rewrite Z, sin_0 in PS. lra.
Qed.
Lemma yaw_nonparallel : forall rx tx, cross (tov (pv_pos rx)) (tov (pv_vel rx)) <> mk_vec 0 0 0 ->
  seen_at (towards rx tx) (scale (/ norm (tov (pv_vel rx))) (horizontal (pv_pos rx) (pv_vel rx)))
    (direction (cross (tov (pv_pos rx)) (tov (pv_vel rx)))) (rx_tx_yaw rx tx).
Proof.
  intros rx tx N. apply yaw_any_lemma; intro E; apply N; rewrite E; unfold cross; cbn; f_equal; ring.
Qed.
Lemma ex_angles : level (pv_pos ex_rx) (pv_vel ex_rx) /\ cross (tov (pv_pos ex_climbing)) (tov (pv_vel ex_climbing)) <> mk_vec 0 0 0
  /\ dot (towards ex_rx ex_ahead) (forward (pv_vel ex_rx)) <> 0.
Proof.
  split; [|split].
  - split; [|split]; [intro H; apply (f_equal vx) in H; cbn in H; lra|intro H; apply (f_equal vy) in H; cbn in H; lra|unfold dot; cbn; lra].
  - intro H; apply (f_equal vz) in H; cbn in H; lra.
  - destruct ex_norms as (_ & B & _). unfold forward, direction. replace (norm (tov (pv_vel ex_rx))) with (v_norm (pv_vel ex_rx)) by reflexivity. rewrite B. unfold dot. cbn. lra.
Qed.
