(** Proofs about radio occultation: geometry and records. *)
From Coq Require Import Reals ZArith List Bool Lra Lia Psatz Sorting.Sorted Sorting.Permutation.
From Verif Require Import Base BaseFacts RBase RFacts RTrig RTrigFacts Mog_Model Geom_Spec Instr_Model Instr_Spec Ro_Model Ro_Spec Ro_Proofs.
Import ListNotations.
Open Scope R_scope.

(** *** Tangent point *)
Definition dvec (rx tx : pv) : vec := sub (tov (pv_pos tx)) (tov (pv_pos rx)).
Lemma vec_eq a b : vx a = vx b -> vy a = vy b -> vz a = vz b -> a = b.
Proof. destruct a, b. cbn. congruence. Qed.
Lemma sq3_zero a b c : a * a + b * b + c * c = 0 -> a = 0 /\ b = 0 /\ c = 0.
Proof. intro H. assert (a * a = 0 /\ b * b = 0 /\ c * c = 0) by nra. split; [|split]; nra. Qed.
Lemma dd_pos rx tx : tov (pv_pos rx) <> tov (pv_pos tx) -> 0 < dot (dvec rx tx) (dvec rx tx).
Proof.
  destruct rx as [[a b c] rv], tx as [[a' b' c'] tv]. unfold dvec, dot, sub. cbn. intro N.
  assert (K : 0 <= (a' - a) * (a' - a) + (b' - b) * (b' - b) + (c' - c) * (c' - c)) by (apply Rplus_le_le_0_compat; [apply Rplus_le_le_0_compat|]; apply Rle_0_sqr). destruct K as [K|K]; [exact K|].
  symmetry in K. apply sq3_zero in K. destruct K as (A & B & C). exfalso. apply N. unfold tov. cbn. f_equal; lra.
Qed.
Lemma tp_param rx tx : tov (pv_pos rx) <> tov (pv_pos tx) ->
  let s := - dot (tov (pv_pos rx)) (dvec rx tx) / dot (dvec rx tx) (dvec rx tx) in
  tov (tp_p rx tx) = add (tov (pv_pos rx)) (scale s (dvec rx tx)).
Proof.
  intros N s. pose proof (dd_pos rx tx N) as D. revert D s. clear N.
  destruct rx as [[a b c] rv], tx as [[a' b' c'] tv]. unfold dvec, dot, sub, add, scale, tov, tp_p, v_sub, v_scale, v_dot. cbn. intro D.
  apply vec_eq; cbn; field; lra.
Qed.
Lemma tp_lemma : forall rx tx, tov (pv_pos rx) <> tov (pv_pos tx) ->
  closest_point (tov (pv_pos rx)) (tov (pv_pos tx)) (tov (tp_p rx tx))
  /\ (tp_product rx tx < 0 <-> strictly_between (tov (pv_pos rx)) (tov (pv_pos tx)) (tov (tp_p rx tx))).
Proof.
  intros rx tx N. pose proof (dd_pos rx tx N) as D. pose proof (tp_param rx tx N) as T. cbv zeta in T.
  set (s := - dot (tov (pv_pos rx)) (dvec rx tx) / dot (dvec rx tx) (dvec rx tx)) in *.
  set (r := tov (pv_pos rx)) in *. set (d := dvec rx tx) in *. fold d.
  assert (SD : s * dot d d = - dot r d) by (unfold s; field; lra). clearbody s.
  change (sub (tov (pv_pos tx)) r) with d.
  assert (DD : forall u, dot (add r (scale u d)) (add r (scale u d)) = dot r r + 2 * u * dot r d + u * u * dot d d).
  { intro u. unfold dot, add, scale. cbn. ring. }
  split; [split|].
  - exists s. change (sub (tov (pv_pos tx)) r) with d. exact T.
  - intros q (u & ->). change (sub (tov (pv_pos tx)) r) with d. rewrite T, !DD.
    assert (K : (dot r r + 2 * u * dot r d + u * u * dot d d) - (dot r r + 2 * s * dot r d + s * s * dot d d) = (u - s) * (u - s) * dot d d) by (assert (dot r d = - (s * dot d d)) as -> by lra; ring).
    pose proof (Rle_0_sqr (u - s)) as SQ. unfold Rsqr in SQ. split; [assert (0 <= (u - s) * (u - s) * dot d d) by (apply Rmult_le_pos; lra); lra|].
    intro E. assert (H0 : (u - s) * (u - s) * dot d d = 0) by lra. apply Rmult_integral in H0. destruct H0 as [H0|H0]; [|lra].
    apply Rmult_integral in H0. assert (U : u = s) by (destruct H0; lra). now rewrite U.
  - assert (P : tp_product rx tx = (s - 1) * s * dot d d).
    { unfold tp_product. assert (X : forall a b, v_dot a b = dot (tov a) (tov b)) by reflexivity. rewrite X.
      assert (Y : forall a b, tov (v_sub a b) = sub (tov a) (tov b)) by reflexivity. rewrite !Y, T. fold r.
      assert (Z : tov (pv_pos tx) = add r d). { unfold d, dvec, add, sub, r. apply vec_eq; cbn; ring. }
      rewrite Z. clearbody r d. unfold dot, sub, add, scale. cbn. ring. }
    rewrite P. split.
    + intro H. exists s. split; [|exact T]. assert ((s - 1) * s < 0) by nra. split; nra.
    + intros (u & U & E). change (sub (tov (pv_pos tx)) r) with d in E. rewrite T in E.
      assert (u = s).
      { assert (Q : dot (sub (add r (scale s d)) (add r (scale u d))) (sub (add r (scale s d)) (add r (scale u d))) = (s - u) * (s - u) * dot d d) by (unfold dot, sub, add, scale; cbn; ring).
        rewrite E in Q at 1 2. assert (Q2 : dot (sub (add r (scale u d)) (add r (scale u d))) (sub (add r (scale u d)) (add r (scale u d))) = 0) by (unfold dot, sub; cbn; ring).
        rewrite Q2 in Q. symmetry in Q. apply Rmult_integral in Q. destruct Q as [Q|Q]; [apply Rmult_integral in Q; destruct Q; lra|lra]. }
      subst. assert ((s - 1) * s < 0) by nra. nra.
Qed.

(** Derivatives. *)
Local Notation dl := derivable_pt_lim.
Lemma dl_plus f g x a b : dl f x a -> dl g x b -> dl (fun s => f s + g s) x (a + b).
Proof. intros; now apply (derivable_pt_lim_plus f g). Qed.
Lemma dl_minus f g x a b : dl f x a -> dl g x b -> dl (fun s => f s - g s) x (a - b).
Proof. intros; now apply (derivable_pt_lim_minus f g). Qed.
Lemma dl_mult f g x a b : dl f x a -> dl g x b -> dl (fun s => f s * g s) x (a * g x + f x * b).
Proof. intros; now apply (derivable_pt_lim_mult f g). Qed.
Lemma dl_div f g x a b : dl f x a -> dl g x b -> g x <> 0 -> dl (fun s => f s / g s) x ((a * g x - b * f x) / (g x)²).
Proof. intros; now apply (derivable_pt_lim_div f g). Qed.
Lemma dl_eq f x a b : dl f x a -> a = b -> dl f x b. Proof. now intros H <-. Qed.

Lemma velocity_lemma : forall rx tx t, tov (pv_pos (rx t)) <> tov (pv_pos (tx t)) ->
  moves_with (fun s => tov (pv_pos (rx s))) t (tov (pv_vel (rx t))) -> moves_with (fun s => tov (pv_pos (tx s))) t (tov (pv_vel (tx t))) ->
  moves_with (fun s => tov (tp_p (rx s) (tx s))) t (tov (tp_v (rx t) (tx t))).
Proof.
  intros rx tx t N (RX & RY & RZ) (TX & TY & TZ). pose proof (dd_pos _ _ N) as D. clear N. unfold dvec in D.
  cbn [tov vx vy vz sub dot] in *. unfold dot, sub in D. cbn [tov vx vy vz] in D.
  unfold moves_with, tp_p, tp_v, rx_tx_pv. cbn [pv_pos pv_vel v_sub v_scale v_dot v_x v_y v_z tov vx vy vz].
  unfold v_dot, v_sub, v_scale. cbn [v_x v_y v_z].
  set (a := fun s => v_x (pv_pos (rx s))) in *. set (b := fun s => v_y (pv_pos (rx s))) in *. set (c := fun s => v_z (pv_pos (rx s))) in *.
  set (a' := fun s => v_x (pv_pos (tx s))) in *. set (b' := fun s => v_y (pv_pos (tx s))) in *. set (c' := fun s => v_z (pv_pos (tx s))) in *.
  change (v_x (pv_pos (rx t))) with (a t) in *. change (v_y (pv_pos (rx t))) with (b t) in *. change (v_z (pv_pos (rx t))) with (c t) in *.
  change (v_x (pv_pos (tx t))) with (a' t) in *. change (v_y (pv_pos (tx t))) with (b' t) in *. change (v_z (pv_pos (tx t))) with (c' t) in *.
  set (da := v_x (pv_vel (rx t))) in *. set (db := v_y (pv_vel (rx t))) in *. set (dc := v_z (pv_vel (rx t))) in *.
  set (da' := v_x (pv_vel (tx t))) in *. set (db' := v_y (pv_vel (tx t))) in *. set (dc' := v_z (pv_vel (tx t))) in *.
  pose proof (dl_minus _ _ _ _ _ TX RX) as DX. pose proof (dl_minus _ _ _ _ _ TY RY) as DY. pose proof (dl_minus _ _ _ _ _ TZ RZ) as DZ.
  pose proof (dl_plus _ _ _ _ _ (dl_plus _ _ _ _ _ (dl_mult _ _ _ _ _ TX DX) (dl_mult _ _ _ _ _ TY DY)) (dl_mult _ _ _ _ _ TZ DZ)) as NU.
  pose proof (dl_plus _ _ _ _ _ (dl_plus _ _ _ _ _ (dl_mult _ _ _ _ _ DX DX) (dl_mult _ _ _ _ _ DY DY)) (dl_mult _ _ _ _ _ DZ DZ)) as DE.
  pose proof (dl_div _ _ _ _ _ NU DE ltac:(cbv beta; lra)) as Q. cbv beta in Q.
  split; [|split].
  - eapply dl_eq; [apply (dl_minus a' _ _ _ _ TX (dl_mult _ _ _ _ _ Q DX))|]. unfold Rsqr. field. lra.
  - eapply dl_eq; [apply (dl_minus b' _ _ _ _ TY (dl_mult _ _ _ _ _ Q DY))|]. unfold Rsqr. field. lra.
  - eapply dl_eq; [apply (dl_minus c' _ _ _ _ TZ (dl_mult _ _ _ _ _ Q DZ))|]. unfold Rsqr. field. lra.
Qed.

(** *** Yaw *)
Lemma yaw_lemma : forall m yaw, 0 < m <= 90 -> -180 < yaw <= 180 ->
  (yaw_ok m yaw = true <-> Rabs yaw < m \/ (180 - m <= Rabs yaw /\ (Rabs yaw < 180 \/ m = 90))).
Proof.
  intros m yaw M Y. unfold yaw_ok. destruct (Req_EM_T (180 - m) 0) as [E|_]; [lra|]. rewrite Rltb_spec.
  assert (A : 0 <= Rabs yaw <= 180) by (split; [apply Rabs_pos|apply Rabs_le; lra]).
  set (y := Rabs yaw) in *. clearbody y. destruct (Rlt_le_dec y (180 - m)) as [L|L].
  - rewrite rmod_small by lra. split; [intro; now left|]. intros [H|[H _]]; lra.
  - destruct (Rlt_le_dec y (2 * (180 - m))) as [L2|L2].
    + rewrite (rmod_unique y (y - (180 - m))) by (try lra; exists 1%Z; lra). split.
      * intro H. right. split; [lra|]. left. lra.
      * intros [H|[_ [H|H]]]; lra.
    + assert (m = 90) by lra. assert (y = 180) by lra. subst m y. rewrite (rmod_unique 180 0) by (try lra; exists 2%Z; lra). split; intros; [|lra].
      right. split; [lra|now right].
Qed.
Lemma yaw_wide_lemma : forall m yaw, 90 <= m < 180 -> yaw_ok m yaw = true.
Proof.
  intros m yaw M. unfold yaw_ok. destruct (Req_EM_T (180 - m) 0) as [E|_]; [lra|]. rewrite Rltb_spec.
  pose proof (rmod_range (Rabs yaw) (180 - m) ltac:(lra)). lra.
Qed.
Lemma yaw_180_lemma : forall rx tx, ro_valid 180 rx tx = false.
Proof. intros. unfold ro_valid, yaw_ok. destruct (Req_EM_T (180 - 180) 0) as [_|N]; [apply andb_false_r|]. exfalso. apply N. lra. Qed.

(** *** Rising *)
Lemma v_norm_pos a : tov a <> mk_vec 0 0 0 -> 0 < v_norm a.
Proof.
  intro N. unfold v_norm. apply sqrt_lt_R0. destruct a as [x y z]. unfold v_dot. cbn in *. assert (K : 0 <= x * x + y * y + z * z) by nra. destruct K as [K|K]; [exact K|].
  symmetry in K. apply sq3_zero in K. destruct K as (-> & -> & ->). now exfalso.
Qed.
Lemma arctan2_below y x : y < 0 -> - PI < arctan2 y x < 0 /\ (- (PI / 2) < arctan2 y x <-> 0 < x).
Proof.
  intro Y. pose proof PI_RGT_0 as P. unfold arctan2. pose proof (atan_bound (y / x)) as B.
  destruct (Rltb 0 x) eqn:E1; [apply Rltb_spec in E1|apply Rltb_false in E1].
  - assert (y / x < 0) by (assert (0 < / x) by (apply Rinv_0_lt_compat; lra); unfold Rdiv; nra).
    assert (atan (y / x) < 0) by (rewrite <- atan_0; apply atan_increasing; assumption). lra.
  - destruct (Rltb x 0) eqn:E2; [apply Rltb_spec in E2|apply Rltb_false in E2].
    + assert (F : Rleb 0 y = false) by (apply Rleb_false; lra). rewrite F.
      assert (0 < y / x) by (assert (/ x < 0) by (apply Rinv_lt_0_compat; lra); unfold Rdiv; nra).
      assert (0 < atan (y / x)) by (rewrite <- atan_0; apply atan_increasing; assumption). lra.
    + assert (F : Rltb 0 y = false) by (apply Rltb_false; lra). rewrite F. assert (G : Rltb y 0 = true) by (apply Rltb_spec; lra). rewrite G. lra.
Qed.
(** Components of the relative position in the receiver's frame. *)
Lemma frame_pitch rx tx : tov (pv_pos rx) <> mk_vec 0 0 0 -> tov (pv_vel rx) <> mk_vec 0 0 0 ->
  let q := off_axis (rx_n_u rx) (pv_pos (rx_tx_pv rx tx)) in
  v_dot q (rx_b_u rx) = dot (dvec rx tx) (tov (pv_pos rx)) / v_norm (pv_pos rx)
  /\ v_dot q (rx_v_u rx) = dot (dvec rx tx) (tov (pv_vel rx)) / v_norm (pv_vel rx).
Proof.
  intros N1 N2 q. pose proof (v_norm_pos _ N1) as P1. pose proof (v_norm_pos _ N2) as P2. clear N1 N2. unfold q, rx_n_u, rx_b_u, rx_v_u, rx_tx_pv. cbn [pv_pos pv_vel].
  set (n1 := v_norm (pv_pos rx)) in *. set (n2 := v_norm (pv_vel rx)) in *. clearbody n1 n2.
  set (kn := / v_norm (v_cross (pv_pos rx) (pv_vel rx))). clearbody kn.
  destruct rx as [[a b c] [u v w]], tx as [[a' b' c'] tv]. unfold dvec, off_axis, v_sub, v_scale, v_dot, v_cross, dot, sub, tov. cbn. split; field; lra.
Qed.
Lemma rising_lemma : forall rx tx, tov (pv_pos rx) <> mk_vec 0 0 0 -> tov (pv_vel rx) <> mk_vec 0 0 0 -> tov (pv_pos rx) <> tov (pv_pos tx) ->
  tp_product rx tx < 0 ->
  -180 < rx_tx_pitch rx tx < 0 /\ (-90 < rx_tx_pitch rx tx <-> 0 < dot (dvec rx tx) (tov (pv_vel rx))).
Proof.
  intros rx tx N1 N2 N3 T. destruct (frame_pitch rx tx N1 N2) as [B V]. pose proof (v_norm_pos _ N1) as P1. pose proof (v_norm_pos _ N2) as P2.
  destruct (tp_lemma rx tx N3) as [_ S]. apply S in T. destruct T as (s & S1 & S2). pose proof (tp_param rx tx N3) as TP. cbv zeta in TP.
  pose proof (dd_pos rx tx N3) as D. unfold rx_tx_pitch. rewrite B, V.
  assert (Y : dot (dvec rx tx) (tov (pv_pos rx)) < 0).
  { change (sub (tov (pv_pos tx)) (tov (pv_pos rx))) with (dvec rx tx) in S2. rewrite TP in S2.
    set (d := dvec rx tx) in *. set (r := tov (pv_pos rx)) in *. set (u := - dot r d / dot d d) in *.
    assert (SD : u * dot d d = - dot r d) by (unfold u; field; lra). clearbody u.
    assert (E : u = s).
    { assert (Q : dot (sub (add r (scale u d)) (add r (scale s d))) (sub (add r (scale u d)) (add r (scale s d))) = (u - s) * (u - s) * dot d d) by (unfold dot, sub, add, scale; cbn; ring).
      rewrite S2 in Q at 1 2. assert (Q2 : dot (sub (add r (scale s d)) (add r (scale s d))) (sub (add r (scale s d)) (add r (scale s d))) = 0) by (unfold dot, sub; cbn; ring).
      rewrite Q2 in Q. symmetry in Q. apply Rmult_integral in Q. destruct Q as [Q|Q]; [apply Rmult_integral in Q; destruct Q; lra|lra]. }
    subst u. assert (dot d r = dot r d) by (unfold dot; ring). nra. }
  assert (YN : dot (dvec rx tx) (tov (pv_pos rx)) / v_norm (pv_pos rx) < 0).
  { assert (0 < / v_norm (pv_pos rx)) by (apply Rinv_0_lt_compat; exact P1). unfold Rdiv. nra. }
  destruct (arctan2_below _ (dot (dvec rx tx) (tov (pv_vel rx)) / v_norm (pv_vel rx)) YN) as [A1 A2].
  set (z := arctan2 _ _) in *. split.
  - rewrite <- degrees_0. replace (-180) with (degrees (- PI)) by (unfold degrees; pose proof PI_RGT_0; field; lra). rewrite <- !degrees_lt. exact A1.
  - replace (-90) with (degrees (- (PI / 2))) by (unfold degrees; pose proof PI_RGT_0; field; lra). rewrite <- degrees_lt, A2.
    assert (0 < / v_norm (pv_vel rx)) by (apply Rinv_0_lt_compat; exact P2). unfold Rdiv. split; intro; [|apply Rmult_lt_0_compat; assumption].
    destruct (Rlt_le_dec 0 (dot (dvec rx tx) (tov (pv_vel rx)))); [assumption|]. nra.
Qed.

Lemma series_rising_lemma : forall gp az track rx tx my lo hi times a,
  (forall t, In t times -> tov (pv_pos (track rx t)) <> mk_vec 0 0 0 /\ tov (pv_vel (track rx t)) <> mk_vec 0 0 0
                           /\ tov (pv_pos (track rx t)) <> tov (pv_pos (track tx t))) ->
  In a (collect_ro_series gp az track rx tx times my lo hi) ->
  (forall p, In p (arc_points a) -> -180 < op_pitch p < 0)
  /\ exists p l, arc_points a = p :: l
       /\ (arc_rising a = true <->
           0 < dot (sub (tov (pv_pos (track tx (op_time p)))) (tov (pv_pos (track rx (op_time p))))) (tov (pv_vel (track rx (op_time p))))).
Proof.
  intros gp az track rx tx my lo hi times a H I. apply series_in in I. destruct I as (t & ts & P & G & _ & R).
  assert (K : forall u, In u (t :: ts) -> -180 < rx_tx_pitch (track rx u) (track tx u) < 0
     /\ (-90 < rx_tx_pitch (track rx u) (track tx u) <-> 0 < dot (dvec (track rx u) (track tx u)) (tov (pv_vel (track rx u))))).
  { intros u U. destruct (G u U) as [U1 [V _]]. destruct (H u U1) as (A & B & C). apply rising_lemma; auto.
    unfold ro_valid in V. apply andb_true_iff in V. destruct V as [V _]. now apply Rltb_spec in V. }
  split.
  - intros p Q. rewrite P in Q. apply in_map_iff in Q. destruct Q as (u & <- & U). cbn. apply K. exact U.
  - exists (point_at gp az track rx tx t), (map (point_at gp az track rx tx) ts). split; [exact P|].
    cbn [point_at ro_column c_point op_time]. rewrite R, Rltb_spec. apply K. now left.
Qed.

(** *** Records *)
Lemma argmin_spec key : forall l best, In (argmin key best l) (best :: l) /\ (forall j, In j (best :: l) -> key (argmin key best l) <= key j).
Proof.
  induction l as [|i l IH]; intro best; cbn [argmin]; [split; [now left|intros j [<-|[]]; lra]|].
  destruct (IH (if Rltb (key i) (key best) then i else best)) as [I K]. split.
  - destruct I as [I|I]; [|right; now right]. rewrite <- I. destruct (Rltb (key i) (key best)); [right; now left|now left].
  - destruct (Rltb (key i) (key best)) eqn:E; [apply Rltb_spec in E|apply Rltb_false in E]; intros j [<-|[<-|J]]; try (apply K; now right).
    + specialize (K i (or_introl eq_refl)). lra.
    + apply K. now left.
    + apply K. now left.
    + specialize (K best (or_introl eq_refl)). lra.
Qed.
(** The first of the least, on an increasing list of candidates. *)
Lemma argmin_first key : forall l best, StronglySorted lt (best :: l) ->
  forall j, In j (best :: l) -> (j < argmin key best l)%nat -> key (argmin key best l) < key j.
Proof.
  induction l as [|i l IH]; intros best S1 j J L; cbn [argmin] in *; [destruct J as [<-|[]]; lia|].
  inversion S1 as [|? ? S2 F]; subst. inversion S2 as [|? ? S3 F3]; subst. inversion F as [|? ? F1 F2]; subst.
  destruct (Rltb (key i) (key best)) eqn:E; [apply Rltb_spec in E|apply Rltb_false in E].
  - destruct J as [<-|J]; [|apply IH; assumption]. destruct (argmin_spec key l i) as [_ K]. specialize (K i (or_introl eq_refl)). lra.
  - assert (S4 : StronglySorted lt (best :: l)) by (constructor; assumption).
    destruct J as [<-|[<-|J]]; [apply IH; [exact S4|now left|exact L]| |apply IH; [exact S4|now right|exact L]].
    destruct (argmin_spec key l best) as [I K]. pose proof (K best (or_introl eq_refl)).
    destruct (Nat.eq_dec (argmin key best l) best) as [Q|Q]; [lia|].
    assert (key (argmin key best l) < key best). { apply IH; [exact S4|now left|]. destruct I as [I|I]; [congruence|]. rewrite Forall_forall in F2. exact (F2 _ I). }
    lra.
Qed.
Lemma seq_ss n m : StronglySorted lt (seq n m).
Proof. revert n. induction m as [|m IH]; intro n; cbn; constructor; [apply IH|]. apply Forall_forall. intros x X. apply in_seq in X. lia. Qed.

Lemma row_lemma receiver x o : arc_points o <> [] -> exists r, ro_row_of receiver x o = Ok r /\ row_matches receiver x o r.
Proof.
  intro N. unfold ro_row_of. destruct (arc_points o) as [|p0 l] eqn:E; [congruence|]. eexists; split; [reflexivity|].
  unfold row_matches. cbn [rr_receiver rr_transmitter rr_rising rr_geometry rr_position rr_pitch rr_yaw rr_azimuth rr_start rr_end rr_time]. rewrite E.
  do 4 (split; [reflexivity|]). split; [|split].
  - set (key := fun i => Rabs (g_elev (op_tp (nth i (p0 :: l) p0)) - x)).
    assert (SQ : (0 :: seq 1 (length (p0 :: l) - 1))%nat = seq 0 (length (p0 :: l))) by (cbn [length]; rewrite Nat.sub_succ, Nat.sub_0_r; reflexivity).
    destruct (argmin_spec key (seq 1 (length (p0 :: l) - 1)) 0) as [I K].
    assert (F : forall j, In j (0%nat :: seq 1 (length (p0 :: l) - 1)) -> (j < argmin key 0 (seq 1 (length (p0 :: l) - 1)))%nat -> key (argmin key 0 (seq 1 (length (p0 :: l) - 1))) < key j).
    { apply argmin_first. rewrite SQ. apply seq_ss. }
    rewrite SQ in I, K, F. set (si := argmin key 0 (seq 1 (length (p0 :: l) - 1))) in *. clearbody si. clear SQ. apply in_seq in I.
    exists (nth si (p0 :: l) p0). split; [|repeat split].
    destruct (nth_split (p0 :: l) p0 (proj2 I)) as (l1 & l2 & E2 & L). exists l1, l2. split; [exact E2|]. split.
    + intros q Q. apply (In_nth _ _ p0) in Q. destruct Q as (j & J & Q). specialize (F j). unfold key in F.
      assert (nth j (p0 :: l) p0 = q) as NJ by (rewrite E2, app_nth1 by exact J; exact Q). rewrite NJ in F. apply F; [apply in_seq; lia|lia].
    + intros q Q. apply (In_nth _ _ p0) in Q. destruct Q as (j & J & Q). specialize (K (S si + j)%nat). unfold key in K.
      assert (nth (S si + j) (p0 :: l) p0 = q) as NJ. { rewrite E2, app_nth2 by lia. replace (S si + j - length l1)%nat with (S j) by lia. exact Q. }
      rewrite NJ in K. apply K. apply in_seq. rewrite E2, app_length. cbn [length]. lia.
  - exists p0, l. auto.
  - exists (last (p0 :: l) p0), (removelast (p0 :: l)). split; [|reflexivity]. apply app_removelast_last. discriminate.
Qed.

Lemma mapM_rows receiver x : forall obs, (forall o, In o obs -> arc_points o <> []) ->
  exists rows, mapM (ro_row_of receiver x) obs = Ok rows /\ Forall2 (row_matches receiver x) obs rows.
Proof.
  induction obs as [|o obs IH]; intro H; cbn; [exists []; split; [reflexivity|constructor]|].
  destruct (row_lemma receiver x o (H o (or_introl eq_refl))) as (r & -> & M). destruct IH as (rows & E & F); [intros; apply H; now right|].
  rewrite E. cbn. exists (r :: rows). split; [reflexivity|]. now constructor.
Qed.
Lemma records_lemma : forall gp az track srt rx txs times x my lo hi, is_sort rr_time srt ->
  exists rows unsorted, collect_ro_observations gp az track srt rx txs times x my lo hi = Ok rows
    /\ Forall2 (row_matches rx x) (flat_map (fun tx => collect_ro_series gp az track rx tx times my lo hi) txs) unsorted
    /\ Permutation rows unsorted /\ StronglySorted (fun a b => (rr_time a <= rr_time b)%Z) rows.
Proof.
  intros gp az track srt rx txs times x my lo hi S. unfold collect_ro_observations.
  set (obs := flat_map _ _). assert (NE : forall o, In o obs -> arc_points o <> []).
  { intros o O. unfold obs in O. apply in_flat_map in O. destruct O as (tx & _ & O). apply series_in in O. destruct O as (t & ts & -> & _). discriminate. }
  destruct (mapM_rows rx x obs NE) as (rows & E & F). destruct obs as [|o obs'] eqn:OB.
  - inversion F; subst. exists [], []. repeat split; constructor.
  - rewrite E. cbn [bind]. destruct (S rows) as [P Q]. exists (srt rows), rows. repeat split; assumption.
Qed.

(** *** Concrete geometry for the examples *)
(** A receiver, a transmitter occulted ahead, one occulted straight behind and one overhead. *)
Definition ex_rx : pv := mk_pv (V3 2 0 0) (V3 0 1 0).
Definition ex_ahead : pv := mk_pv (V3 (-2) 1 0) (V3 1 0 0).
Definition ex_behind : pv := mk_pv (V3 (-2) (-1) 0) (V3 1 0 0).
Definition ex_above : pv := mk_pv (V3 3 0 0) (V3 0 1 0).
Lemma ex_ahead_product : tp_product ex_rx ex_ahead = - (72 / 17).
Proof. unfold tp_product, tp_p, v_dot, v_sub, v_scale. cbn. field. Qed.
Lemma ex_behind_product : tp_product ex_rx ex_behind = - (72 / 17).
Proof. unfold tp_product, tp_p, v_dot, v_sub, v_scale. cbn. field. Qed.
Lemma ex_above_product : tp_product ex_rx ex_above = 6.
Proof. unfold tp_product, tp_p, v_dot, v_sub, v_scale. cbn. field. Qed.
Lemma ex_norms : v_norm (pv_pos ex_rx) = 2 /\ v_norm (pv_vel ex_rx) = 1 /\ v_norm (v_cross (pv_pos ex_rx) (pv_vel ex_rx)) = 2.
Proof.
  unfold v_norm, v_dot. cbn. repeat split.
  - replace (2 * 2 + 0 * 0 + 0 * 0) with (2 * 2) by ring. apply sqrt_square. lra.
  - replace (0 * 0 + 1 * 1 + 0 * 0) with (1 * 1) by ring. apply sqrt_square. lra.
  - match goal with |- sqrt ?x = _ => replace x with (2 * 2) by ring end. apply sqrt_square. lra.
Qed.
Lemma ex_ahead_yaw : rx_tx_yaw ex_rx ex_ahead = 0.
Proof.
  destruct ex_norms as (A & B & C). unfold rx_tx_yaw, off_axis, rx_b_u, rx_n_u, rx_v_u. rewrite A, B, C.
  match goal with |- degrees (arctan2 ?y ?x) = _ => replace y with 0 by (unfold v_dot, v_sub, v_scale, v_cross; cbn; field); replace x with 1 by (unfold v_dot, v_sub, v_scale; cbn; field) end.
  unfold arctan2. assert (E : Rltb 0 1 = true) by (apply Rltb_spec; lra). rewrite E. unfold Rdiv. rewrite Rmult_0_l, atan_0. unfold degrees. ring.
Qed.
Lemma ex_behind_yaw : rx_tx_yaw ex_rx ex_behind = 180.
Proof.
  destruct ex_norms as (A & B & C). unfold rx_tx_yaw, off_axis, rx_b_u, rx_n_u, rx_v_u. rewrite A, B, C.
  match goal with |- degrees (arctan2 ?y ?x) = _ => replace y with 0 by (unfold v_dot, v_sub, v_scale, v_cross; cbn; field); replace x with (-1) by (unfold v_dot, v_sub, v_scale; cbn; field) end.
  unfold arctan2. assert (E : Rltb 0 (-1) = false) by (apply Rltb_false; lra). rewrite E. assert (E2 : Rltb (-1) 0 = true) by (apply Rltb_spec; lra). rewrite E2.
  assert (E3 : Rleb 0 0 = true) by (apply Rleb_spec; lra). rewrite E3. unfold Rdiv. rewrite Rmult_0_l, atan_0, Rplus_0_l. apply degrees_PI.
Qed.
Lemma ex_ahead_valid : ro_valid 65 ex_rx ex_ahead = true.
Proof.
  unfold ro_valid. rewrite ex_ahead_product, ex_ahead_yaw. apply andb_true_iff. split; [apply Rltb_spec; lra|].
  apply yaw_lemma; [lra|lra|]. left. rewrite Rabs_R0. lra.
Qed.
Lemma ex_behind_invalid : ro_valid 65 ex_rx ex_behind = false.
Proof.
  unfold ro_valid. rewrite ex_behind_yaw. apply andb_false_iff. right. destruct (yaw_ok 65 180) eqn:E; [|reflexivity].
  apply yaw_lemma in E; [|lra|lra]. rewrite Rabs_pos_eq in E by lra. lra.
Qed.
Lemma ex_above_invalid : ro_valid 65 ex_rx ex_above = false.
Proof. unfold ro_valid. rewrite ex_above_product. apply andb_false_iff. left. apply Rltb_false. lra. Qed.
(** Satellite 0 is the receiver; satellite 1 is occulted at even times and overhead at odd ones; all tangent
    points lie at height 0. *)
Definition ex_track (sat t : Z) : pv := if (sat =? 0)%Z then ex_rx else if Z.even t then ex_ahead else ex_above.
Definition ex_gp (p v : v3) (t : Z) : geo := mk_geo 10 20 0.
Definition ex_az (sat : Z) (g : geo) (t : Z) : R := 45.
Lemma ex_sample_even t : Z.even t = true -> sample_ok ex_gp ex_track 0 1 65 (-200) 60 t.
Proof. intro E. unfold sample_ok, ex_track. cbn. rewrite E. split; [exact ex_ahead_valid|lra]. Qed.
Lemma ex_sample_odd t : Z.even t = false -> ~ sample_ok ex_gp ex_track 0 1 65 (-200) 60 t.
Proof. intros E [V _]. unfold ex_track in V. cbn in V. rewrite E in V. rewrite ex_above_invalid in V. discriminate. Qed.
Lemma ex_runs : let P := sample_ok_at ex_gp ex_track 0 1 65 (-200) 60 [0; 2; 3; 4]%Z in maximal_run P 0 2 /\ maximal_run P 3 1.
Proof.
  cbv zeta. unfold maximal_run, sample_ok_at. split.
  - split; [lia|]. split; [|split].
    + intros j J. destruct j as [|[|j]]; [exists 0%Z|exists 2%Z|lia]; (split; [reflexivity|apply ex_sample_even; reflexivity]).
    + intros (t & E & S). cbn in E. inversion E; subst. revert S. apply ex_sample_odd. reflexivity.
    + now left.
  - split; [lia|]. split; [|split].
    + intros j J. assert (j = 3%nat) by lia. subst. exists 4%Z. split; [reflexivity|apply ex_sample_even; reflexivity].
    + intros (t & E & S). cbn in E. discriminate.
    + right. intros (t & E & S). cbn in E. inversion E; subst. revert S. apply ex_sample_odd. reflexivity.
Qed.
(** A receiver in uniform motion. *)
Definition ex_moving (t : R) : pv := mk_pv (V3 2 t 0) (V3 0 1 0).
Lemma ex_moves t : moves_with (fun s => tov (pv_pos (ex_moving s))) t (tov (pv_vel (ex_moving t))).
Proof. split; [|split]; cbn; [apply derivable_pt_lim_const|apply derivable_pt_lim_id|apply derivable_pt_lim_const]. Qed.
Lemma ex_still x t : moves_with (fun s => tov (pv_pos (mk_pv x (V3 0 0 0)))) t (tov (pv_vel (mk_pv x (V3 0 0 0)))).
Proof. split; [|split]; cbn; apply derivable_pt_lim_const. Qed.
