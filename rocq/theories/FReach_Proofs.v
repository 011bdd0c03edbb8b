(** Conversions between along-track distances and access times in binary64. *)
From Coq Require Import ZArith Reals Lra Lia Bool.
From Flocq Require Import Core Relative IEEE754.BinarySingleNaN.
From Verif Require Import Base RBase RFacts Float_Model Float_Spec Float_Proofs FGrid_Model FTime_Model FTime_Proofs Orbit_Model Geom_Model Geom_Proofs
  FGeom_Model FGeom_Spec FGeom_Proofs FGeom_Proofs2 FReach_Model FReach_Spec.
Open Scope R_scope.

Section Libm.
Variables f_sin f_cos f_asin f_acos : b64 -> b64.
Hypothesis LM : accurate_libm f_sin f_cos f_asin f_acos.

Lemma velocity_near h i : orbital h -> angle 0 180 i -> close (f_ground_velocity f_cos h i) (velocity (val h) (val i)) (/ 100000000) /\ Rabs (velocity (val h) (val i)) <= 20000.
Proof.
  intros O A. destruct (ground_velocity_lemma f_sin f_cos f_asin f_acos LM h i O A) as (v & E & C). destruct O as [Fh B]. pose proof R_bounds as R. pose proof pi_tight as P.
  pose proof (motion_bounds _ B) as [Q S]. unfold compute_ground_velocity, mean_motion_rad in E. rewrite rdiv_ok in E by (apply pow_nonzero; lra). cbn [obind] in E.
  rewrite np_sqrt_ok in E by lra. cbn [obind] in E. injection E as E.
  assert (V : v = velocity (val h) (val i)) by (rewrite <- E; reflexivity). rewrite <- V. split; [exact C|]. rewrite V. unfold velocity. set (c := cos _).
  assert (CB : -1 <= c <= 1) by (unfold c; pose proof (COS_bound (val i * (180 / PI))); lra). set (n := sqrt _) in *.
  assert (QS : - / 10000 <= 2 * PI * c / EARTH_SIDEREAL_DAY_S <= / 10000) by (unfold EARTH_SIDEREAL_DAY_S; assert (-6.3 <= 2 * PI * c <= 6.3) by nra; lra).
  apply Rabs_le. nra.
Qed.
Section Moving.
Variables h i : b64.
Hypothesis O : orbital h.
Hypothesis A : angle 0 180 i.
Hypothesis M : 1 <= Rabs (velocity (val h) (val i)).
Notation v := (f_ground_velocity f_cos h i).
Lemma v_fin : finite v. Proof. exact (proj1 (proj1 (velocity_near h i O A))). Qed.
Lemma v_range : 999 / 1000 <= Rabs (val v) <= 20001.
Proof.
  destruct (velocity_near h i O A) as [[_ D] B]. pose proof (Rabs_triang_inv (velocity (val h) (val i)) (velocity (val h) (val i) - val v)) as T.
  pose proof (Rabs_triang (val v - velocity (val h) (val i)) (velocity (val h) (val i))) as T2. replace (velocity (val h) (val i) - (velocity (val h) (val i) - val v)) with (val v) in T by ring.
  replace (val v - velocity (val h) (val i) + velocity (val h) (val i)) with (val v) in T2 by ring. rewrite (Rabs_minus_sym (velocity _ _) (val v)) in T. lra.
Qed.
Lemma v_nonzero : val v <> 0. Proof. intro E. pose proof v_range as R. rewrite E, Rabs_R0 in R. lra. Qed.
Lemma v_is_zero : is_zero v = false.
Proof. pose proof v_nonzero as N. destruct v as [s| | |] eqn:E; try reflexivity. exfalso. apply N. reflexivity. Qed.
Lemma time_ok d : f_along_track_time f_cos h i d = Ok (fdiv d v).
Proof. unfold f_along_track_time. rewrite v_is_zero. reflexivity. Qed.
Lemma abs_div a b : b <> 0 -> Rabs (a / b) = Rabs a / Rabs b.
Proof. intro N. unfold Rdiv. rewrite Rabs_mult, Rabs_Rinv by exact N. reflexivity. Qed.
Lemma quot d : measurable d -> finite (fdiv d v) /\ val (fdiv d v) = rnd (val d / val v) /\ / 100000000 <= Rabs (val d / val v) <= 2000000000.
Proof.
  intros [F B]. pose proof v_range as R. rewrite abs_div by exact v_nonzero.
  assert (Q : / 100000000 <= Rabs (val d) / Rabs (val v) <= 2000000000).
  { split; apply Rmult_le_reg_r with (Rabs (val v)); try lra; unfold Rdiv; rewrite Rmult_assoc, Rinv_l by lra; lra. }
  destruct (fdiv_fin d v F v_fin v_nonzero) as [F' V']; [apply huge_ok; rewrite abs_div by exact v_nonzero; unfold huge; lra|]. tauto.
Qed.
Lemma rnd_near z w : finite z -> val z = rnd w -> / 1000000000 <= Rabs w -> Rabs (val z - w) <= 112 / 1000000000000000000 * Rabs w.
Proof.
  intros F V W. destruct (close_rnd z w w 0 (Rabs w) (u * (Rabs w + 0) + tiny) F V) as [_ C]; [rewrite Rminus_eq_0, Rabs_R0; lra|lra|lra|].
  eapply Rle_trans; [exact C|]. unfold u, tiny. lra.
Qed.
Lemma there_back d t : measurable d -> f_along_track_time f_cos h i d = Ok t -> finite t /\ Rabs (val (f_along_track_distance f_cos h i t) - val d) <= 3 / 10000000000000000 * Rabs (val d).
Proof.
  intros Md E. rewrite time_ok in E. assert (T : t = fdiv d v) by congruence. clear E. subst t. destruct (quot d Md) as (F & V & B). split; [exact F|].
  pose proof (rnd_near _ _ F V ltac:(lra)) as D1. pose proof v_range as R. pose proof v_nonzero as N. destruct Md as [_ BD].
  set (t := fdiv d v) in *. unfold f_along_track_distance. assert (E : val v * (val d / val v) = val d) by (field; exact N).
  assert (D2 : Rabs (val v * val t - val d) <= 112 / 1000000000000000000 * Rabs (val d)).
  { rewrite <- E at 1. rewrite <- Rmult_minus_distr_l, Rabs_mult. rewrite <- E at 2. rewrite (Rabs_mult (val v) (val d / val v)).
    replace (112 / 1000000000000000000 * (Rabs (val v) * Rabs (val d / val v))) with (Rabs (val v) * (112 / 1000000000000000000 * Rabs (val d / val v))) by ring. apply Rmult_le_compat_l; [lra|exact D1]. }
  assert (W : Rabs (val v * val t) <= (1 + / 1000000000) * Rabs (val d) /\ / 10000 <= Rabs (val v * val t)).
  { pose proof (Rabs_triang (val v * val t - val d) (val d)) as T1. replace (val v * val t - val d + val d) with (val v * val t) in T1 by ring.
    pose proof (Rabs_triang_inv (val d) (val d - val v * val t)) as T2. replace (val d - (val d - val v * val t)) with (val v * val t) in T2 by ring. rewrite (Rabs_minus_sym (val d)) in T2. lra. }
  destruct (fmul_fin v t v_fin F) as [F2 V2]; [apply huge_ok; unfold huge; lra|]. pose proof (rnd_near _ _ F2 V2 ltac:(lra)) as D3.
  set (w := val (fmul v t)) in *. clearbody w. replace (w - val d) with ((w - val v * val t) + (val v * val t - val d)) by ring. eapply Rle_trans; [apply Rabs_triang|]. lra.
Qed.
Lemma back_there t : measurable t -> exists t', f_along_track_time f_cos h i (f_along_track_distance f_cos h i t) = Ok t' /\ finite t' /\ Rabs (val t' - val t) <= 3 / 10000000000000000 * Rabs (val t).
Proof.
  intros [F B]. rewrite time_ok. eexists. split; [reflexivity|]. pose proof v_range as R. pose proof v_nonzero as N. unfold f_along_track_distance.
  assert (P : 999 / 1000000 <= Rabs (val v * val t) <= 20001 * 1000000000) by (rewrite Rabs_mult; split; [replace (999 / 1000000) with (999 / 1000 * / 1000) by lra|]; apply Rmult_le_compat; lra).
  destruct (fmul_fin v t v_fin F) as [F1 V1]; [apply huge_ok; unfold huge; lra|]. pose proof (rnd_near _ _ F1 V1 ltac:(lra)) as D1. set (d := fmul v t) in *.
  assert (Q : Rabs (val d / val v - val t) <= 112 / 1000000000000000000 * Rabs (val t)).
  { apply Rmult_le_reg_r with (Rabs (val v)); [lra|]. rewrite <- Rabs_mult. replace ((val d / val v - val t) * val v) with (val d - val v * val t) by (field; exact N).
    rewrite Rabs_mult in D1. rewrite Rmult_assoc, (Rmult_comm (Rabs (val t))). exact D1. }
  assert (W : Rabs (val d / val v) <= (1 + / 1000000000) * Rabs (val t) /\ / 10000 <= Rabs (val d / val v)).
  { pose proof (Rabs_triang (val d / val v - val t) (val t)) as T1. replace (val d / val v - val t + val t) with (val d / val v) in T1 by ring.
    pose proof (Rabs_triang_inv (val t) (val t - val d / val v)) as T2. replace (val t - (val t - val d / val v)) with (val d / val v) in T2 by ring. rewrite (Rabs_minus_sym (val t)) in T2. lra. }
  destruct (fdiv_fin d v F1 v_fin N) as [F2 V2]; [apply huge_ok; unfold huge; lra|]. split; [exact F2|]. pose proof (rnd_near _ _ F2 V2 ltac:(lra)) as D3.
  set (w := val (fdiv d v)) in *. clearbody w. replace (w - val t) with ((w - val d / val v) + (val d / val v - val t)) by ring. eapply Rle_trans; [apply Rabs_triang|]. lra.
Qed.
Lemma time_near d t : measurable d -> f_along_track_time f_cos h i d = Ok t -> Rabs (val t - val d / velocity (val h) (val i)) <= / 10000000 * Rabs (val d / velocity (val h) (val i)).
Proof.
  intros Md E. rewrite time_ok in E. assert (T : t = fdiv d v) by congruence. clear E. subst t. destruct (quot d Md) as (F & V & B). pose proof (rnd_near _ _ F V ltac:(lra)) as D1.
  destruct (velocity_near h i O A) as [[_ D] _]. pose proof v_range as R. pose proof v_nonzero as N. set (x := velocity (val h) (val i)) in *. assert (NX : x <> 0) by (intro Z; rewrite Z, Rabs_R0 in M; lra).
  set (q := val d / x). assert (E : val d / val v - q = q * ((x - val v) / val v)) by (unfold q; field; auto).
  assert (S : Rabs ((x - val v) / val v) <= 2 / 100000000).
  { rewrite abs_div by exact N. rewrite (Rabs_minus_sym x). apply Rmult_le_reg_r with (Rabs (val v)); [lra|]. unfold Rdiv. rewrite Rmult_assoc, Rinv_l by lra. lra. }
  assert (D2 : Rabs (val d / val v - q) <= Rabs q * (2 / 100000000)) by (rewrite E, Rabs_mult; apply Rmult_le_compat_l; [apply Rabs_pos|exact S]).
  pose proof (Rabs_triang (val d / val v - q) q) as T1. replace (val d / val v - q + q) with (val d / val v) in T1 by ring.
  set (w := val (fdiv d v)) in *. clearbody w. replace (w - q) with ((w - val d / val v) + (val d / val v - q)) by ring. eapply Rle_trans; [apply Rabs_triang|]. pose proof (Rabs_pos q). lra.
Qed.
Lemma time_mono d1 d2 t1 t2 : measurable d1 -> measurable d2 -> 0 < velocity (val h) (val i) -> val d1 <= val d2 ->
  f_along_track_time f_cos h i d1 = Ok t1 -> f_along_track_time f_cos h i d2 = Ok t2 -> val t1 <= val t2.
Proof.
  intros M1 M2 P L E1 E2. rewrite time_ok in E1, E2. assert (T1 : t1 = fdiv d1 v) by congruence. assert (T2 : t2 = fdiv d2 v) by congruence. clear E1 E2. subst t1 t2.
  destruct (quot d1 M1) as (_ & V1 & _). destruct (quot d2 M2) as (_ & V2 & _). rewrite V1, V2. unfold rnd. apply round_le; [auto with typeclass_instances|auto with typeclass_instances|].
  destruct (velocity_near h i O A) as [[_ D] _]. apply Rabs_le_inv in D. rewrite Rabs_pos_eq in M by lra. apply Rmult_le_compat_r; [apply Rlt_le, Rinv_0_lt_compat; lra|exact L].
Qed.
End Moving.
End Libm.

Lemma c194_trip_lemma f_sin f_cos f_asin f_acos h i d : accurate_libm f_sin f_cos f_asin f_acos -> orbital h -> angle 0 180 i -> 1 <= Rabs (velocity (val h) (val i)) -> measurable d ->
  (exists t, f_along_track_time f_cos h i d = Ok t /\ finite t /\ Rabs (val (f_along_track_distance f_cos h i t) - val d) <= 3 / 10000000000000000 * Rabs (val d))
  /\ (exists t, f_along_track_time f_cos h i (f_along_track_distance f_cos h i d) = Ok t /\ finite t /\ Rabs (val t - val d) <= 3 / 10000000000000000 * Rabs (val d)).
Proof.
  intros LM O A M Md. split; [|exact (back_there f_sin f_cos f_asin f_acos LM h i O A M d Md)].
  eexists. split; [exact (time_ok f_sin f_cos f_asin f_acos LM h i O A M d)|]. exact (there_back f_sin f_cos f_asin f_acos LM h i O A M d _ Md (time_ok f_sin f_cos f_asin f_acos LM h i O A M d)).
Qed.
Lemma c194_accurate_lemma f_sin f_cos f_asin f_acos h i d t : accurate_libm f_sin f_cos f_asin f_acos -> orbital h -> angle 0 180 i -> 1 <= Rabs (velocity (val h) (val i)) -> measurable d ->
  f_along_track_time f_cos h i d = Ok t -> Rabs (val t - val d / velocity (val h) (val i)) <= / 10000000 * Rabs (val d / velocity (val h) (val i)).
Proof. intros LM O A M Md. exact (time_near f_sin f_cos f_asin f_acos LM h i O A M d t Md). Qed.
Lemma c194_monotone_lemma f_sin f_cos f_asin f_acos h i d1 d2 t1 t2 : accurate_libm f_sin f_cos f_asin f_acos -> orbital h -> angle 0 180 i -> 1 <= velocity (val h) (val i) ->
  measurable d1 -> measurable d2 -> val d1 <= val d2 -> f_along_track_time f_cos h i d1 = Ok t1 -> f_along_track_time f_cos h i d2 = Ok t2 -> val t1 <= val t2.
Proof. intros LM O A M M1 M2. apply (time_mono f_sin f_cos f_asin f_acos LM h i O A); auto; [rewrite Rabs_pos_eq; lra|lra]. Qed.
Lemma c194_witness_lemma : accurate_libm (by_nearest 52 sin) (by_nearest 52 cos) (by_nearest 52 asin) (by_nearest 51 acos)
  /\ orbital (of_Z 400000) /\ angle 0 180 (of_Z 52) /\ 1 <= velocity (val (of_Z 400000)) (val (of_Z 52)) /\ measurable (of_Z 10000).
Proof.
  destruct (of_Z_spec 400000 ltac:(lia)) as [F1 V1]. destruct (of_Z_spec 52 ltac:(lia)) as [F2 V2]. destruct (of_Z_spec 10000 ltac:(lia)) as [F3 V3].
  split; [exact (proj1 nearest_libm)|]. split; [split; [exact F1|lra]|]. split; [split; [exact F2|lra]|]. split; [|split; [exact F3|rewrite V3, Rabs_pos_eq; lra]].
  rewrite V1, V2. unfold velocity. pose proof R_bounds as R. pose proof pi_tight as P. set (c := cos _). assert (CB : -1 <= c <= 1) by (unfold c; pose proof (COS_bound (52 * (180 / PI))); lra).
  assert (QS : 2 * PI * c / EARTH_SIDEREAL_DAY_S <= / 10000) by (unfold EARTH_SIDEREAL_DAY_S; assert (2 * PI * c <= 6.3) by nra; lra).
  assert (S : / 1000 <= sqrt (EARTH_MU / (EARTH_MEAN_RADIUS + 400000) ^ 3)).
  { rewrite <- (sqrt_square (/ 1000)) by lra. apply sqrt_le_1_alt. apply Rmult_le_reg_r with ((EARTH_MEAN_RADIUS + 400000) ^ 3); [apply pow_lt; lra|].
    replace (EARTH_MU / (EARTH_MEAN_RADIUS + 400000) ^ 3 * (EARTH_MEAN_RADIUS + 400000) ^ 3) with EARTH_MU by (field; lra). unfold EARTH_MEAN_RADIUS, EARTH_EQUATORIAL_RADIUS, EARTH_POLAR_RADIUS, EARTH_MU in *. lra. }
  nra.
Qed.
