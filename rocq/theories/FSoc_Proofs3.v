(** Proofs about streets of coverage in binary64: the field of regard and the angle of the footprint. *)
From Coq Require Import ZArith Reals Lra Lia Bool.
From Flocq Require Import Core IEEE754.BinarySingleNaN.
From Verif Require Import Base RBase Float_Model Float_Spec Float_Proofs FGrid_Model FGrid_Proofs FGrid_Proofs2 FTime_Model FTime_Proofs
  FGeom_Model FGeom_Spec Geom_Model Geom_Spec Geom_Proofs Geom_Proofs2 FGeom_Proofs FGeom_Proofs2 FMog_Proofs2 Access_Proofs Mog_Proofs FSoc_Model FSoc_Spec FSoc_Proofs FSoc_Proofs2.
Open Scope R_scope.

Lemma close_nonzero y b d : close y b d -> d < b -> is_zero y = false.
Proof. intros [F D] H. destruct y as [s| | |]; try reflexivity. exfalso. unfold val in D. cbn [B2R] in D. apply Rabs_le_inv in D. lra. Qed.
Lemma close_trans x a b d e : close x a d -> Rabs (a - b) <= e -> close x b (d + e).
Proof. intros [F D] H. split; [exact F|]. replace (val x - b) with ((val x - a) + (a - b)) by ring. eapply Rle_trans; [apply Rabs_triang|lra]. Qed.
Section Libm.
Variables f_sin f_cos f_asin f_acos f_atan : b64 -> b64.
Hypothesis LM : accurate_libm f_sin f_cos f_asin f_acos.
Hypothesis AT : accurate_atan f_atan.
Lemma sin_of_close' x r d : close x r d -> Rabs r <= 1000000 -> 0 <= d <= 1 -> close (f_sin x) (sin r) (d + 9e-16).
Proof.
  intros C HR HD. pose proof (close_bound _ _ _ _ C HR) as HV. destruct C as [F D]. destruct LM as [HC _].
  destruct (HC _ F ltac:(lra)) as [FC DC].
  split; [exact FC|]. replace (val (f_sin x) - sin r) with ((val (f_sin x) - sin (val x)) + (sin (val x) - sin r)) by ring.
  eapply Rle_trans; [apply Rabs_triang|]. pose proof (sin_lip r (val x)). pose proof eps_ok. cbv zeta in *. lra.
Qed.
Lemma asin_far x r d s m : close x r d -> 0 <= m <= 1 -> Rabs r <= m -> Rabs (val x) <= m -> 0 < s -> s * s <= 1 - m * m ->
  close (f_asin x) (asin r) (2 * d / s + 9e-16).
Proof.
  intros [F D] Hm Hr Hx S0 S. destruct LM as [_ [_ [HA _]]]. destruct (HA _ F ltac:(lra)) as [FA DA]. pose proof eps_ok as E.
  assert (Hr' := Hr). assert (Hx' := Hx). apply Rabs_le_inv in Hr'. apply Rabs_le_inv in Hx'.
  assert (L : Rabs (asin (val x) - asin r) <= 2 * d / s). { rewrite asin_acos_abs by lra. apply (acos_close_far _ _ d s m); assumption. }
  split; [exact FA|]. replace (val (f_asin x) - asin r) with ((val (f_asin x) - asin (val x)) + (asin (val x) - asin r)) by ring.
  eapply Rle_trans; [apply Rabs_triang|]. lra.
Qed.
Lemma acos_far x r d s m : close x r d -> 0 <= m <= 1 -> Rabs r <= m -> Rabs (val x) <= m -> 0 < s -> s * s <= 1 - m * m ->
  close (f_acos x) (acos r) (2 * d / s + 9e-16).
Proof.
  intros [F D] Hm Hr Hx S0 S. destruct LM as [_ [_ [_ [HA _]]]]. destruct (HA _ F ltac:(lra)) as [FA DA]. pose proof eps_ok as E.
  pose proof (acos_close_far _ _ d s m Hm Hx Hr D S0 S) as L.
  split; [exact FA|]. replace (val (f_acos x) - acos r) with ((val (f_acos x) - acos (val x)) + (acos (val x) - acos r)) by ring.
  eapply Rle_trans; [apply Rabs_triang|]. lra.
Qed.
Lemma math_asin_ok x : finite x -> Rabs (val x) <= 1 -> math_asin f_asin x = Ok (f_asin x).
Proof.
  intros F B. apply Rabs_le_inv in B. unfold math_asin. destruct (of_Z_spec 1 ltac:(lia)) as [F1 V1]. destruct (of_Z_spec (-1) ltac:(lia)) as [F2 V2].
  rewrite !ltb_val by assumption. rewrite V1, V2. rewrite !Rlt_bool_false by lra. reflexivity.
Qed.

Section Street.
Variables alt sw : b64.
Hypothesis FA : finite alt.
Hypothesis BA : 200000 <= val alt <= 50000000.
Hypothesis FW : finite sw.
Hypothesis ST : street (val alt) (val sw).
Let rho := rho_of (val alt) 0.
Let lam := val sw / 2 / EARTH_MEAN_RADIUS.
Let eta := atan (rho * sin lam / (1 - rho * cos lam)).
Lemma V0 : val (of_Z 0) = 0. Proof. destruct (of_Z_spec 0 ltac:(lia)) as [_ V]. exact V. Qed.
Lemma view0 : viewing alt (of_Z 0).
Proof. pose proof V0 as V. split; [exact FA|]. split; [reflexivity|]. rewrite V. lra. Qed.
Lemma rho_close : close (f_sin_rho alt (of_Z 0)) rho 33e-16.
Proof. destruct (sin_rho_close _ _ view0) as [C _]. rewrite V0 in C. eapply close_weak; [exact C|lra]. Qed.
Lemma lam_value : lam * EARTH_MEAN_RADIUS = val sw / 2.
Proof. pose proof R_bounds. unfold lam. field. lra. Qed.
Lemma lam_close : close (fdiv (fdiv sw (of_Z 2)) (f_radius_at (of_Z 0))) lam 4e-15 /\ is_zero (f_radius_at (of_Z 0)) = false.
Proof.
  pose proof R_bounds as RB. pose proof pi_tight as P. pose proof (st_lam _ _ ST) as L. fold lam in L. pose proof lam_value as LV.
  assert (W : 0 <= val sw / 2 <= 10100000) by (rewrite <- LV; nra).
  assert (O : orbital (of_Z 0)). { split; [reflexivity|]. rewrite V0. lra. }
  pose proof (radius_at_close _ O) as CR. rewrite V0, Rplus_0_r in CR.
  assert (CH : close (fdiv sw (of_Z 2)) (val sw / 2) 2e-9).
  { apply (close_div _ _ _ _ _ _ 2 10100000 0 _ (close_self _ FW) (close_Z 2 ltac:(lia))); try lra.
    - rewrite Rabs_pos_eq; lra. - unfold huge. lra. - unfold u, tiny. lra. }
  split; [|apply (close_nonzero _ _ _ CR); lra].
  unfold lam. apply (close_div _ _ _ _ _ _ 6371008 1.6 3e-15 _ CH CR); try lra.
  - fold lam. rewrite Rabs_pos_eq; lra. - unfold huge. lra. - unfold u, tiny. lra.
Qed.
Lemma eta_facts : 0 <= eta < PI / 2 /\ lam + eta <= PI / 2 /\ rho * sin (lam + eta) = sin eta /\ 0 <= sin (lam + eta) <= 0.9991 /\ 0 <= sin eta <= 0.9692
  /\ 0 <= rho * sin lam / (1 - rho * cos lam) <= 4.
Proof.
  destruct (st_eta _ _ ST) as (E1 & E2 & E3 & E4). fold lam rho in E1, E2, E3, E4. fold eta in E1, E2, E3, E4. pose proof (st_rho _ _ ST) as R1. fold rho in R1.
  pose proof (st_sin _ _ ST) as S1. fold lam in S1.
  assert (S : 0 <= sin eta <= 0.9692) by (rewrite <- E3; nra).
  repeat (split; [assumption|]).
  assert (CL : cos lam <= 1) by (pose proof (COS_bound lam); lra). assert (D0 : 0.03 <= 1 - rho * cos lam) by nra.
  split; [apply Rmult_le_pos; [nra|apply Rlt_le, Rinv_0_lt_compat; lra]|].
  assert (T0 : tan eta = rho * sin lam / (1 - rho * cos lam)) by apply tan_atan. rewrite <- T0. unfold tan.
  assert (S3 : sin eta * sin eta + cos eta * cos eta = 1) by (pose proof (sin2_cos2 eta); unfold Rsqr in *; lra).
  assert (CE : 0 < cos eta) by (apply cos_gt_0; lra). assert (0.246 <= cos eta) by nra.
  apply (quot_range _ _ 0 4); nra.
Qed.
Lemma regard_lemma : exists f, f_swath_to_regard f_sin f_cos f_asin f_atan alt sw (of_Z 0) = Ok f /\ close f (degrees (2 * eta)) 2.12e-9 /\ angle 0 360 f.
Proof.
  destruct lam_close as [CL NZ]. pose proof rho_close as CR. destruct eta_facts as (E1 & E2 & E3 & E4 & E5 & E6).
  pose proof (st_rho _ _ ST) as R1. fold rho in R1. pose proof (st_sin _ _ ST) as S1. fold lam in S1. pose proof (st_lam _ _ ST) as L1. fold lam in L1. pose proof pi_tight as P.
  pose proof (st_cos _ _ ST) as C1. fold lam rho in C1. assert (C2 : cos lam <= 1) by (pose proof (COS_bound lam); lra).
  unfold f_swath_to_regard. rewrite (pdiv_ok _ _ NZ). cbn [bind].
  set (l := fdiv (fdiv sw (of_Z 2)) (f_radius_at (of_Z 0))) in *.
  assert (HS : close (f_sin l) (sin lam) 5e-15).
  { eapply close_weak; [apply (sin_of_close' _ _ _ CL)|]; try lra. rewrite Rabs_pos_eq; lra. }
  set (sl := f_sin l) in *.
  assert (HV : Rabs (val sl) <= 0.995). { pose proof (close_bound _ _ _ 0.994 HS) as H. rewrite Rabs_pos_eq in H by lra. specialize (H ltac:(lra)). lra. }
  assert (HA : close (f_asin sl) lam 1.02e-13).
  { rewrite <- (asin_sin lam) at 1 by lra. eapply close_weak; [apply (asin_far _ _ _ 0.0998 0.995 HS)|]; try lra; try exact HV. rewrite Rabs_pos_eq; lra. }
  assert (HC : close (f_cos (f_asin sl)) (cos lam) 1.05e-13).
  { eapply close_weak; [apply (cos_of_close f_sin f_cos f_asin f_acos LM _ _ _ HA)|]; try lra. rewrite Rabs_pos_eq; lra. }
  set (cl := f_cos (f_asin sl)) in *. set (sr := f_sin_rho alt (of_Z 0)) in *.
  assert (B1 : 0 <= rho * cos lam <= 0.97) by nra. assert (B2 : 0 <= rho * sin lam <= 0.97) by nra.
  assert (HM : close (fmul sr cl) (rho * cos lam) 1.1e-13).
  { apply (close_mul _ _ _ _ _ _ 1 1 1 _ CR HC); try lra; try (rewrite Rabs_pos_eq; lra). - unfold huge. lra. - unfold u, tiny. lra. }
  assert (HD : close (fsub (of_Z 1) (fmul sr cl)) (1 - rho * cos lam) 1.2e-13).
  { apply (close_sub _ _ _ _ _ _ 1 _ (close_Z 1 ltac:(lia)) HM); try lra; try (rewrite Rabs_pos_eq; lra). - unfold huge. lra. - unfold u, tiny. lra. }
  assert (HN : close (fmul sr sl) (rho * sin lam) 1e-14).
  { apply (close_mul _ _ _ _ _ _ 1 1 1 _ CR HS); try lra; try (rewrite Rabs_pos_eq; lra). - unfold huge. lra. - unfold u, tiny. lra. }
  rewrite (pdiv_ok _ _ (close_nonzero _ _ _ HD ltac:(lra))). cbn [bind].
  assert (HT : close (fdiv (fmul sr sl) (fsub (of_Z 1) (fmul sr cl))) (rho * sin lam / (1 - rho * cos lam)) 1.81e-11).
  { apply (close_div _ _ _ _ _ _ 0.03 4 1.8e-11 _ HN HD); try lra. - rewrite Rabs_pos_eq; lra. - unfold huge. lra. - unfold u, tiny. lra. }
  set (t := fdiv (fmul sr sl) (fsub (of_Z 1) (fmul sr cl))) in *.
  assert (HAT : close (f_atan t) eta 1.82e-11).
  { pose proof (close_bound _ _ _ 4 HT) as H. rewrite Rabs_pos_eq in H by lra. specialize (H ltac:(lra)). destruct HT as [FT DT].
    destruct (AT t FT) as [FF DD]; [lra|]. split; [exact FF|]. pose proof eps_ok as EP.
    pose proof (atan_lip (rho * sin lam / (1 - rho * cos lam)) (val t)) as AL. fold eta in AL.
    replace (val (f_atan t) - eta) with ((val (f_atan t) - atan (val t)) + (atan (val t) - eta)) by ring.
    eapply Rle_trans; [apply Rabs_triang|]. lra. }
  assert (H2 : close (fmul (of_Z 2) (f_atan t)) (2 * eta) 3.65e-11).
  { apply (close_mul _ _ _ _ _ _ 2 1.6 4 _ (close_Z 2 ltac:(lia)) HAT); try lra; try (rewrite Rabs_pos_eq; lra). - unfold huge. lra. - unfold u, tiny. lra. }
  assert (HG : close (f_degrees (fmul (of_Z 2) (f_atan t))) (degrees (2 * eta)) 2.12e-9).
  { eapply close_weak; [apply (degrees_close _ _ _ H2)|]; try lra. rewrite Rabs_pos_eq; lra. }
  exists (f_degrees (fmul (of_Z 2) (f_atan t))). split; [reflexivity|]. split; [exact HG|].
  (* nonnegative: the result is close to an angle that is not near zero *)
  assert (TE : 0.0004 <= eta).
  { assert (0.0004 <= sin eta). { rewrite <- E3. pose proof (sin_half (lam + eta) ltac:(lra)). nra. } pose proof (Access_Proofs.sine_le eta ltac:(lra)). lra. }
  destruct HG as [FG DG]. split; [exact FG|]. apply Rabs_le_inv in DG.
  assert (DB : 0.01 <= degrees (2 * eta) <= 180).
  { unfold degrees. split; [apply Rmult_le_reg_r with PI; [lra|]; replace (2 * eta * (180 / PI) * PI) with (360 * eta) by (field; lra); nra
    |apply Rmult_le_reg_r with PI; [lra|]; replace (2 * eta * (180 / PI) * PI) with (360 * eta) by (field; lra); nra]. }
  lra.
Qed.
End Street.
End Libm.
