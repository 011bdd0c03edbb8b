(** Proofs about streets of coverage in binary64: the counts. *)
From Coq Require Import ZArith Reals Lra Lia Bool.
From Flocq Require Import Core IEEE754.BinarySingleNaN.
From Verif Require Import Base RBase Float_Model Float_Spec Float_Proofs FGrid_Model FGrid_Proofs FGrid_Proofs2 FTime_Model FTime_Proofs
  FGeom_Model FGeom_Spec Geom_Model Geom_Spec Geom_Proofs Geom_Proofs2 FGeom_Proofs FGeom_Proofs2 FMog_Proofs2 Access_Proofs Mog_Proofs FSoc_Model FSoc_Spec FSoc_Proofs FSoc_Proofs2 FSoc_Proofs3.
Open Scope R_scope.

Section Libm.
Variables f_sin f_cos f_asin f_acos f_atan : b64 -> b64.
Hypothesis LM : accurate_libm f_sin f_cos f_asin f_acos.
Hypothesis AT : accurate_atan f_atan.
Section Street.
Variables alt sw : b64.
Hypothesis FA : finite alt.
Hypothesis BA : 200000 <= val alt <= 50000000.
Hypothesis FW : finite sw.
Hypothesis ST : street (val alt) (val sw).
Let rho := rho_of (val alt) 0.
Let lam := val sw / 2 / EARTH_MEAN_RADIUS.
Let eta := atan (rho * sin lam / (1 - rho * cos lam)).
Lemma deg_rad x : degrees x * (PI / 180) = x.
Proof. pose proof pi_tight. unfold degrees. field. lra. Qed.
Lemma gamma_lemma : exists g, f_soc_gamma f_sin f_cos f_asin f_acos f_atan alt sw = Ok g /\ close g (degrees lam) 5.7e-7.
Proof.
  destruct (regard_lemma f_sin f_cos f_asin f_acos f_atan LM AT alt sw FA BA FW ST) as (f & Ef & Cf & Af). fold rho lam in Cf. fold eta in Cf.
  pose proof (rho_close alt FA BA) as CR. fold rho in CR. destruct (eta_facts alt sw BA ST) as (E1 & E2 & E3 & E4 & E5 & E6). fold rho lam in E1, E2, E3, E4, E5. fold eta in E1, E2, E3, E4, E5.
  pose proof (st_rho _ _ ST) as R1. fold rho in R1. pose proof (st_lam _ _ ST) as L1. fold lam in L1. pose proof pi_tight as P. pose proof R_bounds as RB.
  unfold f_soc_gamma. rewrite Ef. cbn [bind].
  destruct (sin_eta_close f_sin f_cos f_asin f_acos LM _ Af) as [CS _].
  assert (CS' : close (f_sin_eta f_sin f) (sin eta) 1.86e-11).
  { eapply close_weak; [apply (close_trans _ _ (sin eta) _ 1.855e-11 CS)|lra].
    eapply Rle_trans; [apply sin_lip|]. destruct Cf as [_ D]. unfold radians.
    replace (val f * (PI / 180) / 2 - eta) with ((val f - degrees (2 * eta)) * (PI / 360)) by (unfold degrees; field; lra).
    rewrite Rabs_mult, (Rabs_pos_eq (PI / 360)) by lra. apply Rle_trans with (2.12e-9 * (PI / 360)); [apply Rmult_le_compat_r; lra|lra]. }
  unfold f_min_elevation_angle. set (x := fdiv (f_sin_eta f_sin f) (f_sin_rho alt (of_Z 0))) in *. set (y := sin (lam + eta)) in *.
  assert (YE : sin eta / rho = y) by (rewrite <- E3; field; lra).
  assert (CX : close x y 1.67e-10).
  { rewrite <- YE. apply (close_div _ _ _ _ _ _ 0.112 1 1.662e-10 _ CS' CR); try lra. - rewrite YE, Rabs_pos_eq; lra. - unfold huge. lra. - unfold u, tiny. lra. }
  assert (XB : Rabs (val x) <= 0.9992). { pose proof (close_bound _ _ _ 0.9991 CX) as H. rewrite Rabs_pos_eq in H by lra. specialize (H ltac:(lra)). lra. }
  pose proof CX as [FX DX]. assert (XB' := XB). apply Rabs_le_inv in XB'.
  destruct (of_Z_spec 1 ltac:(lia)) as [F1 V1]. rewrite ltb_val by assumption. rewrite V1, Rlt_bool_false by lra.
  assert (AY : acos y = PI / 2 - (lam + eta)) by (unfold y; apply acos_sin; lra).
  assert (CA : close (f_acos x) (PI / 2 - (lam + eta)) 8.4e-9).
  { rewrite <- AY. eapply close_weak; [apply (acos_far f_sin f_cos f_asin f_acos LM _ _ _ 0.0399 0.9992 CX)|]; try lra; try exact XB. rewrite Rabs_pos_eq; lra. }
  set (e := f_degrees (f_acos x)).
  assert (CE : close e (degrees (PI / 2 - (lam + eta))) 4.88e-7).
  { eapply close_weak; [apply (degrees_close _ _ _ CA)|]; try lra. rewrite Rabs_pos_eq; lra. }
  assert (CA0 : close (f_acos x) (acos (val x)) 9e-16).
  { destruct LM as [_ [_ [_ [HA _]]]]. destruct (HA _ FX ltac:(lra)) as [FF DD]. split; [exact FF|]. pose proof eps_ok. lra. }
  pose proof (acos_bound (val x)) as AB.
  assert (CE0 : close e (degrees (acos (val x))) 2.6e-13).
  { eapply close_weak; [apply (degrees_close _ _ _ CA0)|]; try lra. rewrite Rabs_pos_eq; lra. }
  assert (AE : angle (-1) 181 e).
  { destruct CE0 as [F D]. split; [exact F|]. apply Rabs_le_inv in D.
    assert (0 <= degrees (acos (val x)) <= 180).
    { unfold degrees. split; apply Rmult_le_reg_r with PI; try lra; replace (acos (val x) * (180 / PI) * PI) with (180 * acos (val x)) by (field; lra); nra. }
    lra. }
  pose proof (radians_close _ _ _ AE ltac:(lra) ltac:(lra)) as CRE.
  assert (CRA : close (f_radians e) (acos (val x)) 8e-15).
  { eapply close_weak; [apply (close_trans _ _ (acos (val x)) _ 5e-15 CRE)|lra]. unfold radians. destruct CE0 as [_ D].
    rewrite <- (deg_rad (acos (val x))). rewrite <- Rmult_minus_distr_r, Rabs_mult, (Rabs_pos_eq (PI / 180)) by lra.
    apply Rle_trans with (2.6e-13 * (PI / 180)); [apply Rmult_le_compat_r; lra|lra]. }
  assert (CC : close (f_cos (f_radians e)) y 1.671e-10).
  { assert (C0 : close (f_cos (f_radians e)) (val x) 9e-15).
    { rewrite <- (cos_acos (val x)) by lra. eapply close_weak; [apply (cos_of_close f_sin f_cos f_asin f_acos LM _ _ _ CRA)|]; try lra. rewrite Rabs_pos_eq; lra. }
    eapply close_weak; [apply (close_trans _ _ y _ _ C0 DX)|lra]. }
  assert (O : orbital alt) by (split; [exact FA|lra]). pose proof (radius_at_close _ O) as CH.
  rewrite (pdiv_ok _ _ (close_nonzero _ _ _ CH ltac:(lra))). cbn [bind].
  assert (RE : EARTH_MEAN_RADIUS / (EARTH_MEAN_RADIUS + val alt) = rho) by (unfold rho, rho_of; now rewrite Rplus_0_r).
  assert (CQ : close (fdiv f_mean_radius (f_radius_at alt)) rho 3e-15).
  { rewrite <- RE. apply (close_div _ _ _ _ _ _ 6571008 1 2e-15 _ radius_close CH); try lra. - rewrite RE, Rabs_pos_eq; lra. - unfold huge. lra. - unfold u, tiny. lra. }
  assert (CP : close (fmul (fdiv f_mean_radius (f_radius_at alt)) (f_cos (f_radians e))) (sin eta) 1.68e-10).
  { rewrite <- E3. apply (close_mul _ _ _ _ _ _ 1 1 1 _ CQ CC); try lra; try (rewrite Rabs_pos_eq; lra).
    - unfold huge. lra. - unfold u, tiny. lra. }
  set (q := fmul (fdiv f_mean_radius (f_radius_at alt)) (f_cos (f_radians e))) in *.
  assert (QB : Rabs (val q) <= 0.97). { pose proof (close_bound _ _ _ 0.9692 CP) as H. rewrite Rabs_pos_eq in H by lra. specialize (H ltac:(lra)). lra. }
  rewrite (math_asin_ok f_asin q (proj1 CP)) by lra. cbn [bind].
  assert (CI : close (f_asin q) eta 1.39e-9).
  { rewrite <- (asin_sin eta) at 1 by lra. eapply close_weak; [apply (asin_far f_sin f_cos f_asin f_acos LM _ _ _ 0.243 0.97 CP)|]; try lra; try exact QB. rewrite Rabs_pos_eq; lra. }
  assert (CD : close (f_degrees (f_asin q)) (degrees eta) 8.1e-8).
  { eapply close_weak; [apply (degrees_close _ _ _ CI)|]; try lra. rewrite Rabs_pos_eq; lra. }
  assert (DB : forall z, 0 <= z <= PI / 2 -> 0 <= degrees z <= 90).
  { intros z Hz. unfold degrees. split; apply Rmult_le_reg_r with PI; try lra; replace (z * (180 / PI) * PI) with (180 * z) by (field; lra); nra. }
  assert (D1 : 90 - degrees (PI / 2 - (lam + eta)) = degrees (lam + eta)) by (unfold degrees; field; lra).
  assert (D2 : degrees (lam + eta) - degrees eta = degrees lam) by (unfold degrees; field; lra).
  pose proof (DB (lam + eta) ltac:(lra)) as B1. pose proof (DB lam ltac:(lra)) as B2.
  assert (C9 : close (fsub (of_Z 90) e) (degrees (lam + eta)) 4.881e-7).
  { rewrite <- D1. apply (close_sub _ _ _ _ _ _ 90 _ (close_Z 90 ltac:(lia)) CE); try lra. - rewrite D1, Rabs_pos_eq; lra. - unfold huge. lra. - unfold u, tiny. lra. }
  exists (fsub (fsub (of_Z 90) e) (f_degrees (f_asin q))). split; [reflexivity|].
  rewrite <- D2. apply (close_sub _ _ _ _ _ _ 90 _ C9 CD); try lra. - rewrite D2, Rabs_pos_eq; lra. - unfold huge. lra. - unfold u, tiny. lra.
Qed.
Lemma foot_lemma g : close g (degrees lam) 5.7e-7 -> close (fmul f_mean_radius (f_sin (f_radians g))) (EARTH_MEAN_RADIUS * sin lam) 0.064.
Proof.
  intro CG. pose proof (st_lam _ _ ST) as L1. fold lam in L1. pose proof (st_sin _ _ ST) as S1. fold lam in S1. pose proof pi_tight as P. pose proof R_bounds as RB.
  assert (DB : 0 <= degrees lam <= 90).
  { unfold degrees. split; apply Rmult_le_reg_r with PI; try lra; replace (lam * (180 / PI) * PI) with (180 * lam) by (field; lra); nra. }
  assert (C1 : close (f_radians g) lam 1e-8).
  { rewrite <- (deg_rad lam). unfold f_radians.
    apply (close_mul _ _ _ _ _ _ 90 0.01746 1.6 _ CG radians_const); try lra; try (rewrite Rabs_pos_eq; lra).
    - rewrite deg_rad, Rabs_pos_eq; lra. - unfold huge. lra. - unfold u, tiny. lra. }
  assert (C2 : close (f_sin (f_radians g)) (sin lam) 1.001e-8).
  { eapply close_weak; [apply (sin_of_close' f_sin f_cos f_asin f_acos LM _ _ _ C1)|]; try lra. rewrite Rabs_pos_eq; lra. }
  apply (close_mul _ _ _ _ _ _ 6371009 1 6371009 _ radius_close C2); try lra; try (rewrite Rabs_pos_eq; nra).
  - unfold huge. lra. - unfold u, tiny. lra.
Qed.
End Street.

(** ** Counts *)
Lemma ceil_val x : np_ceil x = Zceil (val x).
Proof.
  unfold np_ceil. rewrite Btrunc_val. unfold val at 1. destruct (Bnearbyint_correct 53 1024 emax64 mode_UP x) as [Ev _]. rewrite Ev. cbn [round_mode].
  rewrite round_fix, Ztrunc_IZR. reflexivity.
Qed.
Lemma count_lemma d q : 8.4e-4 <= q <= 0.994 -> close d (2 * (EARTH_MEAN_RADIUS * q)) 0.13 ->
  exists k, f_soc_count f_asin d = Ok k /\ near_least q k /\ (1 <= k)%Z.
Proof.
  intros HQ CD. pose proof R_bounds as RB. pose proof pi_tight as P.
  assert (CH : close (fdiv (of_Z 1) (of_Z 2)) (1 / 2) 1.2e-16).
  { apply (close_div _ _ _ _ _ _ 2 0.5 0 _ (close_Z 1 ltac:(lia)) (close_Z 2 ltac:(lia))); try lra. - rewrite Rabs_pos_eq; lra. - unfold huge. lra. - unfold u, tiny. lra. }
  assert (BQ : 0 <= EARTH_MEAN_RADIUS * q <= 6371009) by nra.
  assert (HE : EARTH_MEAN_RADIUS * q = 1 / 2 * (2 * (EARTH_MEAN_RADIUS * q))) by lra.
  assert (C1 : close (fmul (fdiv (of_Z 1) (of_Z 2)) d) (EARTH_MEAN_RADIUS * q) 0.066).
  { rewrite HE. apply (close_mul _ _ _ _ _ _ 0.5 12742018 6371009 _ CH CD); try lra; try (rewrite Rabs_pos_eq; lra). - unfold huge. lra. - unfold u, tiny. lra. }
  unfold f_soc_count. rewrite (pdiv_ok _ _ (close_nonzero _ _ _ radius_close ltac:(lra))). cbn [bind].
  set (x := fdiv (fmul (fdiv (of_Z 1) (of_Z 2)) d) f_mean_radius).
  assert (QE : EARTH_MEAN_RADIUS * q / EARTH_MEAN_RADIUS = q) by (field; lra).
  assert (CX : close x q 1.05e-8).
  { rewrite <- QE. apply (close_div _ _ _ _ _ _ 6371008 1 1.04e-8 _ C1 radius_close); try lra. - rewrite QE, Rabs_pos_eq; lra. - unfold huge. lra. - unfold u, tiny. lra. }
  assert (XB : Rabs (val x) <= q + 1.05e-8). { apply (close_bound _ _ _ q CX). rewrite Rabs_pos_eq; lra. }
  rewrite (math_asin_ok f_asin x (proj1 CX)) by lra. cbn [bind].
  assert (SQ : sin (asin q) = q) by (apply sin_asin; lra).
  pose proof (asin_bound q) as AB.
  assert (A0 : 0 <= asin q). { rewrite <- asin_0. apply asin_le; lra. }
  assert (AQ : q <= asin q). { rewrite <- SQ at 1. apply sine_le. exact A0. }
  assert (AL : asin q < PI / 2). { destruct (Rlt_or_le (asin q) (PI / 2)) as [|G]; [assumption|]. assert (asin q = PI / 2) by lra. rewrite H, sin_PI2 in SQ. lra. }
  assert (CY : exists Y, close (fdiv (fmul (of_Z 2) f_pi) (fmul (of_Z 2) (f_asin x))) (2 * PI / (2 * asin q)) Y /\ Y <= 0.14 /\ is_zero (fmul (of_Z 2) (f_asin x)) = false).
  { assert (CP : close (fmul (of_Z 2) f_pi) (2 * PI) 2e-15).
    { apply (close_mul _ _ _ _ _ _ 2 3.2 6.3 _ (close_Z 2 ltac:(lia)) pi_close); try lra; try (rewrite Rabs_pos_eq; lra). - unfold huge. lra. - unfold u, tiny. lra. }
    assert (Q0 : 0 <= 2 * PI / (2 * asin q)) by (apply Rmult_le_pos; [lra|apply Rlt_le, Rinv_0_lt_compat; lra]).
    destruct (Rle_or_lt q 0.5) as [HS|HS].
    - assert (CA : close (f_asin x) (asin q) 2.45e-8).
      { eapply close_weak; [apply (asin_far f_sin f_cos f_asin f_acos LM _ _ _ 0.86 0.51 CX)|]; try lra. rewrite Rabs_pos_eq; lra. }
      assert (C2 : close (fmul (of_Z 2) (f_asin x)) (2 * asin q) 4.91e-8).
      { apply (close_mul _ _ _ _ _ _ 2 1.6 3.2 _ (close_Z 2 ltac:(lia)) CA); try lra; try (rewrite Rabs_pos_eq; lra). - unfold huge. lra. - unfold u, tiny. lra. }
      exists 0.14. split; [|split; [lra|apply (close_nonzero _ _ _ C2); lra]].
      apply (close_div _ _ _ _ _ _ 0.00168 4000 0.13 _ CP C2); try lra.
      + rewrite Rabs_pos_eq by exact Q0. apply (quot_range _ _ 0 4000); lra. + unfold huge. lra. + unfold u, tiny. lra.
    - assert (CA : close (f_asin x) (asin q) 2.03e-7).
      { eapply close_weak; [apply (asin_far f_sin f_cos f_asin f_acos LM _ _ _ 0.104 0.9945 CX)|]; try lra. rewrite Rabs_pos_eq; lra. }
      assert (C2 : close (fmul (of_Z 2) (f_asin x)) (2 * asin q) 4.07e-7).
      { apply (close_mul _ _ _ _ _ _ 2 1.6 3.2 _ (close_Z 2 ltac:(lia)) CA); try lra; try (rewrite Rabs_pos_eq; lra). - unfold huge. lra. - unfold u, tiny. lra. }
      exists 0.14. split; [|split; [lra|apply (close_nonzero _ _ _ C2); lra]].
      apply (close_div _ _ _ _ _ _ 1 7 0.13 _ CP C2); try lra.
      + rewrite Rabs_pos_eq by exact Q0. apply (quot_range _ _ 0 7); lra. + unfold huge. lra. + unfold u, tiny. lra. }
  destruct CY as (Y & CY & BY & NZ). rewrite (pdiv_ok _ _ NZ). cbn [bind].
  set (z := fdiv (fmul (of_Z 2) f_pi) (fmul (of_Z 2) (f_asin x))) in *. set (Z := 2 * PI / (2 * asin q)) in *.
  assert (MC : math_ceil z = Ok (Zceil (val z))).
  { unfold math_ceil. rewrite <- ceil_val. destruct CY as [FZ _]. destruct z; try discriminate FZ; reflexivity. }
  exists (Zceil (val z)). split; [exact MC|]. destruct CY as [_ DZ]. apply Rabs_le_inv in DZ.
  destruct (least_steps_ceil (2 * asin q) ltac:(lra)) as [LS LK]. fold Z in LS, LK.
  pose proof (base_Int_part (- Z)) as IP. unfold py_ceil in LS, LK. set (n := (- Int_part (- Z))%Z) in *.
  assert (NE : IZR (Int_part (- Z)) = - IZR n) by (unfold n; rewrite opp_IZR; lra). rewrite NE in IP.
  pose proof (Zceil_ub (val z)) as U1. pose proof (Zceil_lb (val z)) as U2. set (k := Zceil (val z)) in *.
  assert (K1 : (k < n + 2)%Z) by (apply lt_IZR; rewrite plus_IZR; lra).
  assert (K2 : (n < k + 2)%Z) by (apply lt_IZR; rewrite plus_IZR; lra).
  split; [|lia]. exists (2 * asin q), n. split; [lra|]. split; [replace (2 * asin q / 2) with (asin q) by lra; exact SQ|]. split; [exact LS|lia].
Qed.
Lemma sqrt3_close : close (fsqrt (of_Z 3)) (sqrt 3) 3e-16 /\ 1.732 <= sqrt 3 <= 1.7321.
Proof.
  assert (B : 1.732 <= sqrt 3 <= 1.7321). { split; [apply Rsqr_incr_0_var|apply Rsqr_incr_0_var]; try apply sqrt_pos; try lra; rewrite ?Rsqr_sqrt by lra; unfold Rsqr; lra. }
  split; [|exact B]. apply (close_sqrt _ _ _ 1.7 1.74 0 _ (close_Z 3 ltac:(lia))); try lra. unfold u, tiny. lra.
Qed.
Lemma counts_lemma s : usual_streets s -> let lam := val (fs_swath s) / 2 / EARTH_MEAN_RADIUS in
  exists k p, f_soc_walker f_sin f_cos f_asin f_acos f_atan s = Ok (k, p)
    /\ near_least (val (fs_packing s) * sin lam) k /\ near_least (sqrt 3 / 2 * (val (fs_packing s) * sin lam)) p.
Proof.
  intros (FA & BA & FW & BW & FP & BP & HL & HM) lam. pose proof (street_facts _ _ BA BW HL HM) as ST.
  destruct (gamma_lemma _ _ FA BA FW ST) as (g & Eg & Cg). pose proof (foot_lemma _ _ ST _ Cg) as CF. fold lam in CF. pose proof (st_sin _ _ ST) as S1. fold lam in S1.
  pose proof R_bounds as RB. destruct sqrt3_close as [C3 B3]. set (t := val (fs_packing s)) in *.
  assert (CT : close (fs_packing s) t 0) by exact (close_self _ FP).
  assert (BF : 0 <= EARTH_MEAN_RADIUS * sin lam <= 6340000) by nra.
  assert (BT : 0.000975 <= t * sin lam <= 0.994) by nra.
  unfold f_soc_walker, f_soc_counts. rewrite Eg. cbn [bind]. set (r := fmul f_mean_radius (f_sin (f_radians g))) in *. set (rf := EARTH_MEAN_RADIUS * sin lam) in *.
  assert (C2 : close (fmul (of_Z 2) r) (2 * rf) 0.129).
  { apply (close_mul _ _ _ _ _ _ 2 6340000 12680000 _ (close_Z 2 ltac:(lia)) CF); try lra; try (rewrite Rabs_pos_eq; lra). - unfold huge. lra. - unfold u, tiny. lra. }
  assert (C2p : close (fmul (fmul (of_Z 2) r) (fs_packing s)) (2 * (EARTH_MEAN_RADIUS * (t * sin lam))) 0.13).
  { replace (2 * (EARTH_MEAN_RADIUS * (t * sin lam))) with (2 * rf * t) by (unfold rf; ring).
    assert (BX : 0 <= 2 * rf <= 12680000) by lra. assert (BY : 0 <= 2 * rf * t <= 12680000) by (clear - BX BP; set (v := 2 * rf) in *; clearbody v t; nra).
    apply (close_mul _ _ _ _ _ _ 12680000 1 12680000 _ C2 CT); try lra; try (rewrite Rabs_pos_eq; lra). - unfold huge. lra. - unfold u, tiny. lra. }
  assert (C4 : close (fmul (fsqrt (of_Z 3)) r) (sqrt 3 * rf) 0.129).
  { apply (close_mul _ _ _ _ _ _ 1.74 6340000 12680000 _ C3 CF); try lra; try (rewrite Rabs_pos_eq; nra). - unfold huge. lra. - unfold u, tiny. lra. }
  assert (C4p : close (fmul (fmul (fsqrt (of_Z 3)) r) (fs_packing s)) (2 * (EARTH_MEAN_RADIUS * (sqrt 3 / 2 * (t * sin lam)))) 0.13).
  { replace (2 * (EARTH_MEAN_RADIUS * (sqrt 3 / 2 * (t * sin lam)))) with (sqrt 3 * rf * t) by (unfold rf; field).
    assert (BX : 0 <= sqrt 3 * rf <= 12680000) by (clear - BF B3; clearbody rf; nra). assert (BY : 0 <= sqrt 3 * rf * t <= 12680000) by (clear - BX BP; set (v := sqrt 3 * rf) in *; clearbody v t; nra).
    apply (close_mul _ _ _ _ _ _ 12680000 1 12680000 _ C4 CT); try lra; try (rewrite Rabs_pos_eq; lra). - unfold huge. lra. - unfold u, tiny. lra. }
  assert (BQ : 8.4e-4 <= t * sin lam <= 0.994) by lra.
  destruct (count_lemma _ _ BQ C2p) as (k & Ek & Nk & Pk). rewrite Ek. cbn [bind].
  assert (BT' : 8.4e-4 <= sqrt 3 / 2 * (t * sin lam) <= 0.994) by (clear - BT B3; set (v := t * sin lam) in *; clearbody v; nra).
  destruct (count_lemma _ _ BT' C4p) as (p & Ep & Np & Pp). rewrite Ep. cbn [bind fst snd].
  exists k, p. replace ((1 <=? k * p)%Z && (1 <=? p)%Z && (p <=? k * p)%Z) with true.
  - split; [reflexivity|]. split; assumption.
  - symmetry. rewrite !andb_true_iff, !Z.leb_le. nia.
Qed.
End Libm.
