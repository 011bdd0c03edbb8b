(** Orbits of the members of mutual orbiting groups in binary64. *)
From Coq Require Import ZArith Reals Lra Lia Bool List.
From Flocq Require Import Core Relative IEEE754.BinarySingleNaN.
From Verif Require Import Base RBase RFacts Float_Model Float_Spec Float_Proofs FGrid_Model FTime_Model FTime_Proofs AnomalyRound_Proofs Mog_Proofs
  FGeom_Model FGeom_Spec FGeom_Proofs FGeom_Proofs2 FMog_Model FMog_Spec FMog_Proofs FMog_Proofs2 FMog_Proofs3.
Import ListNotations.
Open Scope R_scope.

Lemma in_bound_ok hi x : (0 < hi <= 360)%Z -> finite x -> 0 <= val x < IZR hi -> f_in_bound hi x = true.
Proof.
  intros H F B. unfold f_in_bound. destruct f0 as [F0 V0]. destruct (of_Z_spec hi ltac:(lia)) as [F1 V1]. rewrite Bleb_fin, Bltb_fin, V0, V1 by assumption.
  rewrite Rle_bool_true, Rlt_bool_true by lra. reflexivity.
Qed.
Lemma degrees_wide x : finite x -> Rabs (val x) <= 10 -> close (f_degrees x) (val x * (180 / PI)) (/ 1000000000).
Proof.
  intros F B. unfold f_degrees. pose proof pi_tight as P.
  assert (Q : 57 <= 180 / PI <= 57.3). { split; apply Rmult_le_reg_r with PI; try lra; unfold Rdiv; rewrite Rmult_assoc, Rinv_l by lra; lra. }
  apply (close_mul _ _ _ _ _ _ 10 57.3 573 _ (close_self x F) degrees_const B); try lra.
  - rewrite Rabs_pos_eq; lra.
  - rewrite Rabs_mult, (Rabs_pos_eq (180 / PI)) by lra. replace 573 with (10 * 57.3) by lra. apply Rmult_le_compat; auto using Rabs_pos; lra.
  - unfold huge. lra. - unfold u, tiny. lra.
Qed.
(** The last step for every angle: a number of [0, 360). *)
Lemma wrap_val x d r : finite x -> Rabs (val x) <= 10 -> -3.2 <= val x -> close (f_degrees x) r d -> 0 <= d <= 1 -> -185 <= r <= 600 ->
  exists v, close v (360 + r) (d + / 1000000000000) /\ 100 <= val v /\ finite (f_wrap x) /\ val (f_wrap x) = rmod (val v) 360 /\ 0 <= val (f_wrap x) < 360.
Proof.
  intros F B L C D R'. exists (fadd (of_Z 360) (f_degrees x)).
  assert (CV : close (fadd (of_Z 360) (f_degrees x)) (360 + r) (d + / 1000000000000)).
  { apply (close_add _ _ _ _ _ _ 960 _ (close_Z 360 ltac:(lia)) C); [apply Rabs_le; lra|unfold huge; lra|unfold u, tiny; lra]. }
  split; [exact CV|]. destruct CV as [FV DV]. apply Rabs_le_inv in DV. split; [lra|].
  destruct f360 as [F3 V3]. destruct (np_mod_spec _ _ FV F3 ltac:(lra)) as [FM VM]. rewrite V3 in VM.
  assert (E : val (f_wrap x) = rmod (val (fadd (of_Z 360) (f_degrees x))) 360).
  { unfold f_wrap. rewrite VM, <- rd_rnd. apply rd_fmt. apply rmod_fmt_nonneg; [exact FV|lra]. }
  split; [exact FM|]. split; [exact E|]. rewrite E. apply rmod_range. lra.
Qed.
Lemma wrap_ok x : finite x -> -3.2 <= val x <= 10 -> finite (f_wrap x) /\ 0 <= val (f_wrap x) < 360.
Proof.
  intros F B. assert (A : Rabs (val x) <= 10) by (apply Rabs_le; lra). pose proof (degrees_wide x F A) as C. pose proof pi_tight as P.
  assert (Q : 57 <= 180 / PI <= 57.3). { split; apply Rmult_le_reg_r with PI; try lra; unfold Rdiv; rewrite Rmult_assoc, Rinv_l by lra; lra. }
  destruct (wrap_val x _ _ F A (proj1 B) C ltac:(lra)) as (v & _ & _ & W & _ & R'); [|auto]. split; nra.
Qed.
Lemma wrap_small x r d : close x r d -> 0.0001 <= r <= 3.15 -> 0 <= d <= / 100000 -> 0.001 <= degrees r <= 179.999 ->
  close (f_wrap x) (degrees r) (58 * d + / 100000000000).
Proof.
  intros C R' D G. assert (A : Rabs r <= 7) by (rewrite Rabs_pos_eq; lra). pose proof (degrees_close x r d C A ltac:(lra)) as CD.
  destruct C as [F DX]. apply Rabs_le_inv in DX.
  destruct (wrap_val x _ _ F ltac:(apply Rabs_le; lra) ltac:(lra) CD ltac:(lra) ltac:(lra)) as (v & [FV DV] & _ & W & E & _).
  split; [exact W|]. apply Rabs_le_inv in DV. rewrite E. replace (rmod (val v) 360) with (val v - 360).
  - apply Rabs_le. lra.
  - symmetry. apply rmod_unique; [lra|lra|]. exists 1%Z. lra.
Qed.

(** ** Positions *)
Lemma theta_close m k : counted m -> (0 < fm_number m)%nat -> (k < fm_number m)%nat ->
  close (f_mog_theta m k) (position_of m k) (4 / 100000000000000) /\ 0 <= position_of m k <= 7.
Proof.
  intros CN PN HK. unfold counted in CN. unfold f_mog_theta, position_of. set (N := Z.of_nat (fm_number m)) in *.
  assert (NZ : (1 <= N <= 1048576)%Z) by lia. assert (NB : 1 <= IZR N <= 1048576) by (split; apply IZR_le; lia). pose proof pi_tight as P.
  replace (INR (fm_number m)) with (IZR N) by (unfold N; symmetry; apply INR_IZR_INZ). rewrite (INR_IZR_INZ k). set (K := Z.of_nat k).
  assert (KB : 0 <= IZR K <= IZR N) by (split; apply IZR_le; lia).
  assert (ST : rel (fdiv (fmul (of_Z 2) f_pi) (of_Z N)) (2 * PI / IZR N) (40 / 100000000000000000)).
  { apply (rel_div _ _ _ _ (18 / 100000000000000000) 0 (20 / 100000000000000000) _ two_pi_rel (rel_Z N ltac:(lia))); try (unfold u; lra).
    split; apply Rmult_le_reg_r with (IZR N); try lra; unfold Rdiv; rewrite ?(Rmult_assoc (2 * PI)), Rinv_l by lra; unfold small, huge; nra. }
  assert (SB : 0 <= 2 * PI / IZR N) by (apply Rlt_le, Rdiv_lt_0_compat; lra).
  assert (PB : 0 <= IZR K * (2 * PI / IZR N) <= 6.3).
  { split; [apply Rmult_le_pos; lra|]. apply Rle_trans with (IZR N * (2 * PI / IZR N)); [apply Rmult_le_compat_r; lra|]. replace (IZR N * (2 * PI / IZR N)) with (2 * PI) by (field; lra). lra. }
  split; [|lra].
  assert (KS : close (fmul (of_Z K) (fdiv (fmul (of_Z 2) f_pi) (of_Z N))) (IZR K * (2 * PI / IZR N)) (/ 100000000000000)).
  { destruct (Z.eq_dec K 0) as [Z0|NZ0].
    - rewrite Z0. assert (SP : close (fdiv (fmul (of_Z 2) f_pi) (of_Z N)) (2 * PI / IZR N) 1).
      { apply (rel_close _ _ _ _ ST SB). assert (2 * PI / IZR N <= 7). { apply Rmult_le_reg_r with (IZR N); [lra|]. unfold Rdiv. rewrite Rmult_assoc, Rinv_l by lra. nra. } lra. }
      apply (close_mul _ _ _ _ 0 1 0 7 0 _ z0 SP); try lra.
      + rewrite Rabs_R0. lra.
      + rewrite Rabs_pos_eq by exact SB. apply Rmult_le_reg_r with (IZR N); [lra|]. unfold Rdiv. rewrite Rmult_assoc, Rinv_l by lra. nra.
      + rewrite Rmult_0_l, Rabs_R0. lra. + unfold huge. lra. + unfold u, tiny. lra.
    - assert (K1 : 1 <= IZR K) by (apply IZR_le; unfold K in *; lia).
      assert (RM : rel (fmul (of_Z K) (fdiv (fmul (of_Z 2) f_pi) (of_Z N))) (IZR K * (2 * PI / IZR N)) (60 / 100000000000000000)).
      { assert (SBp : 0 < 2 * PI / IZR N) by (apply Rdiv_lt_0_compat; lra).
        assert (SL : 2 * small <= 2 * PI / IZR N). { apply Rmult_le_reg_r with (IZR N); [lra|]. unfold Rdiv. rewrite (Rmult_assoc (2 * PI)), Rinv_l by lra. unfold small. nra. }
        apply (rel_mul _ _ _ _ 0 (40 / 100000000000000000) (41 / 100000000000000000) _ (rel_Z K ltac:(unfold K in *; lia)) ST); try (unfold u; lra).
        split; [|unfold huge; lra]. apply Rle_trans with (1 := SL). rewrite <- (Rmult_1_l (2 * PI / IZR N)) at 1. apply Rmult_le_compat_r; lra. }
      apply (rel_close _ _ _ _ RM); lra. }
  replace (IZR K * (2 * PI / IZR N)) with (IZR K * (2 * PI / IZR N) + 0) by ring.
  apply (close_add _ _ _ _ _ _ 7 _ KS z0); [rewrite Rabs_pos_eq; lra|unfold huge; lra|unfold u, tiny; lra].
Qed.

Section Group.
Variable m : f_mog.
Hypothesis RF : referenced m.
Variables (f_sin f_cos f_asin f_acos : b64 -> b64) (f_atan2 : b64 -> b64 -> b64) (f_dot : fv3 -> fv3 -> b64).
Hypothesis LM : accurate_libm f_sin f_cos f_asin f_acos.
Hypothesis AT : accurate_atan2 f_atan2.
Hypothesis DOT : accurate_dot f_dot.
Hypothesis TI : tilted m.
Hypothesis CN : counted m.
Let members fuel := f_mog_members f_sin f_cos f_acos f_atan2 f_dot fuel m.
Lemma members_endless fuel : fm_clockwise m = true -> Rabs (val (fm_parallel m) / (4 * distance_of m) - PI / 2) <= / 2000 -> members fuel = None.
Proof.
  intros CW E. unfold members, f_mog_members. rewrite (nonzero m RF). pose proof pi_tight as P. pose proof (a_range m RF) as A.
  assert (PN : (0 < fm_number m)%nat) by apply RF. destruct (fm_number m) as [|N] eqn:EN; [lia|]. rewrite <- EN in PN.
  cbn [seq f_mog_orbits]. destruct (theta_close m 0 CN PN ltac:(lia)) as [TH TB].
  assert (T0 : position_of m 0 = 0) by (unfold position_of; cbn; ring). rewrite T0 in TH.
  pose proof (n_quarter m RF _ _ _ _ _ _ LM AT DOT TI _ 0 TH ltac:(rewrite Rabs_R0; lra) CW cos_0 sin_0) as NQ.
  destruct (n_finite m RF _ _ _ _ _ _ LM AT DOT TI _ 0 TH ltac:(rewrite Rabs_R0; lra)) as [FN BN].
  apply Rabs_le_inv in E.
  destruct (e_close m RF 2) as ([FE DE] & PE & _); [|lra|].
  { apply Rmult_le_reg_r with (/ (4 * distance_of m)); [apply Rinv_0_lt_compat; lra|]. replace (4 * 2 * distance_of m * / (4 * distance_of m)) with 2 by (field; lra). unfold Rdiv in E. lra. }
  apply Rabs_le_inv in DE. unfold f_mog_orbit.
  rewrite (loop_endless f_sin (proj1 LM) _ _ FN FE); [reflexivity|lra|lra|exact NQ|apply Rabs_le; lra].
Qed.

Hypothesis EL : elliptic m.
Section Member.
Variables (theta : b64) (th : R).
Hypothesis TH : close theta th (4 / 100000000000000).
Hypothesis THB : Rabs th <= 1000.
Let l := f_mog_l f_sin f_cos m theta.
Let lz := cos (tilt_of m) * cos (val (fm_inclination m) * (PI / 180)) + sin (tilt_of m) * cos th * sin (val (fm_inclination m) * (PI / 180)).
Lemma lz_dot : close (f_dot l f_az) lz (5 / 100000000000).
Proof.
  destruct (l_abs m th) as (A & B & C). destruct axis_close as (_ & _ & AZ).
  pose proof (l_close m RF _ _ _ _ LM TI theta th TH THB) as L.
  match type of L with vclose _ ?x ?y ?z _ => replace lz with (x * 0 + y * 0 + z * 1) by (unfold lz; ring) end.
  apply (dot_close _ DOT _ _ _ _ _ _ _ _ _ 0 _ L AZ A B C); auto using a0, a1; lra.
Qed.
Lemma inclination_close i : member_inclination m th i -> 1 / 100 <= i <= 17999 / 100 ->
  close (f_wrap (f_mog_i f_sin f_cos f_acos f_dot m theta)) i (/ 10000).
Proof.
  intros [I0 CI] IB. fold lz in CI. pose proof pi_tight as P. set (r := i * (PI / 180)) in *.
  assert (RB : 0.000174 <= r <= PI - 0.000174) by (unfold r; split; nra).
  assert (SR : 0.000087 <= sin r).
  { destruct (Rle_dec r (PI / 2)) as [H|H]; [pose proof (sin_half r ltac:(lra)); lra|]. rewrite <- sin_PI_x. pose proof (sin_half (PI - r) ltac:(lra)). lra. }
  assert (LZ : lz * lz <= 1 - 0.000087 * 0.000087). { rewrite <- CI. pose proof (sin2_cos2 r) as Q. unfold Rsqr in Q. nra. }
  destruct lz_dot as [FD DD]. set (v := val (f_dot l f_az)) in *. apply Rabs_le_inv in DD.
  assert (MB : Rabs lz <= 1 - 3.78e-9) by (apply Rabs_le; split; nra).
  assert (VB : Rabs v <= 1 - 3.7e-9) by (apply Rabs_le_inv in MB; apply Rabs_le; lra).
  assert (AC : Rabs (acos v - acos lz) <= 2 * (5 / 100000000000) / 0.000085).
  { apply (acos_close_far v lz _ _ (1 - 3.7e-9)); try lra. apply Rabs_le. lra. }
  assert (AV : acos lz = r) by (rewrite <- CI; apply acos_cos; lra). rewrite AV in AC.
  destruct LM as (_ & _ & _ & HA & _). apply Rabs_le_inv in VB. destruct (HA (f_dot l f_az) FD ltac:(apply Rabs_le; fold v; lra)) as [FA DA]. fold v in DA.
  assert (CA : close (f_mog_i f_sin f_cos f_acos f_dot m theta) r (1.2 / 1000000)).
  { unfold f_mog_i. fold l. split; [exact FA|]. assert (BP : bpow radix2 (-50) <= / 1000000000000) by (cbn; lra). apply Rabs_le_inv in AC, DA. apply Rabs_le. lra. }
  assert (DI : degrees r = i) by (unfold degrees, r; field; lra).
  rewrite <- DI. eapply close_weak; [apply (wrap_small _ r (1.2 / 1000000) CA)|]; rewrite ?DI; lra.
Qed.
End Member.
End Group.
