(** Acceptance of the members of mutual orbiting groups in binary64. *)
From Coq Require Import ZArith Reals Lra Lia Bool List.
From Flocq Require Import Core Relative IEEE754.BinarySingleNaN.
From Verif Require Import Base RBase RFacts Float_Model Float_Spec Float_Proofs FGrid_Model FTime_Model FTime_Proofs AnomalyRound_Proofs Mog_Proofs
  FGeom_Model FGeom_Spec FGeom_Proofs FGeom_Proofs2 FMog_Model FMog_Spec FMog_Proofs FMog_Proofs2 FMog_Proofs3 FMog_Proofs4.
Import ListNotations.
Open Scope R_scope.

Lemma forall2_length {A B} (P : A -> B -> Prop) l l' : Forall2 P l l' -> length l = length l'.
Proof. induction 1; cbn; congruence. Qed.
Definition vbd (v : fv3) (B : R) : Prop := close (f_x v) 0 B /\ close (f_y v) 0 B /\ close (f_z v) 0 B.
Lemma vbd_of v x y z d B : vclose v x y z d -> Rabs x <= 1 -> Rabs y <= 1 -> Rabs z <= 1 -> 1 + d <= B -> vbd v B.
Proof. intros (X & Y & Z) A1 A2 A3 H. repeat split; try (eapply b_of; eassumption). Qed.
Lemma vbd_cross v w A B d : vbd v A -> vbd w B -> 0 <= A <= 20 -> 0 <= B <= 20 -> 2 * (A * B) * (1 + 3 * u) + 4 * tiny <= d -> vbd (fv_cross v w) d.
Proof.
  intros (V1 & V2 & V3) (W1 & W2 & W3) HA HB H. assert (AB : 0 <= A * B <= 20 * 20) by (split; [apply Rmult_le_pos; lra|apply Rmult_le_compat; lra]).
  assert (M : forall x y, close x 0 A -> close y 0 B -> close (fmul x y) 0 (A * B * (1 + u) + tiny)) by (intros x y X Y; apply (bmul _ _ _ _ _ X Y); lra).
  assert (S : forall x y, close x 0 (A * B * (1 + u) + tiny) -> close y 0 (A * B * (1 + u) + tiny) -> close (fsub x y) 0 d).
  { intros x y X Y. apply (bsub _ _ _ _ _ X Y); clear - AB H; set (p := A * B) in *; unfold u, tiny in *; lra. }
  unfold fv_cross, vbd. cbn [f_x f_y f_z]. auto 10.
Qed.
Lemma vbd_scale k v A B d : close k 0 A -> vbd v B -> 0 <= A <= 20 -> 0 <= B <= 20 -> A * B * (1 + u) + tiny <= d -> vbd (fv_scale k v) d.
Proof. intros K (V1 & V2 & V3) HA HB H. unfold fv_scale, vbd. cbn [f_x f_y f_z]. repeat split; try (refine (proj1 (bmul _ _ _ _ _ K _ _ _ H)); eassumption || lra); try (refine (proj2 (bmul _ _ _ _ _ K _ _ _ H)); eassumption || lra). Qed.
Lemma vbd_add v w A B d : vbd v A -> vbd w B -> 0 <= A <= 20 -> 0 <= B <= 20 -> (A + B) * (1 + u) + tiny <= d -> vbd (fv_add v w) d.
Proof.
  intros (V1 & V2 & V3) (W1 & W2 & W3) HA HB H. unfold fv_add, vbd. cbn [f_x f_y f_z].
  split; [|split]; (eapply badd; [eassumption|eassumption|lra|lra|exact H]).
Qed.
Lemma vbd_within v B : vbd v B -> B <= 16 -> within3 v 4.
Proof.
  intros ((F1 & D1) & (F2 & D2) & (F3 & D3)) H. rewrite Rminus_0_r in D1, D2, D3. split; [auto|]. cbn. lra.
Qed.

Section Group.
Variable m : f_mog.
Hypothesis RF : referenced m.
Variables (f_sin f_cos f_asin f_acos : b64 -> b64) (f_atan2 : b64 -> b64 -> b64) (f_dot : fv3 -> fv3 -> b64).
Hypothesis LM : accurate_libm f_sin f_cos f_asin f_acos.
Hypothesis AT : accurate_atan2 f_atan2.
Hypothesis DOT : accurate_dot f_dot.
Hypothesis TI : tilted m.
Hypothesis CN : counted m.
Hypothesis EL : elliptic m.
Lemma atan2_ok y x : finite y -> finite x -> finite (f_atan2 y x) /\ Rabs (val (f_atan2 y x)) <= PI.
Proof.
  intros Y X. destruct AT as (R1 & R2 & _). pose proof (R2 y x Y X) as F. split; [exact F|]. destruct (R1 y x) as [N|[_ B]]; [|exact B].
  unfold finite in F. rewrite N in F. discriminate F.
Qed.
Lemma trig_ok x : finite x -> Rabs (val x) <= 1000 -> close (f_sin x) 0 1 /\ close (f_cos x) 0 1.
Proof.
  intros F B. destruct LM as (S & C & _ & _ & R'). destruct (S x F ltac:(lra)) as [FS _]. destruct (C x F ltac:(lra)) as [FC _]. destruct (R' x F ltac:(lra)) as [B1 B2].
  split; split; auto; rewrite Rminus_0_r; assumption.
Qed.
Lemma axes_bd : vbd f_ax 1 /\ vbd f_ay 1.
Proof.
  destruct axis_close as (X & Y & _). split; [apply (vbd_of _ _ _ _ _ _ X)|apply (vbd_of _ _ _ _ _ _ Y)]; auto using a0, a1; lra.
Qed.

Section Member.
Variables (theta : b64) (th : R).
Hypothesis TH : close theta th (4 / 100000000000000).
Hypothesis THB : Rabs th <= 1000.
Let l := f_mog_l f_sin f_cos m theta.
Let t := f_mog_t f_sin f_cos m theta.
Lemma l_bd : vbd l 2.
Proof. destruct (l_abs m th) as (A & B & C). apply (vbd_of _ _ _ _ _ _ (l_close m RF _ _ _ _ LM TI theta th TH THB) A B C). lra. Qed.
Lemma t_bd : vbd t 2.
Proof.
  apply (vbd_of _ _ _ _ _ _ (t_close m RF _ _ _ _ LM TI theta th TH THB)); rewrite ?Rabs_Ropp; auto using sin_abs1, cos_abs1, am. lra.
Qed.
Lemma dot_fin v w A B : vbd v A -> vbd w B -> A <= 16 -> B <= 16 -> finite (f_dot v w).
Proof. intros V W HA HB. exact (proj1 (DOT v w 4%Z 4%Z ltac:(lia) ltac:(lia) ltac:(lia) (vbd_within _ _ V HA) (vbd_within _ _ W HB))). Qed.
Lemma omega0_close : close (f_mog_omega0 m) (radians (val (fm_raan m))) (22 / 10000000000000000) /\ 0 <= radians (val (fm_raan m)) <= 6.3.
Proof.
  destruct RF as (_ & _ & _ & F & B & _). pose proof pi_tight as P. split.
  - apply (radians_close _ 0 360); [split; [exact F|lra]|lra|lra].
  - unfold radians. nra.
Qed.
Lemma omega_ok : finite (f_mog_omega f_sin f_cos f_atan2 f_dot m theta) /\ -3.2 <= val (f_mog_omega f_sin f_cos f_atan2 f_dot m theta) <= 9.9.
Proof.
  pose proof l_bd as L. destruct axes_bd as [AX AY]. pose proof (dot_fin _ _ _ _ L AX ltac:(lra) ltac:(lra)) as F1.
  assert (NL : vbd (fv_neg l) 2).
  { destruct L as ((A1 & B1) & (A2 & B2) & (A3 & B3)). rewrite Rminus_0_r in B1, B2, B3. unfold vbd, fv_neg, close, finite, val. cbn [f_x f_y f_z]. rewrite !is_finite_Bopp, !B2R_Bopp, !Rminus_0_r, !Rabs_Ropp. auto 10. }
  pose proof (dot_fin _ _ _ _ NL AY ltac:(lra) ltac:(lra)) as F2. destruct (atan2_ok _ _ F1 F2) as [FA BA].
  destruct omega0_close as [C0 B0]. pose proof pi_tight as P. apply Rabs_le_inv in BA. unfold f_mog_omega. fold l.
  assert (C : close (fadd (f_mog_omega0 m) (f_atan2 (f_dot l f_ax) (f_dot (fv_neg l) f_ay))) (radians (val (fm_raan m)) + val (f_atan2 (f_dot l f_ax) (f_dot (fv_neg l) f_ay))) (/ 100000000000000)).
  { apply (close_add _ _ _ _ _ _ 10 _ C0 (close_self _ FA)); [apply Rabs_le; lra|unfold huge; lra|unfold u, tiny; lra]. }
  destruct C as [F D]. apply Rabs_le_inv in D. split; [exact F|]. lra.
Qed.
Lemma w_ok : finite (f_mog_w f_sin f_cos f_atan2 f_dot m theta) /\ Rabs (val (f_mog_w f_sin f_cos f_atan2 f_dot m theta)) <= PI.
Proof.
  destruct omega_ok as [FO BO]. destruct omega0_close as [C0 B0]. destruct axes_bd as [AX AY]. pose proof l_bd as L. pose proof t_bd as T.
  assert (PH : close (fsub (f_mog_omega f_sin f_cos f_atan2 f_dot m theta) (f_mog_omega0 m)) 0 20).
  { apply (bsub _ _ 10 7); try lra; [split; [exact FO|rewrite Rminus_0_r; apply Rabs_le; lra]|apply (b_of _ _ _ _ _ C0 (Rle_refl _)); rewrite Rabs_pos_eq; lra|unfold u, tiny; lra]. }
  destruct PH as [FP BP]. rewrite Rminus_0_r in BP. destruct (trig_ok _ FP ltac:(lra)) as [SP CP].
  unfold f_mog_w. fold t l. set (phi := fsub _ (f_mog_omega0 m)) in *.
  assert (PN : vbd (fv_add (fv_scale (f_cos phi) f_ax) (fv_scale (f_sin phi) f_ay)) 2.3).
  { apply (vbd_add _ _ 1.1 1.1); try lra; [apply (vbd_scale _ _ 1 1); auto; try lra; unfold u, tiny; lra|apply (vbd_scale _ _ 1 1); auto; try lra; unfold u, tiny; lra|unfold u, tiny; lra]. }
  assert (S : close (f_mog_s m) 0 1) by (unfold f_mog_s; destruct (fm_clockwise m); [destruct (close_Z 1 ltac:(lia)) as [F D]|destruct (close_Z (-1) ltac:(lia)) as [F D]]; split; auto; apply Rabs_le_inv in D; apply Rabs_le; lra).
  assert (PP : vbd (fv_scale (f_mog_s m) (fv_cross t l)) 8.4).
  { apply (vbd_scale _ _ 1 8.3); auto; try lra; [apply (vbd_cross _ _ 2 2); auto; try lra; unfold u, tiny; lra|unfold u, tiny; lra]. }
  assert (LN : vbd (fv_cross l (fv_add (fv_scale (f_cos phi) f_ax) (fv_scale (f_sin phi) f_ay))) 9.5) by (apply (vbd_cross _ _ 2 2.3); auto; try lra; unfold u, tiny; lra).
  apply atan2_ok; eapply dot_fin; try eassumption; lra.
Qed.
Lemma nu_ok psi : finite psi -> Rabs (val psi) <= 7 -> finite (f_mog_nu f_sin f_cos f_atan2 (f_mog_e m) psi) /\ Rabs (val (f_mog_nu f_sin f_cos f_atan2 (f_mog_e m) psi)) <= PI.
Proof.
  intros F B. destruct (trig_ok psi F ltac:(lra)) as [S C]. destruct (e_elliptic m RF EL) as [FE BE]. unfold f_mog_nu.
  assert (E0 : close (f_mog_e m) 0 1) by (split; [exact FE|rewrite Rminus_0_r; apply Rabs_le; lra]).
  destruct (fmul_fin _ _ FE FE) as [FQ VQ]; [apply huge_ok; rewrite Rabs_pos_eq by nra; unfold huge; nra|].
  assert (Q1 : 0 <= val (fmul (f_mog_e m) (f_mog_e m)) <= 1). { rewrite VQ. split; [apply rnd_nonneg; nra|apply (rnd_le_Z _ 1); [lia|nra]]. }
  destruct (close_Z 1 ltac:(lia)) as [F1 D1]. apply Rabs_le_inv in D1.
  destruct (fsub_big _ _ F1 FQ) as [FS VS]; [apply huge_add; unfold huge; apply Rabs_le; lra|].
  assert (S1 : 0 <= val (fsub (of_Z 1) (fmul (f_mog_e m) (f_mog_e m))) <= 1). { rewrite VS. split; [apply rnd_nonneg; lra|apply (rnd_le_Z _ 1); [lia|lra]]. }
  destruct (fsqrt_val _ FS (proj1 S1)) as [FR VR].
  assert (R1 : close (fsqrt (fsub (of_Z 1) (fmul (f_mog_e m) (f_mog_e m)))) 0 1).
  { split; [exact FR|]. rewrite Rminus_0_r, VR. pose proof (sqrt_pos (val (fsub (of_Z 1) (fmul (f_mog_e m) (f_mog_e m))))) as SP.
    rewrite Rabs_pos_eq by (apply rnd_nonneg; exact SP). apply (rnd_le_Z _ 1); [lia|]. rewrite <- sqrt_1. apply sqrt_le_1; lra. }
  apply atan2_ok; [refine (proj1 (bmul _ _ _ _ 2 S R1 _ _ _)); unfold u, tiny; lra|refine (proj1 (bsub _ _ _ _ 3 C E0 _ _ _)); unfold u, tiny; lra].
Qed.
Lemma orbit_accepted i : member_inclination m th i -> 1 / 100 <= i <= 17999 / 100 ->
  exists o, acceptable m i o /\ forall fuel, 24 <= (INR fuel - 2) * (1 - val (f_mog_e m)) -> f_mog_orbit f_sin f_cos f_acos f_atan2 f_dot fuel m theta = Some (Ok o).
Proof.
  intros MI IB. destruct (n_finite m RF _ _ _ _ _ _ LM AT DOT TI theta th TH THB) as [FN BN]. destruct (e_elliptic m RF EL) as [FE BE]. pose proof pi_tight as P.
  destruct (loop_ends f_sin (proj1 LM) _ (f_mog_e m) FN FE ltac:(lra) ltac:(lra) ltac:(lra)) as (psi & FP & BP & HL & _).
  pose proof (inclination_close m RF _ _ _ _ _ LM DOT TI theta th TH THB i MI IB) as IC.
  destruct omega_ok as [FO BO]. destruct w_ok as [FW BW]. destruct (nu_ok psi FP BP) as [FU BU]. apply Rabs_le_inv in BW, BU.
  destruct (wrap_ok _ FO ltac:(lra)) as [F1 B1]. destruct (wrap_ok _ FW ltac:(lra)) as [F2 B2]. destruct (wrap_ok _ FU ltac:(lra)) as [F3 B3].
  destruct (e_close m RF (1 - / 524288) EL ltac:(lra)) as (EC & _ & _).
  eexists. split; [|intros fuel HF; unfold f_mog_orbit; rewrite (HL fuel HF); f_equal; unfold f_make_keplerian].
  - unfold acceptable, in_turn. cbn [fk_altitude fk_inclination fk_eccentricity fk_raan fk_perigee fk_anomaly].
    instantiate (1 := mk_f_kep _ _ _ _ _ _). cbn [fk_altitude fk_inclination fk_eccentricity fk_raan fk_perigee fk_anomaly].
    split; [reflexivity|]. split; [exact IC|]. split; [apply (close_weak _ _ _ _ EC); lra|]. split; [split; [exact F1|lra]|]. split; [split; [exact F2|lra]|split; [exact F3|lra]].
  - cbn [fk_altitude fk_inclination fk_eccentricity fk_raan fk_perigee fk_anomaly]. destruct IC as [FI DI]. apply Rabs_le_inv in DI.
    rewrite !in_bound_ok by (try lia; auto; lra). cbn [andb]. destruct f0 as [F0 V0]. rewrite Bleb_fin, V0, Rle_bool_true by (auto; lra). reflexivity.
Qed.
End Member.

Lemma orbits_accepted ks : (forall k, In k ks -> (k < fm_number m)%nat) ->
  (forall k i, (k < fm_number m)%nat -> member_inclination m (position_of m k) i -> 1 / 100 <= i <= 17999 / 100) ->
  exists os, (forall fuel, 24 <= (INR fuel - 2) * (1 - val (f_mog_e m)) -> f_mog_orbits f_sin f_cos f_acos f_atan2 f_dot fuel m ks = Some (Ok os))
  /\ Forall2 (fun k o => forall i, member_inclination m (position_of m k) i -> acceptable m i o) ks os.
Proof.
  intros HK HI. pose proof (RF : referenced m) as RF0. assert (PN : (0 < fm_number m)%nat) by apply RF.
  induction ks as [|k ks IH]; [exists []; split; [reflexivity|constructor]|].
  destruct IH as (os & HO & FA); [intros; apply HK; right; assumption|].
  assert (KN : (k < fm_number m)%nat) by (apply HK; left; reflexivity). destruct (theta_close m k CN PN KN) as [TH TB].
  assert (EX : exists i, member_inclination m (position_of m k) i).
  { set (c := cos (tilt_of m) * cos (val (fm_inclination m) * (PI / 180)) + sin (tilt_of m) * cos (position_of m k) * sin (val (fm_inclination m) * (PI / 180))).
    pose proof PI_RGT_0 as PP. destruct (l_abs m (position_of m k)) as (_ & _ & C'). assert (C : Rabs c <= 1) by exact C'. apply Rabs_le_inv in C. pose proof (acos_bound c).
    exists (acos c * (180 / PI)). split.
    - split; [apply Rmult_le_pos; [lra|apply Rlt_le, Rdiv_lt_0_compat; lra]|]. apply Rle_trans with (PI * (180 / PI)); [apply Rmult_le_compat_r; [apply Rlt_le, Rdiv_lt_0_compat; lra|lra]|right; field; lra].
    - replace (acos c * (180 / PI) * (PI / 180)) with (acos c) by (field; lra). exact (cos_acos c C). }
  destruct EX as [i Hi]. destruct (orbit_accepted _ _ TH ltac:(rewrite Rabs_pos_eq; lra) i Hi (HI k i KN Hi)) as (o & HA & HF).
  exists (o :: os). split.
  - intros fuel K. cbn [f_mog_orbits]. rewrite (HF fuel K), (HO fuel K). reflexivity.
  - constructor; [|exact FA]. intros i' Hi'. replace i' with i; [exact HA|].
    destruct Hi as [B1 C1]. destruct Hi' as [B2 C2]. pose proof PI_RGT_0 as PP. apply (f_equal acos) in C1, C2.
    rewrite acos_cos in C1 by nra. rewrite acos_cos in C2 by nra. apply Rmult_eq_reg_r with (PI / 180); [lra|]. apply Rgt_not_eq, Rdiv_lt_0_compat; lra.
Qed.
Lemma members_accepted : (forall k i, (k < fm_number m)%nat -> member_inclination m (position_of m k) i -> 1 / 100 <= i <= 17999 / 100) ->
  exists os, (forall fuel, 24 <= (INR fuel - 2) * (1 - val (f_mog_e m)) -> f_mog_members f_sin f_cos f_acos f_atan2 f_dot fuel m = Some (Ok os))
  /\ length os = fm_number m /\ forall k o i, nth_error os k = Some o -> member_inclination m (position_of m k) i -> acceptable m i o.
Proof.
  intro HI. destruct (orbits_accepted (seq 0 (fm_number m))) as (os & HO & FA); [intros k H; apply in_seq in H; lia|exact HI|].
  exists os. split; [intros fuel K; unfold f_mog_members; rewrite (nonzero m RF); auto|]. split; [rewrite <- (forall2_length _ _ _ FA), seq_length; reflexivity|].
  intros k o i HN Hi. clear HO. assert (G : forall s n os, Forall2 (fun k o => forall i, member_inclination m (position_of m k) i -> acceptable m i o) (seq s n) os ->
    forall k o, nth_error os k = Some o -> forall i, member_inclination m (position_of m (s + k)) i -> acceptable m i o).
  { clear. intros s n. revert s. induction n as [|n IH]; intros s os H k o HN i Hi; cbn in H; inversion H; subst; [destruct k; discriminate|].
    destruct k as [|k]; [cbn in HN; injection HN as <-; rewrite Nat.add_0_r in Hi; auto|]. cbn in HN. apply (IH (S s) _ H4 k o HN). replace (S s + k)%nat with (s + S k)%nat by lia. exact Hi. }
  exact (G 0%nat _ _ FA k o HN i Hi).
Qed.
End Group.
