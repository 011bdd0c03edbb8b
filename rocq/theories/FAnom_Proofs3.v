(** Derived anomalies of circular orbits, Walker constellations and trains in binary64. *)
From Coq Require Import ZArith Reals Lra Lia Bool.
From Flocq Require Import Core Relative IEEE754.BinarySingleNaN.
From Verif Require Import Base RBase RFacts Float_Model Float_Spec Float_Proofs FGrid_Model FTime_Model FTime_Proofs Orbit_Model
  FGeom_Model FGeom_Spec FGeom_Proofs FGeom_Proofs2 FMog_Proofs FMog_Proofs2 FAnom_Model FAnom_Spec FAnom_Proofs FAnom_Proofs2.
Open Scope R_scope.

Definition fl_last : b64 := f_lit (360 * 2 ^ 44 - 1) (-44).
Lemma fl_last_val : finite fl_last /\ val fl_last = last_angle.
Proof. destruct (f_lit_val (360 * 2 ^ 44 - 1) (-44) ltac:(lia) ltac:(lia)) as [F V]. split; [exact F|]. unfold fl_last. rewrite V, last_angle_eq. reflexivity. Qed.
Lemma last_range : 359 <= last_angle < 360.
Proof. destruct gap_pos as (A & B & C). unfold last_angle. lra. Qed.
Lemma there_last : there last_angle = last_angle.
Proof.
  destruct fl_last_val as [F V]. pose proof last_range as L. rewrite <- V at 1. rewrite <- (proj2 (there_val fl_last F ltac:(rewrite V; lra))).
  rewrite <- V. unfold val. f_equal. apply B2SF_inj. vm_compute. reflexivity.
Qed.
Lemma there_360 : there 360 = 360.
Proof.
  destruct f360 as [F V]. rewrite <- V at 1. rewrite <- (proj2 (there_val (of_Z 360) F ltac:(rewrite V; lra))).
  rewrite <- V. unfold val. f_equal. apply B2SF_inj. vm_compute. reflexivity.
Qed.
Lemma below_last x : val x < 360 -> val x <= last_angle.
Proof. intro H. rewrite <- pred_360. apply pred_ge_gt; [auto with typeclass_instances|apply val_fmt| |exact H]. rewrite <- (proj2 f360). apply val_fmt. Qed.
Lemma there_nonneg v : 0 <= v -> 0 <= there v.
Proof. intro H. destruct k_range as (_ & _ & A & B). unfold there. apply rnd_nonneg, Rmult_le_pos; [apply rnd_nonneg, Rmult_le_pos|]; lra. Qed.
Lemma there_below x : 0 <= val x < 360 -> 0 <= there (val x) < 360.
Proof.
  intros [A B]. split; [apply there_nonneg; exact A|]. pose proof last_range. apply Rle_lt_trans with last_angle; [|lra].
  rewrite <- there_last. apply there_mono, below_last. exact B.
Qed.
Lemma same_float x y : finite x -> finite y -> val x = val y -> val x <> 0 -> x = y.
Proof.
  intros _ _ E N. apply B2R_inj; [apply is_finite_strict_B2R; exact N|apply is_finite_strict_B2R; unfold val in *; rewrite <- E; exact N|exact E].
Qed.
Lemma true_of_0 m : true_of m 0 = m.
Proof. pose proof PI_RGT_0. unfold true_of, true_series. field_simplify; lra. Qed.
Lemma mean_of_0 m : mean_of m 0 = m.
Proof. pose proof PI_RGT_0. unfold mean_of, mean_series. field_simplify; lra. Qed.

Section Libm.
Variables (f_sin : b64 -> b64) (f_pow : b64 -> nat -> b64).
Hypothesis SIN : computes (fun x => Rabs x <= 1048576) sin f_sin.
Hypothesis POW : accurate_pow f_pow.
Notation t2m := (f_true_to_mean f_sin f_pow).
Notation m2t := (f_mean_to_true f_sin f_pow).
Notation derived := (f_derived_anomaly f_sin f_pow).

Lemma mean_ok nu : angle_ok nu -> angle_ok (t2m nu (of_Z 0)) /\ Rabs (val (t2m nu (of_Z 0)) - val nu) <= 2 / 100000000000.
Proof.
  intros [F B]. destruct (mean_circular f_sin f_pow SIN POW nu F ltac:(lra)) as [FM VM]. split; [split; [exact FM|rewrite VM; apply there_below; exact B]|].
  destruct (mean_near f_sin f_pow SIN POW nu (of_Z 0) F ltac:(lra) closed0) as [_ D]. rewrite (proj2 f0), mean_of_0 in D. exact D.
Qed.
(** A circular orbit is derived exactly when the remainder is an angle. *)
Lemma circular_iff nu dm : angle_ok nu -> finite dm ->
  (forall p, derived_raan (t2m nu (of_Z 0)) dm = Ok p -> derived nu (of_Z 0) dm = Ok (m2t p (of_Z 0)) /\ angle_ok (m2t p (of_Z 0)) /\ angle_ok p)
  /\ (forall e, derived_raan (t2m nu (of_Z 0)) dm = Raise e -> derived nu (of_Z 0) dm = Raise e).
Proof.
  intros A FD. destruct (mean_ok nu A) as [AM _]. destruct (fadd_fin _ dm AM FD) as [FS VS]. destruct f360 as [F3 V3].
  destruct (np_mod_spec _ _ FS F3 ltac:(lra)) as [FP VP]. rewrite V3 in VP. set (s := fadd (t2m nu (of_Z 0)) dm) in *. set (p := np_mod s (of_Z 360)) in *.
  pose proof (rmod_range (val s) 360 ltac:(lra)) as RR. assert (PB : 0 <= val p <= 360) by (rewrite VP; apply rnd_angle_range; lra).
  destruct (true_circular f_sin f_pow SIN POW p FP PB) as [FT VT]. destruct (raan_field_ok p FP) as [K1 K2]. destruct (raan_field_ok _ FT) as [L1 L2].
  unfold derived_raan, f_derived_anomaly. fold s. fold p. destruct (Rlt_or_le (val p) 360) as [H|H].
  - rewrite (proj2 K1 ltac:(lra)). pose proof (there_below p ltac:(lra)) as TB. rewrite <- VT in TB. split; [|discriminate].
    intros q E. injection E as <-. split; [apply L1; exact TB|]. split; split; auto; lra.
  - assert (E : val p = 360) by lra. rewrite (proj2 K2 ltac:(lra)). split; [discriminate|]. intros e E'. injection E' as <-. apply L2. rewrite VT, E, there_360. lra.
Qed.
Lemma circular_exact nu dm r : angle_ok nu -> finite dm -> turn_of (rnd (val (t2m nu (of_Z 0)) + val dm)) r ->
  ((exists f, derived nu (of_Z 0) dm = Ok f) <-> r < 360 - / IZR (2 ^ 45))
  /\ (forall f, derived nu (of_Z 0) dm = Ok f -> angle_ok f) /\ (forall e, derived nu (of_Z 0) dm = Raise e -> e = ValidationError).
Proof.
  intros A FD T. destruct (mean_ok nu A) as [AM _]. destruct (circular_iff nu dm A FD) as [I1 I2]. destruct (derived_accept_iff _ dm r AM FD T) as (D1 & D2 & D3).
  destruct (derived_raan (t2m nu (of_Z 0)) dm) as [p|e] eqn:E.
  - destruct (I1 p eq_refl) as (J1 & J2 & J3). rewrite J1. split; [split; [intros _; apply D1; eauto|eauto]|]. split; [intros f X; injection X as <-; exact J2|discriminate].
  - rewrite (I2 e eq_refl). split; [split; [intros [f X]; discriminate|intro X; apply D1 in X; destruct X; discriminate]|].
    split; [discriminate|]. intros e' X. injection X as <-. apply D3. reflexivity.
Qed.
Lemma circular_forward nu dm : angle_ok nu -> finite dm -> 0 <= val dm -> exists f, derived nu (of_Z 0) dm = Ok f /\ angle_ok f.
Proof.
  intros A FD P. destruct (mean_ok nu A) as [AM _]. destruct (derived_raan_nonneg _ dm AM FD) as (p & E & _); [destruct AM as [_ AM]; lra|].
  destruct (circular_iff nu dm A FD) as [I _]. destruct (I p E) as (J1 & J2 & _). eauto.
Qed.
Lemma circular_near nu dm f : angle_ok nu -> moderate dm -> derived nu (of_Z 0) dm = Ok f ->
  exists k : Z, Rabs (val f - (val nu + val dm - 360 * IZR k)) <= / 10000000000.
Proof.
  intros A [FD BD] E. destruct (mean_ok nu A) as [AM DM]. destruct (circular_iff nu dm A FD) as [I1 I2]. destruct (fadd_fin _ dm AM FD) as [FS VS].
  destruct (derived_raan (t2m nu (of_Z 0)) dm) as [p|e] eqn:R; [|rewrite (I2 e eq_refl) in E; discriminate]. destruct (I1 p eq_refl) as (J1 & _ & [FP BP]). rewrite J1 in E. assert (G : f = m2t p (of_Z 0)) by congruence. clear E. subst f.
  destruct (derived_accept_iff _ dm (rmod (rnd (val (t2m nu (of_Z 0)) + val dm)) 360) AM FD) as (_ & D2 & _); [apply turn_of_rmod; reflexivity|].
  destruct (D2 p R) as [_ VP]. destruct (rmod_eqm (rnd (val (t2m nu (of_Z 0)) + val dm)) 360) as [k K]. exists (- k)%Z.
  assert (S : close (fadd (t2m nu (of_Z 0)) dm) (val nu + val dm) (25 / 1000000000000)).
  { apply (close_add _ _ _ _ (2 / 100000000000) 0 36360 _ ltac:(split; [exact (proj1 AM)|exact DM]) (close_self dm FD)); [|unfold huge; lra|unfold u, tiny; lra].
    destruct A as [_ A]. apply Rabs_le_inv in BD. apply Rabs_le. lra. }
  destruct S as [_ S]. rewrite VS in S. set (s := rnd (val (t2m nu (of_Z 0)) + val dm)) in *. pose proof (rmod_range s 360 ltac:(lra)) as RR.
  assert (PC : close p (rmod s 360) (1 / 1000000000000)).
  { apply (close_rnd p _ (rmod s 360) 0 360 _ FP VP); [rewrite Rminus_eq_0, Rabs_R0; lra|rewrite Rabs_pos_eq; lra|unfold u, tiny; lra]. }
  destruct PC as [_ PD]. destruct (true_near f_sin f_pow SIN POW p (of_Z 0) FP ltac:(lra) closed0) as [_ TD]. rewrite (proj2 f0), true_of_0 in TD.
  set (w := val (m2t p (of_Z 0))) in *. clearbody w. rewrite opp_IZR. apply Rabs_le_inv in S, PD, TD. apply Rabs_le. lra.
Qed.

(** ** Walker constellations *)
Lemma per_plane_spec n p : (1 <= p <= n)%Z -> (1 <= per_plane n p <= n)%Z /\ (n <= per_plane n p * p)%Z.
Proof.
  intro H. unfold per_plane. pose proof (Z.div_mod (- n) p ltac:(lia)) as E. pose proof (Z.mod_pos_bound (- n) p ltac:(lia)) as M.
  set (q := (- n / p)%Z) in *. set (m := (- n mod p)%Z) in *. nia.
Qed.
Lemma walker_delta n p f i : (1 <= p <= n)%Z -> (n <= 2 ^ 20)%Z -> (0 <= f < p)%Z -> (0 <= i < n)%Z ->
  let s := per_plane n p in
  finite (f_walker_delta n p f i) /\ 0 <= val (f_walker_delta n p f i)
  /\ ((p <= 90)%Z -> close (f_walker_delta n p f i) (IZR (i mod s) * (360 / IZR s) + IZR (i / s) * (IZR (360 * f) / IZR n)) (2 / 100000000000)
      /\ 0 <= IZR (i mod s) * (360 / IZR s) + IZR (i / s) * (IZR (360 * f) / IZR n) <= 360 * 91).
Proof.
  intros P N Hf I s. destruct (per_plane_spec n p P) as [S1 S2]. fold s in S1, S2. unfold f_walker_delta. fold s.
  pose proof (Z.mod_pos_bound i s ltac:(lia)) as M. assert (Q : (0 <= i / s < p)%Z) by (split; [apply Z.div_pos; lia|apply Z.div_lt_upper_bound; lia]).
  set (a := (i mod s)%Z) in *. set (b := (i / s)%Z) in *.
  destruct (of_Z_spec a ltac:(lia)) as [Fa Va]. destruct (of_Z_spec b ltac:(lia)) as [Fb Vb]. destruct (of_Z_spec s ltac:(lia)) as [Fs Vs].
  destruct (of_Z_spec n ltac:(lia)) as [Fn Vn]. destruct (of_Z_spec (360 * f) ltac:(lia)) as [Ff Vf]. destruct f360 as [F3 V3].
  assert (Rs : 1 <= IZR s <= 1048576) by (split; apply IZR_le; lia). assert (Rn : 1 <= IZR n <= 1048576) by (split; apply IZR_le; lia).
  assert (Ra : 0 <= IZR a <= IZR s - 1) by (rewrite <- minus_IZR; split; apply IZR_le; lia). assert (Rb : 0 <= IZR b <= 1048576) by (split; apply IZR_le; lia).
  assert (Rf : 0 <= IZR (360 * f) <= 360 * IZR n) by (rewrite <- mult_IZR; split; apply IZR_le; lia).
  pose proof (div_bounds 360 (IZR s) 360 ltac:(lra) ltac:(lra) ltac:(lra)) as D1. pose proof (div_bounds (IZR (360 * f)) (IZR n) 360 ltac:(lra) ltac:(lra) ltac:(lra)) as D2.
  destruct (fdiv_fin (of_Z 360) (of_Z s) F3 Fs) as [Fd Vd]; [lra|rewrite V3, Vs; apply huge_ok; rewrite Rabs_pos_eq by lra; unfold huge; lra|]. rewrite V3, Vs in Vd.
  destruct (fdiv_fin (of_Z (360 * f)) (of_Z n) Ff Fn) as [Fe Ve]; [lra|rewrite Vf, Vn; apply huge_ok; rewrite Rabs_pos_eq by lra; unfold huge; lra|]. rewrite Vf, Vn in Ve.
  assert (E1 : 0 <= rnd (360 / IZR s) <= 360) by (split; [apply rnd_nonneg; lra|apply (rnd_le_Z _ 360); [lia|lra]]).
  assert (E2 : 0 <= rnd (IZR (360 * f) / IZR n) <= 360) by (split; [apply rnd_nonneg; lra|apply (rnd_le_Z _ 360); [lia|lra]]).
  assert (X1 : 0 <= IZR a * rnd (360 / IZR s) <= 377487360) by nra. assert (X2 : 0 <= IZR b * rnd (IZR (360 * f) / IZR n) <= 377487360) by nra.
  destruct (fmul_fin _ _ Fa Fd) as [Fg Vg]; [rewrite Va, Vd; apply huge_ok; rewrite Rabs_pos_eq by lra; unfold huge; lra|]. rewrite Va, Vd in Vg.
  destruct (fmul_fin _ _ Fb Fe) as [Fh Vh]; [rewrite Vb, Ve; apply huge_ok; rewrite Rabs_pos_eq by lra; unfold huge; lra|]. rewrite Vb, Ve in Vh.
  assert (Y1 : 0 <= rnd (IZR a * rnd (360 / IZR s)) <= 377487360) by (split; [apply rnd_nonneg; lra|apply (rnd_le_Z _ 377487360); [lia|lra]]).
  assert (Y2 : 0 <= rnd (IZR b * rnd (IZR (360 * f) / IZR n)) <= 377487360) by (split; [apply rnd_nonneg; lra|apply (rnd_le_Z _ 377487360); [lia|lra]]).
  destruct (fadd_big _ _ Fg Fh) as [FF VV]; [rewrite Vg, Vh; apply huge_add; rewrite Rabs_pos_eq by lra; unfold huge; lra|]. rewrite Vg, Vh in VV.
  split; [exact FF|]. split; [rewrite VV; apply rnd_nonneg; lra|]. intro P9.
  assert (Rb' : 0 <= IZR b <= 90) by (split; apply IZR_le; lia).
  assert (G1 : 0 <= IZR a * (360 / IZR s) <= 360).
  { split; [nra|]. apply Rle_trans with (IZR s * (360 / IZR s)); [apply Rmult_le_compat_r; lra|]. right. field. lra. }
  assert (G2 : 0 <= IZR b * (IZR (360 * f) / IZR n) <= 360 * 90) by nra. split; [|lra].
  assert (C1 : Rabs (IZR a * rnd (360 / IZR s) - IZR a * (360 / IZR s)) <= 5 / 100000000000000).
  { pose proof (close_rnd _ _ (360 / IZR s) 0 (360 / IZR s) (u * (360 / IZR s) + tiny) Fd Vd ltac:(rewrite Rminus_eq_0, Rabs_R0; lra) ltac:(rewrite Rabs_pos_eq; lra) ltac:(lra)) as [_ C].
    rewrite Vd in C. rewrite <- Rmult_minus_distr_l, Rabs_mult, (Rabs_pos_eq (IZR a)) by lra.
    apply Rle_trans with (IZR a * (u * (360 / IZR s) + tiny)); [apply Rmult_le_compat_l; lra|].
    replace (IZR a * (u * (360 / IZR s) + tiny)) with (u * (IZR a * (360 / IZR s)) + IZR a * tiny) by ring. unfold u, tiny in *. lra. }
  assert (C1' : close (fmul (of_Z a) (fdiv (of_Z 360) (of_Z s))) (IZR a * (360 / IZR s)) (1 / 10000000000000)).
  { apply (close_rnd _ _ _ (5 / 100000000000000) 360 _ Fg Vg C1); [rewrite Rabs_pos_eq; lra|unfold u, tiny; lra]. }
  assert (C2 : close (fdiv (of_Z (360 * f)) (of_Z n)) (IZR (360 * f) / IZR n) (5 / 100000000000000)).
  { apply (close_rnd _ _ _ 0 360 _ Fe Ve); [rewrite Rminus_eq_0, Rabs_R0; lra|rewrite Rabs_pos_eq; lra|unfold u, tiny; lra]. }
  assert (C2' : close (fmul (of_Z b) (fdiv (of_Z (360 * f)) (of_Z n))) (IZR b * (IZR (360 * f) / IZR n)) (9 / 1000000000000)).
  { destruct C2 as [_ C2]. rewrite Ve in C2. apply (close_rnd _ _ _ (45 / 10000000000000) 32400 _ Fh Vh); [|rewrite Rabs_pos_eq; lra|unfold u, tiny; lra].
    rewrite <- Rmult_minus_distr_l, Rabs_mult, (Rabs_pos_eq (IZR b)) by lra. apply Rle_trans with (90 * (5 / 100000000000000)); [apply Rmult_le_compat; auto using Rabs_pos; lra|lra]. }
  apply (close_add _ _ _ _ _ _ 32760 _ C1' C2'); [rewrite Rabs_pos_eq; lra|unfold huge; lra|unfold u, tiny; lra].
Qed.
Lemma walker_accepted n p f i nu : (1 <= p <= n)%Z -> (n <= 2 ^ 20)%Z -> (0 <= f < p)%Z -> (0 <= i < n)%Z -> angle_ok nu ->
  exists g, f_walker_anomaly f_sin f_pow n p f i nu (of_Z 0) = Ok g /\ angle_ok g
    /\ ((p <= 90)%Z -> exists k : Z, Rabs (val g - (val nu + (IZR (i mod per_plane n p) * (360 / IZR (per_plane n p)) + IZR (i / per_plane n p) * (IZR (360 * f) / IZR n)) - 360 * IZR k)) <= 2 / 10000000000).
Proof.
  intros P N Hf I A. destruct (walker_delta n p f i P N Hf I) as (F & NN & C). unfold f_walker_anomaly.
  destruct (circular_forward nu _ A F NN) as (g & E & AG). exists g. split; [exact E|]. split; [exact AG|]. intro P9. destruct (C P9) as [[_ CD] CB].
  apply Rabs_le_inv in CD. assert (MD : moderate (f_walker_delta n p f i)) by (split; [exact F|apply Rabs_le; lra]). destruct (circular_near nu _ g A MD E) as [k K]. exists k. apply Rabs_le_inv in K. apply Rabs_le. lra.
Qed.

(** ** A train behind its leader *)
Definition nu_train : b64 := f_lit 5847917347587644 (-53).
Definition dm_train : b64 := match f_train_delta (of_Z 400000) 10000000 1 with Ok d => d | Raise _ => of_Z 0 end.
Lemma nu_train_ok : angle_ok nu_train /\ 64 / 100 <= val nu_train <= 65 / 100.
Proof.
  destruct (f_lit_val 5847917347587644 (-53) ltac:(lia) ltac:(lia)) as [F V]. fold nu_train in F, V.
  assert (B : 64 / 100 <= val nu_train <= 65 / 100) by (rewrite V; replace (bpow radix2 (-53)) with (/ 9007199254740992) by (cbn; lra); lra). split; [split; [exact F|lra]|exact B].
Qed.
Lemma train_fails : f_train_anomaly f_sin f_pow (of_Z 400000) 10000000 1 nu_train = Raise ValidationError.
Proof.
  destruct nu_train_ok as [A B]. unfold f_train_anomaly.
  assert (E : f_train_delta (of_Z 400000) 10000000 1 = Ok dm_train) 
    by (assert (T : match f_train_delta (of_Z 400000) 10000000 1 with Ok _ => true | Raise _ => false end = true) by (vm_compute; reflexivity);
        unfold dm_train; destruct (f_train_delta (of_Z 400000) 10000000 1); [reflexivity|discriminate T]).
  rewrite E. cbn [bind].
  assert (FD : finite dm_train) by (vm_compute; reflexivity). destruct (mean_circular f_sin f_pow SIN POW nu_train (proj1 A) ltac:(lra)) as [FM VM].
  destruct (there_val nu_train (proj1 A) ltac:(lra)) as [FT VT]. destruct (mean_ok nu_train A) as [_ DM]. apply Rabs_le_inv in DM.
  assert (S : t2m nu_train (of_Z 0) = f_degrees (f_radians nu_train)) by (apply same_float; auto; [congruence|lra]).
  apply (proj2 (circular_iff nu_train dm_train A FD)). rewrite S. vm_compute. reflexivity.
Qed.
End Libm.

(** ** The contracts can be met *)
(** Repeated products. *)
Fixpoint mul_pow (x : b64) (k : nat) : b64 := match k with O => of_Z 1 | S O => x | S k' => fmul (mul_pow x k') x end.
Lemma mul_step y x q : finite y -> finite x -> 0 <= val x <= 1 -> 0 <= val y <= val x -> Rabs (val y - q) <= 3 / 10000000000000000 -> 0 <= q <= 1 ->
  finite (fmul y x) /\ 0 <= val (fmul y x) <= val x /\ Rabs (val (fmul y x) - q * val x) <= Rabs (val y - q) + 3 / 20000000000000000.
Proof.
  intros FY FX BX BY D Q. assert (P : 0 <= val y * val x <= val x) by nra. destruct (fmul_fin y x FY FX) as [F V]; [apply huge_ok; rewrite Rabs_pos_eq by lra; unfold huge; nra|].
  split; [exact F|]. split.
  - rewrite V. split; [apply rnd_nonneg; lra|]. rewrite <- (same_rnd x) at 2. unfold rnd. apply round_le; [auto with typeclass_instances|auto with typeclass_instances|lra].
  - destruct (close_rnd _ _ (q * val x) (Rabs (val y - q)) 1 (Rabs (val y - q) + 3 / 20000000000000000) F V) as [_ C]; [| | |exact C].
    + rewrite <- Rmult_minus_distr_r, Rabs_mult, (Rabs_pos_eq (val x)) by lra. pose proof (Rabs_pos (val y - q)). nra.
    + rewrite Rabs_pos_eq; nra.
    + pose proof (Rabs_pos (val y - q)). unfold u, tiny. lra.
Qed.
Lemma mul_pow_ok : accurate_pow mul_pow.
Proof.
  intros x k F B K. replace (bpow radix2 (-50)) with (/ 1125899906842624) by (cbn; lra).
  destruct (mul_step x x (val x) F F B ltac:(lra) ltac:(rewrite Rminus_eq_0, Rabs_R0; lra) B) as (F2 & B2 & D2). rewrite Rminus_eq_0, Rabs_R0 in D2.
  destruct (mul_step _ x (val x * val x) F2 F B B2 ltac:(lra) ltac:(nra)) as (F3 & B3 & D3).
  destruct (mul_step _ x (val x * val x * val x) F3 F B B3 ltac:(lra)) as (F4 & B4 & D4). { assert (0 <= val x * val x <= 1) by nra. nra. }
  destruct K as [K1 K2]. destruct k as [|[|[|[|[|k]]]]]; try lia; cbn [mul_pow].
  - split; [exact F2|]. split; [exact B2|]. replace (val x ^ 2) with (val x * val x) by ring. lra.
  - split; [exact F3|]. split; [exact B3|]. replace (val x ^ 3) with (val x * val x * val x) by ring. lra.
  - split; [exact F4|]. split; [exact B4|]. replace (val x ^ 4) with (val x * val x * val x * val x) by ring. lra.
Qed.
