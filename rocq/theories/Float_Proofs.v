From Coq Require Import ZArith Reals Lra Lia Bool.
From Flocq Require Import Core IEEE754.BinarySingleNaN.
From Verif Require Import Base RBase RFacts Float_Model Float_Spec.
Open Scope R_scope.

Notation fx := (SpecFloat.fexp 53 1024).
Notation rd := (round radix2 fx (round_mode mode_NE)).

Lemma fx_flt : forall e, fx e = FLT_exp (-1074) 53 e.
Proof. reflexivity. Qed.
Lemma rd_rnd x : rd x = rnd x.
Proof. reflexivity. Qed.

Global Instance fxv : Valid_exp fx := FLT_exp_valid (-1074) 53.
Global Instance fxm : Monotone_exp fx := FLT_exp_monotone (-1074) 53.

Notation Fmt := (generic_format radix2 fx).

Lemma fmt_Z n : (Z.abs n < 2 ^ 53)%Z -> Fmt (IZR n).
Proof.
  intro H. apply (generic_format_FLT radix2 (-1074) 53).
  exists (Float radix2 n 0); cbn; [|exact H|lia].
  unfold F2R; cbn; lra.
Qed.

Lemma bp1024 : bpow radix2 1024 = IZR (2 ^ 1024).
Proof. cbn [bpow]. f_equal. Qed.

Lemma rnd_bound x : Rabs x <= bpow radix2 1023 -> Rabs (rd x) < bpow radix2 1024.
Proof.
  intro H. apply Rle_lt_trans with (bpow radix2 1023).
  - apply abs_round_le_generic; auto with typeclass_instances.
    apply generic_format_bpow. unfold SpecFloat.fexp, SpecFloat.emin. lia.
  - apply bpow_lt. lia.
Qed.

Lemma of_Z_spec n : (Z.abs n <= 2 ^ 53)%Z -> finite (of_Z n) /\ val (of_Z n) = IZR n.
Proof.
  intro H.
  assert (Hf : Fmt (IZR n)).
  { destruct (Z.eq_dec (Z.abs n) (2 ^ 53)) as [E|E].
    - assert (n = 2^53 \/ n = - 2^53)%Z as [-> | ->] by lia.
      + change (IZR (2^53)) with (bpow radix2 53). apply generic_format_bpow. cbn; lia.
      + rewrite opp_IZR. apply generic_format_opp.
        change (IZR (2^53)) with (bpow radix2 53). apply generic_format_bpow. cbn; lia.
    - apply fmt_Z. lia. }
  pose proof (binary_normalize_correct 53 1024 prec64 emax64 mode_NE n 0 false) as C.
  cbv zeta in C.
  assert (E : F2R (Float radix2 n 0) = IZR n) by (unfold F2R; cbn; lra).
  rewrite E in C. rewrite round_generic in C by auto with typeclass_instances.
  rewrite Rlt_bool_true in C.
  - unfold finite, val, of_Z. tauto.
  - rewrite <- abs_IZR. apply Rle_lt_trans with (bpow radix2 53).
    + change (bpow radix2 53) with (IZR (2^53)). now apply IZR_le.
    + apply bpow_lt; lia.
Qed.

Lemma val_fin s m e H : val (B754_finite s m e H) = F2R (Float radix2 (cond_Zopp s (Zpos m)) e).
Proof. reflexivity. Qed.

Lemma shift_F2R m e e' : (e' <= e)%Z -> F2R (Float radix2 m e) = F2R (Float radix2 (m * 2 ^ (e - e')) e').
Proof. intro H. exact (F2R_change_exp radix2 e' m e H). Qed.

(** fmod is exact and has the sign of the dividend. *)
Lemma bounded_facts m e : SpecFloat.bounded 53 1024 m e = true ->
  (Zpos m < 2 ^ 53 /\ -1074 <= e)%Z.
Proof.
  intro H. unfold SpecFloat.bounded in H. apply andb_prop in H. destruct H as [H1 _].
  unfold SpecFloat.canonical_mantissa in H1. apply Zeq_bool_eq in H1.
  unfold SpecFloat.fexp, SpecFloat.emin in H1.
  rewrite Digits.Zpos_digits2_pos in H1.
  split; [|lia].
  assert (Hd : (Digits.Zdigits radix2 (Z.pos m) <= 53)%Z) by lia.
  apply (Digits.Zpower_gt_Zdigits radix2 53 (Z.pos m)) in Hd. cbn in Hd |- *. lia.
Qed.

Lemma fmod_spec x y : finite x -> finite y -> 0 < val y ->
  finite (fmod x y) /\
  (exists k : Z, val x = val (fmod x y) + val y * IZR k) /\
  ((0 <= val x -> 0 <= val (fmod x y) < val y) /\
   (val x <= 0 -> - val y < val (fmod x y) <= 0)) .
Proof.
  intros Fx Fy Py.
  destruct y as [sy|sy| |sy my ey By]; try (cbn in Py; lra); try discriminate.
  assert (Hs : sy = false).
  { destruct sy; [|reflexivity]. exfalso. rewrite val_fin in Py.
    apply gt_0_F2R in Py. cbn in Py. lia. }
  subst sy.
  destruct x as [sx|sx| |sx mx ex Bx]; try discriminate.
  { cbn [fmod]. split; [reflexivity|]. change (val (B754_zero sx)) with 0.
    split; [exists 0%Z; rewrite Rmult_0_r; lra|lra]. }
  cbn [fmod]. set (e := Z.min ex ey). set (X := (Z.pos mx * 2 ^ (ex - e))%Z).
  set (Y := (Z.pos my * 2 ^ (ey - e))%Z). set (r := (X mod Y)%Z).
  assert (HX : (0 < X)%Z) by (apply Z.mul_pos_pos; [lia|apply Z.pow_pos_nonneg; lia]).
  assert (HY : (0 < Y)%Z) by (apply Z.mul_pos_pos; [lia|apply Z.pow_pos_nonneg; lia]).
  assert (Hr : (0 <= r < Y)%Z) by (apply Z.mod_pos_bound; lia).
  assert (HrX : (r <= X)%Z) by (apply Z.mod_le; lia).
  destruct (bounded_facts _ _ Bx) as [Mx Ex]. destruct (bounded_facts _ _ By) as [My Ey].
  assert (Hr53 : (r < 2 ^ 53)%Z).
  { destruct (Z_le_gt_dec ex ey) as [L|L].
    - assert (E : (ex - e = 0)%Z) by (unfold e; lia).
      unfold X in HrX. rewrite E, Z.pow_0_r, Z.mul_1_r in HrX. lia.
    - assert (E : (ey - e = 0)%Z) by (unfold e; lia).
      destruct Hr as [_ Hr]. unfold Y in Hr. rewrite E, Z.pow_0_r, Z.mul_1_r in Hr. lia. }
  assert (He : (-1074 <= e)%Z) by (unfold e; lia).
  assert (VY : val (B754_finite false my ey By) = F2R (Float radix2 Y e)).
  { rewrite val_fin. cbn [cond_Zopp]. apply shift_F2R. unfold e; lia. }
  assert (VX : val (B754_finite sx mx ex Bx) = F2R (Float radix2 (cond_Zopp sx X) e)).
  { rewrite val_fin. rewrite (shift_F2R _ ex e) by (unfold e; lia).
    f_equal. f_equal. unfold X. destruct sx; cbn [cond_Zopp]; lia. }
  set (rr := cond_Zopp sx r).
  assert (Fr : Fmt (F2R (Float radix2 rr e))).
  { apply (generic_format_FLT radix2 (-1074) 53). exists (Float radix2 rr e); cbn; [reflexivity| |exact He].
    unfold rr. destruct sx; cbn [cond_Zopp]; lia. }
  pose proof (binary_normalize_correct 53 1024 prec64 emax64 mode_NE rr e sx) as C.
  cbv zeta in C. rewrite round_generic in C by auto with typeclass_instances.
  assert (LT : Rabs (F2R (Float radix2 rr e)) < bpow radix2 1024).
  { apply Rlt_trans with (val (B754_finite false my ey By)).
    - rewrite VY. rewrite <- F2R_Zabs. apply F2R_lt. unfold rr. destruct sx; cbn [cond_Zopp]; lia.
    - pose proof (abs_B2R_lt_emax 53 1024 (B754_finite false my ey By)) as B.
      unfold val. apply Rle_lt_trans with (2 := B). apply Rle_abs. }
  rewrite (Rlt_bool_true _ _ LT) in C. destruct C as [C1 [C2 _]].
  set (z := binary_normalize 53 1024 prec64 emax64 mode_NE rr e sx) in *.
  unfold finite. split; [exact C2|].
  assert (VZ : val z = F2R (Float radix2 rr e)) by exact C1.
  split.
  - exists (cond_Zopp sx (X / Y)). rewrite VX, VZ, VY. unfold F2R; cbn [Fnum Fexp].
    assert (Q : (cond_Zopp sx X = rr + Y * cond_Zopp sx (X / Y))%Z).
    { unfold rr, r. pose proof (Z.div_mod X Y ltac:(lia)). destruct sx; cbn [cond_Zopp]; lia. }
    rewrite Q, plus_IZR, mult_IZR. ring.
  - rewrite VX, VZ, VY. unfold rr. split; intro H.
    + destruct sx; cbn [cond_Zopp] in *.
      * apply ge_0_F2R in H. cbn [Fnum] in H. lia.
      * split; [apply F2R_ge_0; cbn [Fnum]; lia|apply F2R_lt; lia].
    + destruct sx; cbn [cond_Zopp] in *.
      * split; [rewrite <- F2R_Zopp; apply F2R_lt; lia|apply F2R_le_0; cbn [Fnum]; lia].
      * apply le_0_F2R in H. cbn [Fnum] in H. lia.
Qed.

Lemma is_zero_val x : finite x -> is_zero x = true <-> val x = 0.
Proof.
  intro F. destruct x as [s|s| |s m e B]; try discriminate; cbn [is_zero].
  - split; reflexivity.
  - split; [discriminate|]. intro H. rewrite val_fin in H. apply eq_0_F2R in H.
    destruct s; discriminate.
Qed.

Lemma is_neg_val x : finite x -> is_neg x = true <-> val x < 0.
Proof.
  intro F. unfold is_neg. rewrite Bltb_correct by (assumption || reflexivity).
  change (B2R (B754_zero false)) with 0. unfold val.
  destruct (Rlt_bool_spec (B2R x) 0); split; intro; try reflexivity; try discriminate; lra.
Qed.

Lemma val_fmt x : Fmt (val x).
Proof. exact (generic_format_B2R 53 1024 x). Qed.

Lemma val_lt_emax x : Rabs (val x) < bpow radix2 1024.
Proof. exact (abs_B2R_lt_emax 53 1024 x). Qed.

Lemma rd_fmt x : Fmt x -> rd x = x.
Proof. intro H. apply round_generic; auto with typeclass_instances. Qed.

(** np.mod returns the correctly rounded exact remainder. *)
Lemma np_mod_spec x y : finite x -> finite y -> 0 < val y ->
  finite (np_mod x y) /\ val (np_mod x y) = rnd (rmod (val x) (val y)).
Proof.
  intros Fx Fy Py.
  destruct (fmod_spec x y Fx Fy Py) as [Fm [[k Hk] [Hp Hn]]].
  set (m := fmod x y) in *.
  unfold np_mod. fold m.
  assert (Zy : is_zero y = false).
  { destruct (is_zero y) eqn:E; [|reflexivity]. apply is_zero_val in E; [lra|assumption]. }
  assert (Ny : is_neg y = false).
  { destruct (is_neg y) eqn:E; [|reflexivity]. apply is_neg_val in E; [lra|assumption]. }
  rewrite Zy, Ny. cbn [xorb].
  destruct (is_zero m) eqn:Zm.
  { apply is_zero_val in Zm; [|assumption]. split; [reflexivity|].
    change (val (B754_zero false)) with 0.
    rewrite (rmod_unique (val x) 0 (val y)); try lra.
    - unfold rnd. rewrite round_0; auto with typeclass_instances.
    - exists k. lra. }
  destruct (is_neg m) eqn:Nm.
  - apply is_neg_val in Nm; [|assumption].
    assert (R : rmod (val x) (val y) = val m + val y).
    { apply rmod_unique; [assumption| |exists (k-1)%Z; rewrite minus_IZR; lra].
      destruct (Rle_or_lt 0 (val x)) as [H|H]; [specialize (Hp H); lra|].
      specialize (Hn ltac:(lra)). lra. }
    rewrite R.
    assert (B : 0 <= val m + val y <= val y).
    { destruct (Rle_or_lt 0 (val x)) as [H|H]; [specialize (Hp H); lra|].
      specialize (Hn ltac:(lra)). lra. }
    pose proof (Bplus_correct 53 1024 prec64 emax64 mode_NE m y Fm Fy) as C.
    change (B2R m) with (val m) in C. change (B2R y) with (val y) in C.
    rewrite Rlt_bool_true in C.
    + unfold finite, fadd. destruct C as [C1 [C2 _]]. split; [exact C2|exact C1].
    + apply Rle_lt_trans with (2 := val_lt_emax y).
      apply abs_round_le_generic; auto with typeclass_instances.
      * apply generic_format_abs. apply val_fmt.
      * rewrite !Rabs_pos_eq; lra.
  - assert (P : 0 <= val m).
    { destruct (Rle_or_lt 0 (val m)) as [H|H]; [assumption|].
      apply is_neg_val in H; [|assumption]. congruence. }
    assert (P' : val m <> 0) by (intro Q; apply is_zero_val in Q; [congruence|assumption]).
    split; [assumption|].
    rewrite (rmod_unique (val x) (val m) (val y)).
    + symmetry. rewrite <- rd_rnd. apply rd_fmt, val_fmt.
    + assumption.
    + destruct (Rle_or_lt 0 (val x)) as [H|H]; [auto|]. specialize (Hn ltac:(lra)). lra.
    + exists k. lra.
Qed.

Lemma f360 : finite (of_Z 360) /\ val (of_Z 360) = 360.
Proof. apply of_Z_spec. lia. Qed.
Lemma f0 : finite (of_Z 0) /\ val (of_Z 0) = 0.
Proof. apply of_Z_spec. lia. Qed.

Lemma raan_field_ok x : finite x ->
  (raan_field x = Ok x <-> 0 <= val x < 360) /\
  (raan_field x = Raise ValidationError <-> ~ (0 <= val x < 360)).
Proof.
  intro F. destruct f360 as [F1 V1]. destruct f0 as [F0 V0].
  unfold raan_field. rewrite Bleb_correct, Bltb_correct by assumption.
  change (B2R (of_Z 0)) with (val (of_Z 0)). change (B2R (of_Z 360)) with (val (of_Z 360)).
  change (B2R x) with (val x). rewrite V0, V1.
  destruct (Rle_bool_spec 0 (val x)); destruct (Rlt_bool_spec (val x) 360); cbn [andb];
    split; split; intro; try reflexivity; try discriminate; try lra; exfalso; lra.
Qed.

Definition half_gap : R := / IZR (2 ^ 45).
Definition last_angle : R := 360 - / IZR (2 ^ 44).

Lemma last_angle_eq : last_angle = F2R (Float radix2 (360 * 2^44 - 1) (-44)).
Proof.
  unfold last_angle, F2R. cbn [Fnum Fexp]. rewrite minus_IZR, mult_IZR.
  change (bpow radix2 (-44)) with (/ IZR (2 ^ 44)).
  assert (IZR (2^44) <> 0) by (apply IZR_neq; lia).
  field. assumption.
Qed.

Lemma last_angle_fmt : Fmt last_angle.
Proof.
  rewrite last_angle_eq. apply (generic_format_FLT radix2 (-1074) 53).
  eexists; [reflexivity| |]; cbn; lia.
Qed.

Lemma gap_pos : 0 < half_gap /\ / IZR (2^44) = 2 * half_gap /\ half_gap < 1/100.
Proof.
  unfold half_gap. assert (0 < IZR (2^44)) by (apply IZR_lt; lia).
  assert (E : IZR (2^45) = 2 * IZR (2^44)) by (rewrite <- mult_IZR; f_equal).
  rewrite E. split; [apply Rinv_0_lt_compat; lra|]. split; [field; lra|].
  rewrite <- E. assert (100 < IZR (2^45)) by (apply IZR_lt; lia).
  replace (1/100) with (/ 100) by lra. apply Rinv_lt_contravar; nra.
Qed.

Lemma succ_last : succ radix2 fx last_angle = 360.
Proof.
  destruct gap_pos as [G1 [G2 G3]].
  rewrite succ_eq_pos by (unfold last_angle; lra).
  rewrite ulp_neq_0 by (unfold last_angle; lra).
  unfold cexp. rewrite (mag_unique_pos radix2 last_angle 9).
  - change (bpow radix2 (fx 9)) with (/ IZR (2^44)). unfold last_angle. lra.
  - unfold last_angle. change (bpow radix2 (9-1)) with 256. change (bpow radix2 9) with 512. lra.
Qed.

Lemma pred_360 : pred radix2 fx 360 = last_angle.
Proof. rewrite <- succ_last. apply pred_succ; auto with typeclass_instances. apply last_angle_fmt. Qed.

Lemma rnd_angle_lt r : r < 360 - half_gap -> rnd r < 360.
Proof.
  destruct gap_pos as [G1 [G2 G3]]. intro H. apply Rle_lt_trans with last_angle.
  - apply (round_N_le_midp radix2 fx); [apply last_angle_fmt|].
    rewrite succ_last. unfold last_angle. lra.
  - unfold last_angle. lra.
Qed.

Lemma rnd_angle_ge r : 360 - half_gap < r -> 360 <= rnd r.
Proof.
  destruct gap_pos as [G1 [G2 G3]]. intro H.
  apply (round_N_ge_midp radix2 fx).
  - apply fmt_Z. lia.
  - rewrite pred_360. unfold last_angle. lra.
Qed.

Lemma rnd_angle_range r : 0 <= r <= 360 -> 0 <= rnd r <= 360.
Proof.
  intros [H1 H2]. split.
  - apply round_ge_generic; auto with typeclass_instances. apply generic_format_0.
  - apply round_le_generic; auto with typeclass_instances. apply (fmt_Z 360); lia.
Qed.

Lemma rnd_tie : rnd (360 - half_gap) = 360.
Proof.
  assert (E : 360 - half_gap = F2R (Float radix2 (360 * 2^45 - 1) (-45))).
  { unfold half_gap, F2R. cbn [Fnum Fexp]. rewrite minus_IZR, mult_IZR.
    change (bpow radix2 (-45)) with (/ IZR (2 ^ 45)).
    assert (IZR (2^45) <> 0) by (apply IZR_neq; lia). field. assumption. }
  pose proof (binary_normalize_correct 53 1024 prec64 emax64 mode_NE (360 * 2^45 - 1) (-45) false) as C.
  cbv zeta in C. rewrite <- E in C.
  rewrite Rlt_bool_true in C.
  - destruct C as [C _]. change (rd (360 - half_gap)) with (rnd (360 - half_gap)) in C.
    rewrite <- C.
    destruct f360 as [_ V]. rewrite <- V. unfold val. f_equal. 
    apply B2SF_inj. vm_compute. reflexivity.
  - apply rnd_bound. destruct gap_pos as [G1 [G2 G3]].
    rewrite Rabs_pos_eq by lra. apply Rle_trans with 512; [lra|].
    change 512 with (bpow radix2 9). apply bpow_le. lia.
Qed.

Lemma rnd_angle_lt_iff r : 0 <= r < 360 -> rnd r < 360 <-> r < 360 - half_gap.
Proof.
  intros H. split; [|apply rnd_angle_lt]. intro L.
  destruct (Rlt_or_le r (360 - half_gap)) as [?|[K|K]]; [assumption| |].
  - apply rnd_angle_ge in K. lra.
  - rewrite <- K, rnd_tie in L. lra.
Qed.

(** The sum never overflows. *)
Lemma fadd_fin x y : angle_ok x -> finite y ->
  finite (fadd x y) /\ val (fadd x y) = rnd (val x + val y).
Proof.
  intros [Fx Vx] Fy.
  pose proof (Bplus_correct 53 1024 prec64 emax64 mode_NE x y Fx Fy) as C.
  change (B2R x) with (val x) in C. change (B2R y) with (val y) in C.
  destruct (Rlt_bool_spec (Rabs (rd (val x + val y))) (bpow radix2 1024)) as [L|L].
  - destruct C as [C1 [C2 _]]. split; [exact C2|exact C1].
  - exfalso. destruct C as [_ C].
    assert (Hm : Rabs (val y) <= bpow radix2 1024 - bpow radix2 971).
    { exact (abs_B2R_le_emax_minus_prec 53 1024 prec64 y). }
    (* the largest float absorbs any angle *)
    assert (B : Rabs (rd (val x + val y)) <= bpow radix2 1024 - bpow radix2 971).
    { set (M := bpow radix2 1024 - bpow radix2 971) in *.
      assert (MF : M = F2R (Float radix2 (2^53 - 1) 971)).
      { unfold M, F2R. cbn [Fnum Fexp]. rewrite minus_IZR.
        change (IZR (2^53)) with (bpow radix2 53).
        rewrite Rmult_minus_distr_r, <- bpow_plus. cbn [Z.add]. 
        replace (53 + 971)%Z with 1024%Z by reflexivity. rewrite Rmult_1_l. reflexivity. }
      assert (FM : Fmt M).
      { rewrite MF. apply (generic_format_FLT radix2 (-1074) 53). eexists; [reflexivity| |]; cbn; lia. }
      assert (M0 : 0 < M) by (rewrite MF; apply F2R_gt_0; cbn; lia).
      assert (SM : succ radix2 fx M = bpow radix2 1024).
      { rewrite succ_eq_pos by lra. rewrite ulp_neq_0 by lra.
        unfold cexp. rewrite (mag_unique_pos radix2 M 1024).
        - change (fx 1024) with 971%Z. unfold M. lra.
        - assert (E : bpow radix2 1024 = 2 * bpow radix2 1023) by (change 1024%Z with (1 + 1023)%Z at 1; rewrite (bpow_plus radix2 1 1023); reflexivity).
          assert (E2 : bpow radix2 971 < bpow radix2 1023) by (apply bpow_lt; lia).
          pose proof (bpow_gt_0 radix2 971). unfold M.
          change (1024 - 1)%Z with 1023%Z. revert E E2 H; generalize (bpow radix2 971) (bpow radix2 1023) (bpow radix2 1024); intros; lra. }
      assert (G : bpow radix2 971 > 1000).
      { apply Rlt_trans with (bpow radix2 10); [change (bpow radix2 10) with 1024; lra|apply bpow_lt; lia]. }
      assert (U : rd (val x + val y) <= M).
      { apply (round_N_le_midp radix2 fx); [assumption|]. rewrite SM.
        pose proof (Rle_abs (val y)). unfold M in *. lra. }
      assert (D : - M <= rd (val x + val y)).
      { apply round_ge_generic; auto with typeclass_instances.
        - now apply generic_format_opp.
        - pose proof (Rle_abs (- val y)) as Q. rewrite Rabs_Ropp in Q. lra. }
      apply Rabs_le. lra. }
    pose proof (bpow_gt_0 radix2 971). lra.
Qed.

(** Full characterisation of the derived right ascension. *)
Lemma derived_raan_spec raan delta : angle_ok raan -> finite delta ->
  let s := rnd (val raan + val delta) in
  let r := rmod s 360 in
  (r < 360 - half_gap -> exists f, derived_raan raan delta = Ok f /\ finite f /\ val f = rnd r) /\
  (360 - half_gap <= r -> derived_raan raan delta = Raise ValidationError).
Proof.
  intros A F s r. destruct f360 as [F3 V3].
  destruct (fadd_fin raan delta A F) as [Fs Vs].
  destruct (np_mod_spec (fadd raan delta) (of_Z 360) Fs F3 ltac:(lra)) as [Fm Vm].
  rewrite Vs, V3 in Vm. fold s in Vm. fold r in Vm.
  pose proof (rmod_range s 360 ltac:(lra)) as R. fold r in R.
  destruct (raan_field_ok _ Fm) as [K1 K2].
  assert (Rg : 0 <= rnd r <= 360) by (apply rnd_angle_range; lra).
  unfold derived_raan. split; intro H.
  - eexists. split; [apply K1|split; assumption]. rewrite Vm. split; [tauto|]. now apply rnd_angle_lt.
  - apply K2. rewrite Vm. intros [_ L]. apply rnd_angle_lt_iff in L; lra.
Qed.

(** Nonnegative sums always succeed and are exact. *)
Lemma rmod_fmt_nonneg x : finite x -> 0 <= val x -> Fmt (rmod (val x) 360).
Proof.
  intros F H. destruct f360 as [F3 V3].
  destruct (fmod_spec x (of_Z 360) F F3 ltac:(lra)) as [Fm [[k Hk] [Hp _]]].
  rewrite V3 in *. specialize (Hp H).
  rewrite (rmod_unique (val x) (val (fmod x (of_Z 360))) 360); try lra.
  - apply val_fmt.
  - exists k. lra.
Qed.

Lemma derived_raan_nonneg raan delta : angle_ok raan -> finite delta ->
  0 <= val raan + val delta ->
  exists f, derived_raan raan delta = Ok f /\ angle_ok f /\
    val f = rmod (rnd (val raan + val delta)) 360.
Proof.
  intros A F H. destruct (fadd_fin raan delta A F) as [Fs Vs].
  assert (Ps : 0 <= val (fadd raan delta)).
  { rewrite Vs. apply round_ge_generic; auto with typeclass_instances. apply generic_format_0. }
  pose proof (rmod_fmt_nonneg _ Fs Ps) as Fm. rewrite Vs in Fm.
  pose proof (rmod_range (rnd (val raan + val delta)) 360 ltac:(lra)) as R.
  set (r := rmod (rnd (val raan + val delta)) 360) in *.
  assert (E : rnd r = r) by (rewrite <- rd_rnd; now apply rd_fmt).
  destruct (derived_raan_spec raan delta A F) as [S _]. fold r in S. cbv zeta in S. fold r in S.
  assert (L : r < 360 - half_gap) by (apply rnd_angle_lt_iff; [lra|rewrite E; lra]).
  destruct (S L) as [f [S1 [S2 S3]]]. exists f. split; [assumption|]. split; [|congruence].
  split; [assumption|]. rewrite S3, E. lra.
Qed.

Lemma fmul_fin x y : finite x -> finite y -> Rabs (val x * val y) <= bpow radix2 1023 ->
  finite (fmul x y) /\ val (fmul x y) = rnd (val x * val y).
Proof.
  intros Fx Fy B.
  pose proof (Bmult_correct 53 1024 prec64 emax64 mode_NE x y) as C.
  change (B2R x) with (val x) in C. change (B2R y) with (val y) in C.
  rewrite Rlt_bool_true in C by now apply rnd_bound.
  destruct C as [C1 [C2 _]]. unfold finite, fmul. rewrite C2. split; [|exact C1].
  unfold finite in *. now rewrite Fx, Fy.
Qed.

Lemma fdiv_fin x y : finite x -> finite y -> val y <> 0 -> Rabs (val x / val y) <= bpow radix2 1023 ->
  finite (fdiv x y) /\ val (fdiv x y) = rnd (val x / val y).
Proof.
  intros Fx Fy N B.
  pose proof (Bdiv_correct 53 1024 prec64 emax64 mode_NE x y N) as C.
  change (B2R x) with (val x) in C. change (B2R y) with (val y) in C.
  rewrite Rlt_bool_true in C by now apply rnd_bound.
  destruct C as [C1 [C2 _]]. unfold finite, fdiv. rewrite C2. split; [exact Fx|exact C1].
Qed.

Lemma rnd_nonneg x : 0 <= x -> 0 <= rnd x.
Proof. intro H. apply round_ge_generic; auto with typeclass_instances. apply generic_format_0. Qed.

Lemma rnd_le_Z x n : (Z.abs n < 2^53)%Z -> x <= IZR n -> rnd x <= IZR n.
Proof. intros Hn H. apply round_le_generic; auto with typeclass_instances. now apply fmt_Z. Qed.

Lemma big_ok x : 0 <= x <= IZR (2^100) -> Rabs x <= bpow radix2 1023.
Proof.
  intro H. rewrite Rabs_pos_eq by lra. apply Rle_trans with (IZR (2^100)); [lra|].
  change (IZR (2^100)) with (bpow radix2 100). apply bpow_le. lia.
Qed.

Lemma div_bounds a b c : 0 <= a -> 0 < b -> a <= c * b -> 0 <= a / b <= c.
Proof.
  intros Ha Hb H. split.
  - apply Rmult_le_pos; [lra|]. left. now apply Rinv_0_lt_compat.
  - apply Rmult_le_reg_r with b; [assumption|]. unfold Rdiv. rewrite Rmult_assoc, Rinv_l by lra. lra.
Qed.

Lemma walker_ok star planes p raan : angle_ok raan ->
  (1 <= planes <= 2^53)%Z -> (0 <= p < planes)%Z ->
  exists f, walker_raan star planes p raan = Ok f /\ angle_ok f /\
    val f = rmod (rnd (val raan +
       rnd (IZR p * rnd ((if star then 180 else 360) / IZR planes)))) 360.
Proof.
  intros A Hn Hp.
  set (c := if star then 180%Z else 360%Z).
  assert (Hc : (0 <= c <= 360)%Z) by (unfold c; destruct star; lia).
  destruct (of_Z_spec c ltac:(lia)) as [Fc Vc].
  destruct (of_Z_spec planes ltac:(lia)) as [Fn Vn].
  destruct (of_Z_spec p ltac:(lia)) as [Fp Vp].
  assert (N1 : 1 <= IZR planes) by (apply IZR_le; lia).
  assert (C1 : 0 <= IZR c <= 360) by (split; apply IZR_le; lia).
  assert (Q : 0 <= IZR c / IZR planes <= 360).
  { apply div_bounds; [lra|lra|]. nra. }
  assert (HH : 360 <= IZR (2^100)) by (apply IZR_le; lia).
  destruct (fdiv_fin (of_Z c) (of_Z planes) Fc Fn) as [Fd Vd].
  { rewrite Vn. lra. }
  { rewrite Vc, Vn. apply big_ok. lra. }
  rewrite Vc, Vn in Vd.
  assert (D : 0 <= rnd (IZR c / IZR planes) <= 360).
  { split; [apply rnd_nonneg; lra|apply (rnd_le_Z _ 360); [lia|lra]]. }
  assert (P : 0 <= IZR p <= IZR (2^53)) by (split; apply IZR_le; lia).
  assert (M : 0 <= IZR p * rnd (IZR c / IZR planes) <= IZR (2^100)).
  { split; [apply Rmult_le_pos; lra|].
    apply Rle_trans with (IZR (2^53) * 360); [apply Rmult_le_compat; lra|].
    rewrite <- mult_IZR. apply IZR_le. lia. }
  destruct (fmul_fin (of_Z p) (fdiv (of_Z c) (of_Z planes)) Fp Fd) as [Fm Vm].
  { rewrite Vp, Vd. now apply big_ok. }
  rewrite Vp, Vd in Vm.
  destruct (derived_raan_nonneg raan (fmul (of_Z p) (fdiv (of_Z c) (of_Z planes))) A Fm) as [f [S1 [S2 S3]]].
  { rewrite Vm. destruct A as [_ A]. pose proof (rnd_nonneg _ (proj1 M)). lra. }
  exists f. split; [exact S1|]. split; [exact S2|].
  rewrite S3, Vm. unfold c. destruct star; reflexivity.
Qed.

Lemma train_forward_ok repeat us i raan : angle_ok raan ->
  (0 <= us <= 2^53)%Z -> (0 <= i <= 2^53)%Z ->
  exists f, train_raan repeat us i raan = Ok f /\ angle_ok f.
Proof.
  intros A Hu Hi.
  destruct (of_Z_spec i ltac:(lia)) as [Fi Vi].
  assert (I : 0 <= IZR i <= IZR (2^53)) by (split; apply IZR_le; lia).
  assert (D : finite (train_delta_raan repeat us) /\ 0 <= val (train_delta_raan repeat us) <= IZR (2^40)).
  { unfold train_delta_raan. destruct repeat.
    - destruct (of_Z_spec us ltac:(lia)) as [Fu Vu].
      destruct (of_Z_spec 86400000000 ltac:(lia)) as [Fd Vd].
      destruct f360 as [F3 V3].
      assert (U : 0 <= IZR us <= IZR (2^53)) by (split; apply IZR_le; lia).
      assert (Q : 0 <= IZR us / 86400000000 <= 200000).
      { apply div_bounds; [lra|lra|]. apply Rle_trans with (IZR (2^53)); [lra|].
        rewrite <- mult_IZR. apply IZR_le. lia. }
      assert (HH : 200000 <= IZR (2^100)) by (apply IZR_le; lia).
      destruct (fdiv_fin (of_Z us) (of_Z 86400000000) Fu Fd) as [Fq Vq].
      { rewrite Vd. lra. }
      { rewrite Vu, Vd. apply big_ok. lra. }
      rewrite Vu, Vd in Vq.
      assert (R : 0 <= rnd (IZR us / 86400000000) <= 200000).
      { split; [apply rnd_nonneg; lra|apply (rnd_le_Z _ 200000); [lia|lra]]. }
      destruct (fmul_fin (of_Z 360) (fdiv (of_Z us) (of_Z 86400000000)) F3 Fq) as [Fm Vm].
      { rewrite V3, Vq. apply big_ok. split; [lra|]. apply Rle_trans with 72000000; [lra|]. apply IZR_le; lia. }
      split; [exact Fm|]. rewrite Vm, V3, Vq. split; [apply rnd_nonneg; lra|].
      apply Rle_trans with 72000000; [apply (rnd_le_Z _ 72000000); [lia|lra]|apply IZR_le; lia].
    - destruct f0 as [F0 V0]. split; [exact F0|]. rewrite V0. split; [lra|apply IZR_le; lia]. }
  destruct D as [Fd Vd].
  assert (M : 0 <= IZR i * val (train_delta_raan repeat us) <= IZR (2^100)).
  { split; [apply Rmult_le_pos; lra|].
    apply Rle_trans with (IZR (2^53) * IZR (2^40)); [apply Rmult_le_compat; lra|].
    rewrite <- mult_IZR. apply IZR_le. lia. }
  destruct (fmul_fin (of_Z i) (train_delta_raan repeat us) Fi Fd) as [Fm Vm].
  { rewrite Vi. now apply big_ok. }
  rewrite Vi in Vm.
  destruct (derived_raan_nonneg raan _ A Fm) as [f [S1 [S2 _]]].
  { rewrite Vm. destruct A as [_ A]. pose proof (rnd_nonneg _ (proj1 M)). lra. }
  exists f. split; [exact S1|exact S2].
Qed.

(** 0.0375 degrees, the binary64 nearest to it. *)
Definition raan_0375 : b64 := fdiv (of_Z 375) (of_Z 10000).

Lemma raan_0375_ok : angle_ok raan_0375.
Proof.
  destruct (of_Z_spec 375 ltac:(lia)) as [F1 V1]. destruct (of_Z_spec 10000 ltac:(lia)) as [F2 V2].
  destruct (fdiv_fin (of_Z 375) (of_Z 10000) F1 F2) as [F V].
  { rewrite V2. lra. }
  { rewrite V1, V2. apply big_ok. split; [lra|]. apply Rle_trans with 1; [lra|apply IZR_le; lia]. }
  rewrite V1, V2 in V. split; [exact F|]. unfold raan_0375. rewrite V.
  split; [apply rnd_nonneg; lra|]. apply Rle_lt_trans with 1; [apply (rnd_le_Z _ 1); [lia|lra]|lra].
Qed.

Lemma train_backward_fails : train_raan true (-9000000) 1 raan_0375 = Raise ValidationError.
Proof.
  unfold train_raan, derived_raan, raan_field.
  assert (E : (Bleb (of_Z 0) (np_mod (fadd raan_0375 (fmul (of_Z 1) (train_delta_raan true (-9000000)))) (of_Z 360)) &&
     Bltb (np_mod (fadd raan_0375 (fmul (of_Z 1) (train_delta_raan true (-9000000)))) (of_Z 360)) (of_Z 360))%bool = false)
    by (vm_compute; reflexivity).
  now rewrite E.
Qed.

Lemma turn_of_rmod x r : turn_of x r <-> r = rmod x 360.
Proof.
  split.
  - intros [H [k E]]. symmetry. apply rmod_unique; [lra|assumption|]. exists k. lra.
  - intros ->. split; [apply rmod_range; lra|].
    destruct (rmod_eqm x 360) as [k E]. exists (-k)%Z. rewrite opp_IZR. lra.
Qed.

Lemma derived_accept_iff raan delta r : angle_ok raan -> finite delta ->
  turn_of (rnd (val raan + val delta)) r ->
  ((exists f, derived_raan raan delta = Ok f) <-> r < 360 - / IZR (2 ^ 45)) /\
  (forall f, derived_raan raan delta = Ok f -> angle_ok f /\ val f = rnd r) /\
  (forall e, derived_raan raan delta = Raise e -> e = ValidationError).
Proof.
  intros A F T. apply turn_of_rmod in T. subst r.
  destruct (derived_raan_spec raan delta A F) as [S1 S2]. cbv zeta in S1, S2.
  set (r := rmod _ _) in *.
  assert (R : 0 <= r < 360) by (apply rmod_range; lra).
  change (/ IZR (2^45)) with half_gap.
  destruct (Rlt_or_le r (360 - half_gap)) as [L|L].
  - destruct (S1 L) as [f [E [Ff Vf]]]. split; [|split].
    + split; intro; [assumption|now exists f].
    + intros g Hg. rewrite E in Hg. injection Hg as <-. split; [|assumption].
      split; [assumption|]. rewrite Vf. pose proof (rnd_angle_range r ltac:(lra)). pose proof (rnd_angle_lt r L). lra.
    + intros e He. rewrite E in He. discriminate.
  - specialize (S2 L). split; [|split].
    + split; [intros [f E]; rewrite S2 in E; discriminate|lra].
    + intros g Hg. rewrite S2 in Hg. discriminate.
    + intros e He. rewrite S2 in He. now injection He.
Qed.

Lemma derived_nonneg_turn raan delta : angle_ok raan -> finite delta ->
  0 <= val raan + val delta ->
  exists f, derived_raan raan delta = Ok f /\ angle_ok f /\ turn_of (rnd (val raan + val delta)) (val f).
Proof.
  intros A F H. destruct (derived_raan_nonneg raan delta A F H) as [f [E [O V]]].
  exists f. split; [assumption|]. split; [assumption|]. now apply turn_of_rmod.
Qed.

Lemma walker_turn star planes p raan : angle_ok raan ->
  (1 <= planes <= 2^53)%Z -> (0 <= p < planes)%Z ->
  exists f, walker_raan star planes p raan = Ok f /\ angle_ok f /\
    turn_of (rnd (val raan + rnd (IZR p * rnd ((if star then 180 else 360) / IZR planes)))) (val f).
Proof.
  intros A Hn Hp. destruct (walker_ok star planes p raan A Hn Hp) as [f [E [O V]]].
  exists f. split; [assumption|]. split; [assumption|]. now apply turn_of_rmod.
Qed.

(** -2^-50 degrees. *)
Definition tiny_delta : b64 := binary_normalize 53 1024 prec64 emax64 mode_NE (-1) (-50) false.

Lemma tiny_fails : angle_ok (of_Z 0) /\ finite tiny_delta /\
  derived_raan (of_Z 0) tiny_delta = Raise ValidationError.
Proof.
  split; [|split].
  - destruct f0 as [F V]. split; [exact F|]. rewrite V. lra.
  - reflexivity.
  - unfold derived_raan, raan_field.
    assert (E : (Bleb (of_Z 0) (np_mod (fadd (of_Z 0) tiny_delta) (of_Z 360)) &&
       Bltb (np_mod (fadd (of_Z 0) tiny_delta) (of_Z 360)) (of_Z 360))%bool = false)
      by (vm_compute; reflexivity).
    now rewrite E.
Qed.

Lemma w_angle n : (0 <= n < 360)%Z -> angle_ok (of_Z n).
Proof.
  intro H. destruct (of_Z_spec n ltac:(lia)) as [F V]. split; [exact F|]. rewrite V.
  split; [apply IZR_le; lia|apply IZR_lt; lia].
Qed.
