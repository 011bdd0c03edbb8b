(** The mean of timestamps in binary64. *)
From Coq Require Import ZArith Reals Lra Lia Bool List.
From Flocq Require Import Core Relative IEEE754.BinarySingleNaN.
From Verif Require Import Base RBase RFacts Epoch_Model Float_Model Float_Spec Float_Proofs FGrid_Model FGrid_Spec FGrid_Proofs FGrid_Proofs2
  FTime_Model FTime_Spec FTime_Proofs.
Import ListNotations.
Open Scope R_scope.

Lemma of_Z_near a : (0 <= a <= 2 ^ 61)%Z -> finite (of_Z a) /\ 0 <= val (of_Z a) /\ Rabs (val (of_Z a) - IZR a) <= 257.
Proof.
  intro H. destruct (of_Z_any a ltac:(lia)) as [F V]. split; auto. assert (A : 0 <= IZR a <= 2305843009213693952) by (split; apply IZR_le; lia). rewrite V. split.
  - rewrite <- rnd_0. apply round_le; auto with typeclass_instances. lra.
  - pose proof (rnd_err (IZR a) _ 2305843009213693952 (proj1 e1000) ltac:(apply Rabs_le; lra)) as D. pose proof bp1000. unfold u in *. lra.
Qed.
Lemma stamps_sum l : Forall (fun a => 0 <= a <= 2 ^ 61)%Z l ->
  Forall (fun x => finite x /\ 0 <= val x) (map of_Z l)
  /\ Rabs (rsum (map val (map of_Z l)) - IZR (zsum l)) <= 257 * IZR (Z.of_nat (length l))
  /\ 0 <= IZR (zsum l) <= 2305843009213693952 * IZR (Z.of_nat (length l)).
Proof.
  induction 1 as [|a l Ha Hl [IH1 [IH2 IH3]]].
  - split; [constructor|]. cbn. replace (0 - 0) with 0 by lra. rewrite Rabs_R0. lra.
  - destruct (of_Z_near a Ha) as (F & P & E). assert (A : 0 <= IZR a <= 2305843009213693952) by (split; apply IZR_le; lia). split; [|split].
    + constructor; [|exact IH1]. split; [exact F|]. lra.
    + cbn [map rsum zsum fold_right length]. fold (rsum (map val (map of_Z l))). fold (zsum l). rewrite Nat2Z.inj_succ, succ_IZR, plus_IZR.
      apply Rabs_le_inv in E. apply Rabs_le_inv in IH2. apply Rabs_le. lra.
    + cbn [zsum fold_right length]. fold (zsum l). rewrite Nat2Z.inj_succ, succ_IZR, plus_IZR. lra.
Qed.
Lemma trunc_near x : 0 <= x -> Rabs (IZR (Ztrunc x) - x) <= 1.
Proof. intro H. rewrite Ztrunc_floor by auto. pose proof (Zfloor_lb x). pose proof (Zfloor_ub x). apply Rabs_le. lra. Qed.
Lemma trunc_near' x : Rabs (IZR (Ztrunc x) - x) <= 1.
Proof.
  destruct (Rle_or_lt 0 x); [now apply trunc_near|]. rewrite Ztrunc_ceil by lra. pose proof (Zceil_ub x). pose proof (Zceil_lb x). apply Rabs_le. lra.
Qed.

Lemma merged_epoch_near fsum l : accurate_sum fsum -> l <> [] -> (Z.of_nat (length l) <= 2 ^ 20)%Z -> Forall (fun a => 0 <= a <= 2 ^ 61)%Z l ->
  Rabs (IZR (merged_epoch fsum l) - IZR (zsum l) / IZR (Z.of_nat (length l))) <= 2049 * (IZR (Z.of_nat (length l)) + 1).
Proof.
  intros Acc NE Hn Hl. destruct (stamps_sum l Hl) as [G [E B]]. set (n := Z.of_nat (length l)) in *.
  assert (N1 : (1 <= n)%Z) by (unfold n; destruct l; [congruence|cbn [length]; lia]).
  assert (Rn : 1 <= IZR n <= 1048576) by (split; apply IZR_le; lia). set (S := IZR (zsum l)) in *.
  destruct (Acc (map of_Z l) G) as [Fs Es].
  { assert (Bn : bpow radix2 100 = 1267650600228229401496703205376) by (cbn; lra). apply Rabs_le_inv in E. lra. }
  { rewrite map_length. fold n. lia. }
  rewrite map_length in Es. fold n in Es. rewrite c_bpow in Es. set (V := rsum (map val (map of_Z l))) in *. set (s := fsum (map of_Z l)) in *.
  destruct (of_Z_spec n) as [Fn Vn]; [lia|].
  pose proof bp1000 as E3. pose proof (bpow_ge_0 radix2 (-1000)) as E4. set (e := bpow radix2 (-1000)) in *.
  set (mu := val s / IZR n). assert (Mu : mu * IZR n = val s) by (unfold mu; field; lra).
  set (me := S / IZR n). assert (Me : me * IZR n = S) by (unfold me; field; lra).
  assert (Me0 : 0 <= me <= 2305843009213693952).
  { split; [apply Rmult_le_reg_r with (IZR n); lra|apply Rmult_le_reg_r with (IZR n); lra]. }
  assert (VB : V <= 2305843009213694209 * IZR n) by (apply Rabs_le_inv in E; lra).
  assert (VB0 : 0 <= V) by (apply rsum_nonneg; exact G).
  assert (UV : 8 * u * V <= 8 * u * (2305843009213694209 * IZR n)) by (apply Rmult_le_compat_l; [unfold u; lra|exact VB]).
  assert (X : Rabs (mu - me) <= 257 + (8 * u * (2305843009213694209 * IZR n) + e)).
  { assert (W : Rabs (IZR n * (mu - me)) <= IZR n * (257 + (8 * u * (2305843009213694209 * IZR n) + e))).
    { replace (IZR n * (mu - me)) with ((val s - V) + (V - S)) by (rewrite <- Mu, <- Me; ring).
      eapply Rle_trans; [apply Rabs_triang|].
      apply Rle_trans with (IZR n * (8 * u * V + e) + 257 * IZR n); [lra|].
      assert (IZR n * (8 * u * V + e) <= IZR n * (8 * u * (2305843009213694209 * IZR n) + e)) by (apply Rmult_le_compat_l; lra). lra. }
    rewrite Rabs_mult, (Rabs_pos_eq (IZR n)) in W by lra. apply Rmult_le_reg_l with (IZR n); lra. }
  apply Rabs_le_inv in X.
  assert (X2 : - (258 + 2048.1 * IZR n) <= mu - me <= 258 + 2048.1 * IZR n) by (unfold u in X; lra).
  assert (Bmu : Rabs mu <= 2305845157000000000) by (apply Rabs_le; lra).
  destruct (fdiv_fin s (of_Z n) Fs Fn) as [Fm Vm].
  - rewrite Vn. lra.
  - rewrite Vn. apply big_bpow with 2305845157000000000; [exact Bmu|lra].
  - rewrite Vn in Vm. fold mu in Vm.
    pose proof (rnd_err _ _ _ (proj1 e1000) Bmu) as D. rewrite <- Vm in D. apply Rabs_le_inv in D. fold e in D.
    unfold merged_epoch, f_mean. fold s. rewrite map_length. fold n. rewrite Btrunc_val.
    pose proof (trunc_near' (val (fdiv s (of_Z n)))) as T. apply Rabs_le_inv in T. fold S me. apply Rabs_le. unfold u in D. lra.
Qed.
Lemma zsum_bounds l lo hi : Forall (fun a => lo <= a <= hi)%Z l -> (lo * Z.of_nat (length l) <= zsum l <= hi * Z.of_nat (length l))%Z.
Proof. induction 1 as [|a l Ha Hl IH]; cbn [zsum fold_right length]; [lia|]. fold (zsum l). rewrite Nat2Z.inj_succ. lia. Qed.
Lemma merged_epoch_inside fsum l lo hi : accurate_sum fsum -> l <> [] -> (Z.of_nat (length l) <= 2 ^ 20)%Z -> Forall (fun a => 0 <= a <= 2 ^ 61)%Z l ->
  Forall (fun a => lo + 2049 * (Z.of_nat (length l) + 1) <= a <= hi - 2049 * (Z.of_nat (length l) + 1))%Z l ->
  (lo <= merged_epoch fsum l <= hi)%Z.
Proof.
  intros Acc NE Hn Hl Hb. pose proof (merged_epoch_near fsum l Acc NE Hn Hl) as M. apply zsum_bounds in Hb. set (n := Z.of_nat (length l)) in *.
  assert (N1 : (1 <= n)%Z) by (unfold n; destruct l; [congruence|cbn [length]; lia]). assert (Rn : 1 <= IZR n) by (apply IZR_le; lia).
  destruct Hb as [H1 H2]. apply IZR_le in H1, H2. rewrite mult_IZR in H1, H2. rewrite plus_IZR in H1. rewrite minus_IZR in H2. rewrite mult_IZR, plus_IZR in H1, H2.
  apply Rabs_le_inv in M. set (me := IZR (zsum l) / IZR n) in *. assert (Me : me * IZR n = IZR (zsum l)) by (unfold me; field; lra).
  assert (L : IZR lo + 2049 * (IZR n + 1) <= me) by (apply Rmult_le_reg_r with (IZR n); lra).
  assert (U : me <= IZR hi - 2049 * (IZR n + 1)) by (apply Rmult_le_reg_r with (IZR n); lra).
  split; apply le_IZR; lra.
Qed.
Lemma rnd_val (x : b64) : rnd (val x) = val x.
Proof. unfold rnd. apply round_generic; auto with typeclass_instances. apply generic_format_B2R. Qed.
Lemma single_val x : finite x -> Rabs (val x) <= 2305843009213694209 ->
  (finite (plain_sum [x]) /\ val (plain_sum [x]) = val x) /\ (finite (kahan_sum [x]) /\ val (kahan_sum [x]) = val x).
Proof.
  intros F B. destruct (of_Z_spec 0) as [F0 V0]; [lia|]. assert (B' : 2305843009213694209 <= bpow radix2 110) by (rewrite bp110; lra). split.
  - unfold plain_sum. cbn [fold_left]. destruct (fadd_big (of_Z 0) x F0 F) as [A C]; [rewrite V0, Rplus_0_l; lra|]. split; auto. rewrite C, V0, Rplus_0_l. apply rnd_val.
  - unfold kahan_sum, kahan_step. cbn [fold_left fst].
    destruct (fsub_big x (of_Z 0) F F0) as [A1 C1]; [rewrite V0, Rminus_0_r; lra|]. rewrite V0, Rminus_0_r, rnd_val in C1.
    destruct (fadd_big (of_Z 0) (fsub x (of_Z 0)) F0 A1) as [A C]; [rewrite V0, Rplus_0_l, C1; lra|]. split; auto. rewrite C, V0, Rplus_0_l, C1. apply rnd_val.
Qed.
Lemma single_epoch fsum a : fsum = plain_sum \/ fsum = kahan_sum -> (0 <= a <= 2 ^ 61)%Z -> Rabs (IZR (merged_epoch fsum [a]) - IZR a) <= 258.
Proof.
  intros K H. destruct (of_Z_near a H) as (F & P & E). assert (A : 0 <= IZR a <= 2305843009213693952) by (split; apply IZR_le; lia).
  apply Rabs_le_inv in E. assert (B : Rabs (val (of_Z a)) <= 2305843009213694209) by (apply Rabs_le; lra).
  destruct (single_val _ F B) as [S1 S2]. assert (S : finite (fsum [of_Z a]) /\ val (fsum [of_Z a]) = val (of_Z a)) by (destruct K as [-> | ->]; assumption).
  destruct S as [Fs Vs]. destruct (of_Z_spec 1) as [F1 V1]; [lia|].
  destruct (fdiv_fin (fsum [of_Z a]) (of_Z 1) Fs F1) as [Fm Vm]; [rewrite V1; lra|rewrite V1, Vs; unfold Rdiv; rewrite Rinv_1, Rmult_1_r; apply big_bpow with 2305843009213694209; [exact B|lra]|].
  rewrite V1, Vs in Vm. unfold Rdiv in Vm. rewrite Rinv_1, Rmult_1_r, rnd_val in Vm.
  unfold merged_epoch, f_mean. cbn [map length]. change (Z.of_nat 1) with 1%Z. rewrite Btrunc_val, Vm. pose proof (trunc_near' (val (of_Z a))) as T. apply Rabs_le_inv in T.
  apply Rabs_le. lra.
Qed.
