(** Proofs about binary64 arithmetic on durations. *)
From Coq Require Import ZArith Reals Lra Lia Bool List.
From Flocq Require Import Core Relative IEEE754.BinarySingleNaN.
From Verif Require Import Base RBase RFacts Epoch_Model Float_Model Float_Spec Float_Proofs FGrid_Model FGrid_Spec FGrid_Proofs FGrid_Proofs2
  FTime_Model FTime_Spec.
Import ListNotations.
Open Scope R_scope.

Definition u := / 9007199254740992.
Lemma u_bpow : bpow radix2 (-53) = u. Proof. unfold u. cbn. lra. Qed.
Lemma c_bpow : bpow radix2 (-50) = 8 * u. Proof. unfold u. cbn. lra. Qed.

Lemma rnd_abs x e : 1000 * bpow radix2 (-1074) <= e -> Rabs (rnd x - x) <= u * Rabs x + e / 1000.
Proof.
  intro He. destruct (error_N_FLT radix2 (-1074) 53 ltac:(lia) (fun n => negb (Z.even n)) x) as (eps & eta & H1 & H2 & _ & E).
  unfold rnd. rewrite E. replace (x * (1 + eps) + eta - x) with (eps * x + eta) by ring.
  eapply Rle_trans; [apply Rabs_triang|]. rewrite Rabs_mult. apply Rplus_le_compat.
  - apply Rmult_le_compat_r; [apply Rabs_pos|]. eapply Rle_trans; [exact H1|]. unfold u. cbn. lra.
  - pose proof (bpow_ge_0 radix2 (-1074)). lra.
Qed.
Lemma rnd_err x e b : 1000 * bpow radix2 (-1074) <= e -> Rabs x <= b -> Rabs (rnd x - x) <= u * b + e / 1000.
Proof. intros He H. pose proof (rnd_abs x e He). assert (u * Rabs x <= u * b) by (apply Rmult_le_compat_l; [unfold u; lra|assumption]). lra. Qed.

Lemma bp110 : bpow radix2 110 = 2 ^ 110. Proof. cbn. lra. Qed.
Lemma fadd_big x y : finite x -> finite y -> Rabs (val x + val y) <= bpow radix2 110 ->
  finite (fadd x y) /\ val (fadd x y) = rnd (val x + val y).
Proof.
  intros Fx Fy B.
  pose proof (Bplus_correct 53 1024 prec64 emax64 mode_NE x y Fx Fy) as C.
  change (B2R x) with (val x) in C. change (B2R y) with (val y) in C.
  rewrite Rlt_bool_true in C.
  - destruct C as [C1 [C2 _]]. split; [exact C2 | exact C1].
  - apply rnd_bound. eapply Rle_trans; [exact B|]. apply bpow_le. lia.
Qed.
Lemma fsub_big x y : finite x -> finite y -> Rabs (val x - val y) <= bpow radix2 110 ->
  finite (fsub x y) /\ val (fsub x y) = rnd (val x - val y).
Proof.
  intros Fx Fy B. unfold fsub. assert (V : val (Bopp y) = - val y) by apply B2R_Bopp.
  assert (F : finite (Bopp y)) by (unfold finite; rewrite is_finite_Bopp; exact Fy).
  destruct (fadd_big x (Bopp y) Fx F) as [A C].
  - rewrite V. exact B.
  - split; [exact A|]. rewrite C, V. reflexivity.
Qed.

Lemma rsum_nonneg l : Forall (fun x : b64 => finite x /\ 0 <= val x) l -> 0 <= rsum (map val l).
Proof. induction 1; cbn; [lra|]. destruct H. unfold rsum in IHForall. lra. Qed.

(** A step of either summation: [k] elements so far. *)
Lemma prefix_bound P T e k s : 0 <= P <= T -> 0 <= e -> 0 <= k <= 1099511627776 -> Rabs (s - P) <= k * (8 * u * T + e) ->
  Rabs s <= P + T / 1000 + 1099511627776 * e.
Proof.
  intros HP He Hk H. assert (k * (8 * u * T + e) <= 1099511627776 * (8 * u * T + e)).
  { apply Rmult_le_compat_r; [|lra]. unfold u. lra. }
  apply Rabs_le. apply Rabs_le_inv in H. unfold u in *. lra.
Qed.

Section Sums.
Variable e : R.
Hypothesis He : 1000 * bpow radix2 (-1074) <= e.
Hypothesis He1 : e <= / 1000000.
Lemma e_pos : 0 <= e. Proof. pose proof (bpow_ge_0 radix2 (-1074)). lra. Qed.

Lemma plain_lemma : forall l s P k T, finite s -> 0 <= P -> 0 <= k -> k + IZR (Z.of_nat (length l)) <= 1099511627776 ->
  Forall (fun x => finite x /\ 0 <= val x) l -> T = P + rsum (map val l) -> T <= bpow radix2 100 ->
  Rabs (val s - P) <= k * (8 * u * T + e) ->
  finite (fold_left fadd l s)
  /\ Rabs (val (fold_left fadd l s) - T) <= (k + IZR (Z.of_nat (length l))) * (8 * u * T + e).
Proof.
  pose proof e_pos as E0.
  induction l as [|v l IH]; intros s P k T Fs HP Hk Hn Hl HT HB H.
  - cbn in *. rewrite Rplus_0_r. replace T with P by lra. rewrite HT in H. rewrite Rplus_0_r in H. auto.
  - inversion Hl as [|v' l' [Fv Pv] Hl']; subst v' l'. pose proof (rsum_nonneg l Hl') as Nl.
    cbn [map rsum fold_right] in HT. fold (rsum (map val l)) in HT.
    cbn [length] in Hn. rewrite Nat2Z.inj_succ, succ_IZR in Hn.
    assert (NL : 0 <= IZR (Z.of_nat (length l))) by (apply IZR_le; lia).
    pose proof (prefix_bound P T e k (val s) ltac:(lra) E0 ltac:(lra) H) as B.
    assert (Bn : bpow radix2 100 = 1267650600228229401496703205376) by (cbn; lra).
    assert (B1 : Rabs (val s + val v) <= T + T / 1000 + 1099511627776 * e).
    { eapply Rle_trans; [apply Rabs_triang|]. rewrite (Rabs_pos_eq (val v)) by lra. lra. }
    destruct (fadd_big s v Fs Fv) as [F V].
    { eapply Rle_trans; [exact B1|]. rewrite bp110. lra. }
    pose proof (rnd_err _ e _ He B1) as D. rewrite <- V in D.
    cbn [fold_left length]. rewrite Nat2Z.inj_succ, succ_IZR.
    replace (k + (IZR (Z.of_nat (length l)) + 1)) with ((k + 1) + IZR (Z.of_nat (length l))) by ring.
    apply (IH (fadd s v) (P + val v) (k + 1) T); auto; try lra.
    apply Rabs_le_inv in H. apply Rabs_le_inv in D. apply Rabs_le.
    replace ((k + 1) * (8 * u * T + e)) with (k * (8 * u * T + e) + (8 * u * T + e)) by ring.
    unfold u in *. lra.
Qed.

Lemma kahan_lemma : forall l s c P k T, finite s -> finite c -> 0 <= P -> 0 <= k -> k + IZR (Z.of_nat (length l)) <= 1099511627776 ->
  Forall (fun x => finite x /\ 0 <= val x) l -> T = P + rsum (map val l) -> T <= bpow radix2 100 ->
  Rabs (val s - P) <= k * (8 * u * T + e) -> Rabs (val c) <= 3 * u * T + e / 10 ->
  let r := fold_left kahan_step l (s, c) in
  finite (fst r)
  /\ Rabs (val (fst r) - T) <= (k + IZR (Z.of_nat (length l))) * (8 * u * T + e).
Proof.
  pose proof e_pos as E0.
  induction l as [|v l IH]; intros s c P k T Fs Fc HP Hk Hn Hl HT HB H HC.
  - cbn in *. rewrite Rplus_0_r. replace T with P by lra. rewrite HT in H. rewrite Rplus_0_r in H. auto.
  - inversion Hl as [|v' l' [Fv Pv] Hl']; subst v' l'. pose proof (rsum_nonneg l Hl') as Nl.
    cbn [map rsum fold_right] in HT. fold (rsum (map val l)) in HT.
    cbn [length] in Hn. rewrite Nat2Z.inj_succ, succ_IZR in Hn.
    assert (NL : 0 <= IZR (Z.of_nat (length l))) by (apply IZR_le; lia).
    pose proof (prefix_bound P T e k (val s) ltac:(lra) E0 ltac:(lra) H) as B.
    assert (Bn : bpow radix2 100 = 1267650600228229401496703205376) by (cbn; lra).
    (* y *)
    assert (B1 : Rabs (val v - val c) <= val v + 3 * u * T + e / 10).
    { apply Rabs_le. apply Rabs_le_inv in HC. unfold u in *. lra. }
    destruct (fsub_big v c Fv Fc) as [Fy Vy]. { eapply Rle_trans; [exact B1|]. rewrite bp110. unfold u. lra. }
    pose proof (rnd_err _ e _ He B1) as D1. rewrite <- Vy in D1. set (y := fsub v c) in *.
    (* t *)
    assert (B2 : Rabs (val s + val y) <= P + val v + T / 500 + 1099511627777 * e).
    { apply Rabs_le. apply Rabs_le_inv in B. apply Rabs_le_inv in D1. apply Rabs_le_inv in HC. unfold u in *. lra. }
    destruct (fadd_big s y Fs Fy) as [Ft Vt]. { eapply Rle_trans; [exact B2|]. rewrite bp110. lra. }
    pose proof (rnd_err _ e _ He B2) as D2. rewrite <- Vt in D2. set (t := fadd s y) in *.
    (* t - s *)
    assert (B3 : Rabs (val t - val s) <= T + T / 100 + e).
    { apply Rabs_le. apply Rabs_le_inv in D1. apply Rabs_le_inv in D2. apply Rabs_le_inv in HC. unfold u in *. lra. }
    destruct (fsub_big t s Ft Fs) as [Fd Vd]. { eapply Rle_trans; [exact B3|]. rewrite bp110. lra. }
    pose proof (rnd_err _ e _ He B3) as D3. rewrite <- Vd in D3. set (d := fsub t s) in *.
    (* (t - s) - y *)
    assert (B4 : Rabs (val d - val y) <= 5 / 2 * u * T + e / 100).
    { apply Rabs_le. apply Rabs_le_inv in D2. apply Rabs_le_inv in D3. unfold u in *. lra. }
    destruct (fsub_big d y Fd Fy) as [Fz Vz]. { eapply Rle_trans; [exact B4|]. rewrite bp110. unfold u. lra. }
    pose proof (rnd_err _ e _ He B4) as D4. rewrite <- Vz in D4.
    cbn [fold_left length kahan_step]. fold y. fold t. fold d. rewrite Nat2Z.inj_succ, succ_IZR.
    replace (k + (IZR (Z.of_nat (length l)) + 1)) with ((k + 1) + IZR (Z.of_nat (length l))) by ring.
    apply (IH t (fsub d y) (P + val v) (k + 1) T); auto; try lra.
    + apply Rabs_le_inv in H. apply Rabs_le_inv in D1. apply Rabs_le_inv in D2. apply Rabs_le_inv in HC. apply Rabs_le.
      replace ((k + 1) * (8 * u * T + e)) with (k * (8 * u * T + e) + (8 * u * T + e)) by ring.
      unfold u in *. lra.
    + apply Rabs_le_inv in B4. apply Rabs_le_inv in D4. apply Rabs_le. unfold u in *. lra.
Qed.
End Sums.

Lemma e1000 : 1000 * bpow radix2 (-1074) <= bpow radix2 (-1000) /\ bpow radix2 (-1000) <= / 1000000.
Proof.
  split.
  - apply Rle_trans with (bpow radix2 10 * bpow radix2 (-1074)).
    + apply Rmult_le_compat_r; [apply bpow_ge_0|]. cbn. lra.
    + rewrite <- bpow_plus. apply bpow_le. lia.
  - apply Rle_trans with (bpow radix2 (-20)); [apply bpow_le; lia|]. cbn. lra.
Qed.
Lemma plain_accurate : accurate_sum plain_sum.
Proof.
  intros l Hl HB Hn. destruct e1000 as [E1 E2]. destruct (of_Z_spec 0) as [F0 V0]; [lia|].
  assert (N : IZR (Z.of_nat (length l)) <= 1099511627776) by (apply (IZR_le _ 1099511627776); exact Hn).
  rewrite c_bpow. unfold plain_sum.
  destruct (plain_lemma _ E1 E2 l (of_Z 0) 0 0 (rsum (map val l)) F0) as [A B]; try lra; auto; try lra.
  - rewrite V0. rewrite Rmult_0_l. replace (0 - 0) with 0 by ring. rewrite Rabs_R0. lra.
  - rewrite Rplus_0_l in B. auto.
Qed.
Lemma kahan_accurate : accurate_sum kahan_sum.
Proof.
  intros l Hl HB Hn. destruct e1000 as [E1 E2]. destruct (of_Z_spec 0) as [F0 V0]; [lia|].
  assert (N : IZR (Z.of_nat (length l)) <= 1099511627776) by (apply (IZR_le _ 1099511627776); exact Hn).
  pose proof (rsum_nonneg l Hl). pose proof (bpow_ge_0 radix2 (-1000)).
  rewrite c_bpow. unfold kahan_sum.
  destruct (kahan_lemma _ E1 E2 l (of_Z 0) (of_Z 0) 0 0 (rsum (map val l)) F0 F0) as [A B]; try lra; auto; try lra.
  - rewrite V0. rewrite Rmult_0_l. replace (0 - 0) with 0 by ring. rewrite Rabs_R0. lra.
  - rewrite V0, Rabs_R0. unfold u. lra.
  - rewrite Rplus_0_l in B. auto.
Qed.
(* part 2 *)
(** ** Conversions. *)
Lemma u_pos : 0 < u. Proof. unfold u. lra. Qed.
Lemma big_bpow x b : Rabs x <= b -> b <= 1267650600228229401496703205376 -> Rabs x <= bpow radix2 1023.
Proof.
  intros H Hb. apply Rle_trans with (bpow radix2 100); [|apply bpow_le; lia].
  assert (Bn : bpow radix2 100 = 1267650600228229401496703205376) by (cbn; lra). lra.
Qed.
Lemma rnd_0 : rnd 0 = 0. Proof. apply round_0. auto with typeclass_instances. Qed.
Lemma bp1000 : bpow radix2 (-1000) <= / 1000000000000000000.
Proof. apply Rle_trans with (bpow radix2 (-60)); [apply bpow_le; lia|]. cbn. lra. Qed.
Lemma rnd_rel' x : x = 0 \/ / 4000000 <= x -> Rabs (rnd x - x) <= u * x.
Proof.
  intros [->|H].
  - rewrite rnd_0, Rminus_0_r, Rabs_R0. lra.
  - rewrite <- u_bpow. rewrite <- (Rabs_pos_eq x) at 3 by lra. apply rnd_rel. rewrite Rabs_pos_eq by lra. pose proof bp1000. lra.
Qed.

Definition bigZ := 1208925819614629174706176%Z. (* 2^80 *)
Lemma f_seconds_spec a : (0 <= a <= bigZ)%Z ->
  finite (f_seconds a) /\ (val (f_seconds a) = 0 \/ / 2000000 <= val (f_seconds a))
  /\ Rabs (val (f_seconds a) - IZR a / 1000000) <= 3 * u * (IZR a / 1000000).
Proof.
  intro H. unfold f_seconds. unfold bigZ in H.
  destruct (of_Z_any (1000 * a)) as [F V]; [lia|].
  destruct (of_Z_spec 1000000000) as [F9 V9]; [lia|].
  assert (A : 0 <= IZR a <= 1208925819614629174706176) by (split; apply IZR_le; lia).
  rewrite mult_IZR in V.
  assert (D : Rabs (rnd (1000 * IZR a) - 1000 * IZR a) <= u * (1000 * IZR a)).
  { apply rnd_rel'. destruct (Z.eq_dec a 0) as [->|N]; [left; ring|right].
    assert (1 <= IZR a) by (apply IZR_le; lia). lra. }
  rewrite <- V in D. assert (D' := D). apply Rabs_le_inv in D'.
  pose proof u_pos as U.
  assert (N0 : 0 <= val (of_Z (1000 * a))) by (unfold u in *; lra).
  assert (Q : val (of_Z (1000 * a)) = 0 \/ 100 <= val (of_Z (1000 * a))).
  { destruct (Z.eq_dec a 0) as [E|N].
    - left. rewrite E in *. unfold u in *. lra.
    - right. assert (1 <= IZR a) by (apply IZR_le; lia). unfold u in *. lra. }
  assert (Q' : val (of_Z (1000 * a)) / 1000000000 = 0 \/ / 4000000 <= val (of_Z (1000 * a)) / 1000000000).
  { destruct (Z.eq_dec a 0) as [E|N].
    - left. rewrite E in *. unfold u in *. lra.
    - destruct (Z.eq_dec a 1) as [->|N1].
      + right. destruct (of_Z_spec 1000) as [_ V1]; [lia|]. change (1000 * 1)%Z with 1000%Z. rewrite V1. lra.
      + right. assert (2 <= IZR a) by (apply IZR_le; lia). unfold u in *. lra. }
  destruct (fdiv_fin (of_Z (1000 * a)) (of_Z 1000000000) F F9) as [F1 V1].
  - rewrite V9. lra.
  - apply big_bpow with (2 * 1208925819614629174706176); [|lra]. rewrite V9. rewrite Rabs_pos_eq by lra. unfold u in *. lra.
  - rewrite V9 in V1. pose proof (rnd_rel' _ Q') as E. rewrite <- V1 in E. apply Rabs_le_inv in E. split; [exact F1|]. split.
    + destruct (Z.eq_dec a 0) as [Ea|Na]; [left; rewrite Ea in *; unfold u in *; lra|right]. assert (1 <= IZR a) by (apply IZR_le; lia). unfold u in *; lra.
    + apply Rabs_le. unfold u in *. lra.
Qed.

Lemma td_seconds_spec x : finite x -> Rabs (val x) <= 536870912 ->
  exists r, td_seconds x = Ok r /\ Rabs (IZR r - 1000000 * val x) <= 51 / 100
  /\ (forall z, Rabs (1000000 * val x - IZR z) <= 2 / 5 -> r = z).
Proof.
  intros F B.
  destruct (of_Z_spec 1) as [F1 V1]; [lia|]. destruct (of_Z_spec 1000000) as [F6 V6]; [lia|].
  destruct (fmod_spec x (of_Z 1) F F1) as (Ff & (k & K) & P & N); [lra|].
  assert (T : td_seconds x = Ok (Btrunc x * 1000000 + f_round (fmul (of_Z 1000000) (fmod x (of_Z 1))))%Z).
  { destruct x; try discriminate F; reflexivity. }
  set (f := fmod x (of_Z 1)) in *. rewrite V1 in *. rewrite Rmult_1_l in K.
  assert (Rf : -1 < val f < 1) by (destruct (Rle_or_lt 0 (val x)); [specialize (P H)|assert (val x <= 0) as H' by lra; specialize (N H')]; lra).
  assert (Tk : Btrunc x = k).
  { rewrite Btrunc_val. destruct (Rle_or_lt 0 (val x)) as [H|H].
    - specialize (P H). rewrite Ztrunc_floor by assumption. apply Zfloor_imp. rewrite plus_IZR. lra.
    - assert (val x <= 0) as H' by lra; specialize (N H'). rewrite Ztrunc_ceil by assumption. apply Zceil_imp. rewrite minus_IZR. lra. }
  assert (Bf : Rabs (1000000 * val f) <= 1000000) by (apply Rabs_le; lra).
  destruct (fmul_fin (of_Z 1000000) f F6 Ff) as [Fp Vp].
  { rewrite V6. apply big_bpow with 1000000; [exact Bf|lra]. }
  rewrite V6 in Vp. pose proof (rnd_err _ _ _ (proj1 e1000) Bf) as D. rewrite <- Vp in D. pose proof bp1000 as E3.
  rewrite f_round_val, Tk in T. set (p := val (fmul (of_Z 1000000) f)) in *.
  pose proof (Znearest_half (fun n => negb (Z.even n)) p) as Hh. apply Rabs_le_inv in D. apply Rabs_le_inv in Hh.
  eexists. split; [exact T|]. split.
  - rewrite plus_IZR, mult_IZR. apply Rabs_le. unfold u in *. lra.
  - intros z Hz. apply Rabs_le_inv in Hz.
    assert (ZnearestE p = z - k * 1000000)%Z as ->; [|lia].
    apply Znearest_imp. rewrite minus_IZR, mult_IZR. apply Rabs_def1; unfold u in *; lra.
Qed.

(** ** Quotients of timedeltas. *)
Lemma td_div_val a b : (0 <= a < 2 ^ 53)%Z -> (0 < b < 2 ^ 53)%Z ->
  finite (td_div a b) /\ val (td_div a b) = rnd (IZR a / IZR b).
Proof.
  intros A B. unfold td_div. destruct (of_Z_spec a) as [Fa Va]; [lia|]. destruct (of_Z_spec b) as [Fb Vb]; [lia|].
  assert (1 <= IZR b) by (apply IZR_le; lia).
  assert (0 <= IZR a <= 9007199254740992) by (split; apply IZR_le; lia).
  rewrite <- Va, <- Vb. apply fdiv_fin; auto; [lra|].
  rewrite Va, Vb. apply big_bpow with 9007199254740992; [|lra].
  destruct (div_bounds (IZR a) (IZR b) 9007199254740992) as [L1 L2]; try lra.
  rewrite Rabs_pos_eq; assumption.
Qed.

Lemma number_cycles_exact a b : (0 <= a < 2 ^ 53)%Z -> (0 < b < 2 ^ 53)%Z -> is_ceiling a b (number_cycles a b).
Proof.
  intros A B. destruct (td_div_val a b A B) as [F V].
  assert (Hb : 1 <= IZR b) by (apply IZR_le; lia).
  assert (Ha : 0 <= IZR a < 9007199254740992) by (split; [apply IZR_le; lia|apply (IZR_lt a 9007199254740992); lia]).
  set (q := IZR a / IZR b) in *.
  assert (Q : q * IZR b = IZR a) by (unfold q; field; lra).
  set (k := Zceil q).
  assert (K1 : q <= IZR k) by apply Zceil_ub. assert (K2 : IZR k < q + 1).
  { pose proof (Zceil_lb q). fold k in H. lra. }
  assert (Q0 : 0 <= q <= IZR a).
  { apply div_bounds; try lra. apply Rle_trans with (IZR a * 1); [lra|]. apply Rmult_le_compat_l; lra. }
  assert (Kz : (0 <= k <= 2 ^ 53 - 1)%Z).
  { split.
    - assert (-1 < k)%Z; [|lia]. apply lt_IZR. lra.
    - apply Zceil_glb. apply Rle_trans with (IZR a); [lra|]. apply IZR_le. lia. }
  assert (C : is_ceiling a b k).
  { split.
    - apply lt_IZR. rewrite mult_IZR, minus_IZR. rewrite <- Q. apply Rmult_lt_compat_r; lra.
    - apply le_IZR. rewrite mult_IZR. rewrite <- Q. apply Rmult_le_compat_r; lra. }
  assert (E : number_cycles a b = k); [|rewrite E; exact C].
  unfold number_cycles, np_ceil. rewrite Btrunc_val. unfold val at 1.
  destruct (Bnearbyint_correct 53 1024 emax64 mode_UP (td_div a b)) as [Ev _]. rewrite Ev. cbn [round_mode].
  rewrite round_fix, Ztrunc_IZR. change (B2R (td_div a b)) with (val (td_div a b)). rewrite V.
  apply Zceil_imp. split; [|apply rnd_le_Z; [lia|exact K1]].
  destruct (Z.eq_dec a 0) as [Za|Za].
  - assert (q = 0) by (unfold q; rewrite Za; unfold Rdiv; ring). rewrite H, rnd_0.
    assert (k = 0%Z) as -> by (unfold k; rewrite H; apply (Zceil_IZR 0)). cbn. lra.
  - assert (A1 : 1 <= IZR a) by (apply IZR_le; lia).
    assert (Qp : 0 < q) by (unfold q; apply Rdiv_lt_0_compat; lra).
    assert (Qs : / 9007199254740992 <= q).
    { apply Rmult_le_reg_r with (IZR b); [lra|]. rewrite Q.
      assert (IZR b <= 9007199254740992) by (apply IZR_le; lia). lra. }
    assert (D : Rabs (rnd q - q) <= u * q).
    { rewrite <- u_bpow. rewrite <- (Rabs_pos_eq q) at 3 by lra. apply rnd_rel. rewrite Rabs_pos_eq by lra.
      apply Rle_trans with (bpow radix2 (-53)); [apply bpow_le; lia|]. rewrite u_bpow. exact Qs. }
    apply Rabs_le_inv in D.
    assert (G : IZR (k - 1) * IZR b + 1 <= IZR a).
    { rewrite <- mult_IZR, <- plus_IZR. apply IZR_le. destruct C. lia. }
    apply Rmult_lt_reg_r with (IZR b); [lra|].
    assert (X : (q - u * q) * IZR b <= rnd q * IZR b) by (apply Rmult_le_compat_r; lra).
    replace ((q - u * q) * IZR b) with (IZR a - u * IZR a) in X by (rewrite <- Q; ring).
    unfold u in X. lra.
Qed.

Lemma number_cycles_model a b : (0 <= a < 2 ^ 53)%Z -> (0 < b < 2 ^ 53)%Z -> number_cycles a b = ceil_div a b.
Proof.
  intros A B. destruct (number_cycles_exact a b A B) as [L U]. set (n := number_cycles a b) in *.
  unfold ceil_div. pose proof (Z.div_mod (- a) b ltac:(lia)). pose proof (Z.mod_pos_bound (- a) b ltac:(lia)). nia.
Qed.

Definition day := 86400000000%Z.
Lemma epoch_days_err e : (0 <= e < 65536 * day)%Z ->
  finite (epoch_days e) /\ Rabs (val (epoch_days e) - IZR e / 86400000000) <= / 274877906944.
Proof.
  intro H. unfold day in H. destruct (td_div_val e 86400000000) as [F V]; [lia|lia|]. fold (epoch_days e) in *.
  split; [exact F|]. rewrite V. set (d := IZR e / 86400000000).
  assert (D : 0 <= d < 65536).
  { assert (0 <= IZR e) by (apply IZR_le; lia). assert (IZR e < 65536 * 86400000000) by (rewrite <- mult_IZR; apply IZR_lt; lia).
    unfold d. lra. }
  assert (Vl : Valid_exp (FLT_exp (-1074) 53)) by (apply FLT_exp_valid; unfold Prec_gt_0; lia).
  pose proof (error_le_half_ulp radix2 (FLT_exp (-1074) 53) (fun n => negb (Z.even n)) d) as E.
  eapply Rle_trans; [exact E|].
  destruct (Req_dec d 0) as [Z0|N0].
  - rewrite Z0. rewrite ulp_FLT_small.
    + apply Rle_trans with (/ 2 * bpow radix2 (-37)); [|cbn; lra]. apply Rmult_le_compat_l; [lra|]. apply bpow_le. lia.
    + unfold Prec_gt_0. lia.
    + rewrite Rabs_R0. apply bpow_gt_0.
  - rewrite ulp_neq_0 by assumption. unfold cexp.
    assert (M : (mag radix2 d <= 16)%Z).
    { apply mag_le_bpow; [assumption|]. rewrite Rabs_pos_eq by lra. cbn. lra. }
    apply Rle_trans with (/ 2 * bpow radix2 (-37)); [|cbn; lra]. apply Rmult_le_compat_l; [lra|]. apply bpow_le.
    unfold FLT_exp. lia.
Qed.
Lemma epoch_days_recover e : (0 <= e < 65536 * day)%Z -> ZnearestE (val (epoch_days e) * 86400000000) = e.
Proof.
  intro H. destruct (epoch_days_err e H) as [_ E]. apply Rabs_le_inv in E. apply Znearest_imp. apply Rabs_def1; lra.
Qed.
Lemma epoch_days_mono e e' : (0 <= e < e')%Z -> (e' < 65536 * day)%Z -> val (epoch_days e) < val (epoch_days e').
Proof.
  intros H H'. destruct (epoch_days_err e) as [_ E]; [lia|]. destruct (epoch_days_err e') as [_ E']; [lia|].
  apply Rabs_le_inv in E. apply Rabs_le_inv in E'.
  assert (IZR e + 1 <= IZR e') by (rewrite <- plus_IZR; apply IZR_le; lia). lra.
Qed.

(** ** Means. *)
Lemma zsum_nonneg l : Forall (fun a => 0 <= a)%Z l -> (0 <= zsum l)%Z.
Proof. induction 1; cbn; [lia|]. unfold zsum in IHForall. lia. Qed.
Lemma zsum_le l a : Forall (fun a => 0 <= a)%Z l -> In a l -> (a <= zsum l)%Z.
Proof.
  intro H. induction H as [|x l Hx Hl IH]; intro I; [destruct I|]. cbn. fold (zsum l). pose proof (zsum_nonneg l Hl).
  destruct I as [->|I]; [lia|]. specialize (IH I). lia.
Qed.
Lemma seconds_sum l : Forall (fun a => 0 <= a <= bigZ)%Z l ->
  Forall (fun x => finite x /\ 0 <= val x) (map f_seconds l)
  /\ Rabs (rsum (map val (map f_seconds l)) - IZR (zsum l) / 1000000) <= 3 * u * (IZR (zsum l) / 1000000).
Proof.
  induction 1 as [|a l Ha Hl [IH1 IH2]].
  - split; [constructor|]. cbn. replace (0 - 0 / 1000000) with 0 by lra. rewrite Rabs_R0. lra.
  - destruct (f_seconds_spec a Ha) as (F & P & E). split.
    + constructor; [|exact IH1]. split; [exact F|]. lra.
    + cbn [map rsum zsum fold_right]. fold (rsum (map val (map f_seconds l))). fold (zsum l). rewrite plus_IZR.
      apply Rabs_le_inv in E. apply Rabs_le_inv in IH2. apply Rabs_le. unfold u in *. lra.
Qed.

Lemma reported_mean_near fsum l : accurate_sum fsum -> l <> [] -> (Z.of_nat (length l) <= 2 ^ 40)%Z ->
  Forall (fun a => 0 <= a)%Z l -> (zsum l <= 268435456 * 1000000)%Z ->
  exists m, reported_mean fsum l = Ok m /\ near_mean l m.
Proof.
  intros Acc NE Hn Hl Hs.
  assert (Hl' : Forall (fun a => 0 <= a <= bigZ)%Z l).
  { apply Forall_forall. intros a I. pose proof (zsum_le l a Hl I). rewrite Forall_forall in Hl. specialize (Hl a I). unfold bigZ. lia. }
  destruct (seconds_sum l Hl') as [G E].
  set (n := Z.of_nat (length l)) in *.
  assert (N1 : (1 <= n)%Z) by (unfold n; destruct l; [congruence|cbn [length]; lia]).
  assert (S0 : 0 <= IZR (zsum l) <= 268435456000000) by (split; apply IZR_le; [apply zsum_nonneg; assumption|lia]).
  set (S := IZR (zsum l)) in *.
  destruct (Acc (map f_seconds l) G) as [Fs Es].
  { assert (Bn : bpow radix2 100 = 1267650600228229401496703205376) by (cbn; lra).
    apply Rabs_le_inv in E. unfold u in *. lra. }
  { rewrite map_length. exact Hn. }
  rewrite map_length in Es. fold n in Es. rewrite c_bpow in Es. set (V := rsum (map val (map f_seconds l))) in *.
  set (s := fsum (map f_seconds l)) in *.
  assert (Rn : 1 <= IZR n <= 1099511627776) by (split; apply IZR_le; lia).
  destruct (of_Z_spec n) as [Fn Vn]; [lia|].
  pose proof bp1000 as E3. pose proof (bpow_ge_0 radix2 (-1000)) as E4. set (e := bpow radix2 (-1000)) in *.
  set (mu := val s / IZR n).
  assert (Mu : mu * IZR n = val s) by (unfold mu; field; lra).
  set (me := S / IZR n). assert (Me : me * IZR n = S) by (unfold me; field; lra).
  assert (Me0 : 0 <= me <= S).
  { apply div_bounds; try lra. apply Rle_trans with (S * 1); [lra|]. apply Rmult_le_compat_l; lra. }
  assert (X : Rabs (mu - me / 1000000) <= 3 * u * (me / 1000000) + (8 * u * V + e)).
  { assert (W : Rabs (IZR n * (mu - me / 1000000)) <= IZR n * (3 * u * (me / 1000000) + (8 * u * V + e))).
    { replace (IZR n * (mu - me / 1000000)) with ((val s - V) + (V - S / 1000000)).
      2: { rewrite <- Mu, <- Me. field. }
      eapply Rle_trans; [apply Rabs_triang|].
      replace (IZR n * (3 * u * (me / 1000000) + (8 * u * V + e))) with (IZR n * (8 * u * V + e) + 3 * u * (S / 1000000)).
      2: { rewrite <- Me. field. }
      lra. }
    rewrite Rabs_mult, (Rabs_pos_eq (IZR n)) in W by lra. apply Rmult_le_reg_l with (IZR n); lra. }
  apply Rabs_le_inv in E. apply Rabs_le_inv in X.
  assert (Bmu : Rabs mu <= 268435457) by (apply Rabs_le; unfold u in *; lra).
  destruct (fdiv_fin s (of_Z n) Fs Fn) as [Fm Vm].
  - rewrite Vn. lra.
  - rewrite Vn. apply big_bpow with 268435457; [exact Bmu|lra].
  - rewrite Vn in Vm. fold mu in Vm.
    pose proof (rnd_err _ _ _ (proj1 e1000) Bmu) as D. rewrite <- Vm in D. apply Rabs_le_inv in D. fold e in D.
    assert (Y : Rabs (1000000 * val (fdiv s (of_Z n)) - me) <= 2 / 5) by (apply Rabs_le; unfold u in *; lra).
    assert (Y' := Y). apply Rabs_le_inv in Y'.
    destruct (td_seconds_spec (fdiv s (of_Z n)) Fm) as (r & R1 & R2 & R3).
    { apply Rabs_le. lra. }
    exists r. split.
    + unfold reported_mean, f_mean. fold s. rewrite map_length. fold n. exact R1.
    + apply Rabs_le_inv in R2. split.
      * fold n. fold S. fold me. apply Rabs_def1; lra.
      * fold n. intros k Hk. apply R3. assert (me = IZR k) as <-; [|exact Y].
        unfold me, S. rewrite Hk, mult_IZR. field. lra.
Qed.
(* part 3 *)
Lemma products_sum l : Forall (fun p => 0 <= fst p <= bigZ /\ 0 <= snd p <= 2 ^ 53)%Z l ->
  let fl := map (fun p => (f_seconds (fst p), of_Z (snd p))) l in
  let pr := map (fun p => fmul (fst p) (snd p)) fl in
  let A := IZR (zsum (map (fun p => fst p * snd p)%Z l)) / 1000000 in
  Forall (fun x => finite x /\ 0 <= val x) pr /\ Rabs (rsum (map val pr) - A) <= 5 * u * A
  /\ Forall (fun x => finite x /\ 0 <= val x) (map snd fl) /\ rsum (map val (map snd fl)) = IZR (zsum (map snd l)).
Proof.
  cbv zeta. induction 1 as [|[a w] l [Ha Hw] Hl (I1 & I2 & I3 & I4)].
  - cbn. split; [constructor|]. split; [|split; [constructor|reflexivity]]. replace (0 - 0 / 1000000) with 0 by lra. rewrite Rabs_R0. unfold u. lra.
  - cbn [fst snd] in Ha, Hw. destruct (f_seconds_spec a Ha) as (F & P & E). destruct (of_Z_spec w) as [Fw Vw]; [lia|].
    set (v := f_seconds a) in *.
    assert (W : 0 <= IZR w <= 9007199254740992) by (split; apply IZR_le; lia).
    assert (Aa : 0 <= IZR a <= 1208925819614629174706176) by (unfold bigZ in Ha; split; apply IZR_le; lia).
    apply Rabs_le_inv in E.
    assert (P0 : 0 <= val v) by lra.
    assert (Q : val v * IZR w = 0 \/ / 4000000 <= val v * IZR w).
    { destruct P as [P|P]; [left; rewrite P; ring|]. destruct (Z.eq_dec w 0) as [->|N]; [left; ring|right].
      assert (1 <= IZR w) by (apply IZR_le; lia).
      apply Rle_trans with (/ 2000000 * 1); [lra|]. apply Rmult_le_compat; lra. }
    assert (Pw : 0 <= val v * IZR w) by (apply Rmult_le_pos; lra).
    destruct (fmul_fin v (of_Z w) F Fw) as [Fp Vp].
    { rewrite Vw. apply Rle_trans with (bpow radix2 200); [|apply bpow_le; lia]. rewrite Rabs_pos_eq by assumption.
      apply Rle_trans with (bpow radix2 100 * bpow radix2 100); [|rewrite <- bpow_plus; apply bpow_le; lia].
      assert (Bn : bpow radix2 100 = 1267650600228229401496703205376) by (cbn; lra).
      apply Rmult_le_compat; try lra. unfold u in *; lra. }
    rewrite Vw in Vp. pose proof (rnd_rel' _ Q) as D. rewrite <- Vp in D. apply Rabs_le_inv in D.
    assert (X1 : val v * IZR w <= (IZR a / 1000000 + 3 * u * (IZR a / 1000000)) * IZR w) by (apply Rmult_le_compat_r; lra).
    assert (X2 : (IZR a / 1000000 - 3 * u * (IZR a / 1000000)) * IZR w <= val v * IZR w) by (apply Rmult_le_compat_r; lra).
    assert (X3 : 0 <= IZR a * IZR w) by (apply Rmult_le_pos; lra).
    replace ((IZR a / 1000000 + 3 * u * (IZR a / 1000000)) * IZR w) with ((1 + 3 * u) * ((IZR a * IZR w) / 1000000)) in X1 by field.
    replace ((IZR a / 1000000 - 3 * u * (IZR a / 1000000)) * IZR w) with ((1 - 3 * u) * ((IZR a * IZR w) / 1000000)) in X2 by field.
    set (pw := val v * IZR w) in *. set (aw := IZR a * IZR w) in *.
    cbn [map fst snd]. fold v. split; [|split; [|split]].
    + constructor; [|exact I1]. split; [exact Fp|]. rewrite Vp. apply rnd_nonneg. exact Pw.
    + cbn [map rsum zsum fold_right]. fold (rsum (map val (map (fun p => fmul (fst p) (snd p)) (map (fun p => (f_seconds (fst p), of_Z (snd p))) l)))).
      fold (zsum (map (fun p => fst p * snd p)%Z l)). rewrite plus_IZR, mult_IZR. fold aw.
      apply Rabs_le_inv in I2. apply Rabs_le. unfold u in *. lra.
    + constructor; [|exact I3]. split; [exact Fw|]. rewrite Vw. lra.
    + cbn [map rsum zsum fold_right]. fold (rsum (map val (map snd (map (fun p => (f_seconds (fst p), of_Z (snd p))) l)))).
      fold (zsum (map snd l)). rewrite plus_IZR, I4, Vw. reflexivity.
Qed.

Lemma zsum_map_nonneg {B} (f : B -> Z) l : Forall (fun b => 0 <= f b)%Z l -> (0 <= zsum (map f l))%Z.
Proof. induction 1; cbn; [lia|]. unfold zsum in IHForall. lia. Qed.

Lemma reported_average_near fsum l : accurate_sum fsum -> (Z.of_nat (length l) <= 2 ^ 40)%Z ->
  Forall (fun p => 0 <= fst p <= bigZ /\ 0 <= snd p)%Z l -> (1 <= zsum (map snd l) <= 2 ^ 53)%Z ->
  (Z.of_nat (length l) * zsum (map (fun p => fst p * snd p)%Z l) <= 67108864 * 1000000 * zsum (map snd l))%Z ->
  exists m, reported_average fsum l = Ok m /\ near_average l m.
Proof.
  intros Acc Hn Hl HW Hs.
  assert (Hl' : Forall (fun p => 0 <= fst p <= bigZ /\ 0 <= snd p <= 2 ^ 53)%Z l).
  { assert (Hw : Forall (fun a => 0 <= a)%Z (map snd l)) by (rewrite Forall_map; eapply Forall_impl; [|exact Hl]; tauto).
    apply Forall_forall. intros p I. rewrite Forall_forall in Hl. specialize (Hl p I).
    pose proof (zsum_le (map snd l) (snd p) Hw (in_map snd l p I)). lia. }
  assert (NT : (0 <= zsum (map (fun p => fst p * snd p)%Z l))%Z).
  { apply zsum_map_nonneg. eapply Forall_impl; [|exact Hl]. intros p [? ?]. apply Z.mul_nonneg_nonneg; lia. }
  destruct (products_sum l Hl') as (G & E & GW & EW).
  unfold reported_average, f_average.
  set (fl := map (fun p => (f_seconds (fst p), of_Z (snd p))) l) in *.
  set (pr := map (fun p => fmul (fst p) (snd p)) fl) in *.
  set (T := zsum (map (fun p => fst p * snd p)%Z l)) in *. set (W := zsum (map snd l)) in *.
  set (n := Z.of_nat (length l)) in *.
  assert (N1 : (1 <= n)%Z) by (unfold n; destruct l; [cbn in W; unfold W in HW; lia|cbn [length]; lia]).
  assert (Rn : 1 <= IZR n <= 1099511627776) by (split; apply IZR_le; lia).
  assert (RW : 1 <= IZR W <= 9007199254740992) by (split; apply IZR_le; lia).
  assert (RT : 0 <= IZR T) by (apply IZR_le; lia).
  assert (TW : (T <= 67108864 * 1000000 * W)%Z) by nia.
  assert (RTW : IZR T <= 67108864 * 1000000 * IZR W) by (rewrite <- !mult_IZR; apply IZR_le; lia).
  assert (RnT : IZR n * IZR T <= 67108864 * 1000000 * IZR W) by (rewrite <- !mult_IZR; apply IZR_le; lia).
  assert (Bn : bpow radix2 100 = 1267650600228229401496703205376) by (cbn; lra).
  assert (Lp : Z.of_nat (length pr) = n) by (unfold pr, fl, n; now rewrite !map_length).
  assert (Lw : Z.of_nat (length (map snd fl)) = n) by (unfold fl, n; now rewrite !map_length).
  destruct (Acc pr G) as [Fs Es].
  { apply Rabs_le_inv in E. unfold u in *. lra. }
  { eapply Z.le_trans; [apply Z.eq_le_incl; exact Lp|exact Hn]. }
  destruct (Acc (map snd fl) GW) as [Fd Ed].
  { rewrite EW. lra. }
  { eapply Z.le_trans; [apply Z.eq_le_incl; exact Lw|exact Hn]. }
  replace (Z.of_nat (@length (binary_float 53 1024) pr)) with n in Es by (symmetry; exact Lp).
  replace (Z.of_nat (@length (binary_float 53 1024) (map snd fl))) with n in Ed by (symmetry; exact Lw).
  rewrite EW in Ed. rewrite c_bpow in Es, Ed.
  set (V := rsum (map val pr)) in *. set (s := fsum pr) in *. set (d := fsum (map snd fl)) in *.
  pose proof bp1000 as E3. pose proof (bpow_ge_0 radix2 (-1000)) as E4.
  assert (E5 : 1099511627776 * bpow radix2 (-1000) <= / 1000000000000000000).
  { apply Rle_trans with (bpow radix2 40 * bpow radix2 (-1000)); [apply Rmult_le_compat_r; [exact E4|cbn; lra]|].
    rewrite <- bpow_plus. apply Rle_trans with (bpow radix2 (-60)); [apply bpow_le; lia|]. cbn. lra. }
  set (e := bpow radix2 (-1000)) in *.
  set (g := IZR T / IZR W). assert (Gg : g * IZR W = IZR T) by (unfold g; field; lra).
  assert (G0 : 0 <= g <= 67108864 * 1000000) by (apply div_bounds; lra).
  set (M := IZR n * g).
  assert (HM : M * IZR W = IZR n * IZR T) by (unfold M; rewrite <- Gg; ring).
  assert (M0 : 0 <= M <= 67108864 * 1000000).
  { split; [apply Rmult_le_pos; lra|]. apply Rmult_le_reg_r with (IZR W); [lra|]. rewrite HM. exact RnT. }
  (* the denominator *)
  assert (Ne : IZR n * e <= / 1000000000000000000).
  { apply Rle_trans with (2 := E5). apply Rmult_le_compat_r; lra. }
  assert (Ne0 : 0 <= IZR n * e) by (apply Rmult_le_pos; lra).
  assert (NW : IZR n * IZR W <= 1099511627776 * IZR W) by (apply Rmult_le_compat_r; lra).
  replace (IZR n * (8 * u * IZR W + e)) with (8 * u * (IZR n * IZR W) + IZR n * e) in Ed by ring.
  replace (IZR n * (8 * u * V + e)) with (8 * u * (IZR n * V) + IZR n * e) in Es by ring.
  set (ne := IZR n * e) in *.
  assert (Ed' := Ed). apply Rabs_le_inv in Ed'. apply Rabs_le_inv in E.
  assert (Dl : 99 / 100 * IZR W <= val d) by (unfold u in *; lra).
  assert (NV : IZR n * V <= (1 + 5 * u) * (M * IZR W / 1000000)).
  { rewrite HM. replace ((1 + 5 * u) * (IZR n * IZR T / 1000000)) with (IZR n * (IZR T / 1000000 + 5 * u * (IZR T / 1000000))) by field.
    apply Rmult_le_compat_l; lra. }
  assert (GD : Rabs (g * (IZR W - val d)) <= 8 * u * (M * IZR W) + g * ne).
  { rewrite Rabs_mult, (Rabs_pos_eq g) by lra. rewrite Rabs_minus_sym.
    apply Rle_trans with (g * (8 * u * (IZR n * IZR W) + ne)); [apply Rmult_le_compat_l; lra|]. unfold M. right. ring. }
  assert (Gne : g * ne <= / 1000).
  { apply Rle_trans with ((67108864 * 1000000) * / 1000000000000000000); [|lra]. apply Rmult_le_compat; lra. }
  assert (Gne0 : 0 <= g * ne) by (apply Rmult_le_pos; lra).
  assert (MW : M * IZR W <= 67108864 * 1000000 * IZR W) by (apply Rmult_le_compat_r; lra).
  assert (X : Rabs (1000000 * val s - g * val d) <= 3 / 10 * IZR W).
  { replace (1000000 * val s - g * val d) with (1000000 * (val s - V) + (1000000 * V - IZR T) + g * (IZR W - val d)) by (rewrite <- Gg; ring).
    apply Rabs_le_inv in Es. apply Rabs_le_inv in GD. apply Rabs_le. unfold u in *. lra. }
  set (q := val s / val d).
  assert (Q : q * val d = val s) by (unfold q; field; lra).
  assert (Xq : Rabs (1000000 * q - g) <= 1 / 3).
  { apply Rmult_le_reg_r with (val d); [lra|]. rewrite <- (Rabs_pos_eq (val d)) at 1 by lra. rewrite <- Rabs_mult.
    replace ((1000000 * q - g) * val d) with (1000000 * val s - g * val d) by (rewrite <- Q; ring). lra. }
  assert (Xq' := Xq). apply Rabs_le_inv in Xq'.
  assert (Bq : Rabs q <= 67108865) by (apply Rabs_le; lra).
  destruct (fdiv_fin s d Fs Fd) as [Fm Vm].
  - lra.
  - fold q. apply big_bpow with 67108865; [exact Bq|lra].
  - fold q in Vm. pose proof (rnd_err _ _ _ (proj1 e1000) Bq) as D. rewrite <- Vm in D. apply Rabs_le_inv in D. fold e in D.
    assert (Y : Rabs (1000000 * val (fdiv s d) - g) <= 2 / 5) by (apply Rabs_le; unfold u in *; lra).
    assert (Y' := Y). apply Rabs_le_inv in Y'.
    destruct (td_seconds_spec (fdiv s d) Fm) as (r & R1 & R2 & R3).
    { apply Rabs_le. lra. }
    exists r. split; [exact R1|]. apply Rabs_le_inv in R2. split.
    + fold T. fold W. fold g. apply Rabs_def1; lra.
    + fold T. fold W. intros k Hk. apply R3. assert (g = IZR k) as <-; [|exact Y].
      unfold g. rewrite Hk, mult_IZR. field. lra.
Qed.
(* part 4 *)
Lemma means_exist f groups : accurate_sum f ->
  Forall (fun l => l <> [] /\ (Z.of_nat (length l) <= 2 ^ 40)%Z /\ Forall (fun a => 0 <= a)%Z l /\ (zsum l <= 268435456 * 1000000)%Z) groups ->
  exists ms, mapM (reported_mean f) groups = Ok ms /\ Forall2 near_mean groups ms.
Proof.
  intros Acc. induction 1 as [|l groups (H1 & H2 & H3 & H4) Hg (ms & E & N)].
  - exists []. split; [reflexivity|constructor].
  - destruct (reported_mean_near f l Acc H1 H2 H3 H4) as (m & Em & Nm).
    exists (m :: ms). split; [|constructor; assumption]. cbn [mapM]. rewrite Em. cbn. rewrite E. reflexivity.
Qed.
Lemma near_scaled l m : l <> [] -> near_mean l m ->
  (zsum l - Z.of_nat (length l) < m * Z.of_nat (length l) < zsum l + Z.of_nat (length l))%Z.
Proof.
  intros NE [N _]. set (n := Z.of_nat (length l)) in *.
  assert (N1 : (1 <= n)%Z) by (unfold n; destruct l; [congruence|cbn [length]; lia]). assert (1 <= IZR n) by (now apply IZR_le).
  apply Rabs_def2 in N. destruct N as [A B].
  assert (Q : IZR (zsum l) / IZR n * IZR n = IZR (zsum l)) by (field; lra).
  split; apply lt_IZR; rewrite ?minus_IZR, ?plus_IZR, mult_IZR; rewrite <- Q at 1.
  - assert ((IZR (zsum l) / IZR n - 1) * IZR n < IZR m * IZR n) by (apply Rmult_lt_compat_r; lra). lra.
  - assert (IZR m * IZR n < (IZR (zsum l) / IZR n + 1) * IZR n) by (apply Rmult_lt_compat_r; lra). lra.
Qed.
Lemma zsum_counts groups : (0 <= all_count groups)%Z.
Proof. unfold all_count. apply zsum_map_nonneg. apply Forall_forall. intros. lia. Qed.
Lemma pipeline_sums groups ms : Forall2 near_mean groups ms ->
  Forall (fun l => l <> [] /\ (Z.of_nat (length l) <= 2 ^ 40)%Z /\ Forall (fun a => 0 <= a)%Z l /\ (zsum l <= 268435456 * 1000000)%Z) groups ->
  let l := combine ms (map (fun l => Z.of_nat (length l)) groups) in
  length l = length groups
  /\ map snd l = map (fun l => Z.of_nat (length l)) groups
  /\ Forall (fun p => 0 <= fst p <= bigZ /\ 0 <= snd p)%Z l
  /\ (all_total groups - all_count groups <= zsum (map (fun p => fst p * snd p)%Z l) <= all_total groups + all_count groups)%Z.
Proof.
  induction 1 as [|g m groups ms N HN IH]; intro H.
  - cbn. repeat split; try constructor; cbn; lia.
  - inversion H as [|g' gs' (H1 & H2 & H3 & H4) Hg]; subst g' gs'. destruct (IH Hg) as (I1 & I2 & I3 & I4).
    pose proof (near_scaled g m H1 N) as S. pose proof (zsum_nonneg g H3) as Z0.
    set (k := Z.of_nat (length g)) in *. assert (K : (1 <= k)%Z) by (unfold k; destruct g; [congruence|cbn [length]; lia]).
    cbn [map combine length]. fold k. split; [cbn; now rewrite I1|]. split; [cbn; now rewrite I2|]. split.
    + constructor; [|exact I3]. cbn [fst snd]. unfold bigZ. nia.
    + unfold all_total, all_count in *. cbn [map zsum fold_right fst snd] in *. fold (zsum g). fold k.
      change (fold_right Z.add 0%Z) with zsum in *. lia.
Qed.
Lemma pipeline_near f1 f2 groups : accurate_sum f1 -> accurate_sum f2 -> groups <> [] ->
  Forall (fun l => l <> [] /\ (Z.of_nat (length l) <= 2 ^ 40)%Z /\ Forall (fun a => 0 <= a)%Z l /\ (zsum l <= 268435456 * 1000000)%Z) groups ->
  (all_count groups <= 2 ^ 40)%Z ->
  (Z.of_nat (length groups) * (all_total groups + all_count groups) <= 67108864 * 1000000 * all_count groups)%Z ->
  exists m, reported_cell f1 f2 groups = Ok m
    /\ Rabs (IZR m - IZR (all_total groups) / IZR (all_count groups)) < 2.
Proof.
  intros A1 A2 NE Hg Hc Ht.
  destruct (means_exist f1 groups A1 Hg) as (ms & E & N).
  destruct (pipeline_sums groups ms N Hg) as (L & W & F & S). set (l := combine ms (map (fun l => Z.of_nat (length l)) groups)) in *.
  assert (LC : (Z.of_nat (length groups) <= all_count groups)%Z).
  { unfold all_count. clear - Hg. induction Hg as [|g gs (H1 & _) Hgs IH]; [cbn; lia|].
    cbn [map zsum fold_right length]. change (fold_right Z.add 0%Z) with zsum. destruct g; [congruence|]. cbn [length]. lia. }
  assert (C1 : (1 <= all_count groups)%Z) by (destruct groups; [congruence|cbn [length] in LC; lia]).
  assert (W' : zsum (map snd l) = all_count groups) by (rewrite W; reflexivity).
  destruct (reported_average_near f2 l A2) as (m & Em & Nm & _).
  - rewrite L. lia.
  - exact F.
  - rewrite W'. lia.
  - rewrite W', L. nia.
  - exists m. split; [unfold reported_cell; rewrite E; exact Em|]. rewrite W' in Nm.
    set (T := zsum (map (fun p => fst p * snd p)%Z l)) in *. set (C := all_count groups) in *. set (U := all_total groups) in *.
    assert (1 <= IZR C) by (now apply IZR_le).
    assert (D : Rabs (IZR T / IZR C - IZR U / IZR C) <= 1).
    { replace (IZR T / IZR C - IZR U / IZR C) with ((IZR T - IZR U) / IZR C) by (field; lra).
      unfold Rdiv. rewrite Rabs_mult, (Rabs_pos_eq (/ IZR C)) by (left; apply Rinv_0_lt_compat; lra).
      apply Rmult_le_reg_r with (IZR C); [lra|]. rewrite Rmult_assoc, Rinv_l by lra. rewrite Rmult_1_r, Rmult_1_l.
      rewrite <- minus_IZR. rewrite <- abs_IZR. apply IZR_le. lia. }
    replace (IZR m - IZR U / IZR C) with ((IZR m - IZR T / IZR C) + (IZR T / IZR C - IZR U / IZR C)) by ring.
    eapply Rle_lt_trans; [apply Rabs_triang|]. lra.
Qed.

Lemma zsum_repeat a n : zsum (repeat a n) = (a * Z.of_nat n)%Z.
Proof. induction n; cbn [repeat zsum fold_right]; [lia|]. change (fold_right Z.add 0%Z) with zsum. rewrite IHn. lia. Qed.
Lemma equal_durations fsum a n : accurate_sum fsum -> point_durations (repeat a (S n)) ->
  reported_mean fsum (repeat a (S n)) = Ok a.
Proof.
  intros A (H1 & H2 & H3 & H4). destruct (reported_mean_near fsum _ A H1 H2 H3 H4) as (m & E & _ & X).
  rewrite E. f_equal. apply X. rewrite zsum_repeat, repeat_length. reflexivity.
Qed.
