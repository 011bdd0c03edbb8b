(** Proofs about the Fibonacci lattice in binary64 arithmetic. *)
From Coq Require Import ZArith Reals Lra Lia Bool List.
From Flocq Require Import Core Relative Sterbenz IEEE754.BinarySingleNaN.
From Verif Require Import Base RBase RFacts Float_Model Float_Spec Float_Proofs Grid_Model Grid_Proofs
  FGrid_Model FGrid_Spec FGrid_Proofs.
Import ListNotations.
Open Scope R_scope.

Lemma of_Z_any n : (Z.abs n <= 2 ^ 100)%Z -> finite (of_Z n) /\ val (of_Z n) = rnd (IZR n).
Proof.
  intro H. pose proof (binary_normalize_correct 53 1024 prec64 emax64 mode_NE n 0 false) as C. cbv zeta in C.
  assert (E : F2R (Float radix2 n 0) = IZR n) by (unfold F2R; cbn; lra). rewrite E in C. rewrite Rlt_bool_true in C.
  - unfold finite, val, of_Z. tauto.
  - apply rnd_bound. rewrite <- abs_IZR. apply Rle_trans with (IZR (2 ^ 100)); [now apply IZR_le|].
    change (IZR (2 ^ 100)) with (bpow radix2 100). apply bpow_le. lia.
Qed.
Lemma golden_val : finite f_golden /\ val f_golden = 7286977268806824 / 4503599627370496.
Proof.
  split; [vm_compute; reflexivity|]. rewrite val_sf.
  let c := eval vm_compute in (B2SF f_golden) in replace (B2SF f_golden) with c by (vm_compute; reflexivity).
  unfold SF2R, F2R. cbn. lra.
Qed.
Lemma ltb_val x y : finite x -> finite y -> Bltb x y = Rlt_bool (val x) (val y).
Proof. intros Fx Fy. now apply Bltb_correct. Qed.
Lemma quotient_val i : (0 <= i <= 2 ^ 54)%Z ->
  let q := fdiv (of_Z (360 * i)) f_golden in
  finite q /\ val q = rnd (rnd (IZR (360 * i)) / val f_golden) /\ 0 <= val q.
Proof.
  intros I q. destruct golden_val as [Fg Vg]. destruct (of_Z_any (360 * i)) as [Fz Vz]; [lia|].
  assert (P : 0 <= rnd (IZR (360 * i)) <= IZR (2 ^ 63)).
  { split; [apply rnd_nonneg, IZR_le; lia|]. apply rnd_le_fmt; [|apply IZR_le; lia]. change (IZR (2 ^ 63)) with (bpow radix2 63). apply generic_format_bpow. cbn. lia. }
  assert (Q : 0 <= rnd (IZR (360 * i)) / val f_golden <= IZR (2 ^ 63)).
  { apply div_bounds; [lra|rewrite Vg; lra|]. rewrite Vg. lra. }
  destruct (fdiv_fin (of_Z (360 * i)) f_golden Fz Fg) as [F V]; [rewrite Vg; lra| |].
  { rewrite Vz. apply big_ok. split; [lra|]. apply Rle_trans with (IZR (2 ^ 63)); [lra|apply IZR_le; lia]. }
  split; [exact F|]. unfold q. rewrite V, Vz. split; [reflexivity|]. apply rnd_nonneg. lra.
Qed.
Lemma fib_lon_lemma i : (0 <= i <= 2 ^ 54)%Z ->
  finite (f_fib_lon i) /\ -180 < val (f_fib_lon i) <= 180
  /\ exists k : Z, val (f_fib_lon i) = val (fdiv (of_Z (360 * i)) f_golden) - 360 * IZR k.
Proof.
  intro I. destruct (quotient_val i I) as (Fq & _ & Pq). set (q := fdiv (of_Z (360 * i)) f_golden) in *.
  destruct f360 as [F1 V1]. destruct (np_mod_spec q (of_Z 360) Fq F1 ltac:(rewrite V1; lra)) as [Fm Vm].
  rewrite V1 in Vm. rewrite (rnd_id (rmod (val q) 360)) in Vm by (now apply rmod_fmt_nonneg).
  unfold f_fib_lon. fold q. set (m := Float_Model.np_mod q (of_Z 360)) in *. pose proof (rmod_range (val q) 360 ltac:(lra)) as R. rewrite <- Vm in R.
  destruct (rmod_eqm (val q) 360) as [k K]. rewrite <- Vm in K.
  destruct (of_Z_spec 180) as [F2 V2]; [lia|]. rewrite ltb_val, V2 by assumption.
  destruct (Rlt_bool_spec 180 (val m)) as [L|L].
  - destruct (of_Z_spec (-360)) as [F3 V3]; [lia|].
    destruct (fadd_small m (of_Z (-360)) Fm F3) as [F V]; [rewrite V3; rewrite Rabs_left; lra|].
    assert (E : rnd (val m + -360) = val m - 360).
    { replace (val m + -360) with (val m - 360) by ring. apply rnd_id. apply sterbenz; auto with typeclass_instances; [apply val_fmt|apply (fmt_Z 360); lia|lra]. }
    split; [exact F|]. rewrite V, V3, E. split; [lra|]. exists (1 - k)%Z. rewrite minus_IZR. lra.
  - split; [exact Fm|]. split; [lra|]. exists (- k)%Z. rewrite opp_IZR. lra.
Qed.

(** ** Accuracy of the longitude *)
Lemma golden_close : Rabs (val f_golden - golden) <= bpow radix2 (-53) /\ 1618 / 1000 < golden < 1619 / 1000.
Proof.
  destruct golden_val as [_ ->]. unfold golden. pose proof (sqrt_pos 5) as P. pose proof (sqrt_sqrt 5 ltac:(lra)) as S.
  set (s := sqrt 5) in *. clearbody s. set (g := 7286977268806824 / 4503599627370496).
  assert (G : (2 * g - 1 - bpow radix2 (-52)) * (2 * g - 1 - bpow radix2 (-52)) <= 5 <= (2 * g - 1 + bpow radix2 (-52)) * (2 * g - 1 + bpow radix2 (-52))) by (unfold g; cbn; lra).
  assert (B : bpow radix2 (-52) = 2 * bpow radix2 (-53)) by (cbn; lra). assert (B1 : 0 < bpow radix2 (-53) < / 1000) by (cbn; lra).
  assert (G1 : 1.618 < g < 1.619) by (unfold g; lra). set (u := bpow radix2 (-52)) in *. set (u' := bpow radix2 (-53)) in *. clearbody g u u'.
  assert (S1 : 2 * g - 1 - u <= s) by nra. assert (S2 : s <= 2 * g - 1 + u) by nra.
  split; [apply Rabs_le; lra|]. split; nra.
Qed.
Lemma rnd_rel x : bpow radix2 (-1000) <= Rabs x -> Rabs (rnd x - x) <= bpow radix2 (-53) * Rabs x.
Proof.
  intro H. assert (L : bpow radix2 (-1022) <= Rabs x) by (apply Rle_trans with (2 := H); apply bpow_le; lia).
  pose proof (relative_error_N_FLT radix2 (-1074) 53 ltac:(lia) (fun n => negb (Z.even n)) x L) as E. unfold rnd.
  replace (bpow radix2 (-53)) with (/ 2 * bpow radix2 (- (53) + 1)) by (cbn; lra). exact E.
Qed.
Lemma fib_accuracy i : (0 <= i <= 2 ^ 44)%Z ->
  exists k : Z, Rabs (val (f_fib_lon i) - (360 * IZR i / golden - 360 * IZR k)) <= IZR i * bpow radix2 (-44).
Proof.
  intro I. destruct (fib_lon_lemma i ltac:(lia)) as (_ & _ & k & K). destruct (quotient_val i ltac:(lia)) as (_ & V & _).
  exists k. rewrite K. replace (val (fdiv (of_Z (360 * i)) f_golden) - 360 * IZR k - (360 * IZR i / golden - 360 * IZR k))
    with (val (fdiv (of_Z (360 * i)) f_golden) - 360 * IZR i / golden) by ring.
  rewrite V, (rnd_id (IZR (360 * i))) by (apply fmt_Z; lia). rewrite mult_IZR.
  destruct golden_close as [G [G1 G2]]. destruct golden_val as [_ Vg].
  destruct (Z.eq_dec i 0) as [->|N].
  { replace (360 * 0 / val f_golden) with 0 by (unfold Rdiv; ring). replace (360 * 0 / golden) with 0 by (unfold Rdiv; ring).
    rewrite (rnd_id 0) by apply generic_format_0. rewrite Rminus_0_r, Rabs_R0. lra. }
  assert (I1 : 1 <= IZR i) by (apply IZR_le; lia). set (x := IZR i) in *. clearbody x.
  assert (Fg : 1.618 < val f_golden < 1.619) by (rewrite Vg; lra). set (g := val f_golden) in *. clearbody g. clear Vg K V k.
  assert (A : 0 < 360 * x / g <= 2225 / 10 * x).
  { split; [apply Rdiv_lt_0_compat; lra|]. apply (Rmult_le_reg_r g); [lra|]. unfold Rdiv. rewrite Rmult_assoc, Rinv_l by lra. nra. }
  assert (A1 : 1 <= 360 * x / g). { apply (Rmult_le_reg_r g); [lra|]. unfold Rdiv. rewrite Rmult_assoc, Rinv_l by lra. lra. }
  pose proof (rnd_rel (360 * x / g)) as R. rewrite (Rabs_pos_eq (360 * x / g)) in R by lra.
  specialize (R ltac:(apply Rle_trans with 1; [|exact A1]; change 1 with (bpow radix2 0); apply bpow_le; lia)).
  assert (D : 360 * x / g - 360 * x / golden = 360 * x / g * ((golden - g) / golden)) by (field; lra).
  assert (D2 : Rabs (360 * x / g - 360 * x / golden) <= 2225 / 10 * x * bpow radix2 (-53)).
  { rewrite D, Rabs_mult, (Rabs_pos_eq (360 * x / g)) by lra. apply Rmult_le_compat; [lra|apply Rabs_pos|lra|].
    unfold Rdiv. rewrite Rabs_mult. rewrite (Rabs_pos_eq (/ golden)) by (left; apply Rinv_0_lt_compat; lra). rewrite Rabs_minus_sym.
    apply Rle_trans with (bpow radix2 (-53) * 1); [|lra]. apply Rmult_le_compat; [apply Rabs_pos|left; apply Rinv_0_lt_compat; lra|exact G|].
    rewrite <- Rinv_1. apply Rinv_le_contravar; lra. }
  assert (B : bpow radix2 (-44) = 512 * bpow radix2 (-53)) by (cbn; lra). pose proof (bpow_gt_0 radix2 (-53)) as B1.
  rewrite B. set (u := bpow radix2 (-53)) in *. clearbody u. apply Rabs_le_inv in D2. apply Rabs_le_inv in R. apply Rabs_le.
  assert (U : u * (360 * x / g) <= u * (2225 / 10 * x)) by (apply Rmult_le_compat_l; lra).
  assert (0 < x * u) by (apply Rmult_lt_0_compat; lra). split; nra.
Qed.

(** ** Latitude *)
Lemma asin_argument i n : (0 <= i < n)%Z -> (n <= 2 ^ 50)%Z ->
  let x := fadd (fdiv (of_Z (2 * (i + 1))) (of_Z (n + 2))) (of_Z (-1)) in
  finite x /\ Rabs (val x) <= 1 - bpow radix2 (-50).
Proof.
  intros I N x. destruct (of_Z_spec (2 * (i + 1))) as [F1 V1]; [lia|]. destruct (of_Z_spec (n + 2)) as [F2 V2]; [lia|]. destruct (of_Z_spec (-1)) as [F3 V3]; [lia|].
  assert (P : 3 <= IZR (n + 2) <= IZR (2 ^ 51)) by (split; apply IZR_le; lia).
  assert (D : bpow radix2 (-50) <= IZR (2 * (i + 1)) / IZR (n + 2) <= 2 - bpow radix2 (-50)).
  { assert (B : bpow radix2 (-50) * IZR (2 ^ 51) = 2) by (change (IZR (2 ^ 51)) with (bpow radix2 51); rewrite <- bpow_plus; cbn; lra).
    pose proof (bpow_gt_0 radix2 (-50)) as B1. set (u := bpow radix2 (-50)) in *.
    assert (I1 : 2 <= IZR (2 * (i + 1))) by (apply IZR_le; lia). assert (I2 : IZR (2 * (i + 1)) <= 2 * IZR (n + 2) - 4).
    { rewrite <- mult_IZR, <- minus_IZR. apply IZR_le. lia. }
    split; apply (Rmult_le_reg_r (IZR (n + 2))); try lra; unfold Rdiv; rewrite ?Rmult_assoc, ?Rinv_l, ?Rmult_1_r by lra; nra. }
  destruct (fdiv_fin (of_Z (2 * (i + 1))) (of_Z (n + 2)) F1 F2) as [Fd Vd]; [rewrite V2; lra| |].
  { rewrite V1, V2. apply small_bound. pose proof (bpow_gt_0 radix2 (-50)). rewrite Rabs_pos_eq by lra. lra. }
  rewrite V1, V2 in Vd.
  assert (D' : bpow radix2 (-50) <= val (fdiv (of_Z (2 * (i + 1))) (of_Z (n + 2))) <= 2 - bpow radix2 (-50)).
  { rewrite Vd. split; [apply rnd_ge_fmt; [apply generic_format_bpow; cbn; lia|lra]|]. apply rnd_le_fmt; [|lra].
    apply (fmt_small_sum (2 ^ 51 - 1) ltac:(lia) (-50)); [lia|cbn; lra]. }
  destruct (fadd_small (fdiv (of_Z (2 * (i + 1))) (of_Z (n + 2))) (of_Z (-1)) Fd F3) as [F V].
  { rewrite V3. pose proof (bpow_gt_0 radix2 (-50)). apply Rabs_le. lra. }
  split; [exact F|]. unfold x. rewrite V, V3. apply Rabs_le. split.
  - apply rnd_ge_fmt; [|lra]. apply (fmt_small_sum (- (2 ^ 50 - 1)) ltac:(lia) (-50)); [lia|cbn; lra].
  - apply rnd_le_fmt; [|lra]. apply (fmt_small_sum (2 ^ 50 - 1) ltac:(lia) (-50)); [lia|cbn; lra].
Qed.
Lemma factor_val : finite (fdiv (of_Z 180) f_pi) /\ val (fdiv (of_Z 180) f_pi) = 8063664102031864 / 140737488355328.
Proof.
  split; [vm_compute; reflexivity|]. rewrite val_sf.
  let c := eval vm_compute in (B2SF (fdiv (of_Z 180) f_pi)) in pose (k := c); replace (B2SF (fdiv (of_Z 180) f_pi)) with c by (vm_compute; reflexivity).
  unfold SF2R, F2R. cbn. lra.
Qed.
Lemma pi_val : val f_pi = 7074237752028440 / 2251799813685248.
Proof.
  rewrite val_sf. let c := eval vm_compute in (B2SF f_pi) in replace (B2SF f_pi) with c by (vm_compute; reflexivity). unfold SF2R, F2R. cbn. lra.
Qed.
Lemma degrees_bound x b c : finite x -> Rabs (val x) <= b -> b * val (fdiv (of_Z 180) f_pi) <= c -> Fmt c -> c <= 90 ->
  finite (f_degrees x) /\ Rabs (val (f_degrees x)) <= c.
Proof.
  intros F B C Fc C9. destruct factor_val as [Fa Va]. unfold f_degrees. set (a := fdiv (of_Z 180) f_pi) in *.
  assert (P : 0 < val a) by (rewrite Va; lra). assert (M : Rabs (val x * val a) <= c).
  { rewrite Rabs_mult, (Rabs_pos_eq (val a)) by lra. apply Rle_trans with (2 := C). apply Rmult_le_compat_r; lra. }
  destruct (fmul_fin x a F Fa) as [F' V]; [apply small_bound; lra|]. split; [exact F'|]. rewrite V.
  apply abs_round_le_generic; auto with typeclass_instances.
Qed.
Lemma fib_lat_lemma f i n : asin_range (val f_pi / 2) f -> (0 <= i < n)%Z -> (n <= 2 ^ 50)%Z ->
  finite (f_fib_lat f i n) /\ Rabs (val (f_fib_lat f i n)) <= 90.
Proof.
  intros A I N. destruct (asin_argument i n I N) as [F B]. destruct (A _ F) as [F' B'].
  { pose proof (bpow_gt_0 radix2 (-50)). apply Rabs_le_inv in B. lra. }
  apply (degrees_bound _ (val f_pi / 2)); [exact F'|exact B'| |apply (fmt_Z 90); lia|lra].
  rewrite pi_val. destruct factor_val as [_ ->]. lra.
Qed.
Lemma fib_lat_interior f i n : asin_range (val f_pi / 2) f -> asin_interior (val f_pi / 2) f -> (0 <= i < n)%Z -> (n <= 2 ^ 50)%Z ->
  Rabs (val (f_fib_lat f i n)) < 90.
Proof.
  intros A A2 I N. destruct (asin_argument i n I N) as [F B]. destruct (A _ F) as [F' _].
  { pose proof (bpow_gt_0 radix2 (-50)). apply Rabs_le_inv in B. lra. }
  specialize (A2 _ F B). destruct (degrees_bound _ (val f_pi / 2 - bpow radix2 (-26)) (90 - bpow radix2 (-22)) F' A2) as [_ K].
  - rewrite pi_val. destruct factor_val as [_ ->]. cbn. lra.
  - apply (fmt_small_sum (90 * 2 ^ 22 - 1) ltac:(lia) (-22)); [lia|cbn; lra].
  - pose proof (bpow_gt_0 radix2 (-22)). lra.
  - pose proof (bpow_gt_0 radix2 (-22)). unfold f_fib_lat. lra.
Qed.
Lemma in_fib f n p : In p (f_fib_points f n) -> exists i, (0 <= i < n)%Z /\ p = mk_fpoint i (f_fib_lon i) (f_fib_lat f i n).
Proof. intro H. apply in_map_iff in H. destruct H as (i & <- & H). exists i. split; [|reflexivity]. now apply py_range_In in H. Qed.
Lemma fib_accepted_lemma f n p : asin_range (val f_pi / 2) f -> (n <= 2 ^ 50)%Z -> In p (f_fib_points f n) ->
  point_accepts p = true /\ (0 <= f_id p)%Z /\ -180 < val (f_lon p) <= 180.
Proof.
  intros A N H. apply in_fib in H. destruct H as (i & I & ->). destruct (fib_lon_lemma i ltac:(lia)) as (F1 & B1 & _).
  destruct (fib_lat_lemma f i n A I N) as [F2 B2]. cbn [f_lon f_id]. split; [|split; [lia|exact B1]].
  apply accepts_spec; cbn [f_lon f_lat]; try assumption. apply Rabs_le_inv in B2. lra.
Qed.
Lemma fib_poles_lemma f n p : asin_range (val f_pi / 2) f -> asin_interior (val f_pi / 2) f -> (n <= 2 ^ 50)%Z -> In p (f_fib_points f n) ->
  -90 < val (f_lat p) < 90.
Proof.
  intros A A2 N H. apply in_fib in H. destruct H as (i & I & ->). cbn [f_lat].
  pose proof (fib_lat_interior f i n A A2 I N) as K. apply Rabs_lt_inv in K. lra.
Qed.
Lemma fib_ids f n : map f_id (f_fib_points f n) = py_range 0 n.
Proof. unfold f_fib_points. rewrite map_map. cbn [f_id]. apply map_id. Qed.
Lemma fib_rows_lemma f n : (0 <= n)%Z -> map f_id (f_fib_points f n) = map Z.of_nat (seq 0 (Z.to_nat n)).
Proof.
  intro N. rewrite fib_ids. unfold py_range. rewrite Z.sub_0_r. apply map_ext. intro; lia.
Qed.
Lemma id_asin : asin_range (val f_pi / 2) (fun x => x) /\ asin_interior (val f_pi / 2) (fun x => x).
Proof.
  rewrite pi_val. split; intros x F B.
  - split; [exact F|]. apply Rabs_le. lra.
  - apply Rle_trans with (1 := B). cbn. lra.
Qed.
Lemma c170_accepted_lemma : forall f_asin n, asin_range (val f_pi / 2) f_asin -> (0 <= n <= 2 ^ 50)%Z ->
  map f_id (f_fib_points f_asin n) = map Z.of_nat (seq 0 (Z.to_nat n))
  /\ forall p, In p (f_fib_points f_asin n) -> point_accepts p = true /\ (0 <= f_id p)%Z /\ -180 < val (f_lon p) <= 180.
Proof. intros f n A N. split; [apply fib_rows_lemma; lia|]. intros p H. apply (fib_accepted_lemma f n); [exact A|lia|exact H]. Qed.
Lemma c171_lemma : forall f_asin n p, (n <= 2 ^ 44)%Z -> In p (f_fib_points f_asin n) ->
  exists k : Z, Rabs (val (f_lon p) - (360 * IZR (f_id p) / golden - 360 * IZR k)) <= IZR (f_id p) * bpow radix2 (-44).
Proof. intros f n p N H. apply in_fib in H. destruct H as (i & I & ->). cbn [f_lon f_id]. apply fib_accuracy. lia. Qed.
Lemma c171_witness_lemma : exists p, In p (f_fib_points (fun x => x) 5) /\ f_id p = 3%Z.
Proof.
  exists (mk_fpoint 3 (f_fib_lon 3) (f_fib_lat (fun x => x) 3 5)). split; [|reflexivity].
  unfold f_fib_points. apply (in_map (fun i => mk_fpoint i (f_fib_lon i) (f_fib_lat (fun x => x) i 5))). apply py_range_In. lia.
Qed.
Lemma c170_witness_lemma : asin_range (val f_pi / 2) (fun x => x) /\ asin_interior (val f_pi / 2) (fun x => x)
  /\ exists p, In p (f_fib_points (fun x => x) 5) /\ f_id p = 3%Z.
Proof. destruct id_asin as [A B]. split; [exact A|]. split; [exact B|]. exact c171_witness_lemma. Qed.
