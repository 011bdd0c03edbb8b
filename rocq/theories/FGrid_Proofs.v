(** Proofs about equally spaced points in binary64 arithmetic. *)
From Coq Require Import ZArith Reals Lra Lia Bool List.
From Flocq Require Import Core Relative IEEE754.BinarySingleNaN.
From Verif Require Import Base RBase RFacts Float_Model Float_Spec Float_Proofs Grid_Model Grid_Proofs
  FGrid_Model FGrid_Spec.
Import ListNotations.
Open Scope R_scope.

Lemma round_fix f x : round radix2 (FIX_exp 0) f x = IZR (f x).
Proof.
  unfold round, scaled_mantissa, cexp, FIX_exp, F2R. cbn. now rewrite Rmult_1_r, Rmult_1_r.
Qed.

Lemma Btrunc_val x : Btrunc x = Ztrunc (val x).
Proof. apply eq_IZR. rewrite (Btrunc_correct 53 1024 emax64). apply round_fix. Qed.

Lemma f_round_val x : f_round x = ZnearestE (val x).
Proof.
  unfold f_round. rewrite Btrunc_val. unfold val.
  destruct (Bnearbyint_correct 53 1024 emax64 mode_NE x) as [E _].
  rewrite E. cbn [round_mode]. rewrite round_fix. apply Ztrunc_IZR.
Qed.

Lemma fmt_dy n e : (Z.abs n < 2 ^ 53)%Z -> (-1074 <= e)%Z -> Fmt (IZR n * bpow radix2 e).
Proof.
  intros H He. apply (generic_format_FLT radix2 (-1074) 53).
  exists (Float radix2 n e); [reflexivity | exact H | exact He].
Qed.

Lemma fmt_half n : (Z.abs n < 2 ^ 51)%Z -> Fmt (IZR n + 1 / 2).
Proof.
  intro H. replace (IZR n + 1 / 2) with (IZR (2 * n + 1) * bpow radix2 (-1)).
  - apply fmt_dy; lia.
  - rewrite plus_IZR, mult_IZR. cbn. lra.
Qed.

Lemma rnd_mono x y : x <= y -> rnd x <= rnd y.
Proof. intro H. apply round_le; auto with typeclass_instances. Qed.

Lemma rnd_id x : Fmt x -> rnd x = x.
Proof. apply rd_fmt. Qed.

Lemma rnd_le_fmt x y : Fmt y -> x <= y -> rnd x <= y.
Proof. intros F H. rewrite <- (rnd_id y F). now apply rnd_mono. Qed.

Lemma rnd_ge_fmt x y : Fmt y -> y <= x -> y <= rnd x.
Proof. intros F H. rewrite <- (rnd_id y F) at 1. now apply rnd_mono. Qed.

Lemma half_val : finite (f_lit 1 (-1)) /\ val (f_lit 1 (-1)) = 1 / 2.
Proof. split; [reflexivity|]. unfold val. cbn. unfold F2R. cbn. lra. Qed.

Lemma small_bound x : Rabs x <= 1048576 * 1048576 -> Rabs x <= bpow radix2 1023.
Proof.
  intro H. apply Rle_trans with (bpow radix2 40).
  - replace (bpow radix2 40) with (1048576 * 1048576) by (cbn; lra). exact H.
  - apply bpow_le. lia.
Qed.

Lemma fadd_small x y : finite x -> finite y -> Rabs (val x + val y) <= 1048576 * 1048576 ->
  finite (fadd x y) /\ val (fadd x y) = rnd (val x + val y).
Proof.
  intros Fx Fy B.
  pose proof (Bplus_correct 53 1024 prec64 emax64 mode_NE x y Fx Fy) as C.
  change (B2R x) with (val x) in C. change (B2R y) with (val y) in C.
  rewrite Rlt_bool_true in C by (apply rnd_bound, small_bound, B).
  destruct C as [C1 [C2 _]]. split; [exact C2 | exact C1].
Qed.

(** ** The quotient *)

Lemma quotient_spec span theta : (0 < span <= 360)%Z -> usual_step theta ->
  finite (fdiv (of_Z span) theta) /\ val (fdiv (of_Z span) theta) = rnd (IZR span / val theta)
  /\ 0 < IZR span / val theta <= 360 * 1048576.
Proof.
  intros [S0 S] [F [L U]].
  assert (S0' : 0 < IZR span) by now apply (IZR_lt 0).
  assert (S' : IZR span <= 360) by now apply (IZR_le span 360).
  destruct (of_Z_spec span) as [Fs Vs]; [lia|].
  assert (P : 0 < val theta) by lra.
  assert (Q : 0 < IZR span / val theta <= 360 * 1048576).
  { split; [apply Rdiv_lt_0_compat; lra|].
    apply Rmult_le_reg_r with (val theta); [lra|].
    unfold Rdiv. rewrite Rmult_assoc, Rinv_l by lra.
    assert (1 <= 1048576 * val theta) by (apply Rmult_le_reg_l with (/ 1048576); lra). nra. }
  destruct (fdiv_fin (of_Z span) theta Fs F) as [A B]; [lra | |].
  - rewrite Vs. apply small_bound. rewrite Rabs_pos_eq by lra. lra.
  - rewrite Vs in B. auto.
Qed.

Lemma zero_quotient theta : usual_step theta -> f_round (fdiv (of_Z 0) theta) = 0%Z.
Proof.
  intros [F [L U]]. rewrite f_round_val.
  destruct (of_Z_spec 0) as [F0 V0]; [lia|].
  destruct (fdiv_fin (of_Z 0) theta F0 F) as [A B]; [lra | |].
  - rewrite V0. unfold Rdiv. rewrite Rmult_0_l, Rabs_R0. apply bpow_ge_0.
  - rewrite B, V0. unfold Rdiv. rewrite Rmult_0_l.
    rewrite (rnd_id 0) by apply generic_format_0.
    exact (Znearest_imp (fun x => negb (Z.even x)) 0 0%Z
             ltac:(rewrite Rminus_0_r, Rabs_R0; lra)).
Qed.

Lemma in_f_range span theta i : usual_step theta ->
  In i (f_range span theta) <-> (0 <= i < f_round (fdiv (of_Z span) theta))%Z.
Proof. intro U. unfold f_range. rewrite zero_quotient by assumption. apply py_range_In. Qed.

Lemma f_range_NoDup span theta : NoDup (f_range span theta).
Proof. unfold f_range. apply py_range_NoDup. Qed.

Global Opaque f_range f_coord f_point_id.

(** An index of the range is at least half a step below the machine quotient. *)
Lemma index_below span theta i : (0 < span <= 360)%Z -> usual_step theta ->
  In i (f_range span theta) ->
  (0 <= i < 2 ^ 30)%Z /\ IZR i + 1 / 2 <= rnd (IZR span / val theta).
Proof.
  intros S U Hi. apply in_f_range in Hi; [|assumption].
  destruct (quotient_spec span theta S U) as (F & V & Q).
  rewrite f_round_val, V in Hi. set (q := rnd (IZR span / val theta)) in *.
  pose proof (Znearest_half (fun x => negb (Z.even x)) q) as H.
  assert (B : q <= 360 * 1048576).
  { apply rnd_le_fmt; [|lra]. rewrite <- mult_IZR. apply fmt_Z. lia. }
  assert (Hn : IZR i + 1 <= IZR (ZnearestE q)) by (rewrite <- plus_IZR; apply IZR_le; lia).
  apply Rabs_le_inv in H.
  split; [|lra].
  split; [lia|]. apply lt_IZR. change (IZR (2 ^ 30)) with 1073741824. lra.
Qed.

(** The product of the index and the step, rounded. *)
Lemma product_spec span theta i : (0 < span <= 360)%Z -> usual_step theta ->
  In i (f_range span theta) ->
  let x := fadd (of_Z i) (f_lit 1 (-1)) in
  finite (fmul x theta) /\ val (fmul x theta) = rnd ((IZR i + 1 / 2) * val theta)
  /\ 0 <= (IZR i + 1 / 2) * val theta <= 361
  /\ (IZR i + 1 / 2) * val theta <= IZR span * (1 + bpow radix2 (-53))
  /\ (rnd (IZR span / val theta) <> IZR i + 1 / 2 -> (IZR i + 1 / 2) * val theta <= IZR span).
Proof.
  intros S U Hi x.
  destruct (index_below span theta i S U Hi) as [Bi Hq].
  destruct (quotient_spec span theta S U) as (_ & _ & Q).
  destruct U as [F [L Up]].
  assert (I0 : 0 <= IZR i) by (apply (IZR_le 0); lia).
  assert (I1 : IZR i <= 1073741824) by (apply (IZR_le i 1073741824); lia).
  destruct half_val as [Fh Vh].
  destruct (of_Z_spec i) as [Fi Vi]; [lia|].
  destruct (fadd_small (of_Z i) (f_lit 1 (-1)) Fi Fh) as [Fx Vx].
  { rewrite Vi, Vh, Rabs_pos_eq by lra. lra. }
  rewrite Vi, Vh, rnd_id in Vx by (apply fmt_half; lia).
  fold x in Fx, Vx.
  assert (T : 0 < val theta) by lra.
  assert (S' : 0 < IZR span <= 360).
  { split; [apply (IZR_lt 0); lia | apply (IZR_le span 360); lia]. }
  (* relative error of the quotient *)
  assert (R : rnd (IZR span / val theta) <= IZR span / val theta * (1 + bpow radix2 (-53))).
  { assert (Q1 : / 1 <= IZR span / val theta * 256).
    { unfold Rdiv. rewrite Rinv_1.
      assert (1 <= IZR span) by (apply (IZR_le 1); lia).
      apply Rmult_le_reg_r with (val theta); [lra|].
      replace (IZR span * / val theta * 256 * val theta) with (IZR span * 256) by (field; lra). nra. }
    destruct (relative_error_N_FLT_ex radix2 (-1074) 53 ltac:(lia) (fun x => negb (Z.even x))
                (IZR span / val theta)) as (eps & He & Er).
    - rewrite Rabs_pos_eq by lra. apply Rle_trans with (bpow radix2 (-8)).
      + apply bpow_le. lia.
      + replace (bpow radix2 (-8)) with (/ 256) by (cbn; lra).
        rewrite Rinv_1 in Q1. lra.
    - unfold rnd. rewrite Er. apply Rmult_le_compat_l; [lra|].
      apply Rabs_le_inv in He. cbn in He |- *. lra. }
  assert (Hprod : (IZR i + 1 / 2) * val theta <= IZR span * (1 + bpow radix2 (-53))).
  { apply Rle_trans with (IZR span / val theta * (1 + bpow radix2 (-53)) * val theta).
    - apply Rmult_le_compat_r; lra.
    - right. field. lra. }
  assert (B53 : 0 < bpow radix2 (-53) <= / 1000).
  { split; [apply bpow_gt_0|]. cbn. lra. }
  assert (Hbig : 0 <= (IZR i + 1 / 2) * val theta <= 361) by (split; nra).
  destruct (fmul_fin x theta Fx F) as [Fm Vm].
  { rewrite Vx. apply small_bound. rewrite Rabs_pos_eq by lra. lra. }
  rewrite Vx in Vm. repeat split; try assumption; try lra.
  intro NE. destruct (Rle_or_lt ((IZR i + 1 / 2) * val theta) (IZR span)) as [?|G]; [assumption|exfalso].
  assert (IZR span / val theta <= IZR i + 1 / 2).
  { apply Rmult_le_reg_r with (val theta); [lra|].
    replace (IZR span / val theta * val theta) with (IZR span) by (field; lra). lra. }
  assert (rnd (IZR span / val theta) <= IZR i + 1 / 2).
  { apply rnd_le_fmt; [apply fmt_half; lia | assumption]. }
  lra.
Qed.

(** Coordinates, for an even extent. *)
Lemma coord_spec half eps theta i : (0 < half <= 180)%Z -> usual_step theta ->
  Fmt (IZR (2 * half) + eps) -> Fmt (IZR half + eps) -> 0 <= eps <= 1 ->
  IZR (2 * half) * bpow radix2 (-53) <= eps ->
  In i (f_range (2 * half) theta) ->
  finite (f_coord (- half) i theta)
  /\ - IZR half <= val (f_coord (- half) i theta) <= IZR half + eps
  /\ (rnd (IZR (2 * half) / val theta) <> IZR i + 1 / 2 ->
      val (f_coord (- half) i theta) <= IZR half).
Proof.
  intros Hh U F2 F1 He Hrel Hi.
  destruct (product_spec (2 * half) theta i ltac:(lia) U Hi) as (Fm & Vm & Bm & Rm & Em).
  assert (H0 : 0 < IZR half <= 180).
  { split; [apply (IZR_lt 0); lia | apply (IZR_le half 180); lia]. }
  destruct (of_Z_spec (- half)) as [Fl Vl]; [lia|].
  set (p := rnd ((IZR i + 1 / 2) * val theta)) in *.
  assert (P0 : 0 <= p) by (apply rnd_nonneg; lra).
  assert (P1 : p <= IZR (2 * half) + eps) by (apply rnd_le_fmt; [assumption | lra]).
  rewrite opp_IZR in Vl. rewrite mult_IZR in *.
  Transparent f_coord. unfold f_coord. Opaque f_coord.
  destruct (fadd_small (of_Z (- half)) (fmul (fadd (of_Z i) (f_lit 1 (-1))) theta) Fl Fm) as [Fa Va].
  { rewrite Vl, Vm. apply Rabs_le. lra. }
  rewrite Vl, Vm in Va. rewrite Va. split; [exact Fa|]. split; [split|].
  - apply rnd_ge_fmt; [|lra]. rewrite <- opp_IZR. apply fmt_Z. lia.
  - apply rnd_le_fmt; [assumption | lra].
  - intro NE. specialize (Em NE). apply rnd_le_fmt; [apply fmt_Z; lia|].
    assert (p <= 2 * IZR half); [|lra].
    apply rnd_le_fmt; [|lra]. rewrite <- mult_IZR. apply fmt_Z. lia.
Qed.

Lemma fmt_small_sum n : (Z.abs n < 2 ^ 53)%Z -> forall e x, (-1074 <= e)%Z ->
  IZR n * bpow radix2 e = x -> Fmt x.
Proof. intros H e x He <-. now apply fmt_dy. Qed.

Lemma lon_spec theta i : usual_step theta -> In i (f_range 360 theta) ->
  finite (f_coord (-180) i theta)
  /\ -180 <= val (f_coord (-180) i theta) <= 180 + bpow radix2 (-44)
  /\ (rnd (360 / val theta) <> IZR i + 1 / 2 -> val (f_coord (-180) i theta) <= 180).
Proof.
  intros U Hi.
  apply (coord_spec 180 (bpow radix2 (-44)) theta i); try assumption; try lia.
  - apply (fmt_small_sum (360 * 2 ^ 44 + 1) ltac:(lia) (-44)); [lia | cbn; lra].
  - apply (fmt_small_sum (180 * 2 ^ 44 + 1) ltac:(lia) (-44)); [lia | cbn; lra].
  - cbn. lra.
  - cbn. lra.
Qed.

Lemma lat_spec theta i : usual_step theta -> In i (f_range 180 theta) ->
  finite (f_coord (-90) i theta)
  /\ -90 <= val (f_coord (-90) i theta) <= 90 + bpow radix2 (-45)
  /\ (rnd (180 / val theta) <> IZR i + 1 / 2 -> val (f_coord (-90) i theta) <= 90).
Proof.
  intros U Hi.
  apply (coord_spec 90 (bpow radix2 (-45)) theta i); try assumption; try lia.
  - apply (fmt_small_sum (180 * 2 ^ 45 + 1) ltac:(lia) (-45)); [lia | cbn; lra].
  - apply (fmt_small_sum (90 * 2 ^ 45 + 1) ltac:(lia) (-45)); [lia | cbn; lra].
  - cbn. lra.
  - cbn. lra.
Qed.

(** ** Points *)

Lemma in_gen_points p thi thj :
  In p (f_gen_points thi thj) <->
  exists i j, In i (f_range 360 thi) /\ In j (f_range 180 thj)
    /\ p = mk_fpoint (f_point_id i j thi thj) (f_coord (-180) i thi) (f_coord (-90) j thj).
Proof.
  unfold f_gen_points, f_indices. rewrite in_map_iff. split.
  - intros ([i j] & <- & H). apply in_flat_map in H as (j' & Hj & H).
    apply in_map_iff in H as (i' & E & Hi). inversion E; subst. now exists i, j.
  - intros (i & j & Hi & Hj & ->). exists (i, j). split; [reflexivity|].
    apply in_flat_map. exists j. split; [assumption|]. apply in_map_iff. now exists i.
Qed.

Lemma leb_val x y : finite x -> finite y -> Bleb x y = Rle_bool (val x) (val y).
Proof. intros Fx Fy. now apply Bleb_correct. Qed.

Lemma accepts_spec p : finite (f_lon p) -> finite (f_lat p) ->
  (point_accepts p = true <-> -90 <= val (f_lat p) <= 90 /\ -180 <= val (f_lon p) <= 180).
Proof.
  intros F1 F2. unfold point_accepts.
  destruct (of_Z_spec 90) as [Fa Va]; [lia|]. destruct (of_Z_spec (-90)) as [Fb Vb]; [lia|].
  destruct (of_Z_spec 180) as [Fc Vc]; [lia|]. destruct (of_Z_spec (-180)) as [Fd Vd]; [lia|].
  rewrite !leb_val by assumption. rewrite Va, Vb, Vc, Vd.
  rewrite !andb_true_iff.
  split.
  - intros [[A B] [C D]]. repeat split;
    match goal with |- ?a <= ?b => destruct (Rle_bool_spec a b); [assumption|discriminate] end.
  - intros [[A B] [C D]]. repeat split; now apply Rle_bool_true.
Qed.

Lemma step_points p theta : usual_step theta -> In p (f_gen_points theta theta) ->
  finite (f_lon p) /\ finite (f_lat p)
  /\ -180 <= val (f_lon p) <= 180 + bpow radix2 (-44)
  /\ -90 <= val (f_lat p) <= 90 + bpow radix2 (-45)
  /\ (not_half_way 360 theta -> not_half_way 180 theta -> point_accepts p = true).
Proof.
  intros U H. apply in_gen_points in H as (i & j & Hi & Hj & ->).
  destruct (lon_spec theta i U Hi) as (A1 & A2 & A3).
  destruct (lat_spec theta j U Hj) as (B1 & B2 & B3). cbn [f_lon f_lat].
  split; [assumption|]. split; [assumption|]. split; [assumption|]. split; [assumption|].
  intros N1 N2. apply accepts_spec; cbn [f_lon f_lat]; try assumption.
  specialize (A3 (N1 i)). specialize (B3 (N2 j)). lra.
Qed.

(** ** The step of a distance *)

Lemma val_sf x : val x = SF2R radix2 (B2SF x).
Proof. symmetry. apply SF2R_B2SF. Qed.

Lemma mean_radius_val : finite f_mean_radius /\ 6371008 <= val f_mean_radius <= 6371009.
Proof.
  split; [reflexivity|]. rewrite val_sf.
  let c := eval vm_compute in (B2SF f_mean_radius) in
  replace (B2SF f_mean_radius) with c by (vm_compute; reflexivity).
  unfold SF2R, F2R. cbn. lra.
Qed.

Lemma degree_factor_val : finite (fdiv (of_Z 180) f_pi) /\ 57 <= val (fdiv (of_Z 180) f_pi) <= 57.3.
Proof.
  split; [reflexivity|]. rewrite val_sf.
  let c := eval vm_compute in (B2SF (fdiv (of_Z 180) f_pi)) in
  replace (B2SF (fdiv (of_Z 180) f_pi)) with c by (vm_compute; reflexivity).
  unfold SF2R, F2R. cbn. lra.
Qed.

Lemma usual_distance_step d : usual_distance d -> usual_step (f_step d).
Proof.
  intros [F [L U]]. unfold f_step, f_degrees.
  destruct mean_radius_val as [Fr Vr]. destruct degree_factor_val as [Fp Vp].
  assert (Q : / 8388608 <= val d / val f_mean_radius <= 141 / 32).
  { split; apply Rmult_le_reg_r with (val f_mean_radius); try lra;
      replace (val d / val f_mean_radius * val f_mean_radius) with (val d) by (field; lra); nra. }
  destruct (fdiv_fin d f_mean_radius F Fr) as [Fq Vq]; [lra | |].
  { apply small_bound. rewrite Rabs_pos_eq by lra. lra. }
  assert (Q' : / 8388608 <= val (fdiv d f_mean_radius) <= 141 / 32).
  { rewrite Vq. split.
    - apply rnd_ge_fmt; [|lra]. apply (fmt_small_sum 1 ltac:(lia) (-23)); [lia | cbn; lra].
    - apply rnd_le_fmt; [|lra]. apply (fmt_small_sum 141 ltac:(lia) (-5)); [lia | cbn; lra]. }
  assert (P : / 1048576 <= val (fdiv d f_mean_radius) * val (fdiv (of_Z 180) f_pi) <= 256).
  { split; nra. }
  destruct (fmul_fin (fdiv d f_mean_radius) (fdiv (of_Z 180) f_pi) Fq Fp) as [Fm Vm].
  { apply small_bound. rewrite Rabs_pos_eq by lra. lra. }
  split; [exact Fm|]. rewrite Vm. split.
  - apply rnd_ge_fmt; [|lra]. apply (fmt_small_sum 1 ltac:(lia) (-20)); [lia | cbn; lra].
  - apply rnd_le_fmt; [|lra]. apply (fmt_Z 256). lia.
Qed.

(** ** Identifiers *)

Definition q360 (theta : b64) : R := rnd (360 / val theta).

Lemma q360_spec theta : usual_step theta ->
  1 <= q360 theta
  /\ Btrunc (fdiv (of_Z 360) theta) = Zfloor (q360 theta)
  /\ f_round (fdiv (of_Z 360) theta) = ZnearestE (q360 theta).
Proof.
  intro U. destruct (quotient_spec 360 theta ltac:(lia) U) as (F & V & Q).
  assert (1 <= q360 theta).
  { destruct U as [_ [L Up]]. apply rnd_ge_fmt; [apply (fmt_Z 1); lia|].
    apply Rmult_le_reg_r with (val theta); [lra|].
    replace (360 / val theta * val theta) with 360 by (field; lra). lra. }
  split; [assumption|]. rewrite Btrunc_val, f_round_val, V. fold (q360 theta). split; [|reflexivity].
  apply Ztrunc_floor. lra.
Qed.

Lemma rows_exist theta : usual_step theta -> In 0%Z (f_range 180 theta).
Proof.
  intro U. apply in_f_range; [assumption|]. split; [lia|].
  destruct (quotient_spec 180 theta ltac:(lia) U) as (F & V & Q).
  rewrite f_round_val, V.
  assert (45 / 64 <= rnd (180 / val theta)).
  { destruct U as [_ [L Up]]. apply rnd_ge_fmt.
    - apply (fmt_small_sum 45 ltac:(lia) (-6)); [lia | cbn; lra].
    - apply Rmult_le_reg_r with (val theta); [lra|].
      replace (180 / val theta * val theta) with 180 by (field; lra). lra. }
  apply lt_IZR.
  pose proof (Znearest_half (fun x => negb (Z.even x)) (rnd (180 / val theta))) as H0.
  apply Rabs_le_inv in H0. lra.
Qed.

Lemma nearest_cases q : 0 <= q ->
  (ZnearestE q = Zfloor q /\
     (q < IZR (Zfloor q) + 1 / 2 \/ (q = IZR (Zfloor q) + 1 / 2 /\ Z.even (Zfloor q) = true)))
  \/ (ZnearestE q = (Zfloor q + 1)%Z /\
     (q > IZR (Zfloor q) + 1 / 2 \/ (q = IZR (Zfloor q) + 1 / 2 /\ Z.even (Zfloor q) = false))).
Proof.
  intro H. unfold Znearest.
  pose proof (Zfloor_lb q) as L. pose proof (Zfloor_ub q) as U.
  assert (C : q <> IZR (Zfloor q) -> Zceil q = (Zfloor q + 1)%Z).
  { intro N. apply Zceil_floor_neq. congruence. }
  destruct (Rcompare_spec (q - IZR (Zfloor q)) (/ 2)) as [E|E|E].
  - left. split; [reflexivity | left; lra].
  - destruct (Z.even (Zfloor q)) eqn:Ev; cbn [negb].
    + left. split; [reflexivity | right; split; [lra | reflexivity]].
    + right. split; [apply C; lra | right; split; [lra | reflexivity]].
  - right. split; [apply C; lra | left; lra].
Qed.

Lemma point_ids_spec theta : usual_step theta ->
  NoDup (map f_id (f_gen_points theta theta)) <->
  (ZnearestE (q360 theta) <= Zfloor (q360 theta))%Z.
Proof.
  intro U. destruct (q360_spec theta U) as (Q1 & QT & QN).
  set (T := Zfloor (q360 theta)) in *. set (n := ZnearestE (q360 theta)) in *.
  assert (T1 : (1 <= T)%Z).
  { apply Zfloor_lub. exact Q1. }
  assert (M : forall i, Grid_Model.np_mod i T = Z.modulo i T).
  { intro i. unfold Grid_Model.np_mod. destruct (Z.eqb_spec T 0); [lia | reflexivity]. }
  assert (E : map f_id (f_gen_points theta theta)
    = map (fun ij => (snd ij * T + Z.modulo (fst ij) T)%Z) (f_indices theta theta)).
  { unfold f_gen_points. rewrite map_map. apply map_ext. intros [i j]. cbn [f_id fst snd].
    Transparent f_point_id. unfold f_point_id. Opaque f_point_id. now rewrite QT, M. }
  rewrite E. clear E.
  assert (HI : forall ij, In ij (f_indices theta theta) <->
    (0 <= fst ij < n)%Z /\ In (snd ij) (f_range 180 theta)).
  { intros [i j]. unfold f_indices. rewrite in_flat_map. split.
    - intros (j' & Hj & H). apply in_map_iff in H as (i' & E & Hi). inversion E; subst. cbn.
      apply in_f_range in Hi; [|assumption]. now rewrite QN in Hi.
    - cbn. intros [Hi Hj]. exists j. split; [assumption|]. apply in_map_iff. exists i. split; [reflexivity|].
      apply in_f_range; [assumption|]. now rewrite QN. }
  assert (ND : NoDup (f_indices theta theta)).
  { unfold f_indices. apply NoDup_flat_map.
    - apply f_range_NoDup.
    - intros j _. apply NoDup_map_inj; [|apply f_range_NoDup].
      intros a b _ _ E. now inversion E.
    - intros j j' x _ _ Hx Hx'. apply in_map_iff in Hx as (? & <- & _).
      apply in_map_iff in Hx' as (? & E & _). now inversion E. }
  split.
  - intro H. destruct (Z_le_gt_dec n T) as [?|G]; [assumption|exfalso].
    assert (P0 : In (0, 0)%Z (f_indices theta theta)).
    { apply HI. cbn. split; [lia | now apply rows_exist]. }
    assert (P1 : In (T, 0)%Z (f_indices theta theta)).
    { apply HI. cbn. split; [lia | now apply rows_exist]. }
    pose proof (NoDup_map_inj_inv _ _ H _ _ P0 P1) as C.
    cbn [fst snd] in C. rewrite Z_mod_same_full, Zmod_0_l in C.
    specialize (C eq_refl). inversion C. lia.
  - intro H. apply NoDup_map_inj; [|assumption].
    intros [i j] [i' j'] Hi Hi' C. apply HI in Hi as [Hi _]. apply HI in Hi' as [Hi' _].
    cbn [fst snd] in *. rewrite !Z.mod_small in C by lia.
    assert (j = j') by nia. subst. f_equal. lia.
Qed.

Lemma ids_criterion theta : usual_step theta ->
  NoDup (map f_id (f_gen_points theta theta)) <->
  exists k : Z, IZR k <= rnd (360 / val theta)
    /\ (rnd (360 / val theta) < IZR k + 1 / 2
        \/ (rnd (360 / val theta) = IZR k + 1 / 2 /\ Z.even k = true)).
Proof.
  intro U. rewrite point_ids_spec by assumption. fold (q360 theta).
  destruct (q360_spec theta U) as (Q1 & _ & _).
  pose proof (Zfloor_lb (q360 theta)) as L.
  destruct (nearest_cases (q360 theta) ltac:(lra)) as [[E H]|[E H]].
  - split; intros _; [|lia]. now exists (Zfloor (q360 theta)).
  - split; [lia|]. intros (k & K1 & K2). exfalso.
    assert (K : Zfloor (q360 theta) = k).
    { apply Zfloor_imp. rewrite plus_IZR. lra. }
    rewrite K in H. destruct H as [H|[H H']]; [lra|]. destruct K2 as [K2|[_ K2]]; [lra|congruence].
Qed.

Lemma quarter_ids theta k : usual_step theta -> IZR k * val theta <= 360 <= (IZR k + 1 / 4) * val theta ->
  NoDup (map f_id (f_gen_points theta theta)).
Proof.
  intros U K. apply ids_criterion; [assumption|]. exists k.
  assert (Kb : (Z.abs k < 2 ^ 50)%Z).
  { destruct U as [_ [L Up]].
    assert (IZR (-2) <= IZR k) by nra.
    assert (IZR k <= IZR (360 * 1048576)).
    { rewrite mult_IZR. destruct (Rle_or_lt (IZR k) (360 * 1048576)) as [?|G]; [assumption|exfalso].
      assert (1 <= 1048576 * val theta) by (apply Rmult_le_reg_l with (/ 1048576); lra). nra. }
    apply le_IZR in H, H0. lia. }
  destruct U as [_ [L Up]].
  assert (E : 360 / val theta * val theta = 360) by (field; lra).
  assert (A : IZR k <= rnd (360 / val theta)).
  { apply rnd_ge_fmt; [apply fmt_Z; lia|]. apply Rmult_le_reg_r with (val theta); lra. }
  assert (B : rnd (360 / val theta) <= IZR k + 1 / 4).
  { apply rnd_le_fmt.
    - replace (IZR k + 1 / 4) with (IZR (4 * k + 1) * bpow radix2 (-2)).
      + apply fmt_dy; lia.
      + rewrite plus_IZR, mult_IZR. cbn. lra.
    - apply Rmult_le_reg_r with (val theta); lra. }
  split; [exact A|]. left. lra.
Qed.

(** ** Witnesses *)

(** 2 pi R / 7 metres. *)
Definition d_seven : b64 := f_lit 6140304397753136 (-30).
(** 140210.9586846493 m. *)
Definition d_over : b64 := f_lit 4817611856731007 (-35).
(** 2,000 km. *)
Definition d_plain : b64 := of_Z 2000000.

Ltac usual_const d :=
  split; [reflexivity|]; rewrite val_sf;
  let c := eval vm_compute in (B2SF d) in
  replace (B2SF d) with c by (vm_compute; reflexivity); unfold SF2R, F2R; cbn; lra.

Lemma d_seven_usual : usual_distance d_seven.
Proof. usual_const d_seven. Qed.
Lemma d_over_usual : usual_distance d_over.
Proof. usual_const d_over. Qed.
Lemma d_plain_usual : usual_distance d_plain.
Proof. usual_const d_plain. Qed.

Lemma seven_ids : ~ NoDup (map f_id (f_generate_points d_seven)).
Proof.
  Transparent f_range f_coord f_point_id.
  intro H.
  assert (E : exists l, map f_id (f_generate_points d_seven)
     = (0 :: 1 :: 2 :: 3 :: 4 :: 5 :: 0 :: l)%Z) by (eexists; vm_compute; reflexivity).
  Opaque f_range f_coord f_point_id.
  destruct E as [l E]. rewrite E in H. apply NoDup_cons_iff in H as [H _]. apply H. cbn. tauto.
Qed.

Lemma over_index : In 285%Z (f_range 360 (f_step d_over)) /\ In 0%Z (f_range 180 (f_step d_over)).
Proof.
  pose proof (usual_distance_step _ d_over_usual) as U. split; [|now apply rows_exist].
  assert (E : f_round (fdiv (of_Z 360) (f_step d_over)) = 286%Z) by (vm_compute; reflexivity).
  apply (proj2 (in_f_range 360 (f_step d_over) 285 U)). rewrite E. lia.
Qed.

Lemma gen_points_intro thi thj i j : In i (f_range 360 thi) -> In j (f_range 180 thj) ->
  In (mk_fpoint (f_point_id i j thi thj) (f_coord (-180) i thi) (f_coord (-90) j thj)) (f_gen_points thi thj).
Proof. intros. apply in_gen_points. exists i, j. auto. Qed.

Lemma over_point : exists p, In p (f_generate_points d_over) /\ 180 < val (f_lon p) /\ point_accepts p = false.
Proof.
  destruct over_index as [I J].
  exists (mk_fpoint (f_point_id 285 0 (f_step d_over) (f_step d_over))
            (f_coord (-180) 285 (f_step d_over)) (f_coord (-90) 0 (f_step d_over))).
  split.
  - unfold f_generate_points. exact (gen_points_intro (f_step d_over) (f_step d_over) 285 0 I J).
  - Transparent f_range f_coord f_point_id. cbn [f_lon]. split.
    + rewrite val_sf.
      let c := eval vm_compute in (B2SF (f_coord (-180) 285 (f_step d_over))) in
      replace (B2SF (f_coord (-180) 285 (f_step d_over))) with c by (vm_compute; reflexivity).
      unfold SF2R, F2R. cbn. lra.
    + vm_compute. reflexivity.
    Opaque f_range f_coord f_point_id.
Qed.

Lemma distance_points d p : usual_distance d -> In p (f_generate_points d) ->
  finite (f_lon p) /\ finite (f_lat p)
  /\ -180 <= val (f_lon p) <= 180 + bpow radix2 (-44)
  /\ -90 <= val (f_lat p) <= 90 + bpow radix2 (-45)
  /\ (not_half_way 360 (f_step d) -> not_half_way 180 (f_step d) -> point_accepts p = true).
Proof. intros U. apply step_points. now apply usual_distance_step. Qed.

(** The quotient of the 2,000 km step is not half way. *)
Lemma not_half_dec span d n : (0 < span <= 360)%Z -> usual_distance d ->
  IZR n + 1 / 2 < val (fdiv (of_Z span) (f_step d)) < IZR n + 1 + 1 / 2 ->
  not_half_way (IZR span) (f_step d).
Proof.
  intros S U H k E.
  destruct (quotient_spec span (f_step d) S (usual_distance_step d U)) as (_ & V & _).
  rewrite V, E in H.
  assert (IZR n < IZR k < IZR n + 1) by lra.
  rewrite <- plus_IZR in H0. destruct H0 as [A B]. apply lt_IZR in A, B. lia.
Qed.

Lemma plain_not_half : not_half_way 360 (f_step d_plain) /\ not_half_way 180 (f_step d_plain).
Proof.
  split.
  - apply (not_half_dec 360 d_plain 19); [lia | apply d_plain_usual |].
    rewrite val_sf.
    let c := eval vm_compute in (B2SF (fdiv (of_Z 360) (f_step d_plain))) in
    replace (B2SF (fdiv (of_Z 360) (f_step d_plain))) with c by (vm_compute; reflexivity).
    unfold SF2R, F2R. cbn. lra.
  - apply (not_half_dec 180 d_plain 9); [lia | apply d_plain_usual |].
    rewrite val_sf.
    let c := eval vm_compute in (B2SF (fdiv (of_Z 180) (f_step d_plain))) in
    replace (B2SF (fdiv (of_Z 180) (f_step d_plain))) with c by (vm_compute; reflexivity).
    unfold SF2R, F2R. cbn. lra.
Qed.

Lemma plain_quarter : usual_step (f_step d_plain)
  /\ 20 * val (f_step d_plain) <= 360 <= (20 + 1 / 4) * val (f_step d_plain).
Proof.
  split; [apply usual_distance_step, d_plain_usual|]. rewrite val_sf.
  let c := eval vm_compute in (B2SF (f_step d_plain)) in
  replace (B2SF (f_step d_plain)) with c by (vm_compute; reflexivity).
  unfold SF2R, F2R. cbn. lra.
Qed.

(** ** Closing lemmas *)

Lemma c158_refuted_lemma :
  exists d p, usual_distance d /\ In p (f_generate_points d)
    /\ 180 < val (f_lon p) /\ point_accepts p = false.
Proof. destruct over_point as (p & H). exists d_over, p. split; [apply d_over_usual | exact H]. Qed.

Lemma c158_bounds_lemma d p : usual_distance d -> In p (f_generate_points d) ->
  finite (f_lon p) /\ finite (f_lat p)
  /\ -180 <= val (f_lon p) <= 180 + bpow radix2 (-44)
  /\ -90 <= val (f_lat p) <= 90 + bpow radix2 (-45).
Proof. intros U H. now destruct (distance_points d p U H) as (A & B & C & D & _). Qed.

Lemma c158_accepted_lemma d p :
  usual_distance d -> not_half_way 360 (f_step d) -> not_half_way 180 (f_step d) ->
  In p (f_generate_points d) -> point_accepts p = true.
Proof. intros U N1 N2 H. destruct (distance_points d p U H) as (_ & _ & _ & _ & E). now apply E. Qed.

Lemma c158_witness_lemma : usual_distance d_plain /\ not_half_way 360 (f_step d_plain)
  /\ not_half_way 180 (f_step d_plain) /\ length (f_generate_points d_plain) = 200%nat.
Proof.
  destruct plain_not_half. split; [apply d_plain_usual|]. split; [assumption|]. split; [assumption|].
  vm_compute. reflexivity.
Qed.

Lemma c159_refuted_lemma : exists d, usual_distance d /\ ~ NoDup (map f_id (f_generate_points d)).
Proof. exists d_seven. split; [apply d_seven_usual | apply seven_ids]. Qed.

Lemma c159_criterion_lemma d : usual_distance d ->
  let q := rnd (360 / val (f_step d)) in
  NoDup (map f_id (f_generate_points d)) <->
  exists k : Z, IZR k <= q /\ (q < IZR k + 1 / 2 \/ (q = IZR k + 1 / 2 /\ Z.even k = true)).
Proof. intro U. apply ids_criterion. now apply usual_distance_step. Qed.

Lemma c159_quarter_lemma d k : usual_distance d ->
  IZR k * val (f_step d) <= 360 <= (IZR k + 1 / 4) * val (f_step d) ->
  NoDup (map f_id (f_generate_points d)).
Proof. intro U. apply quarter_ids. now apply usual_distance_step. Qed.

Lemma c159_witness_lemma : usual_distance d_plain
  /\ IZR 20 * val (f_step d_plain) <= 360 <= (IZR 20 + 1 / 4) * val (f_step d_plain).
Proof. split; [apply d_plain_usual | apply plain_quarter]. Qed.
