(** The contracts of FMog_Spec are met, and two groups meet the hypotheses of the theorems. *)
From Coq Require Import ZArith Reals Lra Lia Bool List.
From Flocq Require Import Core Relative IEEE754.BinarySingleNaN.
From Verif Require Import Base RBase RFacts RTrig RTrigFacts Float_Model Float_Spec Float_Proofs FGrid_Model FTime_Model FTime_Proofs AnomalyRound_Proofs Mog_Proofs
  FGeom_Model FGeom_Spec FGeom_Proofs FGeom_Proofs2 FMog_Model FMog_Spec FMog_Proofs FMog_Proofs2 FMog_Proofs3 FMog_Proofs4 FMog_Proofs5.
Import ListNotations.
Open Scope R_scope.

(** ** An arc tangent *)
Definition cut_atan2 (y x : b64) : b64 :=
  if is_finite y && is_finite x then f_lit (Ztrunc (arctan2 (val y) (val x) * bpow radix2 51)) (-51) else B754_nan.
Lemma trunc_abs x : Rabs (IZR (Ztrunc x)) <= Rabs x /\ Rabs (IZR (Ztrunc x) - x) <= 1.
Proof.
  unfold Ztrunc. destruct (Rlt_bool_spec x 0) as [H|H].
  - pose proof (Zceil_ub x) as U. pose proof (Zceil_lb x) as L. assert (C : (Zceil x <= 0)%Z) by (apply Zceil_glb; simpl; lra). apply IZR_le in C.
    rewrite (Rabs_left1 x), (Rabs_left1 (IZR _)) by lra. split; [lra|apply Rabs_le; lra].
  - pose proof (Zfloor_lb x) as L. pose proof (Zfloor_ub x) as U. assert (C : (0 <= Zfloor x)%Z) by (apply Zfloor_lub; simpl; lra). apply IZR_le in C.
    rewrite (Rabs_pos_eq x), (Rabs_pos_eq (IZR _)) by lra. split; [lra|apply Rabs_le; lra].
Qed.
Lemma cut_spec y x : finite y -> finite x -> finite (cut_atan2 y x) /\ Rabs (val (cut_atan2 y x)) <= PI
  /\ Rabs (val (cut_atan2 y x) - arctan2 (val y) (val x)) <= bpow radix2 (-50).
Proof.
  intros Fy Fx. unfold cut_atan2. unfold finite in Fy, Fx. rewrite Fy, Fx. cbn [andb]. set (v := arctan2 (val y) (val x)).
  pose proof (arctan2_range (val y) (val x)) as B. fold v in B. pose proof pi_tight as P. assert (BA : Rabs v <= PI) by (apply Rabs_le; lra).
  destruct (trunc_abs (v * bpow radix2 51)) as [T1 T2]. set (z := Ztrunc (v * bpow radix2 51)) in *.
  assert (P51 : bpow radix2 51 = 2251799813685248) by (cbn; lra). assert (M51 : bpow radix2 (-51) = / 2251799813685248) by (cbn; lra).
  rewrite Rabs_mult, (Rabs_pos_eq (bpow radix2 51)) in T1 by apply bpow_ge_0. rewrite P51 in T1, T2.
  assert (Z : (Z.abs z < 2 ^ 53)%Z).
  { apply lt_IZR. rewrite abs_IZR. apply Rle_lt_trans with (1 := T1). change (IZR (2 ^ 53)) with 9007199254740992. lra. }
  destruct (f_lit_val z (-51) Z ltac:(lia)) as [F V]. split; [exact F|]. rewrite V, M51. split.
  - rewrite Rabs_mult, (Rabs_pos_eq (/ _)) by lra. lra.
  - replace (IZR z * / 2251799813685248 - v) with ((IZR z - v * 2251799813685248) * / 2251799813685248) by field.
    rewrite Rabs_mult, (Rabs_pos_eq (/ _)) by lra. cbn. lra.
Qed.
Lemma arctan2_above y x : 0 < y -> arctan2 y x = PI / 2 - atan (x / y).
Proof.
  intro Y. unfold arctan2. destruct (Rltb 0 x) eqn:E1.
  - apply Rltb_spec in E1. replace (x / y) with (/ (y / x)) by (field; lra). rewrite atan_inv by (apply Rdiv_lt_0_compat; lra). lra.
  - apply Rltb_false in E1. destruct (Rltb x 0) eqn:E2.
    + apply Rltb_spec in E2. destruct (Rleb 0 y) eqn:E3; [|apply Rleb_false in E3; lra].
      replace (x / y) with (- (/ (y / (- x)))) by (field; lra). replace (y / x) with (- (y / - x)) by (field; lra).
      rewrite !atan_opp, atan_inv by (apply Rdiv_lt_0_compat; lra). lra.
    + apply Rltb_false in E2. replace x with 0 by lra. destruct (Rltb 0 y) eqn:E3; [|apply Rltb_false in E3; lra].
      unfold Rdiv at 3. rewrite Rmult_0_l, atan_0. lra.
Qed.
Lemma cut_accurate : accurate_atan2 cut_atan2.
Proof.
  split; [|split].
  - intros y x. destruct (is_finite y) eqn:Y; [destruct (is_finite x) eqn:X|].
    + right. destruct (cut_spec y x Y X) as (A & B & _). auto.
    + left. unfold cut_atan2. rewrite Y, X. reflexivity.
    + left. unfold cut_atan2. rewrite Y. reflexivity.
  - intros y x Y X. apply (cut_spec y x Y X).
  - intros y x Y X H _. rewrite <- arctan2_above by lra. apply (cut_spec y x Y X).
Qed.

(** ** A sum of products *)
Definition plain_dot (a b : fv3) : b64 := fadd (fadd (fmul (f_x a) (f_x b)) (fmul (f_y a) (f_y b))) (fmul (f_z a) (f_z b)).
Lemma plain_accurate : accurate_dot plain_dot.
Proof.
  intros a b j k J K JK ((F1 & F2 & F3) & A1 & A2 & A3) ((G1 & G2 & G3) & B1 & B2 & B3). unfold plain_dot.
  set (P := bpow radix2 (j + k)). assert (PV : bpow radix2 j * bpow radix2 k = P) by (unfold P; rewrite bpow_plus; reflexivity).
  assert (P1 : 1 <= P) by (unfold P; change 1 with (bpow radix2 0); apply bpow_le; lia).
  assert (P2 : P <= 1152921504606846976) by (unfold P; replace 1152921504606846976 with (bpow radix2 60) by (cbn; lra); apply bpow_le; lia).
  assert (E : bpow radix2 (j + k - 48) = P * / 281474976710656) by (unfold P, Z.sub; rewrite bpow_plus; f_equal; cbn; lra).
  assert (M : forall x y, finite x -> finite y -> Rabs (val x) <= bpow radix2 j -> Rabs (val y) <= bpow radix2 k ->
    close (fmul x y) (val x * val y) (u * P + tiny) /\ Rabs (val x * val y) <= P).
  { intros x y X Y HX HY. assert (B : Rabs (val x * val y) <= P) by (rewrite Rabs_mult, <- PV; apply Rmult_le_compat; auto using Rabs_pos).
    split; [|exact B]. apply (close_mul _ _ _ _ _ _ (bpow radix2 j) (bpow radix2 k) P _ (close_self _ X) (close_self _ Y)); auto; try lra; unfold huge; lra. }
  destruct (M _ _ F1 G1 A1 B1) as [C1 D1]. destruct (M _ _ F2 G2 A2 B2) as [C2 D2]. destruct (M _ _ F3 G3 A3 B3) as [C3 D3].
  set (p1 := val (f_x a) * val (f_x b)) in *. set (p2 := val (f_y a) * val (f_y b)) in *. set (p3 := val (f_z a) * val (f_z b)) in *.
  clearbody P p1 p2 p3. apply Rabs_le_inv in D1, D2, D3.
  assert (S1 : close (fadd (fmul (f_x a) (f_x b)) (fmul (f_y a) (f_y b))) (p1 + p2) (5 * u * P + 5 * tiny)).
  { apply (close_add _ _ _ _ _ _ (2 * P) _ C1 C2); [apply Rabs_le; lra|unfold huge, u, tiny; lra|unfold u, tiny; lra]. }
  assert (S2 : close (fadd (fadd (fmul (f_x a) (f_x b)) (fmul (f_y a) (f_y b))) (fmul (f_z a) (f_z b))) (p1 + p2 + p3) (P * / 281474976710656)).
  { apply (close_add _ _ _ _ _ _ (3 * P) _ S1 C3); [apply Rabs_le; lra|unfold huge, u, tiny; lra|unfold u, tiny; lra]. }
  rewrite E. exact S2.
Qed.
Lemma libm_met : accurate_libm (by_nearest 52 sin) (by_nearest 52 cos) (by_nearest 52 asin) (by_nearest 51 acos) /\ accurate_atan2 cut_atan2 /\ accurate_dot plain_dot.
Proof. split; [apply nearest_libm|]. split; [exact cut_accurate|exact plain_accurate]. Qed.

(** ** Groups *)
Definition some_group : f_mog := mk_f_mog (of_Z 500000) (of_Z 45) (of_Z 30) (of_Z 200000) (of_Z 100000) true 3.
Definition endless_group : f_mog := mk_f_mog (of_Z 500000) (of_Z 45) (of_Z 30) (of_Z 43171820) (of_Z 100000) true 4.
Lemma some_facts : f_mog_valid some_group = true /\ referenced some_group /\ tilted some_group /\ counted some_group /\ elliptic some_group.
Proof.
  split; [vm_compute; reflexivity|]. unfold referenced, orbital, tilted, counted, elliptic, tilt_of, distance_of, EARTH_MEAN_RADIUS, EARTH_POLAR_RADIUS, EARTH_EQUATORIAL_RADIUS, some_group. cbn [fm_altitude fm_inclination fm_raan fm_parallel fm_transverse fm_clockwise fm_number].
  destruct (of_Z_spec 500000 ltac:(lia)) as [F1 V1]. destruct (of_Z_spec 45 ltac:(lia)) as [F2 V2]. destruct (of_Z_spec 30 ltac:(lia)) as [F3 V3].
  destruct (of_Z_spec 200000 ltac:(lia)) as [F4 V4]. destruct (of_Z_spec 100000 ltac:(lia)) as [F5 V5]. rewrite V1, V2, V3, V4, V5.
  repeat split; auto; try lra; lia.
Qed.
Lemma endless_facts : f_mog_valid endless_group = true /\ referenced endless_group /\ tilted endless_group /\ counted endless_group
  /\ Rabs (val (fm_parallel endless_group) / (4 * distance_of endless_group) - PI / 2) <= / 2000.
Proof.
  pose proof pi_tight as P. split; [vm_compute; reflexivity|]. unfold referenced, orbital, tilted, counted, tilt_of, distance_of, EARTH_MEAN_RADIUS, EARTH_POLAR_RADIUS, EARTH_EQUATORIAL_RADIUS, endless_group. cbn [fm_altitude fm_inclination fm_raan fm_parallel fm_transverse fm_clockwise fm_number].
  destruct (of_Z_spec 500000 ltac:(lia)) as [F1 V1]. destruct (of_Z_spec 45 ltac:(lia)) as [F2 V2]. destruct (of_Z_spec 30 ltac:(lia)) as [F3 V3].
  destruct (of_Z_spec 43171820 ltac:(lia)) as [F4 V4]. destruct (of_Z_spec 100000 ltac:(lia)) as [F5 V5]. rewrite V1, V2, V3, V4, V5.
  repeat split; auto; try lra; try lia. apply Rabs_le. lra.
Qed.
(** The members of the first group are inclined by 44 to 46 degrees: the cosine law bounds the change by the tilt. *)
Lemma some_inclined k i : member_inclination some_group (position_of some_group k) i -> 1 / 100 <= i <= 17999 / 100.
Proof.
  intros [B C]. pose proof pi_tight as P. set (d := tilt_of some_group) in *. set (th := position_of some_group k) in *.
  assert (D : 0 < d <= / 100).
  { unfold d, tilt_of, distance_of, EARTH_MEAN_RADIUS, EARTH_POLAR_RADIUS, EARTH_EQUATORIAL_RADIUS, some_group. cbn [fm_transverse fm_altitude]. rewrite (proj2 (of_Z_spec 100000 ltac:(lia))), (proj2 (of_Z_spec 500000 ltac:(lia))). lra. }
  assert (V : val (fm_inclination some_group) * (PI / 180) = PI / 4) by (unfold some_group; cbn [fm_inclination]; rewrite (proj2 (of_Z_spec 45 ltac:(lia))); lra).
  rewrite V, cos_PI4, sin_PI4 in C.
  assert (S2 : 0.7 <= 1 / sqrt 2 <= 0.71).
  { assert (Q : 1.41 <= sqrt 2 <= 1.42) by (split; [rewrite <- (sqrt_square 1.41) by lra|rewrite <- (sqrt_square 1.42) by lra]; apply sqrt_le_1; lra).
    split; apply Rmult_le_reg_r with (sqrt 2); try lra; unfold Rdiv; rewrite Rmult_1_l, Rinv_l by lra; lra. }
  pose proof (sin_lt_x d ltac:(lra)) as S1. assert (S0 : 0 <= sin d) by (apply sin_ge_0; lra).
  pose proof (COS_bound th) as CT. pose proof (COS_bound d) as CD.
  assert (CB : Rabs (cos (i * (PI / 180))) <= 0.8).
  { rewrite C. set (k' := 1 / sqrt 2) in *. clearbody k'.
    assert (G1 : -0.71 <= cos d * k' <= 0.71) by (split; nra). assert (G2 : - / 100 <= sin d * cos th <= / 100) by (split; nra).
    set (p := sin d * cos th) in *. clearbody p. assert (G3 : - / 100 <= p * k' <= / 100) by (split; nra). apply Rabs_le. lra. }
  apply Rabs_le_inv in CB.
  assert (SM : forall x, 0 <= x <= / 100 -> 0.9 < cos x).
  { intros x X. assert (E : cos x = 1 - 2 * sin (x / 2) * sin (x / 2)) by (rewrite <- cos_2a_sin; f_equal; field). rewrite E.
    pose proof (sin_abs (x / 2)) as SA. rewrite (Rabs_pos_eq (x / 2)) in SA by lra. apply Rabs_le_inv in SA. nra. }
  split.
  - destruct (Rle_dec (1 / 100) i) as [L|L]; [exact L|]. exfalso. pose proof (SM (i * (PI / 180)) ltac:(split; [apply Rmult_le_pos; lra|nra])). lra.
  - destruct (Rle_dec i (17999 / 100)) as [L|L]; [exact L|]. exfalso. pose proof (SM ((180 - i) * (PI / 180)) ltac:(split; [apply Rmult_le_pos; lra|nra])) as H.
    replace ((180 - i) * (PI / 180)) with (- (i * (PI / 180) - PI)) in H by field. rewrite cos_neg, cos_minus, cos_PI, sin_PI in H. lra.
Qed.

(** ** Enough tests *)
Lemma enough e : e <= 1 - / 1048576 -> exists K : nat, forall fuel, (K <= fuel)%nat -> 24 <= (INR fuel - 2) * (1 - e).
Proof.
  intro E. destruct (archimed (2 + 24 * 1048576)) as [HK _]. set (z := up (2 + 24 * 1048576)) in *. clearbody z.
  assert (Z0 : (0 <= z)%Z) by (apply le_IZR; lra). exists (Z.to_nat z). intros fuel H. apply le_INR in H. rewrite (INR_IZR_INZ (Z.to_nat z)), Z2Nat.id in H by exact Z0. nra.
Qed.
Lemma loop_lemma f_sin (n e : b64) : computes (fun x => Rabs x <= 1048576) sin f_sin -> finite n -> finite e -> Rabs (val n) <= 4 -> 0 <= val e <= 1 - / 1048576 ->
  exists psi, finite psi /\ (forall fuel, 24 <= (INR fuel - 2) * (1 - val e) -> f_kepler_loop f_sin fuel n e (of_Z 0) f_guess = Some psi)
  /\ forall x, solves_kepler (val n) (val e) x -> Rabs (val psi - x) <= (val e / 1000000 + 1 / 100000000000000) / (1 - val e).
Proof.
  intros S Fn Fe Bn Be. destruct (loop_ends f_sin S n e Fn Fe Bn ltac:(lra) ltac:(lra)) as (psi & F & _ & H & R1). exists psi. split; [exact F|]. split; [exact H|].
  intros x K. eapply kepler_unique; [lra|lra|unfold Rdiv at 1; exact R1|exact K].
Qed.
Lemma end_lemma m f_sin f_cos f_asin f_acos f_atan2 f_dot : accurate_libm f_sin f_cos f_asin f_acos -> accurate_atan2 f_atan2 -> referenced m -> elliptic m ->
  exists r K, forall fuel, (K <= fuel)%nat -> f_mog_members f_sin f_cos f_acos f_atan2 f_dot fuel m = Some r.
Proof.
  intros LM AT RF E. destruct (members_end m RF f_sin f_cos f_acos f_atan2 f_dot (proj1 LM) AT E) as [r H].
  destruct (enough (val (f_mog_e m))) as [K HK]; [apply (e_elliptic m RF E)|]. exists r, K. auto.
Qed.
Lemma accepted_lemma m f_sin f_cos f_asin f_acos f_atan2 f_dot :
  accurate_libm f_sin f_cos f_asin f_acos -> accurate_atan2 f_atan2 -> accurate_dot f_dot -> referenced m -> tilted m -> counted m -> elliptic m ->
  (forall k i, (k < fm_number m)%nat -> member_inclination m (position_of m k) i -> 1 / 100 <= i <= 17999 / 100) ->
  exists os K, (forall fuel, (K <= fuel)%nat -> f_mog_members f_sin f_cos f_acos f_atan2 f_dot fuel m = Some (Ok os))
  /\ length os = fm_number m /\ forall k o i, nth_error os k = Some o -> member_inclination m (position_of m k) i -> acceptable m i o.
Proof.
  intros LM AT DT RF TI CN EL HI. destruct (members_accepted m RF f_sin f_cos f_asin f_acos f_atan2 f_dot LM AT DT TI CN EL HI) as (os & H & L & A).
  destruct (enough (val (f_mog_e m))) as [K HK]; [apply (e_elliptic m RF EL)|]. exists os, K. auto.
Qed.
Lemma endless_lemma m f_sin f_cos f_asin f_acos f_atan2 f_dot fuel :
  accurate_libm f_sin f_cos f_asin f_acos -> accurate_atan2 f_atan2 -> accurate_dot f_dot ->
  referenced m -> tilted m -> counted m -> fm_clockwise m = true -> Rabs (val (fm_parallel m) / (4 * distance_of m) - PI / 2) <= / 2000 ->
  f_mog_members f_sin f_cos f_acos f_atan2 f_dot fuel m = None.
Proof. intros LM AT DT RF TI CN CW E. eapply members_endless; eassumption. Qed.
Lemma refuted_lemma : exists m, f_mog_valid m = true /\ referenced m /\
  forall f_sin f_cos f_asin f_acos f_atan2 f_dot fuel,
  accurate_libm f_sin f_cos f_asin f_acos -> accurate_atan2 f_atan2 -> accurate_dot f_dot ->
  f_mog_members f_sin f_cos f_acos f_atan2 f_dot fuel m = None.
Proof.
  exists endless_group. destruct endless_facts as (V & RF & TI & CN & E). split; [exact V|]. split; [exact RF|]. intros. eapply endless_lemma; eassumption || reflexivity.
Qed.
