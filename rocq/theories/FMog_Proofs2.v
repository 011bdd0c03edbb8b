(** Members of mutual orbiting groups in binary64. *)
From Coq Require Import ZArith Reals Lra Lia Bool List.
From Flocq Require Import Core Relative IEEE754.BinarySingleNaN.
From Verif Require Import Base RBase RFacts Float_Model Float_Spec Float_Proofs FGrid_Model FTime_Model FTime_Proofs AnomalyRound_Proofs Mog_Proofs
  FGeom_Model FGeom_Spec FGeom_Proofs FGeom_Proofs2 FMog_Model FMog_Spec FMog_Proofs.
Import ListNotations.
Open Scope R_scope.

(** ** Closeness of bounded numbers *)
Definition e15 := 1 / 1000000000000000.
Lemma cadd x y a b d1 d2 d : close x a d1 -> close y b d2 -> Rabs (a + b) <= 4 -> 0 <= d1 <= 1 -> 0 <= d2 <= 1 -> d1 + d2 + e15 <= d -> close (fadd x y) (a + b) d.
Proof. intros X Y M H1 H2 H. apply (close_add _ _ _ _ _ _ 4 _ X Y M); [unfold huge; lra|unfold u, tiny, e15 in *; lra]. Qed.
Lemma csub x y a b d1 d2 d : close x a d1 -> close y b d2 -> Rabs (a - b) <= 4 -> 0 <= d1 <= 1 -> 0 <= d2 <= 1 -> d1 + d2 + e15 <= d -> close (fsub x y) (a - b) d.
Proof. intros X Y M H1 H2 H. apply (close_sub _ _ _ _ _ _ 4 _ X Y M); [unfold huge; lra|unfold u, tiny, e15 in *; lra]. Qed.
Lemma cmul x y a b d1 d2 d : close x a d1 -> close y b d2 -> Rabs a <= 1 -> Rabs b <= 1 -> 0 <= d1 <= / 100 -> 0 <= d2 <= / 100 ->
  2 * (d1 + d2) + e15 <= d -> close (fmul x y) (a * b) d.
Proof.
  intros X Y A B H1 H2 H. assert (M : Rabs (a * b) <= 1). { replace 1 with (1 * 1) by ring. rewrite Rabs_mult. apply Rmult_le_compat; auto using Rabs_pos. }
  assert (d1 * d2 <= / 100 * d2) by (apply Rmult_le_compat_r; lra).
  apply (close_mul _ _ _ _ _ _ 1 1 1 _ X Y A B M); [lra|lra|unfold huge; lra|unfold u, tiny, e15 in *; lra].
Qed.
Lemma bnd_close x r d B : close x r d -> Rabs r <= B -> finite x /\ Rabs (val x) <= B + d.
Proof. intros C H. split; [exact (proj1 C)|exact (close_bound _ _ _ _ C H)]. Qed.
(** Boundedness: close to zero. *)
Lemma bmul x y A B d : close x 0 A -> close y 0 B -> 0 <= A <= 1000 -> 0 <= B <= 1000 -> A * B * (1 + u) + tiny <= d -> close (fmul x y) 0 d.
Proof.
  intros X Y HA HB H. assert (0 <= A * B <= 1000 * 1000) by (split; [apply Rmult_le_pos; lra|apply Rmult_le_compat; lra]).
  replace 0 with (0 * 0) by ring. apply (close_mul _ _ _ _ _ _ 0 0 0 _ X Y); try (rewrite ?Rmult_0_l, Rabs_R0; lra); try lra; unfold huge; lra.
Qed.
Lemma badd x y A B d : close x 0 A -> close y 0 B -> 0 <= A <= 1000 -> 0 <= B <= 1000 -> (A + B) * (1 + u) + tiny <= d -> close (fadd x y) 0 d.
Proof. intros X Y HA HB H. replace 0 with (0 + 0) by ring. apply (close_add _ _ _ _ _ _ 0 _ X Y); [rewrite Rplus_0_l, Rabs_R0; lra|unfold huge; lra|lra]. Qed.
Lemma bsub x y A B d : close x 0 A -> close y 0 B -> 0 <= A <= 1000 -> 0 <= B <= 1000 -> (A + B) * (1 + u) + tiny <= d -> close (fsub x y) 0 d.
Proof. intros X Y HA HB H. replace 0 with (0 - 0) by ring. apply (close_sub _ _ _ _ _ _ 0 _ X Y); [rewrite Rminus_0_r, Rabs_R0; lra|unfold huge; lra|lra]. Qed.
Lemma b_of x r d B D : close x r d -> Rabs r <= B -> B + d <= D -> close x 0 D.
Proof. intros C H L. split; [exact (proj1 C)|]. rewrite Rminus_0_r. pose proof (close_bound _ _ _ _ C H). lra. Qed.

Lemma z0 : close (of_Z 0) 0 0. Proof. exact (close_Z 0 ltac:(lia)). Qed.
Lemma z1 : close (of_Z 1) 1 0. Proof. exact (close_Z 1 ltac:(lia)). Qed.
Lemma a0 : Rabs 0 <= 1. Proof. rewrite Rabs_R0. lra. Qed.
Lemma a1 : Rabs 1 <= 1. Proof. rewrite Rabs_R1. lra. Qed.
Lemma am a b : Rabs a <= 1 -> Rabs b <= 1 -> Rabs (a * b) <= 1.
Proof. intros A B. replace 1 with (1 * 1) by ring. rewrite Rabs_mult. apply Rmult_le_compat; auto using Rabs_pos. Qed.
Lemma atan_le z : Rabs (atan z) <= Rabs z.
Proof.
  assert (P : forall t, 0 <= t -> 0 <= atan t <= t).
  { intros t H. destruct (Req_dec t 0) as [->|N]; [rewrite atan_0; lra|]. assert (0 < t) by lra. assert (0 < atan t) by (rewrite <- atan_0; apply atan_increasing; lra).
    split; [lra|]. destruct (MVT_cor2 atan (fun x => / (1 + x ^ 2)) 0 t) as (c & E & C); [lra|intros c _; exact (derivable_pt_lim_atan c)|].
    rewrite atan_0 in E. assert (/ (1 + c ^ 2) <= 1). { rewrite <- Rinv_1. apply Rinv_le_contravar; [lra|]. pose proof (pow2_ge_0 c). lra. } nra. }
  destruct (Rle_dec 0 z) as [H|H].
  - rewrite !Rabs_pos_eq; try lra; apply P; lra.
  - pose proof (P (- z) ltac:(lra)) as Q. rewrite atan_opp in Q. rewrite !Rabs_left1; lra.
Qed.

(** ** The reference *)
Section Group.
Variable m : f_mog.
Hypothesis RF : referenced m.
Let a := distance_of m.
Lemma a_range : 6361008 <= a <= 56371009.
Proof. destruct RF as [[_ B] _]. pose proof R_bounds. unfold a, distance_of. lra. Qed.
Lemma a_close : close (f_mog_a m) a (/ 100000000).
Proof.
  pose proof a_range as A. unfold f_mog_a, a, distance_of in *. rewrite Rplus_comm in *. destruct RF as [[F B] _].
  apply (close_add _ _ _ _ _ _ 56371009 _ (close_self _ F) radius_close); [rewrite Rabs_pos_eq; lra|unfold huge; lra|unfold u, tiny; lra].
Qed.
Lemma scaled_close k : (k = 2 \/ k = 4)%Z -> close (fmul (of_Z k) (f_mog_a m)) (IZR k * a) (/ 10000000).
Proof.
  intro K. pose proof a_range as A. assert (KB : 2 <= IZR k <= 4) by (destruct K as [-> | ->]; lra).
  apply (close_mul _ _ _ _ 0 (/ 100000000) 4 56371009 225484036 _ (close_Z k ltac:(lia)) a_close); try lra.
  - rewrite Rabs_pos_eq; lra. - rewrite Rabs_pos_eq; lra.
  - rewrite Rabs_pos_eq by (apply Rmult_le_pos; lra). replace 225484036 with (4 * 56371009) by ring. apply Rmult_le_compat; lra.
  - unfold huge. lra. - unfold u, tiny. lra.
Qed.
Lemma nonzero : is_zero (fmul (of_Z 2) (f_mog_a m)) = false.
Proof.
  destruct (scaled_close 2 (or_introl eq_refl)) as [F D]. apply Rabs_le_inv in D. pose proof a_range as A.
  destruct (is_zero _) eqn:E; [|reflexivity]. apply is_zero_val in E; [|exact F]. rewrite E in D. lra.
Qed.
Lemma ratio_close x k Q : (k = 2 \/ k = 4)%Z -> finite x -> 0 < val x -> val x / (IZR k * a) <= Q -> Q <= 4 ->
  close (fdiv x (fmul (of_Z k) (f_mog_a m))) (val x / (IZR k * a)) (4 / 100000000000000) /\ 0 <= val (fdiv x (fmul (of_Z k) (f_mog_a m))).
Proof.
  intros K F P HQ Q4. pose proof a_range as A. assert (KB : 2 <= IZR k <= 4) by (destruct K as [-> | ->]; lra).
  assert (KA : 12722016 <= IZR k * a) by (replace 12722016 with (2 * 6361008) by ring; apply Rmult_le_compat; lra).
  pose proof (scaled_close k K) as C. assert (QP : 0 < val x / (IZR k * a)) by (apply Rdiv_lt_0_compat; lra).
  assert (CD : close (fdiv x (fmul (of_Z k) (f_mog_a m))) (val x / (IZR k * a)) (4 / 100000000000000)).
  { apply (close_div _ _ _ _ 0 (/ 10000000) 12722016 4 (35 / 1000000000000000) _ (close_self x F) C); try lra.
    - rewrite Rabs_pos_eq; lra. - unfold huge. lra. - unfold u, tiny. lra. }
  split; [exact CD|]. destruct C as [FC D]. apply Rabs_le_inv in D. destruct (fdiv_fin x _ F FC) as [_ V]; [lra| |].
  - apply huge_ok. apply Rle_trans with (val x). 2:{ assert (val x <= 4 * (IZR k * a)) by (apply Rmult_le_reg_r with (/ (IZR k * a)); [apply Rinv_0_lt_compat; lra|]; replace (4 * (IZR k * a) * / (IZR k * a)) with 4 by (field; lra); unfold Rdiv in HQ; lra). assert (IZR k * a <= 4 * 56371009) by (apply Rmult_le_compat; lra). unfold huge. lra. }
    rewrite Rabs_pos_eq by (apply Rlt_le, Rdiv_lt_0_compat; lra). apply Rmult_le_reg_r with (val (fmul (of_Z k) (f_mog_a m))); [lra|].
    replace (val x / val (fmul (of_Z k) (f_mog_a m)) * val (fmul (of_Z k) (f_mog_a m))) with (val x) by (field; lra). nra.
  - rewrite V. apply rnd_nonneg. apply Rlt_le, Rdiv_lt_0_compat; lra.
Qed.
Lemma e_close Q : val (fm_parallel m) <= 4 * Q * a -> Q <= 4 -> close (f_mog_e m) (val (fm_parallel m) / (4 * a)) (4 / 100000000000000) /\ 0 <= val (f_mog_e m)
  /\ val (fm_parallel m) / (4 * a) <= Q.
Proof.
  intros H Q4. pose proof a_range as A. destruct RF as (_ & _ & _ & _ & _ & F & P & _).
  assert (L : val (fm_parallel m) / (4 * a) <= Q) by (apply Rmult_le_reg_r with (4 * a); [lra|]; replace (val (fm_parallel m) / (4 * a) * (4 * a)) with (val (fm_parallel m)) by (field; lra); lra).
  destruct (ratio_close _ 4 Q (or_intror eq_refl) F P L Q4) as [C S]. auto.
Qed.
Lemma e_elliptic : elliptic m -> finite (f_mog_e m) /\ 0 <= val (f_mog_e m) <= 1 - / 1048576.
Proof.
  intro E. destruct (e_close (1 - / 524288) E ltac:(lra)) as ([F D] & S & L). apply Rabs_le_inv in D. split; [exact F|]. lra.
Qed.

(** ** Termination *)
Section Libm.
Variables (f_sin f_cos f_acos : b64 -> b64) (f_atan2 : b64 -> b64 -> b64) (f_dot : fv3 -> fv3 -> b64).
Hypothesis SIN : computes (fun x => Rabs x <= 1048576) sin f_sin.
Hypothesis AT : accurate_atan2 f_atan2.
Lemma nan_loop fuel n e : n = B754_nan -> (2 <= fuel)%nat -> f_kepler_loop f_sin fuel n e (of_Z 0) f_guess = Some B754_nan.
Proof.
  intros -> H. destruct fuel as [|[|fuel]]; [lia|lia|]. cbn [f_kepler_loop].
  replace (Bltb f_tolerance (Babs (fsub f_guess (of_Z 0)))) with true by (vm_compute; reflexivity). cbn. reflexivity.
Qed.
Lemma orbit_ends theta : elliptic m -> exists r, forall fuel, 24 <= (INR fuel - 2) * (1 - val (f_mog_e m)) ->
  f_mog_orbit f_sin f_cos f_acos f_atan2 f_dot fuel m theta = Some r.
Proof.
  intro E. destruct (e_elliptic E) as [Fe Be]. unfold f_mog_orbit. set (n := f_mog_n f_sin f_cos f_atan2 f_dot m theta).
  destruct (proj1 AT (fmul (f_mog_s m) (f_dot (f_mog_t f_sin f_cos m theta) f_ax))
              (fmul (f_mog_s m) (f_dot (f_mog_t f_sin f_cos m theta) (fv_cross (f_mog_l0 f_sin f_cos m) f_ax)))) as [N|[F B]].
  - eexists. intros fuel H. rewrite (nan_loop fuel n _ N); [reflexivity|].
    apply INR_le. cbn. destruct (Rle_dec 2 (INR fuel)) as [L|L]; [exact L|]. exfalso. nra.
  - fold (f_mog_n f_sin f_cos f_atan2 f_dot m theta) in F, B. fold n in F, B. pose proof pi_tight as P.
    destruct (loop_ends f_sin SIN n (f_mog_e m) F Fe ltac:(lra) ltac:(lra) ltac:(lra)) as (psi & _ & _ & H & _).
    eexists. intros fuel K. rewrite (H fuel K). reflexivity.
Qed.
Lemma orbits_end ks : elliptic m -> exists r, forall fuel, 24 <= (INR fuel - 2) * (1 - val (f_mog_e m)) ->
  f_mog_orbits f_sin f_cos f_acos f_atan2 f_dot fuel m ks = Some r.
Proof.
  intro E. induction ks as [|k ks [r H]]; [exists (Ok []); reflexivity|]. destruct (orbit_ends (f_mog_theta m k) E) as [q Hq].
  destruct q as [o|x]; [|exists (Raise x); intros fuel K; cbn [f_mog_orbits]; rewrite (Hq fuel K); reflexivity].
  destruct r as [os|x]; [exists (Ok (o :: os))|exists (Raise x)]; intros fuel K; cbn [f_mog_orbits]; rewrite (Hq fuel K), (H fuel K); reflexivity.
Qed.
Lemma members_end : elliptic m -> exists r, forall fuel, 24 <= (INR fuel - 2) * (1 - val (f_mog_e m)) ->
  f_mog_members f_sin f_cos f_acos f_atan2 f_dot fuel m = Some r.
Proof. intro E. destruct (orbits_end (seq 0 (fm_number m)) E) as [r H]. exists r. intros fuel K. unfold f_mog_members. rewrite nonzero. auto. Qed.
End Libm.
End Group.
