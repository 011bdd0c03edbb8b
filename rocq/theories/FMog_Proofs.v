(** The Kepler loop in binary64. *)
From Coq Require Import ZArith Reals Lra Lia Bool List.
From Flocq Require Import Core Relative IEEE754.BinarySingleNaN.
From Verif Require Import Base RBase RFacts Float_Model Float_Spec Float_Proofs FGrid_Model FTime_Model FTime_Proofs AnomalyRound_Proofs Mog_Proofs
  FGeom_Model FGeom_Spec FGeom_Proofs FGeom_Proofs2 FMog_Model FMog_Spec.
Import ListNotations.
Open Scope R_scope.

Lemma tolerance_val : finite f_tolerance /\ Rabs (val f_tolerance - / 1000000) <= / 10000000000000000000000.
Proof.
  destruct (f_lit_val 4722366482869645 (-72) ltac:(lia) ltac:(lia)) as [F V]. split; [exact F|]. unfold f_tolerance. rewrite V. cbn. apply Rabs_le. lra.
Qed.
Lemma guess_val : finite f_guess /\ Rabs (val f_guess - / 10) <= / 10000000000000000.
Proof.
  destruct (f_lit_val 7205759403792794 (-56) ltac:(lia) ltac:(lia)) as [F V]. split; [exact F|]. unfold f_guess. rewrite V. cbn. apply Rabs_le. lra.
Qed.
Lemma Bltb_fin x y : finite x -> finite y -> Bltb x y = Rlt_bool (val x) (val y).
Proof. intros Fx Fy. apply Bltb_correct; assumption. Qed.
Lemma Bleb_fin x y : finite x -> finite y -> Bleb x y = Rle_bool (val x) (val y).
Proof. intros Fx Fy. apply Bleb_correct; assumption. Qed.

Definition eta := 3 / 1000000000000000.
(** What the test of the loop decides. *)
Lemma test_val a b : finite a -> finite b -> Rabs (val a) <= 10 -> Rabs (val b) <= 10 ->
  exists d, Rabs (d - Rabs (val b - val a)) <= eta /\ Bltb f_tolerance (Babs (fsub b a)) = Rlt_bool (val f_tolerance) d.
Proof.
  intros Fa Fb A B. assert (C : close (fsub b a) (val b - val a) eta).
  { apply (close_sub _ _ _ _ _ _ 20 _ (close_self b Fb) (close_self a Fa)).
    - unfold Rminus. eapply Rle_trans; [apply Rabs_triang|]. rewrite Rabs_Ropp. lra.
    - unfold huge. lra.
    - unfold u, tiny, eta. lra. }
  destruct C as [F D]. exists (Rabs (val (fsub b a))). split.
  - eapply Rle_trans; [apply Rabs_triang_inv2|exact D].
  - rewrite Bltb_fin; [|exact (proj1 tolerance_val)|unfold finite; rewrite is_finite_Babs; exact F]. f_equal. apply B2R_Babs.
Qed.

Section Loop.
Variable f_sin : b64 -> b64.
Hypothesis SIN : computes (fun x => Rabs x <= 1048576) sin f_sin.
Variables n e : b64.
Hypothesis (Fn : finite n) (Fe : finite e) (Bn : Rabs (val n) <= 4) (Be : 0 <= val e <= 2).
Let step (x : b64) : b64 := fadd n (fmul e (f_sin x)).
Let loop := f_kepler_loop f_sin.

Lemma step_close x : finite x -> Rabs (val x) <= 10 -> close (step x) (val n + val e * sin (val x)) eta /\ Rabs (val (step x)) <= 6 + eta.
Proof.
  intros F B. destruct (SIN x F ltac:(lra)) as [FS DS]. pose proof (sin_abs1 (val x)) as S1.
  assert (E : Rabs (val e) <= 2) by (rewrite Rabs_pos_eq; lra).
  assert (M1 : Rabs (val e * sin (val x)) <= 2). { replace 2 with (2 * 1) by ring. rewrite Rabs_mult. apply Rmult_le_compat; auto using Rabs_pos. }
  assert (C1 : close (fmul e (f_sin x)) (val e * sin (val x)) (22 / 10000000000000000)).
  { apply (close_mul _ _ _ _ 0 (9 / 10000000000000000) 2 1 2 _ (close_self e Fe)); try lra.
    - split; [exact FS|]. pose proof eps_ok. lra.
    - unfold huge. lra.
    - unfold u, tiny. lra. }
  assert (M2 : Rabs (val n + val e * sin (val x)) <= 6) by (eapply Rle_trans; [apply Rabs_triang|]; lra).
  assert (C2 : close (step x) (val n + val e * sin (val x)) eta).
  { apply (close_add _ _ _ _ _ _ 6 _ (close_self n Fn) C1 M2); [unfold huge; lra|unfold u, tiny, eta; lra]. }
  split; [exact C2|]. pose proof (close_bound _ _ _ _ C2 M2). lra.
Qed.
Lemma loop_more fuel a b r : loop fuel n e a b = Some r -> loop (S fuel) n e a b = Some r.
Proof.
  unfold loop. revert a b. induction fuel as [|f IH]; intros a b H; [discriminate|]. cbn [f_kepler_loop] in H |- *.
  destruct (Bltb f_tolerance (Babs (fsub b a))); [|exact H]. apply IH, H.
Qed.
Lemma loop_mono f f' a b r : (f <= f')%nat -> loop f n e a b = Some r -> loop f' n e a b = Some r.
Proof. induction 1; auto using loop_more. Qed.

(** Termination: the distances between successive values shrink to the level of the rounding errors. *)
Let G := 2 * eta / (1 - val e).
Lemma loop_from k : val e <= 1 - / 1048576 -> forall a X, finite a -> Rabs (val a) <= 10 -> 0 <= X -> Rabs (val (step a) - val a) <= X + G ->
  X * val e ^ k <= 9 / 10000000 -> exists r, loop (S k) n e a (step a) = Some r.
Proof.
  intro E. assert (GV : 0 <= G <= 2 * eta * 1048576).
  { unfold G, eta. split.
    - apply Rmult_le_reg_r with (1 - val e); [lra|]. unfold Rdiv. rewrite Rmult_assoc, Rinv_l by lra. lra.
    - apply Rmult_le_reg_r with (1 - val e); [lra|]. unfold Rdiv. rewrite Rmult_assoc, Rinv_l by lra. nra. }
  assert (GE : val e * G + 2 * eta = G) by (unfold G; field; lra).
  pose proof tolerance_val as [TF TV]. apply Rabs_le_inv in TV.
  induction k as [|k IH]; intros a X Fa Ba PX D HX; unfold loop; cbn [f_kepler_loop]; destruct (step_close a Fa Ba) as [[Fb Cb] Bb];
    destruct (test_val a (step a) Fa Fb Ba ltac:(unfold eta in *; lra)) as (d & Dd & ->); apply Rabs_le_inv in Dd.
  - rewrite Rlt_bool_false; [eauto|]. cbn [pow] in HX. unfold eta in *. lra.
  - destruct (Rlt_bool_spec (val f_tolerance) d) as [L|L]; [|eauto].
    destruct (step_close (step a) Fb ltac:(unfold eta in *; lra)) as [[Fc Cc] Bc].
    destruct (IH (step a) (val e * X) Fb ltac:(unfold eta in *; lra)) as [r Hr].
    + apply Rmult_le_pos; lra.
    + replace (val (step (step a)) - val (step a)) with ((val (step (step a)) - (val n + val e * sin (val (step a))))
        + val e * (sin (val (step a)) - sin (val a)) - (val (step a) - (val n + val e * sin (val a)))) by ring.
      unfold Rminus at 1. eapply Rle_trans; [apply Rabs_triang|]. rewrite Rabs_Ropp.
      assert (Rabs (val e * (sin (val (step a)) - sin (val a))) <= val e * (X + G)).
      { rewrite Rabs_mult, (Rabs_pos_eq (val e)) by lra. apply Rmult_le_compat_l; [lra|]. eapply Rle_trans; [apply sin_lip|exact D]. }
      assert (T := Rabs_triang (val (step (step a)) - (val n + val e * sin (val (step a)))) (val e * (sin (val (step a)) - sin (val a)))). unfold eta in *. lra.
    + cbn [pow] in HX. rewrite Rmult_assoc in *. rewrite (Rmult_comm (val e)), Rmult_assoc, (Rmult_comm _ (val e)). exact HX.
    + exists r. exact Hr.
Qed.
(** What a finished loop returns. *)
Lemma loop_post fuel : forall a r, finite a -> Rabs (val a) <= 10 -> loop fuel n e a (step a) = Some r ->
  finite r /\ Rabs (val r) <= 7 /\ Rabs (val r - (val n + val e * sin (val r))) <= val e * / 1000000 + 1 / 100000000000000.
Proof.
  pose proof tolerance_val as [TF TV]. apply Rabs_le_inv in TV.
  induction fuel as [|f IH]; intros a r Fa Ba H; unfold loop in H; [discriminate|]. cbn [f_kepler_loop] in H.
  destruct (step_close a Fa Ba) as [[Fb Cb] Bb]. destruct (test_val a (step a) Fa Fb Ba ltac:(unfold eta in *; lra)) as (d & Dd & T).
  fold (step a) in H. rewrite T in H. destruct (Rlt_bool_spec (val f_tolerance) d) as [L|L].
  - fold (step (step a)) in H. exact (IH (step a) r Fb ltac:(unfold eta in *; lra) H).
  - injection H as <-. split; [exact Fb|]. split; [unfold eta in *; lra|]. apply Rabs_le_inv in Dd.
    replace (val (step a) - (val n + val e * sin (val (step a)))) with ((val (step a) - (val n + val e * sin (val a))) - val e * (sin (val (step a)) - sin (val a))) by ring.
    unfold Rminus at 1. eapply Rle_trans; [apply Rabs_triang|]. rewrite Rabs_Ropp, Rabs_mult, (Rabs_pos_eq (val e)) by lra.
    pose proof (sin_lip (val a) (val (step a))) as SL. unfold eta in *.
    assert (val e * Rabs (sin (val (step a)) - sin (val a)) <= val e * (/ 1000000 + 31 / 10000000000000000)) by (apply Rmult_le_compat_l; lra). lra.
Qed.
Lemma loop_start fuel : loop (S fuel) n e (of_Z 0) f_guess = loop fuel n e f_guess (step f_guess).
Proof.
  unfold loop at 1. cbn [f_kepler_loop]. pose proof tolerance_val as [TF TV]. apply Rabs_le_inv in TV. pose proof guess_val as [GF GV]. apply Rabs_le_inv in GV.
  destruct f0 as [F0 V0]. destruct (test_val (of_Z 0) f_guess F0 GF) as (d & Dd & ->).
  - rewrite V0, Rabs_R0. lra.
  - apply Rabs_le. lra.
  - rewrite V0, Rminus_0_r, (Rabs_pos_eq (val f_guess)) in Dd by lra. apply Rabs_le_inv in Dd. unfold eta in Dd. rewrite Rlt_bool_true by lra. reflexivity.
Qed.
Lemma exp_24 : exp (-24) <= / 16777216.
Proof.
  replace (-24) with (- INR 24) by (cbn; lra). rewrite exp_Ropp. apply Rinv_le_contravar; [lra|].
  assert (E : forall k, exp (INR k) = exp 1 ^ k). { induction k as [|k IHk]; [cbn; apply exp_0|]. rewrite S_INR, exp_plus, IHk. cbn [pow]. ring. }
  rewrite E. pose proof (exp_ineq1 1 ltac:(lra)). apply Rle_trans with (2 ^ 24); [cbn; lra|]. apply pow_incr. lra.
Qed.
Lemma pow_exp k : val e <= 1 -> 24 <= INR k * (1 - val e) -> val e ^ k <= / 16777216.
Proof.
  intros H K. apply Rle_trans with (exp (-24)); [|exact exp_24].
  apply Rle_trans with (exp (- (1 - val e)) ^ k).
  - apply pow_incr. split; [lra|]. pose proof (exp_ineq1_le (- (1 - val e))). lra.
  - assert (E : forall j x, exp x ^ j = exp (INR j * x)). { induction j as [|j IHj]; intro x; [cbn [pow INR]; rewrite Rmult_0_l, exp_0; reflexivity|]. rewrite S_INR. cbn [pow]. rewrite IHj, <- exp_plus. f_equal. ring. }
    rewrite E. replace (INR k * - (1 - val e)) with (- (INR k * (1 - val e))) by ring. destruct (Rle_lt_or_eq_dec _ _ K) as [L|<-]; [apply Rlt_le, exp_increasing; lra|right; reflexivity].
Qed.
Lemma loop_ends : val e <= 1 - / 1048576 -> exists psi, finite psi /\ Rabs (val psi) <= 7
  /\ (forall fuel, 24 <= (INR fuel - 2) * (1 - val e) -> loop fuel n e (of_Z 0) f_guess = Some psi)
  /\ Rabs (val psi - (val n + val e * sin (val psi))) <= val e * / 1000000 + 1 / 100000000000000.
Proof.
  intro E. pose proof guess_val as [GF GV]. apply Rabs_le_inv in GV. assert (GB : Rabs (val f_guess) <= 10) by (apply Rabs_le; lra).
  assert (R : forall fuel, 24 <= (INR fuel - 2) * (1 - val e) -> exists psi, loop fuel n e (of_Z 0) f_guess = Some psi).
  { intros fuel H. destruct fuel as [|[|k]]; [cbn in H; nra|cbn in H; nra|]. rewrite loop_start.
    assert (K : 24 <= INR k * (1 - val e)) by (rewrite !S_INR in H; replace (INR k) with (INR k + 1 + 1 - 2) by ring; exact H).
    apply (loop_from k E f_guess 7 GF GB); [lra| |].
    - destruct (step_close f_guess GF GB) as [_ B]. unfold Rminus. eapply Rle_trans; [apply Rabs_triang|]. rewrite Rabs_Ropp.
      assert (Rabs (val f_guess) <= 2 / 10) by (apply Rabs_le; lra). assert (0 <= G).
      { unfold G, eta. apply Rmult_le_reg_r with (1 - val e); [lra|]. unfold Rdiv. rewrite Rmult_assoc, Rinv_l by lra. lra. } unfold eta in B. lra.
    - pose proof (pow_exp k ltac:(lra) K). lra. }
  destruct (archimed (24 / (1 - val e))) as [A _].
  assert (P : 0 < 24 / (1 - val e)) by (apply Rdiv_lt_0_compat; lra).
  assert (UP : (0 <= up (24 / (1 - val e)))%Z) by (apply le_IZR; lra).
  set (k0 := S (S (Z.to_nat (up (24 / (1 - val e)))))).
  assert (K0 : 24 <= (INR k0 - 2) * (1 - val e)).
  { unfold k0. rewrite !S_INR, INR_IZR_INZ, Z2Nat.id by exact UP. replace 24 with (24 / (1 - val e) * (1 - val e)) at 1 by (field; lra). apply Rmult_le_compat_r; lra. }
  destruct (R k0 K0) as [psi H]. exists psi.
  assert (H' := H). unfold k0 in H'. rewrite loop_start in H'. destruct (loop_post _ f_guess psi GF GB H') as (F & B & Q). split; [exact F|]. split; [exact B|]. split; [|exact Q].
  intros fuel Hf. destruct (R fuel Hf) as [r Hr]. destruct (Nat.le_ge_cases fuel k0) as [L|L].
  - pose proof (loop_mono _ _ _ _ _ L Hr) as M. rewrite Hr. exact (eq_trans (eq_sym M) H).
  - exact (loop_mono _ _ _ _ _ L H).
Qed.
Lemma kepler_unique r x d : 0 <= val e < 1 -> Rabs (r - (val n + val e * sin r)) <= d -> solves_kepler (val n) (val e) x -> Rabs (r - x) <= d / (1 - val e).
Proof.
  intros E D S. unfold solves_kepler in S. apply Rmult_le_reg_r with (1 - val e); [lra|]. replace (d / (1 - val e) * (1 - val e)) with d by (field; lra).
  assert (T : Rabs (r - x) <= d + val e * Rabs (r - x)).
  { replace (r - x) with ((r - (val n + val e * sin r)) + val e * (sin r - sin x)) at 1 by lra. eapply Rle_trans; [apply Rabs_triang|].
    apply Rplus_le_compat; [exact D|]. rewrite Rabs_mult, (Rabs_pos_eq (val e)) by lra. apply Rmult_le_compat_l; [lra|]. apply sin_lip. }
  lra.
Qed.

(** Near a quarter turn the loop alternates for ever between a quarter and half a turn. *)
Hypothesis (Nn : Rabs (val n - PI / 2) <= / 1000) (Ne : Rabs (val e - PI / 2) <= / 1000).
Definition low (x : b64) := finite x /\ 1.45 <= val x <= 1.75.
Definition high (x : b64) := finite x /\ 3.08 <= val x <= 3.16.
Lemma cos_near d : Rabs d <= 0.2 -> 0.98 <= cos d <= 1.
Proof. intro H. pose proof (cos_ge_quad d). pose proof (COS_bound d). assert (d * d <= 0.2 * 0.2) by (pose proof (sq_abs_le d 0.2) as Q; rewrite (Rabs_pos_eq 0.2) in Q by lra; auto). lra. Qed.
Lemma low_high x : low x -> high (step x).
Proof.
  intros [F B]. destruct (step_close x F ltac:(apply Rabs_le; lra)) as [[Fs C] _]. split; [exact Fs|]. pose proof pi_tight as P.
  apply Rabs_le_inv in C. apply Rabs_le_inv in Nn. apply Rabs_le_inv in Ne. unfold eta in C.
  assert (S : sin (val x) = cos (val x - PI / 2)) by (rewrite (cos_sin (val x - PI / 2)); f_equal; ring).
  pose proof (cos_near (val x - PI / 2) ltac:(apply Rabs_le; lra)). rewrite S in C.
  assert (1.569 * 0.98 <= val e * cos (val x - PI / 2) <= 1.572 * 1) by (split; apply Rmult_le_compat; lra). lra.
Qed.
Lemma high_low x : high x -> low (step x).
Proof.
  intros [F B]. destruct (step_close x F ltac:(apply Rabs_le; lra)) as [[Fs C] _]. split; [exact Fs|]. pose proof pi_tight as P.
  apply Rabs_le_inv in C. apply Rabs_le_inv in Nn. apply Rabs_le_inv in Ne. unfold eta in C.
  assert (S : sin (val x) = sin (PI - val x)) by (symmetry; apply sin_PI_x).
  pose proof (sin_abs (PI - val x)) as SA. assert (Rabs (PI - val x) <= 0.0616) by (apply Rabs_le; lra).
  assert (Rabs (val e * sin (val x)) <= 1.572 * 0.0616). { rewrite Rabs_mult, S. apply Rmult_le_compat; auto using Rabs_pos; [rewrite Rabs_pos_eq; lra|lra]. }
  apply Rabs_le_inv in H0. lra.
Qed.
Lemma alternates fuel : forall x y, (low x /\ high y) \/ (high x /\ low y) -> loop fuel n e x y = None.
Proof.
  pose proof tolerance_val as [TF TV]. apply Rabs_le_inv in TV. unfold loop.
  induction fuel as [|f IH]; intros x y H; [reflexivity|]. cbn [f_kepler_loop].
  assert (X : finite x /\ finite y /\ Rabs (val x) <= 10 /\ Rabs (val y) <= 10 /\ 1 <= Rabs (val y - val x)).
  { unfold low, high in H. destruct H as [[[Fx A] [Fy B]]|[[Fx A] [Fy B]]]; repeat split; auto; try (apply Rabs_le; lra).
    - rewrite Rabs_pos_eq; lra. - rewrite Rabs_left; lra. }
  destruct X as (Fx & Fy & Bx & By & D). destruct (test_val x y Fx Fy Bx By) as (d & Dd & ->). apply Rabs_le_inv in Dd. unfold eta in Dd.
  rewrite Rlt_bool_true by lra. apply IH. fold (step y). destruct H as [[_ H]|[_ H]]; [right|left]; split; auto using low_high, high_low.
Qed.
Lemma loop_endless fuel : loop fuel n e (of_Z 0) f_guess = None.
Proof.
  destruct fuel as [|fuel]; [reflexivity|]. rewrite loop_start. pose proof guess_val as [GF GV]. apply Rabs_le_inv in GV.
  destruct (step_close f_guess GF ltac:(apply Rabs_le; lra)) as [[Fs C] _].
  assert (L : low (step f_guess)).
  { split; [exact Fs|]. pose proof pi_tight as P. apply Rabs_le_inv in C. apply Rabs_le_inv in Nn. apply Rabs_le_inv in Ne. unfold eta in C.
    assert (0 <= sin (val f_guess)) by (apply sin_ge_0; lra). pose proof (sin_le_x (val f_guess) ltac:(lra)).
    assert (1.569 * 0 <= val e * sin (val f_guess) <= 1.572 * 0.1001) by (split; apply Rmult_le_compat; lra). lra. }
  destruct fuel as [|fuel]; [reflexivity|]. unfold loop. cbn [f_kepler_loop].
  pose proof tolerance_val as [TF TV]. apply Rabs_le_inv in TV. destruct L as [Fl BL].
  destruct (test_val f_guess (step f_guess) GF Fl ltac:(apply Rabs_le; lra) ltac:(apply Rabs_le; lra)) as (d & Dd & ->).
  rewrite (Rabs_pos_eq (val (step f_guess) - val f_guess)) in Dd by lra. apply Rabs_le_inv in Dd. unfold eta in Dd. rewrite Rlt_bool_true by lra.
  apply alternates. left. split; [split; assumption|]. apply low_high. split; assumption.
Qed.
End Loop.
