(** Directions of the members of mutual orbiting groups in binary64. *)
From Coq Require Import ZArith Reals Lra Lia Bool List.
From Flocq Require Import Core Relative IEEE754.BinarySingleNaN.
From Verif Require Import Base RBase RFacts Float_Model Float_Spec Float_Proofs FGrid_Model FTime_Model FTime_Proofs AnomalyRound_Proofs Mog_Proofs
  FGeom_Model FGeom_Spec FGeom_Proofs FGeom_Proofs2 FMog_Model FMog_Spec FMog_Proofs FMog_Proofs2.
Import ListNotations.
Open Scope R_scope.

Section Group.
Variable m : f_mog.
Hypothesis RF : referenced m.
Variables (f_sin f_cos f_asin f_acos : b64 -> b64) (f_atan2 : b64 -> b64 -> b64) (f_dot : fv3 -> fv3 -> b64).
Hypothesis LM : accurate_libm f_sin f_cos f_asin f_acos.
Hypothesis AT : accurate_atan2 f_atan2.
Hypothesis DOT : accurate_dot f_dot.
Hypothesis TI : tilted m.
Let i0 := val (fm_inclination m) * (PI / 180).
Let dl := tilt_of m.
Let D0 := 5 / 100000000000000.

Lemma sin_of_close x r d : close x r d -> Rabs r <= 1000000 -> 0 <= d <= 1 -> close (f_sin x) (sin r) (d + 9 / 10000000000000000).
Proof.
  intros C HR HD. pose proof (close_bound _ _ _ _ C HR) as HV. destruct C as [F D]. destruct LM as [HC _].
  destruct (HC _ F ltac:(lra)) as [FC DC]. split; [exact FC|].
  replace (val (f_sin x) - sin r) with ((val (f_sin x) - sin (val x)) + (sin (val x) - sin r)) by ring.
  eapply Rle_trans; [apply Rabs_triang|]. pose proof (sin_lip r (val x)). pose proof eps_ok. lra.
Qed.
Lemma trig_close x r d : close x r d -> Rabs r <= 1000000 -> 0 <= d <= 4 / 100000000000000 -> close (f_sin x) (sin r) D0 /\ close (f_cos x) (cos r) D0.
Proof.
  intros C HR HD. split; [apply (close_weak _ _ _ _ (sin_of_close _ _ _ C HR ltac:(lra)))|apply (close_weak _ _ _ _ (cos_of_close _ _ _ _ LM _ _ _ C HR ltac:(lra)))]; unfold D0; lra.
Qed.
Lemma i0_range : 0 <= i0 <= 3.15.
Proof. destruct RF as (_ & _ & B & _). pose proof pi_tight. unfold i0. nra. Qed.
Lemma inc_close : close (f_sin (f_radians (fm_inclination m))) (sin i0) D0 /\ close (f_cos (f_radians (fm_inclination m))) (cos i0) D0.
Proof.
  pose proof i0_range as I. destruct RF as (_ & F & B & _).
  assert (A : angle 0 180 (fm_inclination m)) by (split; [exact F|lra]).
  pose proof (radians_close _ _ _ A ltac:(lra) ltac:(lra)) as C. apply (trig_close _ _ _ C); [unfold radians; fold i0; rewrite Rabs_pos_eq; lra|lra].
Qed.
Lemma delta_close : close (f_mog_delta m) dl (4 / 100000000000000).
Proof.
  destruct RF as (_ & _ & _ & _ & _ & _ & _ & F & P & _). pose proof TI as [L U]. unfold dl, tilt_of in *. unfold f_mog_delta.
  exact (proj1 (ratio_close m RF _ 2 3 (or_introl eq_refl) F P U ltac:(lra))).
Qed.
Lemma tilt_close : close (f_sin (f_mog_delta m)) (sin dl) D0 /\ close (f_cos (f_mog_delta m)) (cos dl) D0.
Proof. pose proof TI as [L U]. fold dl in L, U. apply (trig_close _ _ _ delta_close); [rewrite Rabs_pos_eq; lra|lra]. Qed.
Lemma sin_tilt : / 250000 <= sin dl <= 1.
Proof.
  pose proof TI as [L U]. fold dl in L, U. pose proof pi_tight as P. split; [|apply SIN_bound]. destruct (Rle_dec dl (PI / 2)) as [H|H].
  - pose proof (sin_half dl ltac:(lra)). lra.
  - rewrite <- sin_PI_x. pose proof (sin_half (PI - dl) ltac:(lra)). lra.
Qed.

(** l_0 and its cross product with the first axis. *)
Let l0 := f_mog_l0 f_sin f_cos m.
Let c0 := fv_cross l0 f_ax.
Let D1 := 3 / 10000000000000.
Definition vclose (v : fv3) (x y z d : R) : Prop := close (f_x v) x d /\ close (f_y v) y d /\ close (f_z v) z d.
Lemma l0_close : vclose l0 0 (- sin i0) (cos i0) D1.
Proof.
  destruct inc_close as [S C]. unfold l0, f_mog_l0, fv_sub, fv_scale, f_ay, f_az. cbn [f_x f_y f_z].
  pose proof (sin_abs1 i0) as As. pose proof (cos_abs1 i0) as Ac. pose proof a0 as A0. pose proof a1 as A1.
  assert (H : forall w v k k', close w k 0 -> close v k' 0 -> Rabs k <= 1 -> Rabs k' <= 1 ->
    close (fsub (fmul (f_cos (f_radians (fm_inclination m))) w) (fmul (f_sin (f_radians (fm_inclination m))) v)) (cos i0 * k - sin i0 * k') D1).
  { intros w v k k' W V K K'.
    apply (csub _ _ _ _ (2 * D0 + e15) (2 * D0 + e15)).
    - apply (cmul _ _ _ _ D0 0); auto; unfold D0, e15; lra.
    - apply (cmul _ _ _ _ D0 0); auto; unfold D0, e15; lra.
    - pose proof (am _ _ Ac K). pose proof (am _ _ As K'). unfold Rminus. eapply Rle_trans; [apply Rabs_triang|]. rewrite Rabs_Ropp. lra.
    - unfold D0, e15. lra. - unfold D0, e15. lra. - unfold D0, D1, e15. lra. }
  split; [|split].
  - replace 0 with (cos i0 * 0 - sin i0 * 0) at 1 by ring. apply (H _ _ 0 0); auto using z0.
  - replace (- sin i0) with (cos i0 * 0 - sin i0 * 1) by ring. apply (H _ _ 0 1); auto using z0, z1.
  - replace (cos i0) with (cos i0 * 1 - sin i0 * 0) by ring. apply (H _ _ 1 0); auto using z0, z1.
Qed.
(** A difference of two products of numbers in [-1, 1]. *)
Lemma det_close p q r s a b c d dp dq E : close p a dp -> close q b dq -> close r c dp -> close s d dq ->
  Rabs a <= 1 -> Rabs b <= 1 -> Rabs c <= 1 -> Rabs d <= 1 -> 0 <= dp <= / 100 -> 0 <= dq <= / 100 -> 4 * (dp + dq) + 3 * e15 <= E ->
  close (fsub (fmul p q) (fmul r s)) (a * b - c * d) E.
Proof.
  intros P Q R' S A B C D Hp Hq H.
  apply (csub _ _ _ _ (2 * (dp + dq) + e15) (2 * (dp + dq) + e15)).
  - apply (cmul _ _ _ _ dp dq); auto; lra.
  - apply (cmul _ _ _ _ dp dq); auto; lra.
  - pose proof (am _ _ A B). pose proof (am _ _ C D). unfold Rminus. eapply Rle_trans; [apply Rabs_triang|]. rewrite Rabs_Ropp. lra.
  - unfold e15 in *. lra. - unfold e15 in *. lra. - unfold e15 in *. lra.
Qed.
Let D2 := 2 / 1000000000000.
Lemma c0_close : vclose c0 0 (cos i0) (sin i0) D2.
Proof.
  destruct l0_close as (X & Y & Z). unfold c0, fv_cross, f_ax. cbn [f_x f_y f_z].
  pose proof (sin_abs1 i0) as As. pose proof (cos_abs1 i0) as Ac. pose proof a0 as A0. pose proof a1 as A1. assert (As' : Rabs (- sin i0) <= 1) by (rewrite Rabs_Ropp; exact As).
  split; [|split].
  - replace 0 with (- sin i0 * 0 - cos i0 * 0) at 1 by ring. apply (det_close _ _ _ _ _ _ _ _ D1 0); auto using z0; unfold D1, D2, e15; lra.
  - replace (cos i0) with (cos i0 * 1 - 0 * 0) by ring. apply (det_close _ _ _ _ _ _ _ _ D1 0); auto using z0, z1; unfold D1, D2, e15; lra.
  - replace (sin i0) with (0 * 0 - - sin i0 * 1) by ring. apply (det_close _ _ _ _ _ _ _ _ D1 0); auto using z0, z1; unfold D1, D2, e15; lra.
Qed.

Section Position.
Variables (theta : b64) (th : R).
Hypothesis TH : close theta th (4 / 100000000000000).
Hypothesis THB : Rabs th <= 1000.
Let l := f_mog_l f_sin f_cos m theta.
Let lx := sin dl * sin th.
Let ly := sin dl * cos th * cos i0 - cos dl * sin i0.
Let lz := cos dl * cos i0 + sin dl * cos th * sin i0.
Let D3 := 6 / 1000000000000.
Lemma l_unit : lx * lx + ly * ly + lz * lz = 1.
Proof.
  unfold lx, ly, lz. pose proof (sin2_cos2 i0) as Q. pose proof (sin2_cos2 th) as Q2. pose proof (sin2_cos2 dl) as Q3. unfold Rsqr in Q, Q2, Q3.
  replace (sin dl * sin th * (sin dl * sin th) + (sin dl * cos th * cos i0 - cos dl * sin i0) * (sin dl * cos th * cos i0 - cos dl * sin i0)
     + (cos dl * cos i0 + sin dl * cos th * sin i0) * (cos dl * cos i0 + sin dl * cos th * sin i0))
    with (sin dl * sin dl * (sin th * sin th + cos th * cos th * (sin i0 * sin i0 + cos i0 * cos i0)) + cos dl * cos dl * (sin i0 * sin i0 + cos i0 * cos i0)) by ring.
  rewrite Q, Rmult_1_r, Q2. lra.
Qed.
Lemma sq1 x y z : x * x + y * y + z * z = 1 -> Rabs x <= 1.
Proof. intro H. apply Rabs_le. nra. Qed.
Lemma l_abs : Rabs lx <= 1 /\ Rabs ly <= 1 /\ Rabs lz <= 1.
Proof.
  pose proof l_unit as H. split; [exact (sq1 _ _ _ H)|]. split.
  - apply (sq1 ly lx lz). lra. - apply (sq1 lz lx ly). lra.
Qed.
Lemma th_close : close (f_sin theta) (sin th) D0 /\ close (f_cos theta) (cos th) D0.
Proof. apply (trig_close _ _ _ TH); lra. Qed.
Lemma combo_close p q r a b c : close p a D1 -> close q b D2 -> close r c 0 -> Rabs a <= 1 -> Rabs b <= 1 -> Rabs c <= 1 ->
  close (fadd (fadd (fmul (f_cos (f_mog_delta m)) p) (fmul (fmul (f_sin (f_mog_delta m)) (f_cos theta)) q)) (fmul (fmul (f_sin (f_mog_delta m)) (f_sin theta)) r))
    (cos dl * a + sin dl * cos th * b + sin dl * sin th * c) D3.
Proof.
  intros P Q R' A B C. destruct tilt_close as [SD CD]. destruct th_close as [ST CT].
  pose proof (sin_abs1 dl) as As. pose proof (cos_abs1 dl) as Ac. pose proof (sin_abs1 th) as As'. pose proof (cos_abs1 th) as Ac'.
  assert (SC : close (fmul (f_sin (f_mog_delta m)) (f_cos theta)) (sin dl * cos th) (21 / 100000000000000)) by (apply (cmul _ _ _ _ D0 D0); auto; unfold D0, e15; lra).
  assert (SS : close (fmul (f_sin (f_mog_delta m)) (f_sin theta)) (sin dl * sin th) (21 / 100000000000000)) by (apply (cmul _ _ _ _ D0 D0); auto; unfold D0, e15; lra).
  pose proof (am _ _ As Ac') as B1. pose proof (am _ _ As As') as B2.
  pose proof (am _ _ Ac A) as B3. pose proof (am _ _ B1 B) as B4. pose proof (am _ _ B2 C) as B5.
  apply (cadd _ _ _ _ (52 / 10000000000000) (5 / 10000000000000)).
  - apply (cadd _ _ _ _ (71 / 100000000000000) (443 / 100000000000000)).
    + apply (cmul _ _ _ _ D0 D1); auto; unfold D0, D1, e15; lra.
    + apply (cmul _ _ _ _ (21 / 100000000000000) D2); auto; unfold D2, e15; lra.
    + eapply Rle_trans; [apply Rabs_triang|]. lra.
    + lra. + lra. + unfold e15. lra.
  - apply (cmul _ _ _ _ (21 / 100000000000000) 0); auto; unfold e15; lra.
  - eapply Rle_trans; [apply Rabs_triang|]. assert (Rabs (cos dl * a + sin dl * cos th * b) <= 2) by (eapply Rle_trans; [apply Rabs_triang|]; lra). lra.
  - lra. - lra. - unfold D3, e15. lra.
Qed.
Lemma l_close : vclose l lx ly lz D3.
Proof.
  destruct l0_close as (X & Y & Z). destruct c0_close as (X' & Y' & Z').
  pose proof (sin_abs1 i0) as As. pose proof (cos_abs1 i0) as Ac. pose proof a0 as A0. pose proof a1 as A1. assert (As' : Rabs (- sin i0) <= 1) by (rewrite Rabs_Ropp; exact As).
  unfold l, f_mog_l, fv_add, fv_scale. fold l0. fold c0. cbn [f_x f_y f_z]. split; [|split].
  - replace lx with (cos dl * 0 + sin dl * cos th * 0 + sin dl * sin th * 1) by (unfold lx; ring). apply combo_close; auto using z1.
  - replace ly with (cos dl * - sin i0 + sin dl * cos th * cos i0 + sin dl * sin th * 0) by (unfold ly; ring). apply combo_close; auto using z0.
  - replace lz with (cos dl * cos i0 + sin dl * cos th * sin i0 + sin dl * sin th * 0) by (unfold lz; ring). apply combo_close; auto using z0.
Qed.

(** t *)
Let t := f_mog_t f_sin f_cos m theta.
Let D4 := 26 / 1000000000000.
Let D5 := 8 / 1000000.
Lemma tdiv_close p tau : close p (sin dl * tau) D4 -> Rabs tau <= 1 -> close (fdiv p (f_sin (f_mog_delta m))) tau D5.
Proof.
  intros P T. destruct tilt_close as [SD _]. pose proof sin_tilt as S.
  replace tau with (sin dl * tau / sin dl) by (field; lra).
  apply (close_div _ _ _ _ D4 D0 (/ 250000) 1 (7 / 1000000) _ P SD); unfold D4, D0, D5 in *; try lra.
  - replace (sin dl * tau / sin dl) with tau by (field; lra). exact T.
  - unfold huge. lra.
  - unfold u, tiny. lra.
Qed.
Lemma t_close : vclose t (cos th) (- (sin th * cos i0)) (- (sin th * sin i0)) D5.
Proof.
  destruct l0_close as (X & Y & Z). destruct l_close as (X' & Y' & Z'). destruct l_abs as (Bx & By & Bz).
  pose proof (sin_abs1 i0) as As. pose proof (cos_abs1 i0) as Ac. pose proof a0 as A0. assert (As' : Rabs (- sin i0) <= 1) by (rewrite Rabs_Ropp; exact As).
  pose proof (sin_abs1 th) as At. pose proof (sin2_cos2 i0) as Q. unfold Rsqr in Q.
  unfold t, f_mog_t, fv_div, fv_cross. fold l l0. cbn [f_x f_y f_z]. split; [|split]; apply tdiv_close.
  - replace (sin dl * cos th) with (ly * cos i0 - lz * - sin i0).
    + apply (det_close _ _ _ _ _ _ _ _ D3 D1); auto; unfold D1, D3, D4, e15; lra.
    + unfold ly, lz. transitivity (sin dl * cos th * (sin i0 * sin i0 + cos i0 * cos i0)); [ring|]. rewrite Q. ring.
  - apply cos_abs1.
  - replace (sin dl * - (sin th * cos i0)) with (lz * 0 - lx * cos i0) by (unfold lx; ring). apply (det_close _ _ _ _ _ _ _ _ D3 D1); auto; unfold D1, D3, D4, e15; lra.
  - rewrite Rabs_Ropp. apply am; auto.
  - replace (sin dl * - (sin th * sin i0)) with (lx * - sin i0 - ly * 0) by (unfold lx; ring). apply (det_close _ _ _ _ _ _ _ _ D3 D1); auto; unfold D1, D3, D4, e15; lra.
  - rewrite Rabs_Ropp. apply am; auto.
Qed.
Lemma within_of v x y z d : vclose v x y z d -> Rabs x <= 1 -> Rabs y <= 1 -> Rabs z <= 1 -> d <= 1 -> within3 v 1.
Proof.
  intros (X & Y & Z) A B C D. split; [exact (conj (proj1 X) (conj (proj1 Y) (proj1 Z)))|]. cbn.
  pose proof (close_bound _ _ _ _ X A). pose proof (close_bound _ _ _ _ Y B). pose proof (close_bound _ _ _ _ Z C). lra.
Qed.
Lemma prod_close x y a b d1 d2 : close x a d1 -> close y b d2 -> Rabs a <= 1 -> Rabs b <= 1 -> 0 <= d1 <= / 100 -> 0 <= d2 <= / 100 ->
  Rabs (val x * val y - a * b) <= 2 * (d1 + d2).
Proof.
  intros [_ X] [_ Y] A B H1 H2. replace (val x * val y - a * b) with (a * (val y - b) + b * (val x - a) + (val x - a) * (val y - b)) by ring.
  assert (Rabs (a * (val y - b)) <= 1 * d2) by (rewrite Rabs_mult; apply Rmult_le_compat; auto using Rabs_pos).
  assert (Rabs (b * (val x - a)) <= 1 * d1) by (rewrite Rabs_mult; apply Rmult_le_compat; auto using Rabs_pos).
  assert (Rabs ((val x - a) * (val y - b)) <= / 100 * d2) by (rewrite Rabs_mult; apply Rmult_le_compat; auto using Rabs_pos; lra).
  eapply Rle_trans; [apply Rabs_triang|]. assert (Rabs (a * (val y - b) + b * (val x - a)) <= 1 * d2 + 1 * d1) by (eapply Rle_trans; [apply Rabs_triang|]; lra). lra.
Qed.
Lemma dot_close v w a1 a2 a3 b1 b2 b3 d1 d2 E : vclose v a1 a2 a3 d1 -> vclose w b1 b2 b3 d2 -> Rabs a1 <= 1 -> Rabs a2 <= 1 -> Rabs a3 <= 1 ->
  Rabs b1 <= 1 -> Rabs b2 <= 1 -> Rabs b3 <= 1 -> 0 <= d1 <= / 100 -> 0 <= d2 <= / 100 -> 6 * (d1 + d2) + 15 / 1000000000000000 <= E ->
  close (f_dot v w) (a1 * b1 + a2 * b2 + a3 * b3) E.
Proof.
  intros V W A1 A2 A3 B1 B2 B3 H1 H2 HE.
  destruct (DOT v w 1%Z 1%Z ltac:(lia) ltac:(lia) ltac:(lia) (within_of _ _ _ _ _ V A1 A2 A3 ltac:(lra)) (within_of _ _ _ _ _ W B1 B2 B3 ltac:(lra))) as [F D].
  split; [exact F|]. destruct V as (V1 & V2 & V3). destruct W as (W1 & W2 & W3).
  pose proof (prod_close _ _ _ _ _ _ V1 W1 A1 B1 H1 H2) as P1. pose proof (prod_close _ _ _ _ _ _ V2 W2 A2 B2 H1 H2) as P2. pose proof (prod_close _ _ _ _ _ _ V3 W3 A3 B3 H1 H2) as P3.
  apply Rabs_le_inv in P1, P2, P3, D. assert (BP : bpow radix2 (1 + 1 - 48) <= 15 / 1000000000000000) by (cbn; lra). apply Rabs_le. lra.
Qed.
Lemma axis_close : vclose f_ax 1 0 0 0 /\ vclose f_ay 0 1 0 0 /\ vclose f_az 0 0 1 0.
Proof. unfold vclose, f_ax, f_ay, f_az; cbn [f_x f_y f_z]. auto 10 using z0, z1. Qed.

(** The two arguments of n. *)
Lemma n_args : fm_clockwise m = true -> close (fmul (f_mog_s m) (f_dot t f_ax)) (cos th) (/ 5000) /\ close (fmul (f_mog_s m) (f_dot t c0)) (- sin th) (/ 5000).
Proof.
  intro CW. unfold f_mog_s. rewrite CW. pose proof t_close as T. pose proof c0_close as C. destruct axis_close as [AX _].
  pose proof (sin_abs1 i0) as As. pose proof (cos_abs1 i0) as Ac. pose proof a0 as A0. pose proof a1 as A1. pose proof (sin_abs1 th) as At. pose proof (cos_abs1 th) as Ct.
  assert (T2 : Rabs (- (sin th * cos i0)) <= 1) by (rewrite Rabs_Ropp; apply am; auto). assert (T3 : Rabs (- (sin th * sin i0)) <= 1) by (rewrite Rabs_Ropp; apply am; auto).
  pose proof (sin2_cos2 i0) as Q. unfold Rsqr in Q. split.
  - replace (cos th) with (1 * (cos th * 1 + - (sin th * cos i0) * 0 + - (sin th * sin i0) * 0)) by ring.
    apply (cmul _ _ _ _ 0 (5 / 100000)); auto using z1; try lra; [| |unfold e15; lra].
    + apply (dot_close _ _ _ _ _ _ _ _ D5 0); auto; unfold D5; lra.
    + replace (cos th * 1 + - (sin th * cos i0) * 0 + - (sin th * sin i0) * 0) with (cos th) by ring. exact Ct.
  - assert (E : cos th * 0 + - (sin th * cos i0) * cos i0 + - (sin th * sin i0) * sin i0 = - sin th).
    { transitivity (- sin th * (sin i0 * sin i0 + cos i0 * cos i0)); [ring|]. rewrite Q. ring. }
    replace (- sin th) with (1 * (cos th * 0 + - (sin th * cos i0) * cos i0 + - (sin th * sin i0) * sin i0)) by (rewrite E; ring).
    apply (cmul _ _ _ _ 0 (5 / 100000)); auto using z1; try lra; [| |unfold e15; lra].
    + apply (dot_close _ _ _ _ _ _ _ _ D5 D2); auto; unfold D5, D2; lra.
    + rewrite E, Rabs_Ropp. exact At.
Qed.
Lemma n_finite : finite (f_mog_n f_sin f_cos f_atan2 f_dot m theta) /\ Rabs (val (f_mog_n f_sin f_cos f_atan2 f_dot m theta)) <= PI.
Proof.
  unfold f_mog_n. fold t. fold l0. fold c0. pose proof t_close as T. pose proof c0_close as C. destruct axis_close as [AX _].
  pose proof (sin_abs1 i0) as As. pose proof (cos_abs1 i0) as Ac. pose proof a0 as A0. pose proof a1 as A1. pose proof (sin_abs1 th) as At. pose proof (cos_abs1 th) as Ct.
  assert (T2 : Rabs (- (sin th * cos i0)) <= 1) by (rewrite Rabs_Ropp; apply am; auto). assert (T3 : Rabs (- (sin th * sin i0)) <= 1) by (rewrite Rabs_Ropp; apply am; auto).
  assert (S : close (f_mog_s m) 0 1) by (unfold f_mog_s; destruct (fm_clockwise m); [destruct (close_Z 1 ltac:(lia)) as [F D]|destruct (close_Z (-1) ltac:(lia)) as [F D]]; split; auto; apply Rabs_le_inv in D; apply Rabs_le; lra).
  assert (X : close (f_dot t f_ax) 0 4).
  { apply (b_of _ (cos th * 1 + - (sin th * cos i0) * 0 + - (sin th * sin i0) * 0) (5 / 100000) 3); [|replace (cos th * 1 + - (sin th * cos i0) * 0 + - (sin th * sin i0) * 0) with (cos th) by ring; lra|lra].
    apply (dot_close _ _ _ _ _ _ _ _ D5 0); auto; unfold D5; lra. }
  assert (Y : close (f_dot t c0) 0 4).
  { apply (b_of _ (cos th * 0 + - (sin th * cos i0) * cos i0 + - (sin th * sin i0) * sin i0) (5 / 100000) 3); [| |lra].
    - apply (dot_close _ _ _ _ _ _ _ _ D5 D2); auto; unfold D5, D2; lra.
    - pose proof (am _ _ Ct A0). pose proof (am _ _ T2 Ac). pose proof (am _ _ T3 As). eapply Rle_trans; [apply Rabs_triang|].
      assert (Rabs (cos th * 0 + - (sin th * cos i0) * cos i0) <= 2) by (eapply Rle_trans; [apply Rabs_triang|]; lra). lra. }
  pose proof (bmul _ _ _ _ 5 S X ltac:(lra) ltac:(lra) ltac:(unfold u, tiny; lra)) as [FX _]. pose proof (bmul _ _ _ _ 5 S Y ltac:(lra) ltac:(lra) ltac:(unfold u, tiny; lra)) as [FY _].
  destruct AT as (R1 & R2 & _). pose proof (R2 _ _ FX FY) as F. split; [exact F|]. destruct (R1 (fmul (f_mog_s m) (f_dot t f_ax)) (fmul (f_mog_s m) (f_dot t c0))) as [N|[_ B]]; [|exact B].
  unfold finite in F. rewrite N in F. discriminate F.
Qed.
Lemma n_quarter : fm_clockwise m = true -> cos th = 1 -> sin th = 0 -> Rabs (val (f_mog_n f_sin f_cos f_atan2 f_dot m theta) - PI / 2) <= / 1000.
Proof.
  intros CW C1 S1. destruct (n_args CW) as [[FY Y] [FX X]]. rewrite C1 in Y. rewrite S1 in X. replace (- 0) with 0 in X by ring. rewrite Rminus_0_r in X.
  unfold f_mog_n. fold t. fold l0. fold c0. apply Rabs_le_inv in Y. destruct AT as (_ & _ & R3).
  specialize (R3 _ _ FY FX ltac:(lra) ltac:(lra)). set (r := val (f_atan2 _ _)) in *. set (y := val (fmul (f_mog_s m) (f_dot t f_ax))) in *. set (x := val (fmul (f_mog_s m) (f_dot t c0))) in *.
  pose proof (atan_le (x / y)) as A. assert (Q : Rabs (x / y) <= 4 / 10000).
  { unfold Rdiv. rewrite Rabs_mult, (Rabs_pos_eq (/ y)) by (apply Rlt_le, Rinv_0_lt_compat; lra). apply Rmult_le_reg_r with y; [lra|]. rewrite Rmult_assoc, Rinv_l by lra. lra. }
  assert (BP : bpow radix2 (-50) <= / 1000000) by (cbn; lra). replace (r - PI / 2) with ((r - (PI / 2 - atan (x / y))) + - atan (x / y)) by ring.
  eapply Rle_trans; [apply Rabs_triang|]. rewrite Rabs_Ropp. lra.
Qed.
End Position.
End Group.
