(** Coinciding members of an eccentric Walker constellation. *)
From Coq Require Import Reals ZArith List Bool Lra Lia Psatz.
From Verif Require Import Base BaseFacts RBase RFacts Orbit_Model Orbit_Spec Anomaly_Proofs Orbit_Proofs Orbit_Proofs2
  Const_Model Const_Spec Names_Proofs Const_Proofs Const_Proofs2.
Import ListNotations.
Open Scope R_scope.

(** The series maps pi - pi/6 to pi for some eccentricity between 1/2 and 1. *)
Definition gap (e : R) : R := PI / 6 - (2 * e - 1 / 4 * e ^ 3) * (1 / 2) + 5 / 4 * e ^ 2 * (sqrt 3 / 2) - 13 / 12 * e ^ 3.
Lemma sqrt3_bounds : 17 / 10 < sqrt 3 < 174 / 100.
Proof.
  split.
  - replace (17 / 10) with (sqrt ((17 / 10) * (17 / 10))) by (apply sqrt_square; lra). apply sqrt_lt_1; lra.
  - replace (174 / 100) with (sqrt ((174 / 100) * (174 / 100))) by (apply sqrt_square; lra). apply sqrt_lt_1; lra.
Qed.
Lemma gap_root : exists e, 1 / 2 <= e <= 1 /\ gap e = 0.
Proof.
  destruct (IVT_cor gap (1 / 2) 1) as (e & B & E).
  - unfold gap. reg.
  - lra.
  - pose proof sqrt3_bounds. pose proof PI_3. pose proof PI_4. unfold gap. simpl.
    assert (0 < PI / 6 - (2 * (1 / 2) - 1 / 4 * (1 / 2 * (1 / 2 * (1 / 2 * 1)))) * (1 / 2) +
     5 / 4 * (1 / 2 * (1 / 2 * 1)) * (sqrt 3 / 2) - 13 / 12 * (1 / 2 * (1 / 2 * (1 / 2 * 1)))) by lra.
    assert (PI / 6 - (2 * 1 - 1 / 4 * (1 * (1 * (1 * 1)))) * (1 / 2) + 5 / 4 * (1 * (1 * 1)) * (sqrt 3 / 2) - 13 / 12 * (1 * (1 * (1 * 1))) < 0) by lra.
    nra.
  - exists e. auto.
Qed.
Lemma gap_true e : gap e = 0 -> f_true e (PI - PI / 6) = PI /\ f_true e (PI + PI / 6) = PI.
Proof.
  intro G. unfold gap in G. unfold f_true.
  assert (S1 : sin (PI - PI / 6) = 1 / 2) by (rewrite sin_PI_x; apply sin_PI6).
  assert (S2 : sin (2 * (PI - PI / 6)) = - (sqrt 3 / 2)).
  { replace (2 * (PI - PI / 6)) with (- (PI / 3) + 2 * PI) by field. rewrite sin_plus, sin_2PI, cos_2PI, sin_neg, sin_PI3. lra. }
  assert (S3 : sin (3 * (PI - PI / 6)) = 1).
  { replace (3 * (PI - PI / 6)) with (PI / 2 + 2 * PI) by field. rewrite sin_plus, sin_2PI, cos_2PI, sin_PI2. lra. }
  assert (T1 : sin (PI + PI / 6) = - (1 / 2)) by (rewrite sin_plus, sin_PI, cos_PI, sin_PI6; lra).
  assert (T2 : sin (2 * (PI + PI / 6)) = sqrt 3 / 2).
  { replace (2 * (PI + PI / 6)) with (PI / 3 + 2 * PI) by field. rewrite sin_plus, sin_2PI, cos_2PI, sin_PI3. lra. }
  assert (T3 : sin (3 * (PI + PI / 6)) = - 1).
  { replace (3 * (PI + PI / 6)) with (- (PI / 2) + 2 * PI + 2 * PI) by field.
    rewrite sin_plus, sin_2PI, cos_2PI, sin_plus, sin_2PI, cos_2PI, sin_neg, sin_PI2. lra. }
  rewrite S1, S2, S3, T1, T2, T3. split; lra.
Qed.

(** Some true anomaly has mean anomaly 150 degrees. *)
Lemma mean_150 e : exists nu, 0 <= nu < 360 /\ true_anomaly_to_mean_anomaly nu e = 150.
Proof.
  destruct (IVT_cor (fun x => true_anomaly_to_mean_anomaly x e - 150) 0 180) as (nu & B & E).
  - unfold true_anomaly_to_mean_anomaly, radians, degrees. reg.
  - lra.
  - destruct (anomaly_laws_lemma e 0 0) as (_ & _ & _ & _ & _ & _ & _ & M0 & _ & M180). rewrite M0, M180. lra.
  - exists nu. split; lra.
Qed.

Lemma walker_coincide_lemma sun : exists (w : @walker Z) ms m m', make_walker w = Ok w /\ lead_ok (w_orbit w)
  /\ walker_members sun w = Ok ms /\ nth_error ms 0 = Some m /\ nth_error ms 1 = Some m'
  /\ coincide (mb_orbit m) (mb_orbit m').
Proof.
  destruct gap_root as (e & Be & G). destruct (mean_150 e) as (nu & Bn & M).
  set (k := mk_kep (mk_circ 400000 nu 0 51 0) e 0).
  set (w := mk_walker [87%Z] (LKep k) [1%Z] Delta 6 1 0).
  assert (V : lead_ok (w_orbit w)).
  { simpl. split; [|simpl; lra]. apply kep_valid_spec. simpl. split; [apply circ_valid_spec; simpl; lra|lra]. }
  assert (W : walker_ok w) by (unfold walker_ok, w; simpl; lia).
  destruct (walker_lemma sun w V W) as (ms & E & L & N). simpl in L.
  destruct (nth_error ms 0) as [m|] eqn:E0; [|apply nth_error_None in E0; lia].
  destruct (nth_error ms 1) as [m'|] eqn:E1; [|apply nth_error_None in E1; lia].
  exists w, ms, m, m'. split; [reflexivity|]. split; [exact V|]. split; [exact E|]. split; [exact E0|]. split; [exact E1|].
  apply N in E0 as (_ & _ & A0). apply N in E1 as (_ & _ & A1).
  change (Z.of_nat 0 / per_plane w)%Z with 0%Z in A0. change (Z.of_nat 0 mod per_plane w)%Z with 0%Z in A0.
  change (Z.of_nat 1 / per_plane w)%Z with 0%Z in A1. change (Z.of_nat 1 mod per_plane w)%Z with 1%Z in A1.
  unfold wdm, wdr in A0, A1. change (per_plane w) with 6%Z in A0, A1.
  destruct (mb_orbit m) as [c|s|k0|n l]; simpl in A0; try contradiction.
  destruct (mb_orbit m') as [c|s|k1|n l]; simpl in A1; try contradiction. simpl.
  assert (KM : kep_mean_anomaly k = 150) by exact M.
  destruct A0 as (_ & _ & _ & _ & _ & A0 & R0). destruct A1 as (_ & _ & _ & _ & _ & A1 & R1).
  rewrite KM in A0, A1. destruct (gap_true e G) as [G0 G1].
  assert (X0 : mean_anomaly_to_true_anomaly (150 + (0 * (360 / 6) + 0 * (360 * 0 / 6))) e = 180).
  { rewrite m2t_eq. replace (radians (150 + (0 * (360 / 6) + 0 * (360 * 0 / 6)))) with (PI - PI / 6) by (unfold radians; field). rewrite G0. apply degrees_PI. }
  assert (X1 : mean_anomaly_to_true_anomaly (150 + (1 * (360 / 6) + 0 * (360 * 0 / 6))) e = 180).
  { rewrite m2t_eq. replace (radians (150 + (1 * (360 / 6) + 0 * (360 * 0 / 6)))) with (PI + PI / 6) by (unfold radians; field). rewrite G1. apply degrees_PI. }
  rewrite X0 in A0. rewrite X1 in A1. split.
  - eapply same_degrees_trans; [exact A0|apply same_degrees_sym; exact A1].
  - eapply same_degrees_trans; [exact R0|]. apply same_degrees_sym. eapply same_degrees_trans; [exact R1|]. apply same_degrees_refl.
Qed.
Lemma kep_03_ok : lead_ok (LKep (mk_kep circ_b (3/10) 90)) /\ injective_ok (LKep (mk_kep circ_b (3/10) 90)).
Proof.
  simpl. split; [|lra]. split; [|lra]. apply kep_valid_spec. simpl. split; [apply circ_b_valid|lra].
Qed.
