(** The true/mean/true anomaly round trip is exact to fourth order in the eccentricity. *)
From Coq Require Import Reals ZArith Lra Lia Psatz Bool.
From Verif Require Import Base RBase RFacts Orbit_Model Anomaly_Proofs.
Open Scope R_scope.

(** ** Taylor bounds *)
Lemma increasing_from_0 (g g' : R -> R) :
  (forall x, derivable_pt_lim g x (g' x)) -> g 0 = 0 -> (forall x, 0 <= x -> 0 <= g' x) ->
  forall x, 0 <= x -> 0 <= g x.
Proof.
  intros D G0 P x Hx. destruct (Req_dec x 0) as [->|Hne]; [lra|].
  destruct (MVT_cor2 g g' 0 x) as (c & E & Hc); [lra|intros; apply D|].
  specialize (P c ltac:(lra)). rewrite G0 in E. nra.
Qed.

Lemma sin_le_x x : 0 <= x -> sin x <= x.
Proof. intro H. destruct (Req_dec x 0) as [->|Hne]; [rewrite sin_0; lra|]. left. apply sin_lt_x. lra. Qed.
Lemma sin_ge_mx x : 0 <= x -> - x <= sin x.
Proof.
  intro H. apply (increasing_from_0 (fun x => x + sin x) (fun x => 1 + cos x)) in H; [lra| | |].
  - intro y. apply derivable_pt_lim_plus; [apply derivable_pt_lim_id|apply derivable_pt_lim_sin].
  - rewrite sin_0. lra.
  - intros y _. pose proof (COS_bound y). lra.
Qed.
Lemma sin_abs x : Rabs (sin x) <= Rabs x.
Proof.
  destruct (Rle_dec 0 x) as [H|H].
  - rewrite (Rabs_pos_eq x H). apply Rabs_le. pose proof (sin_le_x x H). pose proof (sin_ge_mx x H). lra.
  - assert (H' : 0 <= - x) by lra. rewrite (Rabs_left x) by lra.
    pose proof (sin_le_x (- x) H') as A. pose proof (sin_ge_mx (- x) H') as B.
    rewrite sin_neg in A, B. apply Rabs_le. lra.
Qed.
Lemma cos_half x : cos x = 1 - 2 * (sin (x / 2) * sin (x / 2)).
Proof. replace x with (2 * (x / 2)) at 1 by lra. rewrite cos_2a_sin. ring. Qed.
Lemma sq_abs_le a b : Rabs a <= Rabs b -> a * a <= b * b.
Proof. intro H. apply Rsqr_le_abs_1 in H. exact H. Qed.
Lemma cos_ge_quad x : 1 - x * x / 2 <= cos x.
Proof. rewrite cos_half. pose proof (sq_abs_le _ _ (sin_abs (x / 2))). lra. Qed.
Lemma one_minus_cos_le x : 0 <= x -> 1 - cos x <= x.
Proof.
  intro H. rewrite cos_half. pose proof (SIN_bound (x / 2)).
  pose proof (sin_le_x (x / 2) ltac:(lra)). pose proof (sin_ge_mx (x / 2) ltac:(lra)). nra.
Qed.
Lemma sin_cubic x : 0 <= x -> x - x * x * x / 6 <= sin x.
Proof.
  intro H. apply (increasing_from_0 (fun x => sin x - x + x * x * x / 6) (fun x => cos x - 1 + x * x / 2)) in H; [lra| | |].
  - intro y. replace (cos y - 1 + y * y / 2) with (cos y - 1 + ((1 * y + y * 1) * y + (y * y) * 1) * / 6) by field.
    apply derivable_pt_lim_plus.
    + apply derivable_pt_lim_minus; [apply derivable_pt_lim_sin|apply derivable_pt_lim_id].
    + unfold Rdiv. replace (((1 * y + y * 1) * y + y * y * 1) * / 6)
        with (((1 * y + y * 1) * y + y * y * 1) * / 6 + (y * y * y) * 0) by ring.
      apply (derivable_pt_lim_mult (fun x => x * x * x) (fun _ => / 6)).
      * apply (derivable_pt_lim_mult (fun x => x * x) (fun x => x)); [|apply derivable_pt_lim_id].
        apply (derivable_pt_lim_mult (fun x => x) (fun x => x)); apply derivable_pt_lim_id.
      * apply derivable_pt_lim_const.
  - rewrite sin_0. lra.
  - intros y _. pose proof (cos_ge_quad y). lra.
Qed.
Lemma sin_quad x : 0 <= x -> x - x * x / 2 <= sin x.
Proof.
  intro H. apply (increasing_from_0 (fun x => sin x - x + x * x / 2) (fun x => cos x - 1 + x)) in H; [lra| | |].
  - intro y. replace (cos y - 1 + y) with (cos y - 1 + (1 * y + y * 1) * / 2) by field.
    apply derivable_pt_lim_plus.
    + apply derivable_pt_lim_minus; [apply derivable_pt_lim_sin|apply derivable_pt_lim_id].
    + unfold Rdiv. replace ((1 * y + y * 1) * / 2) with ((1 * y + y * 1) * / 2 + (y * y) * 0) by ring.
      apply (derivable_pt_lim_mult (fun x => x * x) (fun _ => / 2)).
      * apply (derivable_pt_lim_mult (fun x => x) (fun x => x)); apply derivable_pt_lim_id.
      * apply derivable_pt_lim_const.
  - rewrite sin_0. lra.
  - intros y Hy. pose proof (one_minus_cos_le y Hy). lra.
Qed.

Lemma pow3_abs h : Rabs h ^ 3 = Rabs (h * h * h).
Proof. simpl. rewrite !Rabs_mult. ring. Qed.
Lemma sin_minus_x_cubic h : Rabs (sin h - h) <= Rabs h ^ 3 / 6.
Proof.
  destruct (Rle_dec 0 h) as [H|H].
  - rewrite (Rabs_pos_eq h H). pose proof (sin_cubic h H). pose proof (sin_le_x h H).
    apply Rabs_le. simpl. lra.
  - rewrite (Rabs_left h) by lra. pose proof (sin_cubic (- h) ltac:(lra)) as A. pose proof (sin_le_x (- h) ltac:(lra)) as B.
    rewrite sin_neg in A, B. apply Rabs_le. simpl. lra.
Qed.
Lemma sin_minus_x_quad h : Rabs (sin h - h) <= h * h / 2.
Proof.
  destruct (Rle_dec 0 h) as [H|H].
  - pose proof (sin_quad h H). pose proof (sin_le_x h H). apply Rabs_le. lra.
  - pose proof (sin_quad (- h) ltac:(lra)) as A. pose proof (sin_le_x (- h) ltac:(lra)) as B.
    rewrite sin_neg in A, B. apply Rabs_le. nra.
Qed.
Lemma cos_quart h : Rabs h <= 4 -> Rabs (cos h - 1 + h * h / 2) <= Rabs h ^ 3 / 6.
Proof.
  intro HB. pose proof (cos_ge_quad h) as L. rewrite Rabs_pos_eq by lra.
  assert (P : forall x, 0 <= x <= 4 -> cos x - 1 + x * x / 2 <= x ^ 3 / 6).
  { intros x Hx. rewrite cos_half. pose proof (sin_cubic (x / 2) ltac:(lra)) as A.
    pose proof (sin_le_x (x / 2) ltac:(lra)) as B. pose proof (sin_ge_mx (x / 2) ltac:(lra)) as B'.
    set (s := sin (x / 2)) in *. set (y := x / 2) in *. assert (E : x = 2 * y) by (unfold y; lra). rewrite E in *.
    assert (F1 : 0 <= y - s <= y * y * y / 6) by lra. assert (F2 : 0 <= y + s <= 2 * y) by lra.
    assert (F3 : (y - s) * (y + s) <= (y * y * y / 6) * (2 * y)) by (apply Rmult_le_compat; lra).
    assert (F4 : 0 <= y * y * y * (2 - y)) by (apply Rmult_le_pos; [nra|lra]).
    simpl. nra. }
  destruct (Rle_dec 0 h) as [H|H].
  - rewrite (Rabs_pos_eq h H) in *. apply P. lra.
  - rewrite (Rabs_left h) in * by lra. specialize (P (- h) ltac:(lra)). rewrite cos_neg in P. lra.
Qed.

Lemma Rabs_mult_le a b A B : Rabs a <= A -> Rabs b <= B -> Rabs (a * b) <= A * B.
Proof. intros. rewrite Rabs_mult. apply Rmult_le_compat; auto using Rabs_pos. Qed.
Lemma Rabs_plus_le a b A B : Rabs a <= A -> Rabs b <= B -> Rabs (a + b) <= A + B.
Proof. intros. eapply Rle_trans; [apply Rabs_triang|lra]. Qed.
Lemma sin_abs1 x : Rabs (sin x) <= 1. Proof. apply Rabs_le. pose proof (SIN_bound x). lra. Qed.
Lemma cos_abs1 x : Rabs (cos x) <= 1. Proof. apply Rabs_le. pose proof (COS_bound x). lra. Qed.

Lemma sin_expand2 x h : Rabs h <= 4 ->
  Rabs (sin (x + h) - sin x - h * cos x + h * h / 2 * sin x) <= Rabs h ^ 3 / 3.
Proof.
  intro Hh. rewrite sin_plus.
  replace (sin x * cos h + cos x * sin h - sin x - h * cos x + h * h / 2 * sin x)
    with (sin x * (cos h - 1 + h * h / 2) + cos x * (sin h - h)) by field.
  replace (Rabs h ^ 3 / 3) with (1 * (Rabs h ^ 3 / 6) + 1 * (Rabs h ^ 3 / 6)) by field.
  apply Rabs_plus_le; apply Rabs_mult_le; auto using sin_abs1, cos_abs1, cos_quart, sin_minus_x_cubic.
Qed.
Lemma sin_expand1 x h : Rabs (sin (x + h) - sin x - h * cos x) <= h * h.
Proof.
  rewrite sin_plus.
  replace (sin x * cos h + cos x * sin h - sin x - h * cos x) with (sin x * (cos h - 1) + cos x * (sin h - h)) by field.
  replace (h * h) with (1 * (h * h / 2) + 1 * (h * h / 2)) by field.
  apply Rabs_plus_le; apply Rabs_mult_le; auto using sin_abs1, cos_abs1, sin_minus_x_quad.
  apply Rabs_le. pose proof (cos_ge_quad h). pose proof (COS_bound h). nra.
Qed.
Lemma sin_expand0 x h : Rabs (sin (x + h) - sin x) <= Rabs h.
Proof.
  rewrite form4. replace ((x + h - x) / 2) with (h / 2) by lra.
  replace (Rabs h) with (2 * (1 * Rabs (h / 2))).
  - rewrite Rmult_assoc, Rabs_mult, (Rabs_pos_eq 2) by lra. apply Rmult_le_compat_l; [lra|].
    apply Rabs_mult_le; auto using cos_abs1, sin_abs.
  - unfold Rdiv. rewrite Rabs_mult, (Rabs_pos_eq (/ 2)) by lra. field.
Qed.

(** ** The round trip *)
Lemma cos_2x x : cos (2 * x) = 1 - 2 * (sin x * sin x).
Proof. rewrite cos_2a_sin. ring. Qed.

Lemma abs_pow e n : 0 <= e -> Rabs (e ^ n) = e ^ n.
Proof. intro. apply Rabs_pos_eq, pow_le. assumption. Qed.

Section Round.
Variables (e nu : R).
Hypothesis He : 0 <= e <= 1.
Let s := sin nu.
Let c := cos nu.
Let p := 1 / 8 * sin (2 * nu) + 5 / 32 * sin (4 * nu).
Let q := - (1 / 3) * sin (3 * nu) + e * p.
Let w := 3 / 2 * (s * c) + e * q.
Let d := - 2 * s + e * w.
Let D := e * d.

Lemma D_eq : f_mean e nu = nu + D.
Proof. unfold f_mean, D, d, w, q, p, s, c. rewrite (sin_2a nu). field. Qed.

Lemma e1 : Rabs e <= 1. Proof. apply Rabs_le. lra. Qed.
Lemma p_bound : Rabs p <= 9 / 32.
Proof.
  unfold p. replace (9 / 32) with (1 / 8 * 1 + 5 / 32 * 1) by lra.
  apply Rabs_plus_le; apply Rabs_mult_le; auto using sin_abs1; rewrite Rabs_pos_eq; lra.
Qed.
Lemma q_bound : Rabs q <= 62 / 100.
Proof.
  unfold q. apply Rle_trans with (1 / 3 * 1 + 1 * (9 / 32)); [|lra].
  apply Rabs_plus_le; apply Rabs_mult_le; auto using sin_abs1, e1, p_bound.
  rewrite Rabs_Ropp, Rabs_pos_eq; lra.
Qed.
Lemma sc_half : Rabs (s * c) <= 1 / 2.
Proof.
  unfold s, c. pose proof (sc_bounds nu) as H.
  pose proof (Rle_0_sqr (sin nu - cos nu)) as Q1. pose proof (Rle_0_sqr (sin nu + cos nu)) as Q2.
  unfold Rsqr in *. apply Rabs_le. lra.
Qed.
Lemma w_bound : Rabs w <= 137 / 100.
Proof.
  unfold w. apply Rle_trans with (3 / 2 * (1 / 2) + 1 * (62 / 100)); [|lra].
  apply Rabs_plus_le; apply Rabs_mult_le; auto using e1, q_bound, sc_half. rewrite Rabs_pos_eq; lra.
Qed.
Lemma d_bound : Rabs d <= 337 / 100.
Proof.
  unfold d. apply Rle_trans with (2 * 1 + 1 * (137 / 100)); [|lra].
  apply Rabs_plus_le; apply Rabs_mult_le; auto using e1, w_bound, sin_abs1.
  - rewrite Rabs_left; lra.
  - apply sin_abs1.
Qed.
Lemma D_abs : Rabs D = e * Rabs d.
Proof. unfold D. rewrite Rabs_mult, (Rabs_pos_eq e); lra. Qed.
Lemma D_bound4 : Rabs D <= 4.
Proof. rewrite D_abs. pose proof d_bound. pose proof (Rabs_pos d). nra. Qed.

Let R1 := sin (nu + D) - sin nu - D * cos nu + D * D / 2 * sin nu.
Let R2 := sin (2 * nu + 2 * D) - sin (2 * nu) - (2 * D) * cos (2 * nu).
Let R3 := sin (3 * nu + 3 * D) - sin (3 * nu).
Let P := p + 2 * (c * q) - 1 / 4 * (c * d) + 4 * (s * (s * w)) - e * (s * (w * w)) + 1 / 8 * (e * (s * (d * d)))
         + 5 / 2 * (cos (2 * nu) * w).

Lemma sin3_s : sin (3 * nu) = 3 * s - 4 * (s * (s * s)).
Proof. rewrite sin_3x. fold s c. pose proof (sc_bounds nu) as H. fold s c in H.
  replace (4 * c * c) with (4 * (1 - s * s)) by lra. ring. Qed.

Lemma error_eq : f_true e (f_mean e nu) - nu =
  e ^ 4 * P + (2 * e - 1 / 4 * e ^ 3) * R1 + 5 / 4 * e ^ 2 * R2 + 13 / 12 * e ^ 3 * R3.
Proof.
  rewrite D_eq. unfold f_true.
  replace (2 * (nu + D)) with (2 * nu + 2 * D) by lra. replace (3 * (nu + D)) with (3 * nu + 3 * D) by lra.
  assert (E1 : sin (nu + D) = R1 + s + D * c - D * D / 2 * s) by (unfold R1, s, c; lra).
  assert (E2 : sin (2 * nu + 2 * D) = R2 + 2 * (s * c) + 2 * D * (1 - 2 * (s * s)))
    by (unfold R2; rewrite cos_2x, (sin_2a nu); unfold s, c; lra).
  assert (E3 : sin (3 * nu + 3 * D) = R3 + sin (3 * nu)) by (unfold R3; lra).
  rewrite E1, E2, E3. unfold P. rewrite cos_2x. fold s.
  pose proof sin3_s as S3. pose proof (sc_bounds nu) as SC. fold s c in SC.
  clearbody R1 R2 R3. unfold D, d, w, q. rewrite !S3.
  assert (C2 : c * c = 1 - s * s) by lra.
  clearbody p s c. clear E1 E2 E3 S3 SC.
  (* reduce modulo c*c = 1 - s*s *)
  match goal with |- ?L = ?R =>
    assert (X : L - R = (c * c - (1 - s * s)) * (3 * e ^ 3 * s));
    [|rewrite C2 in X; lra] end.
  field.
Qed.
Lemma P_bound : Rabs P <= 147 / 10.
Proof.
  unfold P. pose proof p_bound. pose proof q_bound. pose proof w_bound. pose proof d_bound. pose proof e1.
  pose proof (sin_abs1 nu). pose proof (cos_abs1 nu). pose proof (cos_abs1 (2 * nu)).
  fold s in H4. fold c in H5.
  eapply Rle_trans with (9 / 32 + 2 * (1 * (62 / 100)) + 1 / 4 * (1 * (337 / 100)) + 4 * (1 * (1 * (137 / 100)))
    + 1 * (1 * (137 / 100 * (137 / 100))) + 1 / 8 * (1 * (1 * (337 / 100 * (337 / 100)))) + 5 / 2 * (1 * (137 / 100))); [|lra].
  unfold Rminus.
  repeat (apply Rabs_plus_le); try rewrite Rabs_Ropp; repeat apply Rabs_mult_le; auto; rewrite Rabs_pos_eq; lra.
Qed.

Lemma round_trip_rad : Rabs (f_true e (f_mean e nu) - nu) <= 110 * e ^ 4.
Proof.
  rewrite error_eq. assert (E4 : 0 <= e ^ 4) by (apply pow_le; lra).
  assert (E3 : 0 <= e ^ 3) by (apply pow_le; lra). assert (E2 : 0 <= e ^ 2) by (apply pow_le; lra).
  pose proof d_bound as DB. pose proof (Rabs_pos d) as DP.
  assert (T0 : Rabs (e ^ 4 * P) <= e ^ 4 * (147 / 10)).
  { apply Rabs_mult_le; [rewrite Rabs_pos_eq; lra|apply P_bound]. }
  assert (T1 : Rabs ((2 * e - 1 / 4 * e ^ 3) * R1) <= e ^ 4 * (26)).
  { pose proof (sin_expand2 nu D D_bound4) as B. fold R1 in B. rewrite D_abs in B.
    assert (A1 : Rabs (2 * e - 1 / 4 * e ^ 3) <= 2 * e).
    { rewrite Rabs_pos_eq; [lra|]. assert (e ^ 3 <= e) by (simpl; nra). lra. }
    eapply Rle_trans; [apply (Rabs_mult_le _ _ _ _ A1 B)|].
    replace (2 * e * ((e * Rabs d) ^ 3 / 3)) with (e ^ 4 * (2 / 3 * Rabs d ^ 3)) by field.
    apply Rmult_le_compat_l; [assumption|].
    assert (Rabs d ^ 3 <= (337 / 100) ^ 3) by (apply pow_incr; lra). lra. }
  assert (T2 : Rabs (5 / 4 * e ^ 2 * R2) <= e ^ 4 * 57).
  { pose proof (sin_expand1 (2 * nu) (2 * D)) as B. fold R2 in B.
    assert (A2 : Rabs (5 / 4 * e ^ 2) <= 5 / 4 * e ^ 2) by (rewrite Rabs_pos_eq; lra).
    eapply Rle_trans; [apply (Rabs_mult_le _ _ _ _ A2 B)|]. unfold D.
    replace (5 / 4 * e ^ 2 * (2 * (e * d) * (2 * (e * d)))) with (e ^ 4 * (5 * (d * d))) by field.
    apply Rmult_le_compat_l; [assumption|].
    assert (d * d = Rabs d * Rabs d) by (rewrite <- Rabs_mult; rewrite Rabs_pos_eq; [reflexivity|apply Rle_0_sqr]).
    nra. }
  assert (T3 : Rabs (13 / 12 * e ^ 3 * R3) <= e ^ 4 * 11).
  { pose proof (sin_expand0 (3 * nu) (3 * D)) as B. fold R3 in B.
    rewrite Rabs_mult, (Rabs_pos_eq 3), D_abs in B by lra.
    assert (A3 : Rabs (13 / 12 * e ^ 3) <= 13 / 12 * e ^ 3) by (rewrite Rabs_pos_eq; lra).
    eapply Rle_trans; [apply (Rabs_mult_le _ _ _ _ A3 B)|].
    replace (13 / 12 * e ^ 3 * (3 * (e * Rabs d))) with (e ^ 4 * (13 / 4 * Rabs d)) by field.
    apply Rmult_le_compat_l; [assumption|lra]. }
  eapply Rle_trans; [apply (Rabs_plus_le _ _ _ _ (Rabs_plus_le _ _ _ _ (Rabs_plus_le _ _ _ _ T0 T1) T2) T3)|]. lra.
Qed.
End Round.

Lemma round_trip_lemma e nu : 0 <= e <= 1 ->
  Rabs (mean_anomaly_to_true_anomaly (true_anomaly_to_mean_anomaly nu e) e - nu) <= degrees (110 * e ^ 4).
Proof.
  intro He. rewrite m2t_eq, t2m_eq, radians_degrees.
  pose proof (round_trip_rad e (radians nu) He) as H.
  rewrite <- (degrees_radians nu) at 2. unfold degrees.
  rewrite <- Rmult_minus_distr_r, Rabs_mult. rewrite (Rabs_pos_eq (180 / PI)).
  - apply Rmult_le_compat_r; [|assumption]. pose proof PI_RGT_0. left. apply Rdiv_lt_0_compat; lra.
  - pose proof PI_RGT_0. left. apply Rdiv_lt_0_compat; lra.
Qed.
