(** Streets of coverage with any swath: within the horizon, beyond it, and beyond the whole sphere. *)
From Coq Require Import Reals ZArith List Bool Lra Lia.
From Verif Require Import Base RBase RFacts Orbit_Model Orbit_Proofs Orbit_Proofs2 Const_Model Const_Spec Const_Proofs Geom_Model Geom_Spec Geom_Proofs Geom_Proofs2
  Access_Proofs Geom_Proofs3.
Open Scope R_scope.

(** ** The edge of a swath folded back onto the near side *)
Lemma rabs_le_inv x y : Rabs x <= y -> - y <= x <= y.
Proof. unfold Rabs. destruct (Rcase_abs x); lra. Qed.
Definition fold_eta (r S : R) : R := atan (r * S / (1 - r * cos (asin S))).
Definition fold_lam (r S : R) : R := asin (sin (fold_eta r S) / r) - fold_eta r S.
Lemma fold_off_nadir r S : 0 < r < 1 -> -1 <= S <= 1 ->
  exists d, 0 < d /\ r * S = d * sin (fold_eta r S) /\ 1 - r * cos (asin S) = d * cos (fold_eta r S) /\ d * d = S * S + (cos (asin S) - r) * (cos (asin S) - r).
Proof.
  intros Hr HS. pose proof (COS_bound (asin S)) as B. set (C := cos (asin S)) in *. assert (D : 0 < 1 - r * C) by nra.
  set (t := r * S / (1 - r * C)). assert (Q : 0 < sqrt (1 + t * t)) by (apply sqrt_lt_R0; nra).
  assert (E1 : sin (fold_eta r S) = t / sqrt (1 + t * t)) by (unfold fold_eta; fold C t; rewrite sin_atan; unfold Rsqr; reflexivity).
  assert (E2 : cos (fold_eta r S) = 1 / sqrt (1 + t * t)) by (unfold fold_eta; fold C t; rewrite cos_atan; unfold Rsqr; reflexivity).
  assert (T : (1 - r * C) * t = r * S) by (unfold t; field; lra).
  exists ((1 - r * C) * sqrt (1 + t * t)). split; [apply Rmult_lt_0_compat; lra|]. rewrite E1, E2. split; [|split].
  - transitivity ((1 - r * C) * t); [now rewrite T|field; lra].
  - field. lra.
  - transitivity ((1 - r * C) * (1 - r * C) * (sqrt (1 + t * t) * sqrt (1 + t * t))); [ring|]. rewrite sqrt_sqrt by nra.
    transitivity ((1 - r * C) * (1 - r * C) + ((1 - r * C) * t) * ((1 - r * C) * t)); [ring|]. rewrite T.
    assert (P : S * S + C * C = 1). { pose proof (sin2_cos2 (asin S)) as Z. unfold Rsqr in Z. rewrite sin_asin in Z by lra. exact Z. }
    assert (P' : r * r * (S * S) = r * r - r * r * (C * C)) by (replace (S * S) with (1 - C * C) by lra; ring). nra.
Qed.
Lemma fold_cos_eps r S : 0 < r < 1 -> -1 <= S <= 1 -> exists d, 0 < d /\ sin (fold_eta r S) / r = S / d /\ Rabs S <= d
  /\ (cos (asin S) <> r -> Rabs S < d).
Proof.
  intros Hr HS. destruct (fold_off_nadir r S Hr HS) as [d [D [E1 [E2 E3]]]]. exists d. split; auto. split.
  - apply Rmult_eq_reg_r with (r * d); [|nra]. transitivity (d * sin (fold_eta r S)); [field; lra|]. rewrite <- E1. field. lra.
  - assert (Q : Rabs S * Rabs S = S * S) by (rewrite <- Rabs_mult; apply Rabs_pos_eq; nra). pose proof (Rabs_pos S). set (x := cos (asin S) - r) in *. split.
    + destruct (Rle_dec (Rabs S) d); auto. exfalso. assert (0 <= x * x) by nra. nra.
    + intro N. assert (X : 0 < x * x) by (assert (x <> 0) by (unfold x; lra); nra). destruct (Rlt_dec (Rabs S) d); auto. exfalso. nra.
Qed.
Lemma fold_eta_bound r S : - (PI / 2) < fold_eta r S < PI / 2.
Proof. unfold fold_eta. pose proof (atan_bound (r * S / (1 - r * cos (asin S)))). lra. Qed.
Lemma fold_c_bound r S : 0 < r < 1 -> -1 <= S <= 1 -> -1 <= sin (fold_eta r S) / r <= 1.
Proof.
  intros Hr HS. destruct (fold_cos_eps r S Hr HS) as [d [D [E [F _]]]]. rewrite E. apply rabs_le_inv. unfold Rdiv. rewrite Rabs_mult.
  rewrite (Rabs_pos_eq (/ d)) by (apply Rlt_le, Rinv_0_lt_compat; lra). apply Rmult_le_reg_r with d; auto. rewrite Rmult_assoc, Rinv_l; lra.
Qed.
Lemma fold_lam_alt r S : 0 < r < 1 -> fold_lam r S = asin (sin (fold_eta r S) / r) - asin (r * (sin (fold_eta r S) / r)).
Proof.
  intro Hr. unfold fold_lam. f_equal. f_equal. replace (r * (sin (fold_eta r S) / r)) with (sin (fold_eta r S)) by (field; lra).
  pose proof (fold_eta_bound r S). rewrite asin_sin; lra.
Qed.
Lemma fold_zero r : 0 < r < 1 -> fold_lam r 0 = 0 /\ fold_eta r 0 = 0.
Proof.
  intro Hr. assert (E : fold_eta r 0 = 0). { unfold fold_eta. replace (r * 0 / (1 - r * cos (asin 0))) with 0 by (unfold Rdiv; ring). apply atan_0. }
  unfold fold_lam. rewrite E, sin_0. replace (0 / r) with 0 by (unfold Rdiv; ring). rewrite asin_0. lra.
Qed.
Lemma fold_neg r S : 0 < r < 1 -> -1 <= S < 0 -> - (PI / 2) < fold_lam r S < 0.
Proof.
  intros Hr HS. destruct (fold_cos_eps r S Hr ltac:(lra)) as [d [D [E [F _]]]]. pose proof (fold_c_bound r S Hr ltac:(lra)) as B.
  assert (N : sin (fold_eta r S) / r < 0). { rewrite E. unfold Rdiv. apply Rmult_lt_reg_r with d; auto. rewrite Rmult_assoc, Rinv_l; lra. }
  assert (N2 : fold_eta r S < 0).
  { destruct (Rlt_dec (fold_eta r S) 0); auto. exfalso. pose proof (fold_eta_bound r S).
    assert (0 <= sin (fold_eta r S)) by (apply sin_ge_0; pose proof PI_RGT_0; lra).
    assert (0 <= sin (fold_eta r S) / r) by (apply Rmult_le_pos; [lra|apply Rlt_le, Rinv_0_lt_compat; lra]). lra. }
  split.
  - unfold fold_lam. pose proof (asin_bound (sin (fold_eta r S) / r)). lra.
  - rewrite fold_lam_alt by auto. assert (asin (sin (fold_eta r S) / r) < asin (r * (sin (fold_eta r S) / r))); [|lra]. apply asin_lt; nra.
Qed.
Lemma fold_pos r S : 0 < r < 1 -> 0 < S <= 1 ->
  0 < fold_lam r S <= acos r /\ off_nadir r (fold_lam r S) (fold_eta r S) /\ off_nadir r (asin S) (fold_eta r S)
  /\ (asin S <= acos r -> fold_lam r S = asin S) /\ (acos r < asin S -> fold_lam r S < acos r).
Proof.
  intros Hr HS. destruct (fold_cos_eps r S Hr ltac:(lra)) as [d [D [E [F F2]]]]. pose proof (fold_c_bound r S Hr ltac:(lra)) as B. pose proof PI_RGT_0 as P.
  pose proof (fold_eta_bound r S) as EB. pose proof (asin_lt_PI2 r Hr) as AR.
  set (c := sin (fold_eta r S) / r) in *. assert (N : 0 < c).
  { rewrite E. apply Rdiv_lt_0_compat; lra. }
  assert (SE : sin (fold_eta r S) = r * c) by (unfold c; field; lra).
  assert (ET : fold_eta r S = asin (r * c)) by (rewrite <- SE, asin_sin; lra).
  assert (EP : 0 < fold_eta r S <= asin r).
  { rewrite ET. split; [rewrite <- asin_0; apply asin_lt; nra|apply asin_le; nra]. }
  assert (L : fold_lam r S = PI / 2 - fold_eta r S - acos c).
  { unfold fold_lam. fold c. rewrite (acos_asin c) by lra. lra. }
  destruct (seen_angles r (fold_eta r S) Hr ltac:(lra)) as [_ [_ [H3 H4]]]. fold c in H3, H4. rewrite <- L in H3, H4.
  assert (OS : off_nadir r (asin S) (fold_eta r S)).
  { destruct (fold_off_nadir r S Hr ltac:(lra)) as [d' [D' [E1 [E2 _]]]]. exists d'. split; auto. rewrite sin_asin by lra. split; auto. }
  split; [split; [|lra]|split; [exact H4|split; [exact OS|split]]].
  - rewrite fold_lam_alt by auto. fold c. assert (asin (r * c) < asin c) by (apply asin_lt; nra). lra.
  - intro HL. assert (A0 : 0 <= asin S). { rewrite <- asin_0. apply asin_le; lra. }
    destruct (edge_angles r (asin S) Hr ltac:(lra)) as [_ [_ K]]. rewrite sin_asin in K by lra. fold (fold_eta r S) in K.
    unfold fold_lam. fold c. pose proof (off_nadir_sine _ _ _ OS) as Z. assert (CE : c = sin (asin S + fold_eta r S)).
    { apply Rmult_eq_reg_l with r; [|lra]. rewrite Z. lra. }
    rewrite CE, asin_sin by lra. lra.
  - intro HL. assert (NE : cos (asin S) <> r).
    { intro X. assert (Y : asin S = acos r). { rewrite <- X. rewrite acos_cos; auto. split; [rewrite <- asin_0; apply asin_le; lra|]. pose proof (asin_bound S). lra. } lra. }
    specialize (F2 NE). rewrite Rabs_pos_eq in F2 by lra. assert (C1 : c < 1).
    { rewrite E. apply Rmult_lt_reg_r with d; auto. unfold Rdiv. rewrite Rmult_assoc, Rinv_l; lra. }
    destruct H3 as [_ [H3|H3]]; auto. exfalso. pose proof (off_nadir_sine _ _ _ H4) as Z. rewrite H3 in Z.
    rewrite sin_plus, sin_acos, cos_acos in Z by lra. rewrite SE in Z. assert (CO : cos (fold_eta r S) = sqrt (1 - (r * c) * (r * c))).
    { rewrite ET, cos_asin by nra. reflexivity. }
    rewrite CO in Z. assert (Z' : sqrt (1 - r²) * sqrt (1 - r * c * (r * c)) = c * (1 - r * r)).
    { apply Rmult_eq_reg_l with r; [|lra]. lra. }
    unfold Rsqr in Z'. assert (Q1 : sqrt (1 - r * r) * sqrt (1 - r * r) = 1 - r * r) by (apply sqrt_sqrt; nra).
    assert (Q2 : sqrt (1 - r * c * (r * c)) * sqrt (1 - r * c * (r * c)) = 1 - r * c * (r * c)) by (apply sqrt_sqrt; nra).
    assert (Q3 : (1 - r * r) * (1 - r * c * (r * c)) = c * (1 - r * r) * (c * (1 - r * r))).
    { rewrite <- Z'. transitivity (sqrt (1 - r * r) * sqrt (1 - r * r) * (sqrt (1 - r * c * (r * c)) * sqrt (1 - r * c * (r * c)))); [now rewrite Q1, Q2|ring]. }
    assert (Q4 : 1 - r * c * (r * c) = c * c * (1 - r * r)). { apply Rmult_eq_reg_l with (1 - r * r); [|nra]. rewrite Q3. ring. }
    nra.
Qed.

(** ** Sizing *)
Section Soc.
Context {I : Type}.
Lemma soc_gamma_any (s : @soc I) : 0 < c_alt (soc_orbit s) ->
  soc_gamma s = Ok (degrees (fold_lam (rho (c_alt (soc_orbit s)) 0) (sin (soc_lam s)))).
Proof.
  intros Ha. set (h := c_alt (soc_orbit s)) in *. pose proof EMR_bounds as EB. pose proof PI_RGT_0 as P.
  assert (AB : above h 0) by (unfold above; lra). pose proof (rho_range h 0 AB) as Hr. set (S := sin (soc_lam s)).
  assert (SB : -1 <= S <= 1) by apply SIN_bound.
  pose proof (fold_c_bound (rho h 0) S Hr SB) as CB. pose proof (fold_eta_bound (rho h 0) S) as EtB.
  assert (V : swath_width_to_field_of_regard h (soc_swath s) 0 = Some (degrees (2 * fold_eta (rho h 0) S))).
  { unfold swath_width_to_field_of_regard. rewrite earth_sin_eq by auto. cbn [obind]. rewrite rdiv_ok by lra. cbn [obind].
    rewrite Rplus_0_r. fold (soc_lam s). fold S. unfold tan_eta. rewrite np_arcsin_in by auto. cbn [obind].
    rewrite rdiv_ok; [reflexivity|]. pose proof (COS_bound (asin S)). nra. }
  unfold soc_gamma, soc_elevation. fold h. rewrite V. cbn [obind]. unfold compute_min_elevation_angle. rewrite radians_half, earth_sin_eq by auto. cbn [obind].
  rewrite rdiv_ok by lra. cbn [obind]. set (eta := fold_eta (rho h 0) S) in *. set (c := sin eta / rho h 0) in *.
  replace (Rltb 1 c) with false by (symmetry; apply Rltb_false; lra). rewrite np_arccos_in by lra. cbn [obind bind].
  unfold py_div. destruct (Req_EM_T (EARTH_MEAN_RADIUS + h) 0) as [Z0|_]; [lra|]. cbn [bind]. rewrite radians_degrees.
  replace (EARTH_MEAN_RADIUS / (EARTH_MEAN_RADIUS + h)) with (rho h 0) by (unfold rho; now rewrite Rplus_0_r).
  rewrite cos_acos by lra. replace (rho h 0 * c) with (sin eta) by (unfold c; field; lra). pose proof (SIN_bound eta) as SB'.
  unfold math_asin. replace (Rleb (-1) (sin eta)) with true by (symmetry; apply Rleb_spec; lra). replace (Rleb (sin eta) 1) with true by (symmetry; apply Rleb_spec; lra).
  cbn [andb bind]. rewrite asin_sin by lra. f_equal. unfold fold_lam. fold eta c. rewrite acos_asin by lra. unfold degrees. field. lra.
Qed.
Lemma soc_walker_of_gamma (s : @soc I) g : soc_valid s = true -> soc_gamma s = Ok (degrees g) -> 0 < g < PI / 2 ->
  exists w k gf gp, soc_walker s = Ok w /\ walker_ok w
    /\ w_orbit w = LCirc (soc_orbit s) /\ w_name w = soc_name s /\ w_instruments w = soc_instruments s /\ w_config w = Delta /\ w_spacing w = 0%Z
    /\ w_number w = (k * w_planes w)%Z /\ per_plane w = k
    /\ 0 < gf < PI /\ sin (gf / 2) = soc_packing s * sin g /\ least_steps gf k
    /\ 0 < gp < PI /\ sin (gp / 2) = sqrt 3 / 2 * (soc_packing s * sin g) /\ least_steps gp (w_planes w)
    /\ gf <= 2 * g.
Proof.
  intros V G L. unfold soc_valid in V. apply andb_prop in V as [V V3]. apply andb_prop in V as [V1 V2].
  apply Rltb_spec in V1, V2. apply Rleb_spec in V3. pose proof PI_RGT_0 as P. pose proof EMR_bounds as EB.
  set (q := soc_packing s * sin g).
  assert (S0 : 0 < sin g) by (apply sin_gt_0; lra). assert (S1 : sin g < 1).
  { rewrite <- sin_PI2. apply sin_increasing_1; lra. }
  assert (Q : 0 < q < 1) by (unfold q; split; [apply Rmult_lt_0_compat; lra|nra]). pose proof sqrt3_bounds as S3.
  set (q' := sqrt 3 / 2 * q). assert (Q' : 0 < q' < 1) by (unfold q'; split; [apply Rmult_lt_0_compat; lra|nra]).
  pose proof (asin_lt_PI2 q Q) as A. pose proof (asin_lt_PI2 q' Q') as A'.
  destruct (least_steps_ceil (2 * asin q) ltac:(lra)) as [F1 F2]. destruct (least_steps_ceil (2 * asin q') ltac:(lra)) as [P1 P2].
  set (k := py_ceil (2 * PI / (2 * asin q))) in *. set (np := py_ceil (2 * PI / (2 * asin q'))) in *.
  set (w := mk_walker (soc_name s) (LCirc (soc_orbit s)) (soc_instruments s) Delta (k * np) np 0).
  assert (OK : walker_ok w) by (unfold walker_ok, w; simpl; nia).
  exists w, k, (2 * asin q), (2 * asin q'). split.
  { unfold soc_walker. rewrite G. cbn [bind]. rewrite radians_degrees.
    replace (1 / 2 * (2 * (EARTH_MEAN_RADIUS * sin g) * soc_packing s) / EARTH_MEAN_RADIUS) with q by (unfold q; field; lra).
    replace (1 / 2 * (sqrt 3 * (EARTH_MEAN_RADIUS * sin g) * soc_packing s) / EARTH_MEAN_RADIUS) with q' by (unfold q', q; field; lra).
    assert (MA : forall x, 0 < x < 1 -> math_asin x = Ok (asin x)).
    { intros x X. unfold math_asin. replace (Rleb (-1) x) with true by (symmetry; apply Rleb_spec; lra). replace (Rleb x 1) with true by (symmetry; apply Rleb_spec; lra). reflexivity. }
    assert (PD : forall x y, y <> 0 -> py_div x y = Ok (x / y)) by (intros x y Y; unfold py_div; destruct (Req_EM_T y 0); [contradiction|reflexivity]).
    rewrite (MA q), (MA q') by auto. cbn [bind]. rewrite PD by lra. cbn [bind]. rewrite PD by lra. cbn [bind]. fold k np. 
    apply (proj2 (proj1 (make_walker_lemma _))). exact OK. }
  split; [exact OK|]. do 5 (split; [reflexivity|]). split; [reflexivity|]. split.
  { unfold per_plane, w. cbn [w_number w_planes]. replace (- (k * np))%Z with ((- k) * np)%Z by ring. rewrite Z.div_mul by lia. lia. }
  split; [lra|]. split; [replace (2 * asin q / 2) with (asin q) by lra; apply sin_asin; lra|]. split; [exact F1|].
  split; [lra|]. split; [replace (2 * asin q' / 2) with (asin q') by lra; apply sin_asin; lra|]. split; [exact P1|].
  assert (asin q <= g); [|lra]. rewrite <- (asin_sin g) by lra. apply asin_le; try lra. unfold q. nra.
Qed.
Lemma soc_any_lemma (s : @soc I) : soc_valid s = true -> 0 < c_alt (soc_orbit s) -> 0 < sin (soc_swath s / 2 / EARTH_MEAN_RADIUS) ->
  exists w k g eta gf gp, soc_walker s = Ok w /\ soc_gamma s = Ok (degrees g) /\ walker_ok w
    /\ 0 < g <= horizon (c_alt (soc_orbit s)) 0
    /\ off_nadir (rho (c_alt (soc_orbit s)) 0) g eta /\ off_nadir (rho (c_alt (soc_orbit s)) 0) (asin (sin (soc_swath s / 2 / EARTH_MEAN_RADIUS))) eta
    /\ (asin (sin (soc_swath s / 2 / EARTH_MEAN_RADIUS)) <= horizon (c_alt (soc_orbit s)) 0 -> g = asin (sin (soc_swath s / 2 / EARTH_MEAN_RADIUS)))
    /\ (horizon (c_alt (soc_orbit s)) 0 < asin (sin (soc_swath s / 2 / EARTH_MEAN_RADIUS)) -> g < horizon (c_alt (soc_orbit s)) 0)
    /\ w_number w = (k * w_planes w)%Z /\ per_plane w = k
    /\ 0 < gf < PI /\ sin (gf / 2) = soc_packing s * sin g /\ least_steps gf k
    /\ 0 < gp < PI /\ sin (gp / 2) = sqrt 3 / 2 * (soc_packing s * sin g) /\ least_steps gp (w_planes w)
    /\ gf <= 2 * g.
Proof.
  intros V Ha HS. set (h := c_alt (soc_orbit s)) in *. pose proof EMR_bounds as EB. pose proof PI_RGT_0 as P.
  assert (AB : above h 0) by (unfold above; lra). pose proof (rho_range h 0 AB) as Hr. pose proof (soc_gamma_any s Ha) as G. fold h in G.
  fold (soc_lam s) in HS |- *. set (S := sin (soc_lam s)) in *. assert (SB : -1 <= S <= 1) by apply SIN_bound.
  destruct (fold_pos (rho h 0) S Hr ltac:(lra)) as [F1 [F2 [F3 [F4 F5]]]]. unfold horizon.
  assert (L : fold_lam (rho h 0) S < PI / 2). { pose proof (asin_lt_PI2 _ Hr). rewrite acos_asin in F1 by lra. lra. }
  destruct (soc_walker_of_gamma s _ V G ltac:(lra)) as (w & k & gf & gp & E & OK & _ & _ & _ & _ & _ & R).
  exists w, k, (fold_lam (rho h 0) S), (fold_eta (rho h 0) S), gf, gp. do 8 (split; [auto; tauto|]). exact R.
Qed.
Lemma soc_turn_lemma (s : @soc I) : 0 < c_alt (soc_orbit s) -> sin (soc_swath s / 2 / EARTH_MEAN_RADIUS) = 0 ->
  soc_walker s = Raise ZeroDivisionError.
Proof.
  intros Ha HS. set (h := c_alt (soc_orbit s)) in *. pose proof EMR_bounds as EB.
  assert (AB : above h 0) by (unfold above; lra). pose proof (rho_range h 0 AB) as Hr. pose proof (soc_gamma_any s Ha) as G. fold h in G.
  fold (soc_lam s) in HS. rewrite HS in G. rewrite (proj1 (fold_zero _ Hr)) in G. unfold soc_walker. rewrite G. cbn [bind]. rewrite radians_degrees, sin_0.
  replace (1 / 2 * (2 * (EARTH_MEAN_RADIUS * 0) * soc_packing s) / EARTH_MEAN_RADIUS) with 0 by (field; lra).
  unfold math_asin at 1. replace (Rleb (-1) 0) with true by (symmetry; apply Rleb_spec; lra). replace (Rleb 0 1) with true by (symmetry; apply Rleb_spec; lra).
  cbn [andb bind]. rewrite asin_0. unfold py_div at 1. destruct (Req_EM_T (2 * 0) 0) as [_|N]; [reflexivity|]. exfalso. apply N. ring.
Qed.
Lemma ceil_neg x : x < 0 -> (py_ceil x <= 0)%Z.
Proof.
  intro H. unfold py_ceil. destruct (base_Int_part (- x)) as [H1 H2]. assert (0 <= Int_part (- x))%Z; [|lia].
  apply Z.lt_succ_r. apply lt_IZR. unfold Z.succ. rewrite plus_IZR. lra.
Qed.
Lemma soc_far_lemma (s : @soc I) : soc_valid s = true -> 0 < c_alt (soc_orbit s) -> sin (soc_swath s / 2 / EARTH_MEAN_RADIUS) < 0 ->
  soc_walker s = Raise ValidationError.
Proof.
  intros V Ha HS. unfold soc_valid in V. apply andb_prop in V as [V V3]. apply andb_prop in V as [V1 V2].
  apply Rltb_spec in V1, V2. apply Rleb_spec in V3. set (h := c_alt (soc_orbit s)) in *. pose proof EMR_bounds as EB. pose proof PI_RGT_0 as P.
  assert (AB : above h 0) by (unfold above; lra). pose proof (rho_range h 0 AB) as Hr. pose proof (soc_gamma_any s Ha) as G. fold h in G.
  fold (soc_lam s) in HS. pose proof (SIN_bound (soc_lam s)) as SB. pose proof (fold_neg (rho h 0) _ Hr ltac:(split; [exact (proj1 SB)|exact HS])) as F.
  set (g := fold_lam (rho h 0) (sin (soc_lam s))) in *.
  assert (S0 : sin g < 0). { apply sin_lt_0_var; lra. }
  pose proof (SIN_bound g) as S1. set (q := soc_packing s * sin g).
  assert (Q : -1 <= q < 0) by (unfold q; nra). pose proof sqrt3_bounds as S3.
  set (q' := sqrt 3 / 2 * q). assert (Q' : -1 <= q' < 0) by (unfold q'; nra).
  assert (MA : forall x, -1 <= x < 0 -> math_asin x = Ok (asin x)).
  { intros x X. unfold math_asin. replace (Rleb (-1) x) with true by (symmetry; apply Rleb_spec; lra). replace (Rleb x 1) with true by (symmetry; apply Rleb_spec; lra). reflexivity. }
  assert (PD : forall x y, y <> 0 -> py_div x y = Ok (x / y)) by (intros x y Y; unfold py_div; destruct (Req_EM_T y 0); [contradiction|reflexivity]).
  assert (NEG : forall x, -1 <= x < 0 -> asin x < 0). { intros x X. rewrite <- asin_0. apply asin_lt; lra. }
  unfold soc_walker. rewrite G. cbn [bind]. rewrite radians_degrees.
  replace (1 / 2 * (2 * (EARTH_MEAN_RADIUS * sin g) * soc_packing s) / EARTH_MEAN_RADIUS) with q by (unfold q; field; lra).
  replace (1 / 2 * (sqrt 3 * (EARTH_MEAN_RADIUS * sin g) * soc_packing s) / EARTH_MEAN_RADIUS) with q' by (unfold q', q; field; lra).
  pose proof (NEG q Q). pose proof (NEG q' Q').
  rewrite (MA q), (MA q') by auto. cbn [bind]. rewrite PD by lra. cbn [bind]. rewrite PD by lra. cbn [bind].
  apply (proj2 (make_walker_lemma _)). unfold walker_ok. cbn [w_number w_planes w_spacing]. intro K.
  assert (X : 2 * PI / (2 * asin q') < 0).
  { unfold Rdiv. assert (/ (2 * asin q') < 0) by (apply Rinv_lt_0_compat; lra). nra. }
  apply ceil_neg in X. lia.
Qed.
(** The altitude matters only through the horizon. *)
Lemma least_steps_mono g g' k k' : 0 < g -> g <= g' -> least_steps g k -> least_steps g' k' -> (k' <= k)%Z.
Proof.
  intros G GG [K1 [K2 K3]] [K1' [K2' K3']]. destruct (Z_le_gt_dec k' k) as [|N]; auto. exfalso. specialize (K3' k ltac:(lia)). lra.
Qed.
Lemma half_sine_mono g g' : 0 < g < PI -> 0 < g' < PI -> sin (g / 2) <= sin (g' / 2) -> g <= g'.
Proof.
  intros H H' HS. destruct (Rle_dec g g'); auto. exfalso. assert (sin (g' / 2) < sin (g / 2)) by (apply sin_increasing_1; lra). lra.
Qed.
Lemma soc_mono_lemma (s s' : @soc I) w w' : soc_valid s = true -> soc_valid s' = true -> 0 < c_alt (soc_orbit s) -> 0 < c_alt (soc_orbit s') ->
  soc_packing s <= soc_packing s' -> soc_swath s <= soc_swath s' ->
  soc_swath s <= 2 * EARTH_MEAN_RADIUS * horizon (c_alt (soc_orbit s)) 0 ->
  soc_swath s' <= 2 * EARTH_MEAN_RADIUS * horizon (c_alt (soc_orbit s')) 0 ->
  soc_walker s = Ok w -> soc_walker s' = Ok w' ->
  (w_planes w' <= w_planes w)%Z /\ (per_plane w' <= per_plane w)%Z /\ (w_number w' <= w_number w)%Z.
Proof.
  intros V V' Ha Ha' HP HW B B' E E'.
  destruct (soc_walker_lemma s V Ha B) as (w0 & k & gf & gp & E0 & OK & _ & _ & _ & _ & _ & N & PP & F1 & F2 & F3 & P1 & P2 & P3 & _).
  destruct (soc_walker_lemma s' V' Ha' B') as (w0' & k' & gf' & gp' & E0' & OK' & _ & _ & _ & _ & _ & N' & PP' & F1' & F2' & F3' & P1' & P2' & P3' & _).
  assert (w0 = w) by congruence. assert (w0' = w') by congruence. subst w0 w0'.
  unfold soc_valid in V, V'. apply andb_prop in V as [V V3]. apply andb_prop in V as [V1 V2]. apply andb_prop in V' as [V' V3']. apply andb_prop in V' as [V1' V2'].
  apply Rltb_spec in V1, V2, V1', V2'. apply Rleb_spec in V3, V3'.
  destruct (soc_gamma_value s Ha ltac:(lra)) as [_ L]. destruct (soc_gamma_value s' Ha' ltac:(lra)) as [_ L']. pose proof EMR_bounds as EB. pose proof PI_RGT_0 as P.
  fold (soc_lam s) in *. fold (soc_lam s') in *.
  assert (LL : soc_lam s <= soc_lam s'). { unfold soc_lam, Rdiv. repeat (apply Rmult_le_compat_r; [lra || (apply Rlt_le, Rinv_0_lt_compat; lra)|]). exact HW. }
  assert (SS : sin (soc_lam s) <= sin (soc_lam s')) by (apply sin_incr_1; lra). assert (S0 : 0 < sin (soc_lam s)) by (apply sin_gt_0; lra).
  assert (QQ : soc_packing s * sin (soc_lam s) <= soc_packing s' * sin (soc_lam s')) by (apply Rmult_le_compat; lra). pose proof sqrt3_bounds as S3.
  assert (GF : gf <= gf') by (apply half_sine_mono; auto; lra).
  assert (GP : gp <= gp') by (apply half_sine_mono; auto; rewrite P2, P2'; apply Rmult_le_compat_l; lra).
  pose proof (least_steps_mono gf gf' k k' ltac:(lra) GF F3 F3') as KF. pose proof (least_steps_mono gp gp' _ _ ltac:(lra) GP P3 P3') as KP.
  rewrite N, N', PP, PP'. split; auto. split; auto. apply Z.mul_le_mono_nonneg; try lia; destruct P3' as [? _]; destruct F3' as [? _]; lia.
Qed.
(** Swaths beyond half of the circumference give the constellation of their reflection. *)
Definition with_swath (w : R) (s : @soc I) : @soc I := mk_soc (soc_name s) (soc_orbit s) (soc_instruments s) w (soc_packing s).
Lemma soc_reflect_lemma (s : @soc I) : 
  soc_walker (with_swath (2 * PI * EARTH_MEAN_RADIUS - soc_swath s) s) = soc_walker s.
Proof.
  pose proof EMR_bounds as EB. unfold soc_walker, soc_gamma, soc_elevation, with_swath. cbn [soc_name soc_orbit soc_instruments soc_swath soc_packing].
  assert (E : swath_width_to_field_of_regard (c_alt (soc_orbit s)) (2 * PI * EARTH_MEAN_RADIUS - soc_swath s) 0 = swath_width_to_field_of_regard (c_alt (soc_orbit s)) (soc_swath s) 0).
  { unfold swath_width_to_field_of_regard. rewrite !rdiv_ok by lra. cbn [obind]. rewrite Rplus_0_r.
    replace (sin ((2 * PI * EARTH_MEAN_RADIUS - soc_swath s) / 2 / EARTH_MEAN_RADIUS)) with (sin (soc_swath s / 2 / EARTH_MEAN_RADIUS)); [reflexivity|].
    rewrite <- sin_PI_x. f_equal. field. lra. }
  rewrite E. reflexivity.
Qed.
Lemma soc_wider_more_lemma (s : @soc I) w : soc_valid s = true -> 0 < c_alt (soc_orbit s) ->
  soc_swath s <= 2 * EARTH_MEAN_RADIUS * horizon (c_alt (soc_orbit s)) 0 -> soc_walker s = Ok w ->
  exists x w', soc_swath s < x < 2 * PI * EARTH_MEAN_RADIUS /\ soc_walker (with_swath x s) = Ok w' /\ (w_number w < w_number w')%Z.
Proof.
  intros V Ha B E. pose proof EMR_bounds as EB. pose proof PI_RGT_0 as P.
  destruct (soc_walker_lemma s V Ha B) as (w0 & k & gf & gp & E0 & OK & _). assert (w0 = w) by congruence. subst w0.
  pose proof V as V0. unfold soc_valid in V0. apply andb_prop in V0 as [V0 V3]. apply andb_prop in V0 as [V1 V2]. apply Rltb_spec in V1.
  set (h := c_alt (soc_orbit s)) in *. assert (AB : above h 0) by (unfold above; lra). pose proof (rho_range h 0 AB) as Hr.
  assert (HH : horizon h 0 < PI / 2). { unfold horizon. pose proof (asin_lt_PI2 _ Hr). rewrite acos_asin by lra. lra. }
  set (N := w_number w) in *. assert (N1 : (1 <= N)%Z) by (destruct OK as [? _]; unfold N; lia). assert (NR : 1 <= IZR N) by (apply IZR_le; lia).
  set (e := Rmin (soc_swath s) (2 * PI * EARTH_MEAN_RADIUS / (IZR N + 1))).
  assert (PR : 0 < 2 * PI * EARTH_MEAN_RADIUS) by (apply Rmult_lt_0_compat; lra).
  assert (E1 : 0 < e). { unfold e. apply Rmin_glb_lt; [lra|apply Rdiv_lt_0_compat; lra]. }
  assert (E2 : e <= soc_swath s) by apply Rmin_l. assert (E3 : e * (IZR N + 1) <= 2 * PI * EARTH_MEAN_RADIUS).
  { apply Rle_trans with (2 * PI * EARTH_MEAN_RADIUS / (IZR N + 1) * (IZR N + 1)); [apply Rmult_le_compat_r; [lra|apply Rmin_r]|]. right. field. lra. }
  assert (VE : soc_valid (with_swath e s) = true).
  { unfold soc_valid, with_swath. cbn. rewrite V2, V3. replace (Rltb 0 e) with true by (symmetry; apply Rltb_spec; lra). reflexivity. }
  destruct (soc_walker_lemma (with_swath e s) VE Ha) as (w' & k' & gf' & gp' & E' & OK' & _ & _ & _ & _ & _ & N' & PP' & F1 & F2 & F3 & P1 & P2 & P3 & GF).
  { cbn. fold h. lra. }
  exists (2 * PI * EARTH_MEAN_RADIUS - e), w'. split; [|split].
  - assert (2 * EARTH_MEAN_RADIUS * horizon h 0 < EARTH_MEAN_RADIUS * PI) by nra. nra.
  - rewrite <- (soc_reflect_lemma (with_swath (2 * PI * EARTH_MEAN_RADIUS - e) s)). cbn [with_swath soc_swath soc_name soc_orbit soc_instruments soc_packing].
    replace (2 * PI * EARTH_MEAN_RADIUS - (2 * PI * EARTH_MEAN_RADIUS - e)) with e by ring. exact E'.
  - cbn [with_swath soc_swath] in GF. destruct F3 as [K1 [K2 _]]. destruct P3 as [P3 _].
    assert (KR : 1 <= IZR k') by (apply IZR_le; lia).
    assert (X : 2 * PI <= gf' * IZR k'). { replace (2 * PI) with (2 * PI / IZR k' * IZR k') by (field; lra). apply Rmult_le_compat_r; lra. }
    assert (Y : gf' * EARTH_MEAN_RADIUS <= e). { replace e with (e / EARTH_MEAN_RADIUS * EARTH_MEAN_RADIUS) by (field; lra). apply Rmult_le_compat_r; lra. }
    assert (K : IZR N + 1 <= IZR k').
    { apply Rmult_le_reg_l with e; auto. apply Rle_trans with (2 * PI * EARTH_MEAN_RADIUS); [lra|].
      apply Rle_trans with (gf' * IZR k' * EARTH_MEAN_RADIUS); [apply Rmult_le_compat_r; lra|]. 
      replace (gf' * IZR k' * EARTH_MEAN_RADIUS) with (gf' * EARTH_MEAN_RADIUS * IZR k') by ring. apply Rmult_le_compat_r; lra. }
    rewrite <- plus_IZR in K. apply le_IZR in K. rewrite N'. nia.
Qed.
End Soc.
