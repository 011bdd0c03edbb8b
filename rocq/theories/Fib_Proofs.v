(** Proofs about the Fibonacci lattice and the sample count. *)
From Coq Require Import Reals ZArith List Bool Permutation Lia Lra Psatz Znumtheory.
From Verif Require Import Base RBase RFacts Grid_Model Grid_Spec Grid_Proofs.
Import ListNotations.
Open Scope R_scope.

(** ** Latitudes *)
Definition fib_sin (i n : Z) : R := 2 * (IZR i + 1) / (IZR n + 2) - 1.
Lemma fib_sin_range i n : (0 <= i < n)%Z -> -1 < fib_sin i n < 1.
Proof.
  intros [H1 H2]. apply IZR_le in H1. assert (H3 : (i + 1 <= n)%Z) by lia. apply IZR_le in H3. rewrite plus_IZR in H3.
  unfold fib_sin. assert (D : 0 < IZR n + 2) by lra.
  split.
  - assert (0 < 2 * (IZR i + 1) / (IZR n + 2)) by (apply Rdiv_lt_0_compat; lra). lra.
  - assert (2 * (IZR i + 1) / (IZR n + 2) < 2); [|lra]. apply Rmult_lt_reg_r with (IZR n + 2); auto.
    unfold Rdiv. rewrite Rmult_assoc, Rinv_l by lra. lra.
Qed.
Lemma fib_lat_sin i n : (0 <= i < n)%Z -> sin (radians (fib_lat i n)) = fib_sin i n.
Proof.
  intro H. unfold fib_lat. rewrite radians_degrees. fold (fib_sin i n).
  pose proof (fib_sin_range i n H). apply sin_asin. lra.
Qed.
Lemma fib_lat_range i n : (0 <= i < n)%Z -> -90 < fib_lat i n < 90.
Proof.
  intro H. pose proof (fib_sin_range i n H) as B. unfold fib_lat. fold (fib_sin i n).
  pose proof (asin_bound_lt (fib_sin i n) ltac:(lra)) as A.
  pose proof (proj1 (degrees_lt _ _) (proj1 A)) as A1. pose proof (proj1 (degrees_lt _ _) (proj2 A)) as A2.
  rewrite degrees_PI2 in A2. replace (degrees (- (PI / 2))) with (- degrees (PI / 2)) in A1 by (unfold degrees; lra).
  rewrite degrees_PI2 in A1. lra.
Qed.
Lemma fib_sin_step i n : (0 <= n)%Z -> fib_sin (i + 1) n - fib_sin i n = 2 / (IZR n + 2).
Proof. intro H. apply IZR_le in H. unfold fib_sin. rewrite plus_IZR. field. lra. Qed.
Lemma asin_lt x y : -1 <= x -> x < y -> y <= 1 -> asin x < asin y.
Proof.
  intros H1 H2 H3. pose proof (asin_bound x). pose proof (asin_bound y).
  apply sin_increasing_0; try lra. rewrite !sin_asin by lra. assumption.
Qed.
Lemma fib_lat_inc i j n : (0 <= i < j)%Z -> (j < n)%Z -> fib_lat i n < fib_lat j n.
Proof.
  intros H1 H2. unfold fib_lat. apply (proj1 (degrees_lt _ _)). fold (fib_sin i n) (fib_sin j n).
  pose proof (fib_sin_range i n ltac:(lia)). pose proof (fib_sin_range j n ltac:(lia)).
  apply asin_lt; try lra.
  unfold fib_sin. assert (0 < IZR n) by (apply IZR_lt; lia). destruct H1 as [A3 H4]. apply IZR_lt in H4.
  assert (2 * (IZR i + 1) / (IZR n + 2) < 2 * (IZR j + 1) / (IZR n + 2)); [|lra].
  apply Rmult_lt_compat_r; [apply Rinv_0_lt_compat; lra|lra].
Qed.
(** ** Longitudes *)
Lemma fib_lon_range i : -180 < fib_lon i <= 180.
Proof.
  unfold fib_lon. pose proof (rmod_range (360 * IZR i / golden) 360 ltac:(lra)) as B.
  destruct (Rltb 180 _) eqn:E; [apply Rltb_spec in E|apply Rltb_false in E]; lra.
Qed.
Lemma fib_lon_eqm i : eqm 360 (fib_lon i) (360 * IZR i / golden).
Proof.
  unfold fib_lon. pose proof (rmod_eqm (360 * IZR i / golden) 360) as H. destruct (Rltb 180 _); auto.
  eapply eqm_trans; [|exact H]. exists (-1)%Z. lra.
Qed.
(** 5 q^2 is not a square. *)
Lemma sqrt5_nat (q : nat) : forall p : nat, (0 < q)%nat -> (p * p = 5 * (q * q))%nat -> False.
Proof.
  induction q as [q IH] using (well_founded_induction lt_wf). intros p Hq E.
  assert (Hp : (Z.of_nat p mod 5 = 0)%Z).
  { assert (Ez : (Z.of_nat p * Z.of_nat p = 5 * (Z.of_nat q * Z.of_nat q))%Z) by lia.
    assert (D : (5 | Z.of_nat p * Z.of_nat p)%Z) by (exists (Z.of_nat q * Z.of_nat q)%Z; lia).
    assert (P5 : prime 5).
    { constructor; [lia|]. intros n Hn. assert (n = 1 \/ n = 2 \/ n = 3 \/ n = 4)%Z as [-> | [-> | [-> | ->]]] by lia;
      apply Zgcd_1_rel_prime; reflexivity. }
    apply prime_mult in D; auto. apply Zdivide_mod. tauto. }
  assert (D := Z.div_mod (Z.of_nat p) 5 ltac:(lia)). rewrite Hp in D.
  set (r := Z.to_nat (Z.of_nat p / 5)). assert (Hr : p = (5 * r)%nat) by (unfold r; lia). clearbody r.
  assert (E2 : (q * q = 5 * (r * r))%nat) by (rewrite Hr in E; nia).
  apply (IH r) with q; auto; nia.
Qed.
Lemma sqrt5_Z (p q : Z) : (p * p = 5 * (q * q))%Z -> q = 0%Z.
Proof.
  intro E. destruct (Z.eq_dec q 0) as [|N]; auto. exfalso.
  apply (sqrt5_nat (Z.to_nat (Z.abs q)) (Z.to_nat (Z.abs p))); [lia|]. nia.
Qed.
Lemma golden_pos : 1 < golden.
Proof. unfold golden. assert (1 < sqrt 5); [|lra]. rewrite <- sqrt_1 at 1. apply sqrt_lt_1; lra. Qed.
Lemma fib_lon_distinct i j : fib_lon i = fib_lon j -> i = j.
Proof.
  intro E. assert (H : eqm 360 (360 * IZR i / golden) (360 * IZR j / golden)).
  { eapply eqm_trans; [apply eqm_sym, fib_lon_eqm|]. rewrite E. apply fib_lon_eqm. }
  destruct H as [k Hk]. pose proof golden_pos as G.
  assert (E1 : IZR i = IZR j + IZR k * golden).
  { apply (f_equal (fun t => t * golden / 360)) in Hk. field_simplify in Hk; lra. }
  assert (E2 : IZR k * sqrt 5 = IZR (2 * (i - j) - k)).
  { rewrite minus_IZR, mult_IZR, minus_IZR. unfold golden in E1. lra. }
  assert (E3 : IZR ((2 * (i - j) - k) * (2 * (i - j) - k)) = IZR (5 * (k * k))).
  { rewrite mult_IZR, <- E2, !mult_IZR. replace (IZR k * sqrt 5 * (IZR k * sqrt 5)) with (IZR k * IZR k * (sqrt 5 * sqrt 5)) by ring.
    rewrite sqrt_sqrt by lra. ring. }
  apply eq_IZR in E3. apply sqrt5_Z in E3. subst k. rewrite Rmult_0_l, Rplus_0_r in E1. now apply eq_IZR.
Qed.
(** ** Symmetry *)
Lemma fib_mirror i n : (1 <= i < n)%Z -> fib_lat (n - i) n = - fib_lat i n.
Proof.
  intro H. unfold fib_lat. fold (fib_sin i n) (fib_sin (n - i) n).
  assert (E : fib_sin (n - i) n = - fib_sin i n).
  { unfold fib_sin. rewrite minus_IZR. assert (0 < IZR n) by (apply IZR_lt; lia). field. lra. }
  rewrite E, asin_opp. unfold degrees. lra.
Qed.
Lemma fib_south_alone n j : (1 <= n)%Z -> (0 <= j < n)%Z -> fib_lat j n <> - fib_lat 0 n.
Proof.
  intros Hn Hj E. assert (S1 := fib_lat_sin j n Hj). assert (S0 := fib_lat_sin 0 n ltac:(lia)).
  rewrite E in S1. replace (radians (- fib_lat 0 n)) with (- radians (fib_lat 0 n)) in S1 by (unfold radians; lra).
  rewrite sin_neg, S0 in S1. assert (0 < IZR n) by (apply IZR_lt; lia).
  assert (IZR j = IZR n).
  { unfold fib_sin in S1. assert (X : (- (2 * (0 + 1) / (IZR n + 2) - 1)) * (IZR n + 2) = (2 * (IZR j + 1) / (IZR n + 2) - 1) * (IZR n + 2)) by (rewrite S1; reflexivity).
    field_simplify in X; lra. }
  apply eq_IZR in H0. lia.
Qed.
(** ** Masks *)
Section M.
Variable clip_points : (R -> R -> Prop) -> list gpoint -> list gpoint.
Hypothesis Hclip : clips_points clip_points.
Definition shifted (mx : R) (lon : R) : R := if Rlt_dec 180 mx then (if Rlt_dec lon 0 then lon + 360 else lon) else lon.
Lemma fib_lon_shifted_eq mx i : fib_lon_shifted mx i = shifted mx (fib_lon i).
Proof.
  unfold fib_lon_shifted, shifted, Rltb. destruct (Rlt_dec 180 mx); destruct (Rlt_dec (fib_lon i) 0); reflexivity.
Qed.
Lemma fib_masked_general n m ps :
  bounded_mask m -> max_lon (mk_bnds m) <> -180 -> fib_points clip_points n (Some m) = Ok ps ->
  let all := map (fun i => mk_gpoint i (shifted (max_lon (mk_bnds m)) (fib_lon i)) (fib_lat i n)) (py_range 0 n) in
  exists rest, Permutation all (ps ++ rest)
    /\ Forall (fun g => mk_covers m (g_lon g) (g_lat g)) ps /\ Forall (fun g => ~ mk_covers m (g_lon g) (g_lat g)) rest.
Proof.
  intros Hb H0 H. unfold fib_points in H. destruct (mk_valid m) eqn:V; [|simpl in H; rewrite V in H; discriminate].
  rewrite valid_bounds in H by auto. cbn [bind] in H. injection H as <-.
  set (b := mk_bnds m) in *. set (f := fun i => mk_gpoint i (fib_lon_shifted (max_lon b) i) (fib_lat i n)).
  destruct (Hclip (mk_covers m) (map f (filter (fib_in_box b n) (py_range 0 n)))) as [rest [Hp [Hin Hout]]].
  exists (rest ++ map f (filter (fun i => negb (fib_in_box b n i)) (py_range 0 n))). cbv zeta. split; [|split; auto].
  - rewrite app_assoc.
    eapply Permutation_trans; [|apply Permutation_app_tail, Hp]. rewrite <- map_app.
    rewrite (map_ext (fun i => mk_gpoint i (shifted (max_lon b) (fib_lon i)) (fib_lat i n)) f).
    2:{ intro i. unfold f. now rewrite fib_lon_shifted_eq. }
    apply Permutation_map. generalize (py_range 0 n). induction l as [|i l IH]; simpl; auto.
    destruct (fib_in_box b n i); simpl; [now apply perm_skip|]. now apply Permutation_cons_app.
  - apply Forall_app. split; auto. apply Forall_forall. intros g Hg C. apply in_map_iff in Hg. destruct Hg as [i [<- Hi]].
    apply filter_In in Hi. destruct Hi as [_ Hi]. apply negb_true_iff in Hi. unfold f in C. simpl in C.
    apply Hb in C. unfold rect in C. fold b in C.
    assert (X : fib_in_box b n i = true); [|congruence].
    unfold fib_in_box. rewrite !andb_true_iff, !Rleb_spec. tauto.
Qed.
Lemma fib_global n : fib_points clip_points n None = Ok (map (fun i => mk_gpoint i (fib_lon i) (fib_lat i n)) (py_range 0 n)).
Proof. reflexivity. Qed.
Lemma fib_masked_regular n m ps all :
  bounded_mask m -> max_lon (mk_bnds m) <= 180 -> max_lon (mk_bnds m) <> -180 ->
  fib_points clip_points n None = Ok all -> fib_points clip_points n (Some m) = Ok ps ->
  exists rest, Permutation all (ps ++ rest)
    /\ Forall (fun g => mk_covers m (g_lon g) (g_lat g)) ps /\ Forall (fun g => ~ mk_covers m (g_lon g) (g_lat g)) rest.
Proof.
  intros Hb H1 H0 Ha Hp. rewrite fib_global in Ha. injection Ha as <-.
  destruct (fib_masked_general n m ps Hb H0 Hp) as [rest [P Q]]. exists rest. split; auto.
  rewrite <- P. apply Permutation_refl'. apply map_ext. intro i. unfold shifted. destruct (Rlt_dec 180 _); [lra|reflexivity].
Qed.
Lemma fib_ids n : map g_id (map (fun i => mk_gpoint i (fib_lon i) (fib_lat i n)) (py_range 0 n)) = py_range 0 n.
Proof. rewrite map_map. apply map_id. Qed.
Lemma fib_masked_wide n m ps g :
  bounded_mask m -> 180 < max_lon (mk_bnds m) -> fib_points clip_points n (Some m) = Ok ps ->
  (In g ps <-> exists i, (0 <= i < n)%Z /\ g = mk_gpoint i (if Rlt_dec (fib_lon i) 0 then fib_lon i + 360 else fib_lon i) (fib_lat i n)
     /\ mk_covers m (g_lon g) (g_lat g)).
Proof.
  intros Hb H1 Hp. destruct (fib_masked_general n m ps Hb ltac:(lra) Hp) as [rest [P [Q1 Q2]]].
  rewrite Forall_forall in Q1, Q2.
  assert (A : forall g, In g (ps ++ rest) <-> exists i, (0 <= i < n)%Z /\ g = mk_gpoint i (if Rlt_dec (fib_lon i) 0 then fib_lon i + 360 else fib_lon i) (fib_lat i n)).
  { intro g'. split.
    - intro H. apply (Permutation_in _ (Permutation_sym P)) in H. apply in_map_iff in H. destruct H as [i [<- Hi]].
      apply py_range_In in Hi. exists i. split; auto. unfold shifted. destruct (Rlt_dec 180 _); [reflexivity|lra].
    - intros [i [Hi ->]]. apply (Permutation_in _ P). apply in_map_iff. exists i. split; [|now apply py_range_In].
      unfold shifted. destruct (Rlt_dec 180 _); [reflexivity|lra]. }
  split.
  - intro H. destruct (proj1 (A g)) as [i [Hi E]]; [apply in_or_app; now left|]. exists i. auto.
  - intros [i [Hi [E C]]]. assert (In g (ps ++ rest)) by (apply A; eauto). apply in_app_or in H. destruct H as [H|H]; auto.
    exfalso. now apply (Q2 g).
Qed.
End M.

(** ** Sample count *)
Lemma flattening_bounds : 0 < EARTH_FLATTENING < 1 / 100.
Proof. unfold EARTH_FLATTENING. lra. Qed.
Lemma ecc_bounds : 0 < EARTH_ECCENTRICITY < 1.
Proof.
  pose proof flattening_bounds as F. unfold EARTH_ECCENTRICITY. split.
  - apply sqrt_lt_R0. nra.
  - rewrite <- sqrt_1. apply sqrt_lt_1; nra.
Qed.
Lemma ln_pos x : 1 < x -> 0 < ln x.
Proof. intro H. rewrite <- ln_1. apply ln_increasing; lra. Qed.
Lemma surface_lower : 2 * PI * EARTH_EQUATORIAL_RADIUS ^ 2 < EARTH_SURFACE_AREA.
Proof.
  unfold EARTH_SURFACE_AREA. pose proof ecc_bounds as E. pose proof PI_RGT_0 as P.
  assert (0 < ln ((1 + EARTH_ECCENTRICITY) / (1 - EARTH_ECCENTRICITY))).
  { apply ln_pos. apply Rmult_lt_reg_r with (1 - EARTH_ECCENTRICITY); [lra|]. unfold Rdiv. rewrite Rmult_assoc, Rinv_l by lra. lra. }
  assert (0 < PI * EARTH_POLAR_RADIUS ^ 2 / EARTH_ECCENTRICITY).
  { apply Rdiv_lt_0_compat; [|lra]. apply Rmult_lt_0_compat; auto. apply pow_lt. unfold EARTH_POLAR_RADIUS. lra. }
  pose proof (Rmult_lt_0_compat _ _ H0 H). lra.
Qed.
(** Area of a spherical cap of angular diameter distance / mean radius. *)
Definition cap_area (d : R) : R := 2 * PI * EARTH_MEAN_RADIUS ^ 2 * (1 - cos (d / EARTH_MEAN_RADIUS / 2)).
Lemma half_angle d : 0 < d <= 2 * PI * EARTH_MEAN_RADIUS -> 0 < d / EARTH_MEAN_RADIUS / 2 <= PI.
Proof.
  intro H. pose proof EMR_bounds as B. split.
  - apply Rdiv_lt_0_compat; [|lra]. apply Rdiv_lt_0_compat; lra.
  - apply Rmult_le_reg_r with (2 * EARTH_MEAN_RADIUS); [lra|]. replace (d / EARTH_MEAN_RADIUS / 2 * (2 * EARTH_MEAN_RADIUS)) with d by (field; lra). lra.
Qed.
Lemma cap_pos d : 0 < d <= 2 * PI * EARTH_MEAN_RADIUS -> 0 < cap_area d.
Proof.
  intro H. pose proof (half_angle d H) as A. pose proof EMR_bounds. pose proof PI_RGT_0. unfold cap_area.
  assert (cos (d / EARTH_MEAN_RADIUS / 2) < 1). { rewrite <- cos_0. apply cos_decreasing_1; lra. }
  apply Rmult_lt_0_compat; [|lra]. apply Rmult_lt_0_compat; [lra|]. apply pow_lt. lra.
Qed.
Lemma cap_mono d d' : 0 < d -> d <= d' -> d' <= 2 * PI * EARTH_MEAN_RADIUS -> cap_area d <= cap_area d'.
Proof.
  intros H1 H2 H3. pose proof (half_angle d ltac:(lra)) as A. pose proof (half_angle d' ltac:(lra)) as A'.
  pose proof EMR_bounds. pose proof PI_RGT_0. unfold cap_area. apply Rmult_le_compat_l.
  - apply Rlt_le, Rmult_lt_0_compat; [lra|apply pow_lt; lra].
  - assert (cos (d' / EARTH_MEAN_RADIUS / 2) <= cos (d / EARTH_MEAN_RADIUS / 2)); [|lra].
    apply cos_decr_1; try lra. unfold Rdiv. apply Rmult_le_compat_r; [lra|]. apply Rmult_le_compat_r; [|lra].
    apply Rlt_le, Rinv_0_lt_compat. lra.
Qed.
Lemma surface_pos : 0 < EARTH_SURFACE_AREA.
Proof.
  pose proof surface_lower. pose proof PI_RGT_0. assert (0 < 2 * PI * EARTH_EQUATORIAL_RADIUS ^ 2); [|lra].
  apply Rmult_lt_0_compat; [lra|]. apply pow_lt. unfold EARTH_EQUATORIAL_RADIUS. lra.
Qed.
Lemma number_samples_value d : 0 < d <= 2 * PI * EARTH_MEAN_RADIUS ->
  compute_number_samples d = Ok (Int_part (EARTH_SURFACE_AREA / cap_area d)).
Proof.
  intro H. pose proof (cap_pos d H) as C. unfold compute_number_samples.
  replace (2 * PI * EARTH_MEAN_RADIUS * (EARTH_MEAN_RADIUS - EARTH_MEAN_RADIUS * cos (d / EARTH_MEAN_RADIUS / 2))) with (cap_area d) by (unfold cap_area; ring).
  destruct (Req_EM_T _ _) as [E|_]; [lra|]. rewrite py_trunc_nonneg; auto.
  apply Rlt_le, Rdiv_lt_0_compat; auto. apply surface_pos.
Qed.
Lemma number_samples_fit d : 0 < d <= 2 * PI * EARTH_MEAN_RADIUS ->
  exists n, compute_number_samples d = Ok n /\ (0 <= n)%Z
    /\ IZR n * cap_area d <= EARTH_SURFACE_AREA < (IZR n + 1) * cap_area d.
Proof.
  intro H. exists (Int_part (EARTH_SURFACE_AREA / cap_area d)). split; [now apply number_samples_value|].
  pose proof (cap_pos d H) as C. pose proof surface_pos as S0. pose proof (Int_part_bounds (EARTH_SURFACE_AREA / cap_area d)) as B.
  assert (0 < EARTH_SURFACE_AREA / cap_area d) by (now apply Rdiv_lt_0_compat).
  assert (E : EARTH_SURFACE_AREA / cap_area d * cap_area d = EARTH_SURFACE_AREA) by (field; lra).
  split.
  - assert (IZR (-1) < IZR (Int_part (EARTH_SURFACE_AREA / cap_area d))) by (simpl; lra). apply lt_IZR in H1. lia.
  - set (q := EARTH_SURFACE_AREA / cap_area d) in *. rewrite <- E. split.
    + apply Rmult_le_compat_r; lra. + apply Rmult_lt_compat_r; lra.
Qed.
Lemma number_samples_mono d d' n n' : 0 < d -> d <= d' -> d' <= 2 * PI * EARTH_MEAN_RADIUS ->
  compute_number_samples d = Ok n -> compute_number_samples d' = Ok n' -> (n' <= n)%Z.
Proof.
  intros H1 H2 H3 E E'. destruct (number_samples_fit d ltac:(lra)) as [k [Ek [K0 K]]]. destruct (number_samples_fit d' ltac:(lra)) as [k' [Ek' [K0' K']]].
  rewrite E in Ek. rewrite E' in Ek'. injection Ek as ->. injection Ek' as ->.
  pose proof (cap_mono d d' H1 H2 H3) as M. pose proof (cap_pos d ltac:(lra)) as P.
  destruct (Z_le_gt_dec k' k) as [|G]; auto. exfalso.
  assert (L : (k + 1 <= k')%Z) by lia. apply IZR_le in L. rewrite plus_IZR in L. apply IZR_le in K0. nra.
Qed.
Lemma number_samples_pos d n : 0 < d <= PI * EARTH_MEAN_RADIUS -> compute_number_samples d = Ok n -> (1 <= n)%Z.
Proof.
  intros H E. pose proof PI_RGT_0 as P. pose proof EMR_bounds as B.
  assert (H' : 0 < d <= 2 * PI * EARTH_MEAN_RADIUS).
  { split; [lra|]. apply Rle_trans with (PI * EARTH_MEAN_RADIUS); [lra|]. nra. }
  rewrite (number_samples_value d H') in E. injection E as <-.
  assert (1 <= EARTH_SURFACE_AREA / cap_area d).
  { pose proof (cap_pos d H') as C. apply Rmult_le_reg_r with (cap_area d); auto.
    replace (EARTH_SURFACE_AREA / cap_area d * cap_area d) with EARTH_SURFACE_AREA by (field; lra).
    assert (cap_area d <= 2 * PI * EARTH_MEAN_RADIUS ^ 2).
    { assert (0 <= cos (d / EARTH_MEAN_RADIUS / 2)).
      { apply cos_ge_0.
        - pose proof (half_angle d H'). lra.
        - apply Rmult_le_reg_r with (2 * EARTH_MEAN_RADIUS); [lra|]. replace (d / EARTH_MEAN_RADIUS / 2 * (2 * EARTH_MEAN_RADIUS)) with d by (field; lra). lra. }
      unfold cap_area. assert (0 < 2 * PI * EARTH_MEAN_RADIUS ^ 2) by (apply Rmult_lt_0_compat; [lra|apply pow_lt; lra]). nra. }
    pose proof surface_lower. assert (EARTH_MEAN_RADIUS ^ 2 <= EARTH_EQUATORIAL_RADIUS ^ 2).
    { apply pow_incr. unfold EARTH_EQUATORIAL_RADIUS. lra. }
    assert (2 * PI * EARTH_MEAN_RADIUS ^ 2 <= 2 * PI * EARTH_EQUATORIAL_RADIUS ^ 2) by (apply Rmult_le_compat_l; lra). lra. }
  pose proof (Int_part_bounds (EARTH_SURFACE_AREA / cap_area d)).
  assert (IZR 0 < IZR (Int_part (EARTH_SURFACE_AREA / cap_area d))) by lra. apply lt_IZR in H2. lia.
Qed.
Lemma number_samples_zero : compute_number_samples 0 = Raise ZeroDivisionError.
Proof.
  unfold compute_number_samples. replace (0 / EARTH_MEAN_RADIUS / 2) with 0 by (pose proof EMR_bounds; field; lra). rewrite cos_0.
  destruct (Req_EM_T _ _) as [|N]; auto. exfalso. apply N. ring.
Qed.

(** ** Witnesses used by the property file *)
Lemma Rlt_0_100 : 0 < 100. Proof. lra. Qed.
Lemma step_100 : 0 < 100 < 360. Proof. lra. Qed.
Lemma overshoot_100 : 360 < IZR (round_half_even (360 / 100)) * 100.
Proof. pose proof (rhe_bounds (360 / 100)). assert (3 < round_half_even (360 / 100))%Z; [apply lt_IZR; lra|].
  assert (4 <= round_half_even (360 / 100))%Z by lia. apply IZR_le in H1. lra. Qed.
Lemma ids_as_indices clip th :
  NoDup (map g_id (match gen_points clip th th None with Ok l => l | Raise _ => [] end)) ->
  NoDup (map (fun ij => point_id (fst ij) (snd ij) th th) (grid_indices th th globe NoStrips)).
Proof. cbn [gen_points bind get_bounds]. rewrite map_map. auto. Qed.
Lemma cells_ids_whole clip hull (k : Z) th s l :
  (1 <= k)%Z -> IZR k * th = 360 -> gen_cells clip hull th th None s = Ok l -> NoDup (map sh_id l).
Proof.
  intros Hk E. apply IZR_le in Hk. assert (Ht : 0 < th).
  { destruct (Rlt_dec 0 th); auto. exfalso. nra. }
  assert (Q : 360 / th = IZR k) by (rewrite <- E; field; lra).
  apply cells_ids_global.
  - split; auto. nra.
  - rewrite Q, rhe_integer. symmetry. apply Int_part_unique. lra.
Qed.
Lemma masked_case : clips_points some_clip /\ clips_cells some_clip_cells /\ hulls some_hull
  /\ exists ps p, gen_points some_clip 10 10 (Some (square_mask (-10) 10 (-10) 10)) = Ok ps /\ In p ps.
Proof.
  split; [exact some_clip_ok|]. split; [exact some_clip_cells_ok|]. split; [exact some_hull_ok|].
  assert (exists ps, gen_points some_clip 10 10 (Some (square_mask (-10) 10 (-10) 10)) = Ok ps) as [ps H].
  { unfold gen_points. rewrite valid_bounds; [|reflexivity|simpl; lra]. eexists. reflexivity. }
  destruct (masked_points_complete some_clip some_clip_ok 10 10 (square_mask (-10) 10 (-10) 10) ps 18 9 5 5) as [g [Hg _]];
    try (simpl; unfold rect; lra); auto.
  exists ps, g. auto.
Qed.
Lemma strips_cover clipc (Hc : clips_cells clipc) hull (Hh : hulls hull) thi thj m cs x y :
  0 < thi -> 0 < thj -> mk_valid m = true -> bounded_mask m -> max_lon (mk_bnds m) <> -180 -> mk_covers m x y ->
  (gen_cells clipc hull thi thj (Some m) LatStrips = Ok cs
     /\ min_lat (mk_bnds m) + thj / 2 < y < max_lat (mk_bnds m) - thj / 2
   \/ gen_cells clipc hull thi thj (Some m) LonStrips = Ok cs
     /\ min_lon (mk_bnds m) + thi / 2 < x < max_lon (mk_bnds m) - thi / 2) ->
  exists c, In c cs /\ sh_set c x y.
Proof.
  intros Hi Hj Hv Hb H0 Hm [[H1 H2]|[H1 H2]].
  - exact (lat_strips_cover clipc Hc hull Hh thi thj m cs x y Hj Hv Hb H0 H1 Hm H2).
  - exact (lon_strips_cover clipc Hc hull Hh thi thj m cs x y Hi Hv Hb H0 H1 Hm H2).
Qed.
Lemma no_cells clipc (Hc : clips_cells clipc) hull :
  regular_mask (square_mask 1 4 1 4) /\ mk_covers (square_mask 1 4 1 4) 2 2
  /\ gen_cells clipc hull 10 10 (Some (square_mask 1 4 1 4)) NoStrips = Ok [].
Proof.
  split; [apply square_regular; lra|]. split; [simpl; unfold rect; lra|].
  unfold gen_cells. rewrite valid_bounds; [|reflexivity|simpl; lra]. cbn [bind]. f_equal.
  assert (C : col_range 10 (mk_bnds (square_mask 1 4 1 4)) = []).
  { destruct (col_range 10 (mk_bnds (square_mask 1 4 1 4))) as [|i r] eqn:E; auto. exfalso.
    assert (H : In i (col_range 10 (mk_bnds (square_mask 1 4 1 4)))) by (rewrite E; now left).
    unfold col_range in H. apply py_range_In in H. simpl in H.
    pose proof (range_lo _ 10 _ ltac:(lra) (proj1 H)). pose proof (range_hi _ 10 _ ltac:(lra) (proj2 H)).
    assert (17 < i)%Z by (apply lt_IZR; lra). assert (i < 18)%Z by (apply lt_IZR; lra). lia. }
  assert (G : grid_indices 10 10 (mk_bnds (square_mask 1 4 1 4)) NoStrips = []).
  { simpl grid_indices. simpl in C. rewrite C. generalize (row_range 10 (mk_bounds 1 1 4 4)). induction l; simpl; auto. }
  rewrite G. simpl. destruct (clipc (rect 1 4 1 4) []) as [|r l] eqn:E; auto. exfalso.
  assert (H : In r (clipc (rect 1 4 1 4) [])) by (rewrite E; now left). apply Hc in H. destruct H as [? [[] _]].
Qed.
Lemma fib_latitudes n i : (0 <= i < n)%Z ->
  -90 < fib_lat i n < 90
  /\ (forall j, (i < j < n)%Z -> fib_lat i n < fib_lat j n)
  /\ ((i + 1 < n)%Z -> sin (radians (fib_lat (i + 1) n)) - sin (radians (fib_lat i n)) = 2 / (IZR n + 2)).
Proof.
  intro H. split; [now apply fib_lat_range|]. split.
  - intros j Hj. apply fib_lat_inc; lia.
  - intro H1. rewrite !fib_lat_sin by lia. apply fib_sin_step. lia.
Qed.
Lemma fib_mirrored n i : (1 <= i < n)%Z -> (0 <= n - i < n)%Z /\ fib_lat (n - i) n = - fib_lat i n.
Proof. intro H. split; [lia|now apply fib_mirror]. Qed.
