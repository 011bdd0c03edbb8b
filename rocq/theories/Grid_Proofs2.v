(** Proofs that generated points can be used as points of an analysis (C148). *)
From Coq Require Import Reals ZArith List Bool Permutation Lia Lra Psatz.
From Verif Require Import Base RBase RFacts Grid_Model Grid_Spec Grid_Proofs Fib_Proofs.
Import ListNotations.
Open Scope R_scope.

Lemma accepted_iff g : point_accepted g = true <-> (0 <= g_id g)%Z /\ -90 <= g_lat g <= 90 /\ -180 <= g_lon g <= 180.
Proof. unfold point_accepted. rewrite !andb_true_iff, !Rleb_spec, Z.leb_le. tauto. Qed.
Lemma py_trunc_ge0 x : 0 <= x -> (0 <= py_trunc x)%Z.
Proof.
  intro H. rewrite py_trunc_nonneg by auto. destruct (base_Int_part x) as [H1 H2].
  assert (-1 < IZR (Int_part x)) by lra. change (-1) with (IZR (-1)) in H0. apply lt_IZR in H0. lia.
Qed.
Lemma np_mod_ge0 i n : (0 <= n)%Z -> (0 <= np_mod i n)%Z.
Proof. intro H. unfold np_mod. destruct (Z.eqb_spec n 0); [lia|]. apply Z.mod_pos_bound. lia. Qed.
Lemma point_id_ge0 i j thi thj : 0 < thi -> 0 < thj -> (0 <= j)%Z -> (0 <= point_id i j thi thj)%Z.
Proof.
  intros Hi Hj H. unfold point_id.
  assert (A : (0 <= py_trunc (360 / thj))%Z) by (apply py_trunc_ge0, Rlt_le, Rdiv_lt_0_compat; lra).
  assert (B : (0 <= py_trunc (360 / thi))%Z) by (apply py_trunc_ge0, Rlt_le, Rdiv_lt_0_compat; lra).
  pose proof (np_mod_ge0 i _ B). nia.
Qed.

Section V.
Variable clip_points : (R -> R -> Prop) -> list gpoint -> list gpoint.
Hypothesis Hclip : clips_points clip_points.

Lemma global_grid_valid thi thj ps :
  0 < thi -> 0 < thj -> gen_points clip_points thi thj None = Ok ps -> Forall (fun g => point_accepted g = true) ps.
Proof.
  intros Hi Hj H. apply Forall_forall. intros g Hg. apply accepted_iff.
  pose proof (global_points_In clip_points thi thj ps Hi Hj H g Hg). split; [|tauto].
  unfold gen_points in H. cbn [bind get_bounds] in H. injection H as <-.
  apply in_map_iff in Hg. destruct Hg as [[i j] [<- Hg]]. apply grid_indices_In in Hg. destruct Hg as [_ G2].
  rewrite globe_row in G2 by auto. apply py_range_In in G2. simpl. apply point_id_ge0; auto. lia.
Qed.
Lemma masked_grid_valid thi thj m ps :
  0 < thi -> 0 < thj -> regular_mask m -> gen_points clip_points thi thj (Some m) = Ok ps ->
  Forall (fun g => point_accepted g = true) ps.
Proof.
  intros Hi Hj Hm H. apply Forall_forall. intros g Hg.
  assert (exists all, gen_points clip_points thi thj None = Ok all) as [all Ha] by (eexists; reflexivity).
  pose proof (masked_points_global clip_points Hclip thi thj m ps all g Hi Hj Hm H Ha Hg) as G.
  exact (proj1 (Forall_forall _ _) (global_grid_valid thi thj all Hi Hj Ha) g G).
Qed.
Lemma global_fib_valid n ps : fib_points clip_points n None = Ok ps -> Forall (fun g => point_accepted g = true) ps.
Proof.
  rewrite fib_global. intro H. injection H as <-. apply Forall_forall. intros g Hg. apply in_map_iff in Hg.
  destruct Hg as [i [<- Hi]]. apply py_range_In in Hi. apply accepted_iff. simpl.
  pose proof (fib_lat_range i n Hi). pose proof (fib_lon_range i). repeat split; try lra; lia.
Qed.
Lemma masked_fib_valid n m ps : regular_mask m -> fib_points clip_points n (Some m) = Ok ps ->
  Forall (fun g => point_accepted g = true) ps.
Proof.
  intros [Hv [Hb [B1 [B2 [B3 [B4 B5]]]]]] H.
  destruct (fib_masked_regular clip_points Hclip n m ps _ Hb B2 B3 (fib_global clip_points n) H) as [rest [P _]].
  pose proof (global_fib_valid n _ (fib_global clip_points n)) as G. rewrite Forall_forall in G.
  apply Forall_forall. intros g Hg. apply G. apply (Permutation_in g (Permutation_sym P)). apply in_or_app. now left.
Qed.
Lemma wide_grid_point :
  exists ps g, gen_points clip_points 10 10 (Some (square_mask 170 190 (-10) 10)) = Ok ps /\ In g ps
    /\ g_lon g = 185 /\ point_accepted g = false.
Proof.
  assert (exists ps, gen_points clip_points 10 10 (Some (square_mask 170 190 (-10) 10)) = Ok ps) as [ps H].
  { unfold gen_points. rewrite valid_bounds by (simpl; auto; lra). cbn [bind]. eexists; reflexivity. }
  destruct (masked_points_complete clip_points Hclip 10 10 (square_mask 170 190 (-10) 10) ps 36 9 185 5) as [g [Hg [E1 [E2 E3]]]];
    try (simpl; unfold rect; lra); auto.
  exists ps, g. repeat split; auto. destruct (point_accepted g) eqn:A; auto. apply accepted_iff in A. lra.
Qed.
Lemma fib_lon_1 : -180 < fib_lon 1 < 0.
Proof.
  pose proof golden_pos as G. assert (G2 : golden < 2).
  { unfold golden. assert (sqrt 5 < 3); [|lra]. rewrite <- (sqrt_square 3) by lra. apply sqrt_lt_1; lra. }
  split; [exact (proj1 (fib_lon_range 1))|].
  unfold fib_lon. cbv zeta.
  assert (Q : 180 < 360 * 1 / golden < 360).
  { split; (apply Rmult_lt_reg_r with golden; [lra|]); unfold Rdiv; rewrite ?Rmult_assoc, ?Rinv_l by lra; lra. }
  assert (E : rmod (360 * 1 / golden) 360 = 360 * 1 / golden).
  { apply rmod_small. lra. }
  rewrite E. unfold Rltb. destruct (Rlt_dec 180 _); lra.
Qed.
Lemma wide_fib_point n : (2 <= n)%Z ->
  exists ps g, fib_points clip_points n (Some (square_mask 0 360 (-90) 90)) = Ok ps /\ In g ps
    /\ 180 < g_lon g /\ point_accepted g = false.
Proof.
  intro Hn. set (m := square_mask 0 360 (-90) 90).
  assert (exists ps, fib_points clip_points n (Some m) = Ok ps) as [ps H].
  { unfold fib_points. rewrite valid_bounds by (simpl; auto; lra). cbn [bind]. eexists; reflexivity. }
  pose proof fib_lon_1 as L. pose proof (fib_lat_range 1 n ltac:(lia)) as T.
  set (g := mk_gpoint 1 (fib_lon 1 + 360) (fib_lat 1 n)).
  assert (Hg : In g ps).
  { apply (fib_masked_wide clip_points Hclip n m ps g); [intros x y Hx; exact Hx|simpl; lra|exact H|].
    exists 1%Z. split; [lia|]. split; [unfold g; destruct (Rlt_dec (fib_lon 1) 0); [reflexivity|lra]|].
    simpl. unfold rect. lra. }
  exists ps, g. repeat split; auto; [simpl; lra|]. destruct (point_accepted g) eqn:A; auto. apply accepted_iff in A. simpl in A. lra.
Qed.
(** Masks may leave the globe to the east only. *)
Lemma row_ge0 thj b j : 0 < thj -> -90 <= min_lat b -> In j (row_range thj b) -> (0 <= j)%Z.
Proof.
  intros Hj Hb H. unfold row_range in H. apply py_range_In in H.
  assert (M : (round_half_even (0 / thj) <= round_half_even ((min_lat b + 90) / thj))%Z).
  { apply rhe_mono. apply Rmult_le_reg_r with thj; auto. rewrite !div_eq by auto. lra. }
  rewrite rhe_zero in M by auto. lia.
Qed.
Lemma grid_valid_iff thi thj m ps g :
  0 < thi -> 0 < thj -> bounded_mask m -> -180 <= min_lon (mk_bnds m) -> -90 <= min_lat (mk_bnds m) -> max_lat (mk_bnds m) <= 90 ->
  gen_points clip_points thi thj (Some m) = Ok ps -> In g ps -> (point_accepted g = true <-> g_lon g <= 180).
Proof.
  intros Hi Hj Hb B1 B2 B3 H Hg. unfold gen_points in H. destruct (get_bounds (Some m)) as [b|] eqn:E; cbn [bind] in H; [|discriminate].
  injection H as <-. apply (clip_In clip_points Hclip) in Hg. destruct Hg as [Hg Hc]. apply Hb in Hc. unfold rect in Hc.
  apply in_map_iff in Hg. destruct Hg as [[i j] [<- Hg]]. apply grid_indices_In in Hg. destruct Hg as [_ G2].
  assert (0 <= g_id (grid_point thi thj (i, j)))%Z.
  { simpl. apply point_id_ge0; auto. apply (row_ge0 thj b); auto. unfold get_bounds in E. destruct (mk_valid m); [|discriminate].
    injection E as <-. exact B2. }
  rewrite accepted_iff. intuition lra.
Qed.
Lemma fib_valid_iff n m ps g :
  bounded_mask m -> -180 <= min_lon (mk_bnds m) -> -90 <= min_lat (mk_bnds m) -> max_lat (mk_bnds m) <= 90 ->
  fib_points clip_points n (Some m) = Ok ps -> In g ps -> (point_accepted g = true <-> g_lon g <= 180).
Proof.
  intros Hb B1 B2 B3 H Hg. unfold fib_points in H. destruct (get_bounds (Some m)) as [b|] eqn:E; cbn [bind] in H; [|discriminate].
  injection H as <-. apply (clip_In clip_points Hclip) in Hg. destruct Hg as [Hg Hc]. apply Hb in Hc. unfold rect in Hc.
  apply in_map_iff in Hg. destruct Hg as [i [<- Hg]]. apply filter_In in Hg. destruct Hg as [Hg _]. apply py_range_In in Hg.
  rewrite accepted_iff. cbn [g_id] in *. intuition lra.
Qed.
End V.

Lemma valid_steps clip d m ps : clips_points clip -> 0 < d ->
  match m with None => True | Some k => regular_mask k end ->
  (generate_equally_spaced_points clip d m = Ok ps \/ generate_fibonacci_lattice_points clip d m = Ok ps) ->
  Forall (fun g => point_accepted g = true) ps.
Proof.
  intros Hc Hd Hm [H|H].
  - unfold generate_equally_spaced_points in H. pose proof (step_pos d Hd).
    destruct m as [m|]; [eapply masked_grid_valid|eapply global_grid_valid]; eauto.
  - unfold generate_fibonacci_lattice_points in H. destruct (compute_number_samples d) as [n|]; cbn [bind] in H; [|discriminate].
    destruct m as [m|]; [eapply masked_fib_valid|eapply global_fib_valid]; eauto.
Qed.
Lemma valid_iff clip d m ps g : clips_points clip -> 0 < d ->
  bounded_mask m -> -180 <= min_lon (mk_bnds m) -> -90 <= min_lat (mk_bnds m) -> max_lat (mk_bnds m) <= 90 ->
  (generate_equally_spaced_points clip d (Some m) = Ok ps \/ generate_fibonacci_lattice_points clip d (Some m) = Ok ps) ->
  In g ps -> (point_accepted g = true <-> g_lon g <= 180).
Proof.
  intros Hc Hd Hb B1 B2 B3 [H|H] Hg.
  - unfold generate_equally_spaced_points in H. pose proof (step_pos d Hd). eapply grid_valid_iff; eauto.
  - unfold generate_fibonacci_lattice_points in H. destruct (compute_number_samples d) as [n|]; cbn [bind] in H; [|discriminate].
    eapply fib_valid_iff; eauto.
Qed.
Lemma step_10 : step (EARTH_MEAN_RADIUS * (10 * PI / 180)) = 10.
Proof. unfold step, degrees. pose proof EMR_bounds. pose proof PI_RGT_0. field. lra. Qed.
Lemma wide_grid clip : clips_points clip ->
  exists ps g, generate_equally_spaced_points clip (EARTH_MEAN_RADIUS * (10 * PI / 180)) (Some (square_mask 170 190 (-10) 10)) = Ok ps
    /\ In g ps /\ g_lon g = 185 /\ point_accepted g = false.
Proof. intro H. unfold generate_equally_spaced_points. rewrite step_10. now apply wide_grid_point. Qed.
Lemma wide_fib clip d n : clips_points clip -> compute_number_samples d = Ok n -> (2 <= n)%Z ->
  exists ps g, generate_fibonacci_lattice_points clip d (Some (square_mask 0 360 (-90) 90)) = Ok ps
    /\ In g ps /\ 180 < g_lon g /\ point_accepted g = false.
Proof. intros H E Hn. unfold generate_fibonacci_lattice_points. rewrite E. cbn [bind]. now apply wide_fib_point. Qed.
(** A sample distance with at least two samples. *)
Lemma many_samples : exists n, compute_number_samples 1000000 = Ok n /\ (2 <= n)%Z.
Proof.
  pose proof EMR_bounds as B. pose proof PI_RGT_0 as P. pose proof PI2_1 as P2.
  destruct (number_samples_fit 1000000) as [n [E [N [F1 F2]]]]; [nra|]. exists n. split; auto.
  destruct (Z_lt_le_dec n 2) as [L|L]; auto. exfalso.
  assert (N1 : IZR n <= 1) by (change 1 with (IZR 1); apply IZR_le; lia).
  assert (C : 1 / 2 <= cos (1000000 / EARTH_MEAN_RADIUS / 2)).
  { rewrite <- cos_PI3. assert (0 <= 1000000 / EARTH_MEAN_RADIUS <= 1).
    { split; [apply Rlt_le, Rdiv_lt_0_compat; lra|]. apply Rmult_le_reg_r with EARTH_MEAN_RADIUS; [lra|]. unfold Rdiv. rewrite Rmult_assoc, Rinv_l by lra. lra. }
    apply cos_decr_1; lra. }
  pose proof surface_lower as S. pose proof (cap_pos 1000000 ltac:(nra)) as CP. unfold cap_area in *.
  set (c := cos _) in *. assert (R2 : EARTH_MEAN_RADIUS ^ 2 <= EARTH_EQUATORIAL_RADIUS ^ 2).
  { apply pow_incr. unfold EARTH_MEAN_RADIUS, EARTH_EQUATORIAL_RADIUS, EARTH_POLAR_RADIUS in *. lra. }
  set (q := 2 * PI * EARTH_MEAN_RADIUS ^ 2 * (1 - c)) in *.
  assert (Q : q <= PI * EARTH_MEAN_RADIUS ^ 2).
  { unfold q. assert (0 <= EARTH_MEAN_RADIUS ^ 2) by apply pow2_ge_0. assert (0 <= PI * EARTH_MEAN_RADIUS ^ 2) by nra. nra. }
  assert (PI * EARTH_MEAN_RADIUS ^ 2 <= PI * EARTH_EQUATORIAL_RADIUS ^ 2) by (apply Rmult_le_compat_l; lra).
  assert ((IZR n + 1) * q <= 2 * q) by nra. lra.
Qed.
Lemma wide_grid_ex clip : clips_points clip ->
  exists m, bounded_mask m /\ exists d ps g, 0 < d /\ generate_equally_spaced_points clip d (Some m) = Ok ps
    /\ In g ps /\ g_lon g = 185 /\ point_accepted g = false.
Proof.
  intro H. exists (square_mask 170 190 (-10) 10). split; [intros x y X; exact X|].
  exists (EARTH_MEAN_RADIUS * (10 * PI / 180)). destruct (wide_grid clip H) as [ps [g G]]. exists ps, g. split; [|exact G].
  pose proof EMR_bounds. pose proof PI_RGT_0. apply Rmult_lt_0_compat; lra.
Qed.
