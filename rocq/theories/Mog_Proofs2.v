(** Proofs about the members of a mutual orbiting group. *)
From Coq Require Import Reals ZArith List Bool Lia Lra Psatz Nsatz.
From Verif Require Import Base RBase RFacts RTrig RTrigFacts Tle_Model Orbit_Model Orbit_Spec Orbit_Proofs Anomaly_Proofs Const_Model Const_Spec Const_Proofs Const_Proofs2
  Geom_Spec Geom_Proofs Geom_Proofs2 Access_Proofs Mog_Model Mog_Spec Mog_Proofs.
Import ListNotations.
Open Scope R_scope.

Lemma deg_radians x : deg x = radians x.
Proof. unfold deg, radians. lra. Qed.
Lemma pole_rz inc raan i w a : cos (deg inc) = cos i -> sin (deg inc) = sin i -> cos (deg raan) = cos (a + w) -> sin (deg raan) = sin (a + w) ->
  pole inc raan = rz a (mk_vec (sin i * sin w) (- (sin i * cos w)) (cos i)).
Proof.
  intros C1 S1 C2 S2. unfold pole, rz. cbn [vx vy vz]. rewrite C1, S1, C2, S2, cos_plus, sin_plus. f_equal; ring.
Qed.
Lemma node_rz raan w a : cos (deg raan) = cos (a + w) -> sin (deg raan) = sin (a + w) ->
  node_dir raan = rz a (mk_vec (cos w) (sin w) 0).
Proof. intros C2 S2. unfold node_dir, rz. cbn [vx vy vz]. rewrite C2, S2, cos_plus, sin_plus. f_equal; ring. Qed.
Lemma apex_rz inc raan i w a : cos (deg inc) = cos i -> sin (deg inc) = sin i -> cos (deg raan) = cos (a + w) -> sin (deg raan) = sin (a + w) ->
  apex_dir inc raan = rz a (mk_vec (- (sin w * cos i)) (cos w * cos i) (sin i)).
Proof.
  intros C1 S1 C2 S2. unfold apex_dir, rz. cbn [vx vy vz]. rewrite C1, S1, C2, S2, cos_plus, sin_plus. f_equal; ring.
Qed.
Lemma dir_rz inc raan i w a u : cos (deg inc) = cos i -> sin (deg inc) = sin i -> cos (deg raan) = cos (a + w) -> sin (deg raan) = sin (a + w) ->
  at_latitude inc raan u = rz a (mk_vec (cos u * cos w - sin u * (cos i * sin w)) (cos u * sin w + sin u * (cos i * cos w)) (sin u * sin i)).
Proof.
  intros C1 S1 C2 S2. unfold at_latitude. rewrite (node_rz raan w a C2 S2), (apex_rz inc raan i w a C1 S1 C2 S2).
  unfold add, scale, rz. cbn [vx vy vz]. f_equal; ring.
Qed.

Lemma true_anomaly_spec e psi : 0 <= e <= 1 -> eccentric_true e psi (deg (wrap_degrees (arctan2 (sin psi * sqrt (1 - e * e)) (cos psi - e)))).
Proof.
  intro He. unfold eccentric_true. destruct (wrap_trig (arctan2 (sin psi * sqrt (1 - e * e)) (cos psi - e))) as [C S1]. rewrite C, S1.
  destruct (arctan2_polar (sin psi * sqrt (1 - e * e)) (cos psi - e)) as [PC PS].
  assert (B := COS_bound psi). assert (Q := sin2_cos2 psi). unfold Rsqr in Q.
  assert (K : sqrt (1 - e * e) * sqrt (1 - e * e) = 1 - e * e) by (apply sqrt_sqrt; nra).
  assert (R1 : sqrt ((cos psi - e) * (cos psi - e) + sin psi * sqrt (1 - e * e) * (sin psi * sqrt (1 - e * e))) = 1 - e * cos psi).
  { rewrite <- (sqrt_square (1 - e * cos psi)) by nra. f_equal.
    replace (sin psi * sqrt (1 - e * e) * (sin psi * sqrt (1 - e * e))) with (sin psi * sin psi * (sqrt (1 - e * e) * sqrt (1 - e * e))) by ring.
    rewrite K. replace (sin psi * sin psi) with (1 - cos psi * cos psi) by lra. ring. }
  rewrite R1 in PC, PS. split; [lra|]. rewrite <- PS. ring.
Qed.

Section One.
Context {I : Type}.
Variable m : @mog I.

Lemma kepler_used fuel n e psi : 0 <= e -> kepler_loop fuel n e 0 (1 / 10) = Some psi -> Rabs (psi - (n + e * sin psi)) <= e * (1 / 1000000).
Proof.
  intros He H. destruct fuel as [|f]; [discriminate|]. rewrite loop_start in H. destruct (loop_post _ _ _ _ _ H) as (b & Eb & Hb).
  rewrite Eb at 1. replace (n + e * sin b - (n + e * sin psi)) with (e * (sin b - sin psi)) by ring.
  rewrite Rabs_mult, (Rabs_pos_eq e) by lra. apply Rmult_le_compat_l; [lra|]. eapply Rle_trans; [apply sin_lip|]. now rewrite Rabs_minus_sym.
Qed.
Definition ok_member (theta : R) (k : keplerian) : Prop :=
  c_alt (k_circ k) = c_alt (mg_orbit m) /\ c_epoch (k_circ k) = c_epoch (mg_orbit m)
  /\ mog_member_ok (c_inc (mg_orbit m)) (c_raan (mg_orbit m)) (mog_delta m) (mog_e m) (mog_s m) theta
       (c_inc (k_circ k)) (c_raan (k_circ k)) (k_argp k) (c_nu (k_circ k)) (k_ecc k).
Lemma orbit_ok fuel theta k : mog_orbit fuel m theta = Some (Ok k) -> ok_member theta k.
Proof.
  unfold mog_orbit. destruct (Req_EM_T (sin (mog_delta m)) 0) as [|Hs]; [discriminate|].
  destruct (kepler_loop fuel (mog_n m theta) (mog_e m) 0 (1 / 10)) as [psi|] eqn:EK; [|discriminate].
  rewrite (np_arccos_in _ (lz_range m theta)).
  destruct (Rltb 1 (mog_e m * mog_e m)) eqn:Ee; [discriminate|]. apply Rltb_false in Ee.
  unfold make_keplerian, guard. match goal with |- context [kep_valid ?x] => destruct (kep_valid x) eqn:V; [|discriminate]; set (kk := x) in * end.
  intro H. injection H as <-. apply kep_valid_spec in V. destruct V as (VC & VE & VA). apply circ_valid_spec in VC. destruct VC as (V1 & V2 & V3).
  unfold ok_member, kk in *. cbn [k_circ k_ecc k_argp c_alt c_epoch c_inc c_raan c_nu] in *. clear kk.
  assert (E1 : mog_e m <= 1) by nra.
  set (i0 := radians (c_inc (mg_orbit m))) in *. set (om0 := radians (c_raan (mg_orbit m))) in *.
  destruct (wrap_trig (acos (v_dot (mog_l m theta) az))) as [Ci Si].
  destruct (wrap_trig (om0 + mog_node m theta)) as [Cr Sr].
  destruct (wrap_trig (mog_w m theta)) as [Cw Sw].
  set (inc := wrap_degrees (acos (v_dot (mog_l m theta) az))) in *. set (raan := wrap_degrees (om0 + mog_node m theta)) in *.
  set (argp := wrap_degrees (mog_w m theta)) in *.
  destruct (inc_trig m theta) as (IC & IS1 & IS2 & _). fold i0 in IC, IS2.
  destruct (w_frame m Hs theta) as (F1 & F2 & F3 & F4 & F5 & F6). fold i0 in F1, F2, F3, F4, F5, F6. unfold px, py, pz, ps in F1, F2, F3. fold i0 in F1, F2, F3.
  unfold ps in F4, F5, F6.
  destruct (n_trig m Hs theta) as [NC NS]. unfold ps in NC, NS. assert (SS := s_sq m). unfold ps in SS.
  set (dl := mog_delta m) in *. set (sg := mog_s m) in *. set (ph := mog_node m theta) in *. set (ii := acos (v_dot (mog_l m theta) az)) in *. set (w := mog_w m theta) in *.
  assert (P0 : pole (c_inc (mg_orbit m)) (c_raan (mg_orbit m)) = rz om0 (mk_vec 0 (- sin i0) (cos i0))).
  { rewrite (pole_rz _ _ i0 0 om0); try (rewrite deg_radians; unfold om0; rewrite ?Rplus_0_r; reflexivity).
    rewrite sin_0, cos_0. f_equal. f_equal; ring. }
  assert (N0 : node_dir (c_raan (mg_orbit m)) = rz om0 (mk_vec 1 0 0)).
  { rewrite (node_rz _ 0 om0); try (rewrite deg_radians; unfold om0; rewrite ?Rplus_0_r; reflexivity). now rewrite sin_0, cos_0. }
  assert (A0 : apex_dir (c_inc (mg_orbit m)) (c_raan (mg_orbit m)) = rz om0 (mk_vec 0 (cos i0) (sin i0))).
  { rewrite (apex_rz _ _ i0 0 om0); try (rewrite deg_radians; unfold om0; rewrite ?Rplus_0_r; reflexivity).
    rewrite sin_0, cos_0. f_equal. f_equal; ring. }
  assert (PM : pole inc raan = rz om0 (mk_vec (sin ii * sin ph) (- (sin ii * cos ph)) (cos ii))) by (apply pole_rz; auto).
  assert (DM : forall u, at_latitude inc raan u = rz om0 (mk_vec (cos u * cos ph - sin u * (cos ii * sin ph)) (cos u * sin ph + sin u * (cos ii * cos ph)) (sin u * sin ii))) by (intro u; apply dir_rz; auto).
  assert (Q := sin2_cos2 i0). assert (Q2 := sin2_cos2 theta). unfold Rsqr in Q, Q2.
  split; [reflexivity|]. split; [reflexivity|]. constructor.
  - auto.
  - reflexivity.
  - rewrite PM, P0, rz_dot. unfold dot. cbn [vx vy vz]. rewrite IC, IS2. nsatz.
  - rewrite PM, N0, rz_dot. unfold dot. cbn [vx vy vz]. rewrite IS1. ring.
  - rewrite PM, A0, rz_dot. unfold dot. cbn [vx vy vz]. rewrite IC, IS2. nsatz.
  - rewrite DM, P0, rz_dot. unfold dot. cbn [vx vy vz]. rewrite Cw, Sw, F2, F3. clear - SS Q. nsatz.
  - exists (mog_n m theta), psi. split; [now apply (kepler_used fuel)|]. split; [apply true_anomaly_spec; lra|].
    rewrite DM, N0, rz_dot. unfold dot. cbn [vx vy vz]. rewrite cos_plus, sin_plus, Cw, Sw, NC, NS.
    transitivity (- (sg * sin theta) * (cos w * cos ph - sin w * (cos ii * sin ph)) + sg * cos theta * (- sin w * cos ph - cos w * (cos ii * sin ph))); [ring|].
    rewrite F1, F4. clear - SS Q2. nsatz.
Qed.

Lemma orbits_nth fuel ks os : mog_orbits fuel m ks = Some (Ok os) -> length os = length ks
  /\ forall i k, nth_error os i = Some k -> exists j, nth_error ks i = Some j /\ mog_orbit fuel m (mog_theta m j) = Some (Ok k).
Proof.
  revert os. induction ks as [|j r IH]; intros os H; cbn [mog_orbits] in H.
  - injection H as <-. split; auto. intros [|i] k; discriminate.
  - destruct (mog_orbit fuel m (mog_theta m j)) as [[o|x]|] eqn:E; try discriminate.
    destruct (mog_orbits fuel m r) as [[os'|x]|] eqn:E2; try discriminate. injection H as <-.
    destruct (IH _ eq_refl) as [L N]. split; [cbn; lia|]. intros [|i] k Hk; cbn in *; [injection Hk as <-; eauto|auto].
Qed.
Lemma nth_error_combine_seq {A} (l : list A) i : forall s, nth_error (combine (seq s (length l)) l) i = option_map (fun x => ((s + i)%nat, x)) (nth_error l i).
Proof.
  revert i. induction l as [|a l IH]; intros [|i] s; cbn; auto; [now rewrite Nat.add_0_r|]. rewrite IH. now rewrite Nat.add_succ_r.
Qed.
Lemma members_nth fuel ms : mog_members fuel m = Some (Ok ms) -> length ms = mg_number m
  /\ forall i mb, nth_error ms i = Some mb -> mb_name mb = zero_pad (mg_name m) (Z.of_nat (mg_number m)) (Z.of_nat i + 1) /\ mb_instruments mb = mg_instruments m
      /\ exists k, mb_orbit mb = LKep k /\ mog_orbit fuel m (mog_theta m i) = Some (Ok k).
Proof.
  unfold mog_members. destruct (Req_EM_T (mog_a m) 0); [discriminate|].
  destruct (mog_orbits fuel m (seq 0 (mg_number m))) as [[os|]|] eqn:E; try discriminate. intro H. injection H as <-.
  destruct (orbits_nth _ _ _ E) as [L N]. rewrite seq_length in L. split.
  - rewrite map_length, combine_length, seq_length. lia.
  - intros i mb H. rewrite nth_error_map, nth_error_combine_seq in H. destruct (nth_error os i) as [k|] eqn:Ek; [|discriminate].
    cbn in H. injection H as <-. cbn. split; [reflexivity|]. split; [reflexivity|]. exists k. split; [reflexivity|].
    destruct (N _ _ Ek) as (j & Hj & Ho). assert (Hi : (i < mg_number m)%nat) by (rewrite <- L; apply nth_error_Some; congruence).
    rewrite (nth_error_nth' _ 0%nat) in Hj by (rewrite seq_length; lia). rewrite seq_nth in Hj by lia. injection Hj as <-. exact Ho.
Qed.

Hypothesis HR : mog_regular m.
Lemma delta_range : 0 < mog_delta m < PI.
Proof.
  destruct HR as (_ & V & A & T & _). unfold mog_valid in V. rewrite !andb_true_iff, !Rltb_spec in V. unfold mog_delta, mog_a.
  pose proof PI_RGT_0. split; [apply Rdiv_lt_0_compat; lra|]. apply Rmult_lt_reg_r with (2 * (c_alt (mg_orbit m) + EARTH_MEAN_RADIUS)); [lra|].
  replace (mg_transverse m / (2 * (c_alt (mg_orbit m) + EARTH_MEAN_RADIUS)) * (2 * (c_alt (mg_orbit m) + EARTH_MEAN_RADIUS))) with (mg_transverse m) by (field; lra). lra.
Qed.
Lemma e_range : 0 < mog_e m < 1.
Proof.
  destruct HR as (_ & V & A & _ & T & _). unfold mog_valid in V. rewrite !andb_true_iff, !Rltb_spec in V. unfold mog_e, mog_a.
  split; [apply Rdiv_lt_0_compat; lra|]. apply Rmult_lt_reg_r with (4 * (c_alt (mg_orbit m) + EARTH_MEAN_RADIUS)); [lra|].
  replace (mg_parallel m / (4 * (c_alt (mg_orbit m) + EARTH_MEAN_RADIUS)) * (4 * (c_alt (mg_orbit m) + EARTH_MEAN_RADIUS))) with (mg_parallel m) by (field; lra). lra.
Qed.
Lemma lz_above theta : -1 < v_dot (mog_l m theta) az.
Proof.
  destruct (lz_range m theta) as [[H|H] _]; [exact H|]. exfalso. rewrite (lz_val m) in H. pose proof delta_range as D.
  set (i0 := radians (c_inc (mg_orbit m))) in *. set (dl := mog_delta m) in *.
  assert (S1 : 0 < sin dl) by (apply sin_gt_0; lra).
  assert (Q := sin2_cos2 i0). assert (Q2 := sin2_cos2 theta). assert (Q3 := sin2_cos2 dl). unfold Rsqr in Q, Q2, Q3.
  assert (Z1 : (sin dl * sin theta) * (sin dl * sin theta) + (sin dl * cos theta * cos i0 - cos dl * sin i0) * (sin dl * cos theta * cos i0 - cos dl * sin i0) = 0).
  { set (lz := cos dl * cos i0 + sin dl * cos theta * sin i0) in *.
    assert (E : (sin dl * sin theta) * (sin dl * sin theta) + (sin dl * cos theta * cos i0 - cos dl * sin i0) * (sin dl * cos theta * cos i0 - cos dl * sin i0) + lz * lz = 1) by (unfold lz; clear - Q Q2 Q3; nsatz).
    rewrite <- H in E. lra. }
  assert (Z2 : sin dl * sin theta = 0) by (apply (Rplus_sqr_eq_0_l _ _ Z1)). assert (Z3 : sin theta = 0) by (apply Rmult_integral in Z2; destruct Z2; lra).
  assert (C1 : cos theta = 1 \/ cos theta = -1) .
  { rewrite Z3 in Q2. assert (Z4 : (cos theta - 1) * (cos theta + 1) = 0) by lra. apply Rmult_integral in Z4. lra. }
  destruct HR as (V & _ & _ & _ & _ & N). apply circ_valid_spec in V. destruct V as (_ & VI & _).
  assert (I0 : 0 <= i0 < PI).
  { unfold i0, radians. pose proof PI_RGT_0. nra. }
  fold (mog_a m) in N. fold (mog_delta m) in N. rewrite deg_radians in N. fold i0 dl in N.
  destruct C1 as [C1|C1]; rewrite C1 in H.
  - assert (K : cos (dl - i0) = -1) by (rewrite cos_minus; lra).
    assert (Hc : cos PI < cos (dl - i0) \/ cos PI < cos (dl - i0)); [|rewrite cos_PI in Hc; lra].
    left. destruct (Rle_dec i0 dl); [apply cos_decreasing_1; lra|]. rewrite <- (cos_neg (dl - i0)). apply cos_decreasing_1; lra.
  - assert (K : cos (dl + i0) = -1) by (rewrite cos_plus; lra).
    destruct (Rtotal_order (dl + i0) PI) as [L|[L|L]]; [|lra|].
    + assert (cos PI < cos (dl + i0)) by (apply cos_decreasing_1; lra). rewrite cos_PI in *. lra.
    + assert (cos PI < cos (dl + i0)) by (apply cos_increasing_1; lra). rewrite cos_PI in *. lra.
Qed.
Lemma orbit_exists theta : exists fuel0 k, forall fuel, (fuel0 <= fuel)%nat -> mog_orbit fuel m theta = Some (Ok k).
Proof.
  pose proof delta_range as D. pose proof e_range as E. assert (S1 : 0 < sin (mog_delta m)) by (apply sin_gt_0; lra).
  assert (E0 : 0 <= mog_e m < 1) by lra. destruct (loop_terminates_lemma (mog_n m theta) (mog_e m) E0) as (f0 & psi & T & _).
  eexists f0, _. intros fuel Hf. unfold mog_orbit. destruct (Req_EM_T (sin (mog_delta m)) 0); [exfalso; lra|].
  rewrite (T fuel Hf). rewrite (np_arccos_in _ (lz_range m theta)). replace (Rltb 1 (mog_e m * mog_e m)) with false by (symmetry; apply Rltb_false; nra).
  unfold make_keplerian, guard. match goal with |- context [kep_valid ?x] => replace (kep_valid x) with true end; [reflexivity|].
  symmetry. apply kep_valid_spec. cbn [k_circ k_ecc k_argp]. split; [apply circ_valid_spec; cbn [c_nu c_inc c_raan]|split; [lra|apply wrap_range]].
  split; [apply wrap_range|]. split; [|apply wrap_range]. pose proof (acos_bound (v_dot (mog_l m theta) az)) as B.
  assert (acos (v_dot (mog_l m theta) az) < PI).
  { destruct (proj2 B) as [L|L]; auto. pose proof (cos_acos _ (lz_range m theta)) as C. rewrite L, cos_PI in C. pose proof (lz_above theta). lra. }
  pose proof PI_RGT_0. rewrite wrap_small by lra. rewrite <- degrees_PI, <- degrees_0.
  split; [apply (proj1 (degrees_le _ _)); lra|apply (proj1 (degrees_lt _ _)); lra].
Qed.
Lemma orbits_exist ks : exists fuel0 os, forall fuel, (fuel0 <= fuel)%nat -> mog_orbits fuel m ks = Some (Ok os).
Proof.
  induction ks as [|j r (f1 & os & H1)]; [exists 0%nat, []; reflexivity|].
  destruct (orbit_exists (mog_theta m j)) as (f2 & k & H2). exists (Nat.max f1 f2), (k :: os). intros fuel Hf. cbn [mog_orbits].
  rewrite H2, H1 by lia. reflexivity.
Qed.
Lemma members_exist : exists fuel0 ms, forall fuel, (fuel0 <= fuel)%nat -> mog_members fuel m = Some (Ok ms).
Proof.
  destruct (orbits_exist (seq 0 (mg_number m))) as (f & os & H). eexists f, _. intros fuel Hf. unfold mog_members.
  destruct (Req_EM_T (mog_a m) 0) as [Z|_]; [destruct HR as (_ & _ & A & _); unfold mog_a in Z; lra|]. rewrite (H fuel Hf). reflexivity.
Qed.
End One.

(** ** The members as a list *)
Lemma mog_members_lemma {I} (m : @mog I) fuel ms : mog_members fuel m = Some (Ok ms) ->
  forall i mb, nth_error ms i = Some mb -> exists k, mb_orbit mb = LKep k
    /\ c_alt (k_circ k) = c_alt (mg_orbit m) /\ c_epoch (k_circ k) = c_epoch (mg_orbit m)
    /\ mog_member_ok (c_inc (mg_orbit m)) (c_raan (mg_orbit m)) (mg_transverse m / (2 * (c_alt (mg_orbit m) + EARTH_MEAN_RADIUS)))
         (mg_parallel m / (4 * (c_alt (mg_orbit m) + EARTH_MEAN_RADIUS))) (if mg_clockwise m then 1 else -1) (INR i * (2 * PI / INR (mg_number m)))
         (c_inc (k_circ k)) (c_raan (k_circ k)) (k_argp k) (c_nu (k_circ k)) (k_ecc k).
Proof.
  intros H i mb Hi. destruct (members_nth m fuel ms H) as [_ N]. destruct (N _ _ Hi) as (_ & _ & k & EO & EK).
  exists k. split; [exact EO|]. exact (orbit_ok m fuel _ k EK).
Qed.
Lemma mog_count_lemma {I} (m : @mog I) : mog_regular m ->
  exists fuel0 ms, (forall fuel, (fuel0 <= fuel)%nat -> mog_members fuel m = Some (Ok ms)) /\ length ms = mg_number m
  /\ (forall i mb, nth_error ms i = Some mb -> mb_instruments mb = mg_instruments m
        /\ altitude_epoch (mb_orbit mb) = Some (c_alt (mg_orbit m), c_epoch (mg_orbit m))
        /\ exists d, mb_name mb = mg_name m ++ (32%Z :: nil) ++ d
             /\ Forall (fun c => 48 <= c <= 57)%Z d /\ decimal_value d = (Z.of_nat i + 1)%Z)
  /\ (forall i j mb mb', (i < j)%nat -> nth_error ms i = Some mb -> nth_error ms j = Some mb' ->
        str_lt (mb_name mb) (mb_name mb') /\ mb_name mb <> mb_name mb').
Proof.
  intro HR. destruct (members_exist m HR) as (f & ms & H). specialize (H f (le_n f)) as H1. exists f, ms.
  destruct (members_nth m f ms H1) as [L N].
  destruct (names_lemma ms (mg_name m) (Z.of_nat (mg_number m)) ltac:(lia)) as [N1 N2]; [intros i mb Hi; now apply N in Hi|].
  split; [exact H|]. split; [exact L|]. split; [|exact N2]. intros i mb Hi. destruct (N _ _ Hi) as (_ & NI & _).
  destruct (mog_members_lemma m f ms H1 i mb Hi) as (k & EO & E1 & E2 & _). split; [exact NI|]. split; [rewrite EO; cbn; now rewrite E1, E2|]. exact (N1 _ _ Hi).
Qed.
Lemma mog_reference_lemma {I} (m : @mog I) fuel ms : mog_members fuel m = Some (Ok ms) -> c_nu (mg_orbit m) = 0 ->
  forall i mb, nth_error ms i = Some mb -> exists k M psi, mb_orbit mb = LKep k
    /\ Rabs (psi - (M + k_ecc k * sin psi)) <= k_ecc k * (1 / 1000000) /\ eccentric_true (k_ecc k) psi (deg (c_nu (k_circ k)))
    /\ cos (mg_transverse m / (2 * (c_alt (mg_orbit m) + EARTH_MEAN_RADIUS)))
       <= dot (at_latitude (c_inc (k_circ k)) (c_raan (k_circ k)) (deg (k_argp k) + M))
              (at_latitude (c_inc (mg_orbit m)) (c_raan (mg_orbit m)) (deg (c_nu (mg_orbit m)))).
Proof.
  intros H Z i mb Hi. destruct (mog_members_lemma m fuel ms H i mb Hi) as (k & EO & _ & _ & OKM).
  destruct (mm_epoch _ _ _ _ _ _ _ _ _ _ _ OKM) as (M & psi & K & T & D). exists k, M, psi. rewrite (mm_ecc _ _ _ _ _ _ _ _ _ _ _ OKM).
  split; [exact EO|]. split; [exact K|]. split; [exact T|]. rewrite Z.
  replace (at_latitude (c_inc (mg_orbit m)) (c_raan (mg_orbit m)) (deg 0)) with (node_dir (c_raan (mg_orbit m))).
  2:{ unfold at_latitude, deg, add, scale, node_dir. rewrite Rmult_0_l, cos_0, sin_0. cbn [vx vy vz]. f_equal; ring. }
  rewrite D. set (d := mg_transverse m / _). set (th := INR i * _). pose proof (COS_bound d). pose proof (sin2_cos2 th) as Q. unfold Rsqr in Q.
  assert (0 <= sin th * sin th <= 1) by nra. nra.
Qed.
Lemma members_nu {I} (m : @mog I) nu fuel : mog_members fuel (with_nu m nu) = mog_members fuel m.
Proof.
  assert (K : forall ks, mog_orbits fuel (with_nu m nu) ks = mog_orbits fuel m ks).
  { induction ks as [|k r IH]; [reflexivity|]. cbn [mog_orbits]. rewrite IH. reflexivity. }
  unfold mog_members. rewrite K. reflexivity.
Qed.
Lemma opposite_positions inc raan : dot (at_latitude inc raan (deg 0)) (at_latitude inc raan (deg 180)) = -1.
Proof.
  replace (deg 180) with PI by (unfold deg; field). replace (deg 0) with 0 by (unfold deg; ring).
  unfold at_latitude, dot, add, scale, node_dir, apex_dir. cbn [vx vy vz]. rewrite cos_0, sin_0, cos_PI, sin_PI.
  pose proof (sin2_cos2 (deg raan)) as Q. unfold Rsqr in Q. lra.
Qed.
(** A group of eccentricity PI/2 never finishes. *)
Lemma members_diverge {I} (m : @mog I) fuel : circ_valid (mg_orbit m) = true -> mog_valid m = true -> mg_clockwise m = true -> 0 < c_alt (mg_orbit m) + EARTH_MEAN_RADIUS ->
  mg_transverse m < 2 * PI * (c_alt (mg_orbit m) + EARTH_MEAN_RADIUS) -> mg_parallel m = 2 * PI * (c_alt (mg_orbit m) + EARTH_MEAN_RADIUS) ->
  mog_members fuel m = None.
Proof.
  intros V VM CL A T P. assert (VM' := VM). unfold mog_valid in VM'. rewrite !andb_true_iff, !Rltb_spec, Nat.ltb_lt in VM'.
  unfold mog_members. destruct (Req_EM_T (mog_a m) 0) as [Z|_]; [unfold mog_a in Z; lra|].
  destruct (mg_number m) as [|n] eqn:En; [lia|]. cbn [seq mog_orbits].
  assert (TH : mog_theta m 0 = 0) by (unfold mog_theta; simpl; ring). rewrite TH.
  assert (D : 0 < mog_delta m < PI).
  { unfold mog_delta, mog_a. split; [apply Rdiv_lt_0_compat; lra|]. apply Rmult_lt_reg_r with (2 * (c_alt (mg_orbit m) + EARTH_MEAN_RADIUS)); [lra|].
    replace (mg_transverse m / (2 * (c_alt (mg_orbit m) + EARTH_MEAN_RADIUS)) * (2 * (c_alt (mg_orbit m) + EARTH_MEAN_RADIUS))) with (mg_transverse m) by (field; lra). lra. }
  assert (Hs : 0 < sin (mog_delta m)) by (apply sin_gt_0; lra). assert (Hs' : sin (mog_delta m) <> 0) by lra.
  destruct (n_trig m Hs' 0) as [NC NS]. rewrite sin_0 in NC. rewrite cos_0 in NS. unfold ps, mog_s in NC, NS. rewrite CL in NC, NS.
  assert (NV : mog_n m 0 = PI / 2).
  { assert (B : - PI < mog_n m 0 <= PI) by apply arctan2_range. set (x := mog_n m 0) in *. assert (SX : sin x = 1) by lra. assert (CX : cos x = 0) by lra.
    assert (0 < x) by (destruct (Rle_dec x 0) as [L|]; [|lra]; assert (sin (- x) >= 0) by (apply Rle_ge, sin_ge_0; lra); rewrite sin_neg in *; lra).
    destruct (Rtotal_order x (PI / 2)) as [L|[L|L]]; [|exact L|].
    - assert (0 < cos x) by (apply cos_gt_0; lra). lra.
    - assert (cos x < 0) by (apply cos_lt_0; pose proof PI_RGT_0; lra). lra. }
  unfold mog_orbit. destruct (Req_EM_T (sin (mog_delta m)) 0); [contradiction|].
  replace (mog_e m) with (PI / 2) by (unfold mog_e, mog_a; rewrite P; field; lra). rewrite NV, loop_diverges. reflexivity.
Qed.

(** ** Examples *)
Definition mog_ref : circular := mk_circ 500000 0 0 45 30.
Definition mog_ex : @mog Z := mk_mog (77%Z :: nil) mog_ref (1%Z :: nil) 200000 100000 true 3.
Definition mog_wide : @mog Z := mk_mog (77%Z :: nil) mog_ref (1%Z :: nil) (2 * PI * (500000 + EARTH_MEAN_RADIUS)) 100000 true 3.
Lemma radius_value : 6371000 < EARTH_MEAN_RADIUS < 6371010.
Proof. unfold EARTH_MEAN_RADIUS, EARTH_EQUATORIAL_RADIUS, EARTH_POLAR_RADIUS. lra. Qed.
Lemma mog_ref_valid : circ_valid mog_ref = true.
Proof. apply circ_valid_spec. cbn. lra. Qed.
Lemma mog_ex_valid : mog_valid mog_ex = true.
Proof. unfold mog_valid. rewrite !andb_true_iff, !Rltb_spec. cbn. split; [lra|reflexivity]. Qed.
Lemma mog_ex_regular : mog_regular mog_ex.
Proof.
  pose proof radius_value as R0. pose proof PI_tight as P. unfold mog_regular. split; [exact mog_ref_valid|]. split; [exact mog_ex_valid|]. cbn.
  split; [lra|]. split; [nra|]. split; [lra|]. unfold deg. assert (100000 / (2 * (500000 + EARTH_MEAN_RADIUS)) < 1).
  { apply Rmult_lt_reg_r with (2 * (500000 + EARTH_MEAN_RADIUS)); [lra|].
    replace (100000 / (2 * (500000 + EARTH_MEAN_RADIUS)) * (2 * (500000 + EARTH_MEAN_RADIUS))) with 100000 by (field; lra). lra. }
  lra.
Qed.
Lemma mog_wide_valid : mog_valid mog_wide = true.
Proof. pose proof radius_value as R0. pose proof PI_tight as P. unfold mog_valid. rewrite !andb_true_iff, !Rltb_spec. cbn. repeat split; nra. Qed.
