(** Proofs about streets of coverage in binary64: libraries and a case. *)
From Coq Require Import ZArith Reals Lra Lia Bool.
From Flocq Require Import Core IEEE754.BinarySingleNaN.
From Verif Require Import Base RBase Float_Model Float_Spec Float_Proofs FGrid_Model FGrid_Proofs FGrid_Proofs2 FTime_Model FTime_Proofs
  FGeom_Model FGeom_Spec Geom_Model Geom_Spec Geom_Proofs Geom_Proofs2 FGeom_Proofs FGeom_Proofs2 FMog_Proofs2 Access_Proofs AnomalyRound_Proofs Mog_Proofs FSoc_Model FSoc_Spec FSoc_Proofs FSoc_Proofs2 FSoc_Proofs3 FSoc_Proofs4.
Open Scope R_scope.

(** A library that meets the contracts and has the usual values. *)
Definition usual_sin (x : b64) : b64 := if Rle_dec (Rabs (val x)) (bpow radix2 (-27)) then x else by_nearest 52 sin x.
Definition usual_asin (x : b64) : b64 := if Rle_dec (Rabs (val x)) (bpow radix2 (-27)) then x else by_nearest 52 asin x.
Definition usual_cos (x : b64) : b64 := if Req_EM_T (val x) (val (fdiv f_pi (of_Z 2))) then f_lit 4967757600021511 (-106) else by_nearest 52 cos x.
Lemma sin_small t : Rabs t <= / 134217728 -> Rabs (t - sin t) <= / 1000000000000000000000000.
Proof.
  assert (P : forall t, 0 <= t <= / 134217728 -> Rabs (t - sin t) <= / 1000000000000000000000000).
  { intros v H. pose proof (sin_cubic v ltac:(lra)). pose proof (sine_le v ltac:(lra)). apply Rabs_le.
    assert (v * v <= / 134217728 * / 134217728) by nra. assert (v * v * v <= / 134217728 * / 134217728 * / 134217728) by nra. lra. }
  intro H. destruct (Rle_or_lt 0 t) as [N|N].
  - rewrite Rabs_pos_eq in H by lra. apply P. lra.
  - rewrite Rabs_left in H by lra. specialize (P (- t) ltac:(lra)). rewrite sin_neg in P. rewrite <- Rabs_Ropp. replace (- (t - sin t)) with (- t - - sin t) by ring. exact P.
Qed.
Lemma asin_small t : Rabs t <= / 134217728 -> Rabs (t - asin t) <= / 1000000000000000000000.
Proof.
  intro H. assert (H' := H). apply Rabs_le_inv in H'. set (y := asin t). assert (S : sin y = t) by (apply sin_asin; lra). pose proof (asin_bound t) as B. fold y in B.
  pose proof pi_tight as PT.
  assert (Y : Rabs y <= / 67108864).
  { destruct (Rle_or_lt 0 y) as [N|N].
    - rewrite Rabs_pos_eq by lra. pose proof (sin_half y ltac:(lra)). lra.
    - rewrite Rabs_left by lra. pose proof (sin_half (- y) ltac:(lra)) as Q. rewrite sin_neg in Q. lra. }
  assert (P : forall t, 0 <= t <= / 67108864 -> Rabs (t - sin t) <= / 1000000000000000000000).
  { intros v Hv. pose proof (sin_cubic v ltac:(lra)). pose proof (sine_le v ltac:(lra)). apply Rabs_le.
    assert (v * v <= / 67108864 * / 67108864) by nra. assert (v * v * v <= / 67108864 * / 67108864 * / 67108864) by nra. lra. }
  rewrite <- S. destruct (Rle_or_lt 0 y) as [N|N].
  - rewrite Rabs_pos_eq in Y by lra. rewrite <- Rabs_Ropp. replace (- (sin y - y)) with (y - sin y) by ring. apply P. lra.
  - rewrite Rabs_left in Y by lra. specialize (P (- y) ltac:(lra)). rewrite sin_neg in P. replace (sin y - y) with (- y - - sin y) by ring. exact P.
Qed.
Lemma lit_tail : close (f_lit 4967757600021511 (-106)) 0 (/ 10000000000000000).
Proof.
  destruct (f_lit_val 4967757600021511 (-106) ltac:(lia) ltac:(lia)) as [F V]. split; [exact F|]. rewrite V. cbn. apply Rabs_le. lra.
Qed.
Lemma usual_libm : accurate_libm usual_sin usual_cos usual_asin (by_nearest 51 acos).
Proof.
  destruct nearest_libm as [(NS & NC & NA & NH & NR) _].
  assert (E27 : bpow radix2 (-27) = / 134217728) by (cbn; lra). assert (E50 : / 10000000000000000 <= bpow radix2 (-50)) by (cbn; lra). assert (E50' : 5e-16 <= bpow radix2 (-50)) by (cbn; lra).
  split; [|split; [|split; [|split]]].
  - intros x F D. unfold usual_sin. destruct (Rle_dec (Rabs (val x)) (bpow radix2 (-27))) as [S|S]; [|exact (NS x F D)].
    split; [exact F|]. rewrite E27 in S. pose proof (sin_small _ S). lra.
  - intros x F D. unfold usual_cos. destruct (Req_EM_T (val x) (val (fdiv f_pi (of_Z 2)))) as [S|S]; [|exact (NC x F D)].
    destruct lit_tail as [FL DL]. destruct half_pi as [_ DH]. split; [exact FL|]. rewrite S. pose proof (cos_lip (PI / 2) (val (fdiv f_pi (of_Z 2)))) as L. rewrite cos_PI2 in L.
    destruct (f_lit_val 4967757600021511 (-106) ltac:(lia) ltac:(lia)) as [_ V]. 
    assert (BL : 0 <= val (f_lit 4967757600021511 (-106)) <= 1e-16) by (rewrite V; cbn; lra).
    set (c := cos (val (fdiv f_pi (of_Z 2)))) in *. clearbody c. apply Rabs_le_inv in DL. set (lv := val (f_lit 4967757600021511 (-106))) in *. clearbody lv.
    assert (LC : Rabs (c - 0) <= 4 / 10000000000000000) by lra. apply Rabs_le_inv in LC. apply Rabs_le. lra.
  - intros x F D. unfold usual_asin. destruct (Rle_dec (Rabs (val x)) (bpow radix2 (-27))) as [S|S]; [|exact (NA x F D)].
    split; [exact F|]. rewrite E27 in S. pose proof (asin_small _ S). lra.
  - exact NH.
  - intros x F D. destruct (NR x F D) as [R1 R2]. split.
    + unfold usual_sin. destruct (Rle_dec (Rabs (val x)) (bpow radix2 (-27))) as [S|S]; [lra|exact R1].
    + unfold usual_cos. destruct (Req_EM_T (val x) (val (fdiv f_pi (of_Z 2)))) as [S|S]; [|exact R2].
      destruct lit_tail as [_ DL]. rewrite Rminus_0_r in DL. lra.
Qed.
Lemma nearest_atan : accurate_atan (by_nearest 52 atan).
Proof.
  intros x F D. pose proof pi_tight as P. assert (W : bpow radix2 (-52) <= bpow radix2 (-50)) by (apply bpow_le; lia).
  destruct (by_nearest_spec 52 atan x 8000000000000000 ltac:(lia)) as [F1 [D1 _]]; [|lia|split; [exact F1|lra]].
  pose proof (atan_bound (val x)). assert (Rabs (atan (val x)) <= 1.6) by (apply Rabs_le; lra). replace (bpow radix2 52) with 4503599627370496 by (cbn; lra). lra.
Qed.
Lemma usual_ok : usual_values usual_sin usual_cos usual_asin (by_nearest 51 acos) (by_nearest 52 atan).
Proof.
  pose proof pi_tight as P. pose proof V0 as Z0.
  split; [|split; [|split; [|split; [|split]]]].
  - intros x F D. unfold usual_sin. destruct (Rle_dec (Rabs (val x)) (bpow radix2 (-27))); [reflexivity|contradiction].
  - intros x F D. unfold usual_asin. destruct (Rle_dec (Rabs (val x)) (bpow radix2 (-27))); [reflexivity|contradiction].
  - unfold usual_cos. destruct half_pi as [_ D]. apply Rabs_le_inv in D. destruct (Req_EM_T (val (of_Z 0)) (val (fdiv f_pi (of_Z 2)))) as [E|_]; [exfalso; rewrite <- E, Z0 in D; lra|].
    unfold by_nearest. rewrite Z0, cos_0. replace (ZnearestE (1 * bpow radix2 52)) with 4503599627370496%Z; [apply B2SF_inj; vm_compute; reflexivity|]. symmetry. apply Znearest_imp.
    replace (bpow radix2 52) with 4503599627370496 by (cbn; lra). apply Rabs_lt. lra.
  - unfold usual_cos. destruct (Req_EM_T (val (fdiv f_pi (of_Z 2))) (val (fdiv f_pi (of_Z 2)))) as [_|N]; [reflexivity|]. exfalso. apply N. reflexivity.
  - unfold by_nearest. rewrite Z0, atan_0, Rmult_0_l. replace (ZnearestE 0) with 0%Z; [reflexivity|]. symmetry. apply Znearest_imp. apply Rabs_lt. lra.
  - unfold by_nearest. rewrite Z0, acos_0. replace (ZnearestE (PI / 2 * bpow radix2 51)) with 3537118876014220%Z; [apply B2SF_inj; vm_compute; reflexivity|]. symmetry. apply Znearest_imp.
    replace (bpow radix2 51) with 2251799813685248 by (cbn; lra). apply Rabs_lt. lra.
Qed.
Lemma refuted_lemma : exists f_sin f_cos f_asin f_acos f_atan s,
  accurate_libm f_sin f_cos f_asin f_acos /\ accurate_atan f_atan /\ f_soc_valid s = true
  /\ f_soc_walker f_sin f_cos f_asin f_acos f_atan s = Raise ValidationError.
Proof.
  exists usual_sin, usual_cos, usual_asin, (by_nearest 51 acos), (by_nearest 52 atan), tiny_streets.
  split; [exact usual_libm|]. split; [exact nearest_atan|]. split; [exact tiny_valid|]. apply tiny_negative. exact usual_ok.
Qed.
Lemma smallest_lemma : exists s, f_soc_valid s = true /\ val (fs_altitude s) = 500000 /\ 0 < val (fs_swath s) /\ val (fs_packing s) = 1 /\
  forall f_sin f_cos f_asin f_acos f_atan, usual_values f_sin f_cos f_asin f_acos f_atan ->
  f_soc_walker f_sin f_cos f_asin f_acos f_atan s = Raise ValidationError.
Proof.
  exists tiny_streets. split; [exact tiny_valid|]. cbn [tiny_streets fs_altitude fs_swath fs_packing].
  destruct (of_Z_spec 500000 ltac:(lia)) as [_ V]. destruct (of_Z_spec 1 ltac:(lia)) as [_ V1]. split; [exact V|].
  split; [|split; [exact V1|exact tiny_negative]]. destruct (f_lit_val 1 (-1074) ltac:(lia) ltac:(lia)) as [_ VL]. rewrite VL, Rmult_1_l. apply bpow_gt_0.
Qed.
(** 700 km, a swath of 1000 km, packing 3 / 4. *)
Definition streets700 : fsoc := mk_fsoc (of_Z 700000) (of_Z 1000000) (fdiv (of_Z 3) (of_Z 4)).
Lemma usual_case : usual_streets streets700 /\ f_soc_valid streets700 = true.
Proof.
  split; [|vm_compute; reflexivity]. unfold usual_streets, streets700. cbn [fs_altitude fs_swath fs_packing].
  destruct (of_Z_spec 700000 ltac:(lia)) as [FA VA]. destruct (of_Z_spec 1000000 ltac:(lia)) as [FW VW].
  assert (P34 : B2SF (fdiv (of_Z 3) (of_Z 4)) = SpecFloat.S754_finite false 6755399441055744 (-53)) by (vm_compute; reflexivity).
  assert (FP : finite (fdiv (of_Z 3) (of_Z 4))) by (vm_compute; reflexivity). apply sf_val in P34. unfold F2R in P34. cbn [cond_Zopp Fnum Fexp] in P34.
  assert (VP : val (fdiv (of_Z 3) (of_Z 4)) = 3 / 4) by (rewrite P34; cbn; lra). rewrite VA, VW, VP. pose proof R_bounds as RB. pose proof pi_tight as PT.
  set (rho := EARTH_MEAN_RADIUS / (EARTH_MEAN_RADIUS + 700000)). set (lam := 1000000 / 2 / EARTH_MEAN_RADIUS).
  assert (R1 : 0.900 <= rho <= 0.902) by (apply quot_range; lra).
  assert (L1 : 0.0784 <= lam <= 0.0785) by (apply (quot_range (1000000 / 2)); lra).
  assert (C1 : 0.9969 <= cos lam).
  { assert (E : cos lam = 1 - 2 * sin (lam / 2) * sin (lam / 2)) by (rewrite <- cos_2a_sin; f_equal; field). rewrite E.
    pose proof (sine_le (lam / 2) ltac:(lra)). assert (0 <= sin (lam / 2)) by (apply sin_ge_0; lra). nra. }
  assert (S1 : 0 <= sin lam <= 0.0785). { pose proof (sine_le lam ltac:(lra)). split; [apply sin_ge_0; lra|lra]. }
  assert (C2 : cos lam <= 1) by (pose proof (COS_bound lam); lra).
  split; [exact FA|]. split; [lra|]. split; [exact FW|]. split; [lra|]. split; [exact FP|]. split; [lra|]. split.
  - rewrite <- (acos_cos lam) by lra. destruct (Rle_or_lt (acos (cos lam)) (acos rho)) as [|G]; [assumption|exfalso].
    rewrite acos_cos in G by lra. assert (cos (acos rho) = rho) by (apply cos_acos; lra). pose proof (acos_bound rho).
    assert (cos lam <= cos (acos rho)) by (apply cos_decr_1; lra). lra.
  - nra.
Qed.
