(** Proofs about streets of coverage in binary64: swaths that are too small. *)
From Coq Require Import ZArith Reals Lra Lia Bool.
From Flocq Require Import Core IEEE754.BinarySingleNaN.
From Verif Require Import Base RBase Float_Model Float_Spec Float_Proofs FGrid_Model FGrid_Proofs FGrid_Proofs2 FTime_Model FTime_Proofs
  FGeom_Model FGeom_Spec FGeom_Proofs FGeom_Proofs2 FSoc_Model FSoc_Spec.
Open Scope R_scope.

Lemma pdiv_ok x y : is_zero y = false -> pdiv x y = Ok (fdiv x y).
Proof. intro H. unfold pdiv. rewrite H. reflexivity. Qed.
Definition tiny_streets : fsoc := mk_fsoc (of_Z 500000) (f_lit 1 (-1074)) (of_Z 1).
Lemma tiny_valid : f_soc_valid tiny_streets = true.
Proof. vm_compute. reflexivity. Qed.
Section Tiny.
Variables f_sin f_cos f_asin f_acos f_atan : b64 -> b64.
Hypothesis S0 : f_sin (of_Z 0) = of_Z 0.
Hypothesis A0 : f_asin (of_Z 0) = of_Z 0.
Hypothesis C0 : f_cos (of_Z 0) = of_Z 1.
Hypothesis T0 : f_atan (of_Z 0) = of_Z 0.
Hypothesis H0 : f_acos (of_Z 0) = fdiv f_pi (of_Z 2).
Lemma tiny_regard : f_swath_to_regard f_sin f_cos f_asin f_atan (of_Z 500000) (f_lit 1 (-1074)) (of_Z 0) = Ok (of_Z 0).
Proof.
  unfold f_swath_to_regard.
  replace (pdiv (fdiv (f_lit 1 (-1074)) (of_Z 2)) (f_radius_at (of_Z 0))) with (Ok (of_Z 0)) by (vm_compute; reflexivity).
  cbn [bind]. rewrite S0, A0, C0.
  replace (pdiv (fmul (f_sin_rho (of_Z 500000) (of_Z 0)) (of_Z 0)) (fsub (of_Z 1) (fmul (f_sin_rho (of_Z 500000) (of_Z 0)) (of_Z 1)))) with (Ok (of_Z 0)) by (vm_compute; reflexivity).
  cbn [bind]. rewrite T0. vm_compute. reflexivity.
Qed.
Lemma tiny_elevation : f_min_elevation_angle f_sin f_acos (of_Z 500000) (of_Z 0) (of_Z 0) = of_Z 90.
Proof.
  unfold f_min_elevation_angle, f_sin_eta. replace (fdiv (f_radians (of_Z 0)) (of_Z 2)) with (of_Z 0) by (vm_compute; reflexivity). rewrite S0.
  replace (fdiv (of_Z 0) (f_sin_rho (of_Z 500000) (of_Z 0))) with (of_Z 0) by (vm_compute; reflexivity).
  replace (Bltb (of_Z 1) (of_Z 0)) with false by (vm_compute; reflexivity). rewrite H0. apply B2SF_inj. vm_compute. reflexivity.
Qed.
Lemma right_angle : f_radians (of_Z 90) = fdiv f_pi (of_Z 2).
Proof. apply B2SF_inj. vm_compute. reflexivity. Qed.
End Tiny.
Lemma small_check x : is_finite x && Bleb x (f_lit 1 (-27)) && Bleb (f_lit (-1) (-27)) x = true -> finite x /\ Rabs (val x) <= bpow radix2 (-27).
Proof.
  rewrite !andb_true_iff. intros [[F A] B]. split; [exact F|].
  assert (P : B2SF (f_lit 1 (-27)) = SpecFloat.S754_finite false 4503599627370496 (-79)) by (vm_compute; reflexivity).
  assert (M : B2SF (f_lit (-1) (-27)) = SpecFloat.S754_finite true 4503599627370496 (-79)) by (vm_compute; reflexivity).
  assert (FP : is_finite (f_lit 1 (-27)) = true) by (vm_compute; reflexivity).
  assert (FM : is_finite (f_lit (-1) (-27)) = true) by (vm_compute; reflexivity).
  apply sf_val in P. apply sf_val in M. unfold val in *. rewrite Bleb_correct in A, B by assumption. rewrite P in A. rewrite M in B. revert A B. clear.
  set (v := B2R x). clearbody v. unfold F2R. cbn [cond_Zopp Z.opp Fnum Fexp]. intros A B.
  assert (E : 4503599627370496 * bpow radix2 (-79) = bpow radix2 (-27)). { replace (4503599627370496) with (bpow radix2 52) by (cbn; lra). rewrite <- bpow_plus. reflexivity. }
  assert (A' : v <= 4503599627370496 * bpow radix2 (-79)). { generalize (Rle_bool_spec v (4503599627370496 * bpow radix2 (-79))). rewrite A. intro H. inversion H. assumption. }
  assert (B' : -4503599627370496 * bpow radix2 (-79) <= v). { generalize (Rle_bool_spec (-4503599627370496 * bpow radix2 (-79)) v). rewrite B. intro H. inversion H. assumption. }
  apply Rabs_le. lra.
Qed.
(** The usual cosine of the right angle, 6.1e-17: a negative number of planes. *)
Lemma tiny_negative f_sin f_cos f_asin f_acos f_atan : usual_values f_sin f_cos f_asin f_acos f_atan ->
  f_soc_walker f_sin f_cos f_asin f_acos f_atan tiny_streets = Raise ValidationError.
Proof.
  intros (KS & KA & C0 & C & T0 & H0).
  assert (S0 : f_sin (of_Z 0) = of_Z 0). { apply KS; apply (small_check (of_Z 0)); vm_compute; reflexivity. }
  assert (A0 : f_asin (of_Z 0) = of_Z 0). { apply KA; apply (small_check (of_Z 0)); vm_compute; reflexivity. }
  unfold f_soc_walker, f_soc_counts, f_soc_gamma, tiny_streets. cbn [fs_altitude fs_swath fs_packing].
  rewrite (tiny_regard f_sin f_cos f_asin f_atan S0 A0 C0 T0). cbn [bind]. rewrite (tiny_elevation f_sin f_acos S0 H0), right_angle, C.
  rewrite (pdiv_ok f_mean_radius (f_radius_at (of_Z 500000))) by (vm_compute; reflexivity). cbn [bind].
  set (t := fmul (fdiv f_mean_radius (f_radius_at (of_Z 500000))) (f_lit 4967757600021511 (-106))).
  unfold math_asin at 1. replace (Bltb t (of_Z (-1)) || Bltb (of_Z 1) t) with false by (vm_compute; reflexivity).
  destruct (small_check t) as [Ft Bt]; [vm_compute; reflexivity|]. rewrite (KA t Ft Bt). cbn [bind].
  set (g := f_radians (fsub (fsub (of_Z 90) (of_Z 90)) (f_degrees t))).
  destruct (small_check g) as [Fg Bg]; [vm_compute; reflexivity|]. rewrite (KS g Fg Bg).
  unfold f_soc_count. rewrite !(pdiv_ok _ f_mean_radius) by (vm_compute; reflexivity). cbn [bind].
  set (q1 := fdiv (fmul (fdiv (of_Z 1) (of_Z 2)) (fmul (fmul (of_Z 2) (fmul f_mean_radius g)) (of_Z 1))) f_mean_radius).
  set (q2 := fdiv (fmul (fdiv (of_Z 1) (of_Z 2)) (fmul (fmul (fsqrt (of_Z 3)) (fmul f_mean_radius g)) (of_Z 1))) f_mean_radius).
  unfold math_asin.
  replace (Bltb q1 (of_Z (-1)) || Bltb (of_Z 1) q1) with false by (vm_compute; reflexivity).
  replace (Bltb q2 (of_Z (-1)) || Bltb (of_Z 1) q2) with false by (vm_compute; reflexivity).
  destruct (small_check q1) as [F1 B1]; [vm_compute; reflexivity|]. destruct (small_check q2) as [F2 B2]; [vm_compute; reflexivity|].
  rewrite (KA q1 F1 B1), (KA q2 F2 B2). cbn [bind]. vm_compute. reflexivity.
Qed.
