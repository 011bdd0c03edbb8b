(** Facts about the real-number helpers. *)
From Coq Require Import Reals ZArith Lra Lia Psatz Bool.
From Verif Require Import RBase.
Open Scope R_scope.

Lemma Rleb_spec x y : Rleb x y = true <-> x <= y.
Proof. unfold Rleb. destruct (Rle_dec x y); split; intro H; auto; discriminate || contradiction. Qed.
Lemma Rltb_spec x y : Rltb x y = true <-> x < y.
Proof. unfold Rltb. destruct (Rlt_dec x y); split; intro H; auto; discriminate || contradiction. Qed.
Lemma Rleb_false x y : Rleb x y = false <-> y < x.
Proof. unfold Rleb. destruct (Rle_dec x y); split; intro H; auto; try discriminate; lra. Qed.
Lemma Rltb_false x y : Rltb x y = false <-> y <= x.
Proof. unfold Rltb. destruct (Rlt_dec x y); split; intro H; auto; try discriminate; lra. Qed.

Lemma Int_part_bounds x : IZR (Int_part x) <= x < IZR (Int_part x) + 1.
Proof. destruct (base_Int_part x). lra. Qed.
Lemma Int_part_unique x n : IZR n <= x < IZR n + 1 -> Int_part x = n.
Proof.
  intros [H1 H2]. destruct (Int_part_bounds x) as [H3 H4].
  assert (IZR (Int_part x) < IZR (n + 1)) by (rewrite plus_IZR; lra).
  assert (IZR n < IZR (Int_part x + 1)) by (rewrite plus_IZR; lra).
  apply lt_IZR in H. apply lt_IZR in H0. lia.
Qed.

Lemma rmod_range x m : 0 < m -> 0 <= rmod x m < m.
Proof.
  intro Hm. unfold rmod. destruct (Int_part_bounds (x / m)) as [H1 H2].
  assert (E : x = m * (x / m)) by (field; lra). set (q := x / m) in *.
  split; [|]; rewrite E at 1; nra.
Qed.
(** Congruence modulo [m]. *)
Definition eqm (m x y : R) : Prop := exists k : Z, x = y + IZR k * m.
Lemma eqm_refl m x : eqm m x x. Proof. exists 0%Z. simpl. lra. Qed.
Lemma eqm_sym m x y : eqm m x y -> eqm m y x.
Proof. intros [k ->]. exists (- k)%Z. rewrite opp_IZR. lra. Qed.
Lemma eqm_trans m x y z : eqm m x y -> eqm m y z -> eqm m x z.
Proof. intros [k ->] [l ->]. exists (k + l)%Z. rewrite plus_IZR. lra. Qed.
Lemma eqm_add m a b c d : eqm m a b -> eqm m c d -> eqm m (a + c) (b + d).
Proof. intros [k ->] [l ->]. exists (k + l)%Z. rewrite plus_IZR. lra. Qed.
Lemma eqm_sub m a b c d : eqm m a b -> eqm m c d -> eqm m (a - c) (b - d).
Proof. intros [k ->] [l ->]. exists (k - l)%Z. rewrite minus_IZR. lra. Qed.
Lemma rmod_eqm x m : eqm m (rmod x m) x.
Proof. unfold rmod. exists (- Int_part (x / m))%Z. rewrite opp_IZR. lra. Qed.
Lemma eqm_small_unique m x y : 0 < m -> 0 <= x < m -> 0 <= y < m -> eqm m x y -> x = y.
Proof.
  intros Hm Hx Hy [k E]. assert (k = 0%Z); [|subst; simpl in *; lra].
  assert (IZR k < 1) by nra. assert (-1 < IZR k) by nra.
  apply (lt_IZR k 1) in H. apply (lt_IZR (-1) k) in H0. lia.
Qed.
Lemma rmod_unique x y m : 0 < m -> 0 <= y < m -> eqm m x y -> rmod x m = y.
Proof.
  intros Hm Hy H. apply (eqm_small_unique m); auto; [now apply rmod_range|].
  eapply eqm_trans; [apply rmod_eqm|assumption].
Qed.
Lemma rmod_small x m : 0 <= x < m -> rmod x m = x.
Proof. intro H. apply rmod_unique; [lra|assumption|apply eqm_refl]. Qed.
Lemma rmod_eqm_eq x y m : 0 < m -> eqm m x y -> rmod x m = rmod y m.
Proof.
  intros Hm H. apply rmod_unique; auto; [now apply rmod_range|].
  eapply eqm_trans; [exact H|apply eqm_sym, rmod_eqm].
Qed.
Lemma rmod_add_l x y m : 0 < m -> rmod (rmod x m + y) m = rmod (x + y) m.
Proof. intro Hm. apply rmod_eqm_eq; auto. apply eqm_add; [apply rmod_eqm|apply eqm_refl]. Qed.

Lemma degrees_radians x : degrees (radians x) = x.
Proof. unfold degrees, radians. pose proof PI_RGT_0. field. lra. Qed.
Lemma radians_degrees x : radians (degrees x) = x.
Proof. unfold degrees, radians. pose proof PI_RGT_0. field. lra. Qed.
Lemma radians_plus x y : radians (x + y) = radians x + radians y.
Proof. unfold radians. lra. Qed.
Lemma degrees_plus x y : degrees (x + y) = degrees x + degrees y.
Proof. unfold degrees. lra. Qed.
Lemma radians_lt x y : x < y <-> radians x < radians y.
Proof.
  unfold radians. pose proof PI_RGT_0. split; intro H1.
  - apply Rmult_lt_compat_r; lra.
  - apply Rmult_lt_reg_r in H1; lra.
Qed.
Lemma radians_le x y : x <= y <-> radians x <= radians y.
Proof.
  unfold radians. pose proof PI_RGT_0. split; intro H1.
  - apply Rmult_le_compat_r; lra.
  - apply Rmult_le_reg_r in H1; lra.
Qed.
Lemma radians_0 : radians 0 = 0. Proof. unfold radians. lra. Qed.
Lemma radians_90 : radians 90 = PI / 2. Proof. unfold radians. lra. Qed.
Lemma radians_180 : radians 180 = PI. Proof. unfold radians. lra. Qed.
Lemma radians_360 : radians 360 = 2 * PI. Proof. unfold radians. lra. Qed.
Lemma degrees_lt x y : x < y <-> degrees x < degrees y.
Proof. rewrite (radians_lt (degrees x)), !radians_degrees. reflexivity. Qed.
Lemma degrees_le x y : x <= y <-> degrees x <= degrees y.
Proof. rewrite (radians_le (degrees x)), !radians_degrees. reflexivity. Qed.
Lemma degrees_0 : degrees 0 = 0. Proof. unfold degrees. lra. Qed.
Lemma degrees_PI2 : degrees (PI / 2) = 90. Proof. unfold degrees. pose proof PI_RGT_0. field. lra. Qed.
Lemma degrees_PI : degrees PI = 180. Proof. unfold degrees. pose proof PI_RGT_0. field. lra. Qed.
Lemma degrees_2PI : degrees (2 * PI) = 360. Proof. unfold degrees. pose proof PI_RGT_0. field. lra. Qed.

Lemma EMR_val : EARTH_MEAN_RADIUS = 19113026314245179 / 3000000000.
Proof. unfold EARTH_MEAN_RADIUS, EARTH_EQUATORIAL_RADIUS, EARTH_POLAR_RADIUS. lra. Qed.
Lemma EMR_bounds : 6371008 < EARTH_MEAN_RADIUS < 6371009.
Proof. rewrite EMR_val. lra. Qed.
Lemma MU_pos : 0 < EARTH_MU. Proof. unfold EARTH_MU. lra. Qed.

Lemma rhe_bounds x : -1/2 <= IZR (round_half_even x) - x <= 1/2.
Proof.
  unfold round_half_even. destruct (Int_part_bounds x) as [H1 H2].
  destruct (Rltb (x - IZR (Int_part x)) (1 / 2)) eqn:E1; [apply Rltb_spec in E1|apply Rltb_false in E1]; [lra|].
  destruct (Rltb (1 / 2) (x - IZR (Int_part x))) eqn:E2; [apply Rltb_spec in E2|apply Rltb_false in E2].
  - rewrite plus_IZR. lra.
  - destruct (Z.even (Int_part x)); [lra|]. rewrite plus_IZR. lra.
Qed.
Lemma rhe_mono x y : x <= y -> (round_half_even x <= round_half_even y)%Z.
Proof.
  intro H. destruct (Z_le_gt_dec (round_half_even x) (round_half_even y)) as [|G]; [assumption|exfalso].
  pose proof (rhe_bounds x) as Bx. pose proof (rhe_bounds y) as By.
  assert (G1 : (round_half_even y + 1 <= round_half_even x)%Z) by lia.
  apply IZR_le in G1. rewrite plus_IZR in G1.
  assert (E : x = y) by lra. rewrite E in G. lia.
Qed.
Lemma rhe_integer n : round_half_even (IZR n) = n.
Proof.
  unfold round_half_even. rewrite (Int_part_unique (IZR n) n) by lra.
  replace (Rltb (IZR n - IZR n) (1/2)) with true; [reflexivity|]. symmetry. apply Rltb_spec. lra.
Qed.
