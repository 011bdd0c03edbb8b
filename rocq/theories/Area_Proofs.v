(** Proofs about the constants of the ellipsoid. *)
From Coq Require Import Reals ZArith List Lia Lra Psatz.
From Verif Require Import Base RBase RFacts Grid_Model Grid_Spec Grid_Proofs Fib_Proofs Grid_Proofs2 Area_Spec.
Open Scope R_scope.

(** ** The integrand is the area of a ring of the profile *)

Lemma ring_lemma a b z : 0 < b -> - b < z < b -> 0 < a -> exists d,
  derivable_pt_lim (profile a b) z d /\ ring a b z = 2 * PI * profile a b z * sqrt (1 + d ^ 2).
Proof.
  intros B Z A. set (q := 1 - z ^ 2 / b ^ 2).
  assert (Q : 0 < q).
  { unfold q. assert (z ^ 2 / b ^ 2 < 1); [|lra]. apply (Rmult_lt_reg_r (b ^ 2)); [nra|].
    unfold Rdiv. rewrite Rmult_assoc, Rinv_l by nra. nra. }
  exists (a * (/ (2 * sqrt q) * (- (2 * z) / b ^ 2))). split.
  - unfold profile. change (fun z => a * sqrt (1 - z ^ 2 / b ^ 2)) with (mult_real_fct a (comp sqrt (fun z => 1 - z ^ 2 / b ^ 2))).
    apply derivable_pt_lim_scal. apply (derivable_pt_lim_comp (fun z => 1 - z ^ 2 / b ^ 2) sqrt).
    + replace (- (2 * z) / b ^ 2) with (0 - (INR 2 * z ^ 1) * / b ^ 2) by (cbn; unfold Rdiv; ring).
      apply (derivable_pt_lim_minus (fun _ => 1) (fun z => z ^ 2 / b ^ 2)); [apply derivable_pt_lim_const|].
      unfold Rdiv. replace (INR 2 * z ^ 1 * / b ^ 2) with (INR 2 * z ^ 1 * / b ^ 2 + z ^ 2 * 0) by ring.
      apply (derivable_pt_lim_mult (fun z => z ^ 2) (fun _ => / b ^ 2)); [apply derivable_pt_lim_pow | apply derivable_pt_lim_const].
    + fold q. now apply derivable_pt_lim_sqrt.
  - unfold profile, ring. fold q. rewrite !Rmult_assoc. do 3 f_equal. rewrite <- sqrt_mult; [|lra|].
    + f_equal. pose proof (sqrt_lt_R0 q Q). assert (S2 : sqrt q * sqrt q = q) by (apply sqrt_sqrt; lra).
      replace ((a * (/ (2 * sqrt q) * (- (2 * z) / b ^ 2))) ^ 2) with (a ^ 2 * z ^ 2 / b ^ 4 / (sqrt q * sqrt q)) by (field; lra).
      rewrite S2. replace (q * (1 + a ^ 2 * z ^ 2 / b ^ 4 / q)) with (q + a ^ 2 * z ^ 2 / b ^ 4) by (field; lra).
      unfold q. field. lra.
    + assert (0 <= (a * (/ (2 * sqrt q) * (- (2 * z) / b ^ 2))) ^ 2) by apply pow2_ge_0. lra.
Qed.

(** ** Its integral *)

Section Integral.
Variables a b : R.
Hypothesis B : 0 < b.
Hypothesis AB : b < a.
Let c := sqrt (a ^ 2 - b ^ 2).
Let k := c / b ^ 2.

Lemma c_facts : 0 < c /\ c ^ 2 = a ^ 2 - b ^ 2 /\ c < a.
Proof.
  assert (P : 0 < a ^ 2 - b ^ 2) by nra. pose proof (sqrt_lt_R0 _ P) as C.
  assert (E : c ^ 2 = a ^ 2 - b ^ 2) by (unfold c; rewrite <- Rsqr_pow2; apply Rsqr_sqrt; lra).
  fold c in C. repeat split; [exact C|exact E|]. nra.
Qed.
Lemma k_facts : 0 < k /\ k ^ 2 = (a ^ 2 - b ^ 2) / b ^ 4.
Proof.
  destruct c_facts as (C & E & _). split; [unfold k; apply Rdiv_lt_0_compat; nra|].
  unfold k. rewrite <- E. field. lra.
Qed.

Let w (z : R) := sqrt (1 + k ^ 2 * z ^ 2).
Lemma w_pos z : 0 < w z.
Proof. apply sqrt_lt_R0. assert (0 <= k ^ 2 * z ^ 2) by (apply Rmult_le_pos; apply pow2_ge_0). lra. Qed.
Lemma w_sq z : w z ^ 2 = 1 + k ^ 2 * z ^ 2.
Proof.
  unfold w. rewrite <- Rsqr_pow2. apply Rsqr_sqrt.
  assert (0 <= k ^ 2 * z ^ 2) by (apply Rmult_le_pos; apply pow2_ge_0). lra.
Qed.
Lemma w_dom z : 0 < k * z + w z.
Proof.
  pose proof (w_pos z) as W. pose proof (w_sq z) as E.
  destruct (Rle_dec 0 (k * z)) as [H|H]; [lra|].
  assert (- (k * z) < w z); [|lra]. apply Rnot_le_lt. intro L. nra.
Qed.
Lemma w_deriv z : derivable_pt_lim w z (k ^ 2 * z / w z).
Proof.
  pose proof (w_pos z) as W. pose proof (w_sq z) as E.
  replace (k ^ 2 * z / w z) with (/ (2 * w z) * (0 + k ^ 2 * (INR 2 * z ^ 1))) by (cbn; field; lra).
  apply (derivable_pt_lim_comp (fun z => 1 + k ^ 2 * z ^ 2) sqrt).
  - apply (derivable_pt_lim_plus (fun _ => 1) (fun z => k ^ 2 * z ^ 2)); [apply derivable_pt_lim_const|].
    apply (derivable_pt_lim_scal (fun z => z ^ 2)). apply derivable_pt_lim_pow.
  - apply derivable_pt_lim_sqrt. rewrite <- E. nra.
Qed.

Let G (z : R) := PI * a * (z * w z + / k * ln (k * z + w z)).
Lemma G_deriv z : derivable_pt_lim G z (ring a b z).
Proof.
  pose proof (w_pos z) as W. pose proof (w_sq z) as E. pose proof (w_dom z) as D. destruct k_facts as [K K2].
  assert (R0 : ring a b z = PI * a * ((1 * w z + z * (k ^ 2 * z / w z)) + / k * (/ (k * z + w z) * (k * 1 + k ^ 2 * z / w z)))).
  { unfold ring. rewrite <- K2. fold (w z).
    replace (/ k * (/ (k * z + w z) * (k * 1 + k ^ 2 * z / w z))) with (/ w z) by (field; repeat split; lra).
    replace (1 * w z + z * (k ^ 2 * z / w z) + / w z) with ((w z ^ 2 + (1 + k ^ 2 * z ^ 2)) / w z) by (field; lra).
    rewrite <- E. field. lra. }
  rewrite R0. unfold G. apply (derivable_pt_lim_scal (fun z => z * w z + / k * ln (k * z + w z))).
  apply (derivable_pt_lim_plus (fun z => z * w z) (fun z => / k * ln (k * z + w z))).
  - apply (derivable_pt_lim_mult (fun z => z) w); [apply derivable_pt_lim_id | apply w_deriv].
  - apply (derivable_pt_lim_scal (fun z => ln (k * z + w z))).
    apply (derivable_pt_lim_comp (fun z => k * z + w z) ln).
    + apply (derivable_pt_lim_plus (fun z => k * z) w); [|apply w_deriv].
      apply (derivable_pt_lim_scal (fun z => z)). apply derivable_pt_lim_id.
    + now apply derivable_pt_lim_ln.
Qed.

Lemma ring_continuous z : continuity_pt (ring a b) z.
Proof.
  destruct k_facts as [K K2].
  unfold ring. rewrite <- K2.
  apply (continuity_pt_mult (fun _ => 2 * PI * a) w); [apply continuity_pt_const; now intros ? ?|].
  apply derivable_continuous_pt. exists (k ^ 2 * z / w z). apply w_deriv.
Qed.

Lemma integral_lemma : exists pr : Riemann_integrable (ring a b) (- b) b,
  RiemannInt pr = 2 * PI * a ^ 2 + PI * a * b ^ 2 / c * ln ((a + c) / (a - c)).
Proof.
  assert (L : - b <= b) by lra.
  assert (C0 : forall x, - b <= x <= b -> continuity_pt (ring a b) x) by (intros; apply ring_continuous).
  pose (F := primitive L (FTC_P1 L C0)).
  pose proof (RiemannInt_P29 L C0) as A1. fold F in A1.
  assert (A2 : antiderivative (ring a b) G (- b) b).
  { split; [|exact L]. intros x _. exists (exist _ _ (G_deriv x)). symmetry. apply derive_pt_eq_0, G_deriv. }
  destruct (antiderivative_Ucte _ _ _ _ _ A1 A2) as [d D].
  set (pr := FTC_P1 L C0 L (Rle_refl b)). exists pr.
  assert (E : RiemannInt pr = F b - F (- b)).
  { unfold F. rewrite (RiemannInt_P20 L (FTC_P1 L C0) pr). reflexivity. }
  rewrite E, (D b), (D (- b)) by lra.
  destruct c_facts as (C & C2 & CA). destruct k_facts as [K K2].
  assert (Wb : forall x, x ^ 2 = b ^ 2 -> w x = a / b).
  { intros x X. unfold w. rewrite K2, X. rewrite <- (sqrt_pow2 (a / b)).
    - f_equal. field. lra.
    - left. apply Rdiv_lt_0_compat; lra. }
  unfold G. rewrite (Wb b), (Wb (- b)) by ring.
  assert (N1 : 0 < (a - c) / b) by (apply Rdiv_lt_0_compat; lra).
  assert (N2 : 0 < (a + c) / b) by (apply Rdiv_lt_0_compat; lra).
  replace (k * b + a / b) with ((a + c) / b) by (unfold k; field; lra).
  replace (k * - b + a / b) with ((a - c) / b) by (unfold k; field; lra).
  replace ((a + c) / (a - c)) with ((a + c) / b * / ((a - c) / b)) by (field; repeat split; lra).
  rewrite ln_mult, ln_Rinv by (try apply Rinv_0_lt_compat; lra).
  unfold k. field. lra.
Qed.
End Integral.

(** ** The constants *)

Lemma flattening_bounds : 0 < EARTH_FLATTENING < 1 / 298.
Proof. unfold EARTH_FLATTENING. lra. Qed.

(** The polar radius that goes with the flattening. *)
Definition polar := EARTH_EQUATORIAL_RADIUS * (1 - EARTH_FLATTENING).

Lemma polar_radius_lemma : Rabs (EARTH_POLAR_RADIUS - polar) < 1 / 10 ^ 9.
Proof.
  unfold EARTH_POLAR_RADIUS, polar, EARTH_EQUATORIAL_RADIUS, EARTH_FLATTENING.
  apply Rabs_def1; lra.
Qed.

Lemma eccentricity_lemma : 0 < EARTH_ECCENTRICITY < 1
  /\ EARTH_EQUATORIAL_RADIUS ^ 2 * (1 - EARTH_ECCENTRICITY ^ 2) = polar ^ 2.
Proof.
  pose proof flattening_bounds as F.
  assert (P : 0 < 2 * EARTH_FLATTENING - EARTH_FLATTENING ^ 2 < 1 / 100) by nra.
  assert (E : EARTH_ECCENTRICITY ^ 2 = 2 * EARTH_FLATTENING - EARTH_FLATTENING ^ 2).
  { unfold EARTH_ECCENTRICITY. rewrite <- Rsqr_pow2. apply Rsqr_sqrt. lra. }
  assert (Q : 0 < EARTH_ECCENTRICITY) by (apply sqrt_lt_R0; lra).
  split; [split; [exact Q | nra]|]. rewrite E. unfold polar. ring.
Qed.

Lemma eccentricity_small : EARTH_ECCENTRICITY < 1 / 10.
Proof.
  pose proof flattening_bounds as F. destruct eccentricity_lemma as [[Q _] _].
  assert (E : EARTH_ECCENTRICITY ^ 2 = 2 * EARTH_FLATTENING - EARTH_FLATTENING ^ 2).
  { unfold EARTH_ECCENTRICITY. rewrite <- Rsqr_pow2. apply Rsqr_sqrt. nra. }
  apply Rnot_le_lt. intro L. nra.
Qed.

Lemma ln_le_sub x : 0 < x -> ln x <= x - 1.
Proof.
  intro X. pose proof (exp_ineq1_le (ln x)) as H. rewrite exp_ln in H by exact X. lra.
Qed.

Lemma area_lemma : exists S, surface_area EARTH_EQUATORIAL_RADIUS polar S /\ Rabs (EARTH_SURFACE_AREA - S) < 1.
Proof.
  assert (AB : 0 < polar < EARTH_EQUATORIAL_RADIUS).
  { pose proof flattening_bounds. unfold polar, EARTH_EQUATORIAL_RADIUS. lra. }
  destruct eccentricity_lemma as [Q E]. pose proof eccentricity_small as ES.
  destruct (integral_lemma EARTH_EQUATORIAL_RADIUS polar (proj1 AB) (proj2 AB)) as [pr I].
  assert (C : sqrt (EARTH_EQUATORIAL_RADIUS ^ 2 - polar ^ 2) = EARTH_EQUATORIAL_RADIUS * EARTH_ECCENTRICITY).
  { rewrite <- E. rewrite <- (sqrt_pow2 (EARTH_EQUATORIAL_RADIUS * EARTH_ECCENTRICITY)) by nra. f_equal. ring. }
  rewrite C in I. eexists. split; [exists pr; exact I|].
  set (a := EARTH_EQUATORIAL_RADIUS) in *. set (e := EARTH_ECCENTRICITY) in *.
  assert (A : 0 < a) by (unfold a, EARTH_EQUATORIAL_RADIUS; lra).
  replace ((a + a * e) / (a - a * e)) with ((1 + e) / (1 - e)).
  2:{ assert (0 < a * (1 - e)) by (apply Rmult_lt_0_compat; lra). field. split; lra. }
  replace (PI * a * polar ^ 2 / (a * e)) with (PI * polar ^ 2 / e) by (field; lra).
  unfold EARTH_SURFACE_AREA. fold a e.
  set (b := EARTH_POLAR_RADIUS). set (l := ln ((1 + e) / (1 - e))).
  replace (2 * PI * a ^ 2 + PI * b ^ 2 / e * l - (2 * PI * a ^ 2 + PI * polar ^ 2 / e * l))
    with (PI * ((b - polar) * (b + polar)) * (l / e)) by (field; lra).
  assert (LE : 0 < l / e <= 2 / (1 - e)).
  { assert (X : 1 < (1 + e) / (1 - e)).
    { apply (Rmult_lt_reg_r (1 - e)); [lra|]. unfold Rdiv. rewrite Rmult_assoc, Rinv_l by lra. lra. }
    split.
    - apply Rdiv_lt_0_compat; [|lra]. unfold l. rewrite <- ln_1. apply ln_increasing; lra.
    - apply (Rmult_le_reg_r e); [lra|]. unfold Rdiv at 1. rewrite Rmult_assoc, Rinv_l, Rmult_1_r by lra.
      unfold l. eapply Rle_trans; [apply ln_le_sub; lra|]. right. field. lra. }
  assert (L3 : l / e <= 3).
  { eapply Rle_trans; [apply LE|]. apply (Rmult_le_reg_r (1 - e)); [lra|]. unfold Rdiv. rewrite Rmult_assoc, Rinv_l by lra. lra. }
  rewrite !Rabs_mult. rewrite (Rabs_pos_eq PI), (Rabs_pos_eq (l / e)) by (pose proof PI_RGT_0; lra).
  pose proof polar_radius_lemma as PR. fold b in PR.
  assert (SB : Rabs (b + polar) < 13000000).
  { rewrite Rabs_pos_eq by (unfold b, EARTH_POLAR_RADIUS; lra). unfold b, EARTH_POLAR_RADIUS. unfold a, EARTH_EQUATORIAL_RADIUS in AB. lra. }
  pose proof PI_RGT_0. pose proof PI_4.
  pose proof (Rabs_pos (b - polar)). pose proof (Rabs_pos (b + polar)).
  assert (M : Rabs (b - polar) * Rabs (b + polar) <= 1 / 10 ^ 9 * 13000000) by (apply Rmult_le_compat; lra).
  assert (M2 : PI * (Rabs (b - polar) * Rabs (b + polar)) <= 4 * (13 / 1000)).
  { apply Rmult_le_compat; try lra. apply Rmult_le_pos; lra. }
  assert (M3 : PI * (Rabs (b - polar) * Rabs (b + polar)) * (l / e) <= 4 * (13 / 1000) * 3).
  { apply Rmult_le_compat; try lra. apply Rmult_le_pos; [lra|]. apply Rmult_le_pos; lra. }
  lra.
Qed.


Lemma surface_area_unique a b S S' : surface_area a b S -> surface_area a b S' -> S = S'.
Proof. intros [p <-] [q <-]. apply RiemannInt_P5. Qed.

Lemma area_all : (exists S, surface_area EARTH_EQUATORIAL_RADIUS polar S)
  /\ forall S, surface_area EARTH_EQUATORIAL_RADIUS polar S -> Rabs (EARTH_SURFACE_AREA - S) < 1.
Proof.
  destruct area_lemma as (S & H & D). split; [eauto|]. intros S' H'. now rewrite (surface_area_unique _ _ S' S H' H).
Qed.

Lemma count_lemma d S : 0 < d <= 2 * PI * EARTH_MEAN_RADIUS -> surface_area EARTH_EQUATORIAL_RADIUS polar S ->
  exists n, compute_number_samples d = Ok n /\ (0 <= n)%Z
    /\ IZR n * (2 * PI * EARTH_MEAN_RADIUS ^ 2 * (1 - cos (d / EARTH_MEAN_RADIUS / 2))) < S + 1
    /\ S - 1 < (IZR n + 1) * (2 * PI * EARTH_MEAN_RADIUS ^ 2 * (1 - cos (d / EARTH_MEAN_RADIUS / 2))).
Proof.
  intros D H. destruct (number_samples_fit d D) as (n & E & N & L & U). exists n.
  pose proof (proj2 area_all S H) as B. apply Rabs_def2 in B as [B1 B2]. split; [exact E|]; split; [exact N|]; split; [eapply Rle_lt_trans; [exact L|lra] | eapply Rlt_trans; [|exact U]; lra].
Qed.

Lemma mean_radius_lemma : EARTH_MEAN_RADIUS = (EARTH_EQUATORIAL_RADIUS + EARTH_EQUATORIAL_RADIUS + EARTH_POLAR_RADIUS) / 3
  /\ EARTH_POLAR_RADIUS < EARTH_MEAN_RADIUS < EARTH_EQUATORIAL_RADIUS.
Proof. unfold EARTH_MEAN_RADIUS, EARTH_EQUATORIAL_RADIUS, EARTH_POLAR_RADIUS. split; lra. Qed.

(** Bounds of the logarithm in the area. *)
Definition lg (e : R) : R := ln ((1 + e) / (1 - e)).
Lemma lg_deriv e : 0 <= e < 1 -> derivable_pt_lim lg e (2 / (1 - e ^ 2)).
Proof.
  intro H. assert (P : 0 < (1 + e) / (1 - e)) by (apply Rdiv_lt_0_compat; lra).
  assert (D : derivable_pt_lim (fun e => (1 + e) / (1 - e)) e (((0 + 1) * (1 - e) - (0 - 1) * (1 + e)) / (1 - e)²)).
  { apply (derivable_pt_lim_div (fun e => 1 + e) (fun e => 1 - e)); [| |lra].
    - apply (derivable_pt_lim_plus (fun _ => 1) (fun e => e)); [apply derivable_pt_lim_const|apply derivable_pt_lim_id].
    - apply (derivable_pt_lim_minus (fun _ => 1) (fun e => e)); [apply derivable_pt_lim_const|apply derivable_pt_lim_id]. }
  pose proof (derivable_pt_lim_comp _ ln e _ _ D (derivable_pt_lim_ln _ P)) as Q.
  replace (2 / (1 - e ^ 2)) with (/ ((1 + e) / (1 - e)) * (((0 + 1) * (1 - e) - (0 - 1) * (1 + e)) / (1 - e)²)); [exact Q|].
  unfold Rsqr. assert (1 - e ^ 2 <> 0) by nra. field. repeat split; lra.
Qed.

Lemma lg_0 : lg 0 = 0.
Proof. unfold lg. rewrite Rplus_0_r, Rminus_0_r. unfold Rdiv. rewrite Rinv_1, Rmult_1_r. apply ln_1. Qed.

(** A function with non-negative derivative on [0, e] that starts at zero. *)
Lemma from_zero (f f' : R -> R) e : 0 <= e < 1 -> f 0 = 0 ->
  (forall x, 0 <= x < 1 -> derivable_pt_lim f x (f' x) /\ 0 <= f' x) -> 0 <= f e.
Proof.
  intros E Z D. destruct (Req_dec e 0) as [-> | N]; [lra|].
  destruct (MVT_cor2 f f' 0 e ltac:(lra)) as (c & M & C); [intros c C; apply D; lra|].
  assert (0 <= f' c) by (apply D; lra). rewrite Z in M. assert (0 <= f' c * (e - 0)) by (apply Rmult_le_pos; lra). lra.
Qed.

Lemma lg_lower e : 0 <= e < 1 -> 2 * e + 2 / 3 * e ^ 3 + 2 / 5 * e ^ 5 <= lg e.
Proof.
  intro E. enough (0 <= lg e - (2 * e + 2 / 3 * e ^ 3 + 2 / 5 * e ^ 5)) by lra.
  apply (from_zero (fun e => lg e - (2 * e + 2 / 3 * e ^ 3 + 2 / 5 * e ^ 5))
    (fun e => 2 / (1 - e ^ 2) - (2 * 1 + 2 / 3 * (INR 3 * e ^ 2) + 2 / 5 * (INR 5 * e ^ 4)))); [exact E| |].
  - rewrite lg_0. ring.
  - intros x X. split.
    + apply (derivable_pt_lim_minus lg); [now apply lg_deriv|].
      apply (derivable_pt_lim_plus (fun e => 2 * e + 2 / 3 * e ^ 3) (fun e => 2 / 5 * e ^ 5)).
      * apply (derivable_pt_lim_plus (fun e => 2 * e) (fun e => 2 / 3 * e ^ 3)).
        -- apply (derivable_pt_lim_scal (fun e => e)), derivable_pt_lim_id.
        -- apply (derivable_pt_lim_scal (fun e => e ^ 3)), (derivable_pt_lim_pow x 3).
      * apply (derivable_pt_lim_scal (fun e => e ^ 5)), (derivable_pt_lim_pow x 5).
    + assert (P : 0 < 1 - x ^ 2) by nra.
      replace (2 / (1 - x ^ 2) - (2 * 1 + 2 / 3 * (INR 3 * x ^ 2) + 2 / 5 * (INR 5 * x ^ 4))) with (2 * (x ^ 3) ^ 2 / (1 - x ^ 2)) by (cbn; field; lra).
      apply Rmult_le_pos; [|apply Rlt_le, Rinv_0_lt_compat, P]. pose proof (pow2_ge_0 (x ^ 3)). lra.
Qed.

Lemma lg_upper e : 0 <= e < 1 -> lg e <= 2 * e + 2 / 3 * e ^ 3 + 2 / 5 * (e ^ 5 / (1 - e ^ 2)).
Proof.
  intro E. enough (0 <= 2 * e + 2 / 3 * e ^ 3 + 2 / 5 * (e ^ 5 / (1 - e ^ 2)) - lg e) by lra.
  apply (from_zero (fun e => 2 * e + 2 / 3 * e ^ 3 + 2 / 5 * (e ^ 5 / (1 - e ^ 2)) - lg e)
    (fun e => 2 * 1 + 2 / 3 * (INR 3 * e ^ 2) + 2 / 5 * ((INR 5 * e ^ 4 * (1 - e ^ 2) - (0 - INR 2 * e ^ 1) * e ^ 5) / (1 - e ^ 2)²) - 2 / (1 - e ^ 2))); [exact E| |].
  - rewrite lg_0. field.
  - intros x X. assert (P : 0 < 1 - x ^ 2) by nra. split.
    + apply (derivable_pt_lim_minus (fun e => 2 * e + 2 / 3 * e ^ 3 + 2 / 5 * (e ^ 5 / (1 - e ^ 2))) lg); [|now apply lg_deriv].
      apply (derivable_pt_lim_plus (fun e => 2 * e + 2 / 3 * e ^ 3) (fun e => 2 / 5 * (e ^ 5 / (1 - e ^ 2)))).
      * apply (derivable_pt_lim_plus (fun e => 2 * e) (fun e => 2 / 3 * e ^ 3)).
        -- apply (derivable_pt_lim_scal (fun e => e)), derivable_pt_lim_id.
        -- apply (derivable_pt_lim_scal (fun e => e ^ 3)), (derivable_pt_lim_pow x 3).
      * apply (derivable_pt_lim_scal (fun e => e ^ 5 / (1 - e ^ 2))).
        apply (derivable_pt_lim_div (fun e => e ^ 5) (fun e => 1 - e ^ 2)); [apply (derivable_pt_lim_pow x 5)| |lra].
        apply (derivable_pt_lim_minus (fun _ => 1) (fun e => e ^ 2)); [apply derivable_pt_lim_const|apply (derivable_pt_lim_pow x 2)].
    + replace (2 * 1 + 2 / 3 * (INR 3 * x ^ 2) + 2 / 5 * ((INR 5 * x ^ 4 * (1 - x ^ 2) - (0 - INR 2 * x ^ 1) * x ^ 5) / (1 - x ^ 2)²) - 2 / (1 - x ^ 2))
        with (4 / 5 * (x ^ 3) ^ 2 / (1 - x ^ 2)²) by (unfold Rsqr; cbn; field; lra).
      apply Rmult_le_pos; [|apply Rlt_le, Rinv_0_lt_compat; unfold Rsqr; nra]. pose proof (pow2_ge_0 (x ^ 3)). lra.
Qed.

Lemma mean_sphere_lemma : EARTH_SURFACE_AREA < 4 * PI * EARTH_MEAN_RADIUS ^ 2 < EARTH_SURFACE_AREA * (1 + 1 / 10 ^ 6).
Proof.
  destruct eccentricity_lemma as [Q _]. pose proof flattening_bounds as F. pose proof PI_RGT_0 as P.
  assert (E : EARTH_ECCENTRICITY ^ 2 = 2 * EARTH_FLATTENING - EARTH_FLATTENING ^ 2).
  { unfold EARTH_ECCENTRICITY. rewrite <- Rsqr_pow2. apply Rsqr_sqrt. nra. }
  set (e := EARTH_ECCENTRICITY) in *.
  assert (B : 2 + 2 / 3 * e ^ 2 + 2 / 5 * (e ^ 2) ^ 2 <= lg e / e <= 2 + 2 / 3 * e ^ 2 + 2 / 5 * ((e ^ 2) ^ 2 / (1 - e ^ 2))).
  { assert (1 - e ^ 2 <> 0) by nra. split.
    - apply (Rmult_le_reg_r e); [lra|]. replace (lg e / e * e) with (lg e) by (field; lra).
      pose proof (lg_lower e ltac:(lra)). lra.
    - apply (Rmult_le_reg_r e); [lra|]. replace (lg e / e * e) with (lg e) by (field; lra).
      pose proof (lg_upper e ltac:(lra)) as U. replace ((2 + 2 / 3 * e ^ 2 + 2 / 5 * ((e ^ 2) ^ 2 / (1 - e ^ 2))) * e) with (2 * e + 2 / 3 * e ^ 3 + 2 / 5 * (e ^ 5 / (1 - e ^ 2))) by (field; lra). lra. }
  assert (S : EARTH_SURFACE_AREA = PI * (2 * EARTH_EQUATORIAL_RADIUS ^ 2 + EARTH_POLAR_RADIUS ^ 2 * (lg e / e))).
  { unfold EARTH_SURFACE_AREA. fold e. fold (lg e). field. lra. }
  rewrite S. rewrite E in B. set (l := lg e / e) in *. clearbody l. clear E S. unfold EARTH_FLATTENING in B.
  unfold EARTH_MEAN_RADIUS, EARTH_EQUATORIAL_RADIUS, EARTH_POLAR_RADIUS.
  split.
  - rewrite (Rmult_comm 4 PI), !Rmult_assoc. apply Rmult_lt_compat_l; [exact P|]. lra.
  - rewrite (Rmult_comm 4 PI), !Rmult_assoc. apply Rmult_lt_compat_l; [exact P|]. lra.
Qed.

Lemma whole_globe_lemma clip : compute_number_samples (2 * PI * EARTH_MEAN_RADIUS) = Ok 0%Z
  /\ generate_fibonacci_lattice_points clip (2 * PI * EARTH_MEAN_RADIUS) None = Ok nil.
Proof.
  pose proof PI_RGT_0 as P. destruct mean_radius_lemma as [_ M].
  assert (R0 : 0 < EARTH_MEAN_RADIUS) by (unfold EARTH_POLAR_RADIUS in M; lra).
  destruct (number_samples_fit (2 * PI * EARTH_MEAN_RADIUS)) as (n & E & N & L & _).
  { split; [|lra]. apply Rmult_lt_0_compat; lra. }
  unfold cap_area in L. replace (2 * PI * EARTH_MEAN_RADIUS / EARTH_MEAN_RADIUS / 2) with PI in L by (field; lra).
  rewrite cos_PI in L. pose proof (proj1 mean_sphere_lemma) as S.
  assert (n = 0%Z).
  { assert (n < 1)%Z; [|lia]. apply lt_IZR. apply Rnot_le_lt. intro G.
    assert (X : 0 <= (IZR n - 1) * (4 * PI * EARTH_MEAN_RADIUS ^ 2)).
    { apply Rmult_le_pos; [lra|]. apply Rmult_le_pos; [lra|apply pow2_ge_0]. }
    replace (IZR n * (2 * PI * EARTH_MEAN_RADIUS ^ 2 * (1 - -1))) with ((IZR n - 1) * (4 * PI * EARTH_MEAN_RADIUS ^ 2) + 4 * PI * EARTH_MEAN_RADIUS ^ 2) in L by ring.
    lra. }
  subst n. split; [exact E|]. unfold generate_fibonacci_lattice_points. rewrite E. reflexivity.
Qed.
