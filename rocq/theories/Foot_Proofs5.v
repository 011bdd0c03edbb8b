(** Swath width and minimum elevation angle of instruments, and outlines of pointed instruments. *)
From Coq Require Import Reals ZArith List Bool Lra Lia.
From Verif Require Import Base RBase RFacts Mog_Model Geom_Model Geom_Spec Geom_Proofs Instr_Model Instr_Spec Instr_Proofs Instr_Proofs2 Poly_Model Poly_Spec Poly_Proofs Poly_Proofs2 Foot_Model Foot_Spec Foot_Proofs Foot_Proofs2 Foot_Proofs3 Foot_Proofs4.
Import ListNotations.
Open Scope R_scope.

(** ** Off-nadir angles grow with the distance up to the horizon *)
Lemma off_nadir_tan r lam eta : 0 < r < 1 -> off_nadir r lam eta -> r * sin lam * cos eta = (1 - r * cos lam) * sin eta.
Proof.
  intros Hr (d & Hd & E1 & E2). rewrite E1, E2. ring.
Qed.
Lemma off_nadir_lt r l1 l2 e1 e2 : 0 < r < 1 -> 0 <= l1 -> l1 < l2 -> l2 <= acos r -> 0 <= e1 < PI / 2 -> 0 <= e2 < PI / 2 ->
  off_nadir r l1 e1 -> off_nadir r l2 e2 -> e1 < e2.
Proof.
  intros Hr L0 L12 L2 E1 E2 O1 O2. pose proof PI_RGT_0 as P. pose proof (acos_range01 r ltac:(lra)) as A.
  assert (C : r <= cos l2). { rewrite <- (cos_acos r) at 1 by lra. apply cos_decr_1; lra. }
  apply off_nadir_tan in O1; [|exact Hr]. apply off_nadir_tan in O2; [|exact Hr].
  assert (CE1 : 0 < cos e1) by (apply cos_gt_0; lra). assert (CE2 : 0 < cos e2) by (apply cos_gt_0; lra).
  pose proof (COS_bound l1) as B1. pose proof (COS_bound l2) as B2.
  assert (D1 : 0 < 1 - r * cos l1) by nra. assert (D2 : 0 < 1 - r * cos l2) by nra.
  set (m := (l1 + l2) / 2). set (k := (l2 - l1) / 2).
  assert (M1 : l1 = m - k) by (unfold m, k; lra). assert (M2 : l2 = m + k) by (unfold m, k; lra).
  assert (SK : 0 < sin k) by (apply sin_gt_0; unfold k; lra). assert (S2 : 0 < sin l2) by (apply sin_gt_0; lra).
  assert (CK : 0 < cos k) by (apply cos_gt_0; unfold k; lra).
  assert (K : r * cos k < cos m).
  { assert (Q : r * cos k <= cos l2 * cos k) by (apply Rmult_le_compat_r; lra).
    assert (Z : cos m = cos l2 * cos k + sin l2 * sin k). { rewrite <- cos_minus. f_equal. lra. }
    nra. }
  assert (G : sin l1 * (1 - r * cos l2) < sin l2 * (1 - r * cos l1)).
  { assert (Z : sin l2 * (1 - r * cos l1) - sin l1 * (1 - r * cos l2) = (sin l2 - sin l1) - r * sin (l2 - l1)) by (rewrite sin_minus; ring).
    assert (Z1 : sin l2 - sin l1 = 2 * cos m * sin k) by (rewrite M1, M2, sin_plus, sin_minus; ring).
    assert (Z2 : sin (l2 - l1) = 2 * sin k * cos k) by (replace (l2 - l1) with (2 * k) by lra; apply sin_2a).
    rewrite Z1, Z2 in Z. assert (0 < 2 * sin k * (cos m - r * cos k)) by (apply Rmult_lt_0_compat; lra). lra. }
  assert (S : 0 < sin (e2 - e1)).
  { rewrite sin_minus. apply Rmult_lt_reg_l with ((1 - r * cos l1) * (1 - r * cos l2)); [nra|]. rewrite Rmult_0_r.
    replace ((1 - r * cos l1) * (1 - r * cos l2) * (sin e2 * cos e1 - cos e2 * sin e1))
      with ((1 - r * cos l1) * cos e1 * ((1 - r * cos l2) * sin e2) - (1 - r * cos l2) * cos e2 * ((1 - r * cos l1) * sin e1)) by ring.
    rewrite <- O1, <- O2.
    replace ((1 - r * cos l1) * cos e1 * (r * sin l2 * cos e2) - (1 - r * cos l2) * cos e2 * (r * sin l1 * cos e1))
      with (r * (cos e1 * cos e2) * (sin l2 * (1 - r * cos l1) - sin l1 * (1 - r * cos l2))) by ring.
    apply Rmult_lt_0_compat; [|lra]. apply Rmult_lt_0_compat; [lra|nra]. }
  destruct (Rle_lt_dec e2 e1) as [N|]; [|assumption]. exfalso.
  assert (0 <= sin (e1 - e2)) by (apply sin_ge_0; lra). replace (e2 - e1) with (- (e1 - e2)) in S by lra. rewrite sin_neg in S. lra.
Qed.
Lemma off_nadir_le r l1 l2 e1 e2 : 0 < r < 1 -> 0 <= l1 <= acos r -> 0 <= l2 <= acos r -> 0 <= e1 < PI / 2 -> 0 <= e2 < PI / 2 ->
  off_nadir r l1 e1 -> off_nadir r l2 e2 -> (l1 <= l2 <-> e1 <= e2).
Proof.
  intros Hr L1 L2 E1 E2 O1 O2. split; intro H.
  - destruct (Rle_lt_dec e1 e2) as [|N]; [assumption|]. exfalso. destruct H as [H| ->].
    + pose proof (off_nadir_lt r l1 l2 e1 e2 Hr ltac:(lra) H ltac:(lra) E1 E2 O1 O2). lra.
    + assert (T1 := off_nadir_sine _ _ _ O1). assert (T2 := off_nadir_sine _ _ _ O2).
      destruct (edge_angles r l2 Hr L2) as (A1 & A2 & A3).
      apply off_nadir_tan in O1; [|exact Hr]. apply off_nadir_tan in O2; [|exact Hr].
      assert (D : 0 < 1 - r * cos l2) by (pose proof (COS_bound l2); nra).
      assert (S : sin (e1 - e2) = 0).
      { rewrite sin_minus. apply Rmult_eq_reg_l with (1 - r * cos l2); [|lra]. rewrite Rmult_0_r.
        replace ((1 - r * cos l2) * (sin e1 * cos e2 - cos e1 * sin e2)) with ((1 - r * cos l2) * sin e1 * cos e2 - cos e1 * ((1 - r * cos l2) * sin e2)) by ring.
        rewrite <- O1, <- O2. ring. }
      assert (0 < sin (e1 - e2)) by (apply sin_gt_0; lra). lra.
  - destruct (Rle_lt_dec l1 l2) as [|N]; [assumption|]. exfalso.
    pose proof (off_nadir_lt r l2 l1 e2 e1 Hr ltac:(lra) N ltac:(lra) E2 E1 O2 O1). lra.
Qed.

(** ** What the numbers of an instrument mean on the ground *)
Lemma regard_iff F : regard_valid F = true <-> 0 < F <= 360.
Proof. unfold regard_valid. rewrite andb_true_iff, Rltb_spec, Rleb_spec. tauto. Qed.
Lemma swath_seen F h lam eta : regard_valid F = true -> F <= 180 -> 0 < h ->
  0 <= lam <= horizon h 0 -> 0 <= eta < PI / 2 -> off_nadir (rho h 0) lam eta ->
  exists w eps, get_swath_width F h = Some w /\ get_min_elevation_angle F h = Some eps
    /\ (EARTH_MEAN_RADIUS * lam <= w / 2 <-> eta <= radians F / 2)
    /\ (eta <= radians F / 2 <-> radians eps <= PI / 2 - eta - lam).
Proof.
  intros V H180 Hh L E O. unfold regard_valid in V. apply andb_true_iff in V. destruct V as [V0 _]. apply Rltb_spec in V0.
  pose proof EMR_bounds as B. assert (Ha : above h 0) by (unfold above; lra). pose proof (rho_range h 0 Ha) as Hr. pose proof PI_RGT_0 as P.
  pose proof (half_for F ltac:(lra)) as HF. unfold get_swath_width, get_min_elevation_angle. unfold horizon in L.
  destruct (Rle_dec (radians F / 2) (asin (rho h 0))) as [C|C].
  - destruct (for_swath_for h F 0 Ha ltac:(lra)) as (w & W1 & W2 & W3 & _). destruct (for_elevation_for h F 0 Ha ltac:(lra)) as (eps & P1 & P2 & (l2 & P3 & P4) & _).
    exists w, eps. split; [exact W1|]. split; [exact P1|]. rewrite Rplus_0_r in W2, W3. unfold horizon in W2.
    set (l := w / 2 / EARTH_MEAN_RADIUS) in *. assert (Wl : w / 2 = EARTH_MEAN_RADIUS * l) by (unfold l; field; lra).
    assert (Hl : 0 <= l <= acos (rho h 0)). { split; apply Rmult_le_reg_l with EARTH_MEAN_RADIUS; lra. }
    pose proof (asin_lt_PI2 _ Hr) as A. assert (HS : 0 <= radians F / 2 < PI / 2) by lra.
    assert (K : lam <= l <-> eta <= radians F / 2) by (apply (off_nadir_le (rho h 0)); try assumption; lra).
    rewrite Wl. split; [rewrite <- K; split; [apply Rmult_le_reg_l; lra|apply Rmult_le_compat_l; lra]|].
    assert (l2 = l) as ->.
    { pose proof P3 as T1. apply off_nadir_sine in T1. pose proof W3 as T2. apply off_nadir_sine in T2.
      destruct (edge_angles (rho h 0) l Hr Hl) as (_ & ON & Q).
      assert (l + radians F / 2 <= PI / 2).
      { assert (atan (rho h 0 * sin l / (1 - rho h 0 * cos l)) = radians F / 2) as Z; [|lra].
        destruct (edge_angles (rho h 0) l Hr Hl) as (R1 & _).
        apply Rle_antisym; [apply (proj1 (off_nadir_le (rho h 0) l l _ _ Hr Hl Hl R1 HS ON W3))|apply (proj1 (off_nadir_le (rho h 0) l l _ _ Hr Hl Hl HS R1 W3 ON))]; lra. }
      assert (RE : 0 <= radians eps <= PI / 2) by (unfold radians; nra).
      assert (S : sin (l2 + radians F / 2) = sin (l + radians F / 2)) by (apply Rmult_eq_reg_l with (rho h 0); lra).
      assert (I : l2 + radians F / 2 = l + radians F / 2); [|lra].
      assert (X1 : -(PI/2) <= l2 + radians F / 2 <= PI/2) by lra. assert (X2 : -(PI/2) <= l + radians F / 2 <= PI/2) by lra.
      apply Rle_antisym; apply sin_incr_0; lra. }
    assert (J : eta <= radians F / 2 -> lam <= l) by (apply (proj2 K)). split; intro Y; [specialize (J Y); lra|].
    destruct (Rle_lt_dec eta (radians F / 2)) as [|N]; [assumption|]. exfalso.
    assert (l < lam) by (destruct (Rle_lt_dec lam l) as [Q|]; [apply K in Q; lra|assumption]). lra.
  - destruct (beyond_horizon h F 0 Ha ltac:(lra) ltac:(lra)) as [B1 B2]. rewrite B1, B2. eexists. eexists. split; [reflexivity|]. split; [reflexivity|].
    rewrite Rplus_0_r. unfold horizon. destruct (edge_angles (rho h 0) lam Hr L) as (R1 & ON & Q).
    assert (Z : eta + lam <= PI / 2).
    { pose proof (proj1 (off_nadir_le (rho h 0) lam lam _ _ Hr L L E R1 O ON) ltac:(lra)). lra. }
    assert (M : eta <= radians F / 2).
    { assert (eta <= asin (rho h 0)); [|lra]. apply off_nadir_sine in O. assert (E' : eta = asin (sin eta)) by (rewrite asin_sin; lra). rewrite E', <- O.
      pose proof (SIN_bound (lam + eta)). pose proof (SIN_bound eta). apply asin_le; [lra|nra|lra]. }
    assert (EARTH_MEAN_RADIUS * lam <= EARTH_MEAN_RADIUS * acos (rho h 0)) by (apply Rmult_le_compat_l; lra).
    replace (radians 0) with 0 by (unfold radians; lra). split; split; intro; lra.
Qed.

(** An all-round field of regard has the swath of one that sees nothing. *)
Lemma all_round h lam eta : 0 < h -> 0 < lam <= horizon h 0 -> 0 <= eta < PI / 2 -> off_nadir (rho h 0) lam eta ->
  regard_valid 360 = true /\ get_swath_width 360 h = Some 0 /\ get_min_elevation_angle 360 h = Some 90
  /\ eta <= radians 360 / 2 /\ ~ EARTH_MEAN_RADIUS * lam <= 0 / 2 /\ ~ radians 90 <= PI / 2 - eta - lam.
Proof.
  intros Hh L E O. pose proof EMR_bounds as B. assert (Ha : above h 0) by (unfold above; lra). pose proof PI_RGT_0 as P.
  split; [unfold regard_valid; rewrite andb_true_iff, Rltb_spec, Rleb_spec; lra|]. destruct (full_circle h 0 Ha) as [F1 F2].
  split; [exact F1|]. split; [exact F2|]. unfold radians. split; [lra|]. split; [|lra]. assert (0 < EARTH_MEAN_RADIUS * lam) by (apply Rmult_lt_0_compat; lra). lra.
Qed.

Section Pointed.
Variable surfpt : v3 -> v3 -> R -> R -> R -> option v3.
Variable limb_points : v3 -> R -> R -> R -> v3 -> v3 * v3.
Variable recgeo : v3 -> R -> R -> R * R * R.
Variable split : shape -> pyres shape.
Variables ne ns : nat.
Hypothesis found : forall pos r a c pt, surfpt pos r a a c = Some pt -> hit pos r a c pt.
Hypothesis missed : forall pos r a c pt, surfpt pos r a a c = None -> ~ hit pos r a c pt.
Hypothesis limbs : limb_in_plane limb_points.
Hypothesis conv : converts recgeo.
(** The outline of a pointed instrument. *)
Lemma pointed_outline p s n e sh : clear_of s e ->
  pointed_footprint surfpt limb_points recgeo split ne ns p (TOne s) n e = Ok (One sh) ->
  exists gs poly t, Forall2 (locates (s_pos s) e) (footprint_rays (s_pos s) (s_vel s) (pi_cross p) (pi_along p) (pi_roll p) (pi_pitch p) (pi_rect p) (match n with Some n => n | None => if pi_rect p then ns else ne end)) gs
    /\ outlines (map (fun g => (g_lon g, g_lat g)) gs) poly /\ split (SPoly poly) = Ok t /\ sh = project_polygon_to_elevation t e /\ at_elevation e sh.
Proof. unfold pointed_footprint. now apply outline_located. Qed.
Lemma instrument_outline F s n e sh : clear_of s e ->
  instrument_footprint surfpt limb_points recgeo split ne ns F (TOne s) n e = Ok (One sh) ->
  exists gs poly t, Forall2 (locates (s_pos s) e) (footprint_rays (s_pos s) (s_vel s) F F 0 0 false (match n with Some n => n | None => ne end)) gs
    /\ outlines (map (fun g => (g_lon g, g_lat g)) gs) poly /\ split (SPoly poly) = Ok t /\ sh = project_polygon_to_elevation t e /\ at_elevation e sh.
Proof. unfold instrument_footprint. intros C H. now apply outline_located in H. Qed.
End Pointed.
