(** C16: right ascension of derived orbits in binary64 arithmetic. *)
From Coq Require Import ZArith Reals Lra Lia Bool.
From Flocq Require Import Core IEEE754.BinarySingleNaN.
From Verif Require Import Base Float_Model Float_Spec Float_Proofs.
Open Scope R_scope.

(** False as stated: a tiny negative perturbation of a valid orbit makes the
    schema reject the derived orbit. *)
Theorem c16_derived_raan_refuted :
  exists raan delta, angle_ok raan /\ finite delta /\
    derived_raan raan delta = Raise ValidationError.
Proof. exact (ex_intro _ _ (ex_intro _ _ tiny_fails)). Qed.
Print Assumptions c16_derived_raan_refuted.

(** ... and this is reachable from the API: the second member of a train with
    interval -9 s whose lead orbit has right ascension 0.0375 degrees. *)
Theorem c16_train_backward_refuted :
  exists raan interval_us i, angle_ok raan /\ (Z.abs interval_us < 86400000000)%Z /\ (0 <= i)%Z /\
    train_raan true interval_us i raan = Raise ValidationError.
Proof.
  exact (ex_intro _ raan_0375 (ex_intro _ (-9000000)%Z (ex_intro _ 1%Z
    (conj raan_0375_ok (conj eq_refl (conj (Z.le_0_1) train_backward_fails)))))).
Qed.
Print Assumptions c16_train_backward_refuted.

(** Exactly which perturbations are accepted: those whose exact remainder is
    below 360 - 2^-45; an accepted value is the float nearest to it. *)
Theorem c16_derived_raan_accept_partial : forall raan delta r,
  angle_ok raan -> finite delta ->
  turn_of (rnd (val raan + val delta)) r ->
  ((exists f, derived_raan raan delta = Ok f) <-> r < 360 - / IZR (2 ^ 45)) /\
  (forall f, derived_raan raan delta = Ok f -> angle_ok f /\ val f = rnd r) /\
  (forall e, derived_raan raan delta = Raise e -> e = ValidationError).
Proof. exact derived_accept_iff. Qed.
Print Assumptions c16_derived_raan_accept_partial.

Example c16_accept_witness : exists f, derived_raan (of_Z 350) (of_Z (-359)) = Ok f /\ val f = 351.
Proof.
  assert (A : angle_ok (of_Z 350)) by (apply w_angle; lia).
  destruct (of_Z_spec (-359) ltac:(lia)) as [F V]. destruct (of_Z_spec 350 ltac:(lia)) as [_ V2].
  assert (T : turn_of (rnd (val (of_Z 350) + val (of_Z (-359)))) 351).
  { rewrite V, V2, <- plus_IZR. unfold rnd. rewrite round_generic.
    - split; [lra|]. exists (-1)%Z. cbn. lra.
    - auto with typeclass_instances.
    - apply fmt_Z. cbn. lia. }
  destruct (c16_derived_raan_accept_partial _ _ _ A F T) as [H1 [H2 _]].
  destruct (proj2 H1) as [f E].
  { assert (/ IZR (2^45) < 1).
    { rewrite <- Rinv_1. apply Rinv_lt_contravar; [rewrite Rmult_1_l|]; apply IZR_lt; lia. }
    lra. }
  exists f. split; [exact E|]. rewrite (proj2 (H2 f E)). unfold rnd.
  apply round_generic; [auto with typeclass_instances|apply fmt_Z; lia].
Qed.

(** Every perturbation with a nonnegative sum succeeds, exactly. *)
Theorem c16_derived_raan_forward_partial : forall raan delta,
  angle_ok raan -> finite delta -> 0 <= val raan + val delta ->
  exists f, derived_raan raan delta = Ok f /\ angle_ok f /\
    turn_of (rnd (val raan + val delta)) (val f).
Proof. exact derived_nonneg_turn. Qed.
Print Assumptions c16_derived_raan_forward_partial.

Example c16_forward_witness : angle_ok (of_Z 350) /\ finite (of_Z 359) /\ 0 <= val (of_Z 350) + val (of_Z 359).
Proof.
  destruct (w_angle 350 ltac:(lia)) as [F1 V1]. destruct (w_angle 359 ltac:(lia)) as [F2 V2].
  repeat split; try assumption; lra.
Qed.

(** Walker constellations therefore never fail on the right ascension. *)
Theorem c16_walker_partial : forall star planes p raan, angle_ok raan ->
  (1 <= planes <= 2 ^ 53)%Z -> (0 <= p < planes)%Z ->
  exists f, walker_raan star planes p raan = Ok f /\ angle_ok f /\
    turn_of (rnd (val raan + rnd (IZR p * rnd ((if star then 180 else 360) / IZR planes)))) (val f).
Proof. exact walker_turn. Qed.
Print Assumptions c16_walker_partial.

Example c16_walker_witness : angle_ok raan_0375 /\ (1 <= 7 <= 2 ^ 53)%Z /\ (0 <= 6 < 7)%Z.
Proof. split; [exact raan_0375_ok|lia]. Qed.

(** Neither do trains with a nonnegative interval. *)
Theorem c16_train_forward_partial : forall repeat interval_us i raan, angle_ok raan ->
  (0 <= interval_us <= 2 ^ 53)%Z -> (0 <= i <= 2 ^ 53)%Z ->
  exists f, train_raan repeat interval_us i raan = Ok f /\ angle_ok f.
Proof. exact train_forward_ok. Qed.
Print Assumptions c16_train_forward_partial.

Example c16_train_witness : angle_ok raan_0375 /\ (0 <= 600000000 <= 2 ^ 53)%Z /\ (0 <= 4 <= 2 ^ 53)%Z.
Proof. split; [exact raan_0375_ok|lia]. Qed.
