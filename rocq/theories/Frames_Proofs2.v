(** Further proofs about the columns and rows of results. *)
From Coq Require Import String List Bool Arith Lia.
From Verif Require Import Base Frames_Model Frames_Spec Frames_Proofs.
Import ListNotations.
Open Scope string_scope.
Open Scope list_scope.

Lemma bare_lemma : (forall parts obs, nrows obs = 0%nat -> exists f, aggregate_observations parts obs = Ok f /\ columns_are f bare_aggregate_columns /\ nrows f = 0%nat)
  /\ (forall obs down, nrows obs = 0%nat \/ nrows down = 0%nat -> exists f, compute_latencies obs down = Ok f /\ columns_are f bare_latency_columns /\ nrows f = 0%nat).
Proof.
  split.
  - intros parts obs Z. unfold aggregate_observations, empty. rewrite Z. eexists. split; [reflexivity|]. split; [apply columns_check; reflexivity|reflexivity].
  - intros obs down Z. unfold compute_latencies, empty. replace ((nrows obs =? 0)%nat || (nrows down =? 0)%nat) with true.
    + eexists. split; [reflexivity|]. split; [apply columns_check; reflexivity|reflexivity].
    + symmetry. apply orb_true_iff. destruct Z as [-> | ->]; [left|right]; reflexivity.
Qed.
Lemma dop_lemma n : columns_are (compute_dop n) ["dop"; "geometry"] /\ nrows (compute_dop n) = n.
Proof. split; [apply columns_check; reflexivity|reflexivity]. Qed.
Lemma rows_lemma n m : n <> 0%nat ->
  (forall v s a b, nrows (collect_orbit_track n m v s a b) = rows_of n m)
  /\ (forall a b, nrows (collect_ground_track n m a b) = rows_of n m)
  /\ (forall p a b, nrows (collect_ground_pixels n p m a b) = rows_of (n * p) m).
Proof.
  intro N. unfold collect_orbit_track, collect_ground_track, collect_ground_pixels. destruct (Nat.eqb_spec n 0) as [|_]; [contradiction|].
  destruct m as [[k c]|]; cbn [kept rows_of].
  - destruct (k =? 0)%nat; repeat split; intros; repeat match goal with b : bool |- _ => destruct b end; reflexivity.
  - destruct (Nat.eqb_spec n 0) as [|_]; [contradiction|]. repeat split; intros; repeat match goal with b : bool |- _ => destruct b end; reflexivity.
Qed.
Lemma line_rows n m o : exists f, compute_ground_track_line n m o false = Ok f /\ nrows f = match m with None => o | Some (_, c) => c end
  /\ exists g, compute_ground_track_line n m o true = Ok g /\ nrows g = Nat.min 1 (nrows f).
Proof.
  unfold compute_ground_track_line, collect_orbit_track. destruct (n =? 0)%nat; cbn [kept]; [|destruct (n =? 0)%nat];
    destruct m as [[k c]|]; (eexists; split; [reflexivity|]; split; [reflexivity|]; eexists; split; [reflexivity|reflexivity]).
Qed.
Lemma point_rows n m o : n <> 0%nat -> exists f, compute_ground_track_point n m o false = Ok f /\ nrows f = (if Nat.eqb (rows_of n m) 0 then 0 else o)%nat
  /\ exists g, compute_ground_track_point n m o true = Ok g /\ nrows g = Nat.min 1 (nrows f).
Proof.
  intro N. unfold compute_ground_track_point, collect_ground_track, empty. destruct (Nat.eqb_spec n 0) as [|_]; [contradiction|].
  destruct m as [[k c]|]; cbn [kept rows_of].
  - destruct (k =? 0)%nat; [eexists; split; [reflexivity|]; split; [reflexivity|]; eexists; split; reflexivity|]. cbn [clip nrows]. destruct (c =? 0)%nat eqn:EC;
      (eexists; split; [reflexivity|]; split; [try apply Nat.eqb_eq in EC; cbn; congruence|]; eexists; split; reflexivity).
  - destruct (Nat.eqb_spec n 0) as [|_]; [contradiction|]. cbn [clip nrows]. destruct (Nat.eqb_spec n 0) as [|_]; [contradiction|].
    eexists; split; [reflexivity|]; split; [reflexivity|]; eexists; split; reflexivity.
Qed.
