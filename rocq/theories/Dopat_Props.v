(** C195: from where and with which element sets dilution of precision is computed. *)
From Coq Require Import Reals ZArith List Bool.
From Verif Require Import Base Dop_Model Dop_Spec Epoch_Spec Dopat_Model Dopat_Spec Dopat_Proofs.
Import ListNotations.
Open Scope R_scope.

(** C195: every row has the dilution of precision of the satellites as seen from the point at the time of the row.  Proved for
    points at the datum, at times when the first element set of each satellite is the nearest. *)
Theorem c195_seen_partial : forall Line Orbit to_tle altaz solve epoch times p (sats : list Orbit) me m mn rows, pl_elevation p = 0 ->
  (forall o lines t, In o sats -> In t times -> to_tle o = Ok lines -> nearest (map epoch (element_sets lines)) t 0) ->
  dop_at Line Orbit to_tle altaz solve times p sats me m mn = Ok rows ->
  Forall2 (fun t r => d_time r = t /\ true_row to_tle epoch altaz solve p sats me m mn r) times rows.
Proof. exact true_lemma. Qed.
Print Assumptions c195_seen_partial.
(** There is an answer for every list of satellites with valid orbits. *)
Theorem c195_answer : forall Line Orbit to_tle altaz solve times p (sats : list Orbit) me m mn, sats <> [] -> m <> Invalid ->
  (forall o, In o sats -> exists lines, to_tle o = Ok lines /\ (2 <= length lines)%nat) ->
  exists rows, dop_at Line Orbit to_tle altaz solve times p sats me m mn = Ok rows.
Proof. exact answer_lemma. Qed.
Print Assumptions c195_answer.
(** The elevation of the point is ignored. *)
Theorem c195_elevation_ignored : forall Line Orbit to_tle altaz solve times p q (sats : list Orbit) me m mn,
  pl_latitude p = pl_latitude q -> pl_longitude p = pl_longitude q ->
  dop_at Line Orbit to_tle altaz solve times p sats me m mn = dop_at Line Orbit to_tle altaz solve times q sats me m mn.
Proof. exact elevation_ignored. Qed.
Print Assumptions c195_elevation_ignored.
(** So are all element sets but the first. *)
Theorem c195_later_sets_ignored : forall Line Orbit to_tle altaz solve to_tle' times p (sats : list Orbit) me m mn,
  (forall o, In o sats -> exists a b r r', to_tle o = Ok (a :: b :: r) /\ to_tle' o = Ok (a :: b :: r')) ->
  dop_at Line Orbit to_tle altaz solve times p sats me m mn = dop_at Line Orbit to_tle' altaz solve times p sats me m mn.
Proof. exact later_ignored. Qed.
Print Assumptions c195_later_sets_ignored.
(** On a mountain from which no satellite is above the horizontal a value is reported. *)
Theorem c195_elevation_refuted : exists to_tle altaz solve epoch times p sats me m mn rows r, solver solve
  /\ (forall o : nat, exists a b : nat, to_tle o = Ok [a; b])
  /\ dop_at nat nat to_tle altaz solve times p sats me m mn = Ok rows /\ In r rows /\ d_dop r = Some 2
  /\ ~ true_row to_tle epoch altaz solve p sats me m mn r.
Proof. exact elevation_wrong. Qed.
Print Assumptions c195_elevation_refuted.
(** At the epoch of the second element set a value is reported that only the first one has. *)
Theorem c195_later_sets_refuted : exists to_tle altaz solve epoch times p sats me m mn rows r, solver solve /\ pl_elevation p = 0
  /\ (forall o : nat, exists a b c d : nat, to_tle o = Ok [a; b; c; d])
  /\ dop_at nat nat to_tle altaz solve times p sats me m mn = Ok rows /\ In r rows /\ d_dop r = Some 2
  /\ ~ true_row to_tle epoch altaz solve p sats me m mn r.
Proof. exact later_wrong. Qed.
Print Assumptions c195_later_sets_refuted.
(** Two element sets a hundred apart: the first is the nearest at 10 and 40. *)
Example c195_witness : forall o lines t, In o four -> In t [10; 40]%Z -> two_sets o = Ok lines -> nearest (map day (element_sets lines)) t 0.
Proof. exact true_witness. Qed.
