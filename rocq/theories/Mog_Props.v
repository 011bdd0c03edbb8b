(** Properties of mutual orbiting groups: C27 (for this constellation), C35, C36, C104, C105. *)
From Coq Require Import Reals ZArith List.
From Verif Require Import Base RBase RTrig Orbit_Model Const_Model Const_Spec Geom_Spec Mog_Model Mog_Spec Mog_Proofs Mog_Proofs2.
Import ListNotations.
Open Scope R_scope.

(** *** C27 (mutual orbiting groups) *)
(** [fuel] bounds the tests of the Kepler loop per satellite: enough of them always give the same result. *)
Theorem c27_mog_members : forall I (m : @mog I), mog_regular m ->
  exists fuel0 ms, (forall fuel, (fuel0 <= fuel)%nat -> mog_members fuel m = Some (Ok ms)) /\ length ms = mg_number m
  /\ (forall i mb, nth_error ms i = Some mb -> mb_instruments mb = mg_instruments m
        /\ altitude_epoch (mb_orbit mb) = Some (c_alt (mg_orbit m), c_epoch (mg_orbit m))
        /\ exists d, mb_name mb = mg_name m ++ [32%Z] ++ d
             /\ Forall (fun c => 48 <= c <= 57)%Z d /\ decimal_value d = (Z.of_nat i + 1)%Z)
  /\ (forall i j mb mb', (i < j)%nat -> nth_error ms i = Some mb -> nth_error ms j = Some mb' ->
        str_lt (mb_name mb) (mb_name mb') /\ mb_name mb <> mb_name mb').
Proof. exact @mog_count_lemma. Qed.
Print Assumptions c27_mog_members.

(** *** C35 *)
Theorem c35_mog_geometry : forall I (m : @mog I) fuel ms, mog_members fuel m = Some (Ok ms) ->
  forall i mb, nth_error ms i = Some mb -> exists k, mb_orbit mb = LKep k
    /\ c_alt (k_circ k) = c_alt (mg_orbit m) /\ c_epoch (k_circ k) = c_epoch (mg_orbit m)
    /\ mog_member_ok (c_inc (mg_orbit m)) (c_raan (mg_orbit m)) (mg_transverse m / (2 * (c_alt (mg_orbit m) + EARTH_MEAN_RADIUS)))
         (mg_parallel m / (4 * (c_alt (mg_orbit m) + EARTH_MEAN_RADIUS))) (if mg_clockwise m then 1 else -1) (INR i * (2 * PI / INR (mg_number m)))
         (c_inc (k_circ k)) (c_raan (k_circ k)) (k_argp k) (c_nu (k_circ k)) (k_ecc k).
Proof. exact @mog_members_lemma. Qed.
Print Assumptions c35_mog_geometry.

Example c35_witness : mog_regular mog_ex /\ mg_number mog_ex = 3%nat
  /\ exists fuel ms, mog_members fuel mog_ex = Some (Ok ms) /\ length ms = 3%nat.
Proof.
  split; [exact mog_ex_regular|]. split; [reflexivity|]. destruct (c27_mog_members Z mog_ex mog_ex_regular) as (f & ms & H & L & _).
  exists f, ms. split; [exact (H f (le_n f))|exact L].
Qed.

(** *** C36 *)
(** Any eccentricity below one, any mean anomaly. *)
Theorem c36_kepler_loop : forall n e, 0 <= e < 1 ->
  exists fuel0 psi, (forall fuel, (fuel0 <= fuel)%nat -> kepler_loop fuel n e 0 (1 / 10) = Some psi)
  /\ Rabs (psi - (n + e * sin psi)) <= e * (1 / 1000000)
  /\ forall x, x = n + e * sin x -> Rabs (psi - x) <= e * (1 / 1000000) / (1 - e).
Proof. exact loop_terminates_lemma. Qed.
Print Assumptions c36_kepler_loop.

Example c36_witness : 0 <= 9 / 10 < 1.
Proof. split; [apply Rmult_le_pos|]; Lra.lra. Qed.

(** *** C104 *)
(** The claim "generate_members returns or raises for every group the schema accepts" is false: *)
Theorem c104_mog_terminates_refuted : exists m : @mog Z, circ_valid (mg_orbit m) = true /\ mog_valid m = true
  /\ forall fuel, mog_members fuel m = None.
Proof.
  exists mog_wide. split; [exact mog_ref_valid|]. split; [exact mog_wide_valid|]. intro fuel.
  apply members_diverge; try reflexivity; [exact mog_ref_valid|exact mog_wide_valid| |]; cbn; pose proof radius_value; pose proof Geom_Proofs2.PI_tight; Psatz.nra.
Qed.
Print Assumptions c104_mog_terminates_refuted.
(** It fails for every group of eccentricity PI/2, whatever the reference orbit and size; and it holds
    for every regular group (c27_mog_members). *)
Theorem c104_mog_endless_partial : forall I (m : @mog I) fuel, circ_valid (mg_orbit m) = true -> mog_valid m = true -> mg_clockwise m = true ->
  0 < c_alt (mg_orbit m) + EARTH_MEAN_RADIUS -> mg_transverse m < 2 * PI * (c_alt (mg_orbit m) + EARTH_MEAN_RADIUS) ->
  mg_parallel m = 2 * PI * (c_alt (mg_orbit m) + EARTH_MEAN_RADIUS) -> mog_members fuel m = None.
Proof. exact @members_diverge. Qed.
Print Assumptions c104_mog_endless_partial.
Theorem c104_mog_terminates_partial : forall I (m : @mog I), mog_regular m ->
  exists fuel0 ms, forall fuel, (fuel0 <= fuel)%nat -> mog_members fuel m = Some (Ok ms).
Proof. exact @members_exist. Qed.
Print Assumptions c104_mog_terminates_partial.
Example c104_witness : mog_regular mog_ex. Proof. exact mog_ex_regular. Qed.

(** *** C105 *)
(** The claim "the group surrounds the reference satellite" is false: two references at opposite points
    of the same orbit get the same members. *)
Theorem c105_mog_follows_reference_refuted : exists m : @mog Z, let m' := with_nu m 180 in
  mog_regular m /\ mog_regular m' /\ c_nu (mg_orbit m) = 0
  /\ dot (at_latitude (c_inc (mg_orbit m)) (c_raan (mg_orbit m)) (deg (c_nu (mg_orbit m))))
         (at_latitude (c_inc (mg_orbit m')) (c_raan (mg_orbit m')) (deg (c_nu (mg_orbit m')))) = -1
  /\ (exists fuel ms, mog_members fuel m = Some (Ok ms) /\ mog_members fuel m' = Some (Ok ms) /\ ms <> []).
Proof.
  exists mog_ex. pose proof mog_ex_regular as HR. destruct (c35_witness) as (_ & _ & f & ms & H & L). split; [exact HR|].
  split; [split; [apply Orbit_Proofs.circ_valid_spec; cbn; Lra.lra|exact (proj2 HR)]|]. split; [reflexivity|].
  split; [exact (opposite_positions 45 30)|]. exists f, ms. split; [exact H|]. split; [rewrite members_nu; exact H|].
  intros ->. discriminate L.
Qed.
Print Assumptions c105_mog_follows_reference_refuted.
(** It holds when the reference's true anomaly is zero: the mean position of each member at epoch is
    within the tilt of the reference's position. *)
Theorem c105_mog_follows_reference_partial : forall I (m : @mog I) fuel ms, mog_members fuel m = Some (Ok ms) -> c_nu (mg_orbit m) = 0 ->
  forall i mb, nth_error ms i = Some mb -> exists k M psi, mb_orbit mb = LKep k
    /\ Rabs (psi - (M + k_ecc k * sin psi)) <= k_ecc k * (1 / 1000000) /\ eccentric_true (k_ecc k) psi (deg (c_nu (k_circ k)))
    /\ cos (mg_transverse m / (2 * (c_alt (mg_orbit m) + EARTH_MEAN_RADIUS)))
       <= dot (at_latitude (c_inc (k_circ k)) (c_raan (k_circ k)) (deg (k_argp k) + M))
              (at_latitude (c_inc (mg_orbit m)) (c_raan (mg_orbit m)) (deg (c_nu (mg_orbit m)))).
Proof. exact @mog_reference_lemma. Qed.
Print Assumptions c105_mog_follows_reference_partial.
Example c105_witness : c_nu (mg_orbit mog_ex) = 0 /\ exists fuel ms, mog_members fuel mog_ex = Some (Ok ms) /\ length ms = 3%nat.
Proof. split; [reflexivity|]. exact (proj2 (proj2 c35_witness)). Qed.
