(** C190, C191: mutual orbiting groups in binary64. *)
From Coq Require Import ZArith Reals Bool List.
From Flocq Require Import Core IEEE754.BinarySingleNaN.
From Verif Require Import Base RBase Float_Model Float_Spec FGrid_Model FGeom_Spec FMog_Model FMog_Spec FMog_Proofs FMog_Proofs4 FMog_Proofs6 FGeom_Proofs2 FMog_Spec2 FMog_Proofs7.
Import ListNotations.
Open Scope R_scope.

(** C190.  The iteration for Kepler's equation ends after a number of tests bounded by the eccentricity, within a
    known distance of the solution.  Missing: eccentricities within a millionth of one. *)
Theorem c190_loop_partial : forall f_sin (n e : float), computes (fun x => Rabs x <= 1048576) sin f_sin ->
  finite n -> finite e -> Rabs (val n) <= 4 -> 0 <= val e <= 1 - / 1048576 ->
  exists psi, finite psi
  /\ (forall fuel, 24 <= (INR fuel - 2) * (1 - val e) -> f_kepler_loop f_sin fuel n e (of_Z 0) f_guess = Some psi)
  /\ forall x, solves_kepler (val n) (val e) x -> Rabs (val psi - x) <= (val e / 1000000 + 1 / 100000000000000) / (1 - val e).
Proof. exact loop_lemma. Qed.
Print Assumptions c190_loop_partial.
(** Generation of the members of every group on ellipses ends, with members or an exception. *)
Theorem c190_members_partial : forall m f_sin f_cos f_asin f_acos f_atan2 f_dot,
  accurate_libm f_sin f_cos f_asin f_acos -> accurate_atan2 f_atan2 -> referenced m -> elliptic m ->
  exists r K, forall fuel, (K <= fuel)%nat -> f_mog_members f_sin f_cos f_acos f_atan2 f_dot fuel m = Some r.
Proof. exact end_lemma. Qed.
Print Assumptions c190_members_partial.
(** It never ends for any group whose parallel axis is about 2 pi times the distance from the Earth's centre. *)
Theorem c190_endless : forall m f_sin f_cos f_asin f_acos f_atan2 f_dot fuel,
  accurate_libm f_sin f_cos f_asin f_acos -> accurate_atan2 f_atan2 -> accurate_dot f_dot ->
  referenced m -> tilted m -> counted m -> fm_clockwise m = true ->
  Rabs (val (fm_parallel m) / (4 * distance_of m) - PI / 2) <= / 2000 ->
  f_mog_members f_sin f_cos f_acos f_atan2 f_dot fuel m = None.
Proof. exact endless_lemma. Qed.
Print Assumptions c190_endless.
(** So generation does not end for every group that the schema accepts. *)
Theorem c190_members_refuted : exists m, f_mog_valid m = true /\ referenced m /\
  forall f_sin f_cos f_asin f_acos f_atan2 f_dot fuel,
  accurate_libm f_sin f_cos f_asin f_acos -> accurate_atan2 f_atan2 -> accurate_dot f_dot ->
  f_mog_members f_sin f_cos f_acos f_atan2 f_dot fuel m = None.
Proof. exact refuted_lemma. Qed.
Print Assumptions c190_members_refuted.
(** Which groups the schema accepts. *)
Theorem c190_accepted_fields : forall m, f_mog_valid m = true <->
  turn_below 180 (fm_inclination m) /\ turn_below 360 (fm_raan m) /\ above_zero (fm_parallel m) /\ above_zero (fm_transverse m) /\ (0 < fm_number m)%nat.
Proof. exact group_fields. Qed.
Print Assumptions c190_accepted_fields.
(** The contracts are met, by a group on ellipses and by one without end. *)
Example c190_witness :
  (accurate_libm (by_nearest 52 sin) (by_nearest 52 cos) (by_nearest 52 asin) (by_nearest 51 acos) /\ accurate_atan2 cut_atan2 /\ accurate_dot plain_dot)
  /\ (f_mog_valid some_group = true /\ referenced some_group /\ tilted some_group /\ counted some_group /\ elliptic some_group)
  /\ (f_mog_valid endless_group = true /\ referenced endless_group /\ tilted endless_group /\ counted endless_group
      /\ Rabs (val (fm_parallel endless_group) / (4 * distance_of endless_group) - PI / 2) <= / 2000)
  /\ fm_clockwise endless_group = true.
Proof. exact (conj libm_met (conj some_facts (conj endless_facts eq_refl))). Qed.

(** C191.  Every member is generated and accepted, with the exact inclination and eccentricity up to rounding.
    Missing: groups with members inclined within a hundredth of a degree of 0 or 180 degrees. *)
Theorem c191_members_partial : forall m f_sin f_cos f_asin f_acos f_atan2 f_dot,
  accurate_libm f_sin f_cos f_asin f_acos -> accurate_atan2 f_atan2 -> accurate_dot f_dot ->
  referenced m -> tilted m -> counted m -> elliptic m ->
  (forall k i, (k < fm_number m)%nat -> member_inclination m (position_of m k) i -> 1 / 100 <= i <= 17999 / 100) ->
  exists os K, (forall fuel, (K <= fuel)%nat -> f_mog_members f_sin f_cos f_acos f_atan2 f_dot fuel m = Some (Ok os))
  /\ length os = fm_number m
  /\ forall k o i, nth_error os k = Some o -> member_inclination m (position_of m k) i -> acceptable m i o.
Proof. exact accepted_lemma. Qed.
Print Assumptions c191_members_partial.
(** Which members the schema accepts. *)
Theorem c191_accepted_fields : forall k, f_make_keplerian k = Ok k <->
  turn_below 360 (fk_anomaly k) /\ turn_below 180 (fk_inclination k) /\ turn_below 360 (fk_raan k) /\ not_negative (fk_eccentricity k) /\ turn_below 360 (fk_perigee k).
Proof. exact member_fields. Qed.
Print Assumptions c191_accepted_fields.
Example c191_witness :
  (accurate_libm (by_nearest 52 sin) (by_nearest 52 cos) (by_nearest 52 asin) (by_nearest 51 acos) /\ accurate_atan2 cut_atan2 /\ accurate_dot plain_dot)
  /\ (f_mog_valid some_group = true /\ referenced some_group /\ tilted some_group /\ counted some_group /\ elliptic some_group)
  /\ (forall k i, (k < fm_number some_group)%nat -> member_inclination some_group (position_of some_group k) i -> 1 / 100 <= i <= 17999 / 100)
  /\ fm_number some_group = 3%nat.
Proof. exact (conj libm_met (conj some_facts (conj (fun k i _ H => some_inclined k i H) eq_refl))). Qed.
