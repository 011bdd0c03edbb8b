(** C199: the counts of streets of coverage in binary64. *)
From Coq Require Import ZArith Reals Bool.
From Flocq Require Import Core IEEE754.BinarySingleNaN.
From Verif Require Import Base RBase Float_Model Float_Spec FGrid_Model FGeom_Spec Geom_Spec FGeom_Proofs2 FSoc_Model FSoc_Spec FSoc_Proofs4 FSoc_Proofs5 FSoc_Proofs6.
Open Scope R_scope.

(** C199: for usual streets the Walker constellation is generated, and its numbers of satellites per plane and of planes differ
    by at most one from the least numbers whose steps keep the packed footprints together. *)
Theorem c199_counts_partial : forall f_sin f_cos f_asin f_acos f_atan,
  accurate_libm f_sin f_cos f_asin f_acos -> accurate_atan f_atan -> forall s, usual_streets s ->
  let lam := val (fs_swath s) / 2 / EARTH_MEAN_RADIUS in
  exists k p, f_soc_walker f_sin f_cos f_asin f_acos f_atan s = Ok (k, p)
    /\ near_least (val (fs_packing s) * sin lam) k /\ near_least (sqrt 3 / 2 * (val (fs_packing s) * sin lam)) p.
Proof. exact counts_lemma. Qed.
Print Assumptions c199_counts_partial.
(** The field of regard is twice the off-nadir angle of the edge of the swath, to 2.12e-9 degrees. *)
Theorem c199_regard : forall f_sin f_cos f_asin f_acos f_atan, accurate_libm f_sin f_cos f_asin f_acos -> accurate_atan f_atan ->
  forall s, usual_streets s ->
  let rho := EARTH_MEAN_RADIUS / (EARTH_MEAN_RADIUS + val (fs_altitude s)) in
  let lam := val (fs_swath s) / 2 / EARTH_MEAN_RADIUS in
  exists f eta, f_swath_to_regard f_sin f_cos f_asin f_atan (fs_altitude s) (fs_swath s) (of_Z 0) = Ok f
    /\ off_nadir rho lam eta /\ 0 <= eta < PI / 2 /\ finite f /\ Rabs (val f - degrees (2 * eta)) <= 2.12e-9.
Proof. exact regard_value. Qed.
Print Assumptions c199_regard.
(** Not every constellation that the fields accept is generated ... *)
Theorem c199_counts_refuted : exists f_sin f_cos f_asin f_acos f_atan s,
  accurate_libm f_sin f_cos f_asin f_acos /\ accurate_atan f_atan /\ f_soc_valid s = true
  /\ f_soc_walker f_sin f_cos f_asin f_acos f_atan s = Raise ValidationError.
Proof. exact refuted_lemma. Qed.
Print Assumptions c199_counts_refuted.
(** ... with every library that has the usual values: the angle of the footprint of the smallest swath comes out negative. *)
Theorem c199_smallest : exists s, f_soc_valid s = true /\ val (fs_altitude s) = 500000 /\ 0 < val (fs_swath s) /\ val (fs_packing s) = 1 /\
  forall f_sin f_cos f_asin f_acos f_atan, usual_values f_sin f_cos f_asin f_acos f_atan ->
  f_soc_walker f_sin f_cos f_asin f_acos f_atan s = Raise ValidationError.
Proof. exact smallest_lemma. Qed.
Print Assumptions c199_smallest.
(** A library that meets the contracts and has the usual values; streets of 1000 km from 700 km, packed to three quarters. *)
Example c199_witness : accurate_libm usual_sin usual_cos usual_asin (by_nearest 51 acos) /\ accurate_atan (by_nearest 52 atan)
  /\ usual_values usual_sin usual_cos usual_asin (by_nearest 51 acos) (by_nearest 52 atan)
  /\ usual_streets streets700 /\ f_soc_valid streets700 = true.
Proof. exact (conj usual_libm (conj nearest_atan (conj usual_ok usual_case))). Qed.
