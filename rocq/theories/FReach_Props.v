(** C194: conversions between along-track distances and access times in binary64. *)
From Coq Require Import ZArith Reals Bool.
From Flocq Require Import Core IEEE754.BinarySingleNaN.
From Verif Require Import Base RBase Float_Model Float_Spec FGrid_Model FGeom_Spec FGeom_Proofs2 FReach_Model FReach_Spec FReach_Proofs.
Open Scope R_scope.

(** C194.  There and back gives the same distance (or time) to 3e-16 of its size, whenever the ground velocity is at
    least 1 m/s. *)
Theorem c194_round_trip : forall f_sin f_cos f_asin f_acos h i d, accurate_libm f_sin f_cos f_asin f_acos ->
  orbital h -> angle 0 180 i -> 1 <= Rabs (velocity (val h) (val i)) -> measurable d ->
  (exists t, f_along_track_time f_cos h i d = Ok t /\ finite t
     /\ Rabs (val (f_along_track_distance f_cos h i t) - val d) <= 3 / 10000000000000000 * Rabs (val d))
  /\ (exists t, f_along_track_time f_cos h i (f_along_track_distance f_cos h i d) = Ok t /\ finite t
     /\ Rabs (val t - val d) <= 3 / 10000000000000000 * Rabs (val d)).
Proof. exact c194_trip_lemma. Qed.
Print Assumptions c194_round_trip.
(** The access time is the distance over the ground velocity. *)
Theorem c194_accurate : forall f_sin f_cos f_asin f_acos h i d t, accurate_libm f_sin f_cos f_asin f_acos ->
  orbital h -> angle 0 180 i -> 1 <= Rabs (velocity (val h) (val i)) -> measurable d -> f_along_track_time f_cos h i d = Ok t ->
  Rabs (val t - val d / velocity (val h) (val i)) <= / 10000000 * Rabs (val d / velocity (val h) (val i)).
Proof. exact c194_accurate_lemma. Qed.
Print Assumptions c194_accurate.
(** A longer distance never takes less time. *)
Theorem c194_monotone : forall f_sin f_cos f_asin f_acos h i d1 d2 t1 t2, accurate_libm f_sin f_cos f_asin f_acos ->
  orbital h -> angle 0 180 i -> 1 <= velocity (val h) (val i) -> measurable d1 -> measurable d2 -> val d1 <= val d2 ->
  f_along_track_time f_cos h i d1 = Ok t1 -> f_along_track_time f_cos h i d2 = Ok t2 -> val t1 <= val t2.
Proof. exact c194_monotone_lemma. Qed.
Print Assumptions c194_monotone.
(** A space station and ten kilometres. *)
Example c194_witness : accurate_libm (by_nearest 52 sin) (by_nearest 52 cos) (by_nearest 52 asin) (by_nearest 51 acos)
  /\ orbital (of_Z 400000) /\ angle 0 180 (of_Z 52) /\ 1 <= velocity (val (of_Z 400000)) (val (of_Z 52)) /\ measurable (of_Z 10000).
Proof. exact c194_witness_lemma. Qed.
