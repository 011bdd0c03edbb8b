(** C196: latitudes of Fibonacci lattices in binary64. *)
From Coq Require Import ZArith Reals Bool List Sorting.Sorted.
From Flocq Require Import Core IEEE754.BinarySingleNaN.
From Verif Require Import Base RBase Float_Model Float_Spec FGrid_Model FGeom_Spec FGeom_Proofs2 FLat_Spec FLat_Proofs.
Open Scope R_scope.

(** C196: the sine of the latitude of every point is its rung of an even ladder, to 1e-14. *)
Theorem c196_equal_area : forall f_asin, computes (fun x => Rabs x <= 1) asin f_asin -> forall n p, (n <= 2 ^ 50)%Z ->
  In p (f_fib_points f_asin n) -> finite (f_lat p) /\ Rabs (sine_of (val (f_lat p)) - rung (f_id p) n) <= / 100000000000000.
Proof. exact c196_area_lemma. Qed.
Print Assumptions c196_equal_area.
(** The points come strictly from south to north, so no two of them are at the same place. *)
Theorem c196_ascending : forall f_asin, computes (fun x => Rabs x <= 1) asin f_asin -> forall n, (n <= 10000000000000)%Z ->
  StronglySorted (fun p q => val (f_lat p) < val (f_lat q)) (f_fib_points f_asin n).
Proof. exact c196_ascend_lemma. Qed.
Print Assumptions c196_ascending.
(** An arc sine rounded to the nearest multiple of 2^-52, and a thousand points. *)
Example c196_witness : computes (fun x => Rabs x <= 1) asin (by_nearest 52 asin) /\ length (f_fib_points (by_nearest 52 asin) 1000) = 1000%nat.
Proof. exact c196_witness_lemma. Qed.
