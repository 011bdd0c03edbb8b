(** Properties C158-C159 and C170-C171: generated points in binary64 arithmetic. *)
From Coq Require Import ZArith Reals List.
From Flocq Require Import Core IEEE754.BinarySingleNaN.
From Verif Require Import Float_Spec FGrid_Model FGrid_Spec FGrid_Proofs FGrid_Proofs2.
Import ListNotations.
Open Scope R_scope.

(** C158: generated points are accepted by the Point schema. *)
Theorem c158_generated_points_accepted_refuted :
  exists d p, usual_distance d /\ In p (f_generate_points d)
    /\ 180 < val (f_lon p) /\ point_accepts p = false.
Proof. exact c158_refuted_lemma. Qed.
Print Assumptions c158_generated_points_accepted_refuted.

Theorem c158_coordinates_within_an_ulp_partial :
  forall d p, usual_distance d -> In p (f_generate_points d) ->
  finite (f_lon p) /\ finite (f_lat p)
  /\ -180 <= val (f_lon p) <= 180 + bpow radix2 (-44)
  /\ -90 <= val (f_lat p) <= 90 + bpow radix2 (-45).
Proof. exact c158_bounds_lemma. Qed.
Print Assumptions c158_coordinates_within_an_ulp_partial.

Theorem c158_accepted_unless_half_way_partial :
  forall d p, usual_distance d -> not_half_way 360 (f_step d) -> not_half_way 180 (f_step d) ->
  In p (f_generate_points d) -> point_accepts p = true.
Proof. exact c158_accepted_lemma. Qed.
Print Assumptions c158_accepted_unless_half_way_partial.

Example c158_witness : usual_distance d_plain /\ not_half_way 360 (f_step d_plain)
  /\ not_half_way 180 (f_step d_plain) /\ length (f_generate_points d_plain) = 200%nat.
Proof. exact c158_witness_lemma. Qed.

(** C159: generated points have distinct identifiers. *)
Theorem c159_distinct_ids_refuted :
  exists d, usual_distance d /\ ~ NoDup (map f_id (f_generate_points d)).
Proof. exact c159_refuted_lemma. Qed.
Print Assumptions c159_distinct_ids_refuted.

Theorem c159_distinct_ids_exactly_when_partial :
  forall d, usual_distance d ->
  let q := rnd (360 / val (f_step d)) in
  NoDup (map f_id (f_generate_points d)) <->
  exists k : Z, IZR k <= q /\ (q < IZR k + 1 / 2 \/ (q = IZR k + 1 / 2 /\ Z.even k = true)).
Proof. exact c159_criterion_lemma. Qed.
Print Assumptions c159_distinct_ids_exactly_when_partial.

Theorem c159_distinct_ids_just_below_a_divisor_partial :
  forall d k, usual_distance d ->
  IZR k * val (f_step d) <= 360 <= (IZR k + 1 / 4) * val (f_step d) ->
  NoDup (map f_id (f_generate_points d)).
Proof. exact c159_quarter_lemma. Qed.
Print Assumptions c159_distinct_ids_just_below_a_divisor_partial.

Example c159_witness : usual_distance d_plain
  /\ IZR 20 * val (f_step d_plain) <= 360 <= (IZR 20 + 1 / 4) * val (f_step d_plain).
Proof. exact c159_witness_lemma. Qed.

(** C170: the points of a Fibonacci lattice are accepted by the Point schema, for every arc sine within the
    double nearest to pi/2 and every number of samples up to 2^50. *)
Theorem c170_lattice_accepted :
  forall f_asin n, asin_range (val f_pi / 2) f_asin -> (0 <= n <= 2 ^ 50)%Z ->
  map f_id (f_fib_points f_asin n) = map Z.of_nat (seq 0 (Z.to_nat n))
  /\ forall p, In p (f_fib_points f_asin n) -> point_accepts p = true /\ (0 <= f_id p)%Z /\ -180 < val (f_lon p) <= 180.
Proof. exact c170_accepted_lemma. Qed.
Print Assumptions c170_lattice_accepted.

(** None of them is a pole. *)
Theorem c170_no_poles :
  forall f_asin n p, asin_range (val f_pi / 2) f_asin -> asin_interior (val f_pi / 2) f_asin -> (n <= 2 ^ 50)%Z ->
  In p (f_fib_points f_asin n) -> -90 < val (f_lat p) < 90.
Proof. exact fib_poles_lemma. Qed.
Print Assumptions c170_no_poles.

Example c170_witness : asin_range (val f_pi / 2) (fun x => x) /\ asin_interior (val f_pi / 2) (fun x => x)
  /\ exists p, In p (f_fib_points (fun x => x) 5) /\ f_id p = 3%Z.
Proof. exact c170_witness_lemma. Qed.

(** C171: the longitude of point number [i] is the multiple of the golden angle, up to whole turns and a
    rounding error of at most [i] times 2^-44 degrees. *)
Theorem c171_golden_angle :
  forall f_asin n p, (n <= 2 ^ 44)%Z -> In p (f_fib_points f_asin n) ->
  exists k : Z, Rabs (val (f_lon p) - (360 * IZR (f_id p) / golden - 360 * IZR k)) <= IZR (f_id p) * bpow radix2 (-44).
Proof. exact c171_lemma. Qed.
Print Assumptions c171_golden_angle.

Example c171_witness : exists p, In p (f_fib_points (fun x => x) 5) /\ f_id p = 3%Z.
Proof. exact c171_witness_lemma. Qed.
