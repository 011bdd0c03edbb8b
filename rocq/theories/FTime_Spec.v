(** Specification of binary64 arithmetic on durations. *)
From Coq Require Import ZArith Reals List.
From Flocq Require Import Core IEEE754.BinarySingleNaN.
From Verif Require Import Base Float_Spec.
Import ListNotations.
Open Scope R_scope.

(** Exact sums. *)
Definition rsum (l : list R) : R := fold_right Rplus 0 l.
Definition zsum (l : list Z) : Z := fold_right Z.add 0%Z l.
(** A summation algorithm for non-negative numbers with a small relative error for each element. *)
Definition accurate_sum (fsum : list (binary_float 53 1024) -> binary_float 53 1024) : Prop :=
  forall l, Forall (fun x => finite x /\ 0 <= val x) l -> rsum (map val l) <= bpow radix2 100 -> (Z.of_nat (length l) <= 2 ^ 40)%Z ->
  finite (fsum l)
  /\ Rabs (val (fsum l) - rsum (map val l)) <= IZR (Z.of_nat (length l)) * (bpow radix2 (-50) * rsum (map val l) + bpow radix2 (-1000)).
(** [k] is the least integer with [a <= k * b]. *)
Definition is_ceiling (a b k : Z) : Prop := ((k - 1) * b < a <= k * b)%Z.
(** [m] is the mean of the durations: within a microsecond, and exactly when it is a whole number of
    microseconds. *)
Definition near_mean (l : list Z) (m : Z) : Prop :=
  Rabs (IZR m - IZR (zsum l) / IZR (Z.of_nat (length l))) < 1
  /\ (forall k, zsum l = (k * Z.of_nat (length l))%Z -> m = k).
(** [m] is the mean of the durations, each counted as often as its weight. *)
Definition near_average (l : list (Z * Z)) (m : Z) : Prop :=
  let total := zsum (map (fun p => fst p * snd p)%Z l) in
  let weight := zsum (map snd l) in
  Rabs (IZR m - IZR total / IZR weight) < 1 /\ (forall k, total = (k * weight)%Z -> m = k).
(** Number and sum of all durations in several groups. *)
Definition all_count (groups : list (list Z)) : Z := zsum (map (fun l => Z.of_nat (length l)) groups).
Definition all_total (groups : list (list Z)) : Z := zsum (map zsum groups).
(** A point's durations: at least one, at most 2^40, none negative, at most 2^28 seconds (8.5 years) in all. *)
Definition point_durations (l : list Z) : Prop :=
  l <> [] /\ (Z.of_nat (length l) <= 2 ^ 40)%Z /\ Forall (fun a => 0 <= a)%Z l /\ (zsum l <= 2 ^ 28 * 1000000)%Z.
(** The points of a cell with durations and numbers of observations. *)
Definition cell_durations (l : list (Z * Z)) : Prop :=
  (Z.of_nat (length l) <= 2 ^ 40)%Z
  /\ Forall (fun p => 0 <= fst p <= 2 ^ 80 /\ 0 <= snd p)%Z l /\ (1 <= zsum (map snd l) <= 2 ^ 53)%Z
  /\ (Z.of_nat (length l) * zsum (map (fun p => fst p * snd p)%Z l) <= 2 ^ 26 * 1000000 * zsum (map snd l))%Z.
