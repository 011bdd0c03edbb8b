(** Binary64 model of the arithmetic on durations: quotients of timedeltas (src/tatc/schemas/orbit.py:671,
    1004) and the means of durations reported by reduce_observations, grid_observations, reduce_latencies and
    grid_latencies (src/tatc/analysis/coverage.py:388-453, latency.py:233-291).  Durations are integer
    microseconds.  Coverage_Model and Epoch_Model treat the same functions in exact arithmetic. *)
From Coq Require Import ZArith Bool List.
From Flocq Require Import Core IEEE754.BinarySingleNaN.
From Verif Require Import Base Float_Model FGrid_Model.
Import ListNotations.
Open Scope Z_scope.

(** timedelta / timedelta: Python's correctly rounded quotient of two integers (the conversions are exact for
    counts below 2^53, which the theorems assume).  orbit.py:671, 1004-1005, 1122-1123. *)
Definition td_div (a b : Z) : b64 := fdiv (of_Z a) (of_Z b).
(** int(np.ceil(x)), orbit.py:671. *)
Definition np_ceil (x : b64) : Z := Btrunc (Bnearbyint mode_UP x).
(** number_cycles, orbit.py:671. *)
Definition number_cycles (length_ cycle : Z) : Z := np_ceil (td_div length_ cycle).
(** The epoch argument of sgp4init: days after 1949-12-31 of an epoch given in microseconds after it,
    orbit.py:361-362, 1004-1005, 1122-1123. *)
Definition epoch_days (epoch : Z) : b64 := td_div epoch 86400000000.

(** series / timedelta(seconds=1): numpy divides the nanosecond counts as floats, coverage.py:391-392,
    434-435; latency.py:236, 275. *)
Definition f_seconds (us : Z) : b64 := fdiv (of_Z (1000 * us)) (of_Z 1000000000).
(** timedelta(seconds=x) in microseconds: CPython splits off the whole seconds (modf) and rounds the rest to
    microseconds, ties to even; NaN is a ValueError and infinity an OverflowError (modelled as ValueError).
    coverage.py:406-409, 449-452; latency.py:249-251, 288-290. *)
Definition td_seconds (x : b64) : pyres Z :=
  match x with
  | B754_nan | B754_infinity _ => Raise ValueError
  | _ => Ok (Btrunc x * 1000000 + f_round (fmul (of_Z 1000000) (fmod x (of_Z 1))))
  end.

(** Recursive summation from the left, as numpy does for few elements.  coverage.py:442-443. *)
Definition plain_sum (l : list b64) : b64 := fold_left fadd l (of_Z 0).
(** Negation of a float, used for the subtractions of [kahan_step].  coverage.py:399-400. *)
Definition fsub (x y : b64) : b64 := fadd x (Bopp y).
(** One step of the compensated summation of pandas' group_mean: (sum, compensation).  coverage.py:399-400;
    latency.py:243. *)
Definition kahan_step (p : b64 * b64) (v : b64) : b64 * b64 :=
  let (s, c) := p in
  let y := fsub v c in
  let t := fadd s y in
  (t, fsub (fsub t s) y).
(** The sum of pandas' group_mean.  coverage.py:399-400; latency.py:243. *)
Definition kahan_sum (l : list b64) : b64 := fst (fold_left kahan_step l (of_Z 0, of_Z 0)).

Section Mean.
(** The summation algorithm (plain, pairwise or compensated: the theorems hold for all accurate ones). *)
Variable fsum : list b64 -> b64.
(** "mean" of a group, coverage.py:399-400; latency.py:243. *)
Definition f_mean (l : list b64) : b64 := fdiv (fsum l) (of_Z (Z.of_nat (length l))).
(** The epoch of merged observations: pandas' "mean" of timestamps in nanoseconds since 1970, which groupby
    converts to floats, averages and truncates to an integer.  coverage.py:338-348 (line 345). *)
Definition merged_epoch (l : list Z) : Z := Btrunc (f_mean (map of_Z l)).
(** The mean duration reported for a group, coverage.py:391-409; latency.py:236-251. *)
Definition reported_mean (l : list Z) : pyres Z := td_seconds (f_mean (map f_seconds l)).
(** np.average with weights: the sum of the products divided by the sum of the weights; [l] lists
    (duration, weight).  coverage.py:442-443; latency.py:282. *)
Definition f_average (l : list (b64 * b64)) : b64 :=
  fdiv (fsum (map (fun p => fmul (fst p) (snd p)) l)) (fsum (map snd l)).
(** The weighted mean duration reported for a cell, coverage.py:434-452; latency.py:275-290. *)
Definition reported_average (l : list (Z * Z)) : pyres Z :=
  td_seconds (f_average (map (fun p => (f_seconds (fst p), of_Z (snd p))) l)).
End Mean.

(** The duration reported for a cell that contains the given points: [groups] lists the durations of each
    point, which reduce_observations averages and counts before grid_observations averages again.
    coverage.py:388-409 and 431-452; latency.py:233-251 and 272-290. *)
Definition reported_cell (fsum fsum' : list b64 -> b64) (groups : list (list Z)) : pyres Z :=
  bind (mapM (reported_mean fsum) groups)
    (fun ms => reported_average fsum' (combine ms (map (fun l => Z.of_nat (length l)) groups))).
