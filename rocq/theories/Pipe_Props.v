(** Property theorems C160-C161: whole analyses. *)
From Coq Require Import String ZArith QArith List Bool Sorting.Sorted Sorting.Permutation Lia.
From Verif Require Import Base BaseFacts Coverage_Model Coverage_Spec Latency_Model Latency_Spec
  Pipe_Spec Pipe_Proofs.
Import ListNotations.
Open Scope Z_scope.

(** *** C160 *)
Theorem c160_reduced_depends_on_coverage_only : forall srt srt' rows rows',
  is_sort o_start srt -> is_sort o_start srt' -> proper rows -> proper rows' ->
  same_coverage rows rows' ->
  reduce_observations (aggregate_observations srt rows)
  = reduce_observations (aggregate_observations srt' rows').
Proof. exact reduced_coverage_lemma. Qed.
Print Assumptions c160_reduced_depends_on_coverage_only.

Theorem c160_reduced_order_independent : forall srt srt' rows rows',
  is_sort o_start srt -> is_sort o_start srt' -> proper rows -> Permutation rows rows' ->
  reduce_observations (aggregate_observations srt rows)
  = reduce_observations (aggregate_observations srt' rows').
Proof. exact reduced_order_lemma. Qed.
Print Assumptions c160_reduced_order_independent.

(** The reduced observations of any analysis can be gridded exactly when the cells in use are
    labelled by positions of the reduced table; otherwise KeyError, never another error. *)
Theorem c160_gridding_outcome : forall {G} (contains : G -> red -> bool) srt rows (cells : list (cell G)),
  NoDup (map c_id cells) ->
  let R := reduce_observations (aggregate_observations srt rows) in
  (labelled contains R cells /\ exists out, grid_observations contains R cells = Ok out)
  \/ (~ labelled contains R cells /\ grid_observations contains R cells = Raise KeyError).
Proof. exact @pipeline_outcome_of_rows. Qed.
Print Assumptions c160_gridding_outcome.

(** Cells that partition the points count every merged observation once. *)
Theorem c160_gridded_samples_total : forall {G} (contains : G -> red -> bool) srt rows (cells : list (cell G)) out,
  is_sort o_start srt -> rows <> [] ->
  let A := aggregate_observations srt rows in
  (forall r, In r (reduce_observations A) -> times_covered contains cells r = 1%nat) ->
  grid_observations contains (reduce_observations A) cells = Ok out ->
  sum_Z (map g_samples out) = Z.of_nat (length A).
Proof. exact @pipeline_samples_of_rows. Qed.
Print Assumptions c160_gridded_samples_total.

Definition c160_rows : list obs :=
  [ mk_obs 1 "A" "i" 10 15 20; mk_obs 1 "B" "i" 0 2 5; mk_obs 1 "C" "j" 3 4 6;
    mk_obs 2 "A" "i" 4 5 9; mk_obs 1 "D" "i" 20 21 22 ].
(** Other satellites, other passes, the same coverage. *)
Definition c160_other : list obs :=
  [ mk_obs 2 "Z" "i" 4 5 9; mk_obs 1 "Z" "i" 10 11 15; mk_obs 1 "Y" "i" 12 15 22; mk_obs 1 "X" "i" 0 2 6 ].
Definition c160_cells : list (cell (Z * Z)) := [mk_cell 0 40 (0, 2); mk_cell 1 41 (2, 9)].
Definition c160_in (g : Z * Z) (r : red) : bool := (fst g <=? r_point r) && (r_point r <? snd g).
Example c160_witness :
  is_sort o_start (sort_by o_start) /\ proper c160_rows /\ proper c160_other
  /\ same_coverage c160_rows c160_other
  /\ (let R := reduce_observations (aggregate_observations (sort_by o_start) c160_rows) in
      map (fun r => (r_point r, Qred (r_access r), option_map Qred (r_revisit r), r_samples r)) R
      = [(1, 9%Q, Some 4%Q, 2); (2, 5%Q, None, 1)]
      /\ labelled c160_in R c160_cells
      /\ (forall r, In r R -> times_covered c160_in c160_cells r = 1%nat)
      /\ exists out, grid_observations c160_in R c160_cells = Ok out
           /\ map g_samples out = [2; 1]).
Proof. exact c160_witness_lemma. Qed.

(** *** C161 *)
Theorem c161_reduced_latency_order_independent_partial :
  forall srt_o srt_d srt_l srt_o' srt_d' srt_l' rows rows' downs downs',
  is_sort o_end srt_o -> is_sort d_start srt_d -> is_sort l_observed srt_l ->
  is_sort o_end srt_o' -> is_sort d_start srt_d' -> is_sort l_observed srt_l' ->
  Permutation rows rows' -> Permutation downs downs' -> distinct_starts downs ->
  reduce_latencies (compute_latencies srt_o srt_d srt_l rows downs)
  = reduce_latencies (compute_latencies srt_o' srt_d' srt_l' rows' downs').
Proof. exact reduced_latency_order_lemma. Qed.
Print Assumptions c161_reduced_latency_order_independent_partial.

(** Two stations in view from the same instant: which one counts depends on the order. *)
Theorem c161_reduced_latency_order_refuted :
  exists rows downs downs',
    Permutation downs downs'
    /\ reduce_latencies (compute_latencies (sort_by o_end) (sort_by d_start) (sort_by l_observed) rows downs)
       <> reduce_latencies (compute_latencies (sort_by o_end) (sort_by d_start) (sort_by l_observed) rows downs').
Proof. exact c161_refuted_lemma. Qed.
Print Assumptions c161_reduced_latency_order_refuted.

(** One reduced row per observed point, counting its observations. *)
Theorem c161_reduced_samples : forall srt_o srt_d srt_l rows downs,
  is_sort o_end srt_o -> is_sort d_start srt_d -> is_sort l_observed srt_l -> downs <> [] ->
  let R := reduce_latencies (compute_latencies srt_o srt_d srt_l rows downs) in
  (forall p, In p (map lr_point R) <-> exists o, In o rows /\ o_point o = p)
  /\ forall r, In r R ->
       lr_samples r = Z.of_nat (length (filter (fun o => o_point o =? lr_point r) rows)).
Proof. exact latency_samples_lemma. Qed.
Print Assumptions c161_reduced_samples.

Theorem c161_gridding_outcome : forall {G} (contains : G -> lred -> bool) L (cells : list (cell G)),
  NoDup (map c_id cells) ->
  let R := reduce_latencies L in
  (labelled contains R cells /\ exists out, grid_latencies contains R cells = Ok out)
  \/ (~ labelled contains R cells /\ grid_latencies contains R cells = Raise KeyError).
Proof. exact @latency_outcome_lemma. Qed.
Print Assumptions c161_gridding_outcome.

Definition c161_rows : list obs := [mk_obs 1 "s" "i" 0 5 10; mk_obs 2 "s" "i" 20 25 30; mk_obs 1 "s" "i" 31 32 33].
Definition c161_downs : list downlink := [mk_down "b" "s" 50 60 55; mk_down "a" "s" 12 20 16].
Example c161_witness :
  distinct_starts c161_downs /\ Permutation c161_rows (rev c161_rows)
  /\ map (fun r => (lr_point r, option_map Qred (lr_latency r), lr_samples r))
       (reduce_latencies (compute_latencies (sort_by o_end) (sort_by d_start) (sort_by l_observed) c161_rows c161_downs))
     = [(1, Some 17%Q, 2); (2, Some 30%Q, 1)].
Proof. exact c161_witness_lemma. Qed.
