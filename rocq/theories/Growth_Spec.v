(** Independent specification for comparing the results of related analyses:
    more observations, more downlinks, stricter requirements, split periods and
    shifted time origins. *)
From Coq Require Import String ZArith QArith List Bool Sorting.Sorted.
From Verif Require Import Base Coverage_Model Coverage_Spec Latency_Model Latency_Spec.
Import ListNotations.
Open Scope Z_scope.

(** The sum of the access times of the aggregated records of a point. *)
Definition total_access (p : Z) (rows : list agg) : Z :=
  fold_right Z.add 0 (map a_access (rows_of p rows)).

(** [l'] is [l] with some elements removed. *)
Inductive sublist {A} : list A -> list A -> Prop :=
| sub_nil : sublist [] []
| sub_keep x l' l : sublist l' l -> sublist (x :: l') (x :: l)
| sub_skip x l' l : sublist l' l -> sublist l' (x :: l).

(** The satellite is above the limit after all the events. *)
Fixpoint state_after (b : bool) (ev : events) : bool :=
  match ev with
  | [] => b
  | (_, SetEv) :: r => state_after false r
  | _ :: r => state_after true r
  end.

(** Everything happens [d] later. *)
Definition later_events (d : Z) (ev : events) : events := map (fun e => (fst e + d, snd e)) ev.
Definition later_intervals (d : Z) (iv : list (Z * Z)) : list (Z * Z) :=
  map (fun i => (fst i + d, snd i + d)) iv.
Definition later_obs (d : Z) (o : obs) : obs :=
  mk_obs (o_point o) (o_sat o) (o_inst o) (o_start o + d) (o_epoch o + d) (o_end o + d).

(** Passes of a satellite do not overtake each other: the middle of a downlink
    that starts no later comes no later. *)
Definition no_overtaking (downs : list downlink) : Prop :=
  forall d d', In d downs -> In d' downs -> d_sat d = d_sat d' ->
    d_start d <= d_start d' -> d_epoch d <= d_epoch d'.
