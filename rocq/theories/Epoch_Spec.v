(** Independent specification of TLE selection, partition and repeat cycles. *)
From Coq Require Import ZArith QArith List Bool Sorting.Sorted Sorting.Permutation.
From Verif Require Import Base Epoch_Model.
Import ListNotations.
Open Scope Z_scope.

(** Index [i] designates an epoch at minimal distance from [t]; among two distinct
    epochs at the same distance it is the later. *)
Definition nearest (es : list Z) (t : Z) (i : nat) : Prop :=
  exists e, nth_error es i = Some e /\
    forall e', In e' es -> Z.abs (t - e) <= Z.abs (t - e')
      /\ (Z.abs (t - e) = Z.abs (t - e') -> e' <= e).

(** [argsort] returns the positions in an order that sorts the values. *)
Definition is_argsort (argsort : list Z -> list nat) : Prop :=
  forall es, Permutation (argsort es) (seq 0 (length es))
    /\ Sorted Z.le (map (fun i => nth i es 0) (argsort es)).

(** [m] is the midpoint of [a] and [b] rounded to a microsecond. *)
Definition is_midpoint (a b m : Z) : Prop := -1 <= 2 * m - (a + b) <= 1.
(** [ms] are the midpoints of the consecutive pairs of [es]. *)
Definition consecutive_midpoints (es ms : list Z) : Prop :=
  S (length ms) = length es
  /\ forall k a b m, nth_error es k = Some a -> nth_error es (S k) = Some b ->
       nth_error ms k = Some m -> is_midpoint a b m.

(** A candidate within both tolerances. *)
Definition admissible (s : search) (c : candidate) : Prop :=
  (c_dpos c < s_dpos s)%Q /\ (c_dvel c < s_dvel s)%Q.

(** A chronological event table in [t0,t1]. *)
Definition event_table (t0 t1 : Z) (ev : list Z * list Z) : Prop :=
  length (fst ev) = length (snd ev)
  /\ StronglySorted Z.le (fst ev) /\ Forall (fun t => t0 <= t <= t1) (fst ev).

(** [(t, e)] is an event of the table. *)
Definition has_event (ev : list Z * list Z) (t e : Z) : Prop := In (t, e) (combine (fst ev) (snd ev)).
