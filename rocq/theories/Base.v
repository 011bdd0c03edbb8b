(** Shared vocabulary of the model.

    Nothing in this file is specific to tatc: it fixes how Python results and
    exceptions, and the pandas grouping and sorting primitives that tatc calls,
    are represented. *)
From Coq Require Import ZArith QArith List Bool Sorting.Permutation Sorting.Sorted Lia.
Import ListNotations.

(** Python exception classes that the modelled code can raise
    (builtins, pydantic's ValidationError, shapely's GEOSException, tatc.config.ConfigError
    src/tatc/config.py:16-17).  Messages are not modelled. *)
Inductive exn :=
| ValueError | IndexError | KeyError | TypeError | UnboundLocalError
| ZeroDivisionError | ValidationError | ConfigError | OSError | YamlError | GEOSError.

(** The outcome of a Python call: a value or a raised exception.
    Used by every model; e.g. utils.py:1209-1273. *)
Inductive pyres (A : Type) :=
| Ok (a : A)
| Raise (e : exn).
Arguments Ok {A}.
Arguments Raise {A}.

(** Sequencing of Python statements: an exception skips the rest. E.g. utils.py:1218-1258. *)
Definition bind {A B} (x : pyres A) (f : A -> pyres B) : pyres B :=
  match x with Ok a => f a | Raise e => Raise e end.

(** A list comprehension whose body may raise: the first exception wins. E.g. orbit.py:458. *)
Fixpoint mapM {A B} (f : A -> pyres B) (l : list A) : pyres (list B) :=
  match l with
  | [] => Ok []
  | x :: r => bind (f x) (fun y => bind (mapM f r) (fun ys => Ok (y :: ys)))
  end.

(** pandas [sort_values(key)] (quicksort: the order among equal keys is
    unspecified).  Every theorem quantifies over all such sorts. coverage.py:294, 334; latency.py:112-201. *)
Definition key_le {A} (key : A -> Z) (a b : A) : Prop := (key a <= key b)%Z.
(** See above, coverage.py:294, 334. *)
Definition is_sort {A} (key : A -> Z) (srt : list A -> list A) : Prop :=
  forall l, Permutation (srt l) l /\ StronglySorted (key_le key) (srt l).

(** A concrete (stable) sort, used to show that [is_sort] is inhabited and to
    compute examples. One instance of coverage.py:294, 334. *)
Fixpoint insert_by {A} (key : A -> Z) (x : A) (l : list A) : list A :=
  match l with
  | [] => [x]
  | y :: r => if (key x <=? key y)%Z then x :: l else y :: insert_by key x r
  end.
(** See above, coverage.py:294, 334; orbit.py:459. *)
Fixpoint sort_by {A} (key : A -> Z) (l : list A) : list A :=
  match l with [] => [] | x :: r => insert_by key x (sort_by key r) end.

(** The sorted distinct keys of a pandas [groupby(key)] (sort=True is pandas'
    default). coverage.py:332, 338, 396, 438. *)
Fixpoint insert_key (k : Z) (l : list Z) : list Z :=
  match l with
  | [] => [k]
  | y :: r => if (k <? y)%Z then k :: l
              else if (k =? y)%Z then l else y :: insert_key k r
  end.
(** See above, coverage.py:332, 338, 396, 438. *)
Fixpoint group_keys {A} (key : A -> Z) (l : list A) : list Z :=
  match l with [] => [] | x :: r => insert_key (key x) (group_keys key r) end.

(** The rows of one group, in the order of the frame. coverage.py:332, 338, 396, 438. *)
Definition group_rows {A} (key : A -> Z) (k : Z) (l : list A) : list A :=
  filter (fun x => (key x =? k)%Z) l.

(** pandas [groupby(key)] as the list of its groups in key order. coverage.py:332, 338, 396, 438. *)
Definition group_by {A} (key : A -> Z) (l : list A) : list (list A) :=
  map (fun k => group_rows key k l) (group_keys key l).

(** Plain sums, and the defined values of a column with missing entries. coverage.py:401, 441. *)
Definition sum_Z (l : list Z) : Z := fold_right Z.add 0%Z l.
(** See above, coverage.py:399-400, 442-443. *)
Definition sum_Q (l : list Q) : Q := fold_right Qplus 0%Q l.
(** See above, coverage.py:399-400. *)
Fixpoint filter_some {A} (l : list (option A)) : list A :=
  match l with [] => [] | None :: r => filter_some r | Some x :: r => x :: filter_some r end.
