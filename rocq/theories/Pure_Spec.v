(** What the analysis functions should do with the contents of frames, without objects. *)
From Coq Require Import String List Bool Arith.
From Verif Require Import Base Pure_Model.
Import ListNotations.
Open Scope string_scope.
Open Scope list_scope.

Section Spec.
Variable F : Type.
Variable pd : op -> list F -> pyres F.
Variable groups : op -> F -> pyres (list F).
Variable is_empty : F -> bool.
Variable some_missing : F -> bool.
Variables empty_aggregate empty_reduce empty_latency empty_latency_reduce : F.

(** Operations one after the other on one content. *)
Fixpoint then_ (os : list op) (f : F) : pyres F :=
  match os with [] => Ok f | o :: r => bind (pd o [f]) (then_ r) end.
Definition val_aggregate (obs : F) : pyres F :=
  if is_empty obs then Ok empty_aggregate
  else bind (groups (GroupBy "point_id") obs) (fun parts =>
       bind (mapM (then_ [SortValues "start"; SetColumn "obs" "cumsum"; Dissolve "obs"; SetColumn "access" "end - start"; SetColumn "revisit" "start - shifted end"]) parts) (fun gs =>
       bind (pd Concat gs) (then_ [ResetIndex]))).
Definition val_reduce (agg : F) : pyres F :=
  if is_empty agg then Ok empty_reduce
  else then_ [SetColumn "access" "seconds"; SetColumn "revisit" "seconds"; SetColumn "samples" "1"; Dissolve "point_id"; ResetIndex;
              SetColumn "access" "timedelta"; SetColumn "revisit" "timedelta"] agg.
Definition val_grid (red cells : F) : pyres F :=
  if is_empty red then then_ [SetColumn "samples" "0"; SetColumn "access" "None"; SetColumn "revisit" "None"] cells
  else bind (then_ [SetColumn "access" "seconds"; SetColumn "revisit" "seconds"] red) (fun g =>
       bind (pd Sjoin [cells; g]) (fun j => bind (pd (DissolveWeighted "cell_id") [j; g])
       (then_ [ResetIndex; SetColumn "access" "timedelta"; SetColumn "revisit" "timedelta"]))).
Definition val_latencies (obs down : F) : pyres F :=
  if is_empty obs || is_empty down then Ok empty_latency
  else bind (pd (SortValues "end") [obs]) (fun l => bind (pd (SortValues "start") [down]) (fun r => bind (pd MergeAsof [l; r]) (fun m =>
       bind (then_ [SetColumn "latency" "epoch_y - epoch_x"; Rename; Select] m) (fun o =>
       bind (if some_missing o then pd SetRows [o] else Ok o) (then_ [ToGeo; SortValues "observed"; ResetIndex]))))).
Definition val_reduce_latencies (lat : F) : pyres F :=
  if is_empty lat then Ok empty_latency_reduce
  else then_ [SetColumn "latency" "seconds"; SetColumn "samples" "1"; Dissolve "point_id"; ResetIndex; SetColumn "latency" "timedelta"] lat.
Definition val_grid_latencies (red cells : F) : pyres F :=
  if is_empty red then then_ [SetColumn "samples" "0"; SetColumn "latency" "None"] cells
  else bind (then_ [SetColumn "latency" "seconds"] red) (fun g =>
       bind (pd Sjoin [cells; g]) (fun j => bind (pd (DissolveWeighted "cell_id") [j; g])
       (then_ [ResetIndex; SetColumn "latency" "timedelta"]))).

(** Every object that was there keeps its contents. *)
Definition untouched (h h' : heap F) : Prop := next F h <= next F h' /\ forall a, a < next F h -> at_ F h' a = at_ F h a.
(** A call creates its result, gives it the contents [v] or raises the exception [v], and changes nothing else. *)
Definition pure_call (m : M F nat) (h : heap F) (v : pyres F) : Prop :=
  let (r, h') := m h in untouched h h' /\
  match r with
  | Ok b => next F h <= b < next F h' /\ v = Ok (at_ F h' b)
  | Raise e => v = Raise e
  end.
(** Frames that exist and are different objects. *)
Definition separate (s : list nat * heap F) : Prop := NoDup (fst s) /\ Forall (fun a => a < next F (snd s)) (fst s).
(** Contents of the i-th frame of a session. *)
Definition content (s : list nat * heap F) (i : nat) : option F := option_map (at_ F (snd s)) (nth_error (fst s) i).
(** The call is an edit of frame [i] by the user; it normalizes some frame; the frames it is given. *)
Definition edits (i : nat) (c : call) : Prop := exists k, c = Edit i k.
Definition normalizes (c : call) : Prop := exists j, c = Normalize j.
Definition operands (c : call) : list nat :=
  match c with
  | Aggregate i | Reduce i | ReduceLatencies i | Normalize i | Edit i _ => [i]
  | Grid i j | Latencies i j | GridLatencies i j => [i; j]
  end.
End Spec.
