(** Data frames as mutable objects: which objects the analysis functions create, change in place and return.
    What pandas computes is left open: every operation is an arbitrary function of the contents of its
    operands, which may raise.  What the contents are is modelled elsewhere (Coverage_Model, Latency_Model,
    Frames_Model).  Simplified: geometries are immutable, so that the frames are the only mutable objects. *)
From Coq Require Import String List Bool Arith.
From Verif Require Import Base.
Import ListNotations.
Open Scope string_scope.
Open Scope list_scope.

(** The pandas and geopandas operations of coverage.py:297-453, latency.py:95-291 and utils.py:1186-1189. *)
Inductive op :=
| GroupBy (column : string)                (* coverage.py:332 *)
| SortValues (column : string)             (* coverage.py:334; latency.py:142-143, 198 *)
| SetColumn (column value : string)        (* df[column] = value, coverage.py:336, 350-351, 391-394, ... *)
| Dissolve (by_ : string)                  (* coverage.py:338-348, 396-403; latency.py:240-246 *)
| DissolveWeighted (by_ : string)          (* coverage.py:438-445; latency.py:278-284: the weights are those of a second frame *)
| Concat                                   (* coverage.py:355 *)
| ResetIndex                               (* coverage.py:355, 403, 446; latency.py:200, 246, 285 *)
| Sjoin                                    (* coverage.py:437; latency.py:277 *)
| MergeAsof                                (* latency.py:140-147 *)
| Rename                                   (* latency.py:153-163 *)
| Select                                   (* latency.py:166-179 *)
| SetRows                                  (* latency.py:184-188 *)
| ToGeo                                    (* latency.py:191 *)
| SplitGeometry                            (* utils.py:1186-1189 *)
| UserEdit (k : nat).                      (* a change a user makes to a frame *)

Section Pure.
(** Contents of a frame. *)
Variable F : Type.
(** The result of an operation on the contents of its operands. *)
Variable pd : op -> list F -> pyres F.
(** The parts that groupby yields, coverage.py:332. *)
Variable groups : op -> F -> pyres (list F).
(** df.empty, coverage.py:328, 386, 425; latency.py:136, 231, 267. *)
Variable is_empty : F -> bool.
(** obs["downlinked"].isna().any(), latency.py:182-183. *)
Variable some_missing : F -> bool.
(** _get_empty_aggregate_frame, coverage.py:297-311; _get_empty_reduce_frame, coverage.py:358-373;
    _get_empty_latency_frame, latency.py:89-109; _get_empty_reduce_frame, latency.py:204-217. *)
Variables empty_aggregate empty_reduce empty_latency empty_latency_reduce : F.

(** Objects by their address; addresses below [next] are in use.  Python's heap, as far as the frames of
    coverage.py and latency.py are concerned. *)
Record heap := mk_heap { next : nat; at_ : nat -> F }.
(** Creation of an object (every operation of coverage.py and latency.py that returns a new frame). *)
Definition alloc (h : heap) (f : F) : heap := mk_heap (S (next h)) (fun a => if Nat.eqb a (next h) then f else at_ h a).
(** Change of an object in place (df[c] = ..., inplace=True). *)
Definition write (h : heap) (a : nat) (f : F) : heap := mk_heap (next h) (fun b => if Nat.eqb b a then f else at_ h b).
(** A computation: a result or an exception, and the objects afterwards. coverage.py, latency.py. *)
Definition M (A : Type) : Type := heap -> pyres A * heap.
(** Sequencing; coverage.py, latency.py. *)
Definition ret {A} (x : A) : M A := fun h => (Ok x, h).
Definition seq {A B} (m : M A) (k : A -> M B) : M B :=
  fun h => match m h with (Ok x, h') => k x h' | (Raise e, h') => (Raise e, h') end.
(** An operation that returns a new frame. *)
Definition new (o : op) (args : list nat) : M nat :=
  fun h => match pd o (map (at_ h) args) with Ok f => (Ok (next h), alloc h f) | Raise e => (Raise e, h) end.
(** df.copy(), coverage.py:389, 426, 432; latency.py:179, 234, 268, 273. *)
Definition copy (a : nat) : M nat := fun h => (Ok (next h), alloc h (at_ h a)).
(** A literal frame, coverage.py:311, 373; latency.py:109, 217. *)
Definition literal (f : F) : M nat := fun h => (Ok (next h), alloc h f).
(** An operation that changes a frame in place. *)
Definition inplace (o : op) (a : nat) : M unit :=
  fun h => match pd o [at_ h a] with Ok f => (Ok tt, write h a f) | Raise e => (Raise e, h) end.
(** A condition on the contents of a frame, coverage.py:328 and alike. *)
Definition test (p : F -> bool) (a : nat) : M bool := fun h => (Ok (p (at_ h a)), h).
(** The new frames of groupby, coverage.py:332. *)
Fixpoint allocs (h : heap) (fs : list F) : list nat * heap :=
  match fs with [] => ([], h) | f :: r => let (l, h') := allocs (alloc h f) r in (next h :: l, h') end.
Definition new_groups (o : op) (a : nat) : M (list nat) :=
  fun h => match groups o (at_ h a) with Ok fs => let (l, h') := allocs h fs in (Ok l, h') | Raise e => (Raise e, h) end.
(** A loop that appends to a list, coverage.py:330-353. *)
Fixpoint each (f : nat -> M nat) (l : list nat) : M (list nat) :=
  match l with [] => ret [] | x :: r => seq (f x) (fun y => seq (each f r) (fun ys => ret (y :: ys))) end.

Notation "x <- m ; k" := (seq m (fun x => k)) (at level 61, m at next level, right associativity).
Notation "m ;; k" := (seq m (fun _ => k)) (at level 61, right associativity).

(** The body of the loop, coverage.py:334-353. *)
Definition aggregate_group (gdf : nat) : M nat :=
  gdf <- new (SortValues "start") [gdf];
  inplace (SetColumn "obs" "cumsum") gdf;;
  gdf <- new (Dissolve "obs") [gdf];
  inplace (SetColumn "access" "end - start") gdf;;
  inplace (SetColumn "revisit" "start - shifted end") gdf;;
  ret gdf.
(** aggregate_observations, coverage.py:314-355. *)
Definition aggregate_observations (observations : nat) : M nat :=
  e <- test is_empty observations;
  if e then literal empty_aggregate
  else
    parts <- new_groups (GroupBy "point_id") observations;
    gdfs <- each aggregate_group parts;
    gdf <- new Concat gdfs;
    new ResetIndex [gdf].
(** reduce_observations, coverage.py:376-409. *)
Definition reduce_observations (aggregated_observations : nat) : M nat :=
  e <- test is_empty aggregated_observations;
  if e then literal empty_reduce
  else
    gdf <- copy aggregated_observations;
    inplace (SetColumn "access" "seconds") gdf;;
    inplace (SetColumn "revisit" "seconds") gdf;;
    inplace (SetColumn "samples" "1") gdf;;
    gdf <- new (Dissolve "point_id") [gdf];
    gdf <- new ResetIndex [gdf];
    inplace (SetColumn "access" "timedelta") gdf;;
    inplace (SetColumn "revisit" "timedelta") gdf;;
    ret gdf.
(** grid_observations, coverage.py:412-453. *)
Definition grid_observations (reduced_observations cells : nat) : M nat :=
  e <- test is_empty reduced_observations;
  if e then
    gdf <- copy cells;
    inplace (SetColumn "samples" "0") gdf;;
    inplace (SetColumn "access" "None") gdf;;
    inplace (SetColumn "revisit" "None") gdf;;
    ret gdf
  else
    gdf <- copy reduced_observations;
    inplace (SetColumn "access" "seconds") gdf;;
    inplace (SetColumn "revisit" "seconds") gdf;;
    joined <- new Sjoin [cells; gdf];
    gdf <- new (DissolveWeighted "cell_id") [joined; gdf];
    gdf <- new ResetIndex [gdf];
    inplace (SetColumn "access" "timedelta") gdf;;
    inplace (SetColumn "revisit" "timedelta") gdf;;
    ret gdf.
(** compute_latencies, latency.py:112-201.  Simplified: obs.set_crs(...) of line 195 is left out, its result is
    discarded. *)
Definition compute_latencies (observations downlinks : nat) : M nat :=
  e <- test is_empty observations;
  d <- (if e then ret true else test is_empty downlinks);
  if d then literal empty_latency
  else
    left <- new (SortValues "end") [observations];
    right <- new (SortValues "start") [downlinks];
    obs <- new MergeAsof [left; right];
    inplace (SetColumn "latency" "epoch_y - epoch_x") obs;;
    inplace Rename obs;;
    obs <- new Select [obs];
    obs <- copy obs;
    s <- test some_missing obs;
    (if s then inplace SetRows obs else ret tt);;
    obs <- new ToGeo [obs];
    inplace (SortValues "observed") obs;;
    inplace ResetIndex obs;;
    ret obs.
(** reduce_latencies, latency.py:220-251 (notna() of line 231 has the rows of the frame, so that it is empty when the
    frame is). *)
Definition reduce_latencies (latency_observations : nat) : M nat :=
  e <- test is_empty latency_observations;
  if e then literal empty_latency_reduce
  else
    gdf <- copy latency_observations;
    inplace (SetColumn "latency" "seconds") gdf;;
    inplace (SetColumn "samples" "1") gdf;;
    gdf <- new (Dissolve "point_id") [gdf];
    gdf <- new ResetIndex [gdf];
    inplace (SetColumn "latency" "timedelta") gdf;;
    ret gdf.
(** grid_latencies, latency.py:254-291. *)
Definition grid_latencies (reduced cells : nat) : M nat :=
  e <- test is_empty reduced;
  if e then
    gdf <- copy cells;
    inplace (SetColumn "samples" "0") gdf;;
    inplace (SetColumn "latency" "None") gdf;;
    ret gdf
  else
    gdf <- copy reduced;
    inplace (SetColumn "latency" "seconds") gdf;;
    joined <- new Sjoin [cells; gdf];
    gdf <- new (DissolveWeighted "cell_id") [joined; gdf];
    gdf <- new ResetIndex [gdf];
    inplace (SetColumn "latency" "timedelta") gdf;;
    ret gdf.
(** normalize_geometry of a GeoDataFrame, utils.py:1185-1190. *)
Definition normalize_frame (geometry : nat) : M nat :=
  inplace SplitGeometry geometry;;
  ret geometry.

(** ** Sessions *)
(** What a user does with the frames [0], [1], ... known so far; every call adds its result.  The calls of
    coverage.py:314-453, latency.py:112-291 and utils.py:1167-1190. *)
Inductive call :=
| Aggregate (i : nat) | Reduce (i : nat) | Grid (i c : nat)
| Latencies (i d : nat) | ReduceLatencies (i : nat) | GridLatencies (i c : nat)
| Normalize (i : nat)
| Edit (i k : nat).  (* the user changes frame [i] in place *)
(** One call; a call with an unknown frame does nothing, an exception adds no frame (the user carries on). *)
Definition call1 (m : nat -> M nat) (i : nat) (env : list nat) (h : heap) : list nat * heap :=
  match nth_error env i with
  | Some a => match m a h with (Ok b, h') => (env ++ [b], h') | (Raise _, h') => (env, h') end
  | None => (env, h)
  end.
Definition call2 (m : nat -> nat -> M nat) (i j : nat) (env : list nat) (h : heap) : list nat * heap :=
  match nth_error env i, nth_error env j with
  | Some a, Some b => match m a b h with (Ok c, h') => (env ++ [c], h') | (Raise _, h') => (env, h') end
  | _, _ => (env, h)
  end.
Definition step (c : call) (s : list nat * heap) : list nat * heap :=
  let (env, h) := s in
  match c with
  | Aggregate i => call1 aggregate_observations i env h
  | Reduce i => call1 reduce_observations i env h
  | Grid i j => call2 grid_observations i j env h
  | Latencies i j => call2 compute_latencies i j env h
  | ReduceLatencies i => call1 reduce_latencies i env h
  | GridLatencies i j => call2 grid_latencies i j env h
  | Normalize i => call1 normalize_frame i env h
  | Edit i k => match nth_error env i with
                | Some a => (env, snd (inplace (UserEdit k) a h))
                | None => (env, h)
                end
  end.
(** A session: calls one after the other (coverage.py, latency.py, utils.py as above). *)
Definition session (cs : list call) (s : list nat * heap) : list nat * heap := fold_left (fun s c => step c s) cs s.
End Pure.
