(** Property theorems C183: the analysis functions leave the frames they are given alone. *)
From Coq Require Import String List Bool Arith Lia.
From Verif Require Import Base Pure_Model Pure_Spec Pure_Proofs.
Import ListNotations.
Open Scope list_scope.

(** *** C183 *)
(** Whatever pandas computes: each function returns a frame of its own (neither an argument nor any other
    object that was there), whose contents depend on nothing but the contents of the arguments; it raises
    only what these contents raise; and afterwards, also after an exception, every object is as it was. *)
Theorem c183_functions : forall F pd groups is_empty some_missing ea er el elr (h : heap F),
  (forall a, a < next F h -> pure_call F (aggregate_observations F pd groups is_empty ea a) h (val_aggregate F pd groups is_empty ea (at_ F h a)))
  /\ (forall a, a < next F h -> pure_call F (reduce_observations F pd is_empty er a) h (val_reduce F pd is_empty er (at_ F h a)))
  /\ (forall a c, a < next F h -> c < next F h -> pure_call F (grid_observations F pd is_empty a c) h (val_grid F pd is_empty (at_ F h a) (at_ F h c)))
  /\ (forall a d, a < next F h -> d < next F h ->
       pure_call F (compute_latencies F pd is_empty some_missing el a d) h (val_latencies F pd is_empty some_missing el (at_ F h a) (at_ F h d)))
  /\ (forall a, a < next F h -> pure_call F (reduce_latencies F pd is_empty elr a) h (val_reduce_latencies F pd is_empty elr (at_ F h a)))
  /\ (forall a c, a < next F h -> c < next F h -> pure_call F (grid_latencies F pd is_empty a c) h (val_grid_latencies F pd is_empty (at_ F h a) (at_ F h c))).
Proof.
  exact (fun F pd groups is_empty some_missing ea er el elr h =>
    conj (aggregate_pure F pd groups is_empty ea h) (conj (reduce_pure F pd is_empty er h) (conj (grid_pure F pd is_empty h)
    (conj (latencies_pure F pd is_empty some_missing el h) (conj (reduce_latencies_pure F pd is_empty elr h) (grid_latencies_pure F pd is_empty h)))))).
Qed.
Print Assumptions c183_functions.

(** In any session of calls and of edits by the user, the frames stay different objects, and a frame changes
    only if the user edits that frame: editing a result never shows in an argument, nor the other way round. *)
Theorem c183_sessions_partial : forall F pd groups is_empty some_missing ea er el elr cs s,
  separate F s -> Forall (fun c => ~ normalizes c) cs ->
  let s' := session F pd groups is_empty some_missing ea er el elr cs s in
  separate F s' /\ (exists l, fst s' = fst s ++ l)
  /\ forall i, i < length (fst s) -> Forall (fun c => ~ edits i c) cs -> content F s' i = content F s i.
Proof. exact session_lemma. Qed.
Print Assumptions c183_sessions_partial.

(** A call gives the same result later in the session as at once, if the user did not edit its arguments. *)
Theorem c183_later_partial : forall F pd groups is_empty some_missing ea er el elr cs s c,
  separate F s -> Forall (fun c => ~ normalizes c) (c :: cs) ->
  Forall (fun i => i < length (fst s) /\ Forall (fun c => ~ edits i c) cs) (operands c) ->
  let later := session F pd groups is_empty some_missing ea er el elr in
  content F (later [c] (later cs s)) (length (fst (later cs s))) = content F (later [c] s) (length (fst s)).
Proof. exact later_lemma. Qed.
Print Assumptions c183_later_partial.

(** normalize_geometry changes the frame it is given and returns that very frame. *)
Theorem c183_normalize_refuted : forall F pd (h : heap F) a f, pd SplitGeometry [at_ F h a] = Ok f -> a < next F h ->
  exists h', normalize_frame F pd a h = (Ok a, h') /\ at_ F h' a = f /\ (forall b, b <> a -> at_ F h' b = at_ F h b) /\ next F h' = next F h.
Proof. exact normalize_lemma. Qed.
Print Assumptions c183_normalize_refuted.

(** A pandas that counts operations on numbers; frame 0 holds 5 and frame 1 holds 7.  Aggregating, reducing and
    gridding adds three frames and leaves both as they were; normalizing frame 0 changes it. *)
Definition count_pd (o : op) (l : list nat) : pyres nat := Ok (S (fold_left Nat.add l 0)).
Definition count_session := session nat count_pd (fun _ f => Ok [f; f]) (fun f => Nat.eqb f 0) (fun _ => true) 0 0 0 0.
Definition count_start : list nat * heap nat := ([0; 1], mk_heap nat 2 (fun a => if Nat.eqb a 0 then 5 else 7)).
Example c183_witness : separate nat count_start
  /\ map (content nat (count_session [Aggregate 0; Reduce 2; Grid 3 1; Edit 3 0] count_start)) [0; 1; 2; 3; 4; 5]
     = [Some 5; Some 7; Some 22; Some 30; Some 74; None]
  /\ content nat (count_session [Normalize 0] count_start) 0 = Some 6
  /\ content nat (count_session [Normalize 0; Edit 2 0] count_start) 0 = Some 7.
Proof.
  split; [split; cbn; [constructor; [cbn; lia|constructor; [cbn; lia|constructor]]|repeat constructor]|].
  repeat split; vm_compute; reflexivity.
Qed.
