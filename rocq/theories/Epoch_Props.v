(** Property theorems C06-C13, C102: TLE selection, partition, repeat cycles, events. *)
From Coq Require Import ZArith QArith List Bool Sorting.Sorted Sorting.Permutation Lia.
From Verif Require Import Base BaseFacts Coverage_Model Epoch_Model Epoch_Spec Epoch_Proofs.
Import ListNotations.
Open Scope Z_scope.

(** A reference argsort (stable), for the examples. *)
Definition argsort_ref (es : list Z) : list nat := map snd (sort_by fst (combine es (seq 0 (length es)))).
Lemma argsort_ref_ok : is_argsort argsort_ref.
Proof. exact argsort_ref_lemma. Qed.

(** *** C06 *)
Theorem c06_closest_tle : forall es t, es <> [] -> StronglySorted Z.le es ->
  exists i, get_closest_tle_index es (AtOne t) = IOne i /\ nearest es t i.
Proof. exact closest_one_lemma. Qed.
Print Assumptions c06_closest_tle.

Theorem c06_closest_tle_list : forall es ts, es <> [] -> StronglySorted Z.le es ->
  exists is, get_closest_tle_index es (AtList ts) = IList is /\ Forall2 (nearest es) ts is
    /\ Forall2 (fun t i => get_closest_tle_index es (AtOne t) = IOne i) ts is.
Proof. exact closest_list_lemma. Qed.
Print Assumptions c06_closest_tle_list.

(** With several TLEs the orbit track evaluates every requested time, in order, with a nearest TLE. *)
Theorem c06_track_uses_closest : forall es tr cyc ts, (1 < length es)%nat -> StronglySorted Z.le es ->
  Forall2 (fun t p => snd p = t /\ nearest es t (fst p)) ts (orbit_track es tr cyc ts).
Proof. exact track_closest_lemma. Qed.
Print Assumptions c06_track_uses_closest.

Example c06_witness : StronglySorted Z.le [0; 100; 100; 300]
  /\ map (closest [0; 100; 100; 300]) [-5; 49; 50; 100; 201; 900] = [0; 0; 1; 1; 3; 3]%nat.
Proof. split; [repeat constructor; lia|reflexivity]. Qed.

(** *** C07 *)
Theorem c07_partition : forall argsort es start end_ ts is,
  is_argsort argsort -> es <> [] -> StronglySorted Z.le es -> start <= end_ ->
  partition_by_tle_index argsort es start end_ = (ts, is) ->
  (exists ms, consecutive_midpoints es ms /\
     ts = start :: filter (fun m => (start <? m) && (m <? end_)) ms ++ [end_])
  /\ StronglySorted Z.le ts /\ length is = length ts
  /\ Forall (fun i => (i < length es)%nat) is.
Proof. exact partition_lemma. Qed.
Print Assumptions c07_partition.

Example c07_witness : is_argsort argsort_ref
  /\ partition_by_tle_index argsort_ref [0; 100; 200; 301] 10 260
     = ([10; 50; 150; 251; 260], [0; 0; 1; 2; 3]%nat).
Proof. split; [exact argsort_ref_ok|vm_compute; reflexivity]. Qed.

(** *** C08 *)
(** The claim: every instant of a segment is nearest to the segment's TLE.  It fails. *)
Theorem c08_partition_closest_refuted : exists argsort es start end_ ts is k t i e e',
  is_argsort argsort /\ StronglySorted Z.lt es /\ start < end_
  /\ partition_by_tle_index argsort es start end_ = (ts, is)
  /\ nth k ts 0 < t < nth (S k) ts 0 /\ nth_error is k = Some i /\ nth_error es i = Some e
  /\ In e' es /\ Z.abs (t - e') < Z.abs (t - e).
Proof. exact partition_refuted. Qed.
Print Assumptions c08_partition_closest_refuted.

(** It fails in every segment but the first: strictly past the segment's first instant the
    following TLE is strictly closer. *)
Theorem c08_later_segments_never_closest : forall argsort es start end_ ts is k t0 i,
  is_argsort argsort -> StronglySorted Z.lt es -> (1 < length es)%nat ->
  partition_by_tle_index argsort es start end_ = (ts, is) ->
  (S k < length ts - 1)%nat -> nth_error ts (S k) = Some t0 -> nth_error is (S k) = Some i ->
  exists e e', nth_error es i = Some e /\ nth_error es (S i) = Some e'
    /\ forall t, t0 < t -> Z.abs (t - e') < Z.abs (t - e).
Proof. exact later_segment_lemma. Qed.
Print Assumptions c08_later_segments_never_closest.

(** It holds in the first segment, for epochs an even number of microseconds apart
    (TLE epochs are multiples of 864 microseconds). *)
Theorem c08_first_segment_closest_partial : forall argsort es start end_ ts is t1 t,
  es <> [] -> StronglySorted Z.le es ->
  (forall a b, In a es -> In b es -> Z.even (a - b) = true) ->
  partition_by_tle_index argsort es start end_ = (ts, is) ->
  nth_error ts 1 = Some t1 -> start <= t <= t1 -> start <= end_ ->
  exists i e, nth_error is 0 = Some i /\ nth_error es i = Some e
    /\ forall e', In e' es -> Z.abs (t - e) <= Z.abs (t - e').
Proof. exact first_segment_lemma. Qed.
Print Assumptions c08_first_segment_closest_partial.

Example c08_witness : StronglySorted Z.lt [0; 100; 200]
  /\ (forall a b, In a [0; 100; 200] -> In b [0; 100; 200] -> Z.even (a - b) = true)
  /\ partition_by_tle_index argsort_ref [0; 100; 200] (-10) 260 = ([-10; 50; 150; 260], [0; 0; 1; 2]%nat).
Proof.
  split; [repeat constructor; lia|]. split; [|vm_compute; reflexivity].
  intros a b [<-|[<-|[<-|[]]]] [<-|[<-|[<-|[]]]]; reflexivity.
Qed.

(** *** C09 *)
Theorem c09_fold_time : forall epoch c ts, 0 < c ->
  Forall2 (fun t p => let u := snd p in
      fst p = 0%nat
      /\ Z.abs (u - epoch) < c
      /\ (epoch <= t -> epoch <= u) /\ (t <= epoch -> u <= epoch)
      /\ (exists k, 0 <= k /\ t - u = Z.sgn (t - epoch) * (k * c))
      /\ (Z.abs (t - epoch) < c -> u = t))
    ts (orbit_track [epoch] true (Some c) ts).
Proof. exact track_fold_lemma. Qed.
Print Assumptions c09_fold_time.

Theorem c09_no_cycle_no_fold : forall epoch tr cyc ts, tr = false \/ cyc = None ->
  orbit_track [epoch] tr cyc ts = map (fun t => (0%nat, t)) ts.
Proof. exact track_plain_lemma. Qed.
Print Assumptions c09_no_cycle_no_fold.

Example c09_witness : orbit_track [1000] true (Some 30) [1075; 925; 1010; 1000]
  = [(0%nat, 1015); (0%nat, 985); (0%nat, 1010); (0%nat, 1000)].
Proof. reflexivity. Qed.

(** *** C10 *)
Theorem c10_repeat_cycle : forall cfg find epoch a ans,
  (forall el d c, In c (find el d) -> epoch < c_time c) ->
  snd (get_repeat_cycle cfg find epoch None a) = ans ->
  let s := mk_search (match a_dpos a with Some x => x | None => s_dpos (rc_search cfg) end)
             (match a_dvel a with Some x => x | None => s_dvel (rc_search cfg) end)
             (match a_elev a with Some x => x | None => s_elev (rc_search cfg) end)
             (match a_duration a with Some x => x | None => s_duration (rc_search cfg) end) in
  let cs := find (s_elev s) (s_duration s) in
  match ans with
  | Some r => 0 < r /\ exists l1 c l2, cs = l1 ++ c :: l2 /\ admissible s c
                /\ Forall (fun c' => ~ admissible s c') l1 /\ r = c_time c - epoch
  | None => Forall (fun c => ~ admissible s c) cs
  end.
Proof. exact fresh_lemma. Qed.
Print Assumptions c10_repeat_cycle.

Definition c10_cfg := mk_rc (mk_search 100 (1#10) 5 1000) true.
Definition c10_find (el : Q) (d : Z) : list candidate :=
  filter (fun c => c_time c <? d)
    [mk_cand 10 200 (1#20); mk_cand 20 50 (1#10); mk_cand 30 50 (1#20); mk_cand 40 1 (1#50)].
Example c10_witness :
  snd (get_repeat_cycle c10_cfg c10_find 0 None (mk_args None None None None None)) = Some 30
  /\ snd (get_repeat_cycle c10_cfg c10_find 0 None (mk_args None None None (Some 15) None)) = None
  /\ forall el d c, In c (c10_find el d) -> 0 < c_time c.
Proof.
  split; [reflexivity|]. split; [reflexivity|]. intros el d c H.
  apply filter_In in H as [[<-|[<-|[<-|[<-|[]]]]] _]; simpl; lia.
Qed.

(** *** C11 *)
Theorem c11_cycle_history_refuted : exists cfg find epoch l,
  (forall el d c, In c (find el d) -> epoch < c_time c)
  /\ calls cfg find epoch None l <> map (fun a => snd (get_repeat_cycle cfg find epoch None a)) l.
Proof. exact history_refuted. Qed.
Print Assumptions c11_cycle_history_refuted.

(** Histories whose calls all disable laziness, or all search with the same arguments. *)
Theorem c11_cycle_history_not_lazy_partial : forall cfg find epoch cache l,
  Forall (fun a => a_lazy a = Some false \/ (a_lazy a = None /\ rc_lazy cfg = false)) l ->
  calls cfg find epoch cache l = map (fun a => snd (get_repeat_cycle cfg find epoch None a)) l.
Proof. exact calls_eager. Qed.
Print Assumptions c11_cycle_history_not_lazy_partial.

Theorem c11_cycle_history_same_arguments_partial : forall cfg find epoch s l,
  Forall (fun a => effective cfg a = s) l ->
  calls cfg find epoch None l = map (fun a => snd (get_repeat_cycle cfg find epoch None a)) l.
Proof. exact calls_same_lemma. Qed.
Print Assumptions c11_cycle_history_same_arguments_partial.

Example c11_witness : calls c10_cfg c10_find 0 None
   [mk_args None None None (Some 15) (Some false); mk_args None None None None (Some false)] = [None; Some 30]
  /\ calls c10_cfg c10_find 0 None
   [mk_args None None None (Some 15) None; mk_args None None None None None] = [None; None]
  /\ effective c10_cfg (mk_args None None None (Some 1000) (Some true)) = effective c10_cfg (mk_args (Some 100%Q) None None None None).
Proof. repeat split. Qed.

(** *** C12 *)
Theorem c12_repeat_events : forall find_events argsort epoch c start end_,
  (forall i a b, a <= b -> event_table a b (find_events i a b)) -> 0 < c -> c < end_ - start ->
  let out := get_observation_events find_events argsort [epoch] true (Some c) start end_ in
  event_table start end_ out
  /\ forall t e, has_event out t e <->
       t <= end_ /\ exists i t', 0 <= i /\ i * c < end_ - start
          /\ has_event (find_events 0%nat start (start + c)) t' e /\ t = t' + i * c.
Proof. exact events_repeat_lemma. Qed.
Print Assumptions c12_repeat_events.

(** If the events really are periodic, the answer is exactly the events of the window. *)
Theorem c12_repeat_events_periodic : forall find_events argsort epoch c start end_ (P : Z -> Z -> Prop),
  (forall i a b, a <= b -> event_table a b (find_events i a b)) -> 0 < c -> c < end_ - start ->
  (forall t e, P t e <-> P (t + c) e) ->
  (forall t e, has_event (find_events 0%nat start (start + c)) t e <-> start <= t <= start + c /\ P t e) ->
  forall t e, has_event (get_observation_events find_events argsort [epoch] true (Some c) start end_) t e
     <-> start <= t <= end_ /\ P t e.
Proof. exact events_periodic_lemma. Qed.
Print Assumptions c12_repeat_events_periodic.

(** Without a usable repeat cycle the events are those of the window. *)
Theorem c12_no_repeat : forall find_events argsort epoch tr cyc start end_,
  (tr = false \/ cyc = None \/ exists c, cyc = Some c /\ end_ - start <= c) ->
  get_observation_events find_events argsort [epoch] tr cyc start end_ = find_events 0%nat start end_.
Proof. exact events_plain_lemma. Qed.
Print Assumptions c12_no_repeat.

Definition c12_ev (i : nat) (a b : Z) : list Z * list Z :=
  let l := filter (fun p => (a <=? fst p) && (fst p <=? b))
    (flat_map (fun k => [(10 + 50 * Z.of_nat k, 0); (20 + 50 * Z.of_nat k, 1); (30 + 50 * Z.of_nat k, 2)]) (seq 0 9)) in
  (map fst l, map snd l).
Example c12_witness :
  get_observation_events c12_ev argsort_ref [0] true (Some 50) 5 120
  = ([10; 20; 30; 60; 70; 80; 110; 120], [0; 1; 2; 0; 1; 2; 0; 1]).
Proof. vm_compute. reflexivity. Qed.
Example c12_oracle : forall i a b, a <= b -> event_table a b (c12_ev i a b).
Proof. exact c12_oracle_lemma. Qed.

(** *** C13 *)
Theorem c13_multi_events : forall find_events,
  (forall i a b, a <= b -> event_table a b (find_events i a b)) ->
  forall argsort es try_repeat cycle start end_ ts is,
  is_argsort argsort -> (1 < length es)%nat -> StronglySorted Z.le es -> start <= end_ ->
  partition_by_tle_index argsort es start end_ = (ts, is) ->
  event_table start end_ (get_observation_events find_events argsort es try_repeat cycle start end_)
  /\ forall t e, has_event (get_observation_events find_events argsort es try_repeat cycle start end_) t e <->
       exists k i a b, nth_error ts k = Some a /\ nth_error ts (S k) = Some b /\ nth_error is k = Some i
         /\ has_event (find_events i a b) t e.
Proof. exact events_multi_lemma. Qed.
Print Assumptions c13_multi_events.

Example c13_witness :
  get_observation_events c12_ev argsort_ref [0; 100] true (Some 3) 5 120
  = ([10; 20; 30; 60; 70; 80; 110; 120], [0; 1; 2; 0; 1; 2; 0; 1]).
Proof. vm_compute. reflexivity. Qed.

(** *** C102 *)
Theorem c102_closest_reflects_current_tle_refuted : exists (decode : list Z -> list Z) v l1 w t,
  nth 2 (run_actions decode (mk_orbit v None) (l1 ++ [Assign w; Query (AtOne t)])) None
  <> Some (get_closest_tle_index (decode w) (AtOne t)).
Proof. exact stale_epochs_refuted. Qed.
Print Assumptions c102_closest_reflects_current_tle_refuted.

(** Without assignments every query is answered for the current elements. *)
Theorem c102_closest_unassigned_partial : forall (T : Type) (decode : T -> list Z) v l,
  Forall (fun x => match x with Assign _ => False | Query _ => True end) l ->
  run_actions decode (mk_orbit v None) l
  = map (fun x => match x with Query a => Some (get_closest_tle_index (decode v) a) | Assign _ => None end) l.
Proof. exact unassigned_lemma. Qed.
Print Assumptions c102_closest_unassigned_partial.

Example c102_witness : run_actions (fun l : list Z => l) (mk_orbit [0; 10] None)
   [Query AtNone; Query (AtOne 9); Query (AtList [1; 9])]
  = [Some (IOne 0); Some (IOne 1); Some (IList [0; 1]%nat)].
Proof. reflexivity. Qed.
