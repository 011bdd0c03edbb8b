(** C188, C189: conditions reported with observations. *)
From Coq Require Import String Reals ZArith List Bool Sorting.Permutation Sorting.Sorted.
From Verif Require Import Base Instr_Model Coverage_Model Coverage_Spec Epoch_Model Seen_Model Whole_Spec Seen_Spec Seen_Proofs Seen_Proofs2 Epoch_Spec Epoch_Props Seen_Proofs3 Seen_Proofs4.
Import ListNotations.
Open Scope Z_scope.

(** C188: the angles and lighting of every row are those of its own epoch and meet the requirements of the instrument, and the
    footprint at that epoch contains the point. *)
Theorem c188_conditions : forall argsort find_events sat_seen sunlit sun_seen hour_angle footprint o pid sat inst a q start end_ maxacc omit rows,
  collect_seen argsort find_events sat_seen sunlit sun_seen hour_angle footprint o pid sat inst a q start end_ maxacc omit = Ok rows ->
  forall r, In r rows -> own_conditions o sat_seen sunlit sun_seen hour_angle r /\ meets q r /\ (s_sun r = None <-> omit = true)
    /\ (forall c, footprint = Some c -> forall st, orbit_track (so_epochs o) (so_repeat_track o) (so_cycle o) [o_epoch (s_obs r)] = [st] -> c st = true).
Proof. exact conditions_lemma. Qed.
Print Assumptions c188_conditions.

(** C188: leaving the solar columns out changes nothing else. *)
Theorem c188_omit : forall argsort find_events sat_seen sunlit sun_seen hour_angle footprint o pid sat inst a q start end_ maxacc rows,
  collect_seen argsort find_events sat_seen sunlit sun_seen hour_angle footprint o pid sat inst a q start end_ maxacc false = Ok rows ->
  collect_seen argsort find_events sat_seen sunlit sun_seen hour_angle footprint o pid sat inst a q start end_ maxacc true = Ok (map without_sun rows).
Proof. exact omit_lemma. Qed.
Print Assumptions c188_omit.

(** C188: the rows of several satellites and instruments, with their conditions, are those of each. *)
Theorem c188_multi : forall (C S : Type) srt (members : C -> list S) n_inst collect sats out,
  is_sort (fun r => o_start (s_obs r)) srt -> collect_multi_seen srt members n_inst collect sats = Ok out ->
  StronglySorted (key_le (fun r => o_start (s_obs r))) out /\
  forall r, In r out <-> some_instrument sats members n_inst (fun s i => exists rows, collect s i = Ok rows /\ In r rows).
Proof. exact @multi_rows_lemma. Qed.
Print Assumptions c188_multi.
(** C188: also without the solar columns. *)
Theorem c188_multi_omit : forall (C S : Type) srt srt' (members : C -> list S) n_inst (collect : bool -> S -> nat -> pyres (list seen)) sats out,
  is_sort (fun r => o_start (s_obs r)) srt -> is_sort (fun r => o_start (s_obs r)) srt' ->
  (forall s i rows, collect false s i = Ok rows -> collect true s i = Ok (map without_sun rows)) ->
  collect_multi_seen srt members n_inst (collect false) sats = Ok out ->
  exists out', collect_multi_seen srt' members n_inst (collect true) sats = Ok out' /\ Permutation out' (map without_sun out).
Proof. exact @multi_omit_lemma. Qed.
Print Assumptions c188_multi_omit.
(** C188: where each instrument can be collected, the rows of several can, unless there is no instrument at all. *)
Theorem c188_multi_nothing : forall (C S : Type) srt (members : C -> list S) n_inst collect sats,
  (forall s i, exists rows, collect s i = Ok rows) ->
  (collect_multi_seen srt members n_inst collect sats = Raise ValueError <-> forall c s, In c sats -> In s (members c) -> n_inst s = 0%nat)
  /\ ((exists out, collect_multi_seen srt members n_inst collect sats = Ok out) <-> exists c s, In c sats /\ In s (members c) /\ (0 < n_inst s)%nat).
Proof. exact @multi_fails_lemma. Qed.
Print Assumptions c188_multi_nothing.
(** Satellites with two instruments and with none. *)
Example c188_multi_nothing_witness :
  (forall (s i : nat), exists rows : list seen, (fun _ _ => Ok []) s i = Ok rows)
  /\ collect_multi_seen (fun l => l) (fun c : nat => [c]) (fun s => s) (fun _ _ => Ok []) [0%nat; 2%nat] = Ok []
  /\ collect_multi_seen (fun l => l) (fun c : nat => [c]) (fun s => s) (fun _ _ => Ok []) [0%nat; 0%nat] = Raise ValueError.
Proof. split; [intros _ _; exists []; reflexivity|]. split; reflexivity. Qed.

(** Two passes; the sun is up during the second only, which the instrument requires. *)
Example c188_witness :
  let sun t := if t <? 50 then ((-20)%R, 90%R) else (40%R, 120%R) in
  let get sunlit := collect_seen (fun l => seq 0 (length l)) (fun _ _ _ => ([10; 20; 60; 70], [0; 2; 0; 2])) (fun st t => (45%R, 10%R)) sunlit
    sun (fun _ => 1%R) None (mk_source [0] false false None) 1 "s" "i" {| acc_fixed := false; acc_min := 0 |} (mk_req (Some true) (Some true)) 0 100 20 false in
  get (fun _ _ => true) = Ok [mk_seen (mk_obs 1 "s" "i" 60 65 70) (45%R, 10%R) (Some (true, (40%R, 120%R), (1 + 12)%R))]
  /\ get (fun st _ => snd st <? 50) = Ok [].
Proof. exact seen_witness. Qed.

(** C189: with one element set and no repeat cycle, every row reports the satellite at or above the elevation the events are
    for. *)
Theorem c189_elevation_partial : forall argsort find_events sat_seen sunlit sun_seen hour_angle footprint o pid sat inst a q start end_ maxacc omit theta rows,
  start < end_ -> (length (so_epochs o) <= 1)%nat ->
  so_repeat_events o = false \/ so_cycle o = None -> so_repeat_track o = false \/ so_cycle o = None ->
  tells start end_ maxacc theta (fun t => fst (sat_seen (0%nat, t) t)) (event_list (find_events 0%nat start end_)) ->
  collect_seen argsort find_events sat_seen sunlit sun_seen hour_angle footprint o pid sat inst a q start end_ maxacc omit = Ok rows ->
  Forall (fun r => (theta <= fst (s_sat r))%R) rows.
Proof. exact elevation_lemma. Qed.
Print Assumptions c189_elevation_partial.

(** C189: so does every row with repeat cycles for events and tracks, which is the default, for a satellite that does repeat its
    altitudes with the cycle. *)
Theorem c189_repeat_partial : forall argsort find_events sat_seen sunlit sun_seen hour_angle footprint o e0 c pid sat inst a q start end_ maxacc omit theta alt rows,
  start < end_ -> so_epochs o = [e0] -> so_repeat_events o = true -> so_repeat_track o = true -> so_cycle o = Some c -> 0 < c ->
  (forall t, alt (t + c) = alt t) -> (forall t, start <= t < end_ -> fst (sat_seen (0%nat, fold_time e0 c t) t) = alt t) ->
  (c < end_ - start -> length (fst (find_events 0%nat start (start + c))) = length (snd (find_events 0%nat start (start + c)))
     /\ cycle_tells start c maxacc theta alt (event_list (find_events 0%nat start (start + c)))) ->
  (end_ - start <= c -> tells start end_ maxacc theta alt (event_list (find_events 0%nat start end_))) ->
  collect_seen argsort find_events sat_seen sunlit sun_seen hour_angle footprint o pid sat inst a q start end_ maxacc omit = Ok rows ->
  Forall (fun r => (theta <= fst (s_sat r))%R) rows.
Proof. exact elevation_repeat. Qed.
Print Assumptions c189_repeat_partial.

(** C189: so does every row of several element sets that agree on the altitudes, each giving the same events. *)
Theorem c189_agreeing_partial : forall argsort find_events sat_seen sunlit sun_seen hour_angle footprint o pid sat inst a q start end_ maxacc omit theta alt ev rows,
  is_argsort argsort -> StronglySorted Z.le (so_epochs o) -> (1 < length (so_epochs o))%nat -> start < end_ ->
  tells start end_ maxacc theta alt ev -> Forall (fun x => fst x < end_) ev ->
  (forall i t, (i < length (so_epochs o))%nat -> start <= t < end_ -> fst (sat_seen (i, t) t) = alt t) ->
  (forall i s e, (i < length (so_epochs o))%nat -> start <= s <= e -> e <= end_ ->
     length (fst (find_events i s e)) = length (snd (find_events i s e))
     /\ event_list (find_events i s e) = filter (fun x => (s <=? fst x) && (fst x <? e)) ev) ->
  collect_seen argsort find_events sat_seen sunlit sun_seen hour_angle footprint o pid sat inst a q start end_ maxacc omit = Ok rows ->
  Forall (fun r => (theta <= fst (s_sat r))%R) rows.
Proof. exact elevation_agreeing. Qed.
Print Assumptions c189_agreeing_partial.

(** C189: with several element sets the events of a segment are those of another element set than the track, and the satellite can
    be reported far below. *)
Theorem c189_several_refuted : exists argsort find_events sat_seen sunlit sun_seen hour_angle o a q theta rows r,
  (forall i s e, In (i, s, e) [(0%nat, 10, 50); (0%nat, 50, 90); (1%nat, 10, 50); (1%nat, 50, 90)] ->
     tells s e 20 theta (fun t => fst (sat_seen (i, t) t)) (event_list (find_events i s e))) /\
  fst (partition_by_tle_index argsort (so_epochs o) 10 90) = [10; 50; 90] /\
  collect_seen argsort find_events sat_seen sunlit sun_seen hour_angle None o 1 "s" "i" a q 10 90 20 true = Ok rows /\
  In r rows /\ (fst (s_sat r) < theta - 60)%R.
Proof. exact elevation_multi. Qed.
Print Assumptions c189_several_refuted.

(** C189: so it can with a repeat cycle for the events but not for the track. *)
Theorem c189_cycle_refuted : exists argsort find_events sat_seen sunlit sun_seen hour_angle o a q theta rows r,
  length (so_epochs o) = 1%nat /\ so_repeat_track o = false /\
  tells 0 50 20 theta (fun t => fst (sat_seen (0%nat, t) t)) (event_list (find_events 0%nat 0 50)) /\
  tells 0 100 20 theta (fun t => fst (sat_seen (0%nat, t) t)) (event_list (find_events 0%nat 0 100)) /\
  collect_seen argsort find_events sat_seen sunlit sun_seen hour_angle None o 1 "s" "i" a q 0 100 20 true = Ok rows /\
  In r rows /\ (fst (s_sat r) < theta)%R.
Proof. exact elevation_cycle. Qed.
Print Assumptions c189_cycle_refuted.

(** A pass from 10 to 20 and the end of one before it, seen at 30 degrees. *)
Example c189_witness : tells 0 100 20 10 (fun t => if (t <=? 5) || ((10 <=? t) && (t <=? 20)) then 30 else 0)%R (event_list ([5; 10; 20], [2; 0; 2])).
Proof. exact tells_witness. Qed.
(** A cycle of 50 with a pass across its seam. *)
Example c189_cycle_witness : cycle_tells 0 50 20 10 (fun t => if ((t mod 50) <=? 5) || (45 <=? t mod 50) then 30 else 0)%R (event_list ([5; 45], [2; 0])).
Proof. exact cycle_witness. Qed.
(** Two element sets and a pass across the instant halfway between their epochs. *)
Example c189_agreeing_witness : tells 10 90 20 10 (fun t => if (40 <=? t) && (t <=? 60) then 30 else 0)%R (event_list ([40; 60], [0; 2]))
  /\ Forall (fun x => fst x < 90) (event_list ([40; 60], [0; 2]))
  /\ (forall i s e, length (fst (pass_events i s e)) = length (snd (pass_events i s e))
       /\ event_list (pass_events i s e) = filter (fun x => (s <=? fst x) && (fst x <? e)) (event_list ([40; 60], [0; 2])))
  /\ partition_by_tle_index argsort_ref [0; 100] 10 90 = ([10; 50; 90], [0; 0; 1]%nat)
  /\ get_observation_events pass_events argsort_ref [0; 100] true None 10 90 = ([40; 60], [0; 2])
  /\ visible_intervals 10 90 20 (event_list ([40; 60], [0; 2])) = Ok [(40, 60)].
Proof. exact agreeing_witness. Qed.
