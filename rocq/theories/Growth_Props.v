(** Property theorems C153-C157: how the results of coverage and latency
    analyses change with their inputs. *)
From Coq Require Import String ZArith QArith List Bool Sorting.Sorted Sorting.Permutation Lia.
From Verif Require Import Base BaseFacts Coverage_Model Coverage_Spec Latency_Model Latency_Spec
  Growth_Spec Growth_Proofs.
Import ListNotations.
Open Scope Z_scope.

(** *** C153 *)

Theorem c153_more_observations_cover_more : forall srt srt' rows rows' p t,
  is_sort o_start srt -> is_sort o_start srt' -> proper rows -> proper rows' ->
  (forall o, In o rows -> o_point o = p -> In o rows') ->
  covered (agg_intervals p (aggregate_observations srt rows)) t ->
  covered (agg_intervals p (aggregate_observations srt' rows')) t.
Proof. exact covered_incl. Qed.
Print Assumptions c153_more_observations_cover_more.

Theorem c153_more_observations_more_access : forall srt srt' rows rows' p,
  is_sort o_start srt -> is_sort o_start srt' -> proper rows -> proper rows' ->
  (forall o, In o rows -> o_point o = p -> In o rows') ->
  total_access p (aggregate_observations srt rows)
  <= total_access p (aggregate_observations srt' rows').
Proof. exact total_access_incl. Qed.
Print Assumptions c153_more_observations_more_access.

(** Every gap between two records that lies between the first and the last
    original observation is inside an original gap. *)
Theorem c153_more_observations_shorter_gaps : forall srt srt' rows rows' p a' g',
  is_sort o_start srt -> is_sort o_start srt' -> proper rows -> proper rows' ->
  (forall o, In o rows -> o_point o = p -> In o rows') ->
  In a' (rows_of p (aggregate_observations srt' rows')) -> a_revisit a' = Some g' ->
  (exists o, In o rows /\ o_point o = p /\ o_start o <= a_start a' - g') ->
  (exists o, In o rows /\ o_point o = p /\ a_start a' <= o_end o) ->
  exists a g, In a (rows_of p (aggregate_observations srt rows)) /\ a_revisit a = Some g
    /\ g' <= g /\ a_start a - g <= a_start a' - g' /\ a_start a' <= a_start a.
Proof. exact gap_incl. Qed.
Print Assumptions c153_more_observations_shorter_gaps.

Theorem c153_more_satellites_more_observations :
  forall {C S} srt srt' (members : C -> list S) n_inst collect sats sats' out out',
  is_sort o_start srt -> is_sort o_start srt' -> incl sats sats' ->
  collect_multi_observations srt members n_inst collect sats = Ok out ->
  collect_multi_observations srt' members n_inst collect sats' = Ok out' ->
  incl out out'.
Proof. exact @multi_incl. Qed.
Print Assumptions c153_more_satellites_more_observations.

Definition c153_rows : list obs :=
  [mk_obs 1 "A" "i" 0 1 2; mk_obs 1 "A" "i" 4 5 6; mk_obs 1 "A" "i" 100 101 102].
Definition c153_more : list obs := mk_obs 1 "B" "i" 50 51 52 :: c153_rows.

Example c153_witness :
  proper c153_rows /\ proper c153_more
  /\ (forall o, In o c153_rows -> o_point o = 1 -> In o c153_more)
  /\ map (fun a => (a_access a, a_revisit a)) (rows_of 1 (aggregate_observations (sort_by o_start) c153_rows))
     = [(2, None); (2, Some 2); (2, Some 94)]
  /\ map (fun a => (a_access a, a_revisit a)) (rows_of 1 (aggregate_observations (sort_by o_start) c153_more))
     = [(2, None); (2, Some 2); (2, Some 44); (2, Some 48)]
  /\ total_access 1 (aggregate_observations (sort_by o_start) c153_rows) = 6
  /\ total_access 1 (aggregate_observations (sort_by o_start) c153_more) = 8.
Proof.
  split; [repeat constructor; cbn; lia|]. split; [repeat constructor; cbn; lia|].
  split; [intros o H _; now right|]. repeat split; reflexivity.
Qed.

(** The reported revisit is the mean of the gaps: an additional observation that
    closes a short gap increases it. *)
Theorem c153_more_observations_mean_revisit_refuted :
  exists rows o r r' m m',
    proper (o :: rows)
    /\ (exists x y, In x rows /\ In y rows /\ o_start x <= o_start o /\ o_end o <= o_end y)
    /\ In r (reduce_observations (aggregate_observations (sort_by o_start) rows))
    /\ In r' (reduce_observations (aggregate_observations (sort_by o_start) (o :: rows)))
    /\ r_point r = o_point o /\ r_point r' = o_point o
    /\ r_revisit r = Some m /\ r_revisit r' = Some m' /\ (m < m')%Q.
Proof.
  exists c153_rows, (mk_obs 1 "B" "i" 2 3 4).
  exists (hd (mk_red 0 0 None 0) (reduce_observations (aggregate_observations (sort_by o_start) c153_rows))).
  exists (hd (mk_red 0 0 None 0) (reduce_observations
            (aggregate_observations (sort_by o_start) (mk_obs 1 "B" "i" 2 3 4 :: c153_rows)))).
  exists (96 / 2)%Q, (94 / 1)%Q.
  split; [repeat constructor; cbn; lia|].
  split; [exists (mk_obs 1 "A" "i" 0 1 2), (mk_obs 1 "A" "i" 100 101 102); cbn; intuition lia|].
  repeat split; try (left; reflexivity); reflexivity.
Qed.
Print Assumptions c153_more_observations_mean_revisit_refuted.

(** *** C154 *)

Theorem c154_more_downlinks_sooner_contact_partial :
  forall srt_o srt_d srt_l srt_o' srt_d' srt_l' rows downs downs' row v,
  is_sort o_end srt_o -> is_sort d_start srt_d -> is_sort l_observed srt_l ->
  is_sort o_end srt_o' -> is_sort d_start srt_d' -> is_sort l_observed srt_l' ->
  incl downs downs' ->
  In row (compute_latencies srt_o srt_d srt_l rows downs) -> l_latency row = Some v ->
  exists row' v' d d', In row' (compute_latencies srt_o' srt_d' srt_l' rows downs')
    /\ l_point row' = l_point row /\ l_sat row' = l_sat row /\ l_inst row' = l_inst row
    /\ l_observed row' = l_observed row
    /\ l_latency row' = Some v'
    /\ In d downs /\ l_downlinked row = Some (d_epoch d) /\ d_sat d = l_sat row
    /\ In d' downs' /\ l_downlinked row' = Some (d_epoch d') /\ d_sat d' = l_sat row
    /\ d_start d' <= d_start d
    /\ (no_overtaking downs' -> v' <= v).
Proof. exact latency_incl. Qed.
Print Assumptions c154_more_downlinks_sooner_contact_partial.

Theorem c154_more_stations_more_downlinks : forall srt srt' sat periods stations stations',
  is_sort d_start srt -> is_sort d_start srt' -> incl stations stations' ->
  incl (collect_downlinks srt sat periods stations) (collect_downlinks srt' sat periods stations').
Proof. exact downlinks_incl. Qed.
Print Assumptions c154_more_stations_more_downlinks.

Definition c154_stations := [mk_station "a" 0; mk_station "b" 0].
Definition c154_periods (s : station) : list (Z * Z) :=
  if String.eqb (st_name s) "a" then [(80, 90)] else [(20, 40); (60, 70)].

Example c154_witness :
  collect_downlinks (sort_by d_start) "s" c154_periods [mk_station "a" 0]
  = [mk_down "a" "s" 80 90 85]
  /\ collect_downlinks (sort_by d_start) "s" c154_periods c154_stations
     = [mk_down "b" "s" 20 40 30; mk_down "b" "s" 60 70 65; mk_down "a" "s" 80 90 85]
  /\ no_overtaking (collect_downlinks (sort_by d_start) "s" c154_periods c154_stations)
  /\ map l_latency (compute_latencies (sort_by o_end) (sort_by d_start) (sort_by l_observed)
       [mk_obs 1 "s" "i" 40 45 50] [mk_down "a" "s" 80 90 85]) = [Some 40].
Proof.
  split; [reflexivity|]. split; [reflexivity|]. split; [|reflexivity].
  intros d d' H H' _. cbn in H, H'.
  repeat (destruct H as [<- | H]); try easy; repeat (destruct H' as [<- | H']); try easy; cbn; lia.
Qed.

(** An additional station whose pass starts earlier but lasts longer postpones the
    reported downlink, the middle of the chosen pass. *)
Theorem c154_more_stations_latency_refuted :
  exists sat periods stations stations' o v v',
    incl stations stations'
    /\ (forall s i, In s stations' -> In i (periods s) -> fst i < snd i)
    /\ map l_latency (compute_latencies (sort_by o_end) (sort_by d_start) (sort_by l_observed) [o]
         (collect_downlinks (sort_by d_start) sat periods stations)) = [Some v]
    /\ map l_latency (compute_latencies (sort_by o_end) (sort_by d_start) (sort_by l_observed) [o]
         (collect_downlinks (sort_by d_start) sat periods stations')) = [Some v']
    /\ v < v'.
Proof.
  exists "s"%string,
    (fun s => if String.eqb (st_name s) "a" then [(100, 104)] else [(90, 150)]),
    [mk_station "a" 0], [mk_station "a" 0; mk_station "b" 0],
    (mk_obs 1 "s" "i" 40 45 50), 57, 75.
  split; [intros x [<- | []]; now left|].
  split.
  - intros s i [<- | [<- | []]] H; cbn in H; destruct H as [<- | []]; cbn; lia.
  - repeat split; try reflexivity; lia.
Qed.
Print Assumptions c154_more_stations_latency_refuted.

(** *** C155 *)

Theorem c155_stricter_requirements_remove_observations :
  forall pid sat inst a a' valid valid' fp fp' periods,
  acc_fixed a' = acc_fixed a -> (acc_fixed a = true -> acc_min a' = acc_min a) ->
  acc_min a <= acc_min a' ->
  (forall t, valid' t = true -> valid t = true) ->
  (forall t c, fp = Some c -> exists c', fp' = Some c' /\ (c' t = true -> c t = true)) ->
  sublist (collect_observations pid sat inst a' valid' fp' periods)
          (collect_observations pid sat inst a valid fp periods).
Proof. exact stricter_lemma. Qed.
Print Assumptions c155_stricter_requirements_remove_observations.

Example c155_witness :
  let a := {| acc_fixed := false; acc_min := 2 |} in
  let a' := {| acc_fixed := false; acc_min := 4 |} in
  collect_observations 7 "s" "i" a (fun t => t <? 20) None [(0, 1); (0, 4); (4, 7); (10, 20); (18, 30)]
  = [mk_obs 7 "s" "i" 0 2 4; mk_obs 7 "s" "i" 4 5 7; mk_obs 7 "s" "i" 10 15 20]
  /\ collect_observations 7 "s" "i" a' (fun t => t <? 20) (Some (fun t => 10 <? t))
       [(0, 1); (0, 4); (4, 7); (10, 20); (18, 30)]
     = [mk_obs 7 "s" "i" 10 15 20].
Proof. split; reflexivity. Qed.

(** With a fixed access time a longer minimum lengthens the observations that
    remain, so the total access time can grow. *)
Theorem c155_longer_fixed_access_refuted :
  exists pid sat inst m m' periods,
    0 <= m <= m'
    /\ total_access pid (aggregate_observations (sort_by o_start)
         (collect_observations pid sat inst {| acc_fixed := true; acc_min := m |} (fun _ => true) None periods))
       < total_access pid (aggregate_observations (sort_by o_start)
         (collect_observations pid sat inst {| acc_fixed := true; acc_min := m' |} (fun _ => true) None periods)).
Proof.
  exists 1, "s"%string, "i"%string, 2, 6, [(0, 10)]. split; [lia|]. reflexivity.
Qed.
Print Assumptions c155_longer_fixed_access_refuted.

(** *** C156 *)

Theorem c156_split_period_partial : forall start mid end_ maxacc ev1 ev2 b,
  start <= mid <= end_ -> ev1 <> [] -> ev2 <> [] ->
  chronological (ev1 ++ ev2) -> in_window start mid ev1 -> in_window (mid + 1) end_ ev2 ->
  alternates b (ev1 ++ ev2) -> short_passes (2 * maxacc) None (ev1 ++ ev2) ->
  exists iv iv1 iv2,
    visible_intervals start end_ maxacc (ev1 ++ ev2) = Ok iv
    /\ visible_intervals start mid maxacc ev1 = Ok iv1
    /\ visible_intervals mid end_ maxacc ev2 = Ok iv2
    /\ forall t, start < t <= end_ -> (in_some iv t <-> in_some iv1 t \/ in_some iv2 t).
Proof. exact split_lemma. Qed.
Print Assumptions c156_split_period_partial.

Example c156_witness :
  let ev1 := [(3, SetEv); (10, Rise)] in
  let ev2 := [(12, Culminate); (15, SetEv); (20, Rise); (22, Culminate)] in
  chronological (ev1 ++ ev2) /\ in_window 0 11 ev1 /\ in_window (11 + 1) 25 ev2
  /\ alternates true (ev1 ++ ev2) /\ short_passes (2 * 3) None (ev1 ++ ev2)
  /\ visible_intervals 0 25 3 (ev1 ++ ev2) = Ok [(0, 3); (10, 15); (20, 25)]
  /\ visible_intervals 0 11 3 ev1 = Ok [(0, 3); (10, 11)]
  /\ visible_intervals 11 25 3 ev2 = Ok [(11, 15); (20, 25)].
Proof.
  repeat split; try reflexivity; repeat constructor; cbn; lia.
Qed.

(** A part of the period without events is reported as invisible: splitting can
    lose a pass, and with it the observation. *)
Theorem c156_split_period_refuted :
  exists start mid end_ maxacc ev1 ev2 t iv,
    start <= mid <= end_ /\ start < t <= end_
    /\ chronological (ev1 ++ ev2) /\ in_window start mid ev1 /\ in_window (mid + 1) end_ ev2
    /\ alternates true (ev1 ++ ev2) /\ short_passes (2 * maxacc) None (ev1 ++ ev2)
    /\ visible_intervals start end_ maxacc (ev1 ++ ev2) = Ok iv /\ in_some iv t
    /\ (forall iv1, visible_intervals start mid maxacc ev1 = Ok iv1 -> ~ in_some iv1 t)
    /\ (forall iv2, visible_intervals mid end_ maxacc ev2 = Ok iv2 -> ~ in_some iv2 t).
Proof.
  exists 0, 10, 100, 20, [], [(30, SetEv)], 5, [(0, 30)].
  split; [lia|]. split; [lia|].
  split; [repeat constructor|]. split; [constructor|]. split; [repeat constructor; cbn; lia|].
  split; [repeat constructor|]. split; [repeat constructor|]. split; [reflexivity|].
  split; [exists (0, 30); cbn; intuition lia|].
  split; intros iv' E; cbn in E; injection E as <-; intros (i & H & L); cbn in H;
    repeat (destruct H as [<- | H]); try easy; cbn in L; lia.
Qed.
Print Assumptions c156_split_period_refuted.

(** *** C157 *)

Theorem c157_later_visibility : forall d start end_ maxacc ev,
  visible_intervals (start + d) (end_ + d) maxacc (later_events d ev)
  = match visible_intervals start end_ maxacc ev with
    | Ok iv => Ok (later_intervals d iv)
    | Raise e => Raise e
    end.
Proof. exact visible_later. Qed.
Print Assumptions c157_later_visibility.

Theorem c157_later_observations : forall d pid sat inst a valid fp periods,
  collect_observations pid sat inst a (fun t => valid (t - d))
    (option_map (fun c t => c (t - d)) fp) (later_intervals d periods)
  = map (later_obs d) (collect_observations pid sat inst a valid fp periods).
Proof. exact collect_later. Qed.
Print Assumptions c157_later_observations.

Theorem c157_later_aggregation : forall srt srt' d rows p,
  is_sort o_start srt -> is_sort o_start srt' -> proper rows ->
  agg_intervals p (aggregate_observations srt' (map (later_obs d) rows))
  = later_intervals d (agg_intervals p (aggregate_observations srt rows)).
Proof. exact aggregate_later. Qed.
Print Assumptions c157_later_aggregation.

Theorem c157_later_access_and_revisit : forall srt srt' d rows p,
  is_sort o_start srt -> is_sort o_start srt' -> proper rows ->
  map (fun a => (a_access a, a_revisit a))
    (rows_of p (aggregate_observations srt' (map (later_obs d) rows)))
  = map (fun a => (a_access a, a_revisit a)) (rows_of p (aggregate_observations srt rows)).
Proof. exact aggregate_later_columns. Qed.
Print Assumptions c157_later_access_and_revisit.

Example c157_witness :
  agg_intervals 1 (aggregate_observations (sort_by o_start) (map (later_obs 1000) c153_rows))
  = [(1000, 1002); (1004, 1006); (1100, 1102)]
  /\ visible_intervals 1000 1025 3 (later_events 1000 [(3, SetEv); (10, Rise); (15, SetEv)])
     = Ok [(1000, 1003); (1010, 1015)].
Proof. split; reflexivity. Qed.
