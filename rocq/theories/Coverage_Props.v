(** Property theorems about coverage analysis (src/tatc/analysis/coverage.py). *)
From Coq Require Import String ZArith QArith List Bool Sorting.Sorted Sorting.Permutation Lia.
From Verif Require Import Base BaseFacts Coverage_Model Coverage_Spec
  Coverage_Proofs1 Coverage_Proofs2 Coverage_Proofs3.
Import ListNotations.
Open Scope Z_scope.

(** *** C52 *)
Theorem c52_visible_intervals_exact : forall start end_ maxacc ev b,
  start <= end_ -> ev <> [] ->
  chronological ev -> in_window start end_ ev -> alternates b ev ->
  short_passes (2 * maxacc) None ev ->
  exists iv, visible_intervals start end_ maxacc ev = Ok iv
    /\ forall t, start < t <= end_ -> (in_some iv t <-> above b ev t = true).
Proof. exact visible_exact_lemma. Qed.
Print Assumptions c52_visible_intervals_exact.

Example c52_witness :
  let ev := [(3, SetEv); (10, Rise); (12, Culminate); (15, SetEv); (20, Rise); (22, Culminate)] in
  0 <= 25 /\ ev <> [] /\ chronological ev /\ in_window 0 25 ev /\ alternates true ev
  /\ short_passes (2 * 3) None ev
  /\ visible_intervals 0 25 3 ev = Ok [(0, 3); (10, 15); (20, 25)].
Proof.
  cbv zeta. unfold chronological, in_window.
  repeat split; try discriminate; try lia; repeat constructor; simpl; try lia; reflexivity.
Qed.

(** *** C53 *)
Theorem c53_visible_intervals_in_window : forall start end_ maxacc ev,
  start <= end_ -> in_window start end_ ev ->
  exists iv, visible_intervals start end_ maxacc ev = Ok iv
    /\ Forall (fun i => start <= fst i /\ fst i <= snd i /\ snd i <= end_
                        /\ (start < end_ -> fst i < snd i)) iv.
Proof. exact visible_general. Qed.
Print Assumptions c53_visible_intervals_in_window.

Theorem c53_visible_intervals_disjoint : forall start end_ maxacc ev b,
  start <= end_ -> ev <> [] ->
  chronological ev -> in_window start end_ ev -> alternates b ev ->
  short_passes (2 * maxacc) None ev ->
  exists iv, visible_intervals start end_ maxacc ev = Ok iv
    /\ disjoint_ordered (filter nonempty_iv iv).
Proof. exact visible_disjoint_lemma. Qed.
Print Assumptions c53_visible_intervals_disjoint.

Theorem c53_visible_intervals_first_set : forall start end_ maxacc ev iv r s,
  chronological ev ->
  visible_intervals start end_ maxacc ev = Ok iv ->
  In (r, s) iv -> In (r, Rise) ev -> In (s, SetEv) ev ->
  start < r -> s < end_ ->
  forall s', In (s', SetEv) ev -> r < s' -> s <= s'.
Proof. exact visible_first_set_lemma. Qed.
Print Assumptions c53_visible_intervals_first_set.

Example c53_witness :
  let ev := [(1, Rise); (2, SetEv); (4, Rise); (7, SetEv)] in
  chronological ev /\ in_window 0 9 ev /\ alternates false ev /\ short_passes (2 * 4) None ev
  /\ visible_intervals 0 9 4 ev = Ok [(1, 2); (4, 7)]
  /\ In (4, 7) [(1, 2); (4, 7)] /\ In (4, Rise) ev /\ In (7, SetEv) ev /\ 0 < 4 /\ 7 < 9.
Proof.
  cbv zeta. unfold chronological, in_window.
  repeat split; try lia; try reflexivity; repeat constructor; simpl; try lia; tauto.
Qed.

(** Without alternation (e.g. after stitching two TLE segments) the intervals
    can overlap. *)
Theorem c53_disjoint_without_alternation_refuted :
  exists start end_ maxacc ev iv,
    start <= end_ /\ chronological ev /\ in_window start end_ ev
    /\ visible_intervals start end_ maxacc ev = Ok iv
    /\ ~ disjoint_ordered (filter nonempty_iv iv).
Proof.
  exists 0, 9, 4, [(1, Rise); (2, Rise); (3, SetEv)], [(1, 3); (2, 3)].
  unfold chronological, in_window.
  split; [lia|]. split; [repeat constructor|]. split; [repeat constructor; simpl; lia|].
  split; [reflexivity|]. intro H. inversion H; subst. inversion H3; subst. simpl in *. lia.
Qed.
Print Assumptions c53_disjoint_without_alternation_refuted.

(** *** C54 *)
Theorem c54_continuous_visibility_with_culmination_partial : forall start end_ maxacc ev,
  start <= end_ -> ev <> [] -> (forall e, In e ev -> snd e = Culminate) ->
  visible_intervals start end_ maxacc ev = Ok [(start, end_)].
Proof.
  intros start end_ maxacc ev H NE HC. rewrite visible_intervals_pure by assumption.
  unfold vis_p. destruct ev as [|x r]; [congruence|].
  replace (forallb (fun x0 => is_culm (snd x0)) (x :: r)) with true; [reflexivity|].
  symmetry. apply forallb_forall. intros e He. now rewrite (HC e He).
Qed.
Print Assumptions c54_continuous_visibility_with_culmination_partial.

Example c54_witness : visible_intervals 0 9 4 [(5, Culminate)] = Ok [(0, 9)].
Proof. reflexivity. Qed.

(** A satellite that is visible during the whole window without culminating in it
    produces no events (it neither rises nor sets), and is not reported. *)
Theorem c54_continuous_visibility_refuted :
  exists start end_ maxacc (ev : events) iv,
    start < end_ /\ chronological ev /\ in_window start end_ ev /\ alternates true ev
    /\ (forall t, start < t <= end_ -> above true ev t = true)
    /\ visible_intervals start end_ maxacc ev = Ok iv
    /\ ~ in_some iv end_.
Proof.
  exists 0, 9, 4, [], []. unfold chronological, in_window.
  repeat split; try constructor; try lia; try reflexivity. intros [i [[] _]].
Qed.
Print Assumptions c54_continuous_visibility_refuted.

(** *** C55 *)
Theorem c55_collect_observations_filter :
  forall pid sat inst a valid fp periods o,
  In o (collect_observations pid sat inst a valid fp periods) <->
  exists l r mid, In (l, r) periods
    /\ mid = l + (r - l) / 2
    /\ acc_min a <= r - l /\ valid mid = true
    /\ (forall c, fp = Some c -> c mid = true)
    /\ o_point o = pid /\ o_sat o = sat /\ o_inst o = inst /\ o_epoch o = mid
    /\ (acc_fixed a = false -> o_start o = l /\ o_end o = r)
    /\ (acc_fixed a = true -> o_start o = mid - timedelta_half (acc_min a)
                              /\ o_end o = mid + timedelta_half (acc_min a)).
Proof.
  intros. rewrite collect_in. split.
  - intros [[l r] [Hp [Hk ->]]]. exists l, r, (interval_mid (l, r)).
    unfold keep_period in Hk. rewrite !andb_true_iff, Z.leb_le in Hk. simpl in Hk.
    unfold mk_record. simpl.
    repeat split; try tauto.
    + intros c ->. tauto.
    + rewrite H. reflexivity.
    + rewrite H. reflexivity.
    + rewrite H. reflexivity.
    + rewrite H. reflexivity.
  - intros (l & r & mid & Hp & Em & Hm & Hv & Hc & E1 & E2 & E3 & E4 & Hf & Ht).
    exists (l, r). split; [assumption|]. subst mid. split.
    + unfold keep_period. rewrite !andb_true_iff, Z.leb_le. simpl. repeat split; auto.
      unfold interval_mid; simpl. destruct fp as [c|]; [now apply Hc|reflexivity].
    + unfold mk_record. destruct o as [op os oi ost oe oen]. simpl in *. subst.
      destruct (acc_fixed a).
      * destruct (Ht eq_refl) as [-> ->]. reflexivity.
      * destruct (Hf eq_refl) as [-> ->]. reflexivity.
Qed.
Print Assumptions c55_collect_observations_filter.

Theorem c55_collect_observations_order :
  forall pid sat inst a valid fp periods,
  acc_fixed a = false ->
  StronglySorted (fun p q : Z * Z => snd p <= fst q) periods ->
  (forall p, In p periods -> fst p <= snd p) ->
  StronglySorted (fun o o' => o_end o <= o_start o')
    (collect_observations pid sat inst a valid fp periods).
Proof.
  intros pid sat inst a valid fp periods Ha HS _.
  unfold collect_observations. induction HS as [|p ps HS IH HF]; simpl; [constructor|].
  destruct (keep_period a valid fp p); [|assumption]. simpl. constructor; [assumption|].
  apply Forall_forall. intros o Ho. apply in_map_iff in Ho as [q [<- Hq]].
  apply filter_In in Hq as [Hq _]. unfold mk_record. rewrite Ha. simpl.
  rewrite Forall_forall in HF. now apply HF.
Qed.
Print Assumptions c55_collect_observations_order.

Example c55_witness :
  collect_observations 7 "s" "i" {| acc_fixed := false; acc_min := 2 |}
    (fun t => t <? 20) (Some (fun t => 2 <? t)) [(0, 1); (0, 4); (4, 9); (18, 30)]
  = [mk_obs 7 "s" "i" 4 6 9].
Proof. reflexivity. Qed.

(** *** C56 *)
Theorem c56_fixed_access_window_partial : forall pid sat inst m p,
  m mod 2 = 0 -> 0 <= m <= snd p - fst p ->
  let o := mk_record pid sat inst {| acc_fixed := true; acc_min := m |} p in
  o_end o - o_start o = m /\ fst p <= o_start o /\ o_end o <= snd p
  /\ o_epoch o - o_start o = o_end o - o_epoch o.
Proof. exact fixed_even_lemma. Qed.
Print Assumptions c56_fixed_access_window_partial.

Example c56_witness : 4 mod 2 = 0 /\ 0 <= 4 <= snd (3, 10) - fst (3, 10).
Proof. simpl. split; [reflexivity|lia]. Qed.

(** An odd number of microseconds: the window is one microsecond too long and
    starts before the pass. *)
Theorem c56_fixed_access_window_refuted :
  exists pid sat inst m p, 0 <= m <= snd p - fst p
    /\ let o := mk_record pid sat inst {| acc_fixed := true; acc_min := m |} p in
       o_end o - o_start o <> m /\ o_start o < fst p.
Proof. exists 0, ""%string, ""%string, 3, (10, 13). simpl. unfold timedelta_half, interval_mid. simpl. lia. Qed.
Print Assumptions c56_fixed_access_window_refuted.

(** *** C57 *)
Theorem c57_multi_collection : forall {C S} srt (members : C -> list S) n_inst collect sats out,
  is_sort o_start srt ->
  collect_multi_observations srt members n_inst collect sats = Ok out ->
  StronglySorted (fun a b => o_start a <= o_start b) out
  /\ Permutation out
       (concat (flat_map (fun c => flat_map (fun s => map (collect s) (seq 0 (n_inst s)))
                                            (members c)) sats)).
Proof. intros C S. exact multi_sorted_union. Qed.
Print Assumptions c57_multi_collection.

Theorem c57_multi_collection_total : forall {C S} srt (members : C -> list S) n_inst collect sats,
  (exists out, collect_multi_observations srt members n_inst collect sats = Ok out)
  <-> exists c s, In c sats /\ In s (members c) /\ (0 < n_inst s)%nat.
Proof.
  intros C S srt members n_inst collect sats.
  unfold collect_multi_observations.
  assert (E : multi_frames members n_inst collect sats <> [] <->
              exists c s, In c sats /\ In s (members c) /\ (0 < n_inst s)%nat).
  { unfold multi_frames. split.
    - intro NE. destruct (flat_map _ sats) as [|f fs] eqn:E; [congruence|].
      assert (Hin : In f (f :: fs)) by now left. rewrite <- E in Hin.
      apply in_flat_map in Hin as [c [Hc Hin]]. apply in_flat_map in Hin as [s [Hs Hin]].
      exists c, s. repeat split; auto. apply in_map_iff in Hin as [i [_ Hi]].
      apply in_seq in Hi. lia.
    - intros [c [s [Hc [Hs Hn]]]] E.
      assert (Hin : In (collect s 0%nat) (flat_map (fun c0 => flat_map
               (fun s0 => map (collect s0) (seq 0 (n_inst s0))) (members c0)) sats)).
      { apply in_flat_map. exists c. split; [assumption|]. apply in_flat_map. exists s.
        split; [assumption|]. apply in_map. apply in_seq. lia. }
      rewrite E in Hin. destruct Hin. }
  rewrite <- E. destruct (multi_frames members n_inst collect sats).
  - split; [intros [out H]; discriminate|congruence].
  - split; [discriminate|eauto].
Qed.
Print Assumptions c57_multi_collection_total.

Example c57_witness :
  is_sort o_start (sort_by o_start)
  /\ collect_multi_observations (sort_by o_start) (fun c : list Z => c) (fun _ => 1%nat)
       (fun s _ => [mk_obs 0 "" "" s s s]) [[5; 3]; [4]]
     = Ok [mk_obs 0 "" "" 3 3 3; mk_obs 0 "" "" 4 4 4; mk_obs 0 "" "" 5 5 5].
Proof. split; [apply sort_by_is_sort|reflexivity]. Qed.

(** *** C58 *)
Theorem c58_aggregate_separated : forall srt rows p,
  is_sort o_start srt -> proper rows ->
  separated (agg_intervals p (aggregate_observations srt rows)).
Proof. exact aggregate_separated_lemma. Qed.
Print Assumptions c58_aggregate_separated.

Theorem c58_aggregate_same_coverage : forall srt rows p (t : Q),
  is_sort o_start srt -> proper rows ->
  covered (agg_intervals p (aggregate_observations srt rows)) t
  <-> covered (obs_intervals p rows) t.
Proof. exact aggregate_covered_lemma. Qed.
Print Assumptions c58_aggregate_same_coverage.

Definition c58_rows : list obs :=
  [ mk_obs 1 "A" "i" 10 15 20; mk_obs 1 "B" "i" 0 2 5; mk_obs 1 "C" "j" 3 4 6;
    mk_obs 2 "A" "i" 4 5 9; mk_obs 1 "D" "i" 20 21 22; mk_obs 1 "E" "i" 11 12 13 ].
Example c58_witness :
  is_sort o_start (sort_by o_start) /\ proper c58_rows
  /\ agg_intervals 1 (aggregate_observations (sort_by o_start) c58_rows) = [(0, 6); (10, 22)].
Proof.
  split; [apply sort_by_is_sort|]. split; [repeat constructor; simpl; lia|reflexivity].
Qed.

(** *** C59 *)
Theorem c59_aggregate_order_independent : forall srt srt' rows rows' p,
  is_sort o_start srt -> is_sort o_start srt' -> proper rows -> Permutation rows rows' ->
  agg_intervals p (aggregate_observations srt rows)
  = agg_intervals p (aggregate_observations srt' rows').
Proof. exact aggregate_order_lemma. Qed.
Print Assumptions c59_aggregate_order_independent.

Theorem c59_aggregate_idempotent : forall srt srt' ep rows p,
  is_sort o_start srt -> is_sort o_start srt' -> proper rows ->
  agg_intervals p
    (aggregate_observations srt' (map (as_obs ep) (aggregate_observations srt rows)))
  = agg_intervals p (aggregate_observations srt rows).
Proof. exact aggregate_idempotent_lemma. Qed.
Print Assumptions c59_aggregate_idempotent.

Theorem c59_separated_coverage_determines_intervals : forall l l',
  separated l -> separated l' -> (forall t, covered l t <-> covered l' t) -> l = l'.
Proof. exact separated_unique. Qed.
Print Assumptions c59_separated_coverage_determines_intervals.

Example c59_witness :
  Permutation c58_rows (rev c58_rows)
  /\ agg_intervals 1 (aggregate_observations (sort_by o_start) (rev c58_rows)) = [(0, 6); (10, 22)].
Proof. split; [apply Permutation_rev|reflexivity]. Qed.

(** *** C60 *)
Theorem c60_aggregate_provenance : forall srt rows,
  is_sort o_start srt ->
  exists parts, Permutation (concat parts) rows
    /\ Forall2 contributes parts (aggregate_observations srt rows).
Proof. exact aggregate_provenance_lemma. Qed.
Print Assumptions c60_aggregate_provenance.

Example c60_witness :
  map a_sat (aggregate_observations (sort_by o_start) c58_rows)
  = ["B, C"; "A, E, D"; "A"]%string.
Proof. reflexivity. Qed.

(** *** C61 *)
Theorem c61_access : forall srt rows a,
  is_sort o_start srt -> proper rows -> In a (aggregate_observations srt rows) ->
  a_access a = a_end a - a_start a /\ 0 <= a_access a.
Proof. exact aggregate_access_lemma. Qed.
Print Assumptions c61_access.

Theorem c61_revisit : forall srt rows p,
  is_sort o_start srt -> proper rows ->
  revisits None (rows_of p (aggregate_observations srt rows)).
Proof. exact aggregate_revisits_lemma. Qed.
Print Assumptions c61_revisit.

Theorem c61_time_accounting : forall srt rows p a l,
  is_sort o_start srt -> proper rows ->
  rows_of p (aggregate_observations srt rows) = a :: l ->
  sum_Z (map a_access (a :: l)) + sum_Z (map revisit_or_zero (a :: l))
  = a_end (last (a :: l) a) - a_start a.
Proof. exact aggregate_telescope_lemma. Qed.
Print Assumptions c61_time_accounting.

Example c61_witness :
  map (fun a => (a_access a, a_revisit a))
    (rows_of 1 (aggregate_observations (sort_by o_start) c58_rows))
  = [(6, None); (12, Some 4)].
Proof. reflexivity. Qed.

(** *** C62 *)
Theorem c62_reduce : forall rows,
  StronglySorted Z.lt (map r_point (reduce_observations rows))
  /\ (forall p, In p (map r_point (reduce_observations rows)) <-> rows_of p rows <> [])
  /\ (forall r, In r (reduce_observations rows) ->
        let g := rows_of (r_point r) rows in
        r_samples r = Z.of_nat (length g)
        /\ is_mean (r_access r) (map a_access g)
        /\ match r_revisit r with
           | None => forall a, In a g -> a_revisit a = None
           | Some m => is_mean m (filter_some (map a_revisit g))
           end).
Proof. exact reduce_spec_lemma. Qed.
Print Assumptions c62_reduce.

Theorem c62_reduce_revisit_missing_iff_single : forall srt rows r,
  is_sort o_start srt -> proper rows ->
  In r (reduce_observations (aggregate_observations srt rows)) ->
  (r_revisit r = None <-> r_samples r = 1)
  /\ (forall m, r_revisit r = Some m -> (0 < m)%Q).
Proof. exact reduce_revisit_missing_lemma. Qed.
Print Assumptions c62_reduce_revisit_missing_iff_single.

Theorem c62_mean_between_extremes : forall m l lo hi,
  is_mean m l -> Forall (fun x => lo <= x <= hi) l ->
  (inject_Z lo <= m)%Q /\ (m <= inject_Z hi)%Q.
Proof. exact is_mean_bounds. Qed.
Print Assumptions c62_mean_between_extremes.

Example c62_witness :
  map (fun r => (r_point r, Qred (r_access r), r_samples r))
    (reduce_observations (aggregate_observations (sort_by o_start) c58_rows))
  = [(1, 9%Q, 2); (2, 5%Q, 1)].
Proof. reflexivity. Qed.

(** *** C63 *)
Theorem c63_grid_samples : forall {G} (contains : G -> red -> bool) rows (cells : list (cell G)) out,
  rows <> [] -> NoDup (map c_id cells) ->
  grid_observations contains rows cells = Ok out ->
  (forall k, In k (map g_cell out) <->
     exists c, In c cells /\ c_id c = k /\ in_cell contains c rows <> [])
  /\ NoDup (map g_cell out)
  /\ (forall r, In r out -> exists c, In c cells /\ c_id c = g_cell r /\
       let rs := in_cell contains c rows in
       rs <> [] /\ g_samples r = sum_Z (map r_samples rs)
       /\ exists m, g_access r = Some m
          /\ (m * inject_Z (Z.of_nat (length rs)) == sum_Q (map r_access rs))%Q).
Proof. intro G. exact grid_rows_lemma. Qed.
Print Assumptions c63_grid_samples.

Theorem c63_grid_revisit :
  forall {G} (contains : G -> red -> bool) rows (cells : list (cell G)) out,
  rows <> [] -> NoDup (map c_id cells) ->
  grid_observations contains rows cells = Ok out ->
  forall r, In r out -> exists c, In c cells /\ c_id c = g_cell r /\
    let rs := in_cell contains c rows in
    rs <> [] /\
    match g_revisit r with
    | Some m => (forall x, In x rs -> r_revisit x <> None)
       /\ (m * inject_Z (Z.of_nat (length rs)) == sum_Q (filter_some (map r_revisit rs)))%Q
    | None => exists x, In x rs /\ r_revisit x = None
    end.
Proof. exact @grid_revisit_lemma. Qed.
Print Assumptions c63_grid_revisit.

Theorem c63_grid_samples_conserved :
  forall {G} (contains : G -> red -> bool) rows (cells : list (cell G)) out,
  rows <> [] -> (forall r, In r rows -> times_covered contains cells r = 1%nat) ->
  grid_observations contains rows cells = Ok out ->
  sum_Z (map g_samples out) = sum_Z (map r_samples rows).
Proof. intro G. exact grid_conserves_lemma. Qed.
Print Assumptions c63_grid_samples_conserved.

Theorem c63_grid_empty : forall {G} (contains : G -> red -> bool) (cells : list (cell G)),
  exists out, grid_observations contains [] cells = Ok out
    /\ Forall2 (fun c r => g_cell r = c_id c /\ g_samples r = 0
                           /\ g_access r = None /\ g_revisit r = None) cells out.
Proof.
  intros G contains cells. eexists. split; [reflexivity|].
  induction cells; simpl; constructor; auto.
Qed.
Print Assumptions c63_grid_empty.

Definition c63_cells : list (cell (Z * Z)) := [mk_cell 0 40 (0, 10); mk_cell 1 41 (10, 20)].
Definition c63_in (g : Z * Z) (r : red) : bool := (fst g <=? r_point r) && (r_point r <? snd g).
Definition c63_rows : list red :=
  [mk_red 1 10 None 2; mk_red 3 30 (Some 7%Q) 2; mk_red 15 50 (Some 5%Q) 2].
Example c63_witness :
  NoDup (map c_id c63_cells)
  /\ (forall r, In r c63_rows -> times_covered c63_in c63_cells r = 1%nat)
  /\ exists out, grid_observations c63_in c63_rows c63_cells = Ok out
       /\ map (fun r => (g_cell r, g_samples r, option_map Qred (g_revisit r))) out
          = [(40, 4, None); (41, 2, Some 5%Q)].
Proof.
  split; [repeat constructor; simpl; lia|]. split.
  - intros r [<-|[<-|[<-|[]]]]; reflexivity.
  - eexists. split; [vm_compute; reflexivity|reflexivity].
Qed.

(** *** C64 *)
(** The sample-weighted mean of the points of a cell. *)
Definition weighted_access {G} (contains : G -> red -> bool) (rows : list red) (c : cell G) (m : Q) : Prop :=
  (m * inject_Z (sum_Z (map r_samples (in_cell contains c rows)))
   == sum_Q (map (fun x => inject_Z (r_samples x) * r_access x) (in_cell contains c rows)))%Q.

Theorem c64_grid_weighted_mean_equal_samples_partial :
  forall {G} (contains : G -> red -> bool) rows (cells : list (cell G)) out s,
  rows <> [] -> NoDup (map c_id cells) ->
  (forall r, In r rows -> r_samples r = s) ->
  grid_observations contains rows cells = Ok out ->
  forall r, In r out -> exists c m, In c cells /\ c_id c = g_cell r /\ g_access r = Some m /\
    weighted_access contains rows c m.
Proof. intro G. exact grid_equal_samples_lemma. Qed.
Print Assumptions c64_grid_weighted_mean_equal_samples_partial.

Theorem c64_grid_succeeds_partial :
  forall {G} (contains : G -> red -> bool) rows (cells : list (cell G)),
  NoDup (map c_id cells) ->
  (forall r, In r rows -> 0 < r_samples r) ->
  (forall c, In c cells -> in_cell contains c rows <> [] ->
     0 <= c_label c < Z.of_nat (length rows)) ->
  exists out, grid_observations contains rows cells = Ok out.
Proof. intro G. exact grid_ok_lemma. Qed.
Print Assumptions c64_grid_succeeds_partial.

(** Gridding positive samples either succeeds or raises KeyError, and succeeds exactly when every
    cell that contains a point has a label among those of the reduced rows. *)
Theorem c64_grid_outcome :
  forall {G} (contains : G -> red -> bool) rows (cells : list (cell G)),
  NoDup (map c_id cells) -> (forall r, In r rows -> 0 < r_samples r) ->
  let labelled := forall c, In c cells -> in_cell contains c rows <> [] ->
     0 <= c_label c < Z.of_nat (length rows) in
  (labelled /\ exists out, grid_observations contains rows cells = Ok out)
  \/ (~ labelled /\ grid_observations contains rows cells = Raise KeyError).
Proof. exact @grid_outcome_lemma. Qed.
Print Assumptions c64_grid_outcome.
Example c64_witness :
  c63_rows <> [] /\ NoDup (map c_id c63_cells) /\ (forall r, In r c63_rows -> r_samples r = 2)
  /\ (forall c, In c c63_cells -> 0 <= c_label c < Z.of_nat (length c63_rows)).
Proof.
  split; [discriminate|]. split; [repeat constructor; simpl; lia|]. split.
  - intros r [<-|[<-|[<-|[]]]]; reflexivity.
  - intros c [<-|[<-|[]]]; simpl; lia.
Qed.

(** Points with 1 and 3 samples and accesses 10 and 20: 15 instead of 17.5. *)
Theorem c64_grid_weighted_mean_refuted :
  exists (contains : unit -> red -> bool) rows (cells : list (cell unit)) out r c m,
    rows <> [] /\ NoDup (map c_id cells) /\ (forall r, In r rows -> 0 < r_samples r)
    /\ grid_observations contains rows cells = Ok out
    /\ In r out /\ In c cells /\ c_id c = g_cell r /\ g_access r = Some m
    /\ ~ weighted_access contains rows c m.
Proof.
  exists (fun _ _ => true), [mk_red 1 10 (Some 1%Q) 1; mk_red 2 20 (Some 1%Q) 3],
    [mk_cell 0 0 tt].
  eexists. eexists. exists (mk_cell 0 0 tt). eexists.
  split; [discriminate|]. split; [repeat constructor; simpl; tauto|].
  split; [intros r [<-|[<-|[]]]; reflexivity|].
  split; [vm_compute; reflexivity|]. split; [left; reflexivity|].
  split; [left; reflexivity|]. split; [reflexivity|]. split; [reflexivity|].
  unfold weighted_access. vm_compute. discriminate.
Qed.
Print Assumptions c64_grid_weighted_mean_refuted.

(** A cell whose label exceeds the number of observed points raises KeyError. *)
Theorem c64_grid_succeeds_refuted :
  exists (contains : Z -> red -> bool) rows (cells : list (cell Z)),
    NoDup (map c_id cells) /\ (forall r, In r rows -> 0 < r_samples r)
    /\ map c_label cells = [0; 1]
    /\ grid_observations contains rows cells = Raise KeyError.
Proof.
  exists (fun g r => g =? r_point r), [mk_red 1 10 None 1], [mk_cell 0 0 0; mk_cell 1 1 1].
  split; [repeat constructor; simpl; lia|].
  split; [intros r [<-|[]]; reflexivity|]. split; reflexivity.
Qed.
Print Assumptions c64_grid_succeeds_refuted.
