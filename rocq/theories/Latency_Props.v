(** Property theorems C65-C70: downlink latency analysis. *)
From Coq Require Import String ZArith QArith List Bool Sorting.Sorted Sorting.Permutation Lia Lqa.
From Verif Require Import Base BaseFacts Coverage_Model Coverage_Spec
  Latency_Model Latency_Spec Latency_Proofs.
Import ListNotations.
Open Scope Z_scope.

(** *** C65 *)
Theorem c65_collect_downlinks : forall srt sat periods stations,
  is_sort d_start srt ->
  StronglySorted (fun a b => d_start a <= d_start b) (collect_downlinks srt sat periods stations)
  /\ (forall d, In d (collect_downlinks srt sat periods stations) <->
        exists s l r, In s stations /\ In (l, r) (periods s) /\ st_min_access s <= r - l
          /\ d = mk_down (st_name s) sat l r (l + (r - l) / 2))
  /\ Permutation (collect_downlinks srt sat periods stations)
       (flat_map (fun s => collect_downlinks srt sat periods [s]) stations).
Proof. exact collect_downlinks_lemma. Qed.
Print Assumptions c65_collect_downlinks.

Definition c65_stations := [mk_station "a" 10; mk_station "b" 0].
Definition c65_periods (s : station) : list (Z * Z) :=
  if String.eqb (st_name s) "a" then [(50, 59); (80, 90)] else [(20, 40)].
Example c65_witness : is_sort d_start (sort_by d_start)
  /\ collect_downlinks (sort_by d_start) "s" c65_periods c65_stations
     = [mk_down "b" "s" 20 40 30; mk_down "a" "s" 80 90 85].
Proof. split; [apply sort_by_is_sort|reflexivity]. Qed.

(** *** C66, C67 *)
Theorem c66_latency_first_downlink : forall srt_o srt_d srt_l rows downs,
  is_sort o_end srt_o -> is_sort d_start srt_d -> is_sort l_observed srt_l ->
  rows <> [] -> downs <> [] ->
  exists rows', Permutation rows rows'
    /\ Forall2 (latency_record downs) rows' (compute_latencies srt_o srt_d srt_l rows downs)
    /\ StronglySorted (fun a b => l_observed a <= l_observed b)
         (compute_latencies srt_o srt_d srt_l rows downs).
Proof. exact compute_latencies_lemma. Qed.
Print Assumptions c66_latency_first_downlink.

Theorem c67_latency_nonnegative : forall srt_o srt_d srt_l rows downs row v,
  is_sort o_end srt_o -> is_sort d_start srt_d -> is_sort l_observed srt_l ->
  (forall o, In o rows -> o_epoch o <= o_end o) ->
  (forall d, In d downs -> d_start d <= d_epoch d) ->
  In row (compute_latencies srt_o srt_d srt_l rows downs) ->
  l_latency row = Some v -> 0 <= v.
Proof. exact latency_nonneg_lemma. Qed.
Print Assumptions c67_latency_nonnegative.

(** The downlink hypothesis of the previous theorem holds for every collected downlink. *)
Theorem c67_collected_downlink_epochs_inside : forall srt sat periods stations d,
  is_sort d_start srt -> (forall s l r, In s stations -> In (l, r) (periods s) -> l <= r) ->
  In d (collect_downlinks srt sat periods stations) ->
  d_sat d = sat /\ d_start d <= d_epoch d <= d_end d.
Proof. exact downlink_epoch_lemma. Qed.
Print Assumptions c67_collected_downlink_epochs_inside.
Example c67_witness : let periods := fun s : station => if String.eqb (st_name s) "a" then [(10, 20); (40, 43)] else [(0, 30)] in
  let stations := [mk_station "a" 5; mk_station "b" 10] in
  (forall s l r, In s stations -> In (l, r) (periods s) -> l <= r)
  /\ collect_downlinks (sort_by d_start) "s" periods stations = [mk_down "b" "s" 0 30 15; mk_down "a" "s" 10 20 15].
Proof.
  cbv zeta. split; [|reflexivity]. intros s l r S P. destruct S as [<-|[<-|[]]]; cbn in P; intuition (try congruence); match goal with H : _ = (l, r) |- _ => injection H as <- <-; lia end.
Qed.

(** Every observation exactly once, unless one of the tables is empty. *)
Theorem c67_rows_count : forall srt_o srt_d srt_l rows downs,
  is_sort o_end srt_o -> is_sort d_start srt_d -> is_sort l_observed srt_l ->
  rows <> [] -> downs <> [] ->
  Permutation (map (fun o => (o_point o, o_sat o, o_inst o, o_epoch o)) rows)
    (map (fun r => (l_point r, l_sat r, l_inst r, l_observed r))
       (compute_latencies srt_o srt_d srt_l rows downs)).
Proof. exact rows_count_lemma. Qed.
Print Assumptions c67_rows_count.

Definition c66_rows : list obs :=
  [mk_obs 1 "s" "i" 0 5 10; mk_obs 2 "t" "i" 20 25 30; mk_obs 3 "s" "i" 60 65 70].
Definition c66_downs : list downlink :=
  [mk_down "b" "s" 50 60 55; mk_down "a" "s" 10 20 15; mk_down "c" "t" 29 90 40].
Example c66_witness :
  compute_latencies (sort_by o_end) (sort_by d_start) (sort_by l_observed) c66_rows c66_downs
  = [mk_lat 1 "s" "i" (Some "a"%string) (Some 15) (Some 10) 5;
     mk_lat 2 "t" "i" None None None 25; mk_lat 3 "s" "i" None None None 65]
  /\ is_sort o_end (sort_by o_end) /\ is_sort l_observed (sort_by l_observed)
  /\ (forall o, In o c66_rows -> o_epoch o <= o_end o)
  /\ (forall d, In d c66_downs -> d_start d <= d_epoch d).
Proof.
  split; [reflexivity|]. split; [apply sort_by_is_sort|]. split; [apply sort_by_is_sort|].
  split; intros x Hx; simpl in Hx; intuition (subst; simpl; lia).
Qed.

(** With no downlink at all, the observations are dropped instead of being
    reported as never downlinked. *)
Theorem c67_no_downlinks_drops_observations :
  exists rows downs, rows <> [] /\
    length (compute_latencies (sort_by o_end) (sort_by d_start) (sort_by l_observed) rows downs)
    <> length rows.
Proof. exists c66_rows, []. split; discriminate. Qed.
Print Assumptions c67_no_downlinks_drops_observations.

(** *** C68 *)
Theorem c68_reduce_latencies : forall rows,
  StronglySorted Z.lt (map lr_point (reduce_latencies rows))
  /\ (forall p, In p (map lr_point (reduce_latencies rows)) <-> lat_rows_of p rows <> [])
  /\ (forall r, In r (reduce_latencies rows) ->
        let g := lat_rows_of (lr_point r) rows in
        lr_samples r = Z.of_nat (length g)
        /\ match lr_latency r with
           | None => forall a, In a g -> l_latency a = None
           | Some m => is_mean m (filter_some (map l_latency g))
           end).
Proof. exact reduce_latencies_lemma. Qed.
Print Assumptions c68_reduce_latencies.

Definition c68_rows : list latency_row :=
  [mk_lat 2 "s" "i" (Some "a"%string) (Some 15) (Some 10) 5;
   mk_lat 1 "s" "i" None None None 25;
   mk_lat 2 "s" "i" None None None 35;
   mk_lat 2 "s" "i" (Some "a"%string) (Some 65) (Some 20) 45].
Example c68_witness :
  map (fun r => (lr_point r, option_map Qred (lr_latency r), lr_samples r)) (reduce_latencies c68_rows)
  = [(1, None, 1); (2, Some 15%Q, 3)].
Proof. reflexivity. Qed.

(** *** C69 *)
Theorem c69_samples_all_downlinked_partial : forall rows r,
  (forall a, In a rows -> l_latency a <> None) ->
  In r (reduce_latencies rows) ->
  lr_samples r
  = Z.of_nat (length (filter_some (map l_latency (lat_rows_of (lr_point r) rows)))).
Proof. exact reduce_samples_matched_lemma. Qed.
Print Assumptions c69_samples_all_downlinked_partial.

Example c69_witness :
  (forall a, In a [mk_lat 2 "s" "i" (Some "a"%string) (Some 15) (Some 10) 5] -> l_latency a <> None)
  /\ reduce_latencies [mk_lat 2 "s" "i" (Some "a"%string) (Some 15) (Some 10) 5] <> [].
Proof. split; [intros a [<-|[]]; discriminate|discriminate]. Qed.

(** Three rows, two defined latencies: the samples value is 3. *)
Theorem c69_samples_refuted :
  exists rows r, In r (reduce_latencies rows)
    /\ lr_samples r
       <> Z.of_nat (length (filter_some (map l_latency (lat_rows_of (lr_point r) rows)))).
Proof.
  exists c68_rows. eexists. split; [right; left; reflexivity|]. vm_compute. discriminate.
Qed.
Print Assumptions c69_samples_refuted.

(** *** C70 *)
Theorem c70_grid_rows :
  forall {G} (contains : G -> lred -> bool) rows (cells : list (cell G)) out,
  rows <> [] -> NoDup (map c_id cells) ->
  grid_latencies contains rows cells = Ok out ->
  (forall k, In k (map lg_cell out) <->
     exists c, In c cells /\ c_id c = k /\ in_cell contains c rows <> [])
  /\ NoDup (map lg_cell out)
  /\ (forall r, In r out -> exists c, In c cells /\ c_id c = lg_cell r /\
       let rs := in_cell contains c rows in
       rs <> [] /\ lg_samples r = sum_Z (map lr_samples rs)
       /\ match lg_latency r with
          | Some m => (forall x, In x rs -> lr_latency x <> None)
             /\ (m * inject_Z (Z.of_nat (length rs)) == sum_Q (filter_some (map lr_latency rs)))%Q
          | None => exists x, In x rs /\ lr_latency x = None
          end).
Proof. intro G. exact grid_latencies_lemma. Qed.
Print Assumptions c70_grid_rows.

Theorem c70_grid_weighted_mean_equal_samples_partial :
  forall {G} (contains : G -> lred -> bool) rows (cells : list (cell G)) out s,
  rows <> [] -> NoDup (map c_id cells) ->
  (forall r, In r rows -> lr_samples r = s) ->
  grid_latencies contains rows cells = Ok out ->
  forall r, In r out -> exists c, In c cells /\ c_id c = lg_cell r /\
    match lg_latency r with
    | Some m => weighted_latency (in_cell contains c rows) m
    | None => exists x, In x (in_cell contains c rows) /\ lr_latency x = None
    end.
Proof. intro G. exact grid_lat_equal_lemma. Qed.
Print Assumptions c70_grid_weighted_mean_equal_samples_partial.

(** With nothing to grid, one row per cell, in order. *)
Theorem c70_grid_empty :
  forall {G} (contains : G -> lred -> bool) (cells : list (cell G)),
  exists out, grid_latencies contains [] cells = Ok out
    /\ Forall2 (fun c r => lg_cell r = c_id c /\ lg_samples r = 0 /\ lg_latency r = None) cells out.
Proof. exact @lgrid_empty_lemma. Qed.
Print Assumptions c70_grid_empty.
(** Gridding positive samples succeeds exactly when every cell that contains a point has a label
    among those of the reduced rows, and raises KeyError otherwise. *)
Theorem c70_grid_outcome :
  forall {G} (contains : G -> lred -> bool) rows (cells : list (cell G)),
  NoDup (map c_id cells) -> (forall r, In r rows -> 0 < lr_samples r) ->
  let labelled := forall c, In c cells -> in_cell contains c rows <> [] ->
     0 <= c_label c < Z.of_nat (length rows) in
  (labelled /\ exists out, grid_latencies contains rows cells = Ok out)
  \/ (~ labelled /\ grid_latencies contains rows cells = Raise KeyError).
Proof. exact @lgrid_outcome_lemma. Qed.
Print Assumptions c70_grid_outcome.
Definition c70_cells : list (cell (Z * Z)) := [mk_cell 0 40 (0, 10); mk_cell 1 41 (10, 20)].
Definition c70_in (g : Z * Z) (r : lred) : bool := (fst g <=? lr_point r) && (lr_point r <? snd g).
Definition c70_rows : list lred := [mk_lred 1 (Some 10%Q) 2; mk_lred 3 (Some 30%Q) 2; mk_lred 15 None 2].
Example c70_witness :
  NoDup (map c_id c70_cells) /\ (forall r, In r c70_rows -> lr_samples r = 2)
  /\ exists out, grid_latencies c70_in c70_rows c70_cells = Ok out
       /\ map (fun r => (lg_cell r, lg_samples r, option_map Qred (lg_latency r))) out
          = [(40, 4, Some 20%Q); (41, 2, None)].
Proof.
  split; [repeat constructor; simpl; lia|]. split.
  - intros r [<-|[<-|[<-|[]]]]; reflexivity.
  - eexists. split; [vm_compute; reflexivity|reflexivity].
Qed.

Theorem c70_grid_weighted_mean_refuted :
  exists (contains : unit -> lred -> bool) rows (cells : list (cell unit)) out r c m,
    rows <> [] /\ NoDup (map c_id cells) /\ (forall r, In r rows -> 0 < lr_samples r)
    /\ grid_latencies contains rows cells = Ok out
    /\ In r out /\ In c cells /\ c_id c = lg_cell r /\ lg_latency r = Some m
    /\ ~ weighted_latency (in_cell contains c rows) m.
Proof.
  exists (fun _ _ => true), [mk_lred 1 (Some 10%Q) 1; mk_lred 2 (Some 20%Q) 3], [mk_cell 0 0 tt].
  eexists. eexists. exists (mk_cell 0 0 tt). eexists.
  split; [discriminate|]. split; [repeat constructor; simpl; tauto|].
  split; [intros r [<-|[<-|[]]]; reflexivity|].
  split; [vm_compute; reflexivity|]. split; [left; reflexivity|].
  split; [left; reflexivity|]. split; [reflexivity|]. split; [reflexivity|].
  intros (vs & E & H). simpl in E. destruct vs as [|v1 [|v2 [|? ?]]]; try discriminate E.
  injection E as <- <-. vm_compute in H. discriminate H.
Qed.
Print Assumptions c70_grid_weighted_mean_refuted.
