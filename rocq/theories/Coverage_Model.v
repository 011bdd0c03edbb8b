(** Model of src/tatc/analysis/coverage.py (coverage analysis).

    Instants and durations are integers in one fixed resolution
    (microseconds: skyfield's [utc_datetime], [datetime] and [timedelta] are
    microsecond types; pandas keeps that resolution for the interval series).
    Coordinates attached to the rows are not modelled; their angles are in Seen_Model. *)
From Coq Require Import String ZArith QArith List Bool.
From Verif Require Import Base.
Import ListNotations.
Open Scope Z_scope.

(** Event codes of skyfield's find_events, compared with 0, 1 and 2 in
    coverage.py:66,76,77. *)
Inductive event := Rise | Culminate | SetEv.

(** Event code 0 (rise), coverage.py:60-77. *)
Definition is_rise (e : event) : bool := match e with Rise => true | _ => false end.
(** Event code 1 (culmination), coverage.py:60-77. *)
Definition is_culm (e : event) : bool := match e with Culminate => true | _ => false end.
(** Event code 2 (set), coverage.py:60-77. *)
Definition is_set (e : event) : bool := match e with SetEv => true | _ => false end.

(** The (times, events) pair returned by get_observation_events
    (coverage.py:60-62) as one list of stamped events. *)
Definition events := list (Z * event).

(** [times[events == k]] (coverage.py:76-77). *)
Definition times_of (p : event -> bool) (ev : events) : list Z :=
  map fst (filter (fun x => p (snd x)) ev).

(** [pd.Interval(left, right)]: pandas rejects left > right. coverage.py:69-72, 85-88, 93-104, 120-123. *)
Definition mk_interval (l r : Z) : pyres (Z * Z) :=
  if l <=? r then Ok (l, r) else Raise ValueError.

(** Last element test of coverage.py:115-116 ([rises[-1]], [sets[-1]]). *)
Definition last_opt (l : list Z) : option Z :=
  match rev l with [] => None | x :: _ => Some x end.

(** coverage.py:78-89: a leading set event opens a period at [start]. *)
Definition leading_set (start : Z) (rises sets : list Z) : pyres (list (Z * Z)) :=
  match sets with
  | [] => Ok []
  | s :: _ =>
      if (match rises with [] => true | r :: _ => s <? r end) && (start <? s)
      then bind (mk_interval start s) (fun i => Ok [i])
      else Ok []
  end.

(** The sets that lie after a rise and within twice the maximum access time
    (coverage.py:97-101 and 107-110). *)
Definition matching_sets (maxacc rise : Z) (sets : list Z) : list Z :=
  filter (fun s => (rise <? s) && (s <? rise + 2 * maxacc)) sets.

(** coverage.py:92-112: one period for each rise with a matching set; the
    first matching set closes it. *)
Definition rise_periods (maxacc : Z) (rises sets : list Z) : pyres (list (Z * Z)) :=
  mapM (fun r => match matching_sets maxacc r sets with
                 | s :: _ => mk_interval r s
                 | [] => Raise IndexError  (* unreachable: filtered by the [if] *)
                 end)
       (filter (fun r => match matching_sets maxacc r sets with [] => false | _ => true end)
               rises).

(** coverage.py:113-124: a trailing rise opens a period up to [end]. *)
Definition trailing_rise (end_ : Z) (rises sets : list Z) : pyres (list (Z * Z)) :=
  match last_opt rises with
  | None => Ok []
  | Some r =>
      if (match last_opt sets with None => true | Some s => s <? r end) && (r <? end_)
      then bind (mk_interval r end_) (fun i => Ok [i])
      else Ok []
  end.

(** _get_visible_interval_series, coverage.py:29-125.  [maxacc] is the value
    of compute_max_access_time at the initial altitude (coverage.py:56-58),
    [ev] the events found between [start] and [end_] (coverage.py:60-62). *)
Definition visible_intervals (start end_ maxacc : Z) (ev : events)
  : pyres (list (Z * Z)) :=
  match ev with
  | [] => Ok []
  | _ =>
      if forallb (fun x => is_culm (snd x)) ev
      then bind (mk_interval start end_) (fun i => Ok [i])
      else
        let rises := times_of is_rise ev in
        let sets := times_of is_set ev in
        bind (leading_set start rises sets) (fun a =>
        bind (rise_periods maxacc rises sets) (fun b =>
        bind (trailing_rise end_ rises sets) (fun c => Ok (a ++ b ++ c))))
  end.

(** ** Observations *)

(** The columns of an observation record (coverage.py:196-211) that later
    steps use; geometry, altitude/azimuth and solar columns are omitted (the angles are in Seen_Model). *)
Record obs := mk_obs {
  o_point : Z; o_sat : string; o_inst : string;
  o_start : Z; o_epoch : Z; o_end : Z }.

(** [period.mid] of a pandas Interval of timestamps:
    [left + 0.5 * length], the product truncated to the resolution. coverage.py:204, 209, 211. *)
Definition interval_mid (p : Z * Z) : Z := fst p + (snd p - fst p) / 2.

(** Python's [timedelta / 2]: microseconds divided and rounded half to even.
    coverage.py:204, 209; orbit.py:462. *)
Definition timedelta_half (d : Z) : Z :=
  let q := d / 2 in
  if d mod 2 =? 0 then q else if Z.even q then q else q + 1.

(** The instrument attributes read by collect_observations
    (coverage.py:203,208,217): [access_time_fixed] and [min_access_time]. *)
Record access_req := { acc_fixed : bool; acc_min : Z }.

(** The record built for one period, coverage.py:196-212. *)
Definition mk_record (pid : Z) (sat inst : string) (a : access_req) (p : Z * Z) : obs :=
  let mid := interval_mid p in
  mk_obs pid sat inst
    (if negb (acc_fixed a) then fst p else mid - timedelta_half (acc_min a))
    mid
    (if negb (acc_fixed a) then snd p else mid + timedelta_half (acc_min a)).

(** The comprehension filter, coverage.py:216-234.  [valid t] is the answer of
    instrument.is_valid_observation at instant [t]; [footprint] is [None] when the
    instrument is not a PointedInstrument, otherwise [Some c] with [c t] telling
    whether the footprint at [t] contains the point. *)
Definition keep_period (a : access_req) (valid : Z -> bool)
    (footprint : option (Z -> bool)) (p : Z * Z) : bool :=
  (acc_min a <=? snd p - fst p)
  && valid (interval_mid p)
  && match footprint with None => true | Some c => c (interval_mid p) end.

(** collect_observations, coverage.py:162-262, for given visible intervals
    (coverage.py:213-215). *)
Definition collect_observations (pid : Z) (sat inst : string) (a : access_req)
    (valid : Z -> bool) (footprint : option (Z -> bool)) (periods : list (Z * Z))
  : list obs :=
  map (mk_record pid sat inst a) (filter (keep_period a valid footprint) periods).

(** collect_multi_observations, coverage.py:265-294.  [members] is
    generate_members, [n_inst] the number of instruments of a member, and
    [collect] is collect_observations for one member and instrument index.
    pandas.concat of an empty list raises ValueError. *)
Definition multi_frames {C S} (members : C -> list S) (n_inst : S -> nat)
    (collect : S -> nat -> list obs) (sats : list C) : list (list obs) :=
  flat_map (fun c => flat_map (fun s => map (collect s) (seq 0 (n_inst s))) (members c)) sats.

(** collect_multi_observations, coverage.py:265-294. *)
Definition collect_multi_observations {C S} (srt : list obs -> list obs)
    (members : C -> list S) (n_inst : S -> nat)
    (collect : S -> nat -> list obs) (sats : list C) : pyres (list obs) :=
  match multi_frames members n_inst collect sats with
  | [] => Raise ValueError
  | fs => Ok (srt (concat fs))
  end.

(** ** Aggregation *)

(** Series.shift(): coverage.py:336,351. *)
Definition shift {A} (l : list A) : list (option A) :=
  match l with [] => [] | _ => None :: map Some (removelast l) end.

(** Series.cummax() on a column that starts with missing values,
    coverage.py:336 (missing entries stay missing and are skipped). *)
Fixpoint cummax_from (acc : option Z) (l : list (option Z)) : list (option Z) :=
  match l with
  | [] => []
  | None :: r => None :: cummax_from acc r
  | Some x :: r =>
      let m := match acc with None => x | Some y => Z.max y x end in
      Some m :: cummax_from (Some m) r
  end.

(** [start > ...]: a comparison with a missing value is False. coverage.py:336. *)
Definition gt_opt (x : Z) (o : option Z) : bool :=
  match o with None => false | Some y => y <? x end.

(** Series.cumsum() of booleans, coverage.py:336. *)
Fixpoint cumsum_from (n : Z) (l : list bool) : list Z :=
  match l with
  | [] => []
  | b :: r => let m := n + (if b then 1 else 0) in m :: cumsum_from m r
  end.

(** Element-wise application of a binary operation to two columns. coverage.py:336, 351. *)
Definition zip_with {A B C} (f : A -> B -> C) (l : list A) (m : list B) : list C :=
  map (fun p => f (fst p) (snd p)) (combine l m).

(** The "obs" column, coverage.py:336. *)
Definition obs_numbers (rows : list obs) : list Z :=
  cumsum_from 0
    (zip_with gt_opt (map o_start rows) (cummax_from None (shift (map o_end rows)))).

(** An aggregated record, coverage.py:338-351.  "epoch" is the exact mean
    (pandas rounds it to the time resolution: not modelled). *)
Record agg := mk_agg {
  a_point : Z; a_sat : string; a_inst : string;
  a_start : Z; a_epoch : Q; a_end : Z;
  a_access : Z; a_revisit : option Z }.

(** pandas "mean" of integers, exactly. coverage.py:345. *)
Definition mean_Z (l : list Z) : Q := (inject_Z (sum_Z l) / inject_Z (Z.of_nat (length l)))%Q.
(** pandas "min"/"max" of a non-empty group. coverage.py:344, 346. *)
Definition min_of (d : Z) (l : list Z) : Z := fold_right Z.min d l.
(** See above, coverage.py:346. *)
Definition max_of (d : Z) (l : list Z) : Z := fold_right Z.max d l.

(** The dissolve of one "obs" group, coverage.py:338-348; the access column is
    coverage.py:350; revisit is filled in afterwards. *)
Definition dissolve_obs (g : list obs) : option agg :=
  match g with
  | [] => None
  | x :: _ =>
      let s := min_of (o_start x) (map o_start g) in
      let e := max_of (o_end x) (map o_end g) in
      Some (mk_agg (o_point x)
              (String.concat ", " (map o_sat g)) (String.concat ", " (map o_inst g))
              s (mean_Z (map o_epoch g)) e (e - s) None)
  end.


(** coverage.py:351: revisit = start - previous end. *)
Definition set_revisit (prev : option Z) (a : agg) : agg :=
  mk_agg (a_point a) (a_sat a) (a_inst a) (a_start a) (a_epoch a) (a_end a) (a_access a)
    (match prev with None => None | Some e => Some (a_start a - e) end).

(** The body of the loop over points, coverage.py:332-353. *)
Definition aggregate_point (srt : list obs -> list obs) (rows : list obs) : list agg :=
  let sorted := srt rows in
  let numbered := combine (obs_numbers sorted) sorted in
  let dissolved := filter_some (map (fun g => dissolve_obs (map snd g)) (group_by fst numbered)) in
  zip_with set_revisit (shift (map a_end dissolved)) dissolved.

(** aggregate_observations, coverage.py:316-355 (the empty input gives the
    empty frame, coverage.py:328-329). *)
Definition aggregate_observations (srt : list obs -> list obs) (rows : list obs) : list agg :=
  flat_map (aggregate_point srt) (group_by o_point rows).

(** ** Reduction *)

(** A reduced record, coverage.py:396-403; durations are exact rationals in the
    time unit (the conversions to seconds and back, coverage.py:391-392 and
    405-408, are units only; rounding to microseconds is not modelled). *)
Record red := mk_red { r_point : Z; r_access : Q; r_revisit : option Q; r_samples : Z }.

(** pandas "mean" skips missing values and is missing if nothing is left. coverage.py:399-400. *)
Definition mean_opt (l : list (option Z)) : option Q :=
  match filter_some l with [] => None | m => Some (mean_Z m) end.

(** dissolve("point_id"), coverage.py:396-403, of one group. *)
Definition reduce_group (g : list agg) : option red :=
  match g with
  | [] => None
  | x :: _ => Some (mk_red (a_point x) (mean_Z (map a_access g))
                      (mean_opt (map a_revisit g)) (sum_Z (map (fun _ => 1) g)))
  end.

(** reduce_observations, coverage.py:375-409. *)
Definition reduce_observations (rows : list agg) : list red :=
  filter_some (map reduce_group (group_by a_point rows)).

(** ** Gridding *)

(** A cell row: its data-frame label, its cell_id and its geometry (opaque).
    The cells argument of coverage.py:412-414. *)
Record cell (G : Type) := mk_cell { c_label : Z; c_id : Z; c_geom : G }.
Arguments mk_cell {G}. Arguments c_label {G}. Arguments c_id {G}. Arguments c_geom {G}.

(** A gridded record, coverage.py:436-452. *)
Record grid_row := mk_grid { g_cell : Z; g_samples : Z; g_access : option Q; g_revisit : option Q }.

(** [cells.sjoin(gdf, how="inner", predicate="contains")], coverage.py:437: one row
    per (cell, contained point); the row keeps the label of the cell. *)
Definition sjoin {G R} (contains : G -> R -> bool) (cells : list (cell G)) (rows : list R)
  : list (cell G * R) :=
  flat_map (fun c => map (fun r => (c, r)) (filter (contains (c_geom c)) rows)) cells.

(** [gdf.loc[label, "samples"]] on a frame with the default index 0,1,2,...
    (reduced frames come from reset_index, coverage.py:403). *)
Definition loc {R A} (f : R -> A) (rows : list R) (label : Z) : pyres A :=
  if label <? 0 then Raise KeyError
  else match nth_error rows (Z.to_nat label) with
       | Some r => Ok (f r)
       | None => Raise KeyError
       end.


(** np.average(values, weights): missing values propagate; a zero weight sum
    raises ZeroDivisionError. coverage.py:442-443. *)
Definition np_average (vals : list (option Q)) (weights : list Z) : pyres (option Q) :=
  if sum_Z weights =? 0 then Raise ZeroDivisionError
  else if forallb (fun v => match v with None => false | Some _ => true end) vals
  then Ok (Some (sum_Q (zip_with (fun v w => (v * inject_Z w)%Q) (filter_some vals) weights)
                 / inject_Z (sum_Z weights))%Q)
  else Ok None.

(** The aggregation functions of coverage.py:440-444 for one cell_id group:
    weights are looked up in the reduced frame [rows] by the label of the joined
    row, which is the label of the cell. *)
Definition grid_group {G R} (samples : R -> Z) (rows : list R) (vals : R -> option Q)
    (g : list (cell G * R)) : pyres (option Q) :=
  bind (mapM (fun p => loc samples rows (c_label (fst p))) g)
       (fun w => np_average (map (fun p => vals (snd p)) g) w).

(** grid_observations, coverage.py:412-453. *)
Definition grid_observations {G} (contains : G -> red -> bool)
    (rows : list red) (cells : list (cell G)) : pyres (list grid_row) :=
  match rows with
  | [] => Ok (map (fun c => mk_grid (c_id c) 0 None None) cells)
  | _ =>
      let groups := group_by (fun p => c_id (fst p)) (sjoin contains cells rows) in
      let row (g : list (cell G * red)) : pyres grid_row :=
        bind (grid_group r_samples rows (fun r => Some (r_access r)) g) (fun a =>
        bind (grid_group r_samples rows r_revisit g) (fun v =>
        Ok (mk_grid (match g with [] => 0 | p :: _ => c_id (fst p) end)
                    (sum_Z (map (fun p => r_samples (snd p)) g)) a v))) in
      mapM row groups
  end.
