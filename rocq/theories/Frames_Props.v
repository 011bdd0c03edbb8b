(** Properties of the columns of results: C146 and C147. *)
From Coq Require Import String List Bool Arith Lia.
From Verif Require Import Base Frames_Model Frames_Spec Frames_Proofs Frames_Proofs2.
Import ListNotations.
Open Scope string_scope.
Open Scope list_scope.

(** *** C146 *)
(** Full statement: every analysis function returns the documented columns, whether or not there is anything to report.
    True of collected observations, downlinks, occultations, reduced results, tracks without optional columns and
    aggregated ground tracks. *)
Theorem c146_observations_partial : forall omit,
  (forall n, columns_are (collect_observations omit n) (observation_columns omit) /\ nrows (collect_observations omit n) = n)
  /\ (forall ns, ns <> [] -> exists f, collect_multi_observations omit ns = Ok f /\ columns_are f (observation_columns omit)
       /\ (nrows f = 0%nat <-> Forall (fun n => n = 0%nat) ns)).
Proof. exact (fun omit => conj (observations_columns omit) (multi_columns omit)). Qed.
Print Assumptions c146_observations_partial.
(** Without any instrument there is no frame at all, not even an empty one. *)
Theorem c146_no_instruments_refuted : forall omit, exists ns, collect_multi_observations omit ns = Raise ValueError
  /\ forall ns', collect_multi_observations omit ns' = Raise ValueError -> ns' = ns.
Proof.
  intro omit. exists []. split; [reflexivity|]. intros [|n ns'] H; [reflexivity|]. exfalso.
  destruct (multi_columns omit (n :: ns') ltac:(discriminate)) as [f [E _]]. congruence.
Qed.
Print Assumptions c146_no_instruments_refuted.

Theorem c146_downlinks_partial : forall n, exists f, collect_downlinks n = Ok f /\ columns_are f downlink_columns /\ nrows f = n.
Proof. exact downlinks_columns. Qed.
Print Assumptions c146_downlinks_partial.

Theorem c146_occultations_partial : forall n, exists f, collect_ro_observations n = Ok f /\ columns_are f occultation_columns /\ nrows f = n.
Proof.
  intros [|n]; (eexists; split; [reflexivity|]; split; [apply columns_check; reflexivity|reflexivity]).
Qed.
Print Assumptions c146_occultations_partial.

(** Aggregated observations and latencies have their columns when there are rows. *)
Theorem c146_aggregate_partial : forall parts obs omit, splits_rows parts -> columns_are obs (observation_columns omit) ->
  exists f, aggregate_observations parts obs = Ok f /\ (nrows f = 0%nat <-> nrows obs = 0%nat)
    /\ (nrows obs <> 0%nat -> columns_are f aggregate_columns) /\ (nrows obs = 0%nat -> f = empty_aggregate_frame).
Proof. exact aggregate_columns_ok. Qed.
Print Assumptions c146_aggregate_partial.

Theorem c146_latencies_partial : forall obs omit down, columns_are obs (observation_columns omit) -> columns_are down downlink_columns ->
  exists f, compute_latencies obs down = Ok f
    /\ (nrows obs <> 0%nat -> nrows down <> 0%nat -> columns_are f latency_columns /\ nrows f = nrows obs)
    /\ (nrows obs = 0%nat \/ nrows down = 0%nat -> f = empty_latency_frame).
Proof. exact latencies_columns. Qed.
Print Assumptions c146_latencies_partial.

Theorem c146_reduced_partial : forall points f, (forall g, nrows g <> 0%nat -> points g <> 0%nat) ->
  (nrows f = 0%nat \/ columns_are f aggregate_columns ->
   exists g, reduce_observations points f = Ok g /\ columns_are g reduced_columns /\ (nrows g = 0%nat <-> nrows f = 0%nat))
  /\ (nrows f = 0%nat \/ columns_are f latency_columns ->
   exists g, reduce_latencies points f = Ok g /\ columns_are g reduced_latency_columns /\ (nrows g = 0%nat <-> nrows f = 0%nat)).
Proof.
  intros points f P. split; intro H.
  - destruct (Nat.eq_dec (nrows f) 0) as [Z|Z].
    + unfold reduce_observations, empty. rewrite Z. eexists. split; [reflexivity|]. split; [apply columns_check; reflexivity|reflexivity].
    + destruct H as [H|[N H]]; [contradiction|]. apply reduce_like; [exact P|]. split; [exact N|]. split; intros; apply H; assumption.
  - apply reduce_latencies_ok; [exact P|]. destruct H as [H|H]; [congruence|auto].
Qed.
Print Assumptions c146_reduced_partial.

(** Tracks have the optional columns that were asked for when something is left after culling. *)
Theorem c146_tracks_partial : forall n m, n <> 0%nat -> kept n m <> 0%nat ->
  (forall v s a b, columns_are (collect_orbit_track n m v s a b) (orbit_track_columns v s a b))
  /\ (forall a b, columns_are (collect_ground_track n m a b) (ground_track_columns a b))
  /\ (forall p a b, columns_are (collect_ground_pixels n p m a b) (ground_track_columns a b)).
Proof.
  intros n m N K. split; [intros; now apply orbit_track_columns_ok|]. split; intros; [now apply ground_track_columns_ok|now apply pixels_columns_ok].
Qed.
Print Assumptions c146_tracks_partial.

Theorem c146_plain_tracks_partial : forall n m,
  columns_are (collect_orbit_track n m false false false false) (orbit_track_columns false false false false)
  /\ columns_are (collect_ground_track n m false false) (ground_track_columns false false)
  /\ (forall p, columns_are (collect_ground_pixels n p m false false) (ground_track_columns false false))
  /\ (forall o d, gives (compute_ground_track_point n m o d) (ground_track_columns false false))
  /\ (forall o d, gives (compute_ground_track_line n m o d) (orbit_track_columns false false false false)).
Proof.
  intros n m. split; [apply orbit_track_plain|]. split; [apply ground_track_plain|]. split; [intro; apply pixels_plain|]. split; intros; [apply point_columns|apply line_columns].
Qed.
Print Assumptions c146_plain_tracks_partial.

(** What is left of the columns when there is nothing to report. *)
Theorem c146_bare_partial : (forall parts obs, nrows obs = 0%nat -> exists f, aggregate_observations parts obs = Ok f /\ columns_are f bare_aggregate_columns /\ nrows f = 0%nat)
  /\ (forall obs down, nrows obs = 0%nat \/ nrows down = 0%nat -> exists f, compute_latencies obs down = Ok f /\ columns_are f bare_latency_columns /\ nrows f = 0%nat).
Proof. exact bare_lemma. Qed.
Print Assumptions c146_bare_partial.
Theorem c146_dop_partial : forall n, columns_are (compute_dop n) ["dop"; "geometry"] /\ nrows (compute_dop n) = n.
Proof. exact dop_lemma. Qed.
Print Assumptions c146_dop_partial.
(** Rows: one per position that the mask lets through (times the number of pixels), one per orbit, or one. *)
Theorem c146_rows_partial : forall n m, n <> 0%nat ->
  (forall v s a b, nrows (collect_orbit_track n m v s a b) = rows_of n m)
  /\ (forall a b, nrows (collect_ground_track n m a b) = rows_of n m)
  /\ (forall p a b, nrows (collect_ground_pixels n p m a b) = rows_of (n * p) m).
Proof. exact rows_lemma. Qed.
Print Assumptions c146_rows_partial.
Theorem c146_line_rows_partial : forall n m o, exists f, compute_ground_track_line n m o false = Ok f /\ nrows f = match m with None => o | Some (_, c) => c end
  /\ exists g, compute_ground_track_line n m o true = Ok g /\ nrows g = Nat.min 1 (nrows f).
Proof. exact line_rows. Qed.
Print Assumptions c146_line_rows_partial.
Theorem c146_point_rows_partial : forall n m o, n <> 0%nat -> exists f, compute_ground_track_point n m o false = Ok f /\ nrows f = (if Nat.eqb (rows_of n m) 0 then 0 else o)%nat
  /\ exists g, compute_ground_track_point n m o true = Ok g /\ nrows g = Nat.min 1 (nrows f).
Proof. exact point_rows. Qed.
Print Assumptions c146_point_rows_partial.

(** Without observations the aggregated frame has no access and no revisit column. *)
Theorem c146_aggregate_refuted : exists omit obs, columns_are obs (observation_columns omit) /\ forall parts, splits_rows parts ->
  exists f, aggregate_observations parts obs = Ok f /\ ~ In "access" (cols f) /\ ~ In "revisit" (cols f).
Proof.
  exists true, (collect_observations true 0). split; [apply observations_columns|]. intros parts _. eexists. split; [reflexivity|]. cbn. split; intuition discriminate.
Qed.
Print Assumptions c146_aggregate_refuted.

(** Without downlinks (or observations) the frame of latencies has no altitude and azimuth of the satellite. *)
Theorem c146_latencies_refuted : exists omit obs down, columns_are obs (observation_columns omit) /\ nrows obs <> 0%nat /\ columns_are down downlink_columns
  /\ exists f, compute_latencies obs down = Ok f /\ ~ In "sat_alt" (cols f) /\ ~ In "sat_az" (cols f).
Proof.
  exists true, (collect_observations true 3), empty_downlinks_frame. split; [apply observations_columns|]. split; [discriminate|]. split; [apply columns_check; reflexivity|].
  eexists. split; [reflexivity|]. cbn. split; intuition discriminate.
Qed.
Print Assumptions c146_latencies_refuted.

(** Tracks of which the mask leaves nothing lack the optional columns. *)
Theorem c146_tracks_refuted : exists n m, n <> 0%nat
  /\ ~ In "velocity" (cols (collect_orbit_track n m true true true true)) /\ ~ In "solar_beta" (cols (collect_orbit_track n m true true true true))
  /\ ~ In "sat_alt" (cols (collect_ground_track n m true true)) /\ forall p, ~ In "solar_alt" (cols (collect_ground_pixels n p m true true)).
Proof.
  exists 5%nat, (Some (0%nat, 0%nat)). split; [discriminate|]. cbn. repeat split; try intro; intuition discriminate.
Qed.
Print Assumptions c146_tracks_refuted.

(** Cells with further columns keep them only when there is nothing to grid. *)
Theorem c146_grid_refuted : exists cells joined full f g, columns_are full reduced_columns /\ nrows full <> 0%nat
  /\ grid_observations joined empty_reduce_frame cells = Ok f /\ grid_observations joined full cells = Ok g
  /\ In "name" (cols f) /\ ~ In "name" (cols g).
Proof.
  exists (mk_frame ["cell_id"; "geometry"; "name"] 4), (fun _ _ => (2, 2)%nat), (mk_frame reduced_columns 2). eexists. eexists.
  split; [apply columns_check; reflexivity|]. split; [discriminate|]. split; [reflexivity|]. split; [reflexivity|]. cbn. split; intuition discriminate.
Qed.
Print Assumptions c146_grid_refuted.

Example c146_witness : splits_rows (fun f => [(nrows f, 1%nat)]) /\ columns_are (collect_observations false 7) (observation_columns false)
  /\ columns_are (mk_frame downlink_columns 2) downlink_columns /\ kept 5 (Some (2, 1)%nat) <> 0%nat.
Proof.
  split; [|split; [apply observations_columns|split; [apply columns_check; reflexivity|discriminate]]]. intros f H. split; [discriminate|]. constructor; [|constructor]. cbn. auto.
Qed.

(** *** C147 *)
(** Full statement: results of every step can be passed to the later steps.  The documented chains never miss a column, also
    when some or all of the intermediate results are empty. *)
Theorem c147_coverage_partial : forall omit parts points joined n nss, splits_rows parts -> (forall g, nrows g <> 0%nat -> points g <> 0%nat) ->
  nss <> [] -> Forall (fun ns => ns <> []) nss ->
  gives (bind (mapM (fun ns => bind (collect_multi_observations omit ns) (aggregate_observations parts)) nss) (fun fs =>
         bind (concat fs) (fun f => bind (reduce_observations points f) (fun g => grid_observations joined g (generated_cells n))))) grid_columns.
Proof. exact coverage_chain. Qed.
Print Assumptions c147_coverage_partial.

Theorem c147_latency_partial : forall omit points joined n ns d, (forall g, nrows g <> 0%nat -> points g <> 0%nat) -> ns <> [] ->
  gives (bind (collect_multi_observations omit ns) (fun obs => bind (collect_downlinks d) (fun down =>
         bind (compute_latencies obs down) (fun f => bind (reduce_latencies points f) (fun g => grid_latencies joined g (generated_cells n)))))) grid_latency_columns.
Proof. exact latency_chain. Qed.
Print Assumptions c147_latency_partial.

(** Aggregated observations cannot be passed to compute_latencies. *)
Theorem c147_aggregated_latency_fails : forall parts obs omit down f, splits_rows parts -> columns_are obs (observation_columns omit) -> nrows obs <> 0%nat ->
  columns_are down downlink_columns -> nrows down <> 0%nat -> aggregate_observations parts obs = Ok f -> compute_latencies f down = Raise KeyError.
Proof. exact aggregated_latency. Qed.
Print Assumptions c147_aggregated_latency_fails.

Theorem c147_aggregated_latency_refuted : exists parts obs down f, splits_rows parts /\ columns_are obs (observation_columns true)
  /\ columns_are down downlink_columns /\ aggregate_observations parts obs = Ok f /\ compute_latencies f down = Raise KeyError.
Proof.
  exists (fun f => [(nrows f, 1%nat)]), (collect_observations true 2), (mk_frame downlink_columns 2). eexists. split; [exact (proj1 c146_witness)|]. split; [apply observations_columns|].
  split; [apply columns_check; reflexivity|]. split; reflexivity.
Qed.
Print Assumptions c147_aggregated_latency_refuted.

(** Cells that already have a column of samples cannot be used. *)
Theorem c147_sampled_cells_refuted : exists cells joined reduced, columns_are reduced reduced_columns /\ In "cell_id" (cols cells) /\ In "geometry" (cols cells)
  /\ grid_observations joined reduced cells = Raise KeyError.
Proof.
  exists (mk_frame ["cell_id"; "geometry"; "samples"] 4), (fun _ _ => (2, 2)%nat), (mk_frame reduced_columns 2).
  split; [apply columns_check; reflexivity|]. split; [cbn; auto|]. split; [cbn; auto|]. reflexivity.
Qed.
Print Assumptions c147_sampled_cells_refuted.

Example c147_witness : splits_rows (fun f => [(nrows f, 1%nat)]) /\ (forall g, nrows g <> 0%nat -> nrows g <> 0%nat)
  /\ Forall (fun ns => ns <> []) [[2; 0]; [0]]%nat
  /\ exists f, aggregate_observations (fun f => [(nrows f, 1%nat)]) (collect_observations true 2) = Ok f.
Proof.
  split; [exact (proj1 c146_witness)|]. split; [auto|]. split; [repeat constructor; discriminate|]. eexists. reflexivity.
Qed.
