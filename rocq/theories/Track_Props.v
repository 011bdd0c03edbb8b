(** Properties of orbit tracks, ground tracks and ground pixels: C88-C92, C115-C120, C137. *)
From Coq Require Import String Reals ZArith List Bool Lra Lia Sorting.Permutation Sorting.Sorted.
From Verif Require Import Base RBase RFacts Tle_Model Instr_Model Instr_Spec Geom_Model Geom_Spec Poly_Model Poly_Spec Poly_Proofs Track_Model Track_Spec Track_Proofs Track_Proofs2 Track_Proofs3 Track_Proofs4 Track_Proofs5.
Import ListNotations.
Open Scope Z_scope.

(** *** C88 *)
Theorem c88_rows : forall W sa times idx i elevation c v f1 f2 f3, picks (sa_instruments sa) idx i ->
  exists rows, collect_orbit_track W sa times idx elevation None c v f1 f2 f3 = Ok rows
    /\ Forall2 (orbit_row_for W sa i elevation c v f1 f2 f3) times rows.
Proof. exact orbit_rows_lemma. Qed.
Print Assumptions c88_rows.
(** With a mask and geodetic coordinates: the rows of the times whose sub-satellite point the mask contains,
    up to the order gpd.clip leaves them in. *)
Theorem c88_masked_partial : forall W sa times idx i elevation (k : mask (w_G W)) v f1 f2 f3, picks (sa_instruments sa) idx i ->
  clip_keeps (w_clip_order W) -> (forall x y, m_contains k x y = true -> m_intersects k x y = true) ->
  exists rows unordered, collect_orbit_track W sa times idx elevation (Some k) WGS84 v f1 f2 f3 = Ok rows
    /\ Permutation rows unordered /\ Forall2 (orbit_row_for W sa i elevation WGS84 v f1 f2 f3) (times_in W k times) unordered.
Proof. exact orbit_masked_lemma. Qed.
Print Assumptions c88_masked_partial.
(** With Earth-fixed coordinates the final clip compares metres with degrees and drops rows. *)
Theorem c88_masked_refuted : exists (W : world) sa times i elevation (k : mask (w_G W)) c, picks (sa_instruments sa) 0 i
  /\ clip_keeps (w_clip_order W) /\ (forall x y, m_contains k x y = true -> m_intersects k x y = true)
  /\ times_in W k times <> [] /\ collect_orbit_track W sa times 0 elevation (Some k) c false false false false = Ok [].
Proof. exact masked_wrong. Qed.
Print Assumptions c88_masked_refuted.
Example c88_witness : picks (sa_instruments ex_sat) 0 ex_instr /\ clip_keeps (w_clip_order ex_crossing_world)
  /\ (forall x y, m_contains ex_mask x y = true -> m_intersects ex_mask x y = true)
  /\ times_in ex_crossing_world ex_mask [0; 1; 2; 3; 4] = [2; 3; 4].
Proof. split; [exact ex_picks|]. split; [apply ex_clip_keeps|]. split; [auto|exact ex_times_in]. Qed.

(** *** C89 *)
Theorem c89_grouping : forall t0 period rows, 0 < period -> exists ig : list (list nat),
  map (map Some) (line_groups t0 period rows) = map (map (nth_error rows)) ig /\ grouped t0 period rows ig.
Proof. exact grouping_lemma. Qed.
Print Assumptions c89_grouping.
Example c89_witness : forall w0 w1 w2 w3 w4 g0 g1 g2 g3 g4 n,
  let r0 := mk_orow 0 n n w0 true g0 None None None None in let r1 := mk_orow 1 n n w1 true g1 None None None None in
  let r2 := mk_orow 2 n n w2 false g2 None None None None in let r3 := mk_orow 3 n n w3 true g3 None None None None in
  let r4 := mk_orow 4 n n w4 true g4 None None None None in
  line_groups 0 1000 [r0; r1; r2; r3; r4] = [[r0; r1]; [r3; r4]] /\ line_groups 0 4 [r0; r1; r2; r3; r4] = [[r0; r1]; [r3]; [r4]].
Proof. intros. split; reflexivity. Qed.

(** *** C90 *)
(** If every run has two samples and does not cross the antimeridian, every run is buffered with its own
    width and attached to its own row. *)
Theorem c90_own_geometry_partial : forall W sa times idx elevation code period track,
  0 < period -> collect_orbit_track W sa times idx elevation None WGS84 false false false false = Ok track ->
  exists ig, grouped (hd 0 times) period track ig
    /\ ((forall g, In g ig -> plain_run (rows_at track g)) ->
        exists rows, compute_ground_track W sa times idx elevation None (Crs code) MLine period false = Ok rows
          /\ Forall2 (fun g r => own_row W code elevation (rows_at track g) r) ig rows).
Proof. exact line_lemma. Qed.
Print Assumptions c90_own_geometry_partial.
(** A run that crosses the antimeridian becomes several segments, the following rows get its pieces, and the
    last segments are lost: a valid sample is covered by no row. *)
Theorem c90_lost_segment_refuted : exists (W : world) (covers : w_G W -> pt -> Prop) sa times code elevation period rows,
  collect_ground_track W sa times 0 elevation None (Crs code) <> Raise IndexError /\ is_union covers (w_union W)
  /\ (forall l w x, In x l -> covers (w_buffer_line W code elevation l w) x)
  /\ compute_ground_track W sa times 0 elevation None (Crs code) MLine period false = Ok rows
  /\ exists track r, collect_orbit_track W sa times 0 elevation None WGS84 false false false false = Ok track /\ In r track /\ o_valid r = true
     /\ forall s, In s rows -> ~ covers (g_geom s) (px (o_geom r), py (o_geom r), elevation).
Proof. exact line_wrong. Qed.
Print Assumptions c90_lost_segment_refuted.
Example c90_witness : plain_run [mk_orow 3 (sa_name ex_sat) (in_name ex_instr) None true (10, 0, 500000)%R None None None None;
  mk_orow 4 (sa_name ex_sat) (in_name ex_instr) None true (11, 0, 500000)%R None None None None].
Proof.
  split; [cbn; lia|]. cbn. intros a b (l1 & l2 & E). destruct l1 as [|x [|y l1]]; cbn in E; injection E as; subst.
  - apply Rabs_def1; lra.
  - discriminate.
  - destruct l1; discriminate.
Qed.

(** *** C91 *)
Theorem c91_utm : forall clipped query x y swath b,
  clipped x y (degrees (swath / 2 / EARTH_MEAN_RADIUS))%R = Some b ->
  let north := (y + degrees (swath / 2 / EARTH_MEAN_RADIUS))%R in
  let south := (y - degrees (swath / 2 / EARTH_MEAN_RADIUS))%R in
  exists code, get_utm_epsg_code clipped query x y swath = Ok code
    /\ ((84 < north)%R -> code = lit "EPSG:5041"%string)
    /\ ((north <= 84)%R -> (south < -80)%R -> code = lit "EPSG:5042"%string)
    /\ ((north <= 84)%R -> (-80 <= south)%R -> forall c l, query b = c :: l -> code = (lit "EPSG:"%string ++ c)%list)
    /\ ((north <= 84)%R -> (-80 <= south)%R -> query b = [] -> code = lit "EPSG:4087"%string).
Proof. exact utm_lemma. Qed.
Print Assumptions c91_utm.
Example c91_witness : let clipped := fun x y r : R => Some (Rmax (-180) (x - r), Rmax (-90) (y - r), Rmin 180 (x + r), Rmin 90 (y + r)) in
  exists b, clipped 10%R 45%R (degrees (200000 / 2 / EARTH_MEAN_RADIUS))%R = Some b.
Proof. eexists. reflexivity. Qed.

(** *** C92 *)
Theorem c92_rows : forall W sa times idx i p elevation, picks (sa_instruments sa) idx i -> in_pointed i = Some p -> pi_rect p = true ->
  exists rows, collect_ground_pixels W sa times idx elevation None = Ok rows /\ Forall2 (pixel_row_for W sa i p elevation) (grid p times) rows.
Proof. exact pixels_lemma. Qed.
Print Assumptions c92_rows.
Theorem c92_count : forall p times, length (grid p times) = (length times * (pi_cross_pixels p * pi_along_pixels p))%nat.
Proof. exact grid_count. Qed.
Print Assumptions c92_count.
Theorem c92_not_rectangular : forall W sa times idx i elevation m, times <> [] -> picks (sa_instruments sa) idx i ->
  (forall p, in_pointed i = Some p -> pi_rect p = false) -> collect_ground_pixels W sa times idx elevation m = Raise ValueError.
Proof. exact pixels_bad_lemma. Qed.
Print Assumptions c92_not_rectangular.
Theorem c92_masked : forall W sa times idx i p elevation (k : mask (w_G W)), picks (sa_instruments sa) idx i -> in_pointed i = Some p -> pi_rect p = true ->
  clip_keeps (w_clip_order W) -> (forall t, In t times -> pixel_cull_sound W k i p elevation t) ->
  exists all rows, collect_ground_pixels W sa times idx elevation None = Ok all
    /\ collect_ground_pixels W sa times idx elevation (Some k) = Ok rows
    /\ Permutation rows (filter (fun r => m_intersects k (px (p_geom r)) (py (p_geom r))) all).
Proof. exact pixels_masked_lemma. Qed.
Print Assumptions c92_masked.
Example c92_witness : grid ex_pixels [7; 8] = [(7%Z, (0, 0)); (7%Z, (0, 1)); (7%Z, (1, 0)); (7%Z, (1, 1)); (7%Z, (2, 0)); (7%Z, (2, 1));
  (8%Z, (0, 0)); (8%Z, (0, 1)); (8%Z, (1, 0)); (8%Z, (1, 1)); (8%Z, (2, 0)); (8%Z, (2, 1))]%nat.
Proof. reflexivity. Qed.
Example c92_cull_witness : forall t, pixel_cull_sound ex_crossing_world
  (mk_mask (fun _ _ => true) (fun _ _ => true) (fun _ _ => true) (fun _ => true) Some) (mk_instr [] 40 (mk_req None None) (Some ex_pixels)) ex_pixels 0 t.
Proof. intros t ij _ _. split; reflexivity. Qed.

(** *** C115 *)
Theorem c115_rows : forall W sa times idx i elevation src, picks (sa_instruments sa) idx i ->
  exists rows, collect_ground_track W sa times idx elevation None src = Ok rows /\ Forall2 (ground_row_for W sa i elevation src) times rows.
Proof. exact ground_rows_lemma. Qed.
Print Assumptions c115_rows.
Theorem c115_masked_partial : forall W sa times idx i elevation (k : mask (w_G W)) src, picks (sa_instruments sa) idx i ->
  clip_keeps (w_clip_order W) -> (forall t, In t times -> cull_sound W k i elevation src t) ->
  exists all rows, collect_ground_track W sa times idx elevation None src = Ok all
    /\ collect_ground_track W sa times idx elevation (Some k) src = Ok rows
    /\ Permutation rows (filter_some (map (cut_row k) all)).
Proof. exact ground_masked_lemma. Qed.
Print Assumptions c115_masked_partial.
(** An instrument whose footprint is narrower than its field of regard, with a crs other than spice. *)
Theorem c115_masked_refuted : exists (W : world) sa times i elevation (k : mask (w_G W)) code all, picks (sa_instruments sa) 0 i
  /\ clip_keeps (w_clip_order W) /\ (forall g, m_meets k g = true <-> m_cut k g <> None)
  /\ collect_ground_track W sa times 0 elevation None (Crs code) = Ok all /\ filter_some (map (cut_row k) all) <> []
  /\ collect_ground_track W sa times 0 elevation (Some k) (Crs code) = Ok [].
Proof. exact narrow_wrong. Qed.
Print Assumptions c115_masked_refuted.
Example c115_witness : forall t, -15 <= t <= 16 -> cull_sound ex_narrow (interval_mask 5 6) ex_instr 0 Spice t.
Proof.
  intros t T H. cbn in *. destruct T as [T1 T2]. apply IZR_le in T1, T2. destruct (Rleb 5 (IZR t + 1)) eqn:A1; [|now contradiction H]. destruct (Rleb (IZR t - 1) 6) eqn:B1; [|now contradiction H].
  apply Rleb_spec in A1, B1. split; [|reflexivity]. rewrite !(proj2 (Rleb_spec _ _)) by lra. reflexivity.
Qed.

(** *** C116 *)
Theorem c116_covers : forall W X (covers : w_G W -> X -> Prop) sa times idx elevation m src period d track, is_union covers (w_union W) ->
  collect_ground_track W sa times idx elevation m src = Ok track ->
  exists rows, compute_ground_track W sa times idx elevation m src MPoint period d = Ok rows
    /\ (forall x, (exists r, In r rows /\ covers (g_geom r) x) <-> exists r, In r track /\ g_valid r = true /\ covers (g_geom r) x)
    /\ (d = true -> (length rows <= 1)%nat).
Proof. exact point_covers_lemma. Qed.
Print Assumptions c116_covers.
Theorem c116_orbits : forall W X (covers : w_G W -> X -> Prop) sa times idx elevation m src period track, is_union covers (w_union W) -> 0 < period ->
  collect_ground_track W sa times idx elevation m src = Ok track ->
  exists rows, compute_ground_track W sa times idx elevation m src MPoint period false = Ok rows
    /\ StronglySorted (fun r s => earlier_orbit (hd 0 times) period (g_time r) (g_time s)) rows
    /\ (forall s, In s track -> g_valid s = true -> exists r, In r rows /\ same_orbit (hd 0 times) period (g_time s) (g_time r))
    /\ (forall r, In r rows -> g_valid r = true /\ (exists s, In s track /\ g_valid s = true /\ g_time r = g_time s /\ g_sat r = g_sat s /\ g_instr r = g_instr s)
         /\ forall x, covers (g_geom r) x <-> exists s, In s track /\ g_valid s = true /\ same_orbit (hd 0 times) period (g_time s) (g_time r) /\ covers (g_geom s) x).
Proof. exact point_rows_lemma. Qed.
Print Assumptions c116_orbits.
Example c116_witness : is_union (fun (g : w_G ex_crossing_world) x => In x g) (w_union ex_crossing_world)
  /\ exists track, collect_ground_track ex_crossing_world ex_sat [0; 1; 2; 3; 4] 0 0 None Spice = Ok track /\ map g_valid track = [true; true; false; true; true].
Proof.
  split; [apply ex_union|]. eexists. split; [apply (ground_none ex_crossing_world ex_sat _ 0 ex_instr), ex_picks|reflexivity].
Qed.

(** *** C117 *)
Theorem c117_first_orbit_partial : forall W sa times idx elevation src period i, picks (sa_instruments sa) idx i -> (0 < period)%Z ->
  (forall t, In t times -> w_reported W t = t) ->
  (forall t, In t times -> (0 <= t - hd 0%Z times < period)%Z) ->
  exists rows, compute_ground_track W sa times idx elevation None src MPoint period false = Ok rows /\ (length rows <= 1)%nat.
Proof. exact orbit_number_lemma. Qed.
Print Assumptions c117_first_orbit_partial.
(** With times reported to the millisecond, two samples two milliseconds apart count as two orbits. *)
Theorem c117_first_orbit_refuted : exists (W : world) sa times elevation src period rows, (0 < period)%Z
  /\ (forall t, w_reported W t = to_ms t) /\ (forall t, In t times -> same_orbit (hd 0%Z times) period (hd 0%Z times) t)
  /\ compute_ground_track W sa times 0 elevation None src MPoint period false = Ok rows /\ length rows = 2%nat.
Proof. exact orbit_number_wrong. Qed.
Print Assumptions c117_first_orbit_refuted.
Example c117_witness : (forall t, In t [0; 1; 2; 3; 4] -> w_reported ex_crossing_world t = t)
  /\ (forall t, In t [0; 1; 2; 3; 4] -> (0 <= t - hd 0%Z [0; 1; 2; 3; 4] < 1000)%Z).
Proof. split; intros t T; [reflexivity|]. cbn in T |- *. lia. Qed.

(** *** C118 *)
(** Every isolated valid sample makes the line method fail. *)
Theorem c118_isolated_sample : forall W sa times idx elevation m code period d track i r,
  0 < period -> collect_orbit_track W sa times idx elevation None WGS84 false false false false = Ok track ->
  nth_error track i = Some r -> o_valid r = true -> (forall j, together (hd 0 times) period track i j -> j = i) ->
  compute_ground_track W sa times idx elevation m (Crs code) MLine period d = Raise GEOSError.
Proof. exact line_single_lemma. Qed.
Print Assumptions c118_isolated_sample.
Theorem c118_total_refuted : exists W sa times elevation code period,
  0 < period /\ (exists track, collect_orbit_track W sa times 0 elevation None WGS84 false false false false = Ok track /\ track <> [])
  /\ compute_ground_track W sa times 0 elevation None (Crs code) MLine period false = Raise GEOSError.
Proof. exact line_fails. Qed.
Print Assumptions c118_total_refuted.
Theorem c118_total_partial : forall W sa times idx elevation code period track,
  0 < period -> collect_orbit_track W sa times idx elevation None WGS84 false false false false = Ok track ->
  exists ig, grouped (hd 0 times) period track ig
    /\ ((forall g, In g ig -> plain_run (rows_at track g)) ->
        exists rows, compute_ground_track W sa times idx elevation None (Crs code) MLine period false = Ok rows /\ length rows = length ig).
Proof. exact line_total_lemma. Qed.
Print Assumptions c118_total_partial.
(** Exactly when it fails: some run has a single sample.  Otherwise there is one row for every run, with the
    attributes of the run's first sample. *)
Theorem c118_exact : forall W sa times idx elevation code period track, splits_line (w_split_line W) -> 0 < period ->
  collect_orbit_track W sa times idx elevation None WGS84 false false false false = Ok track ->
  exists ig, grouped (hd 0 times) period track ig
    /\ (((exists g, In g ig /\ length g = 1%nat) /\ compute_ground_track W sa times idx elevation None (Crs code) MLine period false = Raise GEOSError)
        \/ ((forall g, In g ig -> (2 <= length g)%nat)
            /\ exists rows, compute_ground_track W sa times idx elevation None (Crs code) MLine period false = Ok rows
               /\ Forall2 (fun g r => exists i s, hd_error g = Some i /\ nth_error track i = Some s /\ g_time r = o_time s /\ g_sat r = o_sat s /\ g_instr r = o_instr s) ig rows)).
Proof. exact line_exact_lemma. Qed.
Print Assumptions c118_exact.
Example c118_witness : exists track r, collect_orbit_track ex_crossing_world ex_sat [3] 0 0 None WGS84 false false false false = Ok track
  /\ nth_error track 0 = Some r /\ o_valid r = true /\ forall j, together 3 1000 track 0 j -> j = 0%nat.
Proof.
  eexists. eexists. split; [apply (collect_none ex_crossing_world ex_sat _ 0 ex_instr), ex_picks|]. split; [reflexivity|]. split; [reflexivity|].
  intros j (r & s & _ & J & _). destruct j as [|[|j]]; [reflexivity|discriminate|discriminate].
Qed.

(** *** C119 *)
Theorem c119_meridian_partial : forall radius distance lon a b, (0 < radius)%R -> (Rabs (b - a) <= 180)%R ->
  (radius * great_circle (mk_coord lon a None) (mk_coord lon b None) <= distance)%R -> in_target_buffer radius distance (lon, a) (lon, b).
Proof. exact target_meridian_lemma. Qed.
Print Assumptions c119_meridian_partial.
(** Near a pole a place two degrees away is not even in a buffer of 179 degrees. *)
Theorem c119_pole : forall radius, (0 < radius)%R ->
  (radius * great_circle (mk_coord 0 89 None) (mk_coord 180 89 None) <= radius * radians 2)%R
  /\ ~ in_target_buffer radius (radius * radians 179) (0, 89)%R (180, 89)%R.
Proof. exact target_pole_lemma. Qed.
Print Assumptions c119_pole.
Theorem c119_contains_refuted : exists radius distance target point,
  (0 < radius)%R /\ (radius * great_circle target point <= distance)%R /\ ~ in_target_buffer radius distance (cx target, cy target) (cx point, cy point).
Proof. exact target_wrong. Qed.
Print Assumptions c119_contains_refuted.
(** The distance is the least that finds, from the samples of the track, everything that comes within half a swath of it. *)
Theorem c119_distance : forall h i f step, above h 0 -> (h <= 35000000)%R -> (0 <= f <= 360)%R -> (0 <= step)%R ->
  exists v w d, compute_ground_velocity h i = Some v /\ field_of_regard_to_swath_width h f 0 = Some w /\ buffer_distance h i f step 1 = Some d
    /\ enough v step w d /\ (forall d', enough v step w d' -> (d <= d')%R) /\ (forall k, buffer_distance h i f step k = Some (k * d)%R).
Proof. exact distance_lemma. Qed.
Print Assumptions c119_distance.
Example c119_distance_witness : above 500000 0.
Proof. unfold above. pose proof EMR_bounds. lra. Qed.
Example c119_witness : (0 < 6371000)%R /\ (Rabs (20 - 10) <= 180)%R.
Proof. split; [lra|]. rewrite Rabs_right; lra. Qed.

(** *** C120 *)
Theorem c120_bad_index : forall W sa times idx elevation m c v f1 f2 f3, times <> [] ->
  (idx < - Z.of_nat (length (sa_instruments sa)) \/ Z.of_nat (length (sa_instruments sa)) <= idx) ->
  collect_orbit_track W sa times idx elevation m c v f1 f2 f3 = Raise IndexError
  /\ (forall src, collect_ground_track W sa times idx elevation m src = Raise IndexError)
  /\ collect_ground_pixels W sa times idx elevation m = Raise IndexError.
Proof. exact bad_index_lemma. Qed.
Print Assumptions c120_bad_index.
Theorem c120_empty : forall W sa idx elevation m c v f1 f2 f3 src,
  collect_orbit_track W sa [] idx elevation m c v f1 f2 f3 = Ok [] /\ collect_ground_track W sa [] idx elevation m src = Ok []
  /\ collect_ground_pixels W sa [] idx elevation m = Ok [].
Proof. exact empty_lemma. Qed.
Print Assumptions c120_empty.
Theorem c120_method : forall W sa times idx elevation m src period d,
  compute_ground_track W sa times idx elevation m src MOther period d = Raise ValueError
  /\ compute_ground_track W sa times idx elevation m Spice MLine period d = Raise ValueError.
Proof. exact method_lemma. Qed.
Print Assumptions c120_method.
Example c120_witness : 1 <= Z.of_nat (length (sa_instruments ex_sat)) /\ py_index [10; 20; 30] (-1) = Ok 30 /\ py_index [10; 20; 30] (-4) = Raise IndexError.
Proof. repeat split; cbn; lia. Qed.

(** *** C137 *)
(** Every area of the line method is a buffer of a line on the way of one run, taken the short way around; when the run crosses
    the antimeridian at most once, the line does not leave the longitudes from -180 to 180. *)
Theorem c137_segments : forall W sa times idx elevation code period track rows, splits_line (w_split_line W) -> 0 < period ->
  collect_orbit_track W sa times idx elevation None WGS84 false false false false = Ok track ->
  compute_ground_track W sa times idx elevation None (Crs code) MLine period false = Ok rows ->
  exists ig, grouped (hd 0 times) period track ig
    /\ forall r, In r rows -> exists seg w g, In g ig /\ g_geom r = w_buffer_line W code elevation seg w
         /\ (forall q, In q seg -> pz q = elevation /\ on_path (rows_at track g) q)
         /\ (crosses_once (rows_at track g) -> (forall s, In s (rows_at track g) -> (-180 <= px (o_geom s) <= 180)%R) -> forall q, In q seg -> (-180 <= px q <= 180)%R).
Proof. exact line_path_lemma. Qed.
Print Assumptions c137_segments.
Example c137_witness : splits_line edge_split /\ crosses_once ex_run /\ ~ no_jump ex_run /\ forall s, In s ex_run -> (-180 <= px (o_geom s) <= 180)%R.
Proof. split; [exact edge_splits|exact ex_run_once]. Qed.
