(** Columns of the data frames that the analysis functions return and pass on: a frame is the list of its column
    names and its number of rows.  The values are modelled elsewhere (Coverage_Model, Latency_Model, Track_Model,
    Ro_Model, Dop_Model); column types and the order of rows are left out here.  How many rows a step yields is
    given by arguments. *)
From Coq Require Import String List Bool Arith.
From Verif Require Import Base.
Import ListNotations.
Open Scope string_scope.
Open Scope list_scope.

(** ** pandas and geopandas *)
(** A GeoDataFrame (simplified as above). *)
Record frame := mk_frame { cols : list string; nrows : nat }.
(** Whether a frame has a column, in the uses of columns below (coverage.py, latency.py, track.py). *)
Definition has (f : frame) (c : string) : bool := existsb (String.eqb c) (cols f).
(** df.empty, coverage.py:328, 386, 425; latency.py:136, 231, 267; track.py:518. *)
Definition empty (f : frame) : bool := (nrows f =? 0)%nat.
(** Use of columns by name (e.g. coverage.py:336, 391-392): KeyError if one is missing. *)
Definition use (f : frame) (cs : list string) : pyres unit := if forallb (has f) cs then Ok tt else Raise KeyError.
(** df[c] = values (e.g. coverage.py:245-246, 336, 350-351): a new column is appended. *)
Definition assign (f : frame) (c : string) : frame := if has f c then f else mk_frame (cols f ++ [c]) (nrows f).
(** Several of these, coverage.py:245-259. *)
Definition assigns (f : frame) (cs : list string) : frame := fold_left assign cs f.
(** The columns of the first frame, then those only the second has (pd.concat, coverage.py:294). *)
Definition union (a b : list string) : list string := a ++ filter (fun c => negb (existsb (String.eqb c) a)) b.
(** pd.concat (coverage.py:294, 355): ValueError without frames; the columns of all frames. *)
Definition concat (fs : list frame) : pyres frame :=
  match fs with
  | [] => Raise ValueError
  | f :: r => Ok (fold_left (fun a b => mk_frame (union (cols a) (cols b)) (nrows a + nrows b)) r f)
  end.
(** df.sort_values(c), coverage.py:294, 334; latency.py:84, 141-142, 198. *)
Definition sort_values (f : frame) (c : string) : pyres frame := bind (use f [c]) (fun _ => Ok f).
(** df[[...]], latency.py:166-179. *)
Definition select (f : frame) (cs : list string) : pyres frame := bind (use f cs) (fun _ => Ok (mk_frame cs (nrows f))).
(** df.rename(columns=...), latency.py:153-164. *)
Definition rename (f : frame) (m : list (string * string)) : frame :=
  mk_frame (map (fun c => match find (fun p => String.eqb (fst p) c) m with Some p => snd p | None => c end) (cols f)) (nrows f).
(** GeoDataFrame.dissolve(by, aggfunc={...}), coverage.py:338-348, 396-403, 436-445; latency.py:240-246, 277-284: the groups become the index, the geometry comes first; [groups] is the
    number of groups.  Returns the frame without its index. *)
Definition dissolve (f : frame) (by_ : list string) (aggs : list string) (groups : nat) : pyres frame :=
  bind (use f ("geometry" :: by_ ++ aggs)) (fun _ => Ok (mk_frame ("geometry" :: aggs) groups)).
(** GeoDataFrame.dissolve(by) with the default aggfunc "first", track.py:525-529, 601, 607: all other columns are kept. *)
Definition dissolve_first (f : frame) (by_ : list string) (groups : nat) : pyres frame :=
  bind (use f ("geometry" :: by_)) (fun _ =>
    Ok (mk_frame ("geometry" :: filter (fun c => negb (existsb (String.eqb c) ("geometry" :: by_))) (cols f)) groups)).
(** reset_index(), coverage.py:403, 446; latency.py:246, 285: the index becomes the first column. *)
Definition reset_index (i : string) (f : frame) : frame := mk_frame (i :: cols f) (nrows f).
(** pd.merge_asof(left, right, by, left_on, right_on), latency.py:140-147, for different left_on and right_on: columns of both sides other than
    [by_] get the suffixes _x and _y. *)
Definition merge_asof (l r : frame) (by_ lon ron : string) : pyres frame :=
  bind (use l [by_; lon]) (fun _ => bind (use r [by_; ron]) (fun _ =>
  let both c := has l c && has r c && negb (String.eqb c by_) in
  Ok (mk_frame (map (fun c => if both c then (c ++ "_x")%string else c) (cols l)
                ++ map (fun c => if both c then (c ++ "_y")%string else c) (filter (fun c => negb (String.eqb c by_)) (cols r))) (nrows l)))).
(** cells.sjoin(gdf, how="inner"), coverage.py:435; latency.py:276: columns of both sides other than the geometry get the suffixes _left and _right;
    [rows] is the number of pairs. *)
Definition sjoin (l r : frame) (rows : nat) : pyres frame :=
  bind (use l ["geometry"]) (fun _ => bind (use r ["geometry"]) (fun _ =>
  let both c := has l c && has r c && negb (String.eqb c "geometry") in
  Ok (mk_frame (map (fun c => if both c then (c ++ "_left")%string else c) (cols l) ++ ["index_right"]
                ++ map (fun c => if both c then (c ++ "_right")%string else c) (filter (fun c => negb (String.eqb c "geometry")) (cols r))) rows))).

(** ** Coverage *)
(** _get_empty_coverage_frame, coverage.py:128-159. *)
Definition empty_coverage_frame (omit_solar : bool) : frame :=
  mk_frame (["point_id"; "geometry"; "satellite"; "instrument"; "start"; "epoch"; "end"; "sat_alt"; "sat_az"]
            ++ (if omit_solar then [] else ["sat_sunlit"; "solar_alt"; "solar_az"; "solar_time"])) 0.
(** collect_observations, coverage.py:162-262, with [n] records. *)
Definition collect_observations (omit_solar : bool) (n : nat) : frame :=
  if (0 <? n)%nat
  then let gdf := mk_frame ["point_id"; "geometry"; "satellite"; "instrument"; "start"; "end"; "epoch"] n in
       let gdf := assigns gdf ["sat_alt"; "sat_az"] in
       if omit_solar then gdf else assigns gdf ["sat_sunlit"; "solar_alt"; "solar_az"; "solar_time"]
  else empty_coverage_frame omit_solar.
(** collect_multi_observations, coverage.py:265-294: one number of records for each satellite and instrument. *)
Definition collect_multi_observations (omit_solar : bool) (ns : list nat) : pyres frame :=
  bind (concat (map (collect_observations omit_solar) ns)) (fun f => sort_values f "start").
(** _get_empty_aggregate_frame, coverage.py:297-313. *)
Definition empty_aggregate_frame : frame :=
  mk_frame ["point_id"; "geometry"; "satellite"; "instrument"; "start"; "epoch"; "end"] 0.
(** One pass of the loop of aggregate_observations, coverage.py:332-353: the [n] rows of a point and its number of groups. *)
Definition aggregate_point (cs : list string) (p : nat * nat) : pyres frame :=
  let gdf := mk_frame cs (fst p) in
  bind (sort_values gdf "start") (fun gdf =>
  bind (use gdf ["start"; "end"]) (fun _ =>
  let gdf := assign gdf "obs" in
  bind (dissolve gdf ["obs"] ["point_id"; "satellite"; "instrument"; "start"; "epoch"; "end"] (snd p)) (fun gdf =>
  bind (use gdf ["end"; "start"]) (fun _ => Ok (assigns gdf ["access"; "revisit"]))))).
(** aggregate_observations, coverage.py:316-355; [parts] gives for each point the numbers of rows and of groups of
    overlapping observations. *)
Definition aggregate_observations (parts : frame -> list (nat * nat)) (observations : frame) : pyres frame :=
  if empty observations then Ok empty_aggregate_frame
  else bind (use observations ["point_id"]) (fun _ =>
       bind (mapM (aggregate_point (cols observations)) (parts observations)) concat).
(** coverage._get_empty_reduce_frame, coverage.py:358-372. *)
Definition empty_reduce_frame : frame := mk_frame ["point_id"; "geometry"; "access"; "revisit"; "samples"] 0.
(** reduce_observations, coverage.py:375-409; [points] gives the number of points. *)
Definition reduce_observations (points : frame -> nat) (aggregated : frame) : pyres frame :=
  if empty aggregated then Ok empty_reduce_frame
  else bind (use aggregated ["access"; "revisit"]) (fun _ =>
       let gdf := assign aggregated "samples" in
       bind (dissolve gdf ["point_id"] ["access"; "revisit"; "samples"] (points aggregated)) (fun gdf => Ok (reset_index "point_id" gdf))).
(** The cells of generate_equally_spaced_cells, cells.py:96-182. *)
Definition generated_cells (n : nat) : frame := mk_frame ["cell_id"; "geometry"] n.
(** grid_observations, coverage.py:412-453; [joined] gives the numbers of pairs and of cells that contain a point. *)
Definition grid_observations (joined : frame -> frame -> nat * nat) (reduced cells : frame) : pyres frame :=
  if empty reduced then Ok (assigns cells ["samples"; "access"; "revisit"])
  else bind (use reduced ["access"; "revisit"]) (fun _ =>
       bind (sjoin cells reduced (fst (joined cells reduced))) (fun j =>
       bind (dissolve j ["cell_id"] ["samples"; "access"; "revisit"] (snd (joined cells reduced))) (fun g => Ok (reset_index "cell_id" g)))).

(** ** Latency *)
(** _get_empty_downlinks_frame, latency.py:22-37. *)
Definition empty_downlinks_frame : frame := mk_frame ["station"; "geometry"; "satellite"; "start"; "epoch"; "end"] 0.
(** collect_downlinks, latency.py:40-89, with [n] records. *)
Definition collect_downlinks (n : nat) : pyres frame :=
  if (0 <? n)%nat then sort_values (mk_frame ["station"; "geometry"; "satellite"; "start"; "end"; "epoch"] n) "start"
  else Ok empty_downlinks_frame.
(** _get_empty_latency_frame, latency.py:92-109. *)
Definition empty_latency_frame : frame :=
  mk_frame ["point_id"; "geometry"; "satellite"; "instrument"; "observed"; "station"; "downlinked"; "latency"] 0.
(** compute_latencies, latency.py:112-201. *)
Definition compute_latencies (observations downlinks : frame) : pyres frame :=
  if empty observations || empty downlinks then Ok empty_latency_frame
  else bind (sort_values observations "end") (fun l => bind (sort_values downlinks "start") (fun r =>
       bind (merge_asof l r "satellite" "end" "start") (fun obs =>
       bind (use obs ["epoch_y"; "epoch_x"]) (fun _ =>
       let obs := rename (assign obs "latency")
         [("station_y", "station"); ("epoch_y", "downlinked"); ("epoch_x", "observed"); ("geometry_x", "geometry"); ("sat_alt_x", "sat_alt"); ("sat_az_x", "sat_az")] in
       bind (select obs ["point_id"; "geometry"; "satellite"; "instrument"; "sat_alt"; "sat_az"; "station"; "downlinked"; "latency"; "observed"]) (fun obs =>
       sort_values obs "observed"))))).
(** latency._get_empty_reduce_frame, latency.py:204-217. *)
Definition empty_reduce_latency_frame : frame := mk_frame ["point_id"; "geometry"; "latency"; "samples"] 0.
(** reduce_latencies, latency.py:220-251. *)
Definition reduce_latencies (points : frame -> nat) (latencies : frame) : pyres frame :=
  if empty latencies then Ok empty_reduce_latency_frame
  else bind (use latencies ["latency"]) (fun _ =>
       let gdf := assign latencies "samples" in
       bind (dissolve gdf ["point_id"] ["latency"; "samples"] (points latencies)) (fun gdf => Ok (reset_index "point_id" gdf))).
(** grid_latencies, latency.py:254-291. *)
Definition grid_latencies (joined : frame -> frame -> nat * nat) (reduced cells : frame) : pyres frame :=
  if empty reduced then Ok (assigns cells ["samples"; "latency"])
  else bind (use reduced ["latency"]) (fun _ =>
       bind (sjoin cells reduced (fst (joined cells reduced))) (fun j =>
       bind (dissolve j ["cell_id"] ["samples"; "latency"] (snd (joined cells reduced))) (fun g => Ok (reset_index "cell_id" g)))).

(** ** Radio occultation, dilution of precision *)
(** _get_empty_ro_frame, ro_coverage.py:181-201. *)
Definition empty_ro_frame : frame :=
  mk_frame ["receiver"; "transmitter"; "is_rising"; "geometry"; "position"; "rx_tx_pitch"; "rx_tx_yaw"; "tp_tx_azimuth"; "start"; "end"; "time"] 0.
(** collect_ro_observations, ro_coverage.py:254-296, with [n] observations. *)
Definition collect_ro_observations (n : nat) : pyres frame :=
  if (n =? 0)%nat then Ok empty_ro_frame
  else sort_values (mk_frame ["receiver"; "transmitter"; "is_rising"; "geometry"; "position"; "rx_tx_pitch"; "rx_tx_yaw"; "tp_tx_azimuth"; "start"; "end"; "time"] n) "time".
(** compute_dop, dop.py:125-137, for [n] times. *)
Definition compute_dop (n : nat) : frame := mk_frame ["dop"; "geometry"] n.

(** ** Tracks *)
(** _get_empty_orbit_track, track.py:38-53. *)
Definition empty_orbit_track : frame := mk_frame ["time"; "satellite"; "instrument"; "swath_width"; "valid_obs"; "geometry"] 0.
(** The mask, if any (track.py:121-138, 334-378, 655-699): the number of positions inside the mask before records are made and of records that gpd.clip
    keeps. *)
Definition masking := option (nat * nat).
(** The number of positions after masking, track.py:134-136, 361-378, 682-699. *)
Definition kept (times : nat) (m : masking) : nat := match m with None => times | Some (k, _) => k end.
(** gpd.clip(track, mask).reset_index(drop=True), track.py:234-235, 466-467, 604-605, 754-755: the columns stay. *)
Definition clip (m : masking) (f : frame) : frame := match m with None => f | Some (_, n) => mk_frame (cols f) n end.
(** collect_orbit_track, track.py:75-236. *)
Definition collect_orbit_track (times : nat) (m : masking) (velocity sat_sunlit solar_altaz solar_beta : bool) : frame :=
  if (times =? 0)%nat then empty_orbit_track
  else if (kept times m =? 0)%nat then empty_orbit_track
  else
    let track := mk_frame (["time"; "satellite"; "instrument"; "swath_width"; "valid_obs"; "geometry"] ++ (if velocity then ["velocity"] else [])) (kept times m) in
    let track := if sat_sunlit then assign track "sat_sunlit" else track in
    let track := if solar_altaz then assigns track ["solar_alt"; "solar_az"] else track in
    let track := if solar_beta then assign track "solar_beta" else track in
    clip m track.
(** _get_empty_ground_track, track.py:239-253. *)
Definition empty_ground_track : frame := mk_frame ["time"; "satellite"; "instrument"; "valid_obs"; "geometry"] 0.
(** collect_ground_track, track.py:287-468; [kept] is here the number of positions after both culling steps. *)
Definition collect_ground_track (times : nat) (m : masking) (sat_altaz solar_altaz : bool) : frame :=
  if (times =? 0)%nat then empty_ground_track
  else if (kept times m =? 0)%nat then empty_ground_track
  else
    let track := mk_frame ["time"; "satellite"; "instrument"; "valid_obs"; "geometry"] (kept times m) in
    let track := if sat_altaz then assigns track ["sat_alt"; "sat_az"] else track in
    let track := if solar_altaz then assigns track ["solar_alt"; "solar_az"] else track in
    clip m track.
(** collect_ground_pixels, track.py:611-756, with [pixels] pixels at each time (the instrument has been accepted). *)
Definition collect_ground_pixels (times pixels : nat) (m : masking) (sat_altaz solar_altaz : bool) : frame :=
  if (times =? 0)%nat then empty_ground_track
  else if (kept times m =? 0)%nat then empty_ground_track
  else
    let gdf := mk_frame ["time"; "satellite"; "instrument"; "valid_obs"; "geometry"] (kept times m * pixels) in
    let gdf := if sat_altaz then assigns gdf ["sat_alt"; "sat_az"] else gdf in
    let gdf := if solar_altaz then assigns gdf ["solar_alt"; "solar_az"] else gdf in
    clip m gdf.
(** compute_ground_track with method="point", track.py:514-530; [orbits] orbits with a valid observation. *)
Definition compute_ground_track_point (times : nat) (m : masking) (orbits : nat) (dissolve_orbits : bool) : pyres frame :=
  let track := collect_ground_track times m false false in
  bind (if empty track then Ok track
        else bind (use track ["time"]) (fun _ => let track := assign track "orbit_id" in
             bind (use track ["valid_obs"]) (fun _ => dissolve_first track ["orbit_id"] orbits))) (fun track =>
  if dissolve_orbits then dissolve_first track [] (Nat.min 1 (nrows track)) else Ok track).
(** compute_ground_track with method="line", track.py:531-608; [orbits] groups of consecutive valid observations, of which
    gpd.clip keeps as many as the mask says. *)
Definition compute_ground_track_line (times : nat) (m : masking) (orbits : nat) (dissolve_orbits : bool) : pyres frame :=
  let track := collect_orbit_track times None false false false false in
  bind (use track ["time"]) (fun _ => let track := assign track "orbit_id" in
  bind (use track ["valid_obs"]) (fun _ => let track := assign track "track_id" in
  bind (use track ["valid_obs"; "geometry"; "swath_width"]) (fun _ =>
  bind (dissolve_first track ["orbit_id"; "track_id"] orbits) (fun track =>
  let track := clip m track in
  if dissolve_orbits then dissolve_first track [] (Nat.min 1 (nrows track)) else Ok track)))).
