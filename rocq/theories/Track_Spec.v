(** Specification vocabulary for tracks. *)
From Coq Require Import Reals ZArith List Bool Sorting.Permutation Sorting.Sorted.
From Verif Require Import Base RBase Tle_Model Instr_Model Instr_Spec Geom_Model Poly_Model Poly_Spec Track_Model.
Import ListNotations.
Open Scope R_scope.

(** The instrument at a Python index. *)
Definition picks {A} (l : list A) (idx : Z) (x : A) : Prop :=
  exists n, nth_error l n = Some x /\ (idx = Z.of_nat n \/ idx = Z.of_nat n - Z.of_nat (length l))%Z.
(** Two instants lie in the same orbit, counted in whole periods from [t0]. *)
Definition same_orbit (t0 period a b : Z) : Prop :=
  exists k, (k * period <= a - t0 < (k + 1) * period)%Z /\ (k * period <= b - t0 < (k + 1) * period)%Z.
(** Instant [a] lies in an earlier orbit than [b]. *)
Definition earlier_orbit (t0 period a b : Z) : Prop :=
  exists k, (a - t0 < k * period <= b - t0)%Z.
(** All samples from [i] to [j] (in either order) are valid. *)
Definition valid_between (rows : list orow) (i j : nat) : Prop :=
  forall k r, (i <= k <= j \/ j <= k <= i)%nat -> nth_error rows k = Some r -> o_valid r = true.
(** Samples [i] and [j] belong together. *)
Definition together (t0 period : Z) (rows : list orow) (i j : nat) : Prop :=
  exists r s, nth_error rows i = Some r /\ nth_error rows j = Some s /\ same_orbit t0 period (o_time r) (o_time s) /\ valid_between rows i j.
(** A partition of the valid samples (by position) into maximal runs within one orbit, in order. *)
Definition grouped (t0 period : Z) (rows : list orow) (ig : list (list nat)) : Prop :=
  NoDup (concat ig)
  /\ (forall i, In i (concat ig) <-> exists r, nth_error rows i = Some r /\ o_valid r = true)
  /\ (forall g i j, In g ig -> In i g -> (In j g <-> together t0 period rows i j))
  /\ (forall g, In g ig -> StronglySorted lt g /\ g <> [])
  /\ StronglySorted (fun g h => forall i j r s, In i g -> In j h -> nth_error rows i = Some r -> nth_error rows j = Some s ->
       earlier_orbit t0 period (o_time r) (o_time s) \/ (same_orbit t0 period (o_time r) (o_time s) /\ (i < j)%nat)) ig.
(** The observation conditions of an instrument. *)
Definition observable (i : instrument) (sunlit : bool) (solar_alt : R) : Prop :=
  meets (req_self (in_req i)) (sunlit = true) /\ meets (req_target (in_req i)) (0 < solar_alt).
(** Contract of the order of gpd.clip. *)
Definition clip_keeps (clip_order : forall A, list A -> list A) : Prop := forall A l, Permutation (clip_order A l) l.
(** Contract of a union of areas. *)
Definition is_union {G P} (covers : G -> P -> Prop) (union : list G -> G) : Prop :=
  forall l x, covers (union l) x <-> exists g, In g l /\ covers g x.
(** Angle (radians) between two places on the globe. *)
Definition great_circle (a b : coord) : R :=
  let '(x1, y1, z1) := on_globe a in let '(x2, y2, z2) := on_globe b in acos (x1 * x2 + y1 * y2 + z1 * z2).
(** Rounding of microseconds to milliseconds. *)
Definition to_ms (t : Z) : Z := (1000 * ((t + 500) / 1000))%Z.

(** What a row of an orbit track has to say about the requested time [t]. *)
Definition orbit_row_for (W : world) (sa : sat) (i : instrument) (elevation : R) (c : coordinates) (vel f_sunlit f_solar f_beta : bool)
    (t : Z) (r : orow) : Prop :=
  let s := w_state W t in
  o_time r = w_reported W t /\ o_sat r = sa_name sa /\ o_instr r = in_name i
  /\ o_swath r = field_of_regard_to_swath_width (pz (w_ssp W s)) (in_for i) elevation
  /\ (o_valid r = true <-> observable i (w_sunlit W s) (w_solar_alt_at W (w_ssp W s) s))
  /\ (c = WGS84 -> o_geom r = w_ssp W s) /\ (c = ECEF -> o_geom r = w_itrs_xyz W s) /\ (c = ECI -> o_geom r = w_eci_xyz W s)
  /\ (vel = false -> o_vel r = None) /\ (vel = true -> c <> ECI -> o_vel r = Some (w_itrs_vel W s)) /\ (vel = true -> c = ECI -> o_vel r = Some (w_eci_vel W s))
  /\ o_sunlit r = (if f_sunlit then Some (w_sunlit W s) else None)
  /\ o_solar r = (if f_solar then Some (w_solar W s) else None)
  /\ o_beta r = (if f_beta then Some (w_beta W s) else None).
(** The times at which the sub-satellite point lies in the mask. *)
Definition times_in {G} (W : world) (k : mask G) (times : list Z) : list Z :=
  filter (fun t => m_contains k (px (w_ssp W (w_state W t))) (py (w_ssp W (w_state W t)))) times.
(** A row cut down to a mask. *)
Definition cut_row {G} (k : mask G) (r : grow G) : option (grow G) :=
  match m_cut k (g_geom r) with Some g => Some (mk_grow (g_time r) (g_sat r) (g_instr r) (g_valid r) g) | None => None end.
(** The geometry that a ground track row shows for a time. *)
Definition shown (W : world) (src : source) (i : instrument) (elevation : R) (t : Z) : w_G W :=
  match src with
  | Spice => w_footprint W i elevation (w_state W t)
  | Crs code => let s := w_state W (w_reported W t) in
      w_buffer_point W code elevation (w_ssp W s) (field_of_regard_to_swath_width (pz (w_ssp W s)) (in_for i) elevation)
  end.
(** What a ground track row has to say about the requested time [t]. *)
Definition ground_row_for (W : world) (sa : sat) (i : instrument) (elevation : R) (src : source) (t : Z) (r : grow (w_G W)) : Prop :=
  let s := w_state W t in
  g_time r = w_reported W t /\ g_sat r = sa_name sa /\ g_instr r = in_name i
  /\ (g_valid r = true <-> observable i (w_sunlit W s) (w_solar_alt_at W (w_footprint_center W i elevation s) s))
  /\ g_geom r = shown W src i elevation t.
(** Culling loses nothing: whenever the geometry of a time meets the mask, the enlarged mask contains the
    sub-satellite point and the instrument's footprint meets the mask. *)
Definition cull_sound (W : world) (k : mask (w_G W)) (i : instrument) (elevation : R) (src : source) (t : Z) : Prop :=
  m_cut k (shown W src i elevation t) <> None ->
  m_buffered k (px (w_ssp W (w_state W t))) (py (w_ssp W (w_state W t))) = true /\ m_meets k (w_footprint W i elevation (w_state W t)) = true.
(** What a pixel row has to say. *)
Definition pixel_row_for (W : world) (sa : sat) (i : instrument) (p : pointed) (elevation : R) (x : Z * (nat * nat)) (r : prow) : Prop :=
  let s := w_state W (fst x) in
  p_time r = w_reported W (fst x) /\ p_sat r = sa_name sa /\ p_instr r = in_name i
  /\ p_geom r = w_pixel_position W p elevation s (snd x)
  /\ (p_valid r = true <-> observable i (w_sunlit W s) (w_solar_alt_at W (w_pixel_position W p elevation s (snd x)) s)).
(** All times with all pixels, time by time, cross-track before along-track. *)
Definition grid (p : pointed) (times : list Z) : list (Z * (nat * nat)) :=
  list_prod times (list_prod (seq 0 (pi_cross_pixels p)) (seq 0 (pi_along_pixels p))).

(** The samples at the given positions. *)
Definition rows_at (track : list orow) (g : list nat) : list orow := filter_some (map (nth_error track) g).
(** A run of samples that is a line which does not cross the antimeridian. *)
Definition plain_run (g : list orow) : Prop :=
  (2 <= length g)%nat /\ forall a b, consecutive (map (fun r => px (o_geom r)) g) a b -> Rabs (b - a) < 180.
(** The known values of a series, in order. *)
Inductive known : list (option R) -> list R -> Prop :=
| known_nil : known [] []
| known_none l v : known l v -> known (None :: l) v
| known_some x l v : known l v -> known (Some x :: l) (x :: v).
(** The mean of the known values. *)
Definition is_mean (l : list (option R)) (m : option R) : Prop :=
  exists v, known l v /\ match m with Some a => v <> [] /\ a * INR (length v) = fold_right Rplus 0 v | None => v = [] end.
(** The row of a run: the attributes of its first sample, and the buffer of the line through its own samples
    with its own mean swath width. *)
Definition own_row (W : world) (code : pystr) (elevation : R) (g : list orow) (r : grow (w_G W)) : Prop :=
  exists r0 l w, g = r0 :: l /\ g_time r = o_time r0 /\ g_sat r = o_sat r0 /\ g_instr r = o_instr r0 /\ g_valid r = true
    /\ is_mean (map o_swath g) w
    /\ g_geom r = w_buffer_line W code elevation (map (fun q => (px (o_geom q), py (o_geom q), elevation)) g) w.
(** Culling loses no pixel. *)
Definition pixel_cull_sound (W : world) (k : mask (w_G W)) (i : instrument) (p : pointed) (elevation : R) (t : Z) : Prop :=
  forall ij, let q := w_pixel_position W p elevation (w_state W t) ij in
  m_intersects k (px q) (py q) = true ->
  m_buffered k (px (w_ssp W (w_state W t))) (py (w_ssp W (w_state W t))) = true /\ m_meets k (w_footprint W i elevation (w_state W t)) = true.
(** A point on the polyline through the given points. *)
Definition on_line (line : list pt) (q : pt) : Prop :=
  exists a b t, consecutive line a b /\ 0 <= t <= 1 /\ px q = px a + t * (px b - px a) /\ py q = py a + t * (py b - py a) /\ (pz a = pz b -> pz q = pz a).
(** Contract of shapely's split of a line along a meridian: at least one piece; every piece consists of points
    of the line on one side of the meridian; every vertex of the line is in a piece. *)
Definition splits_line (split : list pt -> R -> list (list pt)) : Prop :=
  forall line d, (2 <= length line)%nat ->
    split line d <> []
    /\ (forall piece, In piece (split line d) ->
          ((forall q, In q piece -> px q <= d) \/ (forall q, In q piece -> d <= px q)) /\ forall q, In q piece -> on_line line q)
    /\ (forall q, In q line -> exists piece, In piece (split line d) /\ In q piece).
(** A place on the way from one sample of a run to the next, taken the short way around (longitudes up to whole turns). *)
Definition on_path (g : list orow) (q : pt) : Prop :=
  exists r s (k n : Z) t, consecutive g r s /\ Rabs (px (o_geom s) + 360 * IZR k - px (o_geom r)) <= 180 /\ 0 <= t <= 1
    /\ px q = px (o_geom r) + t * (px (o_geom s) + 360 * IZR k - px (o_geom r)) + 360 * IZR n
    /\ py q = py (o_geom r) + t * (py (o_geom s) - py (o_geom r)).
(** No two consecutive samples are half a turn of longitude apart. *)
Definition no_jump (g : list orow) : Prop :=
  forall a b, consecutive (map (fun r => px (o_geom r)) g) a b -> Rabs (b - a) < 180.
(** A run that crosses the antimeridian at most once. *)
Definition crosses_once (g : list orow) : Prop := exists g1 g2, g = g1 ++ g2 /\ no_jump g1 /\ no_jump g2.
(** Distances. *)
Definition metric {X : Set} (dist : X -> X -> R) : Prop :=
  (forall a b, 0 <= dist a b) /\ (forall a b, dist a b = dist b a) /\ (forall a b c, dist a c <= dist a b + dist b c).
(** A reach that is enough to find, from one of the samples of a track that moves with speed [v] at most and is sampled
    every [step] seconds, whatever comes within half of the swath [w] of the track. *)
Definition enough (v step w reach : R) : Prop :=
  forall (X : Set) (dist : X -> X -> R), metric dist -> forall (g : R -> X) target sample t,
    (forall a b, dist (g a) (g b) <= v * Rabs (b - a)) -> Rabs (t - sample) <= step -> dist (g t) target <= w / 2 -> dist (g sample) target <= reach.
