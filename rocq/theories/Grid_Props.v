(** Property theorems for point and cell generation (C46, C71-C80, C148, C164). *)
From Coq Require Import Reals ZArith List Bool Permutation Lia Lra Psatz.
From Verif Require Import Base RBase RFacts Grid_Model Grid_Spec Grid_Proofs Fib_Proofs Grid_Proofs2 Grid_Proofs3.
Import ListNotations.
Open Scope R_scope.

(** ** C46: sample count *)
Theorem c46_count_monotone : forall d d' n n',
  0 < d -> d <= d' -> d' <= 2 * PI * EARTH_MEAN_RADIUS ->
  compute_number_samples d = Ok n -> compute_number_samples d' = Ok n' -> (n' <= n)%Z.
Proof. exact number_samples_mono. Qed.
Print Assumptions c46_count_monotone.
Theorem c46_count_positive : forall d n,
  0 < d <= PI * EARTH_MEAN_RADIUS -> compute_number_samples d = Ok n -> (1 <= n)%Z.
Proof. exact number_samples_pos. Qed.
Print Assumptions c46_count_positive.
(** The count is the number of whole spherical caps of that angular diameter that make up the surface. *)
Theorem c46_count_is_area_ratio : forall d,
  0 < d <= 2 * PI * EARTH_MEAN_RADIUS ->
  exists n, compute_number_samples d = Ok n /\ (0 <= n)%Z
    /\ IZR n * (2 * PI * EARTH_MEAN_RADIUS ^ 2 * (1 - cos (d / EARTH_MEAN_RADIUS / 2))) <= EARTH_SURFACE_AREA
       < (IZR n + 1) * (2 * PI * EARTH_MEAN_RADIUS ^ 2 * (1 - cos (d / EARTH_MEAN_RADIUS / 2))).
Proof. exact number_samples_fit. Qed.
Print Assumptions c46_count_is_area_ratio.
Theorem c46_zero_distance : compute_number_samples 0 = Raise ZeroDivisionError.
Proof. exact number_samples_zero. Qed.
Print Assumptions c46_zero_distance.
Example c46_case : 0 < 1000 /\ 1000 <= 2000 /\ 2000 <= PI * EARTH_MEAN_RADIUS /\ 2000 <= 2 * PI * EARTH_MEAN_RADIUS.
Proof.
  pose proof EMR_bounds. pose proof PI_RGT_0. pose proof PI2_1.
  assert (2000 <= PI * EARTH_MEAN_RADIUS) by nra. repeat split; lra.
Qed.

(** ** C71: latitudes of the Fibonacci lattice *)
Theorem c71_latitudes : forall n i, (0 <= i < n)%Z ->
  -90 < fib_lat i n < 90
  /\ (forall j, (i < j < n)%Z -> fib_lat i n < fib_lat j n)
  /\ ((i + 1 < n)%Z -> sin (radians (fib_lat (i + 1) n)) - sin (radians (fib_lat i n)) = 2 / (IZR n + 2)).
Proof. exact fib_latitudes. Qed.
Print Assumptions c71_latitudes.
(** The points of the lattice themselves, in order: sines of the latitudes in equal steps from south to
    north, longitudes in steps of 360 degrees over the golden ratio, reduced to (-180, 180]. *)
Theorem c71_lattice : forall clip d all, generate_fibonacci_lattice_points clip d None = Ok all ->
  exists n, compute_number_samples d = Ok n /\ length all = Z.to_nat n
    /\ forall i, (0 <= i < n)%Z -> exists g, nth_error all (Z.to_nat i) = Some g /\ g_id g = i
       /\ -90 < g_lat g < 90 /\ (IZR n + 2) * sin (g_lat g * (PI / 180)) = 2 * (IZR i + 1) - (IZR n + 2)
       /\ -180 < g_lon g <= 180 /\ exists phi k, 0 < phi /\ phi * phi = phi + 1 /\ (g_lon g + 360 * IZR k) * phi = 360 * IZR i.
Proof. exact lattice_lemma. Qed.
Print Assumptions c71_lattice.
Example c71_case : ((0 <= 3 < 10)%Z /\ (3 < 4 < 10)%Z /\ (3 + 1 < 10)%Z)
  /\ exists all, generate_fibonacci_lattice_points some_clip 1000000 None = Ok all /\ (2 <= length all)%nat.
Proof.
  split; [lia|]. destruct many_samples as (n & E & N). unfold generate_fibonacci_lattice_points. rewrite E. eexists. split; [reflexivity|].
  rewrite map_length, py_range_length. lia.
Qed.

(** ** C72: longitudes *)
Theorem c72_longitudes : forall i, -180 < fib_lon i <= 180 /\ forall j, i <> j -> fib_lon i <> fib_lon j.
Proof. exact (fun i => conj (fib_lon_range i) (fun j H E => H (fib_lon_distinct i j E))). Qed.
Print Assumptions c72_longitudes.
(** So no two points of a generated lattice share their longitude. *)
Theorem c72_distinct_points : forall clip d all a b g h, generate_fibonacci_lattice_points clip d None = Ok all ->
  nth_error all a = Some g -> nth_error all b = Some h -> a <> b -> g_lon g <> g_lon h /\ g_lat g <> g_lat h.
Proof. exact lattice_distinct. Qed.
Print Assumptions c72_distinct_points.
Example c72_case : exists all g h, generate_fibonacci_lattice_points some_clip 1000000 None = Ok all
  /\ nth_error all 0 = Some g /\ nth_error all 1 = Some h.
Proof.
  destruct many_samples as (n & E & N). destruct (lattice_lemma some_clip 1000000 _ (lattice_ok some_clip 1000000 n E)) as (n' & E' & _ & P).
  assert (n' = n) by congruence. subst n'. destruct (P 0%Z) as (g & G & _); [lia|]. destruct (P 1%Z) as (h & H & _); [lia|].
  eexists _, g, h. split; [exact (lattice_ok some_clip 1000000 n E)|]. split; [exact G|exact H].
Qed.

(** ** C73: symmetry *)
(** Full statement: for every point of the lattice there is one at the opposite latitude.  It fails for
    every lattice size: the southernmost point has no counterpart. *)
Theorem c73_symmetric_refuted : forall n, (1 <= n)%Z ->
  exists i, (0 <= i < n)%Z /\ forall j, (0 <= j < n)%Z -> fib_lat j n <> - fib_lat i n.
Proof. exact (fun n H => ex_intro _ 0%Z (conj (conj (Z.le_refl 0) (Z.lt_le_trans 0 1 n Z.lt_0_1 H)) (fun j Hj => fib_south_alone n j H Hj))). Qed.
Print Assumptions c73_symmetric_refuted.
(** Proved part: every other point has a counterpart. *)
Theorem c73_symmetric_partial : forall n i, (1 <= i < n)%Z ->
  (0 <= n - i < n)%Z /\ fib_lat (n - i) n = - fib_lat i n.
Proof. exact fib_mirrored. Qed.
Print Assumptions c73_symmetric_partial.
Example c73_case : (1 <= 4 < 10)%Z. Proof. lia. Qed.

(** ** C74: masked lattice *)
Theorem c74_masked_is_filtered : forall clip, clips_points clip -> forall n m ps all,
  bounded_mask m -> max_lon (mk_bnds m) <= 180 -> max_lon (mk_bnds m) <> -180 ->
  fib_points clip n None = Ok all -> fib_points clip n (Some m) = Ok ps ->
  exists rest, Permutation all (ps ++ rest)
    /\ Forall (fun g => mk_covers m (g_lon g) (g_lat g)) ps
    /\ Forall (fun g => ~ mk_covers m (g_lon g) (g_lat g)) rest.
Proof. exact fib_masked_regular. Qed.
Print Assumptions c74_masked_is_filtered.
Theorem c74_global_ids : forall clip n, exists all, fib_points clip n None = Ok all /\ map g_id all = py_range 0 n.
Proof. exact (fun clip n => ex_intro _ _ (conj (fib_global clip n) (fib_ids n))). Qed.
Print Assumptions c74_global_ids.
Theorem c74_beyond_180_east : forall clip, clips_points clip -> forall n m ps g,
  bounded_mask m -> 180 < max_lon (mk_bnds m) -> fib_points clip n (Some m) = Ok ps ->
  (In g ps <-> exists i, (0 <= i < n)%Z
     /\ g = mk_gpoint i (if Rlt_dec (fib_lon i) 0 then fib_lon i + 360 else fib_lon i) (fib_lat i n)
     /\ mk_covers m (g_lon g) (g_lat g)).
Proof. exact fib_masked_wide. Qed.
Print Assumptions c74_beyond_180_east.
Example c74_case : clips_points some_clip
  /\ bounded_mask (square_mask (-10) 10 (-10) 10) /\ max_lon (mk_bnds (square_mask (-10) 10 (-10) 10)) <= 180
  /\ bounded_mask (square_mask 170 190 (-10) 10) /\ 180 < max_lon (mk_bnds (square_mask 170 190 (-10) 10))
  /\ (exists ps, fib_points some_clip 50 (Some (square_mask (-10) 10 (-10) 10)) = Ok ps).
Proof.
  split; [exact some_clip_ok|]. split; [intros x y H; exact H|]. split; [simpl; lra|].
  split; [intros x y H; exact H|]. split; [simpl; lra|]. eexists. reflexivity.
Qed.

(** ** C75: equally spaced points *)
Theorem c75_valid_coordinates : forall clip thi thj l,
  0 < thi -> 0 < thj -> gen_points clip thi thj None = Ok l ->
  forall g, In g l -> -180 <= g_lon g <= 180 /\ -90 <= g_lat g <= 90.
Proof. exact global_points_In. Qed.
Print Assumptions c75_valid_coordinates.
Theorem c75_spacing : forall clip thi thj l,
  0 < thi -> 0 < thj -> gen_points clip thi thj None = Ok l ->
  exists n m, fits n thi 360 /\ fits m thj 180 /\ length l = (Z.to_nat m * Z.to_nat n)%nat
    /\ forall i j, (0 <= i < n)%Z -> (0 <= j < m)%Z ->
         exists g, nth_error l (Z.to_nat (j * n + i)) = Some g /\ center thi thj i j g.
Proof. exact global_points. Qed.
Print Assumptions c75_spacing.
(** Neighbours on a meridian are the requested distance apart, and so are neighbours in longitude along the equator
    (on the mean sphere); likewise the sides of the cells. *)
Theorem c75_distance : forall clip d l, 0 < d -> generate_equally_spaced_points clip d None = Ok l ->
  exists n m, (0 <= n)%Z /\ (0 <= m)%Z /\ length l = (Z.to_nat m * Z.to_nat n)%nat
    /\ forall i j, (0 <= i < n)%Z -> (0 <= j < m)%Z -> exists g, nth_error l (Z.to_nat (j * n + i)) = Some g
       /\ ((j + 1 < m)%Z -> exists g', nth_error l (Z.to_nat ((j + 1) * n + i)) = Some g' /\ g_lon g' = g_lon g
            /\ EARTH_MEAN_RADIUS * ((g_lat g' - g_lat g) * (PI / 180)) = d)
       /\ ((i + 1 < n)%Z -> exists g', nth_error l (Z.to_nat (j * n + (i + 1))) = Some g' /\ g_lat g' = g_lat g
            /\ EARTH_MEAN_RADIUS * ((g_lon g' - g_lon g) * (PI / 180)) = d).
Proof. exact neighbours_lemma. Qed.
Print Assumptions c75_distance.
Theorem c75_cell_size : forall clipc hull d cs c, 0 < d -> generate_equally_spaced_cells clipc hull d None NoStrips = Ok cs -> In c cs ->
  exists w e s n, same_set (sh_set c) (rect w e s n) /\ EARTH_MEAN_RADIUS * ((e - w) * (PI / 180)) = d /\ EARTH_MEAN_RADIUS * ((n - s) * (PI / 180)) = d.
Proof. exact cell_size_lemma. Qed.
Print Assumptions c75_cell_size.
Example c75_distance_case : 0 < 1000000 /\ exists l, generate_equally_spaced_points some_clip 1000000 None = Ok l.
Proof. split; [lra|]. eexists. reflexivity. Qed.
Example c75_case : 0 < 10 /\ exists l, gen_points some_clip 10 10 None = Ok l.
Proof. split; [lra|]. eexists. reflexivity. Qed.

(** ** C76: unique ids *)
(** Full statement: for every step and mask the ids are pairwise distinct.  It fails for a step of 100
    degrees: the grid has four columns but the ids wrap after three. *)
Theorem c76_ids_unique_refuted : forall clip,
  exists l, gen_points clip 100 100 None = Ok l /\ ~ NoDup (map g_id l).
Proof.
  exact (fun clip => ex_intro _ _ (conj eq_refl (fun N =>
    Rlt_not_le _ _ (overshoot_100) (proj2 (overshoot_iff 100 Rlt_0_100) (proj1 (ids_global_iff 100 step_100) (ids_as_indices clip 100 N)))))).
Qed.
Print Assumptions c76_ids_unique_refuted.
(** Exactly when the unmasked ids are distinct: the columns do not overshoot longitude 180. *)
Theorem c76_ids_unique_iff : forall clip th l, 0 < th < 360 -> gen_points clip th th None = Ok l ->
  (NoDup (map g_id l) <-> forall g, In g l -> g_lon g + th / 2 <= 180).
Proof. exact points_ids_global_iff. Qed.
Print Assumptions c76_ids_unique_iff.
(** Proved part, with a mask: distinct when the mask is at least two steps narrower than 360 degrees. *)
Theorem c76_ids_unique_masked_partial : forall clip, clips_points clip -> forall th m l,
  0 < th <= 360 -> min_lon (mk_bnds m) <= max_lon (mk_bnds m) -> max_lon (mk_bnds m) <> -180 ->
  max_lon (mk_bnds m) - min_lon (mk_bnds m) <= 360 - 2 * th ->
  gen_points clip th th (Some m) = Ok l -> NoDup (map g_id l).
Proof. exact points_ids_masked. Qed.
Print Assumptions c76_ids_unique_masked_partial.
(** Proved part, for cells and strips: distinct when a whole number of steps makes 360 degrees. *)
Theorem c76_cell_ids_unique_partial : forall clip hull (k : Z) th s l,
  (1 <= k)%Z -> IZR k * th = 360 -> gen_cells clip hull th th None s = Ok l -> NoDup (map sh_id l).
Proof. exact cells_ids_whole. Qed.
Print Assumptions c76_cell_ids_unique_partial.
Example c76_case : 0 < 10 <= 360 /\ (1 <= 36)%Z /\ 36 * 10 = 360
  /\ max_lon (mk_bnds (square_mask (-10) 10 (-10) 10)) - min_lon (mk_bnds (square_mask (-10) 10 (-10) 10)) <= 360 - 2 * 10
  /\ (exists l, gen_points some_clip 10 10 (Some (square_mask (-10) 10 (-10) 10)) = Ok l).
Proof. split; [lra|]. split; [lia|]. split; [lra|]. split; [simpl; lra|]. eexists. reflexivity. Qed.

(** ** C77: cells and points *)
Theorem c77_same_ids_and_centres : forall clip clipc hull thi thj ps cs,
  0 < thi -> 0 < thj -> gen_points clip thi thj None = Ok ps -> gen_cells clipc hull thi thj None NoStrips = Ok cs ->
  Forall2 (fun p c => g_id p = sh_id c
    /\ same_set (sh_set c) (fun x y => Rabs (x - g_lon p) <= thi / 2 /\ Rabs (y - g_lat p) <= thj / 2)) ps cs.
Proof. exact points_cells. Qed.
Print Assumptions c77_same_ids_and_centres.
(** With a mask, the cell with the id of a point still contains it. *)
Theorem c77_masked : forall clip, clips_points clip -> forall clipc, clips_cells clipc -> forall hull, hulls hull ->
  forall thi thj m ps cs p,
  gen_points clip thi thj (Some m) = Ok ps -> gen_cells clipc hull thi thj (Some m) NoStrips = Ok cs ->
  0 < thi -> 0 < thj -> In p ps -> exists c, In c cs /\ sh_id c = g_id p /\ sh_set c (g_lon p) (g_lat p).
Proof. exact masked_point_cell. Qed.
Print Assumptions c77_masked.
Example c77_case : clips_points some_clip /\ clips_cells some_clip_cells /\ hulls some_hull
  /\ exists ps p, gen_points some_clip 10 10 (Some (square_mask (-10) 10 (-10) 10)) = Ok ps /\ In p ps.
Proof. exact masked_case. Qed.

(** ** C78: tiling *)
Theorem c78_interiors_disjoint : forall clipc hull thi thj s cs k k' c c' x y,
  0 < thi -> 0 < thj -> gen_cells clipc hull thi thj None s = Ok cs ->
  nth_error cs k = Some c -> nth_error cs k' = Some c' ->
  interior (sh_set c) x y -> interior (sh_set c') x y -> k = k'.
Proof. exact cells_disjoint. Qed.
Print Assumptions c78_interiors_disjoint.
Theorem c78_grid_squares : forall clipc hull thi thj cs,
  0 < thi -> 0 < thj -> gen_cells clipc hull thi thj None NoStrips = Ok cs ->
  exists n m, fits n thi 360 /\ fits m thj 180 /\ length cs = (Z.to_nat m * Z.to_nat n)%nat
    /\ forall i j, (0 <= i < n)%Z -> (0 <= j < m)%Z ->
      exists c, nth_error cs (Z.to_nat (j * n + i)) = Some c
        /\ same_set (sh_set c) (rect (-180 + IZR i * thi) (-180 + IZR (i + 1) * thi) (-90 + IZR j * thj) (-90 + IZR (j + 1) * thj)).
Proof. exact (cell_position some_clip). Qed.
Print Assumptions c78_grid_squares.
Theorem c78_union : forall clipc hull thi thj cs,
  0 < thi < 720 -> 0 < thj < 360 -> gen_cells clipc hull thi thj None NoStrips = Ok cs ->
  exists n m, fits n thi 360 /\ fits m thj 180
    /\ same_set (fun x y => exists c, In c cs /\ sh_set c x y) (rect (-180) (-180 + IZR n * thi) (-90) (-90 + IZR m * thj)).
Proof. exact cells_union. Qed.
Print Assumptions c78_union.
Theorem c78_latitude_strips : forall clipc hull th thi cs,
  0 < th -> gen_cells clipc hull thi th None LatStrips = Ok cs ->
  exists m, fits m th 180 /\ length cs = Z.to_nat m /\ forall j, (0 <= j < m)%Z ->
    exists c, nth_error cs (Z.to_nat j) = Some c /\ same_set (sh_set c) (rect (-180) 180 (-90 + IZR j * th) (-90 + IZR (j + 1) * th)).
Proof. exact lat_strips. Qed.
Print Assumptions c78_latitude_strips.
Theorem c78_longitude_strips : forall clipc hull th thj cs,
  0 < th -> gen_cells clipc hull th thj None LonStrips = Ok cs ->
  exists n, fits n th 360 /\ length cs = Z.to_nat n /\ forall i, (0 <= i < n)%Z ->
    exists c, nth_error cs (Z.to_nat i) = Some c /\ same_set (sh_set c) (rect (-180 + IZR i * th) (-180 + IZR (i + 1) * th) (-90) 90).
Proof. exact lon_strips. Qed.
Print Assumptions c78_longitude_strips.
Example c78_case : 0 < 10 < 720 /\ 0 < 10 < 360
  /\ forall s, exists cs, gen_cells some_clip_cells some_hull 10 10 None s = Ok cs.
Proof. split; [lra|]. split; [lra|]. intro s. eexists. reflexivity. Qed.

(** ** C79: masked points *)
Theorem c79_sound : forall clip, clips_points clip -> forall thi thj m ps g,
  0 < thi -> 0 < thj -> gen_points clip thi thj (Some m) = Ok ps -> In g ps ->
  mk_covers m (g_lon g) (g_lat g) /\ exists i j, center thi thj i j g /\ g_id g = point_id i j thi thj.
Proof. exact masked_points_sound. Qed.
Print Assumptions c79_sound.
Theorem c79_complete : forall clip, clips_points clip -> forall thi thj m ps i j x y,
  0 < thi -> 0 < thj -> mk_valid m = true -> max_lon (mk_bnds m) <> -180 ->
  gen_points clip thi thj (Some m) = Ok ps ->
  x = -180 + thi / 2 + IZR i * thi -> y = -90 + thj / 2 + IZR j * thj -> mk_covers m x y ->
  min_lon (mk_bnds m) < x < max_lon (mk_bnds m) -> min_lat (mk_bnds m) < y < max_lat (mk_bnds m) ->
  exists g, In g ps /\ g_lon g = x /\ g_lat g = y /\ g_id g = point_id i j thi thj.
Proof. exact masked_points_complete. Qed.
Print Assumptions c79_complete.
Theorem c79_subset_of_global : forall clip, clips_points clip -> forall thi thj m ps all g,
  0 < thi -> 0 < thj -> regular_mask m -> gen_points clip thi thj (Some m) = Ok ps ->
  gen_points clip thi thj None = Ok all -> In g ps -> In g all.
Proof. exact masked_points_global. Qed.
Print Assumptions c79_subset_of_global.
Theorem c79_invalid_mask : forall clip clipc hull thi thj m s, mk_valid m = false ->
  gen_points clip thi thj (Some m) = Raise ValueError
  /\ gen_cells clipc hull thi thj (Some m) s = Raise ValueError
  /\ forall n, fib_points clip n (Some m) = Raise ValueError.
Proof. exact invalid_raises. Qed.
Print Assumptions c79_invalid_mask.
Example c79_case : regular_mask (square_mask (-10) 10 (-10) 10)
  /\ exists ps p, gen_points some_clip 10 10 (Some (square_mask (-10) 10 (-10) 10)) = Ok ps /\ In p ps.
Proof. exact (conj (square_regular (-10) 10 (-10) 10 ltac:(lra) ltac:(lra) ltac:(lra) ltac:(lra) ltac:(lra)) (proj2 (proj2 (proj2 masked_case)))). Qed.

(** ** C80: masked cells cover the mask *)
(** Full statement: every point of the mask is in a generated cell.  It fails for a mask between two
    grid lines: no cell at all is generated. *)
Theorem c80_cover_refuted : forall clipc, clips_cells clipc -> forall hull,
  regular_mask (square_mask 1 4 1 4) /\ mk_covers (square_mask 1 4 1 4) 2 2
  /\ gen_cells clipc hull 10 10 (Some (square_mask 1 4 1 4)) NoStrips = Ok [].
Proof. exact no_cells. Qed.
Print Assumptions c80_cover_refuted.
(** Proved part: points more than half a step inside the mask's bounding box. *)
Theorem c80_cover_inner_partial : forall clipc, clips_cells clipc -> forall hull, hulls hull -> forall thi thj m cs x y,
  0 < thi -> 0 < thj -> mk_valid m = true -> max_lon (mk_bnds m) <> -180 ->
  gen_cells clipc hull thi thj (Some m) NoStrips = Ok cs -> mk_covers m x y ->
  min_lon (mk_bnds m) + thi / 2 < x < max_lon (mk_bnds m) - thi / 2 ->
  min_lat (mk_bnds m) + thj / 2 < y < max_lat (mk_bnds m) - thj / 2 ->
  exists c, In c cs /\ sh_set c x y.
Proof. exact cells_cover_inner. Qed.
Print Assumptions c80_cover_inner_partial.
(** Proved part: every point, when the bounding box lies on grid lines. *)
Theorem c80_cover_aligned_partial : forall clipc, clips_cells clipc -> forall hull, hulls hull -> forall thi thj m cs (a b c d : Z) x y,
  0 < thi -> 0 < thj -> mk_valid m = true -> bounded_mask m -> max_lon (mk_bnds m) <> -180 ->
  min_lon (mk_bnds m) = -180 + IZR a * thi -> max_lon (mk_bnds m) = -180 + IZR b * thi -> (a < b)%Z ->
  min_lat (mk_bnds m) = -90 + IZR c * thj -> max_lat (mk_bnds m) = -90 + IZR d * thj -> (c < d)%Z ->
  gen_cells clipc hull thi thj (Some m) NoStrips = Ok cs -> mk_covers m x y ->
  exists k, In k cs /\ sh_set k x y.
Proof. exact cells_cover_aligned. Qed.
Print Assumptions c80_cover_aligned_partial.
(** Proved part: strips. *)
Theorem c80_cover_strips_partial : forall clipc, clips_cells clipc -> forall hull, hulls hull -> forall thi thj m cs x y,
  0 < thi -> 0 < thj -> mk_valid m = true -> bounded_mask m -> max_lon (mk_bnds m) <> -180 -> mk_covers m x y ->
  (gen_cells clipc hull thi thj (Some m) LatStrips = Ok cs
     /\ min_lat (mk_bnds m) + thj / 2 < y < max_lat (mk_bnds m) - thj / 2
   \/ gen_cells clipc hull thi thj (Some m) LonStrips = Ok cs
     /\ min_lon (mk_bnds m) + thi / 2 < x < max_lon (mk_bnds m) - thi / 2) ->
  exists c, In c cs /\ sh_set c x y.
Proof. exact strips_cover. Qed.
Print Assumptions c80_cover_strips_partial.
(** Every masked cell stays within its grid square. *)
Theorem c80_cells_within_squares : forall clipc, clips_cells clipc -> forall hull, hulls hull -> forall thi thj m cs c,
  gen_cells clipc hull thi thj (Some m) NoStrips = Ok cs -> In c cs ->
  exists i j, sh_id c = point_id i j thi thj /\
    forall x y, sh_set c x y ->
      rect (-180 + IZR i * thi) (-180 + (IZR i + 1) * thi) (-90 + IZR j * thj) (-90 + (IZR j + 1) * thj) x y.
Proof. exact masked_cell_in_square. Qed.
Print Assumptions c80_cells_within_squares.
Example c80_case : bounded_mask (square_mask (-20) 20 (-10) 10) /\ mk_covers (square_mask (-20) 20 (-10) 10) 3 3
  /\ (-20 = -180 + 16 * 10) /\ (20 = -180 + 20 * 10) /\ (-10 = -90 + 8 * 10) /\ (10 = -90 + 10 * 10)
  /\ -20 + 10 / 2 < 3 < 20 - 10 / 2 /\ -10 + 10 / 2 < 3 < 10 - 10 / 2
  /\ exists cs, gen_cells some_clip_cells some_hull 10 10 (Some (square_mask (-20) 20 (-10) 10)) NoStrips = Ok cs.
Proof.
  split; [intros x y H; exact H|]. split; [simpl; unfold rect; lra|]. repeat (split; [lra|]). eexists. reflexivity.
Qed.

(** ** C148: generated points are accepted as points of an analysis *)
(** Full statement: every generated point can be made a Point (non-negative identifier, latitude within
    90 and longitude within 180 degrees).  It fails for masks that reach beyond 180 degrees east, for both
    generators. *)
Theorem c148_equally_spaced_refuted : forall clip, clips_points clip ->
  exists m, bounded_mask m /\ exists d ps g, 0 < d /\ generate_equally_spaced_points clip d (Some m) = Ok ps
    /\ In g ps /\ g_lon g = 185 /\ point_accepted g = false.
Proof. exact wide_grid_ex. Qed.
Print Assumptions c148_equally_spaced_refuted.
Theorem c148_fibonacci_refuted : forall clip d n, clips_points clip -> compute_number_samples d = Ok n -> (2 <= n)%Z ->
  exists ps g, generate_fibonacci_lattice_points clip d (Some (square_mask 0 360 (-90) 90)) = Ok ps
    /\ In g ps /\ 180 < g_lon g /\ point_accepted g = false.
Proof. exact wide_fib. Qed.
Print Assumptions c148_fibonacci_refuted.
(** Proved part: without a mask, or with one inside the globe, every point is accepted. *)
Theorem c148_accepted_partial : forall clip d m ps, clips_points clip -> 0 < d ->
  match m with None => True | Some k => regular_mask k end ->
  (generate_equally_spaced_points clip d m = Ok ps \/ generate_fibonacci_lattice_points clip d m = Ok ps) ->
  Forall (fun g => point_accepted g = true) ps.
Proof. exact valid_steps. Qed.
Print Assumptions c148_accepted_partial.
(** With a mask that may leave the globe to the east, the rejected points are those east of 180 degrees. *)
Theorem c148_rejected_partial : forall clip d m ps g, clips_points clip -> 0 < d ->
  bounded_mask m -> -180 <= min_lon (mk_bnds m) -> -90 <= min_lat (mk_bnds m) -> max_lat (mk_bnds m) <= 90 ->
  (generate_equally_spaced_points clip d (Some m) = Ok ps \/ generate_fibonacci_lattice_points clip d (Some m) = Ok ps) ->
  In g ps -> (point_accepted g = true <-> g_lon g <= 180).
Proof. exact valid_iff. Qed.
Print Assumptions c148_rejected_partial.
(** What acceptance by the Point schema means. *)
Theorem c148_meaning : forall g,
  point_accepted g = true <-> (0 <= g_id g)%Z /\ -90 <= g_lat g <= 90 /\ -180 <= g_lon g <= 180.
Proof. exact accepted_iff. Qed.
Print Assumptions c148_meaning.
Example c148_case : clips_points some_clip /\ regular_mask (square_mask (-10) 10 (-10) 10)
  /\ (exists n, compute_number_samples 1000000 = Ok n /\ (2 <= n)%Z)
  /\ exists ps p, gen_points some_clip 10 10 (Some (square_mask (-10) 10 (-10) 10)) = Ok ps /\ In p ps.
Proof. exact (conj some_clip_ok (conj (square_regular (-10) 10 (-10) 10 ltac:(lra) ltac:(lra) ltac:(lra) ltac:(lra) ltac:(lra)) (conj many_samples (proj2 (proj2 (proj2 masked_case)))))). Qed.

(** ** C164: masked cells *)
(** Full statement: every masked cell is convex, lies within its grid square, contains the part of the mask in
    that square and stays within the mask.  The last fails for masks that are not convex: the cell is the
    convex hull of that part. *)
Theorem c164_within_mask_refuted : forall clip hull, clips_cells clip -> hulls hull ->
  exists m cs c x y, regular_mask m /\ gen_cells clip hull 10 10 (Some m) NoStrips = Ok cs /\ In c cs
    /\ sh_set c x y /\ ~ mk_covers m x y.
Proof. exact (fun clip hull C H => ex_intro _ l_mask (match l_bulges clip hull C H with
  ex_intro _ cs (ex_intro _ c (ex_intro _ x (ex_intro _ y P))) => ex_intro _ cs (ex_intro _ c (ex_intro _ x (ex_intro _ y (conj l_regular P)))) end)). Qed.
Print Assumptions c164_within_mask_refuted.
(** Proved part: the rest, and the last for convex masks; no cell leaves a convex region around the mask. *)
Theorem c164_masked_cells_partial : forall clip, clips_cells clip -> forall hull, hulls hull -> forall thi thj m s cs c,
  max_lon (mk_bnds m) <> -180 -> gen_cells clip hull thi thj (Some m) s = Ok cs -> In c cs ->
  convex (sh_set c) /\ exists i j, sh_id c = point_id i j thi thj
    /\ (exists x y, square_of thi thj (mk_bnds m) s i j x y /\ mk_covers m x y)
    /\ (forall x y, square_of thi thj (mk_bnds m) s i j x y -> mk_covers m x y -> sh_set c x y)
    /\ (forall x y, sh_set c x y -> square_of thi thj (mk_bnds m) s i j x y)
    /\ (forall B, convex B -> (forall x y, mk_covers m x y -> B x y) -> forall x y, sh_set c x y -> B x y)
    /\ (convex (mk_covers m) -> forall x y, sh_set c x y -> mk_covers m x y).
Proof. exact masked_cell_shape. Qed.
Print Assumptions c164_masked_cells_partial.
(** Masked cells do not overlap. *)
Theorem c164_interiors_disjoint : forall clip, clips_cells clip -> forall hull, hulls hull -> forall thi thj m s cs c c' x y,
  0 < thi -> 0 < thj -> max_lon (mk_bnds m) <> -180 -> gen_cells clip hull thi thj (Some m) s = Ok cs -> In c cs -> In c' cs ->
  interior (sh_set c) x y -> interior (sh_set c') x y -> sh_id c = sh_id c' /\ same_set (sh_set c) (sh_set c').
Proof. exact masked_cells_disjoint. Qed.
Print Assumptions c164_interiors_disjoint.
Example c164_case : clips_cells some_clip_cells /\ hulls some_hull /\ max_lon (mk_bnds l_mask) <> -180
  /\ (exists cs c, gen_cells some_clip_cells some_hull 10 10 (Some l_mask) NoStrips = Ok cs /\ In c cs)
  /\ convex (mk_covers (square_mask (-20) 20 (-10) 10)).
Proof.
  split; [exact some_clip_cells_ok|]. split; [exact some_hull_ok|]. split; [cbn; lra|].
  split; [destruct (l_bulges some_clip_cells some_hull some_clip_cells_ok some_hull_ok) as (cs & c & _ & _ & E & I & _); exists cs, c; auto|apply rect_convex].
Qed.
