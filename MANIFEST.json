{
 "claims": [
  {
   "property": "C01",
   "status": "proved",
   "theorems": [
    "c01_tle_acceptance"
   ],
   "note": "Both directions, for every list of strings. pairs_ok/Sorted are stated column by column, independently of the regular expressions and loops of the validators. The epoch decoder (sgp4) is an oracle."
  },
  {
   "property": "C02",
   "status": "proved",
   "theorems": [
    "c02_digit_corruption_rejected",
    "c02_digit_corruption_validation_error",
    "c02_digit_swap_accepted"
   ],
   "note": "Rejection with any epoch decoder; rejection as ValidationError when the decoder only raises ValueError. c02_digit_swap_accepted shows the guarantee cannot be extended to two digits."
  },
  {
   "property": "C03",
   "status": "partial",
   "theorems": [
    "c03_errors_are_validation_errors_partial",
    "c03_odd_exact_partial",
    "c03_errors_are_validation_errors_refuted"
   ],
   "note": "False: an odd number of lines escapes as IndexError (refuted), exactly when every complete pair can be read (c03_odd_exact_partial). Proved: lists of even length."
  },
  {
   "property": "C04",
   "status": "partial",
   "theorems": [
    "c04_accessors_partial",
    "c04_index_past_the_end",
    "c04_eccentricity_range",
    "c04_negative_drag_refuted",
    "c04_alpha5_refuted"
   ],
   "note": "Proved for every element set whose printed columns are well formed. Refuted for negative B* and for alpha-5 catalogue numbers, which validation accepts and the accessors reject."
  },
  {
   "property": "C05",
   "status": "proved",
   "theorems": [
    "c05_international_designator"
   ],
   "note": "Every accepted TLE; strip is specified by trimmed."
  },
  {
   "property": "C06",
   "status": "proved",
   "theorems": [
    "c06_closest_tle",
    "c06_closest_tle_list",
    "c06_track_uses_closest"
   ],
   "note": "Every nonempty ascending epoch list (guaranteed by C01), scalar and list arguments and the orbit track built on it."
  },
  {
   "property": "C07",
   "status": "proved",
   "theorems": [
    "c07_partition"
   ],
   "note": "argsort is any function returning a sorting permutation."
  },
  {
   "property": "C08",
   "status": "partial",
   "theorems": [
    "c08_partition_closest_refuted",
    "c08_later_segments_never_closest",
    "c08_first_segment_closest_partial"
   ],
   "note": "False in every segment but the first (c08_later_segments_never_closest): after the first cut the code keeps the index of the earlier TLE. Proved: the first segment, for epochs an even number of microseconds apart."
  },
  {
   "property": "C09",
   "status": "proved",
   "theorems": [
    "c09_fold_time",
    "c09_no_cycle_no_fold"
   ],
   "note": "Integers of microseconds, any positive cycle. The division of timedeltas is exact floor division."
  },
  {
   "property": "C10",
   "status": "proved",
   "theorems": [
    "c10_repeat_cycle"
   ],
   "note": "The culmination search (skyfield) is an oracle returning candidates after the epoch."
  },
  {
   "property": "C11",
   "status": "partial",
   "theorems": [
    "c11_cycle_history_refuted",
    "c11_cycle_history_not_lazy_partial",
    "c11_cycle_history_same_arguments_partial"
   ],
   "note": "False: a cached None or value is returned for different search arguments (refuted). Proved: histories that never load lazily, and histories that always use the same arguments."
  },
  {
   "property": "C12",
   "status": "proved",
   "theorems": [
    "c12_repeat_events",
    "c12_repeat_events_periodic",
    "c12_no_repeat"
   ],
   "note": "find_discrete/find_events is an oracle returning an event table of its window."
  },
  {
   "property": "C13",
   "status": "proved",
   "theorems": [
    "c13_multi_events"
   ],
   "note": "As C12, for several TLEs; says nothing about which TLE is used per segment (that is C08)."
  },
  {
   "property": "C14",
   "status": "partial",
   "theorems": [
    "c14_to_tle_current_refuted",
    "c14_to_tle_not_lazy_partial",
    "c14_to_tle_unassigned_partial"
   ],
   "note": "False with the default lazy loading (refuted). Proved for every orbit kind: non-lazy histories, and histories that assign only the same value."
  },
  {
   "property": "C15",
   "status": "proved",
   "theorems": [
    "c15_circular_derived_valid",
    "c15_sso_derived_valid",
    "c15_keplerian_derived_valid",
    "c15_molniya_derived_valid",
    "c15_open_orbit_refused",
    "c15_derived_errors"
   ],
   "note": "Exact real arithmetic; the binary64 counterpart is C16. For eccentricities above one, which the schema accepts, a derived orbit may be refused (c15_open_orbit_refused), outside the claim."
  },
  {
   "property": "C16",
   "status": "partial",
   "theorems": [
    "c16_derived_raan_refuted",
    "c16_train_backward_refuted",
    "c16_derived_raan_accept_partial",
    "c16_derived_raan_forward_partial",
    "c16_walker_partial",
    "c16_train_forward_partial"
   ],
   "note": "False in binary64 (Flocq): a tiny negative perturbation gives exactly 360.0, which the schema rejects; reachable through a train with a negative interval. Proved: the exact acceptance condition, nonnegative sums, Walker constellations and forward trains."
  },
  {
   "property": "C17",
   "status": "proved",
   "theorems": [
    "c17_circular_derived",
    "c17_sso_derived",
    "c17_keplerian_derived",
    "c17_keplerian_zero",
    "c17_tle_derived",
    "c17_tle_compose"
   ],
   "note": "All orbit kinds but Molniya/Tundra (C18). For Keplerian orbits the true anomaly obeys the truncated series, with the C20 error."
  },
  {
   "property": "C18",
   "status": "partial",
   "theorems": [
    "c18_period_kept_refuted",
    "c18_molniya_derived_partial",
    "c18_molniya_anomaly",
    "c18_molniya_zero"
   ],
   "note": "False for periods other than the class default (refuted): get_derived_orbit drops orbital_period. Everything else is kept."
  },
  {
   "property": "C19",
   "status": "proved",
   "theorems": [
    "c19_anomaly_laws",
    "c19_anomaly_range"
   ],
   "note": "Every real anomaly, every eccentricity in [0,1]."
  },
  {
   "property": "C20",
   "status": "proved",
   "theorems": [
    "c20_round_trip"
   ],
   "note": "Error at most degrees(110 e^4) for every eccentricity in [0,1]."
  },
  {
   "property": "C21",
   "status": "proved",
   "theorems": [
    "c21_period_law",
    "c21_period_defined",
    "c21_period_increasing",
    "c21_period_microseconds",
    "c21_period_microseconds_monotone",
    "c21_mean_motion",
    "c21_mean_motion_defined",
    "c21_altitude_recovered",
    "c21_tle_period"
   ],
   "note": "Includes the microsecond rounding of timedelta in between."
  },
  {
   "property": "C22",
   "status": "proved",
   "theorems": [
    "c22_sso_inclination",
    "c22_sso_inclination_increasing"
   ],
   "note": "Every altitude the schema accepts."
  },
  {
   "property": "C23",
   "status": "proved",
   "theorems": [
    "c23_sso_node"
   ],
   "note": "The Sun's right ascension (skyfield) is an oracle."
  },
  {
   "property": "C24",
   "status": "proved",
   "theorems": [
    "c24_molniya_geometry",
    "c24_mean_motion"
   ],
   "note": "The mean-motion part also for Tundra orbits."
  },
  {
   "property": "C25",
   "status": "partial",
   "theorems": [
    "c25_molniya_period_refuted",
    "c25_molniya_period_too_short"
   ],
   "note": "False: get_orbit_period is inherited and uses the perigee altitude as if the orbit were circular (refuted, and too short in general)."
  },
  {
   "property": "C26",
   "status": "proved",
   "theorems": [
    "c26_names_ordered",
    "c26_names_decode",
    "c26_str"
   ],
   "note": "Any name, any n."
  },
  {
   "property": "C27",
   "status": "proved",
   "theorems": [
    "c27_train_members",
    "c27_walker_members",
    "c27_soc_members",
    "c27_mog_members"
   ],
   "note": "One theorem per constellation kind. MOG with enough fuel for the Kepler loop (C36, C104)."
  },
  {
   "property": "C28",
   "status": "proved",
   "theorems": [
    "c28_train_spacing"
   ],
   "note": "The lead orbit is circular, sun-synchronous or Keplerian."
  },
  {
   "property": "C29",
   "status": "proved",
   "theorems": [
    "c29_walker_validation"
   ],
   "note": "All integers."
  },
  {
   "property": "C30",
   "status": "proved",
   "theorems": [
    "c30_walker_structure"
   ],
   "note": "k = ceil(T/P)."
  },
  {
   "property": "C31",
   "status": "partial",
   "theorems": [
    "c31_planes_used_refuted",
    "c31_planes_used_partial",
    "c31_nodes_defined"
   ],
   "note": "False for 5 satellites in 4 planes (refuted). Proved: an exact criterion."
  },
  {
   "property": "C32",
   "status": "partial",
   "theorems": [
    "c32_members_distinct_partial",
    "c32_members_distinct_refuted"
   ],
   "note": "Proved for circular and sun-synchronous lead orbits and Keplerian ones of eccentricity at most 1/2. Refuted above that: the truncated series is not injective."
  },
  {
   "property": "C33",
   "status": "proved",
   "theorems": [
    "c33_walker_closes"
   ],
   "note": "P divides T, delta configuration; the permutation is given by sigma."
  },
  {
   "property": "C34",
   "status": "proved",
   "theorems": [
    "c34_soc_sizing",
    "c34_soc_footprint",
    "c34_soc_members"
   ],
   "note": "Swaths up to the horizon."
  },
  {
   "property": "C35",
   "status": "proved",
   "theorems": [
    "c35_mog_geometry"
   ],
   "note": "Every returned member; membership of [0,360) and [0,180] is part of mog_member_ok."
  },
  {
   "property": "C36",
   "status": "proved",
   "theorems": [
    "c36_kepler_loop"
   ],
   "note": "Any e in [0,1), any mean anomaly; residual and distance to the exact solution are bounded."
  },
  {
   "property": "C37",
   "status": "proved",
   "theorems": [
    "c37_swath_roundtrip",
    "c37_field_of_regard_roundtrip"
   ],
   "note": "Both round trips."
  },
  {
   "property": "C38",
   "status": "proved",
   "theorems": [
    "c38_elevation_roundtrip",
    "c38_field_of_regard_roundtrip",
    "c38_beyond_horizon"
   ],
   "note": "Both round trips, and the value beyond the horizon."
  },
  {
   "property": "C39",
   "status": "partial",
   "theorems": [
    "c39_swath_monotone_partial",
    "c39_elevation_antitone_partial",
    "c39_wider_sees_less_refuted"
   ],
   "note": "False above 180 degrees (refuted, although the schema accepts up to 360). Proved up to 180."
  },
  {
   "property": "C40",
   "status": "proved",
   "theorems": [
    "c40_bounded",
    "c40_bounded_full_range",
    "c40_on_surface"
   ],
   "note": "Proved up to 360 degrees, with definedness of every square root and inverse function."
  },
  {
   "property": "C41",
   "status": "proved",
   "theorems": [
    "c41_nadir_field_of_view",
    "c41_nadir_defined"
   ],
   "note": "Every altitude above the elevation."
  },
  {
   "property": "C42",
   "status": "partial",
   "theorems": [
    "c42_half_look_angle_partial",
    "c42_look_angle_refuted"
   ],
   "note": "False: the code halves the look angle (refuted). Proved: what it computes for half the angle."
  },
  {
   "property": "C43",
   "status": "partial",
   "theorems": [
    "c43_polar_refuted",
    "c43_error_bounded_partial",
    "c43_equatorial_partial"
   ],
   "note": "False: degrees() is applied where radians() is meant (refuted at 90 degrees for every altitude). Proved: an error bound, exactness when equatorial, and when it is exact."
  },
  {
   "property": "C44",
   "status": "proved",
   "theorems": [
    "c44_inverse",
    "c44_monotone",
    "c44_velocity"
   ],
   "note": "Altitudes up to 35,000 km."
  },
  {
   "property": "C45",
   "status": "partial",
   "theorems": [
    "c45_access_bound_partial",
    "c45_access_bound_refuted",
    "c45_shape"
   ],
   "note": "False at high altitude because the Earth's rotation is neglected (refuted). Proved up to 10,000 km against a rotating Earth, plus monotonicity and end values."
  },
  {
   "property": "C46",
   "status": "proved",
   "theorems": [
    "c46_count_monotone",
    "c46_count_positive",
    "c46_count_is_area_ratio",
    "c46_zero_distance"
   ],
   "note": "Together with the meaning of the count as an area ratio."
  },
  {
   "property": "C47",
   "status": "proved",
   "theorems": [
    "c47_validity"
   ],
   "note": "Sunlit state and solar altitude (skyfield) are oracles."
  },
  {
   "property": "C48",
   "status": "proved",
   "theorems": [
    "c48_pixels"
   ],
   "note": "Any pixel counts, any oversampling the schema accepts."
  },
  {
   "property": "C49",
   "status": "partial",
   "theorems": [
    "c49_overlap_refuted",
    "c49_overlap_partial"
   ],
   "note": "False: the factor is applied twice (refuted); c49_overlap_partial gives the actual spacing."
  },
  {
   "property": "C50",
   "status": "partial",
   "theorems": [
    "c50_pixel_ray_refuted",
    "c50_pixel_ray_partial"
   ],
   "note": "False: the ray makes half the angle (refuted); the actual angle is proved."
  },
  {
   "property": "C51",
   "status": "partial",
   "theorems": [
    "c51_direction_partial",
    "c51_ellipse_partial",
    "c51_ring_closes_partial",
    "c51_square_partial",
    "c51_rectangle_partial",
    "c51_rectangle_refuted"
   ],
   "note": "Ellipses and squares proved. Rectangles refuted whenever wider than long: corners overshoot. Rays of rectangles point in the direction of their angle away from the corners."
  },
  {
   "property": "C52",
   "status": "proved",
   "theorems": [
    "c52_visible_intervals_exact"
   ],
   "note": "Any chronological alternating event list; passes shorter than twice the maximum access time."
  },
  {
   "property": "C53",
   "status": "partial",
   "theorems": [
    "c53_visible_intervals_in_window",
    "c53_visible_intervals_disjoint",
    "c53_visible_intervals_first_set",
    "c53_disjoint_without_alternation_refuted"
   ],
   "note": "In-window and first-set for every chronological list; disjointness needs alternation and is refuted without it."
  },
  {
   "property": "C54",
   "status": "partial",
   "theorems": [
    "c54_continuous_visibility_with_culmination_partial",
    "c54_continuous_visibility_refuted"
   ],
   "note": "False without a culmination in the window (refuted). Proved when only culminations occur."
  },
  {
   "property": "C55",
   "status": "proved",
   "theorems": [
    "c55_collect_observations_filter",
    "c55_collect_observations_order"
   ],
   "note": "Set of records, order and contents."
  },
  {
   "property": "C56",
   "status": "partial",
   "theorems": [
    "c56_fixed_access_window_partial",
    "c56_fixed_access_window_refuted"
   ],
   "note": "False for odd numbers of microseconds (refuted). Proved for even ones."
  },
  {
   "property": "C57",
   "status": "proved",
   "theorems": [
    "c57_multi_collection",
    "c57_multi_collection_total"
   ],
   "note": "Sorting is any function returning a sorted permutation."
  },
  {
   "property": "C58",
   "status": "proved",
   "theorems": [
    "c58_aggregate_separated",
    "c58_aggregate_same_coverage"
   ],
   "note": "Any table of proper intervals, any sort."
  },
  {
   "property": "C59",
   "status": "proved",
   "theorems": [
    "c59_aggregate_order_independent",
    "c59_aggregate_idempotent",
    "c59_separated_coverage_determines_intervals"
   ],
   "note": "Order independence also across different sorts."
  },
  {
   "property": "C60",
   "status": "proved",
   "theorems": [
    "c60_aggregate_provenance"
   ],
   "note": "Every contribution accounted for exactly once."
  },
  {
   "property": "C61",
   "status": "proved",
   "theorems": [
    "c61_access",
    "c61_revisit",
    "c61_time_accounting"
   ],
   "note": "Sum over any number of records."
  },
  {
   "property": "C62",
   "status": "proved",
   "theorems": [
    "c62_reduce",
    "c62_reduce_revisit_missing_iff_single",
    "c62_mean_between_extremes"
   ],
   "note": "Means over Q."
  },
  {
   "property": "C63",
   "status": "proved",
   "theorems": [
    "c63_grid_samples",
    "c63_grid_revisit",
    "c63_grid_samples_conserved",
    "c63_grid_empty"
   ],
   "note": "The spatial join is an arbitrary containment predicate."
  },
  {
   "property": "C64",
   "status": "partial",
   "theorems": [
    "c64_grid_weighted_mean_equal_samples_partial",
    "c64_grid_succeeds_partial",
    "c64_grid_outcome",
    "c64_grid_weighted_mean_refuted",
    "c64_grid_succeeds_refuted"
   ],
   "note": "False: the mean returned is unweighted (refuted), and a label beyond the table raises KeyError (refuted). Proved: equal samples; success when labels are in range."
  },
  {
   "property": "C65",
   "status": "proved",
   "theorems": [
    "c65_collect_downlinks"
   ],
   "note": "Visible intervals are those of C52."
  },
  {
   "property": "C66",
   "status": "proved",
   "theorems": [
    "c66_latency_first_downlink"
   ],
   "note": "Any sorts; merge_asof specified by latency_record."
  },
  {
   "property": "C67",
   "status": "proved",
   "theorems": [
    "c67_latency_nonnegative",
    "c67_collected_downlink_epochs_inside",
    "c67_rows_count",
    "c67_no_downlinks_drops_observations"
   ],
   "note": "Dropping all rows when no downlink exists is shown in c67_no_downlinks_drops_observations."
  },
  {
   "property": "C68",
   "status": "proved",
   "theorems": [
    "c68_reduce_latencies"
   ],
   "note": "Means over Q, missing values as None."
  },
  {
   "property": "C69",
   "status": "partial",
   "theorems": [
    "c69_samples_all_downlinked_partial",
    "c69_samples_refuted"
   ],
   "note": "False when some latency is missing (refuted). Proved otherwise."
  },
  {
   "property": "C70",
   "status": "partial",
   "theorems": [
    "c70_grid_rows",
    "c70_grid_weighted_mean_equal_samples_partial",
    "c70_grid_empty",
    "c70_grid_outcome",
    "c70_grid_weighted_mean_refuted"
   ],
   "note": "False (refuted: unweighted). Proved: row set, and equal samples."
  },
  {
   "property": "C71",
   "status": "proved",
   "theorems": [
    "c71_latitudes",
    "c71_lattice"
   ],
   "note": "Any lattice size."
  },
  {
   "property": "C72",
   "status": "proved",
   "theorems": [
    "c72_longitudes",
    "c72_distinct_points"
   ],
   "note": "Distinctness uses irrationality of the golden ratio."
  },
  {
   "property": "C73",
   "status": "partial",
   "theorems": [
    "c73_symmetric_refuted",
    "c73_symmetric_partial"
   ],
   "note": "False for every size (refuted): the southernmost point has no partner. Every other point has."
  },
  {
   "property": "C74",
   "status": "proved",
   "theorems": [
    "c74_masked_is_filtered",
    "c74_global_ids",
    "c74_beyond_180_east"
   ],
   "note": "clip is any function that keeps exactly the contained points."
  },
  {
   "property": "C75",
   "status": "proved",
   "theorems": [
    "c75_valid_coordinates",
    "c75_spacing",
    "c75_distance",
    "c75_cell_size"
   ],
   "note": "Any positive step; for a distance the neighbours on a meridian are that distance apart on the mean sphere."
  },
  {
   "property": "C76",
   "status": "partial",
   "theorems": [
    "c76_ids_unique_refuted",
    "c76_ids_unique_iff",
    "c76_ids_unique_masked_partial",
    "c76_cell_ids_unique_partial"
   ],
   "note": "False when 360 is not a multiple of the step (refuted; exact criterion proved for points). Proved for narrow masks and for cells with divisible steps."
  },
  {
   "property": "C77",
   "status": "proved",
   "theorems": [
    "c77_same_ids_and_centres",
    "c77_masked"
   ],
   "note": "Unmasked by position; masked by membership."
  },
  {
   "property": "C78",
   "status": "proved",
   "theorems": [
    "c78_interiors_disjoint",
    "c78_grid_squares",
    "c78_union",
    "c78_latitude_strips",
    "c78_longitude_strips"
   ],
   "note": "Unmasked cells and both strip kinds."
  },
  {
   "property": "C79",
   "status": "proved",
   "theorems": [
    "c79_sound",
    "c79_complete",
    "c79_subset_of_global",
    "c79_invalid_mask"
   ],
   "note": "Soundness, completeness inside the bounding box, subset of the global grid, invalid masks."
  },
  {
   "property": "C80",
   "status": "partial",
   "theorems": [
    "c80_cover_refuted",
    "c80_cover_inner_partial",
    "c80_cover_aligned_partial",
    "c80_cover_strips_partial",
    "c80_cells_within_squares"
   ],
   "note": "False for a mask inside one cell (refuted). Proved: half a step inside the bounding box, aligned boxes, strips."
  },
  {
   "property": "C81",
   "status": "proved",
   "theorems": [
    "c81_projection",
    "c81_last_wins"
   ],
   "note": "Any rings and parts."
  },
  {
   "property": "C82",
   "status": "proved",
   "theorems": [
    "c82_inside",
    "c82_outside",
    "c82_split_range"
   ],
   "note": "Vertices stay in place on the globe; ranges."
  },
  {
   "property": "C83",
   "status": "partial",
   "theorems": [
    "c83_north_inside",
    "c83_north",
    "c83_south_inside",
    "c83_south_partial",
    "c83_south_refuted"
   ],
   "note": "Refuted for polygons with holes over the south pole. South-pole wrapping of a polygon with holes raises ValueError; north and hole-free south are proved, as is the identity elsewhere."
  },
  {
   "property": "C84",
   "status": "partial",
   "theorems": [
    "c84_south_hole_refuted",
    "c84_split_refuted",
    "c84_straddle_refuted",
    "c84_antimeridian_partial",
    "c84_north_partial"
   ],
   "note": "False: UnboundLocalError for polygons on both sides, ValueError for holes at the south pole (refuted). Proved otherwise."
  },
  {
   "property": "C85",
   "status": "proved",
   "theorems": [
    "c85_unwrapping",
    "c85_no_step_no_change"
   ],
   "note": "Any ring."
  },
  {
   "property": "C86",
   "status": "proved",
   "theorems": [
    "c86_ordinary"
   ],
   "note": "Any number of parts."
  },
  {
   "property": "C87",
   "status": "partial",
   "theorems": [
    "c87_frame_refuted",
    "c87_others_partial"
   ],
   "note": "False: the frame passed in is overwritten (refuted). Proved for shapes (invalid ones raise ValueError) and series."
  },
  {
   "property": "C88",
   "status": "partial",
   "theorems": [
    "c88_rows",
    "c88_masked_partial",
    "c88_masked_refuted"
   ],
   "note": "Unmasked and geodetic masks proved; Earth-fixed coordinates with a mask refuted."
  },
  {
   "property": "C89",
   "status": "proved",
   "theorems": [
    "c89_grouping"
   ],
   "note": "Any period, any validity pattern."
  },
  {
   "property": "C90",
   "status": "partial",
   "theorems": [
    "c90_own_geometry_partial",
    "c90_lost_segment_refuted"
   ],
   "note": "False when a run crosses the antimeridian (refuted). Proved for plain runs."
  },
  {
   "property": "C91",
   "status": "proved",
   "theorems": [
    "c91_utm"
   ],
   "note": "Database query and clipping (pyproj, shapely) are oracles."
  },
  {
   "property": "C92",
   "status": "proved",
   "theorems": [
    "c92_rows",
    "c92_count",
    "c92_not_rectangular",
    "c92_masked"
   ],
   "note": "Masked version under soundness of the culling test."
  },
  {
   "property": "C93",
   "status": "proved",
   "theorems": [
    "c93_maximal_arcs"
   ],
   "note": "The list of arcs is the list of maximal runs, in order."
  },
  {
   "property": "C94",
   "status": "proved",
   "theorems": [
    "c94_tangent_point",
    "c94_tangent_velocity"
   ],
   "note": "Velocity is the derivative in the epsilon-delta sense."
  },
  {
   "property": "C95",
   "status": "partial",
   "theorems": [
    "c95_straight_behind_refuted",
    "c95_no_limit_partial",
    "c95_window_partial",
    "c95_wide_partial"
   ],
   "note": "False straight behind the receiver (refuted). Proved: the window that is applied."
  },
  {
   "property": "C96",
   "status": "proved",
   "theorems": [
    "c96_records"
   ],
   "note": "Any sort."
  },
  {
   "property": "C97",
   "status": "proved",
   "theorems": [
    "c97_identities"
   ],
   "note": "For any linear solver meeting its contract (numpy.linalg.inv)."
  },
  {
   "property": "C98",
   "status": "proved",
   "theorems": [
    "c98_order",
    "c98_more_satellites",
    "c98_hidden_satellite"
   ],
   "note": "Any number of satellites."
  },
  {
   "property": "C99",
   "status": "partial",
   "theorems": [
    "c99_value",
    "c99_threshold_partial",
    "c99_otherwise_nan_partial",
    "c99_threshold_refuted"
   ],
   "note": "False at exactly min_count_visible satellites (refuted). Proved with the strict threshold."
  },
  {
   "property": "C100",
   "status": "partial",
   "theorems": [
    "c100_geometry_partial",
    "c100_geometry_refuted"
   ],
   "note": "False: latitude and longitude are swapped (refuted); right exactly when they are equal."
  },
  {
   "property": "C101",
   "status": "partial",
   "theorems": [
    "c101_load_refuted",
    "c101_import_refuted",
    "c101_load_escapes_partial",
    "c101_load_handled_partial",
    "c101_load_bounds_partial",
    "c101_import_bounds_partial",
    "c101_import_fallback_partial"
   ],
   "note": "False for unreadable files and non-mapping documents (refuted). Proved: the exact list of escapes, bounds, fallback."
  },
  {
   "property": "C102",
   "status": "partial",
   "theorems": [
    "c102_closest_reflects_current_tle_refuted",
    "c102_closest_unassigned_partial"
   ],
   "note": "False after assignment of tle (refuted). Proved without assignments."
  },
  {
   "property": "C103",
   "status": "partial",
   "theorems": [
    "c103_train_ground_track_refuted",
    "c103_train_ground_track_offset_partial"
   ],
   "note": "False: solar instead of sidereal day (refuted); the exact offset is proved."
  },
  {
   "property": "C104",
   "status": "partial",
   "theorems": [
    "c104_mog_terminates_refuted",
    "c104_mog_endless_partial",
    "c104_mog_terminates_partial"
   ],
   "note": "False at eccentricity pi/2 (refuted). Proved for regular groups."
  },
  {
   "property": "C105",
   "status": "partial",
   "theorems": [
    "c105_mog_follows_reference_refuted",
    "c105_mog_follows_reference_partial"
   ],
   "note": "False: the reference's true anomaly is ignored (refuted). Proved when it is zero."
  },
  {
   "property": "C106",
   "status": "partial",
   "theorems": [
    "c106_ifov_refuted",
    "c106_ifov_partial"
   ],
   "note": "False with strong oversampling (refuted); exact criterion proved."
  },
  {
   "property": "C107",
   "status": "partial",
   "theorems": [
    "c107_pixel_order_refuted",
    "c107_pixel_order_partial",
    "c107_array_order_partial"
   ],
   "note": "False cross-track (refuted: right to left). Proved: actual order; array order."
  },
  {
   "property": "C108",
   "status": "partial",
   "theorems": [
    "c108_roll_partial",
    "c108_pitch_partial",
    "c108_pitch_refuted",
    "c108_roll_refuted"
   ],
   "note": "Roll is right-handed below 90 degrees; pitch is left-handed (refuted); 180 degrees of roll is refuted."
  },
  {
   "property": "C109",
   "status": "proved",
   "theorems": [
    "c109_nearer_limb",
    "c109_projection"
   ],
   "note": "surfpt and the limb plane (SPICE) are oracles with contracts. The nearer of the two limb points is used."
  },
  {
   "property": "C110",
   "status": "proved",
   "theorems": [
    "c110_rising"
   ],
   "note": "Any track."
  },
  {
   "property": "C111",
   "status": "partial",
   "theorems": [
    "c111_in_bounds_refuted",
    "c111_in_bounds_partial",
    "c111_geographic_partial"
   ],
   "note": "False: a polygon given with longitudes beyond 180 and no step of 180 degrees comes back unchanged (refuted). Proved for polygons in bounds that cross neither the antimeridian nor a pole; c111_geographic_partial: for polygons in geographic coordinates that cross the antimeridian in one direction or surround a pole, under contracts for split (parts within bounds, on one side, valid), is_valid (invariant under moves in longitude) and make_valid (within bounds)."
  },
  {
   "property": "C112",
   "status": "partial",
   "theorems": [
    "c112_antimeridian_latitude_refuted",
    "c112_antimeridian_latitude_partial"
   ],
   "note": "False: the latitude of the westernmost vertex is used (refuted). Right when the westernmost and easternmost vertices are equally far north."
  },
  {
   "property": "C113",
   "status": "proved",
   "theorems": [
    "c113_polar_polygon",
    "c113_polar_halves"
   ],
   "note": "Any polygon. c113_polar_halves: for a polygon in geographic coordinates the result lies in halves on either side of the prime meridian, under the contract splits_box of shapely split."
  },
  {
   "property": "C114",
   "status": "proved",
   "theorems": [
    "c114_collection"
   ],
   "note": "Any collection."
  },
  {
   "property": "C115",
   "status": "partial",
   "theorems": [
    "c115_rows",
    "c115_masked_partial",
    "c115_masked_refuted"
   ],
   "note": "Masked version refuted for crs other than spice; proved when the culling test is sound."
  },
  {
   "property": "C116",
   "status": "proved",
   "theorems": [
    "c116_covers",
    "c116_orbits"
   ],
   "note": "Union is any function meeting is_union."
  },
  {
   "property": "C117",
   "status": "partial",
   "theorems": [
    "c117_first_orbit_partial",
    "c117_first_orbit_refuted"
   ],
   "note": "False: times are reported in milliseconds (refuted). Proved for exact times."
  },
  {
   "property": "C118",
   "status": "partial",
   "theorems": [
    "c118_isolated_sample",
    "c118_total_refuted",
    "c118_total_partial",
    "c118_exact"
   ],
   "note": "False for isolated samples (refuted). Exact condition of success proved (c118_exact)."
  },
  {
   "property": "C119",
   "status": "partial",
   "theorems": [
    "c119_meridian_partial",
    "c119_pole",
    "c119_contains_refuted",
    "c119_distance"
   ],
   "note": "False near poles (refuted). Proved along a meridian; the distance is the least that suffices for the speed and step."
  },
  {
   "property": "C120",
   "status": "proved",
   "theorems": [
    "c120_bad_index",
    "c120_empty",
    "c120_method"
   ],
   "note": "Every argument combination."
  },
  {
   "property": "C121",
   "status": "proved",
   "theorems": [
    "c121_four_needed"
   ],
   "note": "Whatever min_count_visible."
  },
  {
   "property": "C122",
   "status": "proved",
   "theorems": [
    "c122_bounds"
   ],
   "note": "Any number of satellites."
  },
  {
   "property": "C123",
   "status": "proved",
   "theorems": [
    "c123_turned",
    "c123_range"
   ],
   "note": "Any azimuth turn, any positive ranges."
  },
  {
   "property": "C124",
   "status": "partial",
   "theorems": [
    "c124_rows",
    "c124_total_partial",
    "c124_no_satellites",
    "c124_total_refuted"
   ],
   "note": "Refuted for the empty satellite list (IndexError); proved otherwise."
  },
  {
   "property": "C125",
   "status": "proved",
   "theorems": [
    "c125_unknown_ignored",
    "c125_settings",
    "c125_rejected",
    "c125_out_of_range"
   ],
   "note": "Exact condition of acceptance. String conversions (pydantic) are oracles."
  },
  {
   "property": "C126",
   "status": "proved",
   "theorems": [
    "c126_shipped_defaults",
    "c126_import_default"
   ],
   "note": "Integer-to-float conversion oracle with its contract on the shipped values."
  },
  {
   "property": "C127",
   "status": "proved",
   "theorems": [
    "c127_part_by_part",
    "c127_fails_with_a_part"
   ],
   "note": "Repair by make_valid excluded by a hypothesis (it acts on the whole geometry)."
  },
  {
   "property": "C128",
   "status": "proved",
   "theorems": [
    "c128_coverage"
   ],
   "note": "Coverage is any relation satisfying the stated contracts of shapely's split, equality and make_valid."
  },
  {
   "property": "C129",
   "status": "proved",
   "theorems": [
    "c129_holes"
   ],
   "note": "np.sort/argsort as any sorting permutation."
  },
  {
   "property": "C130",
   "status": "partial",
   "theorems": [
    "c130_limb_plane_partial",
    "c130_limb_plane_refuted"
   ],
   "note": "Proved for level instruments; pitched instruments are refuted, rolled ones and rectangle corners not claimed. surfpt, edlimb with inelpl are oracles with contracts, witnessed by real implementations."
  },
  {
   "property": "C131",
   "status": "proved",
   "theorems": [
    "c131_limb",
    "c131_limb_times"
   ],
   "note": "edlimb and recgeo (SPICE) and split_polygon are oracles here; coverage of the split polygon is C135."
  },
  {
   "property": "C132",
   "status": "partial",
   "theorems": [
    "c132_field_of_regard_partial",
    "c132_field_of_regard_refuted"
   ],
   "note": "The angle is min(F,360-F)/2: above 180 degrees the footprint shrinks again. F = 180 is excluded because the tangent of a right angle is a large number in binary64 and undefined in the model."
  },
  {
   "property": "C133",
   "status": "proved",
   "theorems": [
    "c133_footprint_times",
    "c133_footprint_single",
    "c133_vertices"
   ],
   "note": "Closing of the outline compares coordinates as reals, shapely as doubles; the theorem allows both a closed list and a repeated first vertex."
  },
  {
   "property": "C134",
   "status": "proved",
   "theorems": [
    "c134_pixel_array",
    "c134_pixel_array_times",
    "c134_pixel_array_single"
   ],
   "note": "Elevations of the points are those recgeo returns."
  },
  {
   "property": "C135",
   "status": "proved",
   "theorems": [
    "c135_footprint_coverage",
    "c135_limb_coverage",
    "c135_buffer_coverage"
   ],
   "note": "Coverage is any relation that meets the contracts of C128 and ignores elevations."
  },
  {
   "property": "C136",
   "status": "proved",
   "theorems": [
    "c136_pixels_inside"
   ],
   "note": "Fields of view of exactly 180 degrees are excluded (unbounded)."
  },
  {
   "property": "C137",
   "status": "proved",
   "theorems": [
    "c137_segments"
   ],
   "note": "shapely's split is an oracle with a contract. The elevation of the splitting is not modelled."
  },
  {
   "property": "C138",
   "status": "partial",
   "theorems": [
    "c138_restored_partial",
    "c138_loaded_restored",
    "c138_restored_refuted",
    "c138_loadable_refuted"
   ],
   "note": "Exact: restored iff every nested instance is of a class its field's annotation names (not a subclass). Refuted with a satellite carrying a pointed instrument (loads as a different object), a MOG constellation with a Keplerian orbit and an architecture with a SOC constellation (do not load). Contract: scalar fields survive saving and loading, and the union choice takes one of the accepting alternatives."
  },
  {
   "property": "C139",
   "status": "partial",
   "theorems": [
    "c139_orbits_partial",
    "c139_orbit_kept",
    "c139_orbits_refuted"
   ],
   "note": "Exact acceptance for satellite, train, MOG and SOC; for Walker only the necessary condition (its validators also apply). Refuted: Molniya (and likewise Tundra) orbits are refused whatever the other arguments."
  },
  {
   "property": "C140",
   "status": "partial",
   "theorems": [
    "c140_instruments_partial",
    "c140_instruments_refuted",
    "c140_declared_entries_partial"
   ],
   "note": "Refuted: loaded instruments are always of the plain class; a roll angle in the description is dropped. The partial theorems say what is kept: the declared entries alone decide."
  },
  {
   "property": "C141",
   "status": "proved",
   "theorems": [
    "c141_orbit",
    "c141_members"
   ],
   "note": "Any choice function among accepting alternatives."
  },
  {
   "property": "C142",
   "status": "partial",
   "theorems": [
    "c142_architecture_partial",
    "c142_architecture_refuted"
   ],
   "note": "Equivalence for members described with a type; refuted for SOC constellations."
  },
  {
   "property": "C143",
   "status": "proved",
   "theorems": [
    "c143_center",
    "c143_nadir",
    "c143_pixels",
    "c143_outline",
    "c143_pointed_outline",
    "c143_instrument_outline",
    "c143_limb"
   ],
   "note": "Contracts of surfpt, inelpl, edlimb and recgeo as in the statements; each shown satisfiable."
  },
  {
   "property": "C144",
   "status": "proved",
   "theorems": [
    "c144_elevation",
    "c144_center_and_pixels"
   ],
   "note": "The bound is not sharp: at flattening f the factor is f/(1-f). The 10 nm cover the rounding of the polar radius constant."
  },
  {
   "property": "C145",
   "status": "partial",
   "theorems": [
    "c145_swath_partial",
    "c145_accepted_fields",
    "c145_swath_refuted"
   ],
   "note": "Holds for fields of regard up to 180 degrees (c145_swath_partial). Refuted beyond: the methods take the sine of half the field of regard, so 360 degrees gets a swath of zero and a minimum elevation of 90 degrees. c145_accepted_fields says exactly which fields of regard are accepted."
  },
  {
   "property": "C146",
   "status": "partial",
   "theorems": [
    "c146_observations_partial",
    "c146_no_instruments_refuted",
    "c146_downlinks_partial",
    "c146_occultations_partial",
    "c146_aggregate_partial",
    "c146_latencies_partial",
    "c146_reduced_partial",
    "c146_tracks_partial",
    "c146_plain_tracks_partial",
    "c146_bare_partial",
    "c146_dop_partial",
    "c146_rows_partial",
    "c146_line_rows_partial",
    "c146_point_rows_partial",
    "c146_aggregate_refuted",
    "c146_latencies_refuted",
    "c146_tracks_refuted",
    "c146_grid_refuted"
   ],
   "note": "No satellite or instrument at all: ValueError instead of an empty frame (c146_no_instruments_refuted). Columns by name only: no types, no order. Refuted: aggregate_observations of no observations lacks access and revisit; compute_latencies without downlinks lacks sat_alt and sat_az; tracks that a mask empties lack the optional columns; grid_observations keeps further columns of the cells only when there is nothing to grid. A spatial join without pairs is taken to give an empty frame with the same columns."
  },
  {
   "property": "C147",
   "status": "partial",
   "theorems": [
    "c147_coverage_partial",
    "c147_latency_partial",
    "c147_aggregated_latency_fails",
    "c147_aggregated_latency_refuted",
    "c147_sampled_cells_refuted"
   ],
   "note": "Both documented chains are proved for all numbers of rows. Refuted: compute_latencies of aggregated observations raises KeyError (no sat_alt); cells with a samples column raise KeyError."
  },
  {
   "property": "C148",
   "status": "partial",
   "theorems": [
    "c148_equally_spaced_refuted",
    "c148_fibonacci_refuted",
    "c148_accepted_partial",
    "c148_rejected_partial",
    "c148_meaning"
   ],
   "note": "Refuted for masks reaching beyond 180 degrees east (both generators keep longitudes above 180, which Point rejects). Proved: all points accepted without a mask or with a mask inside the globe; for masks leaving the globe to the east the rejected points are exactly those east of 180."
  },
  {
   "property": "C149",
   "status": "proved",
   "theorems": [
    "c149_demanded",
    "c149_attributes",
    "c149_values",
    "c149_left_out",
    "c149_accepted",
    "c149_order",
    "c149_walker"
   ],
   "note": "Field conversion (pydantic) is a parameter; which numbers it accepts is covered by the validity predicates of the orbit and constellation domains."
  },
  {
   "property": "C150",
   "status": "partial",
   "theorems": [
    "c150_keplerian_partial",
    "c150_molniya_partial",
    "c150_circular_partial",
    "c150_sun_synchronous",
    "c150_anomaly_increases_partial",
    "c150_anomaly_range_partial",
    "c150_anomaly_half_partial",
    "c150_anomaly_refuted",
    "c150_open_orbit_refuted",
    "c150_molniya_refuted",
    "c150_altitude_refuted"
   ],
   "note": "Proved for eccentricities up to 0.77 and altitudes above the surface. False beyond: at e = 0.96 a true anomaly of 120 degrees gives a negative mean anomaly; eccentricities above one, Molniya perigees too high for the period and altitudes below the centre of the Earth are accepted."
  },
  {
   "property": "C151",
   "status": "partial",
   "theorems": [
    "c151_keplerian_partial",
    "c151_circular_partial",
    "c151_sun_synchronous_partial",
    "c151_molniya_partial",
    "c151_keplerian_period_partial",
    "c151_circular_period_partial",
    "c151_sun_synchronous_period_partial",
    "c151_molniya_period_partial",
    "c151_epoch_refuted",
    "c151_underground_refuted"
   ],
   "note": "Refuted outside the ranges (epoch in 2100, altitude below the centre). Proved within epochs 1957-2056, eccentricities up to 0.77, altitudes above the surface and Molniya periods of at least 865 s; sgp4's exporter and epoch reader enter through contracts that Export_Witness shows satisfiable."
  },
  {
   "property": "C152",
   "status": "partial",
   "theorems": [
    "c152_derived_elements_partial",
    "c152_catalog_number_refuted"
   ],
   "note": "Proved for every number the reader decodes; the catalogue number is refuted (it becomes 0); designator, ephemeris type, element set and revolution numbers are not passed on by the code."
  },
  {
   "property": "C153",
   "status": "partial",
   "theorems": [
    "c153_more_observations_cover_more",
    "c153_more_observations_more_access",
    "c153_more_observations_shorter_gaps",
    "c153_more_satellites_more_observations",
    "c153_more_observations_mean_revisit_refuted"
   ],
   "note": "Coverage, total access and gaps are monotone (proved for all frames and sorts); the mean revisit time reported by reduce_observations is not (refuted)."
  },
  {
   "property": "C154",
   "status": "partial",
   "theorems": [
    "c154_more_downlinks_sooner_contact_partial",
    "c154_more_stations_more_downlinks",
    "c154_more_stations_latency_refuted"
   ],
   "note": "Contact start is monotone and latency too when passes do not overtake each other; in general an added station can increase the latency, because the middle of the first pass is reported (refuted)."
  },
  {
   "property": "C155",
   "status": "partial",
   "theorems": [
    "c155_stricter_requirements_remove_observations",
    "c155_longer_fixed_access_refuted"
   ],
   "note": "Proved as a sublist relation; with access_time_fixed a longer minimum access time lengthens the records (refuted for the total access time)."
  },
  {
   "property": "C156",
   "status": "partial",
   "theorems": [
    "c156_split_period_partial",
    "c156_split_period_refuted"
   ],
   "note": "Proved when both parts contain events; a part without events is reported as invisible (refuted)."
  },
  {
   "property": "C157",
   "status": "proved",
   "theorems": [
    "c157_later_visibility",
    "c157_later_observations",
    "c157_later_aggregation",
    "c157_later_access_and_revisit"
   ],
   "note": "Proved for visible periods, observations and aggregated intervals, access and revisit columns."
  },
  {
   "property": "C158",
   "status": "partial",
   "theorems": [
    "c158_generated_points_accepted_refuted",
    "c158_coordinates_within_an_ulp_partial",
    "c158_accepted_unless_half_way_partial"
   ],
   "note": "False: for 140210.9586846493 m the machine quotient 360/step is exactly 285.5, which rounds to 286 columns, and the last longitude is 180.00000000000006; Point refuses it. Proved for every distance in range: coordinates are finite, never below the lower bound and at most one ulp above the upper one, and every point is accepted unless a machine quotient is exactly a half-integer. Masks are treated over exact reals only (Grid_Model)."
  },
  {
   "property": "C159",
   "status": "partial",
   "theorems": [
    "c159_distinct_ids_refuted",
    "c159_distinct_ids_exactly_when_partial",
    "c159_distinct_ids_just_below_a_divisor_partial"
   ],
   "note": "False: for 2*pi*R/7 (5718604.1 m) the machine quotient is just below 7, so there are seven columns but identifiers are taken modulo six; cells inherit the clash. Proved: the exact condition on the machine quotient under which identifiers are distinct, for every distance in range, and a sufficient condition on the step itself."
  },
  {
   "property": "C160",
   "status": "proved",
   "theorems": [
    "c160_reduced_depends_on_coverage_only",
    "c160_reduced_order_independent",
    "c160_gridding_outcome",
    "c160_gridded_samples_total"
   ],
   "note": "Pipe_Props.v composes aggregate_observations, reduce_observations and grid_observations (Coverage_Model.v): c160_reduced_depends_on_coverage_only (any two proper tables with the same covered time per point reduce to equal tables), c160_reduced_order_independent, c160_gridding_outcome (Ok exactly when the cells in use are labelled by positions of the reduced table, else KeyError), c160_gridded_samples_total."
  },
  {
   "property": "C161",
   "status": "partial",
   "theorems": [
    "c161_reduced_latency_order_independent_partial",
    "c161_reduced_latency_order_refuted",
    "c161_reduced_samples",
    "c161_gridding_outcome"
   ],
   "note": "c161_reduced_latency_order_independent_partial needs that no satellite has two downlinks starting at the same instant; c161_reduced_latency_order_refuted shows the claim fails without it (two stations in view from the same instant with different end times: the row order decides which one counts). c161_reduced_samples and c161_gridding_outcome hold without the restriction."
  },
  {
   "property": "C162",
   "status": "proved",
   "theorems": [
    "c162_ring",
    "c162_surface_area",
    "c162_radii",
    "c162_mean_sphere",
    "c162_count",
    "c162_whole_globe"
   ],
   "note": "Area_Props.v: c162_ring (the integrand is 2 pi r sqrt(1 + r'^2) of the profile), c162_surface_area (the area of Grid_Model.v is the Riemann integral within 1 square metre), c162_radii, c162_mean_sphere, c162_count, c162_whole_globe. The constants are taken as exact decimals (float rounding not modelled here)."
  },
  {
   "property": "C163",
   "status": "partial",
   "theorems": [
    "c163_walker_circular_partial",
    "c163_walker_apart_partial",
    "c163_train_circular_partial",
    "c163_walker_keplerian_partial",
    "c163_below_surface_refuted"
   ],
   "note": "Fleet_Props.v: c163_walker_circular_partial, c163_walker_apart_partial, c163_train_circular_partial, c163_walker_keplerian_partial. Missing: lead orbits at negative altitude (c163_below_surface_refuted: the schema accepts them and no member converts), eccentricities over 0.77, epochs outside 1957-2056, trains of Keplerian orbits, leads given as two-line elements (see C152). sgp4's printer and epoch reader enter through contracts (Export_Spec.v)."
  },
  {
   "property": "C164",
   "status": "partial",
   "theorems": [
    "c164_within_mask_refuted",
    "c164_masked_cells_partial",
    "c164_interiors_disjoint"
   ],
   "note": "Staying within the mask is refuted for an L-shaped mask (the convex hull of a clipped cell bulges out of it) and proved for convex masks; the rest is proved for all masks, given the contracts of geopandas.clip and shapely convex_hull."
  },
  {
   "property": "C165",
   "status": "partial",
   "theorems": [
    "c165_north",
    "c165_south_partial",
    "c165_south_refuted"
   ],
   "note": "Contracts: cutting along a line leaves every piece on one side of it and inside the box of the whole; crosses tells whether vertices lie on both sides of the meridian; equals is reflexive. North: all shapes. South: hole-free shapes; with a hole past the pole a ValueError is raised (c165_south_refuted, the trailing comma at utils.py line 911 puts a tuple where a longitude belongs). A part whose wrapped copy shapely calls invalid is returned unwrapped, and the theorem says so."
  },
  {
   "property": "C166",
   "status": "proved",
   "theorems": [
    "c166_coverage_is_visibility",
    "c166_coverage_is_accepted_passes",
    "c166_reduced_accounting"
   ],
   "note": "sky: events as find_events documents them (strictly ordered, inside the period, rise/culminate/set alternating, passes shorter than twice the maximum access time) and at least one event for a satellite in view all along (else C54). in_view counts the instant of rising. Instants are whole microseconds in c166_coverage_is_visibility, rational in c166_coverage_is_accepted_passes."
  },
  {
   "property": "C167",
   "status": "partial",
   "theorems": [
    "c167_next_pass_partial",
    "c167_first_opportunity_refuted"
   ],
   "note": "Part: the earliest pass beginning at or after the observation's end, to the middle of that pass (c167_next_pass_partial; stations without minimum access time, observation ending after the start of the period). Missing and refuted: contact in progress when the observation ends is not used (c167_first_opportunity_refuted)."
  },
  {
   "property": "C168",
   "status": "partial",
   "theorems": [
    "c168_pitch_refuted",
    "c168_angles_partial",
    "c168_yaw_partial"
   ],
   "note": "Part: yaw and pitch are the direction angles in the forward/left/up frame for a receiver in level flight (c168_angles_partial); yaw alone for every receiver not flying along its radius (c168_yaw_partial). Refuted: for a climbing receiver the transmitter straight ahead has non-zero pitch (c168_pitch_refuted), because pitch is measured against the velocity while up is measured against the position."
  },
  {
   "property": "C169",
   "status": "partial",
   "theorems": [
    "c169_clock_degrees_refuted",
    "c169_clock_radians_partial"
   ],
   "note": "Part: the clock angle in radians (c169_clock_radians_partial). Refuted: the docstring and the cone angle are in degrees, the returned clock angle is not (c169_clock_degrees_refuted)."
  },
  {
   "property": "C170",
   "status": "proved",
   "theorems": [
    "c170_lattice_accepted",
    "c170_no_poles"
   ],
   "note": "np.arcsin is an oracle known to stay within half the binary64 pi (asin_range) and, for the poles, strictly inside it away from plus and minus one (asin_interior)."
  },
  {
   "property": "C171",
   "status": "proved",
   "theorems": [
    "c171_golden_angle"
   ],
   "note": "The golden ratio, the product and the remainder are binary64 operations of Flocq."
  },
  {
   "property": "C172",
   "status": "partial",
   "theorems": [
    "c172_events_lost_refuted",
    "c172_events_twice_refuted",
    "c172_events_partial",
    "c172_fixed_offsets_partial",
    "c172_closest_partial",
    "c172_partition_partial",
    "c172_track_partial",
    "c172_visible_partial",
    "c172_naive_refused"
   ],
   "note": "Part: element set choice, partition, track and visible intervals for every zone; events with several element sets, without repeat cycle, or when the clock of the start has one offset at the start, a cycle later and at the end. Refuted: with a repeat cycle and a change of the clock, passes are lost (c172_events_lost_refuted) or reported twice (c172_events_twice_refuted). fold is always 0; tzinfo objects are identified by a number; datetimes without zone are refused (c172_naive_refused)."
  },
  {
   "property": "C173",
   "status": "partial",
   "theorems": [
    "c173_accepted_epoch_refuted",
    "c173_usable_exactly_when_partial",
    "c173_instant_partial"
   ],
   "note": "Part: an epoch with a zone, and only such an epoch, is usable, and counts by its instant. Refuted: None and datetimes without zone are accepted by Optional[datetime] and raise TypeError in to_tle."
  },
  {
   "property": "C174",
   "status": "partial",
   "theorems": [
    "c174_default_epoch_refuted",
    "c174_import_epoch_partial"
   ],
   "note": "Refuted: the default is evaluated at import. Part: all orbits without epoch have the time of the import."
  },
  {
   "property": "C175",
   "status": "proved",
   "theorems": [
    "c175_swath_wider",
    "c175_elevation_lower",
    "c175_field_narrower",
    "c175_swath_field_narrower",
    "c175_access_longer",
    "c175_velocity_lower"
   ],
   "note": "Over R, with the constants of the code. Effects of altitude on swath width, elevation, field of regard, access time and ground velocity, each strict."
  },
  {
   "property": "C176",
   "status": "proved",
   "theorems": [
    "c176_cycles_exact",
    "c176_cycles_model",
    "c176_epoch_recovered",
    "c176_epoch_increasing",
    "c176_epoch_late_collide"
   ],
   "note": "binary64 through Flocq. Exact ceiling and exact recovery of epochs; c176_epoch_late_collide shows that the bound on epochs is needed (it is outside the claim)."
  },
  {
   "property": "C177",
   "status": "proved",
   "theorems": [
    "c177_mean_near",
    "c177_plain_accurate",
    "c177_kahan_accurate",
    "c177_equal_durations"
   ],
   "note": "binary64 through Flocq. The summation algorithm is any function meeting accurate_sum; plain and Kahan summation are proved to meet it; pairwise summation of numpy is covered by the contract but not modelled."
  },
  {
   "property": "C178",
   "status": "proved",
   "theorems": [
    "c178_average_near",
    "c178_cell_near"
   ],
   "note": "binary64 through Flocq. Weights are counts of observations, exact in binary64; the two-stage error bound composes C177."
  },
  {
   "property": "C179",
   "status": "proved",
   "theorems": [
    "c179_field_of_regard",
    "c179_min_elevation_angle",
    "c179_swath_width",
    "c179_swath_clear"
   ],
   "note": "binary64 through Flocq; the mathematical library is any one meeting accurate_libm, which by_nearest is proved to meet. Bounds proved for all fields of regard up to 360 degrees."
  },
  {
   "property": "C180",
   "status": "proved",
   "theorems": [
    "c180_orbit_period",
    "c180_period_microseconds",
    "c180_max_access_time",
    "c180_ground_velocity"
   ],
   "note": "binary64 through Flocq; a**3 is modelled as a*a*a, as numba compiles it."
  },
  {
   "property": "C181",
   "status": "partial",
   "theorems": [
    "c181_every_distance_refuted",
    "c181_short_distances",
    "c181_usual_distances_partial"
   ],
   "note": "Refuted for short distances (division by zero for every cosine that rounds to one near zero); positive result from 1 km on. EARTH_SURFACE_AREA is any float within 1 m^2 of the exact area."
  },
  {
   "property": "C182",
   "status": "partial",
   "theorems": [
    "c182_wider_never_more",
    "c182_wider_more_refuted",
    "c182_reflection",
    "c182_any_swath",
    "c182_whole_turns",
    "c182_beyond_a_turn"
   ],
   "note": "Within the horizon the counts fall with the swath (c182_wider_never_more), whatever the altitudes. False beyond it: c182_wider_more_refuted (to every constellation there is an accepted wider swath that needs more satellites), since swath_width_to_field_of_regard folds the edge back to the near side (c182_any_swath, c182_reflection). Exact real arithmetic: whole circumferences raise ZeroDivisionError and swaths between one and two circumferences ValidationError (c182_whole_turns, c182_beyond_a_turn); in binary64 the sine of such a swath is a tiny number instead of zero."
  },
  {
   "property": "C183",
   "status": "partial",
   "theorems": [
    "c183_functions",
    "c183_sessions_partial",
    "c183_later_partial",
    "c183_normalize_refuted"
   ],
   "note": "Frames as objects of a heap; the contents and the pandas operations are arbitrary. Trusted: which pandas operations return a new object and which change one in place (Pure_Model), and that geometries are immutable. False for normalize_geometry of a GeoDataFrame, which changes its argument and returns it (c183_normalize_refuted, see also C87); true of the six analysis functions and of all sessions without it."
  },
  {
   "property": "C184",
   "status": "partial",
   "theorems": [
    "c184_single_refuted",
    "c184_single_near",
    "c184_merged_near",
    "c184_merged_inside"
   ],
   "note": "Binary64, for all summations of accurate_sum (plain and Kahan meet it, C177). The conversion of timestamps to floats is what pandas' groupby does for the mean of datetimes. False exactly: c184_single_refuted (an unmerged epoch moves by 24 ns); true up to 258 ns for one and 2049 (n + 1) ns for n observations."
  },
  {
   "property": "C185",
   "status": "partial",
   "theorems": [
    "c185_same_area",
    "c185_series_partial",
    "c185_series_refuted",
    "c185_orbit_within",
    "c185_orbit_partial",
    "c185_orbit_refuted",
    "c185_empty",
    "c185_pixels_refused"
   ],
   "note": "c185_pixels_refused states the error for instruments without a rectangular footprint. Masks of one piece (a geometry, a frame, a series of one geometry) with the same area give the same ground track and pixel rows; a series of several geometries gives no additional rows but loses rows (refuted with a witness), because only its first geometry is enlarged for culling. Orbit tracks: division never adds rows and loses only samples above inner borders (refuted with a witness). Contract of the geometry calls: geometry_laws in Mask_Spec.v; its satisfiability is shown by ex_laws."
  },
  {
   "property": "C186",
   "status": "partial",
   "theorems": [
    "c186_ground",
    "c186_ground_masked",
    "c186_pixels",
    "c186_pixels_masked",
    "c186_pixels_partial",
    "c186_pixels_refuted"
   ],
   "note": "Ground track columns are exact for every input, with and without masks. Pixel columns are exact for times that are whole milliseconds; in general the satellite position is that of the first sample reported with the same millisecond (refuted with a witness), and the observer position is taken at the rounded time."
  },
  {
   "property": "C187",
   "status": "partial",
   "theorems": [
    "c187_members",
    "c187_mog",
    "c187_soc",
    "c187_walker_partial",
    "c187_walker_refuted",
    "c187_satellite_refuted"
   ],
   "note": "Members of train, Walker, MOG and SOC constellations are proved independent for arbitrary edit sessions (c187_members, c187_mog, c187_soc). generate_walker shares the orbit and instrument objects (c187_walker_refuted; what is its own in c187_walker_partial) and Satellite.generate_members returns the satellite itself (c187_satellite_refuted)."
  },
  {
   "property": "C188",
   "status": "proved",
   "theorems": [
    "c188_conditions",
    "c188_omit",
    "c188_multi",
    "c188_multi_omit",
    "c188_multi_nothing"
   ],
   "note": "c188_multi_nothing says when the rows of several instruments cannot be collected. Proved for all orbits and all answers of skyfield and shapely; the composition of events, intervals, filter, track and columns is modelled."
  },
  {
   "property": "C189",
   "status": "partial",
   "theorems": [
    "c189_elevation_partial",
    "c189_repeat_partial",
    "c189_agreeing_partial",
    "c189_several_refuted",
    "c189_cycle_refuted"
   ],
   "note": "c189_elevation_partial: one element set, no repeat cycle. c189_repeat_partial: one element set, repeat cycles for events and tracks (the default), for altitudes that repeat with the cycle. c189_agreeing_partial: several element sets that agree on altitudes and events. c189_several_refuted and c189_cycle_refuted: sound events of every element set, and still a row far below the required elevation."
  },
  {
   "property": "C190",
   "status": "partial",
   "theorems": [
    "c190_loop_partial",
    "c190_members_partial",
    "c190_endless",
    "c190_members_refuted",
    "c190_accepted_fields"
   ],
   "note": "False for some groups the schema accepts: c190_members_refuted and, for a whole interval of parallel axes, c190_endless show that the iteration never ends under any libm within the contract. c190_loop_partial and c190_members_partial: eccentricities up to 1 - 2^-20 end; missing are those above that do not fall under c190_endless. c190_accepted_fields says exactly which groups are accepted."
  },
  {
   "property": "C191",
   "status": "partial",
   "theorems": [
    "c191_members_partial",
    "c191_accepted_fields"
   ],
   "note": "c191_members_partial: missing are groups with members inclined within 0.01 degrees of 0 or 180 degrees, tilts below 1e-5 radians and more than 2^20 members. e**2 is modelled as a product. Libm and np.dot are oracles with stated errors; the contracts are shown to be met. c191_accepted_fields says exactly which members are accepted."
  },
  {
   "property": "C192",
   "status": "proved",
   "theorems": [
    "c192_mean_to_true",
    "c192_true_to_mean"
   ],
   "note": "The rounded series against the exact series of the documentation, eccentricities 0 to 1, angles 0 to 360 degrees; libm is an oracle with stated error, shown to be met. How well the series approximates Kepler's equation is another claim."
  },
  {
   "property": "C193",
   "status": "partial",
   "theorems": [
    "c193_keplerian_partial",
    "c193_unchanged_partial",
    "c193_circular_exact",
    "c193_circular_forward",
    "c193_circular_near",
    "c193_walker",
    "c193_train_refuted"
   ],
   "note": "False of trains: c193_train_refuted, for every libm within the contract (a follower exactly behind perigee gives -1e-16 degrees, whose remainder rounds to 360.0, which the field refuses). Circular orbits are characterised exactly and Walker constellations are always accepted; missing from c193_keplerian_partial are eccentric orbits that end within 1e-10 degrees of a whole turn."
  },
  {
   "property": "C194",
   "status": "proved",
   "theorems": [
    "c194_round_trip",
    "c194_accurate",
    "c194_monotone"
   ],
   "note": "Ground velocities below 1 m/s (near-synchronous orbits) are excluded. The velocity is the one the code computes, including its degrees() of the inclination (C43)."
  },
  {
   "property": "C195",
   "status": "partial",
   "theorems": [
    "c195_seen_partial",
    "c195_answer",
    "c195_elevation_ignored",
    "c195_later_sets_ignored",
    "c195_elevation_refuted",
    "c195_later_sets_refuted"
   ],
   "note": "c195_seen_partial: points at elevation 0, times at which the first element set of every satellite is the nearest. The full claim is false: the elevation and all later element sets are ignored (c195_elevation_ignored, c195_later_sets_ignored, with wrong values in c195_elevation_refuted and c195_later_sets_refuted). c195_answer: there is an answer."
  },
  {
   "property": "C196",
   "status": "proved",
   "theorems": [
    "c196_equal_area",
    "c196_ascending"
   ],
   "note": "Binary64 (Flocq) with any arc sine accurate to 2^-50. Complements C71 (exact reals) and C170, C171."
  },
  {
   "property": "C197",
   "status": "proved",
   "theorems": [
    "c197_cells",
    "c197_points_inside",
    "c197_tiles"
   ],
   "note": "Binary64 (Flocq), without masks and strips (these are C77-C80 and C164, over the reals). The last column and row can end up to half a step beyond or before 180 and 90 degrees, as in C78."
  },
  {
   "property": "C198",
   "status": "partial",
   "theorems": [
    "c198_altitudes",
    "c198_condition",
    "c198_inclination_partial",
    "c198_inclination_refuted",
    "c198_highest",
    "c198_node"
   ],
   "note": "c198_condition and c198_node hold for all accepted altitudes and crossing times. Acceptance of the inclination is refuted at the highest altitude the schema accepts: the sum with the radius rounds to 12352000, so the inclination is exactly 180 degrees and get_derived_orbit and to_tle raise (c198_highest: with every library for which 1**3.5 is 1 and arccos(-1) is the nearest number to pi). c198_inclination_partial: proved up to one metre below. np.power and np.arccos are oracles with stated errors, which c198_witness shows can be met; the right ascension of the Sun is an input."
  },
  {
   "property": "C199",
   "status": "partial",
   "theorems": [
    "c199_counts_partial",
    "c199_regard",
    "c199_counts_refuted",
    "c199_smallest"
   ],
   "note": "Binary64 (Flocq). c199_regard gives the field of regard of the swath to 2.12e-9 degrees. c199_counts_partial: swaths below 100 km, edges seen below 2.6 degrees of elevation, packing below a quarter and altitudes outside 200 to 50000 km are missing, and the counts are within one of the least (rounding can pass an exact quotient). Success for all accepted fields is refuted (c199_counts_refuted, c199_smallest). C34 and C182 treat the same function over exact reals."
  }
 ]
}