# Formal model of code-lab-org/tatc in Rocq (Coq 8.16.1)

## Aim and method

The Python package under `/repo/src/tatc` is read as text and transcribed, function by
function, into shallow Gallina definitions. Python exceptions are values of a `pyres` type,
Python objects with caches are states with explicit transitions, third-party services
(skyfield/SGP4, shapely, pyproj, geopandas, SPICE, numpy.linalg, pydantic's string
conversions, pandas' unspecified order among ties) are universally quantified parameters of
the theorems ("oracles"), never axioms. Properties (`properties.jsonl`) are stated against
small independent specifications and proved for all inputs.

Numbers:

* instants and durations are integers (`Z`) of microseconds; statistics are exact rationals
  (`Q`); Python strings are lists of code points (`Z`);
* geometry, orbits and grids are over Coq's real numbers `R`: exact arithmetic, so rounding of
  binary64 is not modelled except in the Float, FGrid, FTime, FGeom, FMog, FAnom, FReach, FLat, FCell, FSso and FSoc domains;
* Float, FGrid, FTime, FGeom, FMog, FAnom, FReach, FLat, FCell, FSso, FSoc: binary64 with round to nearest even by Flocq's `BinarySingleNaN` (executable; Flocq
  adds no axiom of its own), used for the right ascension of derived orbits, the coordinates of generated points,
  durations and their means, the viewing geometry, mutual orbiting groups and anomalies;
* dilution of precision uses 4 x 4 index functions over `R`.

## Layout

For each domain `X`: `X_Model.v` (definitions only, each citing file and lines),
`X_Spec.v` (independent specification), `X_Proofs*.v` (lemmas), `X_Props.v`
(the property theorems, closed by `exact`, with `Print Assumptions` and a non-vacuity
example beside each).
Theorems named `..._refuted` exhibit a witness on which the stated property is false of the
model of the code; `..._partial` marks a theorem that proves part of a property. The
manifest lists a property as partial when it has such a theorem; its note says what is missing.

`seeded/LOG.jsonl` records the wrong programs tried against the theorems: each line is an edit
of one definition of the model, the claim it breaks and the theorems that then failed.

## Trusted base

1. Coq 8.16.1's kernel (with its standard reduction machines; `vm_compute` is used in proofs
   about concrete literals) and the build by `coq_makefile`.
2. The axioms of the standard library listed per theorem in "Assumptions" below. No axiom is
   declared here; there is no `Admitted`, no `Parameter`, no section-less `Variable`.
3. The reading of the Python source: that each definition of a `_Model.v` file means what the cited
   lines mean. The table "What is modelled" gives the correspondence; simplifications are stated
   in the comment of the definition concerned.
4. The oracles below are quantified over. A theorem holds of the real code only as far as the
   library functions meet the contracts that appear as hypotheses in its statement (theorems
   without such hypotheses hold whatever the library does). Every contract has an Example showing that
   it is satisfiable.

### Oracles and contracts

| domain | library | represented by | contract, where one is used |
|---|---|---|---|
| Tle | sgp4/skyfield epoch of a pair of lines | `epoch` | raises only ValueError |
| Epoch | skyfield culminations, events | `find`, `find_events` | candidates after epoch; events chronological inside the window |
| Epoch | np.argsort | `argsort` | a sorting permutation (not necessarily stable) |
| Orbit | sgp4 exporter; Sun's right ascension | `export`, `sun_ra` | none |
| Coverage, Latency | pandas sort_values | `srt` | a sorted permutation |
| Coverage, Latency | geopandas spatial join | `contains` | none |
| Grid | gpd.clip, convex_hull, mask predicates | `clip_points`, `clip_cells`, `convex_hull`, record `mask` | `clips_points`, `clips_cells`, `hulls`, `bounded_mask` |
| Poly, Track | shapely validity, split, crosses, equality, union, buffer | section variables, record `world` | stated in each theorem (`move_invariant`, `splits_sides`, `is_union`, `clip_keeps`, ...) |
| Instr, Foot | SPICE surfpt, edlimb/inelpl | `surfpt`, `limb_points`, `edlimb` | `hit` exactly when the line of sight meets the ellipsoid; the limb ellipse is on the ellipsoid and in the polar plane of the eye |
| Foot | SPICE recgeo | `recgeo` | `converts`: geodetic coordinates of the point |
| Ro | skyfield positions, azimuth | `track`, `geographic_position_of`, `azimuth_of` | none |
| Dop | np.linalg.solve(., eye(4)) | `solve` | `solver`: returns the inverse when there is one and fails otherwise |
| Dopat | conversion to two-line elements; skyfield altitude, azimuth and range | `to_tle`, `altaz` | none |
| Config | pydantic str/int conversion, YAML parser | `str_int`, ..., `Doc`/`ParserErr`/... | integers convert exactly on the shipped values |
| Pure | every pandas operation on frames | `pd`, `groups`, `is_empty`, `some_missing` | none; which operations return a new object and which change one in place is part of the model |
| Altaz | skyfield altitudes and azimuths of the satellite and the sun | `sat_seen`, `sun_seen` | none |
| Seen | find_events, altitudes, sunlit state, hour angle; footprint contains; argsort | `find_events`, `sat_seen`, `sunlit`, `sun_seen`, `hour_angle`, `footprint`, `argsort` | C189 only: events describe altitudes (`tells`, Seen_Spec.v), satisfiable (`tells_witness`) |
| Share | fields and derived orbits of the members, fields of the Walker constellation (Const, Geom); copy.deepcopy with its memo and pydantic keeping instances are modelled | `specs_of`, `walker_of` | none |
| Mask | contains, intersects, union, clip of mask geometries; buffer_target | `geo_ops` | `geometry_laws` (Mask_Spec.v): the calls are those of closed sets of places, contains and the enlargement are monotone; satisfiable (`ex_laws`) |
| Frames | groupby, dissolve, sjoin | numbers of groups and pairs (`parts`, `points`, `joined`) | frames with rows have groups (`splits_rows`) |
| Schema | pydantic scalar fields, serialisation, union choice | `scalar`, `saved`, `default`, `choose` | `scalars_restored`: saved scalars load as the same value; `chooses`: one of the accepting alternatives |
| FGrid, FGeom, FReach, FLat | libm sine, cosine and inverses | `f_sin`, `f_cos`, `f_asin`, `f_acos` | `asin_range`, `accurate_libm` (absolute error at most 2^-50), `rounds_to_one` |
| FSoc | libm sine, cosine, inverses and arc tangent (numpy, numba and math assumed alike) | `f_sin`, `f_cos`, `f_asin`, `f_acos`, `f_atan` | `accurate_libm`, `accurate_atan`; c199_smallest: `usual_values`; one library is proved to meet all |
| FSso | np.power at the exponent 3.5 and np.arccos; skyfield's right ascension of the Sun is an argument | `f_power`, `f_acos` | `accurate_power`, `computes` (absolute error at most 2^-50), both shown to be met |
| FMog | libm sine, cosine, arccos, arctan2; np.dot of three floats | `f_sin`, `f_cos`, `f_acos`, `f_atan2`, `f_dot` | `accurate_libm`, `accurate_atan2`, `accurate_dot` (any order, fused or not) |
| FAnom | libm sine; powers with exponents 2, 3 and 4 | `f_sin`, `f_pow` | `series_libm` (absolute errors at most 2^-50 and powers of [0, 1] between 0 and the base); rounded sines and repeated products are proved to meet it |
| FTime | pandas and numpy sums | `fsum` | `accurate_sum`; plain and Kahan summation are proved to meet it |

### What is not modelled

* Propagation itself: SGP4, the Earth orientation of skyfield, the ephemeris of the Sun.
* Rounding of binary64 outside the Float, FGrid, FTime, FGeom, FMog, FAnom, FReach, FLat, FCell, FSso and FSoc domains; NaN and infinities outside these and Config.
  Partial functions (square roots, arc cosines, division) are options or guarded by hypotheses, so that no
  theorem rests on Coq's totalised `/ 0` or `sqrt (-1)`.
* The dtypes and the order of the columns of pandas frames (the Frames domain models their names; elsewhere an empty
  frame is an empty list of rows), plotting and the `__init__` re-exports.
* pydantic's coercion of scalar arguments other than in Config (Schema models how objects nest, load and save, over any
  coercion of scalars): elsewhere schema objects start from typed field values, and the bounds of their fields are modelled (`circ_valid`, `pointed_valid`, ...).
* Concurrency: the package has none.

## Plan per property

| id | property | what is modelled and how it is proved |
|---|---|---|
| C01 | TLE acceptance is exact | Tle: lines as Coq strings, the two regular expressions as lists of per-column character classes (with the one alternation), checksum over ascii, validators composed in pydantic order; epoch decoding is an oracle. Proof: boolean reflection against a separate declarative `wf_tle`. |
| C02 | Single-digit TLE corruption is always rejected | Tle: sum modulo 10 changes when one digit changes; induction over the string. |
| C03 | Malformed TLE input is always reported as a validation error | Tle: exceptions are values; refutation witness is an odd-length list (IndexError); positive part for even lengths. |
| C04 | TLE field accessors decode their columns | Tle: Python int()/float() modelled on character lists as exact rationals; accessor = column slice + parse. Positive theorem for right-justified fields, refutation for explicit signs / alpha-5 numbers. |
| C05 | International designator century rule | Tle: same string model. |
| C06 | Closest-TLE selection is optimal | Epoch: times are integers; searchsorted as count of smaller elements; minimality by sortedness. |
| C07 | Timeline partition covers the window | Epoch: list model of midpoints, filter, concatenation. |
| C08 | Partition assigns the closest TLE to each segment | Epoch: refuted (off by one) with a witness; what is true is proved as partial. |
| C09 | Repeat-cycle time folding | Epoch: integer arithmetic with sign and mod. |
| C10 | Repeat-cycle detection | Epoch: candidate list oracle, first-match characterisation. |
| C11 | Repeat-cycle cache history | Epoch: state machine over call histories; refuted by a two-call history; positive for histories without intervening argument change. |
| C12 | Repeat-cycle events are the periodic extension | Epoch: replication as nested map/filter; membership characterisation and sortedness by induction. |
| C13 | Multi-TLE events are complete and ordered | Epoch: events oracle per segment; sortedness by concatenation of sorted segments. |
| C14 | to_tle reflects the current orbit fields | Orbit: state machine over histories of writes/calls; refuted under lazy loading, proved for lazy_load=False and for write-free histories. |
| C15 | Derived orbits are always valid orbits | Orbit: real-number model; mod 360 range; series anomaly bound by polynomial/trigonometric inequality. |
| C16 | Derived orbits never fail in floating point | Float: binary64 by SpecFloat; witness by computation. |
| C17 | Derived orbits change only what they should | Orbit: real modular arithmetic. |
| C18 | Derived Molniya/Tundra orbits keep the orbital period | Orbit: refuted with witness; positive part for default period. |
| C19 | Anomaly conversion laws | Orbit: real trigonometry. |
| C20 | Anomaly round trip for eccentric orbits | Orbit: partial: bound of the round trip error; exact inverse refuted. |
| C21 | Kepler's third law consistency | Orbit: Rpower/sqrt algebra. |
| C22 | Sun-synchronous inclination is valid and retrograde | Orbit: acos monotonicity. |
| C23 | Sun-synchronous node matches the equator crossing time | Orbit: modular arithmetic; solar right ascension is an oracle. |
| C24 | Molniya/Tundra geometry | Orbit: algebra. |
| C25 | Molniya/Tundra reported period is the orbital period | Orbit: refuted with witness. |
| C26 | Member names sort numerically | Const: decimal printing modelled on digit lists; lexicographic order by induction. |
| C27 | Constellation member count, names and instruments | Const: list induction. |
| C28 | Train spacing | Const: modular arithmetic over R. |
| C29 | Walker parameter validation | Const: boolean reflection of the schema. |
| C30 | Walker plane structure | Const: integer division/modulo. |
| C31 | Walker uses the requested number of planes | Const: refuted (T=5,P=4); proved when P divides T; exact plane count in general. |
| C32 | Walker members are distinct orbits | Const: modular arithmetic. |
| C33 | Walker-delta symmetry | Const: permutation of members. |
| C34 | Streets-of-coverage sizing | Geom: trigonometry and ceilings. |
| C35 | Mutual-orbiting-group geometry | Mog: vector algebra over R. |
| C36 | Mutual-orbiting-group Kepler iteration terminates | Mog: contraction mapping; fuel-free termination by existence of an iteration count. |
| C37 | Swath width and field of regard are inverse | Geom: trigonometric identities. |
| C38 | Elevation angle and field of regard are inverse | Geom: trigonometric identities. |
| C39 | Wider field of regard never sees less | Geom: proved up to 180 degrees (partial), refuted at 360. |
| C40 | Swath and elevation angle are well defined and bounded | Geom: domain bounds. |
| C41 | Nadir field of view equals field of regard | Geom: equality. |
| C42 | Look angle is the off-nadir angle | Geom: refuted. |
| C43 | Ground velocity uses the inclination in degrees | Geom: refuted; numeric bounds on cos. |
| C44 | Access time and along-track distance are inverse | Geom: field algebra under positive ground velocity. |
| C45 | Maximum access time is a true upper bound | Geom: comparison with spherical geometry of a pass. |
| C46 | Sample count is monotone | Geom: monotonicity of cosine and floor. |
| C47 | Observation validity rule | Instr: boolean truth table and list maps. |
| C48 | Pixel array is symmetric and inside the field of view | Instr: linear arithmetic. |
| C49 | Oversampling is the pixel overlap fraction | Instr: refuted; exact spacing proved. |
| C50 | Projected pixels look along their pixel angle | Instr: refuted; exact relation proved. |
| C51 | Footprint rays lie on the field-of-view boundary | Instr: trigonometric identity; rectangle proved for square fields and refuted otherwise. |
| C52 | Visible intervals are exactly the visible time | Coverage: event list model; invariant over the event list against an independent 'above' predicate. |
| C53 | Visible intervals are ordered and disjoint | Coverage: list invariants. |
| C54 | Continuous visibility is reported | Coverage: refuted on the empty event list, proved when a culmination event exists. |
| C55 | Observation filtering | Coverage: filter/map characterisation, oracles for footprint and validity. |
| C56 | Fixed access windows stay inside the pass | Coverage: Python timedelta halving (round half even) refuted for odd microseconds, proved for even ones. |
| C57 | Multi-satellite collection is a sorted union | Coverage: permutation + sortedness for every sort routine. |
| C58 | Aggregation merges exactly the overlapping observations | Coverage: cummax/cumsum model; clusters characterised by reachability. |
| C59 | Aggregation is order independent and idempotent | Coverage: uniqueness of the disjoint decomposition. |
| C60 | Aggregation does not mix points | Coverage: group-by model. |
| C61 | Access and revisit accounting | Coverage: telescoping sum. |
| C62 | Reduction statistics | Coverage: rational means. |
| C63 | Gridded samples | Coverage: spatial join as an oracle predicate. |
| C64 | Gridded access is the sample-weighted mean | Coverage: refuted with witness; positive for equal samples. |
| C65 | Downlink collection | Latency: filter/sort. |
| C66 | Latency picks the first available downlink | Latency: merge_asof(forward) modelled by first match in sorted table. |
| C67 | Latency rows | Latency: permutation and order arithmetic. |
| C68 | Latency reduction | Latency: rational means. |
| C69 | Latency sample count counts downlinked observations | Latency: refuted with witness; positive part when all matched. |
| C70 | Gridded latency is the sample-weighted mean | Latency: refuted with witness. |
| C71 | Fibonacci lattice latitudes | Fib: asin monotonicity. |
| C72 | Fibonacci lattice longitudes | Fib: irrationality of sqrt 5. |
| C73 | Fibonacci lattice is hemispherically symmetric | Fib: refuted. |
| C74 | Masked lattice is the filtered global lattice | Fib: bounding box prefilter implied by containment (oracle assumption: geometry contains => bounds contain). |
| C75 | Equally spaced points are valid coordinates | Grid: exact rationals, round half even. |
| C76 | Equally spaced ids are unique | Grid: refuted by witness; proved when the step divides 360. |
| C77 | Cells and points share ids | Grid: algebra. |
| C78 | Cells tile the globe | Grid: algebra and integer reasoning. |
| C79 | Masked point generation keeps every point inside the mask | Grid: rounding inequalities. |
| C80 | Masked cells cover the mask | Grid: refuted; slack bound proved. |
| C81 | Projection to elevation | Poly: structural. |
| C82 | Antimeridian wrapping | Poly: coordinates over R; sphere position via cos/sin. |
| C83 | Pole wrapping | Poly: as C82. |
| C84 | Polygon wrapping never crashes | Poly: refuted by hole / straddling witnesses; positive characterisation of success. |
| C85 | Antimeridian unwrapping | Poly: rounding + prefix sums. |
| C86 | split_polygon is the identity on ordinary polygons | Poly: structural; make_valid identity is an oracle assumption on valid polygons. |
| C87 | normalize_geometry leaves its argument alone | Poly: heap model with aliasing; refuted. |
| C88 | Orbit track rows | Track: list characterisation. |
| C89 | Ground track grouping | Track: run-id model. |
| C90 | Line-method geometry covers every segment | Track: refuted; proved without crossings. |
| C91 | UTM zone selection | Track: decision table. |
| C92 | Ground pixel rows | Track: list lengths and order. |
| C93 | Occultation arcs are maximal runs | Ro: loop with state; run characterisation. |
| C94 | Tangent point geometry | Ro: vector algebra, derivative via derivable_pt_lim. |
| C95 | Yaw window | Ro: refuted at boundary; interior proved. |
| C96 | Occultation sampling | Ro: argmin. |
| C97 | DOP identities | Dop: mathcomp matrices over a real closed field. |
| C98 | DOP is independent of satellite order and improves with more satellites | Dop: matrices; Sherman-Morrison / Loewner order. |
| C99 | DOP visibility threshold | Dop: refuted at equality; exact threshold proved. |
| C100 | DOP geometry column locates the point | Dop: refuted. |
| C101 | Configuration loading is total | Config: exception model; refuted for scanner errors and empty files; the rest proved. |
| C102 | Closest-TLE index reflects the current elements | Epoch: state machine with the cached epochs; refuted with a two-query history, proved without assignments. |
| C103 | Train members repeat the ground track | Const: refuted with the sidereal day constant; exact offset proved. |
| C104 | Mutual-orbiting-group generation always finishes | Mog: the while loop as a fuelled recursion; refuted by a group of eccentricity PI/2 whose iteration settles on a cycle of period two; proved for regular groups. |
| C105 | Mutual orbiting group surrounds its reference | Mog: refuted, the reference true anomaly is never read; proved for references with true anomaly 0. |
| C106 | No pixel sees more than the field of view | Instr: refuted with one half-overlapping pixel; exact condition proved. |
| C107 | Pixel indices follow their documented order | Instr: rays as vectors in the local frame; refuted (indices run right to left); along-track order and array enumeration proved. |
| C108 | Roll and pitch are right-handed rotations | Instr: Rodrigues rotation against the ray formula; pitch and large rolls refuted, roll below a right angle proved. |
| C109 | Projected positions lie on the line of sight | Instr: SPICE surfpt and limb functions as oracles with a contract. |
| C110 | Rising occultations lie ahead | Ro: an intersecting tangent point forces the transmitter below the local horizontal; arctan2 by quadrant. |
| C111 | split_polygon returns geographic coordinates | Poly: refuted by a polygon given with longitudes 170..190 (small steps, returned unchanged); positive for in-bounds ordinary polygons. |
| C112 | A polar footprint meets the antimeridian where its outline does | Poly: refuted (np.interp over a decreasing abscissa); the value actually used is characterised. |
| C113 | A polar footprint keeps its vertices | Poly: insertion sort is a sorted permutation. |
| C114 | Collections lose no polygon | Poly: permutation by induction. |
| C115 | Ground track rows | Model collect_ground_track with the libraries as a record of arbitrary functions; prove row correspondence by induction, the masked case under an explicit culling contract, and refute it for a pointed instrument whose footprint is narrower than its field of regard when crs is not spice. |
| C116 | Point-method aggregation | Group-by facts over Z keys plus the contract of the union operation. |
| C117 | Orbits are counted from the first sample | The track's times are skyfield's (rounded to milliseconds) while times[0] is not: refute with a first sample that is rounded down; prove when reported times equal requested times. |
| C118 | Line method accepts every validity pattern | A run of one sample makes LineString of one point, an error of GEOS; prove that every isolated valid sample raises (refutation) and success when every run has two samples and no crossing. |
| C119 | Target buffer contains everything within reach | Plate carree membership; refute near a pole with a point 2 degrees away and a buffer of 179 degrees; prove along a meridian. |
| C120 | Argument errors of the track functions | Direct from the model. |
| C121 | No DOP from fewer than four satellites | A sum of three outer products in four dimensions has determinant zero; hence no inverse. |
| C122 | DOP lower bounds | Variational characterisation of the diagonal of the inverse and Cauchy-Schwarz. |
| C123 | DOP depends only on directions and not on the orientation of the horizon | Conjugation of the normal matrix with a rotation. |
| C124 | DOP rows | Induction over times; refuted for the empty satellite list (numpy reduces an empty vector to a scalar, and n[i] raises IndexError). |
| C125 | A configuration file determines exactly its own settings | Model the YAML document as nested data and pydantic's lax conversions as oracles; prove by induction over the entry list that lookup is the last entry. |
| C126 | The shipped configuration equals the documented defaults | Evaluate the loader on the literal document for arbitrary conversion oracles; prove the fallback branch. |
| C127 | A MultiPolygon is split part by part | each pass maps parts to lists of parts and flattens; prove that such functions compose (the parts of the result are the concatenation of the results of the parts) and that totality is part-wise. |
| C128 | Splitting neither loses nor adds area | coverage as an arbitrary relation with contracts; show each wrap is a rigid motion of a piece on one side of the pole that does not change places on the globe, the loop over the parts preserves the union, and compose over parts and passes. |
| C129 | Holes follow their outline across the antimeridian | induction over the sorted list of longitudes and shifts for the interpolation search: to the west of w both ends of the segment carry a, to the east of e both carry b. |
| C130 | A line of sight that misses the Earth is moved straight down to the horizon | Foot model: projected_point with contracts for surfpt, edlimb, inelpl. Partial: level instruments (roll = pitch = 0) with circular fields of view, and rectangular ones away from the corners. Refuted for pitched instruments. |
| C131 | compute_limb returns the horizon | Foot model: compute_limb with contract for edlimb (tangent planes through the eye); quadratic form argument; mapM over times. |
| C132 | An instrument's footprint is bounded by its field of regard | Foot model: partial with angle min(F,360-F)/2 (F = 180 excluded: tan of a right angle), refuted above 180 degrees. |
| C133 | A footprint connects the projected lines of sight, time by time | Foot model: compute_footprint over tracks; index bookkeeping by induction; vertices by the projection contract. |
| C134 | The pixel array lists the projected pixels in order | Foot model: pixel_array; nth_error of the comprehension. |
| C135 | Footprints keep their coverage when split and raised | Foot model composed with the coverage theorem for split_polygon (C128). |
| C136 | Pixels look inside the field of view | Instr model: bounds of tan by Taylor polynomials. |
| C137 | Line-method areas follow the way of one run | Follow each piece of a split run through the shift of 360 degrees and back. |
| C138 | Saving and loading restores an object | Schema_Model.v: classes with their declared fields; pydantic's validation and serialisation as recursive functions over declared types; scalar fields under a round-trip contract. Equivalence with conformance of every nested instance by induction on values; refuted with concrete objects. |
| C139 | Every orbit can be flown | Schema_Model.v: acceptance with the orbit replaced, as an equivalence; refuted for Molniya orbits whatever the other arguments. |
| C140 | Loading a satellite keeps its instruments as described | Schema_Model.v: class of loaded instruments for every description; independence of undeclared entries; concrete refutation. |
| C141 | A description with a type loads as that type | Schema_Model.v with any choice among accepting alternatives; induction over members. |
| C142 | Every space system can be part of an architecture file | Schema_Model.v: equivalence for the four alternatives; refuted with a SOC constellation. |
| C143 | Projected positions are WGS 84 coordinates of what is seen | Foot_Spec.v: geodetic_point from the definition of geodetic coordinates with WGS 84 numbers; contract of recgeo shown satisfiable by the intermediate value theorem. |
| C144 | Projected positions have the requested elevation | Points of the enlarged ellipsoid in geodetic coordinates: the squares of the two normalised coordinates have weights summing to one, so one is at most and one at least 1. |
| C145 | The swath width and minimum elevation angle of an instrument agree with its field of regard | Real model of the two methods on a spherical Earth; off-nadir angles are strictly increasing in the distance up to the horizon; the swath edge is at the off-nadir angle of half the field of regard; beyond 180 degrees refuted (sine folds back). |
| C146 | The columns of a result do not depend on whether there is anything to report | Frames as lists of column names with a number of rows; pandas and geopandas operations (assignment, concat, merge_asof, sjoin, dissolve, rename, selection) as functions on these; every branch of every function. True of most; refuted for aggregate_observations, compute_latencies, tracks with options and cells with further columns. |
| C147 | Analysis results can be passed on to the next step | On the model of columns: concat keeps the union of the columns, hence the rows of a mixture of empty and filled frames have all columns; induction over the points. Refuted for aggregated observations passed to compute_latencies and for cells that have a samples column. |
| C148 | Generated points can be used as points of an analysis | Model the acceptance test of the Point schema on generated points; prove acceptance for no mask and for masks inside the globe from the grid and lattice ranges; refute for masks beyond 180 degrees east with concrete masks for both generators; characterise exactly which points are rejected. |
| C149 | Which constructor arguments are accepted, and what they become | Tables of demanded and optional names per class in Schema_Spec; the constructor model of Schema_Model is shown to follow them for every argument list, with field conversion as a parameter. |
| C150 | Accepted orbits give usable element sets | element sets of Orbit_Model; positivity of the derivative of the anomaly series for e <= 0.77 (sum of squares); refutations by witness above that eccentricity and for accepted open or underground orbits |
| C151 | Converting an orbit to two-line elements preserves the orbit | Export_Model joins Orbit_Model's element sets to Tle_Model's validator and accessors through oracles for sgp4's exporter and epoch; contracts in Export_Spec, shown satisfiable in Export_Witness |
| C152 | Derived two-line elements change only the anomaly and the node | induction over the pairs of lines with the contracts of the reader, exporter and epoch; refutation for the catalogue number, which becomes 0 |
| C153 | More observations never mean less coverage | Growth: separated interval lists, length sums and gaps compared; mean revisit refuted by a frame whose short gap is closed. |
| C154 | More ground stations never delay a downlink | Growth: first usable downlink of a larger set starts no later; latency bounded when passes do not overtake; refuted in general since the middle of the chosen pass is reported. |
| C155 | Stricter instrument requirements only remove observations | Growth: sublist relation of the two comprehensions; refuted for fixed access windows, whose length is the minimum. |
| C156 | Analysing a period in two parts finds the same visibility | Growth: exactness of visible intervals on both parts; refuted when a part has no events. |
| C157 | Results do not depend on the time origin | Growth: computation commutes with the shift; aggregation by uniqueness of separated covers. |
| C158 | Generated grid points are accepted by the Point schema (binary64) | Model the generator with Flocq's binary64 operations (FGrid_Model). The property is false: give a distance whose easternmost point lies one ulp beyond 180 degrees. Prove that no coordinate exceeds its bound by more than one ulp, and that all points are accepted unless the machine quotient is exactly a half-integer. |
| C159 | Generated grid points have distinct identifiers (binary64) | False: one seventh of the equator gives seven columns but identifiers modulo six. Prove the exact criterion on the machine quotient for all distances in the range, and that a step slightly below a divisor of 360 is safe. |
| C160 | A coverage analysis depends only on what was covered and when | Coverage model composed; the merged intervals of a point are the canonical form of its covered set, so equal sets give equal reduced rows. |
| C161 | A latency analysis does not depend on row order | Latency model composed; proved when no satellite has two downlinks that start together, refuted with two such downlinks. |
| C162 | Sample counts rest on the true surface of the WGS 84 ellipsoid | Riemann integral of the surface of revolution computed with the fundamental theorem of calculus; logarithm bounded by its series. |
| C163 | The two-line elements of constellation members show the pattern | Compose C28, C30 (members) with C151 (printed elements); refuted for orbits below the surface, which the schema accepts. |
| C164 | Cells generated with a mask | Cells as point sets, clipping as intersection and convex hull as least convex superset (contracts of geopandas and shapely). The last part is false for masks that are not convex: refuted with an L-shaped mask, proved for convex masks. |
| C165 | A polygon over a pole comes back in bounds | Contracts of split (pieces on one side of the line, inside the box) and crosses; case analysis on the pieces; refuted over the south pole for polygons with holes, where a ValueError is raised. |
| C166 | Reported coverage is exactly the time in view | Closed-interval form of the visible intervals theorem, provenance of collected rows, coverage preserved by aggregation; telescoping sum for the means. |
| C167 | Observations are downlinked at the first opportunity | Proved: the earliest pass that begins at or after the end of the observation, counted to its middle. Refuted: a pass in progress at the end of the observation is not used. |
| C168 | Yaw and pitch of an occultation ray point towards the transmitter | State the frame (forward, left, up) independently with an inner-product specification, prove that the reported angles are the direction angles for a level receiver and that yaw is right for every non-parallel receiver, and exhibit a climbing receiver for which pitch is wrong. |
| C169 | Clock angle of an instrument pixel | Specify the direction by its cosine and sine, prove it in radians for every pixel and exhibit a pixel whose reported value is not the angle in degrees. |
| C170 | Every point of a Fibonacci lattice is an acceptable point | Model the arithmetic with Flocq binary64 operations, bound the rounding of each operation and derive the ranges of the results. |
| C171 | Fibonacci longitudes follow the golden angle | Bound the error of the binary64 golden ratio by computation in the kernel and propagate it through the multiplication and the exact remainder. |
| C172 | Results do not depend on the time zone of the times given | Model datetimes as wall clock and zone with Python's rules for subtraction, comparison and addition; prove each function equal to the one over instants; refute it for the repeat-cycle branch by a period with a change of the clock. |
| C173 | An accepted epoch can be used | Model the subtraction from 1949-12-31 with exceptions as values; prove when it succeeds and what it gives, with the refuting epochs. |
| C174 | Default epoch of an orbit | Model the default as evaluated with the class body; refute the claim by an orbit constructed later and prove what holds instead. |
| C175 | Raising an orbit changes the viewing geometry in one direction | Geom_Model over R; monotonicity of asin, acos, atan and of the quotients in h. |
| C176 | Float quotients of durations lose no cycle and no microsecond of an epoch | FTime_Model: td_div with Flocq binary64; relative error of a quotient against the gap 1/cycle; half an ulp of a day number against half a microsecond. |
| C177 | Mean durations of points survive the conversion to seconds and back | FTime_Model: f_seconds, group mean, td_seconds in Flocq binary64; error accumulation by induction over the list. |
| C178 | Weighted mean durations of cells survive the conversion to seconds and back | FTime_Model: np.average in Flocq binary64; quotient of two accurate sums; composition with C177. |
| C179 | Viewing geometry is accurate in floating point | FGeom_Model: the functions over Flocq binary64 with an arbitrary library meeting accurate_libm; error propagation, Hoelder and Lipschitz bounds of the inverse sine and cosine; compared with Geom_Model. |
| C180 | Orbit periods, access times and ground velocities are accurate in floating point | FGeom_Model; relative error propagation through products, quotients and square roots; compared with Orbit_Model and Geom_Model. |
| C181 | Every positive sample distance gives a sample count | FGeom_Model; refuted with a witness for every correctly rounded cosine; relative error of the cap height from 1 km on; compared with Grid_Model. |
| C182 | A wider swath never needs more satellites in a streets-of-coverage constellation | Geom_Model's soc_gamma and soc_walker are evaluated for any swath: the sine rule in the triangle satellite, Earth centre, edge gives the footprint; least_steps is monotone in the step; the reflection of the swath at half the circumference gives the counterexample. |
| C183 | Analysis functions leave the data frames they are given alone | Pure_Model: frames are objects of a heap; each pandas operation is an arbitrary function of the contents of its operands that allocates a new object or changes one in place. Symbolic execution of each function against a specification on contents, then induction over sessions. |
| C184 | The epoch of merged observations is the mean of their epochs | FTime_Model's merged_epoch in binary64 with Flocq: conversion of the timestamps, summation with a relative error for each element, division and truncation; error bound by real arithmetic, witness by computation. |
| C185 | A mask means the same area however it is given | Mask_Model wraps the Track model with the mask argument as geometry, frame or series over arbitrary geometry operations; the laws of contains, intersects, clip, union and buffer are a contract stated over sets of places; equality of the results for masks of the same area, inclusion for series of several geometries, and a concrete world of unit cells for the refutations. |
| C186 | Altitude and azimuth columns describe the row they stand in | Altaz_Model extends both functions with the columns over arbitrary skyfield functions; rows with columns are related to the specification of rows time by time, with and without masks; a world reporting milliseconds refutes exactness of the pixel columns. |
| C187 | Members of constellations can be changed independently | Share_*: a heap of orbit, instrument, list and space system objects; deepcopy with its memo; pydantic constructors that keep instances and make new lists. Edit sessions are sequences of creations and changes limited to objects held. Proof: each member has an owner set of new addresses closed under references, the sets are disjoint, edits keep everything outside the held set (frame lemma). The shared orbit of generate_walker and [self] are refuted with witnesses. |
| C188 | The conditions reported with an observation are those of its epoch and meet the instrument's requirements | Seen_*: events of get_observation_events (Epoch_Model), visible intervals and records (Coverage_Model), is_valid_observation (Instr_Model) and get_orbit_track put together; columns are computed for the vector of epochs. Proof: the vector track is the list of the single tracks; filtering puts the requirement into every row. |
| C189 | Satellites are reported at or above the required elevation | Seen_*: same model; the middle of an interval is just before an instant at which the events have the satellite in view (C52). The two failures are refuted with witnesses in which the events of every element set are sound. |
| C190 | Generating the members of a mutual orbiting group ends | binary64 model of generate_members with fuel; contraction argument with rounding errors for eccentricities up to 1 - 2^-20; a two-cycle with an invariant for parallel axes near 2 pi times the distance (refutes the unrestricted claim) |
| C191 | Members of mutual orbiting groups are accepted and accurate in floating point | forward error analysis of the vector computations with libm contracts; wrap into [0, 360) by cases around 0 and 360 |
| C192 | Anomaly conversions are accurate in floating point | FAnom_*: the two functions operation by operation in Flocq's binary64 with libm as an oracle; forward error analysis. |
| C193 | Anomalies of derived orbits are accepted in floating point | FAnom_*: the composition of the conversions with np.mod and the field constraint; exactness of the conversions for circular orbits by monotonicity and the two end points; refutation with a concrete train. |
| C194 | Along-track distances and access times convert back in floating point | FReach_*: both functions over the binary64 ground velocity of FGeom; relative errors of the quotient and the product cancel whatever the error of the velocity. |
| C195 | Dilution of precision is that of the place and time | Dopat_Model: the selection of lines and place around Dop_Model.compute_dop, with to_tle and skyfield as oracles. Specification: true_row, the nearest element set seen from the point itself. Positive for points at elevation 0 while the first set is nearest; refuted for elevations and later sets. |
| C196 | Fibonacci latitudes divide the sphere evenly in floating point | FGrid_Model's f_fib_lat with Flocq. The argument of the arc sine is within 4e-16 of the rung; the arc sine expands distances, the sine does not, so the gap between rungs exceeds all errors. |
| C197 | Generated cells fit together and hold their points in floating point | FCell_Model on top of FGrid_Model with Flocq. Every edge and centre is within 2e-13 degrees of its exact value and a step is at least a millionth of a degree; shared edges are the same expression; tiling by induction on the columns. |
| C198 | Sun-synchronous orbits have the right inclination and node in floating point | Binary64 model of both functions and of the field constraints, np.power and np.arccos as oracles with stated errors; error propagation for the ratio, its 3.5th power, the arc cosine (through the cosine of the result) and the sum of angles; the last float below the limit as counterexample, by computation. |
| C199 | Streets of coverage have the right numbers of satellites and planes, computed in floating point | FSoc domain: binary64 model of generate_walker and swath_width_to_field_of_regard over an arbitrary accurate library; error propagation through every step to the two ceilings; the tiny swath computed symbolically from the usual values of the library. |

## What is modelled

Functions and methods of the package and the model files whose definitions cite them.

| function | lines | model |
|---|---|---|
| analysis/coverage.py `_get_empty_aggregate_frame` | 297-313 | Frames_Model, Pure_Model |
| analysis/coverage.py `_get_empty_coverage_frame` | 128-159 | Frames_Model |
| analysis/coverage.py `_get_empty_reduce_frame` | 358-372 | Frames_Model, Pure_Model |
| analysis/coverage.py `_get_visible_interval_series` | 29-125 | Coverage_Model, Seen_Model, Zone_Model |
| analysis/coverage.py `aggregate_observations` | 316-355 | Coverage_Model, FTime_Model, Frames_Model, Pure_Model |
| analysis/coverage.py `collect_multi_observations` | 265-294 | Coverage_Model, Frames_Model, Seen_Model |
| analysis/coverage.py `collect_observations` | 162-262 | Coverage_Model, Frames_Model, Seen_Model |
| analysis/coverage.py `grid_observations` | 412-453 | Coverage_Model, FTime_Model, Frames_Model, Pure_Model |
| analysis/coverage.py `reduce_observations` | 375-409 | Coverage_Model, FTime_Model, Frames_Model, Pure_Model |
| analysis/dop.py `compute_dop` | 34-137 | Dop_Model, Dopat_Model, Frames_Model |
| analysis/latency.py `_get_empty_downlinks_frame` | 22-37 | Frames_Model |
| analysis/latency.py `_get_empty_latency_frame` | 92-109 | Frames_Model, Pure_Model |
| analysis/latency.py `_get_empty_reduce_frame` | 204-217 | Frames_Model, Pure_Model |
| analysis/latency.py `collect_downlinks` | 40-89 | Frames_Model, Latency_Model, Pure_Model |
| analysis/latency.py `compute_latencies` | 112-201 | Frames_Model, Latency_Model, Pure_Model |
| analysis/latency.py `grid_latencies` | 254-291 | FTime_Model, Frames_Model, Latency_Model, Pure_Model |
| analysis/latency.py `reduce_latencies` | 220-251 | FTime_Model, Frames_Model, Latency_Model, Pure_Model |
| analysis/ro_coverage.py `_collect_ro_series` | 24-178 | Ro_Model |
| analysis/ro_coverage.py `_get_empty_ro_frame` | 181-201 | Frames_Model |
| analysis/ro_coverage.py `collect_ro_observations` | 204-296 | Frames_Model, Ro_Model |
| analysis/track.py `_get_empty_ground_track` | 239-253 | Frames_Model, Track_Model |
| analysis/track.py `_get_empty_orbit_track` | 38-53 | Frames_Model |
| analysis/track.py `_get_utm_epsg_code` | 256-284 | Track_Model |
| analysis/track.py `collect_ground_pixels` | 611-756 | Altaz_Model, Frames_Model, Mask_Model, Track_Model |
| analysis/track.py `collect_ground_track` | 287-468 | Altaz_Model, Frames_Model, Mask_Model, Track_Model |
| analysis/track.py `collect_orbit_track` | 75-236 | Frames_Model, Mask_Model, Track_Model |
| analysis/track.py `compute_ground_track` | 471-608 | Frames_Model, Poly_Model, Track_Model |
| config.py `load_yaml_config` | 63-83 | Config_Model |
| generation/cells.py `_generate_equally_spaced_cells` | 56-183 | FCell_Model, Frames_Model, Grid_Model |
| generation/cells.py `generate_equally_spaced_cells` | 23-53 | FCell_Model, Grid_Model |
| generation/points.py `_compute_equally_spaced_point_id` | 180-197 | FGrid_Model, Grid_Model |
| generation/points.py `_compute_fibonacci_lattice_point_latitude` | 20-33 | FGrid_Model, Grid_Model |
| generation/points.py `_compute_fibonacci_lattice_point_longitude` | 37-52 | FGrid_Model, Grid_Model |
| generation/points.py `_generate_equally_spaced_indices` | 224-278 | FGrid_Model, Grid_Model |
| generation/points.py `_generate_equally_spaced_points` | 281-336 | FGrid_Model, Grid_Model |
| generation/points.py `_get_bounds` | 200-221 | FGrid_Model, Grid_Model |
| generation/points.py `generate_equally_spaced_points` | 148-176 | FGrid_Model, Grid_Model |
| generation/points.py `generate_fibonacci_lattice_points` | 55-145 | FGrid_Model, Grid_Model |
| schemas/instrument.py `Instrument.compute_footprint` | 85-111 | Foot_Model, Schema_Model |
| schemas/instrument.py `Instrument.compute_footprint_center` | 113-137 | Foot_Model, Schema_Model |
| schemas/instrument.py `Instrument.get_min_elevation_angle` | 73-83 | Foot_Model, Schema_Model |
| schemas/instrument.py `Instrument.get_swath_width` | 61-71 | Foot_Model, Schema_Model |
| schemas/instrument.py `Instrument.is_valid_observation` | 139-174 | Instr_Model, Schema_Model, Seen_Model, Track_Model |
| schemas/instrument.py `PointedInstrument.compute_footprint` | 248-274 | Foot_Model, Instr_Model |
| schemas/instrument.py `PointedInstrument.compute_footprint_center` | 276-300 | Foot_Model, Instr_Model |
| schemas/instrument.py `PointedInstrument.compute_footprint_pixel_array` | 367-413 | Foot_Model, Instr_Model |
| schemas/instrument.py `PointedInstrument.compute_projected_pixel_position` | 302-334 | Foot_Model, Instr_Model |
| schemas/instrument.py `PointedInstrument.get_along_track_instantaneous_field_of_view` | 235-246 | Instr_Model |
| schemas/instrument.py `PointedInstrument.get_cross_track_instantaneous_field_of_view` | 222-233 | Instr_Model, Schema_Model |
| schemas/instrument.py `PointedInstrument.get_pixel_cone_and_clock_angle` | 336-365 | Instr_Model |
| schemas/orbit.py `CircularOrbit.get_derived_orbit` | 764-788 | Const_Model, FAnom_Model, Float_Model, Orbit_Model, Schema_Model, Share_Model |
| schemas/orbit.py `CircularOrbit.to_tle` | 790-815 | Dopat_Model, Export_Model, Orbit_Model, Schema_Model |
| schemas/orbit.py `KeplerianOrbit.get_derived_orbit` | 953-980 | Const_Model, FAnom_Model, Float_Model, Orbit_Model, Schema_Model, Share_Model |
| schemas/orbit.py `KeplerianOrbit.get_mean_anomaly` | 944-951 | FAnom_Model, Orbit_Model, Schema_Model |
| schemas/orbit.py `KeplerianOrbit.to_tle` | 982-1019 | Dopat_Model, Export_Model, FTime_Model, Orbit_Model, Schema_Model, Zone_Model |
| schemas/orbit.py `MolniyaOrbit.get_derived_orbit` | 1071-1098 | Float_Model, Orbit_Model, Schema_Model, Share_Model |
| schemas/orbit.py `MolniyaOrbit.get_eccentricity` | 1048-1058 | Orbit_Model, Schema_Model |
| schemas/orbit.py `MolniyaOrbit.get_mean_anomaly` | 1060-1069 | Orbit_Model, Schema_Model |
| schemas/orbit.py `MolniyaOrbit.get_semimajor_axis` | 1037-1046 | Orbit_Model, Schema_Model |
| schemas/orbit.py `MolniyaOrbit.to_tle` | 1100-1137 | Dopat_Model, Export_Model, FTime_Model, Orbit_Model, Schema_Model, Zone_Model |
| schemas/orbit.py `OrbitBase.get_mean_anomaly` | 714-721 | FAnom_Model, Orbit_Model, Schema_Model |
| schemas/orbit.py `OrbitBase.get_mean_motion` | 732-739 | Const_Model, FAnom_Model, Orbit_Model, Schema_Model |
| schemas/orbit.py `OrbitBase.get_orbit_period` | 741-748 | FGeom_Model, Orbit_Model, Schema_Model |
| schemas/orbit.py `OrbitBase.get_semimajor_axis` | 723-730 | FSso_Model, Orbit_Model, Schema_Model |
| schemas/orbit.py `SunSynchronousOrbit.get_derived_orbit` | 874-901 | Const_Model, FAnom_Model, FSso_Model, Float_Model, Orbit_Model, Schema_Model, Share_Model |
| schemas/orbit.py `SunSynchronousOrbit.get_inclination` | 838-847 | FSso_Model, Orbit_Model, Schema_Model |
| schemas/orbit.py `SunSynchronousOrbit.get_right_ascension_ascending_node` | 849-872 | Const_Model, FSso_Model, Orbit_Model, Schema_Model, Zone_Model |
| schemas/orbit.py `SunSynchronousOrbit.to_tle` | 903-928 | Dopat_Model, Export_Model, FSso_Model, Orbit_Model, Schema_Model |
| schemas/orbit.py `TundraOrbit.get_derived_orbit` | 1156-1183 | Float_Model, Orbit_Model, Schema_Model, Share_Model |
| schemas/orbit.py `TundraOrbit.get_eccentricity` | 1153-1154 | Orbit_Model, Schema_Model |
| schemas/orbit.py `TwoLineElements.as_skyfield` | 378-389 | Schema_Model |
| schemas/orbit.py `TwoLineElements.get_altitude` | 310-320 | Export_Model, Orbit_Model, Schema_Model |
| schemas/orbit.py `TwoLineElements.get_b_star` | 150-163 | Schema_Model, Tle_Model |
| schemas/orbit.py `TwoLineElements.get_catalog_number` | 59-70 | Schema_Model, Tle_Model |
| schemas/orbit.py `TwoLineElements.get_classification` | 72-83 | Schema_Model, Tle_Model |
| schemas/orbit.py `TwoLineElements.get_closest_tle_index` | 391-441 | Epoch_Model, Schema_Model, Zone_Model |
| schemas/orbit.py `TwoLineElements.get_derived_orbit` | 336-376 | Const_Model, Export_Model, FTime_Model, Float_Model, Orbit_Model, Schema_Model, Share_Model, Zone_Model |
| schemas/orbit.py `TwoLineElements.get_eccentricity` | 217-228 | Schema_Model, Tle_Model |
| schemas/orbit.py `TwoLineElements.get_element_set_number` | 178-189 | Schema_Model, Tle_Model |
| schemas/orbit.py `TwoLineElements.get_ephemeris_type` | 165-176 | Schema_Model, Tle_Model |
| schemas/orbit.py `TwoLineElements.get_epoch` | 107-120 | Schema_Model, Tle_Model, Zone_Model |
| schemas/orbit.py `TwoLineElements.get_first_derivative_mean_motion` | 122-133 | Schema_Model, Tle_Model |
| schemas/orbit.py `TwoLineElements.get_inclination` | 191-202 | Schema_Model, Tle_Model |
| schemas/orbit.py `TwoLineElements.get_international_designator` | 85-105 | Schema_Model, Tle_Model |
| schemas/orbit.py `TwoLineElements.get_mean_anomaly` | 243-254 | Schema_Model, Tle_Model |
| schemas/orbit.py `TwoLineElements.get_mean_motion` | 256-267 | Const_Model, Schema_Model, Tle_Model |
| schemas/orbit.py `TwoLineElements.get_observation_events` | 618-690 | Epoch_Model, FTime_Model, Schema_Model, Seen_Model, Zone_Model |
| schemas/orbit.py `TwoLineElements.get_orbit_period` | 269-279 | Export_Model, Orbit_Model, Schema_Model, Tle_Model |
| schemas/orbit.py `TwoLineElements.get_orbit_track` | 554-616 | Epoch_Model, Schema_Model, Seen_Model, Zone_Model |
| schemas/orbit.py `TwoLineElements.get_perigee_argument` | 230-241 | Schema_Model, Tle_Model |
| schemas/orbit.py `TwoLineElements.get_repeat_cycle` | 474-552 | Epoch_Model, Schema_Model, Zone_Model |
| schemas/orbit.py `TwoLineElements.get_revolution_number_at_epoch` | 281-292 | Orbit_Model, Schema_Model, Tle_Model |
| schemas/orbit.py `TwoLineElements.get_right_ascension_ascending_node` | 204-215 | Schema_Model, Tle_Model |
| schemas/orbit.py `TwoLineElements.get_second_derivative_mean_motion` | 135-148 | Schema_Model, Tle_Model |
| schemas/orbit.py `TwoLineElements.get_semimajor_axis` | 294-308 | Export_Model, Orbit_Model, Schema_Model |
| schemas/orbit.py `TwoLineElements.get_tle_count` | 50-57 | Schema_Model, Tle_Model |
| schemas/orbit.py `TwoLineElements.get_true_anomaly` | 322-334 | Export_Model, Orbit_Model, Schema_Model |
| schemas/orbit.py `TwoLineElements.partition_by_tle_index` | 443-472 | Coverage_Model, Epoch_Model, Schema_Model, Seen_Model, Zone_Model |
| schemas/orbit.py `TwoLineElements.to_tle` | 692-699 | Dopat_Model, Orbit_Model, Schema_Model |
| schemas/satellite.py `MOGConstellation.generate_members` | 295-397 | FMog_Model, Mog_Model, Schema_Model, Share_Model |
| schemas/satellite.py `SOCConstellation.generate_members` | 481-482 | Geom_Model, Schema_Model, Share_Model |
| schemas/satellite.py `SOCConstellation.generate_walker` | 422-479 | FSoc_Model, Geom_Model, Schema_Model, Share_Model |
| schemas/satellite.py `Satellite.generate_members` | 56-63 | Const_Model, Schema_Model, Share_Model |
| schemas/satellite.py `TrainConstellation.generate_members` | 112-129 | Const_Model, FAnom_Model, Float_Model, Schema_Model, Share_Model |
| schemas/satellite.py `TrainConstellation.get_delta_mean_anomaly` | 89-98 | Const_Model, FAnom_Model, Schema_Model |
| schemas/satellite.py `TrainConstellation.get_delta_raan` | 100-110 | Const_Model, Float_Model, Schema_Model |
| schemas/satellite.py `WalkerConstellation.generate_members` | 241-263 | Const_Model, FAnom_Model, Float_Model, Schema_Model, Share_Model |
| schemas/satellite.py `WalkerConstellation.get_delta_mean_anomaly_between_planes` | 219-227 | Const_Model, FAnom_Model, Schema_Model |
| schemas/satellite.py `WalkerConstellation.get_delta_mean_anomaly_within_planes` | 209-217 | Const_Model, FAnom_Model, Schema_Model |
| schemas/satellite.py `WalkerConstellation.get_delta_raan_between_planes` | 229-239 | Const_Model, Float_Model, Schema_Model |
| schemas/satellite.py `WalkerConstellation.get_satellites_per_plane` | 200-207 | Const_Model, FAnom_Model, Schema_Model |
| schemas/satellite.py `WalkerConstellation.number_planes_le_number_satellites` | 175-185 | Const_Model, FSoc_Model, Schema_Model |
| schemas/satellite.py `WalkerConstellation.relative_spacing_lt_number_planes` | 188-198 | Const_Model, FSoc_Model, Schema_Model |
| utils.py `_convert_collection_to_polygon` | 1028-1048 | Poly_Model |
| utils.py `_split_polygon_antimeridian` | 1051-1137 | Poly_Model |
| utils.py `_split_polygon_north_pole` | 833-873 | Poly_Model |
| utils.py `_split_polygon_south_pole` | 936-976 | Poly_Model |
| utils.py `_wrap_polygon_over_antimeridian` | 979-1025 | Poly_Model |
| utils.py `_wrap_polygon_over_north_pole` | 773-830 | Poly_Model |
| utils.py `_wrap_polygon_over_south_pole` | 876-933 | Poly_Model |
| utils.py `access_time_to_along_track_distance` | 335-355 | FReach_Model, Geom_Model |
| utils.py `along_track_distance_to_access_time` | 311-331 | FReach_Model, Geom_Model |
| utils.py `buffer_footprint` | 676-707 | Foot_Model |
| utils.py `buffer_target` | 710-747 | Mask_Model, Track_Model |
| utils.py `compute_field_of_regard` | 200-222 | FGeom_Model, Geom_Model |
| utils.py `compute_footprint` | 532-617 | Foot_Model, Instr_Model |
| utils.py `compute_ground_velocity` | 291-307 | FGeom_Model, Geom_Model |
| utils.py `compute_limb` | 620-673 | Foot_Model |
| utils.py `compute_max_access_time` | 270-287 | FGeom_Model, Geom_Model |
| utils.py `compute_min_elevation_angle` | 226-250 | FGeom_Model, Geom_Model |
| utils.py `compute_number_samples` | 83-104 | FGeom_Model, Grid_Model |
| utils.py `compute_orbit_period` | 254-266 | FGeom_Model, Geom_Model, Orbit_Model |
| utils.py `compute_projected_ray_position` | 358-529 | Foot_Model, Instr_Model |
| utils.py `field_of_regard_to_swath_width` | 172-196 | FGeom_Model, Geom_Model |
| utils.py `is_chronological_tle` | 1261-1273 | Tle_Model |
| utils.py `is_even_length_list` | 1209-1215 | Tle_Model |
| utils.py `is_valid_tle` | 1218-1258 | Tle_Model |
| utils.py `mean_anomaly_to_true_anomaly` | 37-55 | FAnom_Model, Orbit_Model |
| utils.py `normalize_geometry` | 1167-1190 | Poly_Model, Pure_Model |
| utils.py `project_polygon_to_elevation` | 750-770 | Poly_Model |
| utils.py `split_polygon` | 1140-1164 | Foot_Model, Poly_Model |
| utils.py `swath_width_to_field_of_regard` | 108-130 | FGeom_Model, FSoc_Model, Geom_Model |
| utils.py `swath_width_to_field_of_view` | 134-168 | FGeom_Model, Geom_Model |
| utils.py `true_anomaly_to_mean_anomaly` | 59-79 | FAnom_Model, Orbit_Model |
| utils.py `zero_pad` | 1193-1206 | Const_Model |

## Assumptions

Every property theorem is followed by `Print Assumptions` in its `_Props.v` file. The lists
contain only axioms of Coq's standard library:

* N = `ClassicalDedekindReals.sig_not_dec`, A = `ClassicalDedekindReals.sig_forall_dec`
  (both behind the real numbers),
* E = `FunctionalExtensionality.functional_extensionality_dep`,
* C = `Classical_Prop.classic`,
* D = `Description.constructive_definite_description`.

**no axioms ("Closed under the global context")** (205 theorems)

* Config: `c101_load_refuted`, `c101_import_refuted`, `c101_load_escapes_partial`, `c101_load_handled_partial`, `c101_load_bounds_partial`, `c101_import_bounds_partial`, `c101_import_fallback_partial`, `c125_unknown_ignored`, `c125_settings`, `c125_rejected`, `c125_out_of_range`, `c126_shipped_defaults`, `c126_import_default`
* Const: `c26_names_ordered`, `c26_names_decode`, `c26_str`, `c29_walker_validation`
* Coverage: `c52_visible_intervals_exact`, `c53_visible_intervals_in_window`, `c53_visible_intervals_disjoint`, `c53_visible_intervals_first_set`, `c53_disjoint_without_alternation_refuted`, `c54_continuous_visibility_with_culmination_partial`, `c54_continuous_visibility_refuted`, `c55_collect_observations_filter`, `c55_collect_observations_order`, `c56_fixed_access_window_partial`, `c56_fixed_access_window_refuted`, `c57_multi_collection`, `c57_multi_collection_total`, `c58_aggregate_separated`, `c58_aggregate_same_coverage`, `c59_aggregate_order_independent`, `c59_aggregate_idempotent`, `c59_separated_coverage_determines_intervals`, `c60_aggregate_provenance`, `c61_access`, `c61_revisit`, `c61_time_accounting`, `c62_reduce`, `c62_reduce_revisit_missing_iff_single`, `c62_mean_between_extremes`, `c63_grid_samples`, `c63_grid_revisit`, `c63_grid_samples_conserved`, `c63_grid_empty`, `c64_grid_weighted_mean_equal_samples_partial`, `c64_grid_succeeds_partial`, `c64_grid_outcome`, `c64_grid_weighted_mean_refuted`, `c64_grid_succeeds_refuted`
* Epoch: `c06_closest_tle`, `c06_closest_tle_list`, `c06_track_uses_closest`, `c07_partition`, `c08_partition_closest_refuted`, `c08_later_segments_never_closest`, `c08_first_segment_closest_partial`, `c09_fold_time`, `c09_no_cycle_no_fold`, `c10_repeat_cycle`, `c11_cycle_history_refuted`, `c11_cycle_history_not_lazy_partial`, `c11_cycle_history_same_arguments_partial`, `c12_repeat_events`, `c12_repeat_events_periodic`, `c12_no_repeat`, `c13_multi_events`, `c102_closest_reflects_current_tle_refuted`, `c102_closest_unassigned_partial`
* Frames: `c146_observations_partial`, `c146_no_instruments_refuted`, `c146_downlinks_partial`, `c146_occultations_partial`, `c146_aggregate_partial`, `c146_latencies_partial`, `c146_reduced_partial`, `c146_tracks_partial`, `c146_plain_tracks_partial`, `c146_bare_partial`, `c146_dop_partial`, `c146_rows_partial`, `c146_line_rows_partial`, `c146_point_rows_partial`, `c146_aggregate_refuted`, `c146_latencies_refuted`, `c146_tracks_refuted`, `c146_grid_refuted`, `c147_coverage_partial`, `c147_latency_partial`, `c147_aggregated_latency_fails`, `c147_aggregated_latency_refuted`, `c147_sampled_cells_refuted`
* Growth: `c153_more_observations_cover_more`, `c153_more_observations_more_access`, `c153_more_observations_shorter_gaps`, `c153_more_satellites_more_observations`, `c153_more_observations_mean_revisit_refuted`, `c154_more_downlinks_sooner_contact_partial`, `c154_more_stations_more_downlinks`, `c154_more_stations_latency_refuted`, `c155_stricter_requirements_remove_observations`, `c155_longer_fixed_access_refuted`, `c156_split_period_partial`, `c156_split_period_refuted`, `c157_later_visibility`, `c157_later_observations`, `c157_later_aggregation`, `c157_later_access_and_revisit`
* Instr: `c107_array_order_partial`
* Latency: `c65_collect_downlinks`, `c66_latency_first_downlink`, `c67_latency_nonnegative`, `c67_collected_downlink_epochs_inside`, `c67_rows_count`, `c67_no_downlinks_drops_observations`, `c68_reduce_latencies`, `c69_samples_all_downlinked_partial`, `c69_samples_refuted`, `c70_grid_rows`, `c70_grid_weighted_mean_equal_samples_partial`, `c70_grid_empty`, `c70_grid_outcome`, `c70_grid_weighted_mean_refuted`
* Orbit: `c14_to_tle_not_lazy_partial`, `c14_to_tle_unassigned_partial`
* Pipe: `c160_reduced_depends_on_coverage_only`, `c160_reduced_order_independent`, `c160_gridding_outcome`, `c160_gridded_samples_total`, `c161_reduced_latency_order_independent_partial`, `c161_reduced_latency_order_refuted`, `c161_reduced_samples`, `c161_gridding_outcome`
* Poly: `c81_projection`, `c81_last_wins`, `c114_collection`
* Pure: `c183_functions`, `c183_sessions_partial`, `c183_later_partial`, `c183_normalize_refuted`
* Schema: `c138_restored_partial`, `c138_loaded_restored`, `c138_restored_refuted`, `c138_loadable_refuted`, `c139_orbits_partial`, `c139_orbit_kept`, `c139_orbits_refuted`, `c140_instruments_partial`, `c140_instruments_refuted`, `c140_declared_entries_partial`, `c141_orbit`, `c141_members`, `c142_architecture_partial`, `c142_architecture_refuted`, `c149_demanded`, `c149_attributes`, `c149_values`, `c149_left_out`, `c149_accepted`, `c149_order`, `c149_walker`
* Seen: `c188_multi`, `c188_multi_omit`, `c188_multi_nothing`
* Share: `c187_members`, `c187_mog`, `c187_soc`, `c187_walker_partial`, `c187_walker_refuted`, `c187_satellite_refuted`
* Tle: `c01_tle_acceptance`, `c02_digit_corruption_rejected`, `c02_digit_corruption_validation_error`, `c02_digit_swap_accepted`, `c03_errors_are_validation_errors_partial`, `c03_odd_exact_partial`, `c03_errors_are_validation_errors_refuted`, `c04_accessors_partial`, `c04_index_past_the_end`, `c04_eccentricity_range`, `c04_negative_drag_refuted`, `c04_alpha5_refuted`, `c05_international_designator`
* Track: `c89_grouping`, `c92_count`
* Whole: `c166_coverage_is_visibility`, `c166_coverage_is_accepted_passes`, `c166_reduced_accounting`, `c167_next_pass_partial`, `c167_first_opportunity_refuted`
* Zone: `c172_events_lost_refuted`, `c172_events_twice_refuted`, `c172_events_partial`, `c172_fixed_offsets_partial`, `c172_closest_partial`, `c172_partition_partial`, `c172_track_partial`, `c172_visible_partial`, `c172_naive_refused`, `c173_accepted_epoch_refuted`, `c173_usable_exactly_when_partial`, `c173_instant_partial`, `c174_default_epoch_refuted`, `c174_import_epoch_partial`

**A+E** (74 theorems)

* Altaz: `c186_pixels`, `c186_pixels_masked`, `c186_pixels_partial`, `c186_pixels_refuted`
* Foot: `c145_accepted_fields`
* Grid: `c75_valid_coordinates`, `c75_spacing`, `c76_ids_unique_refuted`, `c76_ids_unique_iff`, `c76_ids_unique_masked_partial`, `c76_cell_ids_unique_partial`, `c77_same_ids_and_centres`, `c77_masked`, `c78_interiors_disjoint`, `c78_union`, `c78_latitude_strips`, `c78_longitude_strips`, `c79_sound`, `c79_complete`, `c79_subset_of_global`, `c80_cover_refuted`, `c80_cover_inner_partial`, `c80_cover_aligned_partial`, `c80_cover_strips_partial`, `c80_cells_within_squares`, `c148_meaning`, `c164_within_mask_refuted`, `c164_masked_cells_partial`, `c164_interiors_disjoint`
* Instr: `c47_validity`, `c49_overlap_refuted`, `c49_overlap_partial`, `c106_ifov_refuted`, `c106_ifov_partial`
* Mask: `c185_pixels_refused`
* Orbit: `c21_tle_period`, `c23_sso_node`
* Poly: `c82_inside`, `c83_north_inside`, `c83_south_inside`, `c83_south_refuted`, `c84_south_hole_refuted`, `c84_split_refuted`, `c84_straddle_refuted`, `c84_antimeridian_partial`, `c84_north_partial`, `c85_unwrapping`, `c85_no_step_no_change`, `c86_ordinary`, `c87_others_partial`, `c111_in_bounds_refuted`, `c111_in_bounds_partial`, `c112_antimeridian_latitude_refuted`, `c112_antimeridian_latitude_partial`, `c113_polar_polygon`, `c113_polar_halves`, `c127_part_by_part`, `c127_fails_with_a_part`, `c129_holes`, `c165_south_refuted`
* Ro: `c94_tangent_point`, `c94_tangent_velocity`, `c95_window_partial`, `c95_wide_partial`
* Seen: `c188_conditions`, `c188_omit`, `c189_elevation_partial`, `c189_repeat_partial`, `c189_agreeing_partial`, `c189_several_refuted`, `c189_cycle_refuted`
* Track: `c92_rows`, `c92_not_rectangular`, `c92_masked`

**A+E+N** (69 theorems)

* Area: `c162_ring`, `c162_radii`
* Dop: `c97_identities`, `c98_order`, `c98_more_satellites`, `c98_hidden_satellite`, `c99_value`, `c99_threshold_partial`, `c99_otherwise_nan_partial`, `c99_threshold_refuted`, `c100_geometry_partial`, `c100_geometry_refuted`, `c121_four_needed`, `c122_bounds`, `c123_turned`, `c123_range`, `c124_rows`, `c124_total_partial`, `c124_no_satellites`, `c124_total_refuted`
* Dopat: `c195_seen_partial`, `c195_answer`, `c195_elevation_ignored`, `c195_later_sets_ignored`, `c195_elevation_refuted`, `c195_later_sets_refuted`
* Export: `c150_altitude_refuted`, `c151_epoch_refuted`, `c151_underground_refuted`, `c152_derived_elements_partial`, `c152_catalog_number_refuted`
* Foot: `c131_limb`, `c131_limb_times`, `c135_limb_coverage`, `c135_buffer_coverage`, `c143_limb`, `c144_elevation`
* Geom: `c43_error_bounded_partial`, `c43_equatorial_partial`, `c45_shape`, `c175_access_longer`, `c175_velocity_lower`
* Grid: `c72_longitudes`, `c75_distance`, `c75_cell_size`, `c148_equally_spaced_refuted`
* Orbit: `c15_circular_derived_valid`, `c15_open_orbit_refused`, `c17_circular_derived`, `c17_tle_derived`, `c17_tle_compose`, `c19_anomaly_laws`, `c21_period_law`, `c21_period_defined`, `c21_period_increasing`, `c21_period_microseconds`, `c21_period_microseconds_monotone`, `c21_mean_motion`, `c25_molniya_period_refuted`
* Poly: `c82_outside`, `c82_split_range`, `c83_north`, `c83_south_partial`, `c87_frame_refuted`, `c111_geographic_partial`, `c128_coverage`, `c165_north`, `c165_south_partial`
* Track: `c91_utm`

**A+C+D+E** (1 theorems)

* Grid: `c78_grid_squares`

**A+C+E+N** (275 theorems)

* Altaz: `c186_ground`, `c186_ground_masked`
* Area: `c162_surface_area`, `c162_mean_sphere`, `c162_count`, `c162_whole_globe`
* Const: `c27_train_members`, `c27_walker_members`, `c28_train_spacing`, `c30_walker_structure`, `c31_planes_used_refuted`, `c31_planes_used_partial`, `c31_nodes_defined`, `c32_members_distinct_partial`, `c32_members_distinct_refuted`, `c33_walker_closes`, `c103_train_ground_track_refuted`, `c103_train_ground_track_offset_partial`
* Export: `c150_keplerian_partial`, `c150_molniya_partial`, `c150_circular_partial`, `c150_sun_synchronous`, `c150_anomaly_increases_partial`, `c150_anomaly_range_partial`, `c150_anomaly_half_partial`, `c150_anomaly_refuted`, `c150_open_orbit_refuted`, `c150_molniya_refuted`, `c151_keplerian_partial`, `c151_circular_partial`, `c151_sun_synchronous_partial`, `c151_molniya_partial`, `c151_keplerian_period_partial`, `c151_circular_period_partial`, `c151_sun_synchronous_period_partial`, `c151_molniya_period_partial`
* FAnom: `c192_mean_to_true`, `c192_true_to_mean`, `c193_keplerian_partial`, `c193_unchanged_partial`, `c193_circular_exact`, `c193_circular_forward`, `c193_circular_near`, `c193_walker`, `c193_train_refuted`
* FCell: `c197_cells`, `c197_points_inside`, `c197_tiles`
* FGeom: `c179_field_of_regard`, `c179_min_elevation_angle`, `c179_swath_width`, `c179_swath_clear`, `c180_orbit_period`, `c180_period_microseconds`, `c180_max_access_time`, `c180_ground_velocity`, `c181_every_distance_refuted`, `c181_short_distances`, `c181_usual_distances_partial`
* FGrid: `c158_generated_points_accepted_refuted`, `c158_coordinates_within_an_ulp_partial`, `c158_accepted_unless_half_way_partial`, `c159_distinct_ids_refuted`, `c159_distinct_ids_exactly_when_partial`, `c159_distinct_ids_just_below_a_divisor_partial`, `c170_lattice_accepted`, `c170_no_poles`, `c171_golden_angle`
* FLat: `c196_equal_area`, `c196_ascending`
* FMog: `c190_loop_partial`, `c190_members_partial`, `c190_endless`, `c190_members_refuted`, `c190_accepted_fields`, `c191_members_partial`, `c191_accepted_fields`
* FReach: `c194_round_trip`, `c194_accurate`, `c194_monotone`
* FSoc: `c199_counts_partial`, `c199_regard`, `c199_counts_refuted`, `c199_smallest`
* FSso: `c198_altitudes`, `c198_condition`, `c198_inclination_partial`, `c198_inclination_refuted`, `c198_highest`, `c198_node`
* FTime: `c176_cycles_exact`, `c176_cycles_model`, `c176_epoch_recovered`, `c176_epoch_increasing`, `c176_epoch_late_collide`, `c177_mean_near`, `c177_plain_accurate`, `c177_kahan_accurate`, `c177_equal_durations`, `c178_average_near`, `c178_cell_near`, `c184_single_refuted`, `c184_single_near`, `c184_merged_near`, `c184_merged_inside`
* Fleet: `c163_walker_circular_partial`, `c163_walker_apart_partial`, `c163_train_circular_partial`, `c163_walker_keplerian_partial`, `c163_below_surface_refuted`
* Float: `c16_derived_raan_refuted`, `c16_train_backward_refuted`, `c16_derived_raan_accept_partial`, `c16_derived_raan_forward_partial`, `c16_walker_partial`, `c16_train_forward_partial`
* Foot: `c130_limb_plane_partial`, `c130_limb_plane_refuted`, `c132_field_of_regard_partial`, `c132_field_of_regard_refuted`, `c133_footprint_times`, `c133_footprint_single`, `c133_vertices`, `c134_pixel_array`, `c134_pixel_array_times`, `c134_pixel_array_single`, `c135_footprint_coverage`, `c136_pixels_inside`, `c109_nearer_limb`, `c51_direction_partial`, `c143_center`, `c143_nadir`, `c143_pixels`, `c143_outline`, `c143_pointed_outline`, `c143_instrument_outline`, `c144_center_and_pixels`, `c145_swath_partial`, `c145_swath_refuted`
* Geom: `c27_soc_members`, `c34_soc_sizing`, `c34_soc_footprint`, `c34_soc_members`, `c37_swath_roundtrip`, `c37_field_of_regard_roundtrip`, `c38_elevation_roundtrip`, `c38_field_of_regard_roundtrip`, `c38_beyond_horizon`, `c39_swath_monotone_partial`, `c39_elevation_antitone_partial`, `c39_wider_sees_less_refuted`, `c40_bounded`, `c40_bounded_full_range`, `c40_on_surface`, `c41_nadir_field_of_view`, `c41_nadir_defined`, `c42_half_look_angle_partial`, `c42_look_angle_refuted`, `c43_polar_refuted`, `c44_inverse`, `c44_monotone`, `c44_velocity`, `c45_access_bound_partial`, `c45_access_bound_refuted`, `c175_swath_wider`, `c175_elevation_lower`, `c175_field_narrower`, `c175_swath_field_narrower`, `c182_wider_never_more`, `c182_wider_more_refuted`, `c182_reflection`, `c182_any_swath`, `c182_whole_turns`, `c182_beyond_a_turn`
* Grid: `c46_count_monotone`, `c46_count_positive`, `c46_count_is_area_ratio`, `c46_zero_distance`, `c71_latitudes`, `c71_lattice`, `c72_distinct_points`, `c73_symmetric_refuted`, `c73_symmetric_partial`, `c74_masked_is_filtered`, `c74_global_ids`, `c74_beyond_180_east`, `c79_invalid_mask`, `c148_fibonacci_refuted`, `c148_accepted_partial`, `c148_rejected_partial`
* Instr: `c48_pixels`, `c50_pixel_ray_refuted`, `c50_pixel_ray_partial`, `c51_ellipse_partial`, `c51_ring_closes_partial`, `c51_square_partial`, `c51_rectangle_partial`, `c51_rectangle_refuted`, `c107_pixel_order_refuted`, `c107_pixel_order_partial`, `c108_roll_partial`, `c108_pitch_partial`, `c108_pitch_refuted`, `c108_roll_refuted`, `c109_projection`, `c169_clock_degrees_refuted`, `c169_clock_radians_partial`
* Mask: `c185_same_area`, `c185_series_partial`, `c185_series_refuted`, `c185_orbit_within`, `c185_orbit_partial`, `c185_orbit_refuted`, `c185_empty`
* Mog: `c27_mog_members`, `c35_mog_geometry`, `c36_kepler_loop`, `c104_mog_terminates_refuted`, `c104_mog_endless_partial`, `c104_mog_terminates_partial`, `c105_mog_follows_reference_refuted`, `c105_mog_follows_reference_partial`
* Orbit: `c14_to_tle_current_refuted`, `c15_sso_derived_valid`, `c15_keplerian_derived_valid`, `c15_molniya_derived_valid`, `c15_derived_errors`, `c17_sso_derived`, `c17_keplerian_derived`, `c17_keplerian_zero`, `c18_period_kept_refuted`, `c18_molniya_derived_partial`, `c18_molniya_anomaly`, `c18_molniya_zero`, `c19_anomaly_range`, `c20_round_trip`, `c21_mean_motion_defined`, `c21_altitude_recovered`, `c22_sso_inclination`, `c22_sso_inclination_increasing`, `c24_molniya_geometry`, `c24_mean_motion`, `c25_molniya_period_too_short`
* Ro: `c93_maximal_arcs`, `c95_straight_behind_refuted`, `c95_no_limit_partial`, `c96_records`, `c110_rising`, `c168_pitch_refuted`, `c168_angles_partial`, `c168_yaw_partial`
* Track: `c88_rows`, `c88_masked_partial`, `c88_masked_refuted`, `c90_own_geometry_partial`, `c90_lost_segment_refuted`, `c115_rows`, `c115_masked_partial`, `c115_masked_refuted`, `c116_covers`, `c116_orbits`, `c117_first_orbit_partial`, `c117_first_orbit_refuted`, `c118_isolated_sample`, `c118_total_refuted`, `c118_total_partial`, `c118_exact`, `c119_meridian_partial`, `c119_pole`, `c119_contains_refuted`, `c119_distance`, `c120_bad_index`, `c120_empty`, `c120_method`, `c137_segments`


## Independent check

`coqchk -silent -o -Q theories Verif` was run on all 41 `*_Props` modules (and so on everything they depend on, the standard library and Flocq
included) at the state with C01 to C198. It ended with status 0 and reported:

* Theory: `Set` is predicative.
* Axioms: `Coq.Logic.Description.constructive_definite_description`, `Coq.Logic.FunctionalExtensionality.functional_extensionality_dep`,
  `Coq.Reals.ClassicalDedekindReals.sig_not_dec`, `Coq.Reals.ClassicalDedekindReals.sig_forall_dec`, `Coq.Logic.Classical_Prop.classic`.
* Nothing relies on type-in-type, on unsafe (co)fixpoints or on assumed positivity.
