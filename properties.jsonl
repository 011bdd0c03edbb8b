{"id": "C01", "title": "TLE acceptance is exact", "statement": "TwoLineElements(tle=v) is accepted exactly when v has at least two lines, an even number of lines, every odd line matches the line-1 column format and every even line the line-2 column format (69 characters each), every line's last digit equals the checksum of its first 68 columns (sum of digits, each '-' counting 1, mod 10), and the element-set epochs are in non-decreasing order; an accepted list is stored unchanged.", "quantifier": "every list of strings and every epoch decoding of line pairs", "why_tests_cant": "the space of 69-character strings and list lengths is unbounded; tests exercise a handful of malformed lines", "anchors": ["src/tatc/utils.py:is_valid_tle", "src/tatc/utils.py:is_chronological_tle", "src/tatc/utils.py:is_even_length_list", "src/tatc/schemas/orbit.py:TwoLineElements.tle"]}
{"id": "C02", "title": "Single-digit TLE corruption is always rejected", "statement": "If a TLE list is accepted, replacing any one decimal digit of any of its lines by a different decimal digit makes the list rejected.", "quantifier": "every accepted list, every line, every column holding a digit, every replacement digit", "why_tests_cant": "there are 9*69 corruptions of each of infinitely many TLEs", "anchors": ["src/tatc/utils.py:is_valid_tle"]}
{"id": "C03", "title": "Malformed TLE input is always reported as a validation error", "statement": "Constructing TwoLineElements from any list of strings either succeeds or raises pydantic's ValidationError (i.e. the validators raise only ValueError).", "quantifier": "every list of strings", "why_tests_cant": "tests use only malformed pairs, never an odd number of lines", "anchors": ["src/tatc/utils.py:is_chronological_tle", "src/tatc/utils.py:is_even_length_list", "src/tatc/schemas/orbit.py:TwoLineElements.tle"]}
{"id": "C04", "title": "TLE field accessors decode their columns", "statement": "For every accepted TLE whose numeric fields are right-justified digit fields, each accessor (catalog number, classification, first/second mean-motion derivative, B*, ephemeris type, element number, inclination, RAAN, eccentricity, argument of perigee, mean anomaly, mean motion, revolution number) succeeds and returns the number printed in its standard columns.", "quantifier": "every accepted TLE, every field content allowed by the format, every TLE index", "why_tests_cant": "each field has up to 10^8 contents; tests use one satellite", "anchors": ["src/tatc/schemas/orbit.py:TwoLineElements.get_b_star", "src/tatc/schemas/orbit.py:TwoLineElements.get_catalog_number", "src/tatc/schemas/orbit.py:TwoLineElements.get_eccentricity"]}
{"id": "C05", "title": "International designator century rule", "statement": "get_international_designator returns '<century><yy>-<launch><piece>' with century 20 for yy<57 and 19 for yy>=57, surrounding blanks stripped, and no century when the year columns are blank.", "quantifier": "every accepted TLE", "why_tests_cant": "The rule ranges over 100 two-digit years, 1000 launches and 26^3 pieces, and over everything else a line may contain; a test fixes one designator.", "anchors": ["src/tatc/schemas/orbit.py:TwoLineElements.get_international_designator"]}
{"id": "C06", "title": "Closest-TLE selection is optimal", "statement": "get_closest_tle_index(t) returns a valid index whose epoch is at minimal absolute distance from t among all TLEs; a list argument gives exactly the element-wise scalar answers; an exact tie between two adjacent epochs goes to the later one.", "quantifier": "every non-empty chronological epoch list (including duplicates) and every query time or list of times", "why_tests_cant": "the index arithmetic must hold for all list sizes and relative positions", "anchors": ["src/tatc/schemas/orbit.py:TwoLineElements.get_closest_tle_index"]}
{"id": "C07", "title": "Timeline partition covers the window", "statement": "partition_by_tle_index(start,end) with start<=end returns times that begin with start, end with end, are in non-decreasing order, with as many indices as times, and whose interior times are exactly the midpoints between consecutive TLE epochs lying strictly inside (start,end); every index is a valid TLE index.", "quantifier": "every TLE list and every window", "why_tests_cant": "Whether there are gaps or overlaps depends on the relative order of arbitrarily many epochs and both ends of the window; a test fixes one order.", "anchors": ["src/tatc/schemas/orbit.py:TwoLineElements.partition_by_tle_index"]}
{"id": "C08", "title": "Partition assigns the closest TLE to each segment", "statement": "For every segment between consecutive partition times, the TLE index used for that segment is a closest TLE (minimal epoch distance) for every instant of the segment.", "quantifier": "every TLE list, window, segment and instant", "why_tests_cant": "The closest element set must be right at every instant of every segment, for any number of element sets; a test samples a few instants.", "anchors": ["src/tatc/schemas/orbit.py:TwoLineElements.partition_by_tle_index", "src/tatc/schemas/orbit.py:TwoLineElements.get_observation_events"]}
{"id": "C09", "title": "Repeat-cycle time folding", "statement": "When a repeat cycle c is used, get_orbit_track evaluates the orbit at a time that lies within c of the epoch, on the same side of the epoch as the requested time, and differs from the requested time by an integer number of cycles; requests within one cycle of the epoch are evaluated at the requested time itself.", "quantifier": "every epoch, cycle c>0 and requested time (before or after the epoch)", "why_tests_cant": "Requested times are unbounded before and after the epoch and the folded time must be right at the seams, which sampled times miss.", "anchors": ["src/tatc/schemas/orbit.py:TwoLineElements.get_orbit_track"]}
{"id": "C10", "title": "Repeat-cycle detection", "statement": "Without a cached value, get_repeat_cycle returns the elapsed time from epoch to the first candidate culmination whose position error and velocity error are both strictly below the limits, or None if there is none; arguments left None take the configured defaults; a returned cycle is strictly positive.", "quantifier": "every candidate list, every limit, every configuration", "why_tests_cant": "The candidate list, the thresholds and the configuration are arbitrary; a test fixes one of each.", "anchors": ["src/tatc/schemas/orbit.py:TwoLineElements.get_repeat_cycle"]}
{"id": "C11", "title": "Repeat-cycle cache history", "statement": "Over any sequence of get_repeat_cycle calls on one TwoLineElements object, every answer equals the answer a fresh object would give for the same arguments.", "quantifier": "every history of calls with arbitrary arguments", "why_tests_cant": "This is a property of histories: what a call returns may depend on every earlier call and its arguments, and tests make at most one call.", "anchors": ["src/tatc/schemas/orbit.py:TwoLineElements.get_repeat_cycle"]}
{"id": "C12", "title": "Repeat-cycle events are the periodic extension", "statement": "With a repeat cycle c shorter than the window, get_observation_events returns, in chronological order, exactly the events of [start,start+c) shifted by every multiple of c that lands at or before end, with unchanged event types.", "quantifier": "every base event list, cycle and window", "why_tests_cant": "The number of replicated cycles has no bound and events at the seams of cycles are the ones that get lost or doubled.", "anchors": ["src/tatc/schemas/orbit.py:TwoLineElements.get_observation_events"]}
{"id": "C13", "title": "Multi-TLE events are complete and ordered", "statement": "With several TLEs, get_observation_events returns the concatenation, in chronological order and inside [start,end], of the events each segment's TLE produces in its own segment; times and event types stay aligned.", "quantifier": "every TLE list, window and event oracle", "why_tests_cant": "Segments and events are arbitrary in number and position; losses happen at segment boundaries that a chosen example need not hit.", "anchors": ["src/tatc/schemas/orbit.py:TwoLineElements.get_observation_events"]}
{"id": "C14", "title": "to_tle reflects the current orbit fields", "statement": "For any history of field assignments and to_tle() calls on one orbit object, to_tle() returns the conversion of the object's current field values.", "quantifier": "every history of assignments and calls, every lazy_load setting", "why_tests_cant": "This is a property of histories of assignments and calls; a test that builds an object and calls once cannot see a stale cache.", "anchors": ["src/tatc/schemas/orbit.py:CircularOrbit.to_tle", "src/tatc/schemas/orbit.py:SunSynchronousOrbit.to_tle", "src/tatc/schemas/orbit.py:KeplerianOrbit.to_tle", "src/tatc/schemas/orbit.py:MolniyaOrbit.to_tle"]}
{"id": "C15", "title": "Derived orbits are always valid orbits", "statement": "For every valid orbit (circular, sun-synchronous, or Keplerian with eccentricity in [0,1]) and every pair of finite perturbations, get_derived_orbit succeeds: the resulting true anomaly and right ascension lie in [0,360) and the inclination in [0,180).", "quantifier": "every orbit in the schema domain and every real perturbation", "why_tests_cant": "continuum of inputs; wrap-around points have measure zero in random tests", "anchors": ["src/tatc/schemas/orbit.py:CircularOrbit.get_derived_orbit", "src/tatc/schemas/orbit.py:KeplerianOrbit.get_derived_orbit", "src/tatc/schemas/orbit.py:SunSynchronousOrbit.get_derived_orbit", "src/tatc/utils.py:mean_anomaly_to_true_anomaly"]}
{"id": "C16", "title": "Derived orbits never fail in floating point", "statement": "For every valid circular orbit and every finite binary64 perturbation, get_derived_orbit's right ascension np.mod(raan+delta,360) is accepted by the schema's [0,360) constraint.", "quantifier": "every pair of binary64 numbers", "why_tests_cant": "2^128 inputs; the failing ones sit in a tiny neighbourhood of multiples of 360", "anchors": ["src/tatc/schemas/orbit.py:CircularOrbit.get_derived_orbit"]}
{"id": "C17", "title": "Derived orbits change only what they should", "statement": "get_derived_orbit preserves altitude, epoch, inclination (and eccentricity, argument of perigee) and shifts the right ascension by exactly delta_raan modulo 360; for circular orbits it shifts the mean anomaly by exactly delta modulo 360, zero deltas give back the orbit, and successive derivations compose additively.", "quantifier": "every orbit and every perturbation", "why_tests_cant": "Orbits and perturbations range over a continuum, including wrap-around of angles; tests compare a few values with the same formula.", "anchors": ["src/tatc/schemas/orbit.py:CircularOrbit.get_derived_orbit", "src/tatc/schemas/orbit.py:KeplerianOrbit.get_derived_orbit"]}
{"id": "C18", "title": "Derived Molniya/Tundra orbits keep the orbital period", "statement": "get_derived_orbit on a Molniya or Tundra orbit preserves altitude, epoch, inclination, argument of perigee, eccentricity and orbital period.", "quantifier": "every Molniya/Tundra orbit", "why_tests_cant": "The orbital period is a free parameter and the tests use its default.", "anchors": ["src/tatc/schemas/orbit.py:MolniyaOrbit.get_derived_orbit", "src/tatc/schemas/orbit.py:TundraOrbit.get_derived_orbit"]}
{"id": "C19", "title": "Anomaly conversion laws", "statement": "true/mean anomaly conversions are mutually inverse for zero eccentricity, odd, commute with whole revolutions, fix 0 and 180 degrees, and mean->true maps [0,360) into [0,360) with true>=mean on [0,180] and <= on [180,360] for every eccentricity in [0,1].", "quantifier": "every anomaly and eccentricity", "why_tests_cant": "The laws relate values over a continuum of anomalies and eccentricities, including the seam at half a turn.", "anchors": ["src/tatc/utils.py:mean_anomaly_to_true_anomaly", "src/tatc/utils.py:true_anomaly_to_mean_anomaly"]}
{"id": "C20", "title": "Anomaly round trip for eccentric orbits", "statement": "mean_anomaly_to_true_anomaly(true_anomaly_to_mean_anomaly(nu,e),e) returns nu, with an error of fourth order in e.", "quantifier": "every anomaly and every eccentricity", "why_tests_cant": "The round trip must hold over a continuum of anomalies and eccentricities; tests use e = 0.0001492, for which truncation is invisible.", "anchors": ["src/tatc/utils.py:mean_anomaly_to_true_anomaly", "src/tatc/utils.py:true_anomaly_to_mean_anomaly"]}
{"id": "C21", "title": "Kepler's third law consistency", "statement": "Orbit period is strictly increasing in altitude, period*mean motion is one day, period^2*mu = 4*pi^2*a^3, and the altitude recovered from the mean motion written to the TLE equals the orbit's altitude.", "quantifier": "every altitude above -R_mean", "why_tests_cant": "The two quantities must agree for a continuum of altitudes; agreement at one altitude says nothing about constants used at others.", "anchors": ["src/tatc/utils.py:compute_orbit_period", "src/tatc/schemas/orbit.py:OrbitBase.get_mean_motion", "src/tatc/schemas/orbit.py:TwoLineElements.get_semimajor_axis", "src/tatc/schemas/orbit.py:TwoLineElements.get_altitude"]}
{"id": "C22", "title": "Sun-synchronous inclination is valid and retrograde", "statement": "For every altitude allowed by the SunSynchronousOrbit schema the inclination is defined, strictly between 90 and 180 degrees, and strictly increasing with altitude.", "quantifier": "every altitude in [0, 12352000-R)", "why_tests_cant": "Validity must hold up to the limit of a continuum of altitudes, where the arc cosine leaves its domain.", "anchors": ["src/tatc/schemas/orbit.py:SunSynchronousOrbit.get_inclination"]}
{"id": "C23", "title": "Sun-synchronous node matches the equator crossing time", "statement": "get_right_ascension_ascending_node is in [0,360) and equals the Sun's right ascension plus 15 degrees per hour of (crossing time - 12h) for ascending crossings, plus 180 degrees more for descending crossings (mod 360).", "quantifier": "every time of day (microsecond resolution), both senses, every solar right ascension", "why_tests_cant": "There are 8.6e10 times of day, two senses and a continuum of positions of the sun.", "anchors": ["src/tatc/schemas/orbit.py:SunSynchronousOrbit.get_right_ascension_ascending_node"]}
{"id": "C24", "title": "Molniya/Tundra geometry", "statement": "For a Molniya orbit, semimajor axis*(1-eccentricity) equals equatorial radius + altitude (perigee radius), eccentricity is below 1, and is in [0,1) exactly when the perigee radius is positive and at most the semimajor axis; the mean motion written to the TLE corresponds to orbital_period.", "quantifier": "every altitude and orbital period", "why_tests_cant": "Geometry must hold over a continuum of altitudes and periods, not for the default orbit only.", "anchors": ["src/tatc/schemas/orbit.py:MolniyaOrbit.get_semimajor_axis", "src/tatc/schemas/orbit.py:MolniyaOrbit.get_eccentricity", "src/tatc/schemas/orbit.py:MolniyaOrbit.to_tle"]}
{"id": "C25", "title": "Molniya/Tundra reported period is the orbital period", "statement": "MolniyaOrbit/TundraOrbit.get_orbit_period() equals the orbit's orbital_period.", "quantifier": "every Molniya/Tundra orbit", "why_tests_cant": "Periods form a continuum and no test calls the function.", "anchors": ["src/tatc/schemas/orbit.py:OrbitBase.get_orbit_period", "src/tatc/schemas/orbit.py:MolniyaOrbit"]}
{"id": "C26", "title": "Member names sort numerically", "statement": "zero_pad produces, for numbers 1..n, pairwise distinct names of equal length whose lexicographic order is the numeric order, each starting with the object name and a space.", "quantifier": "every name, every n and every pair of numbers up to n", "why_tests_cant": "Names must sort for every pair of numbers up to any size, in particular across powers of ten.", "anchors": ["src/tatc/utils.py:zero_pad"]}
{"id": "C27", "title": "Constellation member count, names and instruments", "statement": "generate_members of a train, Walker, mutual-orbiting-group or streets-of-coverage constellation returns exactly number_satellites satellites, distinctly named in order, each carrying a copy of the constellation's instruments and the lead orbit's altitude and epoch.", "quantifier": "every constellation size and lead orbit", "why_tests_cant": "Sizes have no bound and the lead orbit is arbitrary.", "anchors": ["src/tatc/schemas/satellite.py:TrainConstellation.generate_members", "src/tatc/schemas/satellite.py:WalkerConstellation.generate_members", "src/tatc/schemas/satellite.py:MOGConstellation.generate_members", "src/tatc/schemas/satellite.py:SOCConstellation.generate_members"]}
{"id": "C28", "title": "Train spacing", "statement": "Member k of a train has mean anomaly lowered by k*360*mean_motion*interval/day and RAAN raised by k*360*interval/day (repeat ground track) or unchanged, modulo 360, relative to the lead orbit; hence passing times differ by k*interval.", "quantifier": "every lead orbit, size and interval", "why_tests_cant": "The position of member k must follow for every k, lead orbit and interval, including intervals that wrap the angles.", "anchors": ["src/tatc/schemas/satellite.py:TrainConstellation.get_delta_mean_anomaly", "src/tatc/schemas/satellite.py:TrainConstellation.get_delta_raan", "src/tatc/schemas/satellite.py:TrainConstellation.generate_members"]}
{"id": "C29", "title": "Walker parameter validation", "statement": "WalkerConstellation is accepted exactly when 1<=number_planes<=number_satellites and 0<=relative_spacing<number_planes.", "quantifier": "every integer triple", "why_tests_cant": "The rule must decide every triple of integers, including negative ones and the boundary cases.", "anchors": ["src/tatc/schemas/satellite.py:WalkerConstellation.number_planes_le_number_satellites", "src/tatc/schemas/satellite.py:WalkerConstellation.relative_spacing_lt_number_planes"]}
{"id": "C30", "title": "Walker plane structure", "statement": "Walker members occupy planes in order; every plane but the last holds exactly ceil(T/P) satellites spaced 360/ceil(T/P) in mean anomaly at a common RAAN; planes are spaced 360/P (delta) or 180/P (star) in RAAN starting from the lead orbit.", "quantifier": "every T,P,F and lead orbit", "why_tests_cant": "The numbers of satellites and planes are unbounded integers and the division may be uneven.", "anchors": ["src/tatc/schemas/satellite.py:WalkerConstellation.generate_members"]}
{"id": "C31", "title": "Walker uses the requested number of planes", "statement": "A Walker constellation with P planes has members in exactly P distinct planes.", "quantifier": "every valid T,P", "why_tests_cant": "Whether the last planes stay empty depends on the remainder of the division; tests use 4 or 5 satellites in 2 planes.", "anchors": ["src/tatc/schemas/satellite.py:WalkerConstellation.get_satellites_per_plane", "src/tatc/schemas/satellite.py:WalkerConstellation.generate_members"]}
{"id": "C32", "title": "Walker members are distinct orbits", "statement": "No two members of a Walker constellation share both mean anomaly and RAAN (mod 360).", "quantifier": "every valid T,P,F and configuration", "why_tests_cant": "Every pair of members of every valid pattern has to be compared.", "anchors": ["src/tatc/schemas/satellite.py:WalkerConstellation.generate_members"]}
{"id": "C33", "title": "Walker-delta symmetry", "statement": "When P divides T, shifting every member of a Walker delta constellation by 360/P in RAAN and 360*F/T in mean anomaly permutes the constellation (the pattern closes on itself).", "quantifier": "every valid T,P,F with P | T", "why_tests_cant": "The symmetry is a statement about every member of every pattern whose planes divide the satellites.", "anchors": ["src/tatc/schemas/satellite.py:WalkerConstellation.get_delta_mean_anomaly_between_planes", "src/tatc/schemas/satellite.py:WalkerConstellation.generate_members"]}
{"id": "C34", "title": "Streets-of-coverage sizing", "statement": "SOCConstellation generates a Walker constellation with whole equally-filled planes whose in-plane spacing does not exceed the angular distance between footprint centres and whose plane spacing does not exceed the design plane spacing; the footprint's Earth central half-angle equals swath_width/2 divided by the Earth radius.", "quantifier": "every altitude>0, swath up to the horizon, packing in (0,1]", "why_tests_cant": "Altitudes, swaths and packing factors form a continuum, and the claim is about coverage of every place between planes.", "anchors": ["src/tatc/schemas/satellite.py:SOCConstellation.generate_walker"]}
{"id": "C35", "title": "Mutual-orbiting-group geometry", "statement": "Each member's orbit plane is inclined exactly delta=transverse_axis/(2a) to the reference plane, its eccentricity is parallel_axis/(4a), RAAN/perigee/true anomaly are in [0,360), and inclination is in [0,180].", "quantifier": "every reference orbit, axes, direction and size", "why_tests_cant": "Axes, directions and reference orbits form a continuum; the claim is about the shape traced over a whole orbit.", "anchors": ["src/tatc/schemas/satellite.py:MOGConstellation.generate_members"]}
{"id": "C36", "title": "Mutual-orbiting-group Kepler iteration terminates", "statement": "The eccentric-anomaly fixed-point loop in MOGConstellation.generate_members terminates for every eccentricity below 1 and its result satisfies Kepler's equation with residual at most e*1e-6.", "quantifier": "every eccentricity and mean anomaly", "why_tests_cant": "Termination for a continuum of starting points cannot be established by running some of them.", "anchors": ["src/tatc/schemas/satellite.py:MOGConstellation.generate_members"]}
{"id": "C37", "title": "Swath width and field of regard are inverse", "statement": "field_of_regard_to_swath_width(h, swath_width_to_field_of_regard(h,w,el), el) = w for every swath up to the visible horizon.", "quantifier": "every altitude > elevation > -R and every swath up to the horizon", "why_tests_cant": "Two functions must be inverse over a continuum of altitudes, elevations and swaths up to the horizon.", "anchors": ["src/tatc/utils.py:swath_width_to_field_of_regard", "src/tatc/utils.py:field_of_regard_to_swath_width"]}
{"id": "C38", "title": "Elevation angle and field of regard are inverse", "statement": "compute_min_elevation_angle(h, compute_field_of_regard(h,eps,el), el) = eps for eps in [0,90], and compute_field_of_regard(h, compute_min_elevation_angle(h,f,el), el) = f for every f up to the horizon-limited field of regard.", "quantifier": "every altitude, elevation and angle", "why_tests_cant": "Two functions must be inverse over a continuum of altitudes, elevations and angles.", "anchors": ["src/tatc/utils.py:compute_field_of_regard", "src/tatc/utils.py:compute_min_elevation_angle"]}
{"id": "C39", "title": "Wider field of regard never sees less", "statement": "For fields of regard accepted by the Instrument schema, a larger field of regard gives a swath at least as wide and a minimum elevation angle at most as large.", "quantifier": "every altitude and every pair of fields of regard in (0,360]", "why_tests_cant": "Monotonicity compares every pair of a continuum; tests use 15 and 180 degrees.", "anchors": ["src/tatc/utils.py:field_of_regard_to_swath_width", "src/tatc/utils.py:compute_min_elevation_angle", "src/tatc/schemas/instrument.py:Instrument.get_swath_width"]}
{"id": "C40", "title": "Swath and elevation angle are well defined and bounded", "statement": "For every field of regard in (0,180], altitude>=elevation, the swath width is between 0 and the horizon-to-horizon arc and the elevation angle is between 0 and 90 degrees; all inverse trigonometric arguments are in [-1,1] (never NaN).", "quantifier": "every altitude, elevation, field of regard", "why_tests_cant": "Bounds and absence of domain errors must hold over a continuum that includes the horizon and fields beyond it.", "anchors": ["src/tatc/utils.py:field_of_regard_to_swath_width", "src/tatc/utils.py:compute_min_elevation_angle"]}
{"id": "C41", "title": "Nadir field of view equals field of regard", "statement": "swath_width_to_field_of_view with look_angle=0 equals swath_width_to_field_of_regard.", "quantifier": "every altitude, swath, elevation", "why_tests_cant": "Equality must hold over a continuum of altitudes, swaths and elevations.", "anchors": ["src/tatc/utils.py:swath_width_to_field_of_view", "src/tatc/utils.py:swath_width_to_field_of_regard"]}
{"id": "C42", "title": "Look angle is the off-nadir angle", "statement": "In swath_width_to_field_of_view the observation centre lies at off-nadir angle look_angle (as documented).", "quantifier": "every altitude and look angle", "why_tests_cant": "Look angles form a continuum; the test-suite covers none.", "anchors": ["src/tatc/utils.py:swath_width_to_field_of_view"]}
{"id": "C43", "title": "Ground velocity uses the inclination in degrees", "statement": "compute_ground_velocity(h,i) equals R*(n - omega_earth*cos(i)) for i in degrees; in particular a polar orbit (i=90) has ground velocity R*n.", "quantifier": "every altitude and inclination", "why_tests_cant": "A mix-up of degrees and radians agrees at inclination zero; the claim is about every inclination, and no test calls the function.", "anchors": ["src/tatc/utils.py:compute_ground_velocity", "src/tatc/utils.py:along_track_distance_to_access_time", "src/tatc/utils.py:access_time_to_along_track_distance"]}
{"id": "C44", "title": "Access time and along-track distance are inverse", "statement": "along_track_distance_to_access_time and access_time_to_along_track_distance are mutually inverse, monotone and defined for every altitude from 0 to well below geostationary.", "quantifier": "every altitude, inclination, distance and time", "why_tests_cant": "Two functions must be inverse over a continuum of altitudes, inclinations, distances and times.", "anchors": ["src/tatc/utils.py:along_track_distance_to_access_time", "src/tatc/utils.py:access_time_to_along_track_distance"]}
{"id": "C45", "title": "Maximum access time is a true upper bound", "statement": "compute_max_access_time is at least the duration of any circular-orbit pass over a point above the given elevation angle, is non-negative and decreasing in the elevation angle, and equals half the period at zero elevation.", "quantifier": "every altitude and elevation angle in [0,90]", "why_tests_cant": "An upper bound is a claim about every pass over every place at every altitude and elevation angle.", "anchors": ["src/tatc/utils.py:compute_max_access_time", "src/tatc/analysis/coverage.py:_get_visible_interval_series"]}
{"id": "C46", "title": "Sample count is monotone", "statement": "compute_number_samples is a non-increasing function of distance and positive for every distance from 0 to half the Earth circumference.", "quantifier": "every pair of distances", "why_tests_cant": "Monotonicity compares every pair of distances, including those between which the rounded count jumps.", "anchors": ["src/tatc/utils.py:compute_number_samples"]}
{"id": "C47", "title": "Observation validity rule", "statement": "is_valid_observation is true at a time exactly when every stated sunlight requirement (self, target) equals the actual sunlit state at that time; no requirement means always valid; scalar and vector answers agree (tracks of at least one time).", "quantifier": "all requirement combinations, all track lengths, all sunlit sequences", "why_tests_cant": "The rule combines requirements with tracks of any length, and all() of a track of length one looks like all() of any.", "anchors": ["src/tatc/schemas/instrument.py:Instrument.is_valid_observation"]}
{"id": "C48", "title": "Pixel array is symmetric and inside the field of view", "statement": "Pixel offsets are strictly monotone in the index, symmetric about the boresight, and never leave half the field of view.", "quantifier": "every pixel count, index, oversampling and field of view", "why_tests_cant": "Pixel counts and indices are unbounded and fields of view and oversampling form a continuum.", "anchors": ["src/tatc/schemas/instrument.py:PointedInstrument.get_pixel_cone_and_clock_angle"]}
{"id": "C49", "title": "Oversampling is the pixel overlap fraction", "statement": "Adjacent pixel centres are spaced (1-oversampling) times the instantaneous field of view, so that adjacent pixels overlap by the fraction oversampling.", "quantifier": "every oversampling fraction", "why_tests_cant": "Oversampling fractions form a continuum and the overlap shows only between neighbouring pixels of wide instruments.", "anchors": ["src/tatc/schemas/instrument.py:PointedInstrument.get_cross_track_instantaneous_field_of_view", "src/tatc/schemas/instrument.py:PointedInstrument.get_pixel_cone_and_clock_angle"]}
{"id": "C50", "title": "Projected pixels look along their pixel angle", "statement": "compute_projected_pixel_position projects a ray whose angle from the boresight is the pixel's cone angle.", "quantifier": "every pixel of every nadir-pointed instrument", "why_tests_cant": "The claim is about the direction of every pixel of every instrument; no test looks at single pixels.", "anchors": ["src/tatc/schemas/instrument.py:PointedInstrument.compute_projected_pixel_position", "src/tatc/utils.py:compute_projected_ray_position"]}
{"id": "C51", "title": "Footprint rays lie on the field-of-view boundary", "statement": "Every elliptical footprint ray lies exactly on the ellipse with half-angles along/2 and cross/2 (plus roll and pitch offsets); every rectangular footprint ray lies exactly on the boundary of the rectangle with those half-angles.", "quantifier": "every ray angle, field of view, roll and pitch", "why_tests_cant": "Ray angles, fields of view, roll and pitch form a continuum.", "anchors": ["src/tatc/utils.py:compute_projected_ray_position", "src/tatc/utils.py:compute_footprint"]}
{"id": "C52", "title": "Visible intervals are exactly the visible time", "statement": "For every alternating rise/culminate/set event sequence inside [start,end] (each pass shorter than twice the maximum access time), an instant of the window is in a returned interval exactly when the satellite is above the elevation limit at that instant, provided at least one event occurs.", "quantifier": "every alternating event sequence and window", "why_tests_cant": "Event sequences are unbounded and the interesting cases are at both ends of the window.", "anchors": ["src/tatc/analysis/coverage.py:_get_visible_interval_series"]}
{"id": "C53", "title": "Visible intervals are ordered and disjoint", "statement": "For every chronological event sequence inside [start,end], returned intervals lie inside [start,end], have positive length and are in chronological order of their starts; for alternating rise/set sequences they do not overlap; every interval ends at the first set after its rise.", "quantifier": "every event sequence", "why_tests_cant": "Order and disjointness are claims about every pair of intervals of every event sequence.", "anchors": ["src/tatc/analysis/coverage.py:_get_visible_interval_series"]}
{"id": "C54", "title": "Continuous visibility is reported", "statement": "If the satellite is above the elevation limit during the entire window, the whole window is reported as an observation period.", "quantifier": "every event sequence consistent with continuous visibility, including the empty one", "why_tests_cant": "tests only have a culmination inside the window", "anchors": ["src/tatc/analysis/coverage.py:_get_visible_interval_series"]}
{"id": "C55", "title": "Observation filtering", "statement": "collect_observations returns one record per visible interval that lasts at least min_access_time, satisfies the instrument validity at mid time and (for pointed instruments) whose mid-time footprint contains the point; records keep interval order and carry the interval's bounds and midpoint.", "quantifier": "every interval list, requirement and oracle outcome", "why_tests_cant": "Interval lists are unbounded and requirements and geometric answers are arbitrary.", "anchors": ["src/tatc/analysis/coverage.py:collect_observations"]}
{"id": "C56", "title": "Fixed access windows stay inside the pass", "statement": "With access_time_fixed, each record is centred on the interval midpoint, lasts exactly min_access_time and stays inside the visible interval.", "quantifier": "every interval and min_access_time (microsecond resolution)", "why_tests_cant": "Halving times at microsecond resolution rounds only for odd durations.", "anchors": ["src/tatc/analysis/coverage.py:collect_observations"]}
{"id": "C57", "title": "Multi-satellite collection is a sorted union", "statement": "collect_multi_observations returns exactly the union (with multiplicity) of the single-satellite observations over all members and instruments, sorted by start.", "quantifier": "every constellation list", "why_tests_cant": "The list of constellations, members and instruments is unbounded, with ties in the sort key.", "anchors": ["src/tatc/analysis/coverage.py:collect_multi_observations"]}
{"id": "C58", "title": "Aggregation merges exactly the overlapping observations", "statement": "aggregate_observations outputs, per point, one record per connected cluster of overlapping (or touching) observations: output intervals are pairwise disjoint, separated by strictly positive gaps, in chronological order, and their union equals the union of the input intervals.", "quantifier": "every observation table", "why_tests_cant": "Overlap structure is unbounded: nesting, chains, touching intervals, ties and duplicates.", "anchors": ["src/tatc/analysis/coverage.py:aggregate_observations"]}
{"id": "C59", "title": "Aggregation is order independent and idempotent", "statement": "The aggregated (start,end) intervals depend only on the set of observations, not on their order, and aggregating an aggregated table returns the same intervals.", "quantifier": "every permutation of every table", "why_tests_cant": "There are n! orders of a table and ties can be broken in any way by an unstable sort.", "anchors": ["src/tatc/analysis/coverage.py:aggregate_observations"]}
{"id": "C60", "title": "Aggregation does not mix points", "statement": "Every aggregated record stems only from observations of its own point; every observation contributes to exactly one aggregated record, whose interval contains it; satellite names are the joined names of its contributors.", "quantifier": "every table with any number of points", "why_tests_cant": "The number of points is unbounded and rows of different points interleave in time.", "anchors": ["src/tatc/analysis/coverage.py:aggregate_observations"]}
{"id": "C61", "title": "Access and revisit accounting", "statement": "For each point, access=end-start>=0, revisit is missing for the first record and otherwise the strictly positive gap since the previous record's end; the sum of all accesses and revisits of a point equals last end - first start.", "quantifier": "every table", "why_tests_cant": "Sums over tables of any size must balance, including tables with one row per point.", "anchors": ["src/tatc/analysis/coverage.py:aggregate_observations"]}
{"id": "C62", "title": "Reduction statistics", "statement": "reduce_observations returns one record per point, samples = number of its aggregated records, access = mean access, revisit = mean of the defined revisits (missing iff the point has exactly one record); means lie between min and max.", "quantifier": "every aggregated table", "why_tests_cant": "Statistics must be right for tables of any size, including points without a revisit.", "anchors": ["src/tatc/analysis/coverage.py:reduce_observations"]}
{"id": "C63", "title": "Gridded samples", "statement": "grid_observations reports, for each cell containing at least one reduced point, the sum of the samples of the points it contains, and when no observations exist every cell with zero samples.", "quantifier": "every cell/point layout", "why_tests_cant": "Any number of points may fall in any cell, on borders, or in none.", "anchors": ["src/tatc/analysis/coverage.py:grid_observations"]}
{"id": "C64", "title": "Gridded access is the sample-weighted mean", "statement": "grid_observations reports for every non-empty cell the sample-weighted mean of its points' access and revisit, for every cell layout.", "quantifier": "every cell/point layout", "why_tests_cant": "The weights matter only for cells with several points of different counts; the grid functions have no tests.", "anchors": ["src/tatc/analysis/coverage.py:grid_observations"]}
{"id": "C65", "title": "Downlink collection", "statement": "collect_downlinks returns exactly the visible intervals of every station lasting at least that station's min_access_time, sorted by start.", "quantifier": "every station list and interval lists", "why_tests_cant": "Lists of stations and passes are unbounded.", "anchors": ["src/tatc/analysis/latency.py:collect_downlinks"]}
{"id": "C66", "title": "Latency picks the first available downlink", "statement": "compute_latencies pairs each observation with the earliest-starting downlink of the same satellite that starts at or after the observation's end; if there is none, station, downlinked and latency are missing.", "quantifier": "every observation and downlink table (ties included)", "why_tests_cant": "The first downlink must be found in tables of any size, with ties, overlaps and passes in progress.", "anchors": ["src/tatc/analysis/latency.py:compute_latencies"]}
{"id": "C67", "title": "Latency rows", "statement": "Every observation appears exactly once in the latency table (when there is at least one observation and one downlink), rows are sorted by observation time, latency = downlink epoch - observation epoch, and latency is non-negative whenever epochs lie inside their intervals.", "quantifier": "every table", "why_tests_cant": "Each observation must yield its row whatever the size of the tables, including observations nothing follows.", "anchors": ["src/tatc/analysis/latency.py:compute_latencies"]}
{"id": "C68", "title": "Latency reduction", "statement": "reduce_latencies returns one row per point with the mean of the defined latencies (missing iff none is defined) and the number of rows of that point.", "quantifier": "every table", "why_tests_cant": "Statistics must be right for tables of any size, including points that have no latency.", "anchors": ["src/tatc/analysis/latency.py:reduce_latencies"]}
{"id": "C69", "title": "Latency sample count counts downlinked observations", "statement": "The samples value of reduce_latencies equals the number of latencies that entered the mean.", "quantifier": "every table with unmatched observations", "why_tests_cant": "The count differs only when some observation is never downlinked, a case a chosen example need not contain.", "anchors": ["src/tatc/analysis/latency.py:reduce_latencies"]}
{"id": "C70", "title": "Gridded latency is the sample-weighted mean", "statement": "grid_latencies reports the sample-weighted mean latency of the points in each non-empty cell.", "quantifier": "every cell/point layout", "why_tests_cant": "The weights matter only for cells with several points of different counts; the grid functions have no tests.", "anchors": ["src/tatc/analysis/latency.py:grid_latencies"]}
{"id": "C71", "title": "Fibonacci lattice latitudes", "statement": "Fibonacci lattice latitudes are strictly increasing in the id, strictly between -90 and 90, and equally spaced in sine of latitude (equal-area bands).", "quantifier": "every sample count and index", "why_tests_cant": "Every index of every sample count is concerned, including both poles.", "anchors": ["src/tatc/generation/points.py:_compute_fibonacci_lattice_point_latitude"]}
{"id": "C72", "title": "Fibonacci lattice longitudes", "statement": "Fibonacci lattice longitudes lie in (-180,180] and are pairwise distinct.", "quantifier": "every index", "why_tests_cant": "Distinctness of longitudes for every pair of indices needs the irrationality of the golden ratio.", "anchors": ["src/tatc/generation/points.py:_compute_fibonacci_lattice_point_longitude"]}
{"id": "C73", "title": "Fibonacci lattice is hemispherically symmetric", "statement": "The latitudes of the Fibonacci lattice are symmetric about the equator (as many points at the same latitudes north and south).", "quantifier": "every count", "why_tests_cant": "The symmetry pairs every index of lattices of any size.", "anchors": ["src/tatc/generation/points.py:_compute_fibonacci_lattice_point_latitude"]}
{"id": "C74", "title": "Masked lattice is the filtered global lattice", "statement": "With a mask inside [-180,180]x[-90,90], generate_fibonacci_lattice_points returns exactly the global lattice points that the mask contains, with their global ids; for masks extending beyond 180 degrees east, western points are reported at longitude+360.", "quantifier": "every mask and distance", "why_tests_cant": "Masks are arbitrary sets and distances form a continuum.", "anchors": ["src/tatc/generation/points.py:generate_fibonacci_lattice_points"]}
{"id": "C75", "title": "Equally spaced points are valid coordinates", "statement": "Every globally generated equally spaced point has longitude in [-180,180] and latitude in [-90,90], and rows/columns are spaced exactly by the angular step.", "quantifier": "every angular step", "why_tests_cant": "Angular steps form a continuum and the last row is the one that leaves the range.", "anchors": ["src/tatc/generation/points.py:_generate_equally_spaced_points"]}
{"id": "C76", "title": "Equally spaced ids are unique", "statement": "Point and cell ids are pairwise distinct.", "quantifier": "every angular step and mask", "why_tests_cant": "Angular steps form a continuum; tests use steps that divide 360.", "anchors": ["src/tatc/generation/points.py:_compute_equally_spaced_point_id", "src/tatc/generation/cells.py:_generate_equally_spaced_cells"]}
{"id": "C77", "title": "Cells and points share ids", "statement": "The point with id k is the centroid of the (unmasked, non-strip) cell with id k generated for the same step, and the cell contains it.", "quantifier": "every step", "why_tests_cant": "Ids must agree for a continuum of steps, where the last column is partial.", "anchors": ["src/tatc/generation/points.py:_generate_equally_spaced_points", "src/tatc/generation/cells.py:_generate_equally_spaced_cells"]}
{"id": "C78", "title": "Cells tile the globe", "statement": "Unmasked cells do not overlap (interiors disjoint), adjacent cells share edges, and their union spans longitudes -180..180 and latitudes -90..90 up to half a step; strips cover the full width.", "quantifier": "every step", "why_tests_cant": "Tiling is a claim about every place on the globe and every step.", "anchors": ["src/tatc/generation/cells.py:_generate_equally_spaced_cells"]}
{"id": "C79", "title": "Masked point generation keeps every point inside the mask", "statement": "Every global grid point strictly inside the mask's bounding box is a candidate, candidates outside it are not generated except on ties, and invalid masks raise ValueError.", "quantifier": "every step and mask", "why_tests_cant": "Masks are arbitrary sets and steps form a continuum; the candidates are cut to the bounds of the mask first.", "anchors": ["src/tatc/generation/points.py:_generate_equally_spaced_indices", "src/tatc/generation/points.py:_get_bounds"]}
{"id": "C80", "title": "Masked cells cover the mask", "statement": "The cells generated for a mask cover the mask.", "quantifier": "every step and mask", "why_tests_cant": "Covering is a claim about every place of every mask; the suite pins one empty case.", "anchors": ["src/tatc/generation/cells.py:_generate_equally_spaced_cells"]}
{"id": "C81", "title": "Projection to elevation", "statement": "project_polygon_to_elevation sets every z to the elevation and preserves every (x,y), ring and part, for polygons and multipolygons of any size; it is idempotent.", "quantifier": "every polygon", "why_tests_cant": "Polygons have any number of vertices and holes.", "anchors": ["src/tatc/utils.py:project_polygon_to_elevation"]}
{"id": "C82", "title": "Antimeridian wrapping", "statement": "_wrap_polygon_over_antimeridian (via split_polygon) maps one-sided polygons into [-180,180] longitude without moving any vertex on the globe, and polygons already inside unchanged.", "quantifier": "every polygon lying on one side of the antimeridian", "why_tests_cant": "Vertices range over a continuum, including those on the antimeridian.", "anchors": ["src/tatc/utils.py:_wrap_polygon_over_antimeridian"]}
{"id": "C83", "title": "Pole wrapping", "statement": "Wrapping over the north/south pole maps polygons beyond the pole to valid latitudes without moving any vertex on the globe, and leaves others unchanged.", "quantifier": "every polygon on one side of the prime meridian", "why_tests_cant": "Vertices range over a continuum, including those on the pole and the prime meridian.", "anchors": ["src/tatc/utils.py:_wrap_polygon_over_north_pole", "src/tatc/utils.py:_wrap_polygon_over_south_pole"]}
{"id": "C84", "title": "Polygon wrapping never crashes", "statement": "The wrapping functions return a polygon for every polygon with finite coordinates (including holes).", "quantifier": "every polygon", "why_tests_cant": "Absence of crashes is a claim about every polygon; holes and straddling polygons are untested.", "anchors": ["src/tatc/utils.py:_wrap_polygon_over_antimeridian", "src/tatc/utils.py:_wrap_polygon_over_south_pole"]}
{"id": "C85", "title": "Antimeridian unwrapping", "statement": "Before splitting at the antimeridian, vertices are shifted by whole turns so that consecutive longitudes never differ by more than 180 degrees and the first vertex is unmoved.", "quantifier": "every longitude sequence in [-180,180]", "why_tests_cant": "Longitude sequences have any length and may cross any number of times.", "anchors": ["src/tatc/utils.py:_split_polygon_antimeridian", "src/tatc/analysis/track.py:compute_ground_track"]}
{"id": "C86", "title": "split_polygon is the identity on ordinary polygons", "statement": "A valid polygon within latitude bounds whose consecutive longitudes differ by less than 180 degrees is returned unchanged, and a MultiPolygon of such polygons keeps all parts in order.", "quantifier": "every such polygon", "why_tests_cant": "The identity must hold for polygons with any number of vertices and holes.", "anchors": ["src/tatc/utils.py:split_polygon"]}
{"id": "C87", "title": "normalize_geometry leaves its argument alone", "statement": "normalize_geometry returns a normalized frame and does not modify the frame it is given.", "quantifier": "every input frame", "why_tests_cant": "A change of the argument shows only if the caller looks at it afterwards, which tests do not.", "anchors": ["src/tatc/utils.py:normalize_geometry"]}
{"id": "C88", "title": "Orbit track rows", "statement": "collect_orbit_track without mask returns one row per requested time, in order, with that time's position, swath width and validity; with a mask, exactly the rows whose sub-satellite point the mask contains; empty input gives an empty frame.", "quantifier": "every time list", "why_tests_cant": "The rows must match the times one by one for lists of any length.", "anchors": ["src/tatc/analysis/track.py:collect_orbit_track"]}
{"id": "C89", "title": "Ground track grouping", "statement": "compute_ground_track(method='line') groups valid samples into maximal contiguous runs within one orbit: two valid samples share a segment iff all samples between them are valid and they lie in the same orbit (elapsed whole periods).", "quantifier": "every validity sequence and time list", "why_tests_cant": "Validity sequences and times have any length; a group boundary may fall anywhere.", "anchors": ["src/tatc/analysis/track.py:compute_ground_track"]}
{"id": "C90", "title": "Line-method geometry covers every segment", "statement": "compute_ground_track(method='line') buffers every segment with its own swath width and attaches it to its own group.", "quantifier": "every grouping with antimeridian crossings", "why_tests_cant": "The loss needs a crossing in a group that is not the last.", "anchors": ["src/tatc/analysis/track.py:compute_ground_track"]}
{"id": "C91", "title": "UTM zone selection", "statement": "_get_utm_epsg_code returns 5041 when the footprint reaches above 84N, else 5042 when it reaches below 80S, else the first matching UTM zone, else 4087; it never fails.", "quantifier": "every footprint bounds and query result", "why_tests_cant": "Footprint bounds form a continuum and the answer of the query is arbitrary.", "anchors": ["src/tatc/analysis/track.py:_get_utm_epsg_code"]}
{"id": "C92", "title": "Ground pixel rows", "statement": "collect_ground_pixels returns cross*along pixels for each retained time, in time order, and raises ValueError unless the instrument is a rectangular pointed instrument (for non-empty times).", "quantifier": "every time list and pixel counts", "why_tests_cant": "Numbers of times and pixels are unbounded and the order must be right for all.", "anchors": ["src/tatc/analysis/track.py:collect_ground_pixels", "src/tatc/schemas/instrument.py:PointedInstrument.compute_footprint_pixel_array"]}
{"id": "C93", "title": "Occultation arcs are maximal runs", "statement": "_collect_ro_series returns exactly the maximal runs of consecutive sample times at which the geometry is valid and the tangent height is strictly inside the elevation range, each arc listing its samples in order; no sample is lost or duplicated.", "quantifier": "every validity and height sequence", "why_tests_cant": "Validity and height sequences have any length; a run may begin or end anywhere, at the ends as well.", "anchors": ["src/tatc/analysis/ro_coverage.py:_collect_ro_series"]}
{"id": "C94", "title": "Tangent point geometry", "statement": "The tangent point is the point of the transmitter-receiver line closest to the Earth's centre, and the view intersects it exactly when it lies strictly between transmitter and receiver; its reported velocity is the time derivative of its position.", "quantifier": "every pair of positions/velocities", "why_tests_cant": "Positions and velocities form a continuum.", "anchors": ["src/tatc/analysis/ro_coverage.py:_collect_ro_series"]}
{"id": "C95", "title": "Yaw window", "statement": "An occultation is yaw-valid exactly when the transmitter is within max_yaw of the receiver's fore or aft direction.", "quantifier": "every yaw and max_yaw in (0,90)", "why_tests_cant": "Yaw values form a continuum and the wrap at 180 degrees and the ends of the window matter.", "anchors": ["src/tatc/analysis/ro_coverage.py:_collect_ro_series"]}
{"id": "C96", "title": "Occultation sampling", "statement": "Each RO record's sampled time/position is the first arc sample whose height is closest to sample_elevation, start/end are the arc's first/last sample times, and rows are sorted by sampled time; one row per arc.", "quantifier": "every arc list", "why_tests_cant": "The number and lengths of arcs are unbounded, including arcs shorter than the sample.", "anchors": ["src/tatc/analysis/ro_coverage.py:collect_ro_observations"]}
{"id": "C97", "title": "DOP identities", "statement": "GDOP^2 = PDOP^2 + TDOP^2, PDOP^2 = HDOP^2 + VDOP^2, all DOP values are non-negative.", "quantifier": "every non-singular visible geometry", "why_tests_cant": "Identities must hold for a continuum of sky geometries.", "anchors": ["src/tatc/analysis/dop.py:compute_dop"]}
{"id": "C98", "title": "DOP is independent of satellite order and improves with more satellites", "statement": "Permuting the satellites does not change any DOP, and adding a visible satellite never increases any DOP value.", "quantifier": "every visible set", "why_tests_cant": "There are n! orders, and improvement is an inequality over a continuum of geometries.", "anchors": ["src/tatc/analysis/dop.py:compute_dop"]}
{"id": "C99", "title": "DOP visibility threshold", "statement": "compute_dop returns a value (not NaN) exactly when at least min_count_visible satellites are visible and the geometry is non-singular.", "quantifier": "every visibility pattern and threshold", "why_tests_cant": "Patterns of visibility and thresholds are arbitrary and the boundary is what matters.", "anchors": ["src/tatc/analysis/dop.py:compute_dop"]}
{"id": "C100", "title": "DOP geometry column locates the point", "statement": "The geometry of every DOP row is the point (x=longitude, y=latitude).", "quantifier": "every point", "why_tests_cant": "Every point is concerned; tests check the numbers in other columns only.", "anchors": ["src/tatc/analysis/dop.py:compute_dop"]}
{"id": "C101", "title": "Configuration loading is total", "statement": "Importing tatc and loading any configuration file either yields a RuntimeConfiguration whose values satisfy their documented bounds or raises ConfigError; a failing default file falls back to the defaults.", "quantifier": "every file content", "why_tests_cant": "File contents are unbounded: any document, encoding or error.", "anchors": ["src/tatc/config.py:load_yaml_config", "src/tatc/config.py:rc"]}
{"id": "C102", "title": "Closest-TLE index reflects the current elements", "statement": "For any history of tle assignments and get_closest_tle_index queries on one TwoLineElements object, every answer is the answer a fresh object holding the current tle would give.", "quantifier": "every history of assignments and queries", "why_tests_cant": "This is a property of histories: decoded epochs are cached on first use, and only assignments after a query show it.", "anchors": ["src/tatc/schemas/orbit.py:TwoLineElements.get_closest_tle_index"]}
{"id": "C103", "title": "Train members repeat the ground track", "statement": "With repeat_ground_track every member of a train crosses the equator over the same Earth-fixed longitude as the lead satellite when it passes k intervals later (Earth rotating once per sidereal day, orbit planes fixed in inertial space).", "quantifier": "every lead orbit, size and interval", "why_tests_cant": "continuum; tests only compare the angles with the same formula", "anchors": ["src/tatc/schemas/satellite.py:TrainConstellation.get_delta_raan", "src/tatc/schemas/satellite.py:TrainConstellation.generate_members"]}
{"id": "C104", "title": "Mutual-orbiting-group generation always finishes", "statement": "generate_members of a mutual orbiting group returns or raises for every group the schema accepts.", "quantifier": "every group accepted by the schema", "why_tests_cant": "termination cannot be tested exhaustively", "anchors": ["src/tatc/schemas/satellite.py:MOGConstellation.generate_members"]}
{"id": "C105", "title": "Mutual orbiting group surrounds its reference", "statement": "At epoch every member's mean position lies within delta of the position of the reference satellite given as the orbit field.", "quantifier": "every reference orbit, including its true anomaly", "why_tests_cant": "Reference orbits form a continuum; the true anomaly of the reference is a free parameter.", "anchors": ["src/tatc/schemas/satellite.py:MOGConstellation.generate_members"]}
{"id": "C106", "title": "No pixel sees more than the field of view", "statement": "The instantaneous field of view of a pixel never exceeds the instrument's field of view.", "quantifier": "every pixel count and oversampling accepted by the schema", "why_tests_cant": "Instruments form a continuum of fields of view, pixel counts and oversampling.", "anchors": ["src/tatc/schemas/instrument.py:PointedInstrument.get_cross_track_instantaneous_field_of_view"]}
{"id": "C107", "title": "Pixel indices follow their documented order", "statement": "Cross-track pixel indices run from left to right and along-track indices from fore to aft; the pixel array lists every index pair exactly once, cross-track index outermost.", "quantifier": "every nadir-pointed instrument, position and velocity", "why_tests_cant": "The order is a geometric claim for a continuum of positions and velocities.", "anchors": ["src/tatc/schemas/instrument.py:PointedInstrument.compute_projected_pixel_position", "src/tatc/schemas/instrument.py:PointedInstrument.compute_footprint_pixel_array", "src/tatc/utils.py:compute_projected_ray_position"]}
{"id": "C108", "title": "Roll and pitch are right-handed rotations", "statement": "The centre of view of an instrument with a roll (pitch) angle is the nadir direction turned right-handed by that angle about the velocity (orbit normal) vector.", "quantifier": "every accepted roll and pitch angle, position and velocity", "why_tests_cant": "Rotations must be right for a continuum of angles, positions and velocities.", "anchors": ["src/tatc/utils.py:compute_projected_ray_position", "src/tatc/schemas/instrument.py:PointedInstrument.compute_footprint_center"]}
{"id": "C109", "title": "Projected positions lie on the line of sight", "statement": "A projected ray ends at a point of the raised ellipsoid on the line of sight whenever the line of sight meets it, and otherwise at one of the two limb points in the plane through the satellite given by the clock angle of the ray.", "quantifier": "every ray, position, velocity and elevation", "why_tests_cant": "Rays, positions and elevations form a continuum, including rays that miss.", "anchors": ["src/tatc/utils.py:compute_projected_ray_position"]}
{"id": "C110", "title": "Rising occultations lie ahead", "statement": "An occultation is labelled rising exactly when, at its first sample, the transmitter lies ahead of the receiver (positive component along the receiver's velocity); every reported pitch angle lies strictly between -180 and 0 degrees.", "quantifier": "every pair of tracks and time list", "why_tests_cant": "Geometries form a continuum and the claim relates two moving satellites.", "anchors": ["src/tatc/analysis/ro_coverage.py:_collect_ro_series"]}
{"id": "C111", "title": "split_polygon returns geographic coordinates", "statement": "Every polygon returned by split_polygon has longitudes within [-180,180] and latitudes within [-90,90].", "quantifier": "every valid polygon", "why_tests_cant": "Polygons form a continuum, and bounds are only checked by eye in examples.", "anchors": ["src/tatc/utils.py:split_polygon"]}
{"id": "C112", "title": "A polar footprint meets the antimeridian where its outline does", "statement": "When a footprint around a pole is split, the vertices added on the antimeridian have the latitude of the straight line from the easternmost to the westernmost vertex continued around the globe.", "quantifier": "every polygon around a pole", "why_tests_cant": "Polygons around a pole form a continuum; the crossing can be on any edge.", "anchors": ["src/tatc/utils.py:_split_polygon_antimeridian"]}
{"id": "C113", "title": "A polar footprint keeps its vertices", "statement": "The polygon built for a footprint around a pole consists of all its vertices in order of longitude, closed over the pole on the side of the mean latitude, with the holes unchanged.", "quantifier": "every polygon", "why_tests_cant": "Polygons have any number of vertices and the cut may be anywhere.", "anchors": ["src/tatc/utils.py:_split_polygon_antimeridian"]}
{"id": "C114", "title": "Collections lose no polygon", "statement": "Converting a geometry collection keeps exactly the polygons in it, including those inside multipolygons, and drops everything else.", "quantifier": "every collection", "why_tests_cant": "Collections have any number of parts of mixed kinds.", "anchors": ["src/tatc/utils.py:_convert_collection_to_polygon"]}
{"id": "C115", "title": "Ground track rows", "statement": "collect_ground_track without mask returns one row per requested time in order, with that time's footprint and validity at the footprint centre; with a mask it returns, up to order, exactly the unmasked rows clipped to the mask.", "quantifier": "every time list, instrument, coordinate reference system and mask", "why_tests_cant": "depends on arbitrary orbits and masks; culling must not lose a row", "anchors": ["src/tatc/analysis/track.py:collect_ground_track", "src/tatc/utils.py:buffer_target"]}
{"id": "C116", "title": "Point-method aggregation", "statement": "compute_ground_track(method='point') covers a place iff some valid sample's footprint covers it; without dissolve_orbits it has one row per orbit that has a valid sample, in orbit order, covering exactly that orbit's valid footprints; with dissolve_orbits at most one row.", "quantifier": "every track, validity sequence, orbit period and union operation", "why_tests_cant": "Tracks are unbounded and the union operation is arbitrary.", "anchors": ["src/tatc/analysis/track.py:compute_ground_track"]}
{"id": "C117", "title": "Orbits are counted from the first sample", "statement": "Samples that lie within one orbit period of the first sample are aggregated in one row by compute_ground_track(method='point', dissolve_orbits=False).", "quantifier": "every time list within one period", "why_tests_cant": "The claim fails only for start times that are not whole milliseconds.", "anchors": ["src/tatc/analysis/track.py:compute_ground_track", "src/tatc/analysis/track.py:collect_ground_track"]}
{"id": "C118", "title": "Line method accepts every validity pattern", "statement": "compute_ground_track(method='line') returns a frame for every validity pattern.", "quantifier": "every validity sequence", "why_tests_cant": "The claim fails only for isolated valid samples, a pattern a chosen example need not contain.", "anchors": ["src/tatc/analysis/track.py:compute_ground_track"]}
{"id": "C119", "title": "Target buffer contains everything within reach", "statement": "buffer_target(target, ...) contains every place whose great-circle distance from the target is at most the buffer distance, so culling loses nothing.", "quantifier": "every target and place", "why_tests_cant": "Targets and places form a continuum, including the poles and the antimeridian.", "anchors": ["src/tatc/utils.py:buffer_target"]}
{"id": "C120", "title": "Argument errors of the track functions", "statement": "For non-empty times an instrument index out of range raises IndexError in collect_orbit_track, collect_ground_track and collect_ground_pixels (negative indices count from the end); compute_ground_track raises ValueError for an unknown method and for the line method with spice; empty times give an empty frame.", "quantifier": "every index, method and time list", "why_tests_cant": "Every integer index and every list of times is concerned, and the order of the checks decides which error is raised.", "anchors": ["src/tatc/analysis/track.py:collect_orbit_track", "src/tatc/analysis/track.py:compute_ground_track", "src/tatc/analysis/track.py:collect_ground_pixels"]}
{"id": "C121", "title": "No DOP from fewer than four satellites", "statement": "compute_dop never returns a number when fewer than four satellites are in view, whatever min_count_visible is.", "quantifier": "every sky, method and threshold", "why_tests_cant": "continuum of geometries, arbitrary thresholds", "anchors": ["src/tatc/analysis/dop.py:compute_dop"]}
{"id": "C122", "title": "DOP lower bounds", "statement": "With n satellites in view TDOP and VDOP are at least 1/sqrt(n), HDOP at least 2/sqrt(n), PDOP at least 3/sqrt(n) and GDOP at least sqrt(8/n).", "quantifier": "every non-singular sky", "why_tests_cant": "Lower bounds are claims over a continuum of skies.", "anchors": ["src/tatc/analysis/dop.py:compute_dop"]}
{"id": "C123", "title": "DOP depends only on directions and not on the orientation of the horizon", "statement": "Turning all azimuths by the same angle, or changing the ranges, changes no DOP value.", "quantifier": "every sky, angle and ranges", "why_tests_cant": "Invariance must hold for every rotation and every choice of ranges.", "anchors": ["src/tatc/analysis/dop.py:compute_dop"]}
{"id": "C124", "title": "DOP rows", "statement": "compute_dop returns one row per time, in order, with the DOP of the satellites at that time, for every list of satellites (including the empty one) and every valid method.", "quantifier": "every time list and satellite list", "why_tests_cant": "Lists of times and satellites are unbounded, and the empty list is a corner case.", "anchors": ["src/tatc/analysis/dop.py:compute_dop"]}
{"id": "C125", "title": "A configuration file determines exactly its own settings", "statement": "After loading a configuration file every setting equals the converted value of its last entry in the file, or its documented default when the file has no such entry; an entry that names no setting changes nothing; an out-of-range point count is reported as ConfigError.", "quantifier": "every mapping document", "why_tests_cant": "Documents are unbounded, with any order of keys and any duplicates.", "anchors": ["src/tatc/config.py:load_yaml_config", "src/tatc/config.py:RuntimeConfiguration"]}
{"id": "C126", "title": "The shipped configuration equals the documented defaults", "statement": "Importing tatc with the shipped resources/defaults.yml, with no file, or with an unparsable or invalid file gives the same configuration as RuntimeConfiguration().", "quantifier": "every string/number conversion behaviour that is exact on small integers", "why_tests_cant": "must hold for all conversion behaviours of the installed pydantic", "anchors": ["src/tatc/config.py:rc", "src/tatc/resources/defaults.yml"]}
{"id": "C127", "title": "A MultiPolygon is split part by part", "statement": "split_polygon of a MultiPolygon returns, apart from the final repair of invalid results, a MultiPolygon made of exactly the polygons that split_polygon returns for each of its parts, in order: no part and no piece of a part is lost, duplicated or merged; and it raises exactly when it raises for one of the parts.", "quantifier": "all MultiPolygons with any number of parts, vertices and holes, and all behaviours of the geometry library's split, crosses, equality and validity tests", "why_tests_cant": "The recursion over parts is repeated in six helpers and composes three passes; tests use one or two parts, and losing the second piece of a part goes unseen unless that part itself is cut.", "anchors": ["src/tatc/utils.py:split_polygon", "src/tatc/utils.py:_split_polygon_antimeridian", "src/tatc/utils.py:_split_polygon_north_pole", "src/tatc/utils.py:_split_polygon_south_pole"]}
{"id": "C128", "title": "Splitting neither loses nor adds area", "statement": "The places on the globe covered by the polygons that split_polygon returns are exactly those covered by the polygons passed in, each laid out in the plane as its vertices say: itself when no step between vertices reaches 180 degrees of longitude, its unwrapping through the same places when it crosses the antimeridian, and the polygon closed over the pole when it surrounds one.", "quantifier": "all Polygons and MultiPolygons for which split_polygon returns, and all notions of coverage that follow translations and reflections of a polygon and are preserved by the geometry library's split and repair", "why_tests_cant": "Coverage is a statement about every point of every polygon; a piece wrapped with the wrong shift or dropped in the loop over the parts beyond a pole only shows for polygons that cross both a pole and the prime meridian.", "anchors": ["src/tatc/utils.py:split_polygon", "src/tatc/utils.py:_wrap_polygon_over_north_pole", "src/tatc/utils.py:_wrap_polygon_over_south_pole", "src/tatc/utils.py:_wrap_polygon_over_antimeridian", "src/tatc/utils.py:_convert_collection_to_polygon"]}
{"id": "C129", "title": "Holes follow their outline across the antimeridian", "statement": "When a polygon that crosses the antimeridian is unwrapped so that all vertices of its outline at or west of a longitude w move by a turns and all those at or east of a longitude e > w move by b turns, every vertex of its holes at or west of w moves by a turns and every one at or east of e by b turns, with its latitude unchanged: holes stay where they are on the globe and inside their outline.", "quantifier": "all polygons with any number of vertices and holes whose outline has vertices at longitudes w < e and none between, and every order that the sorting routine may give to equal longitudes", "why_tests_cant": "The shift of a hole is interpolated from the sorted shifts of the outline; whether the interpolation lands on whole turns depends on every longitude of the outline and on how ties are sorted.", "anchors": ["src/tatc/utils.py:_split_polygon_antimeridian"]}
{"id": "C130", "title": "A line of sight that misses the Earth is moved straight down to the horizon", "statement": "When a line of sight meets no point of the (raised) ellipsoid, the projected position is a point of the horizon that lies in the plane of the line of sight and the nadir.", "quantifier": "every position, velocity, field of view, roll, pitch, angle and elevation", "why_tests_cant": "continuum of viewing geometries; the case needs a line of sight past the limb", "anchors": ["src/tatc/utils.py:compute_projected_ray_position", "src/tatc/schemas/instrument.py:PointedInstrument.compute_footprint_center"]}
{"id": "C131", "title": "compute_limb returns the horizon", "statement": "Every vertex computed by compute_limb before projection to geographic coordinates lies on the horizon: the line from the satellite to it touches the raised ellipsoid there and nowhere else; with an array of times there is one polygon per time, equal to the polygon for that time alone.", "quantifier": "every satellite position outside the ellipsoid, number of points, elevation and list of times", "why_tests_cant": "Positions and numbers of points are arbitrary; tests look at one area.", "anchors": ["src/tatc/utils.py:compute_limb"]}
{"id": "C132", "title": "An instrument's footprint is bounded by its field of regard", "statement": "Every vertex of Instrument.compute_footprint is seen at half the field of regard off nadir, or lies on the horizon.", "quantifier": "every field of regard in (0,360], position, velocity, number of points and elevation", "why_tests_cant": "Fields of regard and positions form a continuum.", "anchors": ["src/tatc/schemas/instrument.py:Instrument.compute_footprint", "src/tatc/schemas/instrument.py:Instrument.field_of_regard"]}
{"id": "C133", "title": "A footprint connects the projected lines of sight, time by time", "statement": "compute_footprint at one time is the closed outline through the projected lines of sight, in order, split and raised to the elevation; for several times it is the list of footprints at each time, and fails exactly if one of them fails; for an array of one time it is the footprint at that time; the number of points left out is the configured one.", "quantifier": "every track, instrument geometry, number of points and elevation", "why_tests_cant": "Numbers of times and points are arbitrary, and the two must not be mixed up.", "anchors": ["src/tatc/utils.py:compute_footprint", "src/tatc/schemas/instrument.py:PointedInstrument.compute_footprint"]}
{"id": "C134", "title": "The pixel array lists the projected pixels in order", "statement": "compute_footprint_pixel_array returns, for each time, cross-track times along-track points, of which number i * along + j is the projected position of pixel (i, j).", "quantifier": "every instrument, track and elevation", "why_tests_cant": "Pixel counts and numbers of times are arbitrary, and the two must not be mixed up.", "anchors": ["src/tatc/schemas/instrument.py:PointedInstrument.compute_footprint_pixel_array", "src/tatc/schemas/instrument.py:PointedInstrument.compute_projected_pixel_position"]}
{"id": "C135", "title": "Footprints keep their coverage when split and raised", "statement": "The geometries returned by compute_footprint, compute_limb and buffer_footprint cover exactly the places on the globe that the outline (or the buffered geometry) covers, and all their vertices have the requested elevation.", "quantifier": "every footprint, limb and buffered geometry for which the call returns", "why_tests_cant": "Geometries form a continuum, including those around poles and across the antimeridian.", "anchors": ["src/tatc/utils.py:compute_footprint", "src/tatc/utils.py:compute_limb", "src/tatc/utils.py:buffer_footprint", "src/tatc/utils.py:split_polygon"]}
{"id": "C136", "title": "Pixels look inside the field of view", "statement": "The line of sight of every pixel of a pointed instrument lies strictly inside the instrument's elliptical (hence also rectangular) field of view.", "quantifier": "every valid pointed instrument with fields of view below 180 degrees, every pixel, position and velocity", "why_tests_cant": "Fields of view form a continuum and pixel counts are arbitrary.", "anchors": ["src/tatc/schemas/instrument.py:PointedInstrument.get_pixel_cone_and_clock_angle", "src/tatc/schemas/instrument.py:PointedInstrument.compute_projected_pixel_position"]}
{"id": "C137", "title": "Line-method areas follow the way of one run", "statement": "Every area that compute_ground_track(method='line') returns is the buffer, at the given elevation, of a line that lies on the way of consecutive track positions of one orbit, going the short way around the Earth between consecutive positions; when such a run crosses the antimeridian at most once the line stays within longitudes -180 to 180.", "quantifier": "all worlds (any splitting of lines along the antimeridian that meets its contract), satellites, times, periods and validity patterns", "why_tests_cant": "The sign arithmetic that moves split pieces back over the antimeridian depends on where each run crosses; tests sample a few tracks.", "anchors": ["src/tatc/analysis/track.py: compute_ground_track"]}
{"id": "C138", "title": "Saving and loading restores an object", "statement": "An orbit, instrument, satellite, constellation, ground station or architecture that was constructed, saved with model_dump_json and loaded with model_validate_json of its class is equal to the original. This holds exactly when every part of the object is of a class its field is annotated with; it fails for a pointed instrument in a satellite (loaded back as an instrument without pointing or field of view), for a Keplerian orbit in a MOG or SOC constellation and for a SOC constellation in an architecture (not loadable). Whatever was itself loaded from a file is always restored.", "quantifier": "every object that any sequence of constructor calls can build, every description", "why_tests_cant": "The objects nest without bound in lists of members and instruments, and the failing combinations of classes are not the ones tests save and load.", "anchors": ["src/tatc/schemas/satellite.py:SpaceSystem", "src/tatc/schemas/architecture.py:Architecture", "src/tatc/schemas/instrument.py:PointedInstrument", "src/tatc/schemas/satellite.py:MOGConstellation"]}
{"id": "C139", "title": "Every orbit can be flown", "statement": "A space system can be constructed with any orbit the package provides, and carries that very orbit. Satellites and train constellations take exactly two-line elements, circular, Sun-synchronous and Keplerian orbits, MOG and SOC constellations exactly circular and Keplerian orbits; no space system takes a Molniya or Tundra orbit.", "quantifier": "every space system, all constructor arguments, every orbit", "why_tests_cant": "Whether an orbit is taken depends on the annotations of five classes and on subclassing, for all other arguments.", "anchors": ["src/tatc/schemas/satellite.py:SpaceSystem", "src/tatc/schemas/orbit.py:MolniyaOrbit", "src/tatc/schemas/orbit.py:TundraOrbit"]}
{"id": "C140", "title": "Loading a satellite keeps its instruments as described", "statement": "When a satellite or constellation is loaded from a file, an instrument described with a field of view and roll or pitch angles keeps them. False: instruments loaded with a space system are always plain instruments and every entry that is not a declared field is ignored without an error.", "quantifier": "every description of a space system", "why_tests_cant": "The loss is silent: the description is accepted and the other fields are right.", "anchors": ["src/tatc/schemas/satellite.py:SpaceSystem", "src/tatc/schemas/instrument.py:Instrument", "src/tatc/schemas/instrument.py:PointedInstrument"]}
{"id": "C141", "title": "A description with a type loads as that type", "statement": "If a description of an orbit (in a space system) or of a member (in an architecture) has a type entry, then the loaded orbit or member is of the class with that type and is what that class makes of the description, whichever alternatives would also fit; instances given as members are kept unchanged and in order.", "quantifier": "every description, any number of members, whatever alternative the validator prefers among those that fit", "why_tests_cant": "The alternatives of the unions accept overlapping descriptions, e.g. circular and Keplerian, and the preference is the validator's.", "anchors": ["src/tatc/schemas/satellite.py:SpaceSystem", "src/tatc/schemas/architecture.py:Architecture"]}
{"id": "C142", "title": "Every space system can be part of an architecture file", "statement": "An architecture whose members are described with their types loads if and only if each description is accepted by the class with that type. This holds for satellites, train, Walker and MOG constellations; any architecture with a description of a SOC constellation is rejected.", "quantifier": "every list of described members", "why_tests_cant": "Each constellation type is tested alone; the union of the architecture leaves one out.", "anchors": ["src/tatc/schemas/architecture.py:Architecture", "src/tatc/schemas/satellite.py:SOCConstellation"]}
{"id": "C143", "title": "Projected positions are WGS 84 coordinates of what is seen", "statement": "The longitudes, latitudes and elevations of footprint centres, pixels, footprint outlines and limbs are the geodetic WGS 84 coordinates, in the usual ranges, of the points where the lines of sight meet the ellipsoid (or of the horizon where they do not). The centre of an unpointed instrument is on the line straight down to the centre of the Earth, and the k-th of n limb vertices is at the fraction k/(n-1) of the way around the limb ellipse.", "quantifier": "every satellite above the ellipsoid moving horizontally, every elevation above the centre of the Earth, every attitude, field of view, number of points and pixel", "why_tests_cant": "Geodetic and geocentric latitudes, or two flattenings, agree at the equator and the poles and differ by less than a fifth of a degree elsewhere.", "anchors": ["src/tatc/utils.py:compute_projected_ray_position", "src/tatc/utils.py:compute_limb", "src/tatc/utils.py:compute_footprint", "src/tatc/schemas/instrument.py:PointedInstrument.compute_footprint_pixel_array"]}
{"id": "C144", "title": "Projected positions have the requested elevation", "statement": "The elevation of a footprint centre or a pixel position differs from the requested elevation by at most one part in 297 (and 10 nanometres), whatever the latitude.", "quantifier": "every satellite, attitude, pixel and elevation above the centre of the Earth", "why_tests_cant": "The code enlarges both radii by the elevation, which is not a surface of constant elevation; the error depends on the latitude and tests compare with loose tolerances at single places.", "anchors": ["src/tatc/utils.py:compute_projected_ray_position", "src/tatc/schemas/instrument.py:PointedInstrument.compute_projected_pixel_position"]}
{"id": "C145", "title": "The swath width and minimum elevation angle of an instrument agree with its field of regard", "statement": "For an instrument with a valid field of regard and a positive observation height, a visible ground point lies within half of get_swath_width(height) of the sub-satellite point exactly when it is seen within half the field of regard from nadir, and exactly when the satellite stands at or above get_min_elevation_angle(height) there.", "quantifier": "every valid field of regard, every positive height, every visible ground point", "why_tests_cant": "Both methods pass through clipped inverse sines and cosines; the agreement must hold for every height and distance, and wide fields of regard take a different branch.", "anchors": ["src/tatc/schemas/instrument.py: Instrument.get_swath_width, Instrument.get_min_elevation_angle", "src/tatc/utils.py: field_of_regard_to_swath_width, compute_min_elevation_angle"]}
{"id": "C146", "title": "The columns of a result do not depend on whether there is anything to report", "statement": "Every analysis function returns a data frame with the same documented columns (including those asked for by options), whether the result has rows or not.", "quantifier": "every analysis function, every choice of options, every number of rows at every step", "why_tests_cant": "Empty results are built by separate functions with their own list of columns; which of the two code paths is taken depends on the satellite, the mask and the times.", "anchors": ["src/tatc/analysis/coverage.py: collect_observations, collect_multi_observations, aggregate_observations, reduce_observations, grid_observations, _get_empty_coverage_frame, _get_empty_aggregate_frame, _get_empty_reduce_frame", "src/tatc/analysis/latency.py: collect_downlinks, compute_latencies, reduce_latencies, grid_latencies, _get_empty_downlinks_frame, _get_empty_latency_frame, _get_empty_reduce_frame", "src/tatc/analysis/ro_coverage.py: collect_ro_observations, _get_empty_ro_frame", "src/tatc/analysis/track.py: collect_orbit_track, collect_ground_track, compute_ground_track, collect_ground_pixels, _get_empty_orbit_track, _get_empty_ground_track"]}
{"id": "C147", "title": "Analysis results can be passed on to the next step", "statement": "The coverage chain (collect, aggregate, concatenate over points, reduce, grid) and the latency chain (collect observations and downlinks, compute latencies, reduce, grid) never fail for a missing column, whatever intermediate results are empty, and end with the documented columns.", "quantifier": "every number of points, satellites, instruments, observations, downlinks and cells, every choice of options", "why_tests_cant": "Whether a column exists depends on which intermediate frames are empty; the combinations are unbounded.", "anchors": ["src/tatc/analysis/coverage.py: collect_multi_observations, aggregate_observations, reduce_observations, grid_observations", "src/tatc/analysis/latency.py: collect_downlinks, compute_latencies, reduce_latencies, grid_latencies"]}
{"id": "C148", "title": "Generated points can be used as points of an analysis", "statement": "Every point produced by the point generators (equally spaced or Fibonacci, with or without a mask) has a non-negative identifier, a latitude within 90 degrees and a longitude within 180 degrees, so that the Point schema accepts it.", "quantifier": "every sample distance, every mask, every generated point, any clipping oracle meeting its contract", "why_tests_cant": "The identifiers and coordinates come from rounding and modular arithmetic on arbitrary distances and arbitrary mask bounds; tests use a few distances and masks.", "anchors": ["src/tatc/generation/points.py:generate_fibonacci_lattice_points", "src/tatc/generation/points.py:generate_equally_spaced_points", "src/tatc/schemas/point.py:Point"]}
{"id": "C149", "title": "Which constructor arguments are accepted, and what they become", "statement": "An orbit, instrument, station, satellite, constellation or architecture is built only when every required argument is given; the object built has exactly the documented attributes, each equal to the converted argument or its default; the order of arguments does not matter; a Walker constellation violating its validators is never built.", "quantifier": "every class, every list of arguments, every field conversion and default", "why_tests_cant": "Arguments combine freely: which are given, in which order, with which types. Tests construct a few objects per class.", "anchors": ["src/tatc/schemas/orbit.py: TwoLineElements, CircularOrbit, SunSynchronousOrbit, KeplerianOrbit, MolniyaOrbit, TundraOrbit", "src/tatc/schemas/instrument.py: Instrument", "src/tatc/schemas/satellite.py: Satellite, TrainConstellation, WalkerConstellation, SOCConstellation", "src/tatc/schemas/architecture.py: Architecture", "src/tatc/schemas/point.py: GroundStation"]}
{"id": "C150", "title": "Accepted orbits give usable element sets", "statement": "Every orbit that the schema accepts is converted into the elements of a closed orbit: eccentricity below one, inclination within 0-180 degrees, the other angles within one turn, and a positive mean motion. The mean anomaly grows with the true anomaly and is in the same half of the orbit.", "quantifier": "all accepted circular, sun-synchronous, Keplerian, Molniya and Tundra orbits", "why_tests_cant": "The conversion of anomalies is a truncated series whose monotonicity and range depend on every eccentricity and angle; a few sampled orbits cannot show where it stops being valid.", "anchors": ["src/tatc/utils.py:true_anomaly_to_mean_anomaly", "src/tatc/schemas/orbit.py:KeplerianOrbit.to_tle", "src/tatc/schemas/orbit.py:CircularOrbit.to_tle", "src/tatc/schemas/orbit.py:SunSynchronousOrbit.to_tle", "src/tatc/schemas/orbit.py:MolniyaOrbit.to_tle"]}
{"id": "C151", "title": "Converting an orbit to two-line elements preserves the orbit", "statement": "The two-line elements returned by to_tle are valid and read back as the orbit they came from: inclination, node, perigee, mean anomaly, eccentricity, mean motion and epoch agree to the last printed digit, and for circular orbits the true anomaly agrees to 1e-4 degrees and the altitude to one metre.", "quantifier": "all orbits of every class within the stated ranges, all cache settings, every exporter and epoch reader meeting their contracts", "why_tests_cant": "It composes the anomaly series, the unit conversions, a fixed-column text format and a parser; agreement to the last digit must hold for every orbit.", "anchors": ["src/tatc/schemas/orbit.py:KeplerianOrbit.to_tle", "src/tatc/schemas/orbit.py:CircularOrbit.to_tle", "src/tatc/schemas/orbit.py:SunSynchronousOrbit.to_tle", "src/tatc/schemas/orbit.py:MolniyaOrbit.to_tle", "src/tatc/schemas/orbit.py:TwoLineElements"]}
{"id": "C152", "title": "Derived two-line elements change only the anomaly and the node", "statement": "Deriving two-line elements by a change of mean anomaly and of node gives valid two-line elements with as many entries, each of which reads as the original entry with the anomaly and node changed (modulo a turn) and every other number and the epoch unchanged to the last digit.", "quantifier": "all valid lists of two-line elements within the stated ranges, all changes, every reader and exporter meeting their contracts", "why_tests_cant": "It must hold for lists of any length and every set of printed elements.", "anchors": ["src/tatc/schemas/orbit.py:TwoLineElements.get_derived_orbit"]}
{"id": "C153", "title": "More observations never mean less coverage", "statement": "Adding observations (or satellites) to a coverage analysis never loses covered time of a point, never lowers the total access time of the point, and every gap between records inside the original observation span is contained in an original gap; one expects the reported (mean) revisit not to grow either.", "quantifier": "every two sets of observations of which one contains the other, every point, every order of rows and every sort used", "why_tests_cant": "It is a relation between two runs over arbitrary sets of overlapping intervals; the failure of the mean needs a particular configuration of gaps.", "anchors": ["src/tatc/analysis/coverage.py:aggregate_observations", "src/tatc/analysis/coverage.py:reduce_observations", "src/tatc/analysis/coverage.py:collect_multi_observations"]}
{"id": "C154", "title": "More ground stations never delay a downlink", "statement": "Adding ground stations (downlink opportunities) never leaves an observation without a downlink it had, never makes the chosen contact start later, and one expects its latency not to grow.", "quantifier": "every observation frame, every two sets of stations or downlinks of which one contains the other, all sorts", "why_tests_cant": "A relation between two runs for all station sets; overlapping passes of different lengths are rarely tested.", "anchors": ["src/tatc/analysis/latency.py:collect_downlinks", "src/tatc/analysis/latency.py:compute_latencies"]}
{"id": "C155", "title": "Stricter instrument requirements only remove observations", "statement": "Raising the minimum access time, adding illumination constraints or restricting the footprint removes observations from the result and changes none that stay; one expects the total access time not to grow.", "quantifier": "every list of visible periods, every pair of requirements of which one implies the other", "why_tests_cant": "A relation between two runs over all period lists and constraint functions.", "anchors": ["src/tatc/analysis/coverage.py:collect_observations"]}
{"id": "C156", "title": "Analysing a period in two parts finds the same visibility", "statement": "Splitting the analysis period at any instant and analysing both parts reports the same visible instants as analysing the whole.", "quantifier": "every window, split instant and physically consistent event sequence", "why_tests_cant": "Needs all split points and event sequences; the failing splits leave one part without events.", "anchors": ["src/tatc/analysis/coverage.py:_get_visible_interval_series"]}
{"id": "C157", "title": "Results do not depend on the time origin", "statement": "If every event, period and observation happens a given duration later, all reported periods, observations and aggregated records are later by that duration and all access and revisit times are unchanged.", "quantifier": "every duration, window, event list, observation frame and sort", "why_tests_cant": "This is an equivariance over all inputs and all shifts; a test compares one input with one shift.", "anchors": ["src/tatc/analysis/coverage.py:_get_visible_interval_series", "src/tatc/analysis/coverage.py:collect_observations", "src/tatc/analysis/coverage.py:aggregate_observations"]}
{"id": "C158", "title": "Generated grid points are accepted by the Point schema (binary64)", "statement": "Every equally spaced point that the generator returns for a distance has a longitude in [-180, 180] and a latitude in [-90, 90], so that a Point can be built from it, when the computation is carried out in binary64 arithmetic as the library does.", "quantifier": "all binary64 distances from one metre to 28,000 km and all points generated for them without a mask", "why_tests_cant": "The violation needs a distance whose machine quotient 360/step is exactly half way between two integers; random distances in tests practically never hit it.", "anchors": ["src/tatc/generation/points.py:generate_equally_spaced_points", "src/tatc/generation/points.py:_generate_equally_spaced_points", "src/tatc/generation/points.py:_generate_equally_spaced_indices", "src/tatc/schemas/point.py:Point"]}
{"id": "C159", "title": "Generated grid points have distinct identifiers (binary64)", "statement": "No two equally spaced points generated for one distance share an identifier, when the computation is carried out in binary64 arithmetic as the library does.", "quantifier": "all binary64 distances from one metre to 28,000 km", "why_tests_cant": "Whether identifiers collide depends on rounding of 360/step for every distance; distances that divide the equator evenly in exact arithmetic collide or not depending on the last bit.", "anchors": ["src/tatc/generation/points.py:_compute_equally_spaced_point_id", "src/tatc/generation/points.py:_generate_equally_spaced_indices", "src/tatc/generation/points.py:generate_equally_spaced_points"]}
{"id": "C160", "title": "A coverage analysis depends only on what was covered and when", "statement": "Merging a table of observations per point and reducing the merged table gives a result that depends only on which instants each point is covered: two tables with the same covered time at every point (other satellites, other splits of the same pass, other row order, another tie-breaking of the sort) give the same reduced table. Gridding the reduced table either succeeds or raises KeyError, exactly when the labels of the cells in use are not positions of the reduced table, and cells that partition the points count every merged observation exactly once.", "quantifier": "every table of observations with start before end, every row order and tie-breaking of the sort, every list of cells with distinct ids and every containment relation", "why_tests_cant": "The claim compares whole runs of three functions on pairs of tables that may differ in every row; a test compares a few pairs.", "anchors": ["tatc/analysis/coverage.py:aggregate_observations", "tatc/analysis/coverage.py:reduce_observations", "tatc/analysis/coverage.py:grid_observations"]}
{"id": "C161", "title": "A latency analysis does not depend on row order", "statement": "Computing latencies from observations and downlinks and reducing them by point gives the same table whatever the order of the rows of either table and whatever the tie-breaking of the sorts, with one row per observed point that counts its observations; gridding that table either succeeds or raises KeyError, exactly when the labels of the cells in use are not positions of the reduced table.", "quantifier": "every table of observations, every non-empty table of downlinks, every row order and tie-breaking, every list of cells with distinct ids", "why_tests_cant": "It quantifies over all permutations of two tables and all ways an unstable sort may break ties.", "anchors": ["tatc/analysis/latency.py:compute_latencies", "tatc/analysis/latency.py:reduce_latencies", "tatc/analysis/latency.py:grid_latencies"]}
{"id": "C162", "title": "Sample counts rest on the true surface of the WGS 84 ellipsoid", "statement": "The surface area constant is the area of the ellipsoid with the library's equatorial radius and flattening (the integral of its rings from pole to pole) within one square metre, the polar radius agrees with the flattening within a nanometre, the eccentricity with both, and the sphere of mean radius is larger than the ellipsoid by less than a millionth; so the number of samples for a distance is the number of spherical caps that fit the true surface, and a lattice asked for with the whole circumference is empty.", "quantifier": "every sample distance up to the circumference; every height on the ellipsoid", "why_tests_cant": "The area is an integral and the count a function of a real distance; a test compares a few rounded numbers.", "anchors": ["tatc/constants.py:EARTH_SURFACE_AREA", "tatc/constants.py:EARTH_ECCENTRICITY", "tatc/utils.py:compute_number_samples", "tatc/generation/points.py:generate_fibonacci_lattice_points"]}
{"id": "C163", "title": "The two-line elements of constellation members show the pattern", "statement": "Every member of a Walker constellation or train with a valid circular, Sun-synchronous or Keplerian lead orbit converts to one pair of lines whose inclination, node, mean anomaly, eccentricity, mean motion and epoch read back as the lead orbit's, with the node and anomaly of the member's plane and slot; so the lines of any two members of a circular Walker constellation are apart by what the pattern says, to a ten-thousandth of a degree.", "quantifier": "every lead orbit in the stated ranges, every number of satellites, planes and relative spacing, every member and pair of members, any printer and epoch reader that meet their contracts", "why_tests_cant": "It composes generation, derivation, conversion, printing and reading for unbounded constellations.", "anchors": ["tatc/schemas/satellite.py:WalkerConstellation.generate_members", "tatc/schemas/satellite.py:TrainConstellation.generate_members", "tatc/schemas/orbit.py:CircularOrbit.to_tle", "tatc/schemas/orbit.py:TwoLineElements"]}
{"id": "C164", "title": "Cells generated with a mask", "statement": "Every cell generated with a mask is convex, lies within its own grid square (or strip), contains the part of the mask in that square, never overlaps another generated cell, and stays within the mask.", "quantifier": "every grid step, every valid polygon mask, every strip option, every generated cell and every point of the plane", "why_tests_cant": "the cells depend on the shape of the mask in every square, and a convex hull is taken after clipping; tests look at a few masks", "anchors": ["src/tatc/generation/cells.py:_generate_equally_spaced_cells", "src/tatc/generation/points.py:_get_bounds"]}
{"id": "C165", "title": "A polygon over a pole comes back in bounds", "statement": "For a polygon or multi-polygon with longitudes in [-180,180] whose latitudes run past a pole, split_polygon's pole step returns a shape, and every part of it has longitudes in [-180,180] and no latitude past that pole; the only exception is a part whose copy within bounds shapely calls invalid, which is returned as it was.", "quantifier": "every polygon and multi-polygon in the stated box, every behaviour of shapely's split, crosses, equals and is_valid that meets the stated contracts", "why_tests_cant": "Depends on which side of the pole and of the prime meridian every vertex of every part falls, after cuts whose results depend on the input; tests try a few squares.", "anchors": ["src/tatc/utils.py:_split_polygon_north_pole", "src/tatc/utils.py:_split_polygon_south_pole", "src/tatc/utils.py:_wrap_polygon_over_north_pole", "src/tatc/utils.py:_wrap_polygon_over_south_pole"]}
{"id": "C166", "title": "Reported coverage is exactly the time in view", "statement": "Collecting observations of any constellations over any points, putting them together and aggregating them reports, for every point and every instant inside the period, coverage if and only if some instrument of some member had the point in view at that instant (with access requirements: if and only if the instant lies in a pass that meets them). The reduced means account for all the time from the first to the last observation of a point: samples*access + (samples-1)*revisit.", "quantifier": "all lists of constellations, members, instruments and points, every physically consistent event history of every pair, all instants, all sorts", "why_tests_cant": "A statement about the composition of collection, merging, aggregation and reduction for every history of rises and sets; tests follow single satellites.", "anchors": ["src/tatc/analysis/coverage.py:collect_observations", "src/tatc/analysis/coverage.py:collect_multi_observations", "src/tatc/analysis/coverage.py:aggregate_observations", "src/tatc/analysis/coverage.py:reduce_observations"]}
{"id": "C167", "title": "Observations are downlinked at the first opportunity", "statement": "The latency reported for an observation is the time until the satellite is first in view of one of the stations after the observation.", "quantifier": "all satellites, stations and observations, every physically consistent event history", "why_tests_cant": "Depends on the order of rises, sets and ends of observations for all histories.", "anchors": ["src/tatc/analysis/latency.py:collect_downlinks", "src/tatc/analysis/latency.py:compute_latencies"]}
{"id": "C168", "title": "Yaw and pitch of an occultation ray point towards the transmitter", "statement": "The yaw and pitch reported for a radio-occultation sample are the horizontal and vertical angles, seen from the receiver's own axes (forward along its velocity, up away from the Earth), of the direction to the transmitter: a transmitter straight ahead has both zero, one to the left has positive yaw, one above has positive pitch.", "quantifier": "all receiver positions and velocities and all transmitter positions in general position", "why_tests_cant": "The angles are compositions of projections and signed arc cosines; a test compares a few directions, and a sign that flips only for climbing receivers or for one side of the track is not seen.", "anchors": ["src/tatc/analysis/ro_coverage.py: collect_ro_observations"]}
{"id": "C169", "title": "Clock angle of an instrument pixel", "statement": "The cone and clock angles of a pixel of an instrument locate the direction of the pixel: the clock angle is the direction, in degrees, of the pixel around the boresight.", "quantifier": "all pixel positions and fields of view with a non-zero displacement", "why_tests_cant": "Units and quadrants are wrong for whole regions of inputs at once, while a test at the zero angle cannot tell degrees from radians.", "anchors": ["src/tatc/schemas/instrument.py: Instrument.get_pixel_cone_and_clock_angle"]}
{"id": "C170", "title": "Every point of a Fibonacci lattice is an acceptable point", "statement": "In binary64 arithmetic, every longitude and latitude generated for a Fibonacci lattice lies in the range that the point schema accepts, and no lattice point is at a pole.", "quantifier": "all lattice sizes up to 2^50 and every index of the lattice, for any correctly ranged arc sine", "why_tests_cant": "Rounding at the wrap of longitude at 180 degrees or at the argument of the arc sine can leave the range at a single index of a single size out of billions.", "anchors": ["src/tatc/generation/points.py: generate_fibonacci_lattice_points", "src/tatc/schemas/point.py: Point"]}
{"id": "C171", "title": "Fibonacci longitudes follow the golden angle", "statement": "The binary64 longitude of the i-th point of a Fibonacci lattice differs from i golden angles modulo 360 degrees by at most i times 2^-44 degrees.", "quantifier": "all indices of all lattice sizes up to 2^44", "why_tests_cant": "The error grows with the index, so agreement on small lattices says nothing about large ones.", "anchors": ["src/tatc/generation/points.py: generate_fibonacci_lattice_points"]}
{"id": "C172", "title": "Results do not depend on the time zone of the times given", "statement": "The element set chosen for a time, the partition of a period, the propagated instants, the visible intervals and the observation events are determined by the instants of the datetimes given: the same instants in another time zone give the same result, and datetimes without a time zone are refused.", "quantifier": "all time zones (any offset as a function of the wall clock), datetimes, element sets, repeat cycles and event searches", "why_tests_cant": "Python subtracts datetimes of one zone by the wall clock; a test in UTC or in a zone without a change of the clock inside the period sees nothing.", "anchors": ["src/tatc/schemas/orbit.py: TwoLineElements.get_closest_tle_index, partition_by_tle_index, get_orbit_track, get_observation_events", "src/tatc/analysis/coverage.py: _get_visible_interval_series"]}
{"id": "C173", "title": "An accepted epoch can be used", "statement": "Every epoch that an orbit schema accepts can be converted to an element set, whose epoch is the instant of the given datetime whatever its time zone.", "quantifier": "all epochs: absent, without time zone, or in any time zone", "why_tests_cant": "The schema accepts an absent epoch and epochs without time zone, and tests use UTC epochs only.", "anchors": ["src/tatc/schemas/orbit.py: OrbitBase.epoch, KeplerianOrbit.to_tle, MolniyaOrbit"]}
{"id": "C174", "title": "Default epoch of an orbit", "statement": "An orbit constructed without an epoch has the time of its construction for epoch.", "quantifier": "all times of import and of construction", "why_tests_cant": "Inside one fast test the time of import and the time of construction are the same.", "anchors": ["src/tatc/schemas/orbit.py: OrbitBase.epoch"]}
{"id": "C175", "title": "Raising an orbit changes the viewing geometry in one direction", "statement": "With everything else fixed, raising the altitude (i) widens the swath seen with a given field of regard, (ii) lowers the minimum elevation angle reached with that field of regard, (iii) narrows the field of regard that reaches a given elevation or a given swath width, (iv) lengthens the longest access time, and (v) lowers the ground velocity.", "quantifier": "for all altitudes h < h' in the domain of the functions, all fields of regard, elevation angles and swath widths for which the lower and higher orbit see the ground", "why_tests_cant": "monotonicity ranges over a continuum of altitudes and angles; tests sample a few pairs", "anchors": ["src/tatc/utils.py:field_of_regard_to_swath_width", "src/tatc/utils.py:swath_width_to_field_of_regard", "src/tatc/utils.py:compute_min_elevation_angle", "src/tatc/utils.py:compute_field_of_regard", "src/tatc/utils.py:compute_max_access_time", "src/tatc/utils.py:compute_ground_velocity"]}
{"id": "C176", "title": "Float quotients of durations lose no cycle and no microsecond of an epoch", "statement": "The number of repeat cycles laid over a window is exactly the ceiling of the quotient of the durations although it is computed in binary64, and the day number handed to SGP4 for an epoch determines the epoch to the microsecond and increases with it, for 65536 days from 1950.", "quantifier": "for all windows and cycles below 2^53 microseconds, and all epochs from 1949-12-31 to 2129", "why_tests_cant": "a rounding error at one quotient in 10^15 would add or drop a whole cycle of events; tests cannot visit all quotients", "anchors": ["src/tatc/schemas/orbit.py:TwoLineElements.get_observation_events", "src/tatc/schemas/orbit.py:TwoLineElements.get_derived_orbit", "src/tatc/schemas/orbit.py:KeplerianOrbit.to_tle", "src/tatc/schemas/orbit.py:MolniyaOrbit.to_tle"]}
{"id": "C177", "title": "Mean durations of points survive the conversion to seconds and back", "statement": "reduce_observations and reduce_latencies convert durations to float seconds, average them and convert back: the reported mean is within a microsecond of the exact mean, and equal to it when the exact mean is a whole number of microseconds, in particular for a point observed once; this holds for any accurate summation, and recursive and compensated summation are accurate.", "quantifier": "for all non-empty lists of non-negative durations with at most 2^40 elements and 2^28 seconds in all, and all accurate summation algorithms", "why_tests_cant": "rounding errors depend on every value and the order of summation", "anchors": ["src/tatc/analysis/coverage.py:reduce_observations", "src/tatc/analysis/latency.py:reduce_latencies"]}
{"id": "C178", "title": "Weighted mean durations of cells survive the conversion to seconds and back", "statement": "grid_observations and grid_latencies average durations weighted by numbers of observations in float seconds: the result is within a microsecond of the exact weighted mean and equal to it when that is a whole number of microseconds; reducing and then gridding is within two microseconds of the mean over all observations of the cell.", "quantifier": "for all lists of durations and weights with bounded totals, all groupings of observations into points, and all accurate summation algorithms", "why_tests_cant": "rounding errors depend on every value, weight and the order of summation", "anchors": ["src/tatc/analysis/coverage.py:grid_observations", "src/tatc/analysis/latency.py:grid_latencies"]}
{"id": "C179", "title": "Viewing geometry is accurate in floating point", "statement": "Computed in double precision, the field of regard of a minimum elevation angle is within 0.0001 degrees of the exact one, the minimum elevation angle of a field of regard within 0.001 degrees, and the swath width within 20 m at and near the horizon and within 0.1 mm when the sine of the half angle stays below 99.9 percent of that of the horizon; none of them is ever NaN.", "quantifier": "for all double-precision altitudes up to 50000 km, elevations from -10 km to 100 km not above the altitude, elevation angles of 0 to 90 and fields of regard of 0 to 360 degrees, and all mathematical libraries whose sine, cosine and inverses are accurate to 2^-50", "why_tests_cant": "rounding near the horizon, where the inverse functions have infinite slope, depends on every bit of the arguments", "anchors": ["src/tatc/utils.py:compute_field_of_regard", "src/tatc/utils.py:compute_min_elevation_angle", "src/tatc/utils.py:field_of_regard_to_swath_width"]}
{"id": "C180", "title": "Orbit periods, access times and ground velocities are accurate in floating point", "statement": "Computed in double precision, the orbit period has a relative error of at most 2e-15; the period of an orbit object is within one microsecond of the exact rounded period and equal to it unless the exact period lies near the middle between two microseconds; the maximum access time is within 10 ns and the ground velocity within 1e-8 m/s of the exact formula.", "quantifier": "for all double-precision altitudes from -10 km to 50000 km, elevation angles of 0 to 90 degrees and inclinations of 0 to 180 degrees, and all accurate cosines", "why_tests_cant": "the rounding errors of seven operations depend on every bit of the altitude", "anchors": ["src/tatc/utils.py:compute_orbit_period", "src/tatc/utils.py:compute_max_access_time", "src/tatc/utils.py:compute_ground_velocity", "src/tatc/schemas/orbit.py:OrbitBase.get_orbit_period"]}
{"id": "C181", "title": "Every positive sample distance gives a sample count", "statement": "The number of global samples of a positive distance exists in double precision and agrees with the exact ratio of areas up to rounding. (False for short distances: with any correctly rounded cosine a distance of up to 9 cm divides by zero. From 1 km to 6000 km the count is within ten parts per million, plus two, of the exact count.)", "quantifier": "for all double-precision distances and all accurate cosines", "why_tests_cant": "the cancellation in one minus cosine depends on the distance; no finite set of distances shows where it becomes total", "anchors": ["src/tatc/utils.py:compute_number_samples", "src/tatc/generation/points.py:generate_fibonacci_lattice_points"]}
{"id": "C182", "title": "A wider swath never needs more satellites in a streets-of-coverage constellation", "statement": "Sizing a streets-of-coverage constellation with a wider swath, the packing distance and orbit being equal, never gives more planes, more satellites in a plane or more satellites; swaths that end beyond the visible horizon are not silently folded back to a narrower footprint.", "quantifier": "all valid streets-of-coverage constellations (any name, circular orbit above the ground, instruments, positive swath width and packing distance), and all pairs of them", "why_tests_cant": "The sizes go through arcsines, arctangents and ceilings; the folding back begins at the horizon, whose position depends on the altitude, and the exceptions lie at multiples of the circumference.", "anchors": ["src/tatc/schemas/satellite.py: SOCConstellation.generate_walker", "src/tatc/utils.py: swath_width_to_field_of_regard, compute_min_elevation_angle"]}
{"id": "C183", "title": "Analysis functions leave the data frames they are given alone", "statement": "Aggregating, reducing and gridding observations, computing, reducing and gridding latencies, and normalizing geometries return a frame of their own, with contents that depend only on the contents of the arguments, and change none of the frames that exist, also when they raise; so that frames can be reused, edited and analysed again in any order.", "quantifier": "all contents of the frames, all results and exceptions of the pandas operations, and all sequences of calls and of edits by the user", "why_tests_cant": "Shared objects show only in particular sequences of calls and edits; the sequences are unbounded.", "anchors": ["src/tatc/analysis/coverage.py: aggregate_observations, reduce_observations, grid_observations", "src/tatc/analysis/latency.py: compute_latencies, reduce_latencies, grid_latencies", "src/tatc/utils.py: normalize_geometry"]}
{"id": "C184", "title": "The epoch of merged observations is the mean of their epochs", "statement": "Merging overlapping observations reports as epoch the mean of the epochs of the merged observations; the epoch of an observation that is merged with no other is kept.", "quantifier": "all lists of epochs in nanoseconds from 1970 to 2043, of any length up to 2^20, and all accurate floating-point summations", "why_tests_cant": "The timestamps exceed the 53 bits of a float, so that the outcome depends on the last digits of each timestamp and on the order of summation.", "anchors": ["src/tatc/analysis/coverage.py: aggregate_observations"]}
{"id": "C185", "title": "A mask means the same area however it is given", "statement": "collect_ground_track and collect_ground_pixels report the same rows whether the mask is a Polygon or MultiPolygon, a GeoDataFrame or a GeoSeries, and however the same area is divided into rows; collect_orbit_track likewise. (A GeoSeries with several geometries is culled against its first geometry only and loses rows; an orbit track with a divided mask loses samples above an inner border; a mask without geometries makes the ground functions raise IndexError when there are two or more times.)", "quantifier": "all satellites, instruments, times, elevations and footprint sources, all mask geometries and all ways of dividing them into rows", "why_tests_cant": "A test compares a few masks; that no division of an area into rows and no container type changes the result is a statement about all masks and all footprints.", "anchors": ["src/tatc/analysis/track.py: collect_orbit_track, collect_ground_track, collect_ground_pixels", "src/tatc/utils.py: buffer_target"]}
{"id": "C186", "title": "Altitude and azimuth columns describe the row they stand in", "statement": "With sat_altaz or solar_altaz, collect_ground_track and collect_ground_pixels return the same rows as without, with the additional columns; each row's columns are the altitude and azimuth of the satellite and of the sun at the row's own time, seen from the center of the row's footprint or from the row's own pixel, also after clipping to a mask. (The pixel columns are looked up by the time rounded to milliseconds: two samples within the same millisecond share the satellite position of the first.)", "quantifier": "all satellites, instruments, times, elevations, footprint sources, masks and orders in which clipping returns rows", "why_tests_cant": "Columns are assigned by position and looked up by time; that no combination of culling, repeated times, clipping and reordering pairs a row with another row's angles is a statement about all inputs.", "anchors": ["src/tatc/analysis/track.py: collect_ground_track, collect_ground_pixels"]}
{"id": "C187", "title": "Members of constellations can be changed independently", "statement": "The satellites that generate_members of a train, Walker, mutual orbiting group or streets-of-coverage constellation returns are new objects with new orbit and instrument objects: they carry the derived orbits and, in order, equal instruments (an instrument that the constellation lists twice is one object in each member as well); making them changes no existing object; and whatever a program does afterwards to some members, or to the constellation and anything else that existed before, has no effect on the orbit, instruments and other fields of another member, and whatever it does to members has no effect on the constellation or on anything else that existed before. The Walker constellation that generate_walker returns for streets of coverage has its own fields and its own list of instruments, but shares the orbit and the instrument objects, and the only member of a satellite is the satellite itself.", "quantifier": "every heap without dangling references, every constellation in it with any fields, orbit and list of instruments (shared or repeated), any member and any set of other objects, any sequence of creations and changes of objects that those give access to", "why_tests_cant": "Sharing of mutable objects shows only when a later change of one object is seen through another; tests compare values right after construction and try no sequences of later changes.", "anchors": ["src/tatc/schemas/satellite.py: Satellite.generate_members", "src/tatc/schemas/satellite.py: TrainConstellation.generate_members", "src/tatc/schemas/satellite.py: WalkerConstellation.generate_members", "src/tatc/schemas/satellite.py: MOGConstellation.generate_members", "src/tatc/schemas/satellite.py: SOCConstellation.generate_walker", "src/tatc/schemas/satellite.py: SOCConstellation.generate_members", "src/tatc/schemas/orbit.py: get_derived_orbit"]}
{"id": "C188", "title": "The conditions reported with an observation are those of its epoch and meet the instrument's requirements", "statement": "Every row of collect_observations reports satellite altitude and azimuth, and unless omit_solar the satellite's sunlit state, the sun's altitude and azimuth and the local solar time, at the row's own epoch, with the satellite where get_orbit_track has it at that time alone; where the instrument requires a sunlit or eclipsed satellite or target, the reported sunlit state and the sign of the reported solar altitude agree with the requirement, and for pointed instruments the footprint at the epoch contains the point. omit_solar leaves the solar columns out and changes nothing else. collect_multi_observations returns exactly these rows for every member and instrument, sorted by start.", "quantifier": "every orbit (any number of element sets, with or without repeat cycles), window, event list, instrument, requirements, lists of constellations, and any answers of skyfield and shapely", "why_tests_cant": "The check of the requirements uses one time at a time and the columns use all epochs at once and are assigned by position; that the two agree in every row is a statement about all numbers of rows and all orbits.", "anchors": ["src/tatc/analysis/coverage.py: collect_observations", "src/tatc/analysis/coverage.py: collect_multi_observations", "src/tatc/schemas/instrument.py: is_valid_observation", "src/tatc/schemas/orbit.py: get_orbit_track"]}
{"id": "C189", "title": "Satellites are reported at or above the required elevation", "statement": "If the events found for an element set tell when the satellite is at or above the minimum elevation of the instrument's field of regard, every row of collect_observations reports a satellite altitude angle of at least that elevation. (True with one element set and no repeat cycle, and with a repeat cycle used for both events and tracks if altitudes do repeat with it. False with several element sets, where the events of a segment come from another element set than the track; and false with a repeat cycle used for events but not for tracks.)", "quantifier": "every orbit, window, event list, elevation and instrument, and all altitudes of the satellite over time that the events describe", "why_tests_cant": "The epoch of a row is the middle of a pass, which has to lie where the events have the satellite in view for every pass, including the cut ones at both ends; the failures need passes near the change of element sets.", "anchors": ["src/tatc/analysis/coverage.py: collect_observations, _get_visible_interval_series", "src/tatc/schemas/orbit.py: get_observation_events, get_orbit_track, partition_by_tle_index"]}
{"id": "C190", "title": "Generating the members of a mutual orbiting group ends", "statement": "MOGConstellation.generate_members returns (or raises) after finitely many steps for every group the schema accepts, computing in binary64: the fixed-point iteration for the eccentric anomaly stops within its tolerance, close to the solution of Kepler's equation.", "quantifier": "all mutual orbiting groups accepted by the schema, all numbers of iterations, all libm implementations within the stated error", "why_tests_cant": "termination of an iteration in floating point is a statement about every step count; a test that does not end tells nothing about other axes, and one that ends nothing about the next", "anchors": ["src/tatc/schemas/satellite.py:MOGConstellation.generate_members"]}
{"id": "C191", "title": "Members of mutual orbiting groups are accepted and accurate in floating point", "statement": "For a group on ellipses generate_members returns number_satellites members; each passes the bounds of the Keplerian schema (angles from 0 up to but not including 360 degrees) in binary64, has the altitude of the group, the eccentricity parallel_axis / (4 distance) within 1e-13 and the inclination given by the spherical cosine law within 1e-4 degrees.", "quantifier": "all groups up to a million members with tilts between 1e-5 and 3 radians and members not inclined within 0.01 degrees of 0 or 180, all libm implementations and orders of summation within the stated errors", "why_tests_cant": "rounding can push a wrapped angle to exactly 360 or an arc cosine out of range for particular inputs only; a test samples a few", "anchors": ["src/tatc/schemas/satellite.py:MOGConstellation.generate_members", "src/tatc/schemas/orbit.py:KeplerianOrbit"]}
{"id": "C192", "title": "Anomaly conversions are accurate in floating point", "statement": "mean_anomaly_to_true_anomaly and true_anomaly_to_mean_anomaly return finite angles within 2e-11 degrees of the documented series, for every angle of a turn and every eccentricity from 0 to 1, in spite of the rounding of each operation.", "quantifier": "every binary64 angle from 0 to 360 degrees, every binary64 eccentricity from 0 to 1, and every mathematics library with an absolute error of at most 2^-50", "why_tests_cant": "Some 2^62 pairs of floats and the mathematics libraries of all platforms; tests compare a few values with a tolerance.", "anchors": ["src/tatc/utils.py:mean_anomaly_to_true_anomaly", "src/tatc/utils.py:true_anomaly_to_mean_anomaly"]}
{"id": "C193", "title": "Anomalies of derived orbits are accepted in floating point", "statement": "The true anomaly that get_derived_orbit computes from a valid one is accepted by the field's constraint (at least 0, below 360) and is the moved anomaly up to rounding and whole turns, so that every member of a Walker or train constellation can be generated.", "quantifier": "every valid true anomaly, every change of mean anomaly, every eccentricity, every Walker constellation up to 2^20 satellites, and every mathematics library within the contract", "why_tests_cant": "The remainder of a tiny negative sum rounds to 360.0, which is refused; only particular floats show it.", "anchors": ["src/tatc/schemas/orbit.py:CircularOrbit.get_derived_orbit", "src/tatc/schemas/orbit.py:SunSynchronousOrbit.get_derived_orbit", "src/tatc/schemas/orbit.py:KeplerianOrbit.get_derived_orbit", "src/tatc/schemas/satellite.py:WalkerConstellation.generate_members", "src/tatc/schemas/satellite.py:TrainConstellation.generate_members"]}
{"id": "C194", "title": "Along-track distances and access times convert back in floating point", "statement": "along_track_distance_to_access_time followed by access_time_to_along_track_distance (and the other way round) returns the same number to 3e-16 of its size; the time is the distance over the ground velocity to 1e-7, and a longer distance never takes less time.", "quantifier": "every binary64 altitude from -10 km to 50000 km and inclination from 0 to 180 degrees with a ground velocity of at least 1 m/s, every distance or time of 1e-3 to 1e9 in either direction, and every mathematics library with an absolute error of at most 2^-50", "why_tests_cant": "The velocity is recomputed and rounded in each function; whether the two cancel has to be shown for all floats.", "anchors": ["src/tatc/utils.py:along_track_distance_to_access_time", "src/tatc/utils.py:access_time_to_along_track_distance"]}
{"id": "C195", "title": "Dilution of precision is that of the place and time", "statement": "Every row of compute_dop has the dilution of precision of the satellites as seen from the given point, at its own elevation, at the time of the row, each satellite propagated from its element set nearest to that time.", "quantifier": "All points (latitude, longitude, elevation), all lists of times, all satellites with any number of element sets, all thresholds and methods, and whatever skyfield computes for an element set, place and time.", "why_tests_cant": "The place and the element set enter through calls to a library with default arguments; tests with points at sea level and one element set cannot tell whether they are the right ones.", "anchors": ["src/tatc/analysis/dop.py:compute_dop", "src/tatc/schemas/point.py:Point.elevation", "src/tatc/schemas/orbit.py:TwoLineElements.tle"]}
{"id": "C196", "title": "Fibonacci latitudes divide the sphere evenly in floating point", "statement": "In binary64 the points of a Fibonacci lattice come strictly from south to north, no two at the same place, and the sine of each latitude is within 1e-14 of its rung of an even ladder, so that equal areas lie between neighbouring circles of latitude.", "quantifier": "All numbers of samples (up to 10^13 for the order, 2^50 for the areas), all indices, and every arc sine with an absolute error of at most 2^-50 on [-1, 1].", "why_tests_cant": "Neighbouring latitudes get closer as the number of samples grows and the arc sine is ill-conditioned at the poles; only an error analysis shows that rounding never makes two of them equal or exchanges them.", "anchors": ["src/tatc/generation/points.py:_compute_fibonacci_lattice_point_latitude", "src/tatc/generation/points.py:generate_fibonacci_lattice_points"]}
{"id": "C197", "title": "Generated cells fit together and hold their points in floating point", "statement": "In binary64 the cells generated for a distance have, row by row, the ids of the points generated for it, each point lies inside its cell off the edges, neighbouring cells share their edges exactly, and the cells tile the globe from -180 and -90 degrees to within half a step of 180 and 90 degrees, every place lying in exactly one cell.", "quantifier": "All distances between 1 m and 28,000 km (all steps between a millionth of a degree and 256 degrees), all rows, and all real places.", "why_tests_cant": "Edges and centres are computed by different roundings; whether some distance leaves a gap, an overlap or a point on an edge cannot be found by sampling distances.", "anchors": ["src/tatc/generation/cells.py:generate_equally_spaced_cells", "src/tatc/generation/points.py:generate_equally_spaced_points"]}
{"id": "C198", "title": "Sun-synchronous orbits have the right inclination and node in floating point", "statement": "For every altitude that SunSynchronousOrbit accepts, get_inclination returns a number whose cosine is, to 1.2e-14, the one for which the node follows the Sun (-((R + h) / 12352 km)^3.5); the derived orbits and two-line elements made from it accept it. For every crossing time, get_right_ascension_ascending_node returns an angle of [0, 360) that is, to 1e-12 degrees, the Sun's right ascension plus 15 degrees per hour of crossing time after noon (plus 180 degrees for descending crossings), and it is accepted.", "quantifier": "all binary64 altitudes, all crossing times in microseconds, both directions, all right ascensions of the Sun, all power and arc cosine functions within the stated error", "why_tests_cant": "The failing altitude is a single float next to the limit; tests at ordinary altitudes cannot bound the error over all of them or over all mathematics libraries.", "anchors": ["src/tatc/schemas/orbit.py:SunSynchronousOrbit.get_inclination", "src/tatc/schemas/orbit.py:SunSynchronousOrbit.get_right_ascension_ascending_node", "src/tatc/schemas/orbit.py:SunSynchronousOrbit.get_derived_orbit", "src/tatc/schemas/orbit.py:SunSynchronousOrbit.to_tle"]}
{"id": "C199", "title": "Streets of coverage have the right numbers of satellites and planes, computed in floating point", "statement": "Generating the Walker constellation of a streets-of-coverage constellation (altitude 200 to 50000 km, swath of at least 100 km whose edge sees the satellite at 2.6 degrees of elevation or more, packing distance from 1/4 to 1) succeeds in binary64 arithmetic, and the numbers of satellites per plane and of planes each differ by at most one from the least numbers whose steps keep the packed footprints together. Every constellation that the fields accept generates a Walker constellation (refuted: the smallest swath gives a negative footprint angle and a validation error).", "quantifier": "every binary64 altitude, swath width and packing distance in the stated ranges and every library of sines, cosines and inverse functions with absolute error at most 2^-50; for the refutation, every library with the usual values at 0 and pi/2", "why_tests_cant": "Rounding errors pass through ten trigonometric calls, two of them ill-conditioned at the horizon, and into a ceiling; tests sample a few swaths with one library.", "anchors": ["src/tatc/schemas/satellite.py: SOCConstellation.generate_walker", "src/tatc/utils.py: swath_width_to_field_of_regard, compute_min_elevation_angle"]}
