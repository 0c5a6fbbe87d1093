{
 "claims": [
  {
   "property": "C01",
   "status": "proved",
   "theorems": [
    "C01_tracklet_exact",
    "C01_error_iff_unordered"
   ],
   "note": "hasTracklet against a list-decomposition specification; haversine distance is an oracle here."
  },
  {
   "property": "C02",
   "status": "proved",
   "theorems": [
    "C02_nights"
   ],
   "note": "Grouping by night and per-night flags for sorted input."
  },
  {
   "property": "C03",
   "status": "proved",
   "theorems": [
    "C03_opportunities_exact",
    "C03_opportunities_sound",
    "C03_first_opportunity",
    "C03_first_success"
   ],
   "note": "Exact set of opportunities for generic weights, soundness for all weights, first opportunity for positive weights, first successful draw. Weights are exact integers in units of 2^-53."
  },
  {
   "property": "C04",
   "status": "proved",
   "theorems": [
    "C04_efficiency_one",
    "C04_efficiency_zero",
    "C04_filter_efficiency_one"
   ],
   "note": "Efficiency one and zero, per object and at table level."
  },
  {
   "property": "C05",
   "status": "proved",
   "theorems": [
    "C05_linking_rows",
    "C05_flags_and_dates"
   ],
   "note": "All-or-nothing, flags, dates, no invented or duplicated rows."
  },
  {
   "property": "C06",
   "status": "proved",
   "theorems": [
    "C06_verdict_is_local",
    "C06_split_by_object",
    "C06_row_order"
   ],
   "note": "Verdict is a function of the object's own rows, table splits by object, own-row order. Uses generic uniqueness weights because they come from an unseeded process-wide generator."
  },
  {
   "property": "C07",
   "status": "proved",
   "theorems": [
    "C07_magnitude_limit",
    "C07_snr_limit",
    "C07_saturation_limit",
    "C07_nan_rows"
   ],
   "note": "Magnitude, SNR and single saturation limits are exact selections; NaN rows drop from the first two and survive the third."
  },
  {
   "property": "C08",
   "status": "proved",
   "theorems": [
    "C08_per_filter_saturation",
    "C08_unlisted_filter_kept",
    "C08_short_list_raises"
   ],
   "note": "Per-filter saturation exact; short limit list raises IndexError."
  },
  {
   "property": "C09",
   "status": "proved",
   "theorems": [
    "C09_fading_exact",
    "C09_fading_monotone",
    "C09_fading_extremes",
    "C09_efficiency_exact",
    "C09_efficiency_monotone",
    "C09_efficiency_out_of_bounds"
   ],
   "note": "Fading-function and detection-efficiency drops: exact per-draw rule, monotonicity, extremes. Draws are an oracle stream."
  },
  {
   "property": "C10",
   "status": "partial",
   "theorems": [
    "C10_distance_cut_partial",
    "C10_distance_all_or_nothing_partial",
    "C10_motion_cut_partial",
    "C10_motion_cut_nonfinite_partial",
    "C10_negative_bound_refuted"
   ],
   "note": "Distance and motion cuts proved for non-negative bounds, in terms of real square roots. The statement's 'all bounds' is false: bounds are squared, so C10_negative_bound_refuted gives a negative bound that behaves as its absolute value."
  },
  {
   "property": "C11",
   "status": "proved",
   "theorems": [
    "C11_cuts",
    "C11_exact",
    "C11_stages"
   ],
   "note": "Every written row meets every enabled threshold, in all configurations; with deterministic settings the written rows are exactly the candidates meeting the enabled cuts (camera none or circle, linking off; the linking verdict is C04-C06, detectors are C36)."
  },
  {
   "property": "C12",
   "status": "proved",
   "theorems": [
    "C12_provenance",
    "C12_count"
   ],
   "note": "Provenance for all configurations; injectivity for unique field numbers and non-overlapping detectors."
  },
  {
   "property": "C13",
   "status": "proved",
   "theorems": [
    "C13_external",
    "C13_internal",
    "C13_terminates"
   ],
   "note": "Both modes; blocks partition the orbit table in order; ceil(n/size) rounds; a skipped chunk is a round that writes nothing. The orbit reader is the slice semantics proved for files without blank lines in C16."
  },
  {
   "property": "C14",
   "status": "partial",
   "theorems": [
    "C14_config_refuted",
    "C14_loop_stops_partial",
    "C14_loop_stops_internal_partial"
   ],
   "note": "Refuted for the configuration: every size that parses as an integer is accepted (C14_config_refuted). Loop part proved: a non-positive size stops the run in its first round (AttributeError or ValueError) rather than looping forever."
  },
  {
   "property": "C15",
   "status": "proved",
   "theorems": [
    "C15_chunk_size"
   ],
   "note": "Permutation of one catalogue for all positive sizes, any linking efficiency, generic uniqueness weights; the visit-pooled camera model is excluded by the precondition."
  },
  {
   "property": "C16",
   "status": "proved",
   "theorems": [
    "C16_block",
    "C16_partition",
    "C16_cache_transparent",
    "C16_hdf5_block",
    "C16_identifiers_refuted"
   ],
   "note": "Text level model of the CSV reader incl. header position, skiprows and pandas blank-line skipping; cached and uncached, any schedule of block sizes and any call history. C16_identifiers_refuted: per-block type inference changes identifiers such as 007."
  },
  {
   "property": "C17",
   "status": "partial",
   "theorems": [
    "C17_csv_partial",
    "C17_csv_never_half_read_partial",
    "C17_hdf5_partial",
    "C17_hdf5_repeated_index_refuted",
    "C17_csv_names_refuted",
    "C17_csv_blank_refuted"
   ],
   "note": "CSV exact for files without blank lines whose identifiers survive column type inference (C119_usual says which do). Both hypotheses are needed: C17_csv_names_refuted (an object named 007 is returned as 7) and C17_csv_blank_refuted (one blank line and no object can be read). With blank lines C17_csv_never_half_read_partial says a returned table is still exact, again assuming stable identifiers and no data row with a cell ObjID. HDF5 exact for distinct index labels, C17_hdf5_repeated_index_refuted otherwise."
  },
  {
   "property": "C18",
   "status": "partial",
   "theorems": [
    "C18_header_partial",
    "C18_all_rows_read_partial",
    "C18_blank_line_stops_read_by_object_partial",
    "C18_blank_line_misaligns_blocks_refuted"
   ],
   "note": "Header detection and whole-file reads proved; reading by object stops on blank lines. The clause that blank lines are never silently misaligned is false for block reads: C18_blank_line_misaligns_blocks_refuted."
  },
  {
   "property": "C19",
   "status": "proved",
   "theorems": [
    "C19_same_objects",
    "C19_joined_rows_own_data",
    "C19_each_row_once",
    "C19_aux_rows",
    "C19_repeated_identifiers_refuted"
   ],
   "note": "Identifier check is multiset equality; joins sound and, for distinct identifiers, exact. Repeated identifiers: C19_repeated_identifiers_refuted."
  },
  {
   "property": "C20",
   "status": "proved",
   "theorems": [
    "C20_accepted_iff",
    "C20_physical",
    "C20_blocks_of_accepted_table",
    "C20_missing_element_refuted",
    "C20_mixed_formats_refuted"
   ],
   "note": "Acceptance characterised exactly; missing values and formats mixed across chunks are findings."
  },
  {
   "property": "C21",
   "status": "proved",
   "theorems": [
    "C21_csv",
    "C21_succeeds",
    "C21_missing",
    "C21_sql"
   ],
   "note": "CSV and SQLite contents in closed form for any sequence of chunks with the same columns, success when the requested columns exist, failure otherwise. Value formatting is not modelled; HDF5 is C97."
  },
  {
   "property": "C22",
   "status": "proved",
   "theorems": [
    "C22_prefix",
    "C22_file"
   ],
   "note": "Prefix property of the written chunks (C22_prefix) and of the CSV file contents (C22_file) for every cut-off point between writes; a crash in the middle of one write is outside the model."
  },
  {
   "property": "C23",
   "status": "partial",
   "theorems": [
    "C23_refused_partial",
    "C23_forced_partial",
    "C23_forced_refuted",
    "C23_pattern_refuted"
   ],
   "note": "Refusal without -f is proved for stems without shell pattern characters; removal with -f is proved when at most one file of the stem exists and refuted otherwise (C23_forced_refuted), and pattern characters in the stem defeat the check (C23_pattern_refuted)."
  },
  {
   "property": "C24",
   "status": "partial",
   "theorems": [
    "C24_rows_partial",
    "C24_chunks_partial",
    "C24_empty_rows_refuted"
   ],
   "note": "Counts, minima, maxima, medians and uniqueness of keys (also over all chunks) proved; 'one row per non-empty group' fails because filters without observations get a row as well (C24_empty_rows_refuted)."
  },
  {
   "property": "C25",
   "status": "proved",
   "theorems": [
    "C25_alone",
    "C25_stream",
    "C25_collision",
    "C25_base"
   ],
   "note": "md5 and the generator are parameters; C25_collision says exactly when two modules share a seed, C25_base when two base seeds agree."
  },
  {
   "property": "C26",
   "status": "proved",
   "theorems": [
    "C26_loss",
    "C26_still",
    "C26_monotone",
    "C26_detected"
   ],
   "note": "Over the reals; rounding is not modelled."
  },
  {
   "property": "C27",
   "status": "proved",
   "theorems": [
    "C27_snr",
    "C27_photometric",
    "C27_astrometric",
    "C27_row"
   ],
   "note": "Over the reals; SNR, photometric and astrometric formulas and the columns of a row."
  },
  {
   "property": "C28",
   "status": "proved",
   "theorems": [
    "C28_loss",
    "C28_depth"
   ],
   "note": "The 105-entry table is modelled in full; loss is a function of the angular separation, zero out to 0.64 deg, bounded and non-decreasing."
  },
  {
   "property": "C29",
   "status": "partial",
   "theorems": [
    "C29_rows_partial",
    "C29_succeeds_partial",
    "C29_single_refuted"
   ],
   "note": "Offsets, preserved H and phase parameters exact for several observing filters, with sufficient conditions. C29_single_refuted: with one observing filter the documented per-filter parameters raise KeyError. One-character filter names."
  },
  {
   "property": "C30",
   "status": "proved",
   "theorems": [
    "C30_law",
    "C30_unit",
    "C30_unknown"
   ],
   "note": "Flux ratio form of the law, strict monotonicity, unit distances, unknown functions. The phase functions of sbpy are an oracle of the phase angle."
  },
  {
   "property": "C31",
   "status": "partial",
   "theorems": [
    "C31_exact_partial",
    "C31_unobservable_partial",
    "C31_absent_filter_partial"
   ],
   "note": "Exact set of culled objects for any lightcurve and activity allowance; culled objects stay at least 1.7 mag below every visit for observers within 1.1 au, given non-negative phase darkening. Perihelion distances are given. C31_absent_filter_partial: an observing filter without a visit raises KeyError."
  },
  {
   "property": "C32",
   "status": "proved",
   "theorems": [
    "C32_fading",
    "C32_des",
    "C32_column"
   ],
   "note": "Both fading functions, with the per-chip limit and trailing loss."
  },
  {
   "property": "C33",
   "status": "proved",
   "theorems": [
    "C33_unit",
    "C33_vector",
    "C33_vector2",
    "C33_angles"
   ],
   "note": "Real arithmetic; C33_angles excludes the poles, where right ascension is not determined, C33_vector covers them."
  },
  {
   "property": "C34",
   "status": "proved",
   "theorems": [
    "C34_inverse",
    "C34_isometry",
    "C34_obliquity"
   ],
   "note": "Real arithmetic; the obliquity constant is the one in the code."
  },
  {
   "property": "C35",
   "status": "proved",
   "theorems": [
    "C35_triad"
   ],
   "note": "Hypothesis: not a pole (there the code divides by zero)."
  },
  {
   "property": "C36",
   "status": "proved",
   "theorems": [
    "C36_distance",
    "C36_inside",
    "C36_edge",
    "C36_sorted",
    "C36_outline"
   ],
   "note": "Real arithmetic; outlines are strictly convex (any corner order). Accepted points may lie outside by the area tolerance, as C36_inside states."
  },
  {
   "property": "C37",
   "status": "partial",
   "theorems": [
    "C37_circle_footprint_partial",
    "C37_fill_factor_partial",
    "C37_circle_model_partial",
    "C37_zero_refuted"
   ],
   "note": "Circle radius and fill factor proved for non-zero values. The statement's 'all tables' fails at zero: C37_zero_refuted shows a zero radius or fill factor is treated as unset and keeps every row."
  },
  {
   "property": "C38",
   "status": "proved",
   "theorems": [
    "C38_weights",
    "C38_quadratic",
    "C38_stable"
   ],
   "note": "Exactness on real numbers; floating-point rounding is not modelled."
  },
  {
   "property": "C39",
   "status": "partial",
   "theorems": [
    "C39_interpolate_partial",
    "C39_sorted_partial",
    "C39_backward_refuted"
   ],
   "note": "Holds for requests in time order after one update and for any schedule after two updates (as the generator does: get_designations and interpolate_unit_vectors both update). The full statement, one update for any schedule, is false: C39_backward_refuted (a request between half and one interval before the central node moves the window forward)."
  },
  {
   "property": "C40",
   "status": "proved",
   "theorems": [
    "C40_coherent",
    "C40_interpolated",
    "C40_seen"
   ],
   "note": "The integrator is an oracle whose answers do not depend on the order of requests."
  },
  {
   "property": "C41",
   "status": "partial",
   "theorems": [
    "C41_rows_partial",
    "C41_angle_partial",
    "C41_light_partial",
    "C41_empty_partial",
    "C41_own_pixel_refuted"
   ],
   "note": "C41_rows_partial is the full characterisation of the rows, with candidates those registered in the pixels of the visit's disc. That objects in the field are always candidates is false for grids coarser than the field: C41_own_pixel_refuted. An empty table of pointings raises IndexError (C41_empty_partial)."
  },
  {
   "property": "C42",
   "status": "partial",
   "theorems": [
    "C42_bounded_partial",
    "C42_accuracy_partial",
    "C42_step_inside_partial",
    "C42_outside_refuted",
    "C42_root_refuted"
   ],
   "note": "Termination proved: at most 3 + maxit evaluations for every function. A returned root is within (1 + 2M/m) xacc |root| of the true root for strongly increasing functions (m, M bounds on the slope at the evaluated points). Steps by bisection or with f f'' <= 0 stay inside the bracket. The clause that evaluation never leaves the bracket is false: C42_outside_refuted, a parabolic comet for which the first Halley guess is outside the bracket found by the caller. Nor does a returned root always lie in the bracket: C42_root_refuted, a polynomial of degree four with its true derivatives, bracketed by [0, 2], for which the root returned is -1."
  },
  {
   "property": "C43",
   "status": "partial",
   "theorems": [
    "C43_ellipse_bound_partial",
    "C43_hyperbola_bound_partial",
    "C43_parabola_bound_partial",
    "C43_plane_partial",
    "C43_momentum_partial",
    "C43_energy_partial",
    "C43_parabola_partial"
   ],
   "note": "The state lies in the orbit plane for all elements. Angular momentum is that of the elements up to an explicit factor in the residual of the Kepler equation and the Stumpff identity defect, the latter bounded by 1e-20. Energy is exact when the solver's root is exact and the two Stumpff identities hold exactly; for parabolic orbits only the root has to be exact. For elliptic orbits C94, for hyperbolic and parabolic ones C96 bounds the distance to the exact state and shows that the search for a bracket ends. C43_ellipse_bound_partial, C43_hyperbola_bound_partial: without assuming the identities, the energy differs from that of the elements by at most the fraction 2e-11/(1-e)^3, or 5e-11 (e/(e-1))^3, when |e-1| >= 1e-5 and the root s has r = sqrt(|alpha|)|s| <= 10000 and r^4 <= 10^17 (1-e) for ellipses, r <= 100 for hyperbolas; C43_parabola_bound_partial: by 2e-13 mu/q for parabolas. Missing: eccentricities closer to 1 but not equal to it, roots beyond these (see C94), rounding."
  },
  {
   "property": "C44",
   "status": "proved",
   "theorems": [
    "C44_unknown",
    "C44_columns",
    "C44_own_mass",
    "C44_shift",
    "C44_barycentric",
    "C44_kep_com",
    "C44_cartesian",
    "C44_cache"
   ],
   "note": "Unknown formats raise ValueError; a row's result depends only on the documented columns of its format; heliocentric formats use the Sun's mass and are shifted by exactly the Sun's state, barycentric ones use the total mass and ignore the Sun; Keplerian and cometary rows for one orbit give one state; Cartesian rows are rotated rigidly. The cache of Sun positions never changes a result. The solver inside the conversion is the one of C42/C43; a NaN state is a value of its own."
  },
  {
   "property": "C45",
   "status": "partial",
   "theorems": [
    "C45_known_partial",
    "C45_barycentric_partial",
    "C45_missing_partial",
    "C45_zero_refuted"
   ],
   "note": "Position from non-zero constants and missing constants proved. The statement is false for constants equal to zero, which count as missing: C45_zero_refuted (longitude of Greenwich), after which the observatory position raises TypeError."
  },
  {
   "property": "C46",
   "status": "partial",
   "theorems": [
    "C46_accepted_partial",
    "C46_startup_partial",
    "C46_ssp_complete_partial",
    "C46_fading_complete_partial",
    "C46_nan_refuted",
    "C46_half_width_refuted",
    "C46_des_efficiency_refuted",
    "C46_switch_refuted",
    "C46_cut_order_refuted"
   ],
   "note": "Proved for every file, survey and parse function: an accepted configuration satisfies every constraint the validation is meant to enforce, where a bound holds or the value is NaN; the linking and fading sections are accepted exactly when they parse and meet the constraints; the command line checks. Refuted (findings): NaN passes every bound check; a fading width of exactly 0.5 is accepted though documented as less than 0.5; the DES transient efficiency has no bounds; a switch given in the file counts as on whatever it says and without limits; cut bounds may be in the wrong order (C46_nan_refuted, C46_half_width_refuted, C46_des_efficiency_refuted, C46_switch_refuted, C46_cut_order_refuted)."
  },
  {
   "property": "C47",
   "status": "partial",
   "theorems": [
    "C47_attribute_partial",
    "C47_url_alone_partial",
    "C47_lookup_partial",
    "C47_refuted"
   ],
   "note": "Refuted as stated: the dictionary of download URLs is built before validation, so a custom name keeps the default URL, for every data file and every new name (C47_refuted). Proved: the URL attribute is emptied exactly in that case, a URL without a name is rejected, and each file name is looked up at the URL in use."
  },
  {
   "property": "C48",
   "status": "partial",
   "theorems": [
    "C48_spec_partial",
    "C48_order_refuted"
   ],
   "note": "Exact acceptance condition. C48_order_refuted: the same filters in another order are rejected (the first listed filter is taken to be the main one)."
  },
  {
   "property": "C49",
   "status": "partial",
   "theorems": [
    "C49_last_line_partial",
    "C49_interrupted_partial",
    "C49_completed_partial",
    "C49_all_partial",
    "C49_empty_log_refuted"
   ],
   "note": "Classification by the last line proved; an empty log file raises instead of being reported as failed (C49_empty_log_refuted)."
  },
  {
   "property": "C50",
   "status": "proved",
   "theorems": [
    "C50_split"
   ],
   "note": "Pieces, their lengths and lossless rejoining for every positive limit."
  },
  {
   "property": "C51",
   "status": "partial",
   "theorems": [
    "C51_round_partial",
    "C51_des_round_partial",
    "C51_matched_partial",
    "C51_stops_partial",
    "C51_selected_filters_partial",
    "C51_mismatch_refuted",
    "C51_repeated_refuted"
   ],
   "note": "Proved for tables with distinct FieldIDs: exactly the observations with a pointing in the selected filters are kept, in order, each with its own pointing, and the run stops exactly when a time differs by more than numpy's default tolerance; a single pair beyond the tolerance stops a whole round of either survey (C51_round, C51_des_round, for any table). Refuted: that tolerance is relative, so a mismatch of half a day passes at present-day dates (C51_mismatch_refuted); a FieldID that occurs twice in the pointing table repeats the observation (C51_repeated_refuted)."
  },
  {
   "property": "C52",
   "status": "partial",
   "theorems": [
    "C52_rubin_partial",
    "C52_des_partial",
    "C52_stops_partial",
    "C52_des_refuted"
   ],
   "note": "Proved for rubin_sim as stated. For DES the midpoint is read from the table and the start is set half of the exposure time (not the visit time) before it (C52_des_partial); the statement is then false whenever the two times differ (C52_des_refuted). The SQL query is outside the model."
  },
  {
   "property": "C53",
   "status": "partial",
   "theorems": [
    "C53_per_object_partial",
    "C53_sound_partial",
    "C53_complete_partial",
    "C53_arc_partial",
    "C53_missed_refuted"
   ],
   "note": "Proved for times that group into nights: objects are kept or dropped as a whole; a kept object has nine nights, or seven nights with a long arc and a triplet within the window; nine nights suffice, and so does the second criterion when its triplet has shorter gaps than all earlier triples; the arc test is exact. Refuted in general: the greedy search misses a triplet after a short first gap (C53_missed_refuted)."
  },
  {
   "property": "C54",
   "status": "partial",
   "theorems": [
    "C54_rows_partial",
    "C54_columns_refuted",
    "C54_output_refuted"
   ],
   "note": "All rows exactly once when all databases have the same columns; merging by position (C54_columns_refuted) and the wrong exclusion of the output (C54_output_refuted) are findings."
  },
  {
   "property": "C55",
   "status": "proved",
   "theorems": [
    "C55_rows",
    "C55_position",
    "C55_zero_noise"
   ],
   "note": "Draws are parameters. C55_zero_noise assumes, without trailing losses, equal true magnitudes, as the pipeline sets them."
  },
  {
   "property": "C56",
   "status": "proved",
   "theorems": [
    "C56_linked_observation",
    "C56_linking_total"
   ],
   "note": "Totality and discovery observation."
  },
  {
   "property": "C57",
   "status": "partial",
   "theorems": [
    "C57_uncached_validated_partial",
    "C57_cached_answers_partial",
    "C57_cached_after_failure_refuted"
   ],
   "note": "Holds uncached, and cached when the table validates; C57_cached_after_failure_refuted shows a cached reader serving the unvalidated table after a failed first call."
  },
  {
   "property": "C58",
   "status": "proved",
   "theorems": [
    "C58_expand"
   ],
   "note": "str.replace modelled as leftmost non-overlapping replacement."
  },
  {
   "property": "C59",
   "status": "partial",
   "theorems": [
    "C59_zero_refuted",
    "C59_rounding_partial"
   ],
   "note": "Proved for positive numbers of decimals and for unset options; zero decimals is accepted by the configuration but ignored (C59_zero_refuted)."
  },
  {
   "property": "C60",
   "status": "partial",
   "theorems": [
    "C60_scope_partial",
    "C60_scope_refuted"
   ],
   "note": "Proved for stems without shell pattern characters, refuted otherwise (C60_scope_refuted)."
  },
  {
   "property": "C61",
   "status": "partial",
   "theorems": [
    "C61_index_partial",
    "C61_refuted"
   ],
   "note": "The run completes exactly when ObjID, fieldMJD_TAI and optFilter are among the requested columns; refuted in general (C61_refuted)."
  },
  {
   "property": "C62",
   "status": "partial",
   "theorems": [
    "C62_separate_partial",
    "C62_same_name_refuted"
   ],
   "note": "Proved for different stems; with the same stem statistics rows are appended to the results (C62_same_name_refuted)."
  },
  {
   "property": "C63",
   "status": "proved",
   "theorems": [
    "C63_light_time"
   ],
   "note": "The integrator (ASSIST) is a parameter, a trajectory of bounded speed."
  },
  {
   "property": "C64",
   "status": "proved",
   "theorems": [
    "C64_projection",
    "C64_rates"
   ],
   "note": "The velocity entering the sky rates is the object's velocity scaled by (1-delta), as in the code; the hypothesis says the line of sight moves with that velocity. The range rate uses the unscaled velocity."
  },
  {
   "property": "C65",
   "status": "proved",
   "theorems": [
    "C65_phase"
   ],
   "note": "Hypothesis: the object coincides neither with the Sun nor with the observer."
  },
  {
   "property": "C66",
   "status": "proved",
   "theorems": [
    "C66_haversine",
    "C66_symmetric",
    "C66_zero"
   ],
   "note": "Real arithmetic."
  },
  {
   "property": "C67",
   "status": "proved",
   "theorems": [
    "C67_flux",
    "C67_mag",
    "C67_order",
    "C67_five"
   ],
   "note": "Real arithmetic."
  },
  {
   "property": "C69",
   "status": "partial",
   "theorems": [
    "C69_lightcurve_partial",
    "C69_shift_partial",
    "C69_activity_refuted",
    "C69_culling_refuted"
   ],
   "note": "The identity light curve changes nothing and other light curves shift each row by its own shift before activity; C69_activity_refuted: selecting identity activity always raises TypeError; C69_culling_refuted: either model with culling raises AttributeError."
  },
  {
   "property": "C68",
   "status": "partial",
   "theorems": [
    "C68_table_partial",
    "C68_zeros_refuted"
   ],
   "note": "C68_table_partial: holds when some name in the chunk is not an integer or every integer is written as usual. In general false: C68_zeros_refuted (the column types passed to read_csv are None, so all-numeric names are read as integers)."
  },
  {
   "property": "C70",
   "status": "partial",
   "theorems": [
    "C70_same_rows_partial",
    "C70_order_refuted"
   ],
   "note": "C70_same_rows_partial: the same rows up to their order, for any two iteration orders of the set of designations. The order, and with it the random errors each detection receives, is not determined by the seed: C70_order_refuted."
  },
  {
   "property": "C71",
   "status": "partial",
   "theorems": [
    "C71_rows_partial",
    "C71_once_partial",
    "C71_overlap_refuted"
   ],
   "note": "C71_once_partial needs detectors that do not overlap at the observation; C71_overlap_refuted: where they do, the observation is duplicated."
  },
  {
   "property": "C72",
   "status": "partial",
   "theorems": [
    "C72_direction_partial",
    "C72_angle_partial",
    "C72_corners_partial",
    "C72_antipode_refuted"
   ],
   "note": "Holds for directions within 90 degrees of the field, fields off the poles; C72_antipode_refuted: the opposite point of the sky gets the same coordinates."
  },
  {
   "property": "C73",
   "status": "partial",
   "theorems": [
    "C73_degrees_refuted",
    "C73_rotate_refuted"
   ],
   "note": "Refuted. C73_degrees_refuted: 'degrees' raises AttributeError and 'deg' is read as radians; C73_rotate_refuted: the rotated corners are projected a second time. Neither is used by the pipeline."
  },
  {
   "property": "C74",
   "status": "partial",
   "theorems": [
    "C74_own_partial",
    "C74_rows_partial",
    "C74_company_refuted",
    "C74_labels_refuted"
   ],
   "note": "C74_own_partial needs CCDs that do not overlap and the CCD under a point to own one of the 3 tabulated points nearest to it; C74_company_refuted: without the latter an observation lost alone is kept in company. C74_rows_partial needs labels that are positions (true in the pipeline); C74_labels_refuted otherwise. Convex outlines, exact rationals, ties in the nearest-point query broken by position."
  },
  {
   "property": "C75",
   "status": "partial",
   "theorems": [
    "C75_conic_partial",
    "C75_ellipse_partial",
    "C75_hyperbola_partial",
    "C75_parabola_partial",
    "C75_latus_refuted",
    "C75_descending_refuted",
    "C75_energy_momentum_partial",
    "C75_recovers_partial",
    "C75_normal_partial",
    "C75_node_refuted",
    "C75_aphelion_refuted"
   ],
   "note": "Energy, angular momentum, perihelion distance and eccentricity proved for every state with non-zero angular momentum; orbit plane proved when neither horizontal component of the angular momentum is zero; argument and time of perihelion proved in general position (C75_conic_partial, C75_ellipse_partial, C75_hyperbola_partial, C75_parabola_partial). False elsewhere: C75_node_refuted (node set to zero), C75_aphelion_refuted and C75_latus_refuted (at aphelion, and at a right angle from perihelion, the elements put the object at perihelion), C75_descending_refuted (at the descending node the argument is half a turn off). Eccentricities within 1e-15 of 1 but different from 1 are replaced by 1: nothing is shown for their perihelion time."
  },
  {
   "property": "C76",
   "status": "partial",
   "theorems": [
    "C76_state_partial",
    "C76_elements_partial",
    "C76_barycentric_refuted"
   ],
   "note": "The parsing function agrees with the ephemeris' one for all six formats when it is given the Sun's actual state. The culling step passes a Sun at the barycentre, so the statement is false for barycentric formats: C76_barycentric_refuted."
  },
  {
   "property": "C77",
   "status": "proved",
   "theorems": [
    "C77_values",
    "C77_documented",
    "C77_order",
    "C77_spelling"
   ],
   "note": "Python's int() and float() on strings and configparser itself are parameters: a file is given as its sections and their key-value pairs. The switches that the code does not convert are the subject of C46."
  },
  {
   "property": "C78",
   "status": "proved",
   "theorems": [
    "C78_cuts",
    "C78_exact",
    "C78_stages",
    "C78_count",
    "C78_chunk_size"
   ],
   "note": "A signal-to-noise limit stops the model with KeyError on the first non-empty chunk (des.py calls PPSNRLimit without the uncertainties), so the theorems speak about runs without one; see also C79."
  },
  {
   "property": "C80",
   "status": "partial",
   "theorems": [
    "C80_rubin_partial",
    "C80_des_refuted",
    "C80_des_respelled_partial"
   ],
   "note": "Proved for the three Rubin files and the demo file, with the documented values. Refuted for the DES file (C80_des_refuted): line 102 spells the key self.des_transient_efficency, which the dataclass does not have, so the run stops with a TypeError; with the key respelled the file is accepted (C80_des_respelled_partial)."
  },
  {
   "property": "C79",
   "status": "partial",
   "theorems": [
    "C79_rubin_partial",
    "C79_des_partial",
    "C79_names_partial",
    "C79_models_partial",
    "C79_des_basic_refuted",
    "C79_des_snr_refuted",
    "C79_bright_refuted",
    "C79_cut_refuted",
    "C79_visits_refuted",
    "C79_index_refuted",
    "C79_names_refuted",
    "C79_example_refuted",
    "C79_one_filter_refuted"
   ],
   "note": "Proved for every accepted Rubin configuration (C79_rubin_partial) if bright_limit_on is not set without bright_limit, and for the Dark Energy Survey with all or listed columns if no snr_limit is set, every cut that is on has bounds and a visits database is not combined with an external ephemeris (C79_des_partial). C79_names_partial: the documented columns of the full output are there, except eight. C79_models_partial: a column that the chosen light curve or activity model requires and that no table has stops the round. Refuted otherwise, for all such runs: the basic columns in the Dark Energy Survey (C79_des_basic_refuted) and an snr_limit there (C79_des_snr_refuted) end in a KeyError, a cut that is on without bounds in a TypeError (C79_cut_refuted), a visits database with an external ephemeris in a TypeError (C79_visits_refuted: PPApplyFOVFilter adds two settings of the ephemeris generator, which are None), bright_limit_on without bright_limit stops after the simulation of the first chunk (C79_bright_refuted), a list without ObjID, fieldMJD_TAI and optFilter, such as the example of the documentation, in sqlite3 fails when the indices are made (C79_index_refuted), eight documented column names do not exist (C79_names_refuted), the physical parameters files shown in the documentation are rejected (C79_example_refuted), and phase parameters per filter fail when there is one filter (C79_one_filter_refuted). Rounds in which a stage leaves no observations are not covered."
  },
  {
   "property": "C81",
   "status": "partial",
   "theorems": [
    "C81_started_partial",
    "C81_no_old_output_partial",
    "C81_forced_partial",
    "C81_optional_partial",
    "C81_starts_partial",
    "C81_pattern_refuted"
   ],
   "note": "C81_started: when the simulation is called, everything in the statement holds in the file system of that moment (for --cp and --vd see C81_optional: unless -f has deleted them, C84). C81_no_old_output: without -f no earlier output of the three stems is present. C81_forced: with -f the old statistics are gone, and the old results too unless there were several files of them (C23). C81_starts: conversely every command meeting the conditions starts. Names are free of pattern characters in these two. Missing: for names with pattern characters the statement is false, C81_pattern_refuted: with the stem run* no command ever starts without -f, because the run takes its own log file for an earlier result. The acceptance of the configuration is read_configs, described by C46 and C77."
  },
  {
   "property": "C82",
   "status": "partial",
   "theorems": [
    "C82_unforced_partial",
    "C82_forced_partial",
    "C82_missing_partial",
    "C82_ar_partial",
    "C82_forced_refuted"
   ],
   "note": "C82_unforced: without -f, whatever the outcome, only the two logs change. C82_forced: with or without -f nothing else than logs and files named after the stems changes (names without pattern characters). False with -f, C82_forced_refuted: earlier results are deleted before the configuration and the survey name are checked, so a command rejected for a misspelled survey has already destroyed them. Also proved, with -f as well: if a required path (other than --er and --ar) is missing, the command is refused and nothing but the logs changes (C82_missing); if --ar is not a directory, it is refused and the old results stay (C82_ar)."
  },
  {
   "property": "C83",
   "status": "partial",
   "theorems": [
    "C83_errors_partial",
    "C83_model_refuted",
    "C83_seed_refuted",
    "C83_outfile_refuted"
   ],
   "note": "C83_errors lists every way in which a command can fail other than sys.exit. The statement is false, C83_model_refuted: a light curve or activity model without --cp gives a KeyError since the dictionary has no such key (the message of run.py:179-185 is never reached); C83_seed_refuted: SORCHA_SEED that is not an integer gives a ValueError; C83_outfile_refuted: -o naming a file passes FindFileOrExit and fails when the log file is opened."
  },
  {
   "property": "C84",
   "status": "partial",
   "theorems": [
    "C84_kept_partial",
    "C84_input_refuted",
    "C84_missing_refuted"
   ],
   "note": "C84_kept: true for every file that is not in the output directory under the name of an output. False in general, C84_input_refuted: an object file in the output directory whose name begins with the stem is deleted; C84_missing_refuted: the file of complex parameters is deleted after it was found, is not looked for again and the simulation is called without it."
  },
  {
   "property": "C85",
   "status": "partial",
   "theorems": [
    "C85_columns_partial",
    "C85_unknown_column_partial",
    "C85_missing_column_refuted"
   ],
   "note": "Proved: acceptance (iff), the columns and values of an accepted table, the error message for an unknown heading.  Refuted: a table that only lacks a heading ends in a KeyError from the selection of columns, without a message (C85_missing_column_refuted)."
  },
  {
   "property": "C86",
   "status": "partial",
   "theorems": [
    "C86_formats_partial",
    "C86_text_partial",
    "C86_round_partial",
    "C86_observations_partial",
    "C86_hdf5_one_round_partial",
    "C86_hdf5_rounds_refuted",
    "C86_hdf5_names_refuted"
   ],
   "note": "Proved for the csv and whitespace formats at the level of lines of text, for any rounds and any set of objects, and for HDF5 when at most one round has observations; the observations of a round agree in both runs.  Refuted for HDF5: as soon as two rounds have observations the second run exits in its first round, because rows are looked up by labels that restart in each round (C86_hdf5_rounds_refuted, for all files); a longer name in a later round stops the saving run (C86_hdf5_names_refuted).  Not covered here: a second run that uses the camera footprints of each visit fails after reading (C79_visits_refuted)."
  },
  {
   "property": "C87",
   "status": "proved",
   "theorems": [
    "C87_names",
    "C87_corners",
    "C87_order"
   ],
   "note": "The rows are taken as (name, angles) pairs; reading the CSV and NaN names are not modelled. Real arithmetic."
  },
  {
   "property": "C88",
   "status": "partial",
   "theorems": [
    "C88_finishes_partial",
    "C88_inputs_partial",
    "C88_switches_partial",
    "C88_camera_partial",
    "C88_limits_partial",
    "C88_linking_partial",
    "C88_auxiliary_partial",
    "C88_generator_partial",
    "C88_output_partial",
    "C88_threshold_refuted",
    "C88_activity_refuted",
    "C88_radius_refuted",
    "C88_des_refuted"
   ],
   "note": "Proved: logging an accepted configuration never fails (given that the visits argument logged is the one checked), and for each of about seventy lines, those on auxiliary files among them, the log contains it exactly when the setting has that value; spellings of numbers and of file names are parameters. Refuted: without footprint_edge_threshold the log says that the default threshold is used, but the camera filter leaves no margin (C88_threshold_refuted; docs/postprocessing.rst says all of the detector area is used); an activity model not called 'comet' is in no line (C88_activity_refuted); the circle radius is not logged when there is a fill factor, though both are applied (C88_radius_refuted); the distance and motion cuts, the discovery filter and the efficiency of the fading function of the Dark Energy Survey leave no trace (C88_des_refuted)."
  },
  {
   "property": "C89",
   "status": "partial",
   "theorems": [
    "C89_each_partial",
    "C89_outcome_partial",
    "C89_own_partial",
    "C89_epoch_partial",
    "C89_repeated_refuted"
   ],
   "note": "Characterised exactly for tables without repeated ObjIDs (C89_each is an equivalence), with the outcome at the first bad row, independence of other rows and both spellings of the epoch. False when an ObjID is repeated: C89_repeated_refuted (the later row replaces the earlier one without a message; the readers do not check for repeated ObjIDs in the orbit file)."
  },
  {
   "property": "C90",
   "status": "proved",
   "theorems": [
    "C90_each",
    "C90_time",
    "C90_order",
    "C90_own",
    "C90_velocity",
    "C90_outcome"
   ],
   "note": "SPICE and ASSIST are functions of time; C90_time takes a bound on TDB-TT, C90_order takes str2et to be monotone, C90_velocity takes the rotation to be three times differentiable with a bounded third derivative; C90_outcome says exactly when the step succeeds (a constant equal to zero counts as missing, see C45). A pointing table without rows is not modelled."
  },
  {
   "property": "C91",
   "status": "partial",
   "theorems": [
    "C91_loaded_partial",
    "C91_kept_partial",
    "C91_source_partial",
    "C91_offline_partial",
    "C91_recovers_partial",
    "C91_bootstrap_partial",
    "C91_history_partial",
    "C91_stale_refuted",
    "C91_codes_refuted",
    "C91_truncated_refuted",
    "C91_force_refuted",
    "C91_silent_refuted"
   ],
   "note": "Proved for AUXILIARY sections with distinct file names: what is loaded when there is no meta kernel yet, that files stay and where new ones come from, that a complete cache needs no network, that a run or a plain bootstrap succeeds on any cache once every download does, and that with the default kernels every history of runs and completed bootstraps keeps the meta kernel right. Five clauses are false: an existing meta kernel is loaded although the configuration names other kernels (C91_stale_refuted), unpacked observatory codes likewise (C91_codes_refuted), a failed bootstrap leaves an unfinished meta kernel that a later run loads (C91_truncated_refuted), bootstrap --force fails on a cache without meta kernel after removing files (C91_force_refuted), and bootstrap ends normally although a download failed (C91_silent_refuted). pooch is assumed to take a file that exists, and to raise ValueError for one without URL."
  },
  {
   "property": "C92",
   "status": "partial",
   "theorems": [
    "C92_init_kept_partial",
    "C92_init_written_partial",
    "C92_init_done_partial",
    "C92_demo_partial",
    "C92_logs_kept_partial",
    "C92_logs_report_partial",
    "C92_logs_shown_partial",
    "C92_logs_answer_partial",
    "C92_halfway_refuted",
    "C92_suffix_refuted",
    "C92_force_refuted",
    "C92_lost_refuted"
   ],
   "note": "Proved for all file systems and arguments: without --force init and demo prepare change nothing that is there and with it only the requested files; everything new has the contents shipped; exactly when they end normally and that the requested files are then there; check-logs keeps every file except the one it reports to (and with --force the output path), and without --force keeps all if the output path ends in .csv; a saved report has each log below the directory once with the right verdict, and some run failed. False: a refusal leaves the directory as it was (C92_halfway_refuted), -o name without --force overwrites name.csv (C92_suffix_refuted), --force removes only what is replaced (C92_force_refuted, C92_lost_refuted). An empty log file ends check-logs with an error (see C49)."
  },
  {
   "property": "C93",
   "status": "partial",
   "theorems": [
    "C93_kept_partial",
    "C93_rows_partial",
    "C93_once_partial",
    "C93_wrap_refuted",
    "C93_missed_refuted"
   ],
   "note": "Proved for cameras of equal, axis-parallel CCDs in rows that are in line or shifted by half a CCD, with gaps small against the CCDs, every CCD lying within the radius (ar_ang_fov + ar_fov_buffer, at most 90) of the field centre in right ascension. Refuted without the last condition (C93_wrap_refuted: the radius is compared with differences of right ascension, so at declination -60 the shipped 1.5 degrees lose a CCD across the 0/360 boundary) and for rows shifted otherwise (C93_missed_refuted: three points are too few). Cameras with curved or rotated CCDs are not covered. Arithmetic is exact."
  },
  {
   "property": "C94",
   "status": "partial",
   "theorems": [
    "C94_kepler_partial",
    "C94_functions_partial",
    "C94_ends_partial",
    "C94_motion_partial"
   ],
   "note": "C94_kepler_partial: for e <= 1 - 1e-9 every state returned belongs to an eccentric anomaly whose Kepler residual is at most 1e-12, with position within 2e-12 a sqrt((1+e)/(1-e)) and velocity within 1e-13 sqrt(mu/a)/(1-e)^2 of the two-body values, provided the root s the finder settles on has r = sqrt(alpha)|s| <= 10000 and r^4 <= 10^17 (1-e), that is r <= 100 for the largest of these e and r <= 10000 up to e = 0.9; C94_functions_partial: accuracy of the series and doublings for arguments up to 1e6 radians; C94_ends_partial: the search for a bracket ends when a <= 5000. C94_motion_partial: the two-body values meant are a motion, that is, along Kepler's equation they satisfy x' = v and v' = -mu x/r^3. Missing: that the finder never settles on a root beyond these (its steps may leave the bracket, see C42_outside_refuted), eccentricities closer to 1, that 100 iterations and ten restarts suffice, floating-point rounding."
  },
  {
   "property": "C95",
   "status": "partial",
   "theorems": [
    "C95_round_trip_partial",
    "C95_elements_partial",
    "C95_time_partial"
   ],
   "note": "C95_elements_partial and C95_time_partial: conic to state to elements, exact over the reals. C95_round_trip_partial: state to elements to state, position within 5e-12 a/(1-e) and velocity within 1e-11 sqrt(mu/a)/(1-e)^3, for e <= 1 - 1e-9 and whenever the root finder returns a root s with r = sqrt(alpha)|s| <= 10000 and r^4 <= 10^17 (1-e). Missing: that the finder returns and never settles on a root beyond these (see C94), round trip of states for 1 - 1e-9 < e < 1, floating-point rounding. States of parabolic speed are the subject of C123."
  },
  {
   "property": "C96",
   "status": "proved",
   "theorems": [
    "C96_kepler",
    "C96_parabola",
    "C96_functions",
    "C96_ends",
    "C96_motion",
    "C96_parabola_motion"
   ],
   "note": "C96_kepler: the statement for e > 1, the root s standing for F = sqrt(mu (e-1)/q) s. C96_parabola: e = 1, no bound on the root. C96_functions: relative accuracy of the series and doublings for negative arguments. C96_ends: the search for a bracket. C96_motion and C96_parabola_motion: the two-body values meant satisfy x' = v and v' = -mu x/r^3 along Kepler's and Barker's equations. Over the reals; floating-point rounding is not modelled, and nothing is said about how often the finder gives up and returns NaN."
  },
  {
   "property": "C97",
   "status": "partial",
   "theorems": [
    "C97_rows_partial",
    "C97_when_partial",
    "C97_columns_partial",
    "C97_longer_refuted",
    "C97_columns_refuted"
   ],
   "note": "C97_rows_partial: success means every row once in order, an error leaves exactly the rows of the rounds before. C97_when_partial: success exactly if no later string is longer. Refuted clause (same as csv whatever identifiers and columns): C97_longer_refuted (a round with longer identifiers stops the run, the csv run goes on), C97_columns_refuted (a column list without ObjID is a KeyError). Index labels and the types of the columns are not modelled."
  },
  {
   "property": "C98",
   "status": "partial",
   "theorems": [
    "C98_runs_partial",
    "C98_only_partial",
    "C98_unknown_partial",
    "C98_version_partial",
    "C98_unlistable_partial",
    "C98_unlistable_refuted",
    "C98_dashes_refuted",
    "C98_killed_refuted"
   ],
   "note": "C98_runs_partial, C98_only_partial, C98_unknown_partial and C98_version_partial for PATHs whose directories can all be listed and arguments that do not begin with two dashes. Refuted clauses: C98_unlistable_refuted (one PATH directory that cannot be listed stops every command with an exception; C98_unlistable_partial says so for all PATHs), C98_dashes_refuted ('--' directly after the verb is dropped), C98_killed_refuted (a program killed by signal 9 gives status 247). Command lines that begin with an option other than --version are not modelled."
  },
  {
   "property": "C99",
   "status": "partial",
   "theorems": [
    "C99_register_partial",
    "C99_start_partial",
    "C99_duplicate_refuted",
    "C99_derived_refuted"
   ],
   "note": "C99_register_partial: the names registered are exactly those of the classes, and a repeated name is a ValueError. C99_start_partial: at the start of a run the package's classes are kept and every class directly below the base class can be found under its name; a name without a class is an error in the calculations (C69). Refuted clauses: C99_duplicate_refuted (two add-ons with one name: no error, the first is used), C99_derived_refuted (a class derived from another model cannot be selected). Classes are modelled by their name_id, value and derived classes; importing add-ons is not modelled."
  },
  {
   "property": "C100",
   "status": "partial",
   "theorems": [
    "C100_complete_partial",
    "C100_ends_partial",
    "C100_commas_refuted",
    "C100_output_refuted",
    "C100_lost_refuted",
    "C100_names_refuted"
   ],
   "note": "C100_complete_partial: whenever the command ends well all rows of all databases and input files are there under their columns' names, capitals not distinguished. C100_ends_partial: it ends well for matching columns if the first database listed is not the output, the inputs are separated by blanks and no two columns, the column of row numbers included, have names that differ at most in capitals. Refuted clauses: C100_commas_refuted (comma-separated inputs become a single column), C100_output_refuted (a new output listed first among the results is an error, on every call), C100_lost_refuted (a failing merge leaves an empty table of results), C100_names_refuted (a column Index, which is not renamed as INDEX is, clashes with the row numbers). Types of columns and locking of large outputs are not modelled."
  },
  {
   "property": "C101",
   "status": "proved",
   "theorems": [
    "C101_linked",
    "C101_same",
    "C101_night",
    "C101_opportunities"
   ],
   "note": "C101_linked: efficiency one, weights between 1e-9 and 1, at most a million observations. C101_same: any efficiency, for weights whose rounded sums tell windows apart ('telling'). C101_night, C101_opportunities: without margins. Binary64 is Flocq's format with 53 bits and exponents down to -1074, rounding to nearest even, without overflow; separations are given numbers (the haversine formula is not rounded here)."
  },
  {
   "property": "C102",
   "status": "partial",
   "theorems": [
    "C102_close_partial",
    "C102_order_partial",
    "C102_between_partial",
    "C102_decimal_partial",
    "C102_again_partial",
    "C102_special_partial",
    "C102_circle_refuted",
    "C102_many_refuted"
   ],
   "note": "Clauses 1 to 6 are proved (C102_close_partial, C102_order_partial, C102_between_partial, C102_decimal_partial, C102_again_partial, C102_special_partial). Refuted clauses: C102_circle_refuted (with 1 to 12 decimals every right ascension within a quarter of a unit below 360 is written as 360), C102_many_refuted (309 or more decimals are accepted and every number is written as NaN, since the power of ten is infinite). numpy's round is modelled as multiply, rint, divide in Flocq's binary64 format with overflow to infinity; C's pow is taken to be correctly rounded and the sign of zero is left out."
  },
  {
   "property": "C103",
   "status": "partial",
   "theorems": [
    "C103_csv_partial",
    "C103_sqlite_partial",
    "C103_complete_partial",
    "C103_untouched_partial",
    "C103_rounds_partial",
    "C103_nothing_refuted",
    "C103_database_refuted",
    "C103_indexed_refuted"
   ],
   "note": "Clause 1 is C103_csv_partial and C103_sqlite_partial (for the latter the indexed columns have to be among the requested ones, see C61), clause 2 C103_complete_partial, clause 3 C103_untouched_partial (CSV, or no database of that name), clause 5 C103_rounds_partial. Refuted clauses: C103_nothing_refuted (a call that finds nothing ends in the ValueError of pd.concat), C103_database_refuted (with SQLite output and the database of an earlier completed call, every later call ends in the OperationalError of CREATE INDEX after all its work, and returns nothing), C103_indexed_refuted (a database that has no indexes yet is given them, though return_only is to skip writing). HDF5 output and the file of a saved ephemeris are not modelled here."
  },
  {
   "property": "C104",
   "status": "partial",
   "theorems": [
    "C104_command_partial",
    "C104_run_partial",
    "C104_only_partial",
    "C104_refused_partial",
    "C104_help_partial",
    "C104_others_partial",
    "C104_dash_refuted",
    "C104_level_refuted"
   ],
   "note": "Clause 1 is C104_command_partial (an accepted line asks for exactly one command) with C104_run_partial and C104_only_partial (main does what execute does with that command, and nothing else ever gets that far); clause 2 C104_refused_partial and C104_help_partial, clause 3 C104_others_partial. Refuted clauses: C104_dash_refuted (a value that begins with a dash and is neither a negative number nor contains a space cannot be given as the next argument), C104_level_refuted (-l is a store_false switch with default True: it turns the additional log messages of des.py off). The model of argparse follows CPython 3.11; version-dependent text of messages is left out."
  },
  {
   "property": "C105",
   "status": "partial",
   "theorems": [
    "C105_close_partial",
    "C105_order_partial",
    "C105_half_partial",
    "C105_bright_partial",
    "C105_faint_partial",
    "C105_missing_partial",
    "C105_infinite_partial",
    "C105_rows_partial",
    "C105_kept_partial",
    "C105_zero_refuted",
    "C105_des_partial",
    "C105_des_order_partial",
    "C105_des_missing_partial",
    "C105_des_rows_partial"
   ],
   "note": "Clauses 1 to 7 are proved: C105_close_partial, C105_order_partial, C105_half_partial (peak at least 2^-1000), C105_bright_partial, C105_faint_partial, C105_kept_partial, C105_missing_partial, C105_rows_partial, C105_des_partial (k at least 1e-300), C105_des_order_partial, C105_des_missing_partial, C105_des_rows_partial. Clause 9 is C105_infinite_partial. Refuted clause 8: C105_zero_refuted (the comparison is probability >= draw and a draw of exactly 0 is possible). Arithmetic is Flocq's binary64 format with overflow to infinity, without the sign of zero; numpy's exp is a parameter."
  },
  {
   "property": "C106",
   "status": "proved",
   "theorems": [
    "C106_triangle",
    "C106_phase",
    "C106_source",
    "C106_rates"
   ],
   "note": "Over the reals. The object's position and velocity as functions of time are a parameter (the integrator is not modelled). The time at which the object is taken is shown to exist as the one handed to the integrator; its closeness to the emission time is C63."
  },
  {
   "property": "C107",
   "status": "partial",
   "theorems": [
    "C107_chunk_size_partial",
    "C107_randomised_refuted",
    "C107_ungrouped_refuted"
   ],
   "note": "(1) C107_chunk_size_partial. (2) C107_randomised_refuted: the positions in the stream at which a row's measurement errors are drawn depend on how many rows the chunk has. (3) C107_ungrouped_refuted: for an ephemeris in the order of time the fading function drops another row under another chunk size. Findings."
  },
  {
   "property": "C108",
   "status": "partial",
   "theorems": [
    "C108_ephemeris_partial",
    "C108_randomised_partial",
    "C108_full_circle_refuted"
   ],
   "note": "(1) and (2) are proved for both functions (C108_ephemeris, C108_randomised), and (3) for the randomised positions. (3) is false of the ephemeris: for every angle in [-2^-51, 0) vec2ra_dec returns exactly 360 (C108_full_circle_refuted), while icrf2radec returns 0. The conversion factor in the claim is 180 over the float64 value of pi; arctan2, arcsin and norm are parameters; the sign of zero is not modelled."
  },
  {
   "property": "C109",
   "status": "proved",
   "theorems": [
    "C109_order",
    "C109_floor",
    "C109_losses",
    "C109_loss",
    "C109_five",
    "C109_finite"
   ],
   "note": "(1) C109_five, (2) C109_order, (3) C109_floor (every float64 not above ten times the conversion factor is a lower bound of the column in degrees), (4) C109_loss and C109_losses, (5) C109_finite (for the trailed ratio: without losses or motion). numpy's power and log10 are parameters with the stated properties; that a given libm has them is not shown, the correctly rounded functions do (C109_case). The sign of zero is not modelled."
  },
  {
   "property": "C110",
   "status": "proved",
   "theorems": [
    "C110_close",
    "C110_loss",
    "C110_formulas"
   ],
   "note": "(1) and (2) C110_close, for the trailed columns at the magnitude plus the exact trailing loss; (3) C110_loss; (4) C110_formulas, which ties the formulas to Model/Photometry so that C26 and C27 carry over. numpy's power and log10 are parameters; that a given libm reaches 2^-50 is not shown, the correctly rounded functions do (C110_case). astropy's factor from mas to degrees is assumed right to 2^-50."
  },
  {
   "property": "C111",
   "status": "proved",
   "theorems": [
    "C111_offset",
    "C111_angle"
   ],
   "note": "C111_angle is (1), C111_offset (2) and (3). Over the real numbers; the draws are parameters, so that they are standard normal is not part of the model."
  },
  {
   "property": "C112",
   "status": "proved",
   "theorems": [
    "C112_complete",
    "C112_buffer",
    "C112_interpolation"
   ],
   "note": "C112_complete is (1), C112_interpolation (2), C112_buffer (3). The integrator and healpy are parameters; the hypotheses on healpy are those of the statement (Spec/Complete.v), shown to be satisfiable by a simple grid in C112_case and C112_buffer_case. The visit's direction and observatory are those of its columns (C90). Over the real numbers. Nothing is claimed about objects farther out than ar_ang_fov + m: the disc that is searched has the radius ar_ang_fov without the buffer."
  },
  {
   "property": "C113",
   "status": "proved",
   "theorems": [
    "C113_close",
    "C113_order",
    "C113_psf",
    "C113_trailing",
    "C113_depth"
   ],
   "note": "Model/MagnitudeFloat in binary64. The reduced magnitude (phase function, offsets) is an input here. numpy's log10 is a parameter with the accuracy the statement names, for (2) also not decreasing, for (3) as in C109; C113_case shows that the correctly rounded logarithm has these properties. The conversion from km to au is one factor within a relative 2^-50 of 1/149597870.7. The published table is written out again in Spec/MagnitudeFloat.v; the angle from the centre is an input here, finite and not negative."
  },
  {
   "property": "C114",
   "status": "proved",
   "theorems": [
    "C114_midpoint",
    "C114_start"
   ],
   "note": "Model/MagnitudeFloat in binary64. Order of visits with different durations is not claimed."
  },
  {
   "property": "C115",
   "status": "proved",
   "theorems": [
    "C115_catalogue"
   ],
   "note": "Model/Pipeline and Model/Driver, with what C19 says of the readers. The physics of a row is a function of that row (a parameter), as are the camera's detectors and the separations; the sorting routines are any that sort."
  },
  {
   "property": "C116",
   "status": "proved",
   "theorems": [
    "C116_distance",
    "C116_same_place",
    "C116_linked",
    "C116_depth"
   ],
   "note": "Model/SeparationFloat: haversine_np and haversine with numpy's conversions between degrees and radians as multiplications by the rounded factors. Sine, cosine, arcsine and logarithm are parameters with the stated accuracy. Composed with C101 for linking and with C113 for depths."
  },
  {
   "property": "C117",
   "status": "proved",
   "theorems": [
    "C117_focal",
    "C117_detector",
    "C117_source",
    "C117_camera",
    "C117_filter"
   ],
   "note": "Model/FootprintFloat: the two projections, the sort of the corners by angle, the areas about a point and about the centre, the distance to an edge, the grouping of the file of corners and the rows kept, with every operation rounded. Sine, cosine, arc tangent and the two sums of numpy are parameters with the stated accuracy; that sequential binary64 addition has it is proved."
  },
  {
   "property": "C118",
   "status": "partial",
   "theorems": [
    "C118_lsst_firm_partial",
    "C118_lsst_field_partial",
    "C118_shipped_partial",
    "C118_des_refuted",
    "C118_tangent_refuted"
   ],
   "note": "Model/Cameras holds the two shipped files number by number. Clauses 1 and 2 are proved for every read of the LSST file (checks on the integers of the file are run in the kernel and carried over to the reals). Clause 3 is refuted: DES_ccd_corners.csv is in degrees, the constructor reads radians, and in the real-number model a source more than 45 degrees from the centre of the field is kept (camera_model footprint with survey DES and no footprint_path; the shipped DES configuration uses visits_footprint instead). Clause 4 is refuted: the documentation calls the numbers tangents, but they are projected again as angles, which moves some corner by more than 2 arcsec."
  },
  {
   "property": "C119",
   "status": "proved",
   "theorems": [
    "C119_integers",
    "C119_text",
    "C119_usual",
    "C119_merged",
    "C119_one"
   ],
   "note": "C119_integers, C119_text, C119_usual and C119_merged are clauses 1 to 4; C119_one says that the usual text of an integer is unique. The inference is that of pandas.read_csv as modelled in Model/Csv.v; floats, truth values, missing values, blanks around numbers and inference by parts of a long file (low_memory) are outside the model."
  },
  {
   "property": "C120",
   "status": "proved",
   "theorems": [
    "C120_started",
    "C120_again"
   ],
   "note": "Proved for all file systems (one path per file, no links) and all shipped contents in which sorcha_config_demo.ini parses to the file transcribed in Model/Shipped, with number parsers that read the decimals of that file, a readable seed and no directory under the name of a log. C120_again: with results of an earlier run the command ends in an error and only files beginning testrun_e2e- change. The start is meant: the simulation itself is the subject of C79 and C103 to C115."
  },
  {
   "property": "C121",
   "status": "proved",
   "theorems": [
    "C121_csv",
    "C121_sqlite",
    "C121_chunks"
   ],
   "note": "C121_csv, C121_sqlite (clauses 1 to 3) and C121_chunks (clause 4). Composition of C115 with the output of C21 and C103; the columns of the observations and what they show are parameters (cell), a file is a heading and rows of values, its text is not modelled. HDF5 output is in C97."
  },
  {
   "property": "C122",
   "status": "proved",
   "theorems": [
    "C122_csv",
    "C122_sqlite"
   ],
   "note": "Composition of C78 (with its catalogue made explicit), C21 and C61. What is in the columns of an observation is a parameter, and so are the computed quantities of C78 (magnitudes, separations, detector under an observation). The statement about SQLite has the indexed columns among the requested ones, see C61."
  },
  {
   "property": "C123",
   "status": "proved",
   "theorems": [
    "C123_parabola"
   ],
   "note": "C123_parabola: the statement, over the reals. It speaks of states that are returned; it does not show how often the finder gives up and returns NaN. Floating-point rounding is not modelled."
  }
 ]
}