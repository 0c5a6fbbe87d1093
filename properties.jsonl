{"id": "C01", "title": "Tracklet test is exact", "statement": "For one night of time-ordered observations, the tracklet test answers yes exactly when some pair of observations is less than the maximum time apart (and not simultaneous), more than the minimum angular separation apart, and at least the required number of observations lie from the earlier to the later one inclusive; with a required number of one, exactly when there is an observation. It raises an error on unordered times and never otherwise.", "quantifier": "all finite sequences of observations, all separation functions, all thresholds and minimum counts >= 1", "why_tests_cant": "quantifies over every observation sequence; a test sees a handful", "anchors": ["src/sorcha/modules/PPMiniDifi.py:hasTracklet"]}
{"id": "C02", "title": "Nights are neither merged nor split", "statement": "Given observations sorted by time, grouping by integer night assigns each observation to exactly one night, every distinct night appears once in increasing order, and a night is flagged exactly when the observations of that night alone contain a tracklet.", "quantifier": "all sorted observation lists", "why_tests_cant": "needs every interleaving of nights and observation counts", "anchors": ["src/sorcha/modules/PPMiniDifi.py:trackletsInNights"]}
{"id": "C03", "title": "Discovery opportunities are sound and complete", "statement": "With at least two tracklets required, a night is reported as a discovery opportunity only if the trailing window of the configured length ending at that night holds at least the required number of tracklet nights; the first such night is always reported; and a later qualifying night is reported exactly when the tracklets in its window differ from those of the previous qualifying night (for generic random weights).", "quantifier": "all sets of nights, flags, windows >= 1, thresholds >= 2, random draws", "why_tests_cant": "the cumulative-sum/shift algorithm must agree with the window definition on every night pattern", "anchors": ["src/sorcha/modules/PPMiniDifi.py:discoveryOpportunities"]}
{"id": "C04", "title": "Linking at efficiency one is deterministic and exact", "statement": "With detection efficiency 1 an object is linked if and only if some window of the configured number of consecutive nights contains at least the required number of nights with a tracklet, and it is reported on the first such night; with efficiency 0 nothing is ever linked, whatever the random draws.", "quantifier": "all observation sets of an object, all random draws in [0,1)", "why_tests_cant": "ranges over all random streams and all observation histories", "anchors": ["src/sorcha/modules/PPMiniDifi.py:linkObject", "src/sorcha/modules/PPLinkingFilter.py:PPLinkingFilter"]}
{"id": "C05", "title": "Linking is all-or-nothing per object", "statement": "With drop_unlinked the linking filter keeps either every observation of an object or none; without it every observation is kept; kept rows carry a linked flag that is constant per object and equal to whether the object has a discovery date; no row is invented or duplicated.", "quantifier": "all observation tables and configurations", "why_tests_cant": "quantifies over all tables", "anchors": ["src/sorcha/modules/PPLinkingFilter.py:PPLinkingFilter"]}
{"id": "C06", "title": "Linking verdict of an object does not depend on the others", "statement": "The linking verdict and discovery date of an object are a function of that object's own rows: adding, removing or reordering rows of other objects, or processing the objects in different chunks, does not change them.", "quantifier": "all tables, all permutations and all splits of the table by object", "why_tests_cant": "relational property over all pairs of tables", "anchors": ["src/sorcha/modules/PPMiniDifi.py:linkObservations"]}
{"id": "C07", "title": "Magnitude, SNR and saturation cuts keep exactly the right rows in order", "statement": "Each threshold filter outputs exactly the rows on the documented side of the limit, in the original order with multiplicity, renumbered from zero; NaN measurements are dropped by the magnitude and SNR cuts and kept by the saturation cut.", "quantifier": "all tables including NaN and infinite values, all limits", "why_tests_cant": "must hold for every table and every limit including non-finite values", "anchors": ["src/sorcha/modules/PPMagnitudeLimit.py:PPMagnitudeLimit", "src/sorcha/modules/PPSNRLimit.py:PPSNRLimit", "src/sorcha/modules/PPBrightLimit.py:PPBrightLimit"]}
{"id": "C08", "title": "Per-filter saturation limits are applied to the right filter", "statement": "With a list of saturation limits, a row in the i-th observing filter is dropped exactly when its magnitude is below the i-th limit; rows in a filter not listed are kept.", "quantifier": "all tables, filter lists and limit lists", "why_tests_cant": "all filter lists and tables", "anchors": ["src/sorcha/modules/PPBrightLimit.py:PPBrightLimit", "src/sorcha/utilities/sorchaConfigs.py:saturationConfigs"]}
{"id": "C09", "title": "Random detection drops behave at the extremes and monotonically", "statement": "With the same random draws, raising any detection probability never loses an observation; probability one keeps everything, probability zero keeps nothing except on an exact zero draw.", "quantifier": "all tables, all draws in [0,1), all probabilities", "why_tests_cant": "monotonicity is a relational property over all draws", "anchors": ["src/sorcha/modules/PPDropObservations.py:PPDropObservations", "src/sorcha/modules/PPDetectionEfficiency.py:PPDetectionEfficiency", "src/sorcha/modules/PPFadingFunctionFilter.py:PPFadingFunctionFilter"]}
{"id": "C10", "title": "DES distance cut is per object, motion cut per row", "statement": "The distance cut keeps all rows of an object having at least one row strictly inside the bounds and no row of any other object; the motion cut keeps exactly rows strictly inside the rate bounds.", "quantifier": "all tables and bounds", "why_tests_cant": "all tables", "anchors": ["src/sorcha/modules/PPDistanceandMotionCuts.py:distance_cut", "src/sorcha/modules/PPDistanceandMotionCuts.py:motion_cut"]}
{"id": "C11", "title": "Every surviving observation satisfies every enabled cut", "statement": "Any row written by a run passed each enabled threshold (SNR, magnitude, saturation, footprint, and belongs to a linked object when unlinked objects are dropped), and each disabled cut removes nothing.", "quantifier": "all inputs, all configurations, all random streams", "why_tests_cant": "composition of filters over all configurations", "anchors": ["src/sorcha/sorcha.py:runLSSTSimulation"]}
{"id": "C12", "title": "No observation is invented", "statement": "Every output row stems from an ephemeris row of the chunk joined with a pointing of the survey with the same FieldID and a selected filter; when field numbers are unique and no observation falls on two detectors, each ephemeris row yields at most one output row.", "quantifier": "all inputs and configurations", "why_tests_cant": "provenance over all runs", "anchors": ["src/sorcha/sorcha.py:runLSSTSimulation", "src/sorcha/modules/PPMatchPointingToObservations.py:PPMatchPointingToObservations"]}
{"id": "C13", "title": "The chunk loop processes every object exactly once and stops", "statement": "For a positive chunk size and an orbit file without blank lines the main loop terminates after ceil(n/size) rounds and reads every object of the orbit file exactly once, in file order, whichever chunks are skipped for lack of observations.", "quantifier": "all numbers of objects, chunk sizes, skip patterns", "why_tests_cant": "all schedules of skipped chunks and sizes", "anchors": ["src/sorcha/sorcha.py:runLSSTSimulation", "src/sorcha/readers/CombinedDataReader.py:CombinedDataReader.read_block"]}
{"id": "C14", "title": "Non-positive chunk sizes are rejected", "statement": "Configuration validation rejects chunk sizes for which the main loop cannot make progress.", "quantifier": "all configured chunk sizes", "why_tests_cant": "termination", "anchors": ["src/sorcha/utilities/sorchaConfigs.py:inputConfigs", "src/sorcha/sorcha.py:runLSSTSimulation"]}
{"id": "C15", "title": "Chunk size does not change the catalogue", "statement": "For an external ephemeris and deterministic settings (no randomisation, fading or fill factor, a camera model that judges each row on its own), well-formed inputs with unique object identifiers, the output rows (with multiplicity, and linking columns if linking is on) of a completed run are the same for every positive chunk size.", "quantifier": "all inputs, all pairs of chunk sizes", "why_tests_cant": "relational over all chunkings", "anchors": ["src/sorcha/sorcha.py:runLSSTSimulation", "src/sorcha/readers/CombinedDataReader.py:CombinedDataReader.read_block"]}
{"id": "C16", "title": "Consecutive block reads partition a file", "statement": "For a text file without blank lines whose identifiers column type inference leaves unchanged, reading in consecutive blocks of any sizes until exhaustion yields, concatenated, exactly the rows of the file in order, and with or without the in-memory cache the same answers are returned for every sequence of calls. (For digit-only identifiers with leading zeros this fails: a counterexample is proved.)", "quantifier": "all files and block-size schedules", "why_tests_cant": "all read schedules", "anchors": ["src/sorcha/readers/ObjectDataReader.py:ObjectDataReader.read_rows", "src/sorcha/readers/CSVReader.py:CSVDataReader"]}
{"id": "C17", "title": "Reading by object returns exactly the requested objects", "statement": "read_objects returns exactly the rows whose ObjID is requested, in file order, with multiplicity; an id not in the file contributes nothing. For HDF5 tables this needs the stored index labels to be distinct (counterexample otherwise).", "quantifier": "all files and id lists", "why_tests_cant": "all files and id lists", "anchors": ["src/sorcha/readers/ObjectDataReader.py:ObjectDataReader.read_objects", "src/sorcha/readers/CSVReader.py:CSVDataReader._read_objects_internal"]}
{"id": "C18", "title": "Header detection never loses or misaligns data rows", "statement": "If the reader accepts a CSV file, the header is the first line that looks like a header and every later non-blank line is a data row that is read exactly once; a file with blank lines is never silently misaligned.", "quantifier": "all text files", "why_tests_cant": "all layouts of comments, blanks and header", "anchors": ["src/sorcha/readers/CSVReader.py:CSVDataReader._find_header_line"]}
{"id": "C19", "title": "Auxiliary files must describe the same objects", "statement": "The run is accepted only if all auxiliary files contain exactly the same object identifiers with the same multiplicity; joined rows pair each ephemeris row with the auxiliary data of its own object only, and with distinct identifiers every ephemeris row of the block appears exactly once (repeated identifiers are accepted and multiply rows: counterexample).", "quantifier": "all combinations of auxiliary files", "why_tests_cant": "all files", "anchors": ["src/sorcha/readers/CombinedDataReader.py:CombinedDataReader.check_aux_object_ids", "src/sorcha/readers/CombinedDataReader.py:CombinedDataReader.read_block"]}
{"id": "C20", "title": "Accepted orbits are physically admissible", "statement": "Every orbit accepted by the orbit reader has exactly one format per read block with all elements of that format present; Keplerian orbits with no missing values have 0 <= e < 1 and a >= 0, cometary orbits e >= 0 and q >= 0 (missing values are not rejected: counterexample).", "quantifier": "all orbit tables", "why_tests_cant": "all tables", "anchors": ["src/sorcha/readers/OrbitAuxReader.py:OrbitAuxReader"]}
{"id": "C21", "title": "Output file has one header and all chunks in order", "statement": "After any sequence of chunk writes the CSV output consists of a single header followed by the rows of all chunks in order, restricted to the requested columns.", "quantifier": "all sequences of chunks", "why_tests_cant": "all write histories", "anchors": ["src/sorcha/modules/PPOutput.py:PPOutWriteCSV", "src/sorcha/modules/PPOutput.py:PPWriteOutput"]}
{"id": "C22", "title": "Interrupted runs leave a prefix of the complete output", "statement": "If a run stops at any point between chunk writes, the output file holds exactly the rows of the chunks written so far, which is a prefix of the output of the uninterrupted run.", "quantifier": "all crash points", "why_tests_cant": "all crash points", "anchors": ["src/sorcha/sorcha.py:runLSSTSimulation", "src/sorcha/modules/PPOutput.py:PPWriteOutput"]}
{"id": "C23", "title": "Forced overwrite removes all stale output", "statement": "With -f, no file matching the output stem survives into the new run, so the new output holds only rows of the new run; without -f a run with an existing matching file is refused.", "quantifier": "all directory contents", "why_tests_cant": "all directory states", "anchors": ["src/sorcha/utilities/sorchaCommandLineParser.py:warn_or_remove_file"]}
{"id": "C24", "title": "Statistics table agrees with the observations", "statement": "For each object and filter the statistics row reports the true number of observations, minimum, maximum and median of the measured values of exactly that group, one row per non-empty group.", "quantifier": "all tables", "why_tests_cant": "all tables", "anchors": ["src/sorcha/modules/PPStats.py:stats"]}
{"id": "C25", "title": "Random streams of modules do not interfere", "statement": "The sequence of random numbers a module receives depends only on the base seed, the module name and that module's own earlier requests, not on which other modules draw or in which order.", "quantifier": "all interleavings of requests", "why_tests_cant": "all schedules", "anchors": ["src/sorcha/utilities/sorchaModuleRNG.py:PerModuleRNG"]}
{"id": "C26", "title": "Trailing loss is non-negative, zero for still objects and increasing with speed", "statement": "The trailing loss is zero exactly for unmoving sources, is non-negative and increases with rate of motion and exposure time and decreases with seeing.", "quantifier": "all real rates, declinations, exposure times and seeings in range", "why_tests_cant": "all real inputs", "anchors": ["src/sorcha/modules/PPTrailingLoss.py:calcTrailingLoss", "src/sorcha/modules/PPTrailingLoss.py:PPTrailingLoss"]}
{"id": "C27", "title": "SNR is five at the five-sigma depth and falls with magnitude", "statement": "The photometric SNR model gives exactly 5 for a source at the five-sigma depth, is positive, strictly decreasing in magnitude, strictly increasing with depth; photometric uncertainty is positive and increasing in magnitude, astrometric uncertainty never goes below the systematic floor.", "quantifier": "all real magnitudes and depths", "why_tests_cant": "all reals", "anchors": ["src/sorcha/modules/PPAddUncertainties.py:calcPhotometricUncertainty", "src/sorcha/modules/PPAddUncertainties.py:magnitudeAndUncertainty"]}
{"id": "C28", "title": "Vignetting only reduces depth", "statement": "Vignetting loss is zero on axis, never negative, non-decreasing with off-axis angle, and bounded; so the corrected five-sigma depth never exceeds the nominal one.", "quantifier": "all real angles", "why_tests_cant": "all reals", "anchors": ["src/sorcha/modules/PPVignetting.py:vignettingEffects", "src/sorcha/modules/PPVignetting.py:vignetteFactor"]}
{"id": "C29", "title": "Colour offsets are applied exactly once and to the right filter", "statement": "For every row the absolute magnitude used is the main-filter H plus the offset of the row's own filter (zero for the main filter), and the original H is preserved.", "quantifier": "all tables and filter sets", "why_tests_cant": "all tables", "anchors": ["src/sorcha/modules/PPApplyColourOffsets.py:PPApplyColourOffsets"]}
{"id": "C30", "title": "Apparent magnitude follows the inverse-square law", "statement": "Apparent magnitude equals reduced magnitude plus five times the decimal logs of heliocentric and observer distance in au: it strictly increases with either distance and one magnitude in H is one magnitude in the result.", "quantifier": "all positive distances", "why_tests_cant": "all reals", "anchors": ["src/sorcha/modules/PPCalculateApparentMagnitudeInFilter.py:PPCalculateApparentMagnitudeInFilter"]}
{"id": "C31", "title": "Faint-object culling never removes an observable object", "statement": "An object is culled only if, at every heliocentric distance not less than its perihelion distance and every observer distance compatible with an observer within 1.1 au of the Sun, its apparent magnitude in each observed filter stays fainter than the deepest visit in that filter.", "quantifier": "all objects, distances and visits", "why_tests_cant": "all geometries", "anchors": ["src/sorcha/modules/PPFaintObjectCullingFilter.py:PPFaintObjectCullingFilter"]}
{"id": "C32", "title": "Fading function is a decreasing probability, half the peak at the limit", "statement": "Detection probability lies in [0, peak], is strictly decreasing in magnitude, and equals half the peak at the limiting magnitude.", "quantifier": "all reals, widths > 0, peaks in [0,1]", "why_tests_cant": "all reals", "anchors": ["src/sorcha/modules/PPDetectionProbability.py:calcDetectionProbability", "src/sorcha/modules/DESDetectionProbability.py:DEScalcDetectionProbability"]}
{"id": "C33", "title": "RA/Dec and unit vectors are inverse", "statement": "Converting RA/Dec to a unit vector and back returns the same direction with RA in [0,360) and Dec in [-90,90]; every vector produced has length one.", "quantifier": "all directions", "why_tests_cant": "all reals", "anchors": ["src/sorcha/modules/PPRandomizeMeasurements.py:icrf2radec", "src/sorcha/modules/PPRandomizeMeasurements.py:radec2icrf", "src/sorcha/ephemeris/simulation_geometry.py:ra_dec2vec"]}
{"id": "C34", "title": "Frame rotations are inverse isometries", "statement": "Ecliptic/equatorial conversions are mutually inverse and preserve lengths and angles.", "quantifier": "all vectors", "why_tests_cant": "all reals", "anchors": ["src/sorcha/ephemeris/simulation_geometry.py", "src/sorcha/ephemeris/simulation_constants.py"]}
{"id": "C35", "title": "Sky-rate basis is orthonormal", "statement": "The residual vectors used to project motion on the sky form a right-handed orthonormal triad with the line of sight.", "quantifier": "all non-polar directions", "why_tests_cant": "all reals", "anchors": ["src/sorcha/ephemeris/simulation_driver.py:get_residual_vectors"]}
{"id": "C36", "title": "A point is on a detector only if inside its outline", "statement": "The segmented-area test accepts a point exactly when it lies in the convex detector outline (up to tolerance), and with an edge threshold only when it is further than the threshold from every edge.", "quantifier": "all convex quadrilaterals and points", "why_tests_cant": "all reals", "anchors": ["src/sorcha/modules/PPFootprintFilter.py:Detector.ison", "src/sorcha/modules/PPFootprintFilter.py:distToSegment"]}
{"id": "C37", "title": "Circular footprint keeps points inside the circle", "statement": "The circular footprint keeps exactly the rows whose separation from the field centre is below the radius; the fill factor drops rows independent of position.", "quantifier": "all tables", "why_tests_cant": "all tables", "anchors": ["src/sorcha/modules/PPApplyFOVFilter.py:PPCircleFootprint", "src/sorcha/modules/PPApplyFOVFilter.py:PPSimpleSensorArea"]}
{"id": "C38", "title": "Quadratic interpolation is exact where it must be", "statement": "The three-point interpolation reproduces the tabulated vectors at the nodes, is exact for quadratic motion, and weights always sum to one.", "quantifier": "all times and node vectors", "why_tests_cant": "all reals", "anchors": ["src/sorcha/ephemeris/pixel_dict.py:lagrange3"]}
{"id": "C39", "title": "The interpolation nodes always bracket the requested time", "statement": "After each update the central node is within half a picket interval of the requested time, for any sequence of requested times.", "quantifier": "all request schedules", "why_tests_cant": "all histories", "anchors": ["src/sorcha/ephemeris/pixel_dict.py:PixelDict.update_pickets"]}
{"id": "C40", "title": "Interpolated positions are for the right object and time", "statement": "After any sequence of requests the cached vectors are those of the three current node times for every object.", "quantifier": "all request histories", "why_tests_cant": "all histories", "anchors": ["src/sorcha/ephemeris/pixel_dict.py:PixelDict"]}
{"id": "C41", "title": "Ephemeris rows are exactly the in-field candidates", "statement": "A row (object, visit) is emitted exactly when the object is a candidate for the visit and both the interpolated and the precise direction are within the field radius plus buffer; each pair at most once.", "quantifier": "all object lists, pointings and orbit oracles", "why_tests_cant": "all inputs", "anchors": ["src/sorcha/ephemeris/simulation_driver.py:create_ephemeris"]}
{"id": "C42", "title": "Kepler solver is bracketed and terminates", "statement": "The safeguarded root finder only evaluates inside the initial bracket, stops after a bounded number of iterations, and a returned root lies within the bracket.", "quantifier": "all functions and brackets", "why_tests_cant": "all functions", "anchors": ["src/sorcha/ephemeris/orbit_conversion_utilities.py:halley_safe"]}
{"id": "C43", "title": "Orbit conversions conserve the two-body invariants", "statement": "Cartesian states produced from cometary or Keplerian elements have the angular momentum and energy implied by the elements.", "quantifier": "all admissible elements", "why_tests_cant": "all reals", "anchors": ["src/sorcha/ephemeris/orbit_conversion_utilities.py:universal_cometary", "src/sorcha/ephemeris/orbit_conversion_utilities.py:universal_cartesian"]}
{"id": "C44", "title": "Orbit formats are dispatched correctly", "statement": "Each of the six supported orbit formats is converted with its own element set, the heliocentric formats and only these are shifted to the barycentre, and unknown formats are rejected.", "quantifier": "all rows", "why_tests_cant": "all rows", "anchors": ["src/sorcha/ephemeris/simulation_parsing.py:parse_orbit_row"]}
{"id": "C45", "title": "Observatory positions are used whenever they are known", "statement": "For each observatory with parallax constants the geocentric position is computed from them; only observatories lacking constants are treated as missing.", "quantifier": "all observatory records", "why_tests_cant": "all records incl. zeros", "anchors": ["src/sorcha/ephemeris/simulation_parsing.py:Observatory.convert_to_geocentric"]}
{"id": "C46", "title": "Accepted configurations are internally consistent", "statement": "Any configuration accepted by validation satisfies every documented constraint (bounds, mutual exclusions, all-or-none groups) that later stages rely on.", "quantifier": "all configurations", "why_tests_cant": "all combinations of keys", "anchors": ["src/sorcha/utilities/sorchaConfigs.py"]}
{"id": "C47", "title": "Custom data files are never fetched from the default location", "statement": "If a user overrides the name of an auxiliary data file without giving a URL, no download URL is associated with that name.", "quantifier": "all configurations", "why_tests_cant": "all combinations", "anchors": ["src/sorcha/utilities/sorchaConfigs.py:auxiliaryConfigs"]}
{"id": "C48", "title": "Main filter and colour columns are recognised for every filter order", "statement": "Given a physical parameters header with one H column and colour columns, the main filter and the needed offsets are those of the header, for any order of observing filters.", "quantifier": "all headers and filter lists", "why_tests_cant": "all headers", "anchors": ["src/sorcha/modules/PPGetMainFilterAndColourOffsets.py:PPGetMainFilterAndColourOffsets"]}
{"id": "C49", "title": "Only completed runs are reported successful", "statement": "A log is classified as successful exactly when its last line is the completion message; a run stopped at any earlier point is reported as failed.", "quantifier": "all logs and crash points", "why_tests_cant": "all crash points", "anchors": ["src/sorcha/utilities/check_output_logs.py:check_all_logs"]}
{"id": "C50", "title": "Long kernel paths are split losslessly", "statement": "Splitting a path for SPICE preserves the path when pieces are rejoined and each piece respects the limit.", "quantifier": "all strings", "why_tests_cant": "all strings", "anchors": ["src/sorcha/utilities/generate_meta_kernel.py:_split_kernel_path_str"]}
{"id": "C51", "title": "Observations are matched to their own visit", "statement": "Each observation gets the pointing information of the pointing with its FieldID; observations without a pointing in the selected filters are dropped; a time mismatch stops the run.", "quantifier": "all tables", "why_tests_cant": "all tables", "anchors": ["src/sorcha/modules/PPMatchPointingToObservations.py:PPMatchPointingToObservations"]}
{"id": "C52", "title": "Pointing filter selection and midpoint times", "statement": "Only pointings in the selected filters are used and the midpoint time is the start plus half of the visit time.", "quantifier": "all pointing tables", "why_tests_cant": "all tables", "anchors": ["src/sorcha/modules/PPReadPointingDatabase.py:PPReadPointingDatabase"]}
{"id": "C53", "title": "DES discovery criteria", "statement": "An object is kept by the DES discovery filter exactly when it meets the documented criteria (number of unique nights, arc length after cuts, triplets).", "quantifier": "all observation histories", "why_tests_cant": "all histories", "anchors": ["src/sorcha/modules/DESDiscoveryFilter.py:DESDiscoveryFilter"]}
{"id": "C54", "title": "Merging result databases loses no rows", "statement": "The merged results table contains every row of every selected result database exactly once.", "quantifier": "all database sets", "why_tests_cant": "all sets", "anchors": ["src/sorcha/utilities/createResultsSQLDatabase.py:create_results_table"]}
{"id": "C55", "title": "Randomised measurements keep the true values and only add noise", "statement": "After randomisation the true magnitudes and positions are preserved, rows with SNR not above the default cut are removed exactly when that cut is on, and zero noise leaves measurements unchanged.", "quantifier": "all tables and draws", "why_tests_cant": "all draws", "anchors": ["src/sorcha/modules/PPRandomizeMeasurements.py:randomizeAstrometryAndPhotometry"]}
{"id": "C56", "title": "Linking never fails on night-time observations and names the right observation", "statement": "If every observation is taken at night (well inside a day counted from local noon), linking returns normally for every table and setting; when an object is linked, the reported discovery night is one on which it was linkable and the reported discovery observation is one of its own observations inside the trailing window, the earliest there.", "quantifier": "all observation tables, linking parameters with positive window, tracklet and observation counts, all random draws", "why_tests_cant": "the internal assertions and empty-slice errors would only show on rare window positions and random draws", "anchors": ["src/sorcha/modules/PPMiniDifi.py: linkObject", "src/sorcha/modules/PPLinkingFilter.py: PPLinkingFilter"]}
{"id": "C57", "title": "Cached readers never serve data that failed validation", "statement": "Whatever sequence of read calls a client makes on one reader, every table it is given has passed the reader's validation; with the in-memory cache the answers do not depend on the history of calls.", "quantifier": "all call sequences, all tables", "why_tests_cant": "Depends on every history of calls, including calls after a failed one.", "anchors": ["src/sorcha/readers/ObjectDataReader.py:read_rows", "src/sorcha/readers/ObjectDataReader.py:read_objects"]}
{"id": "C58", "title": "Meta kernel entries name the cached kernels", "statement": "Every kernel path listed in the generated SPICE meta kernel expands, with the path symbol replaced by the cache directory, to the path of the cached kernel (for paths that do not themselves contain the symbol).", "quantifier": "all cache directories and kernel paths", "why_tests_cant": "Replacement is textual; whether it can be undone depends on the directory name chosen by the user.", "anchors": ["src/sorcha/utilities/generate_meta_kernel.py:build_meta_kernel_file"]}
{"id": "C59", "title": "Output rounding touches exactly the configured columns", "statement": "A configured number of decimals for positions or magnitudes rounds exactly the position or magnitude columns of the output to that many decimals, for every accepted number of decimals, and leaves all other values alone.", "quantifier": "all configurations, tables and rows", "why_tests_cant": "Tests use one number of decimals and a few columns.", "anchors": ["src/sorcha/modules/PPOutput.py:PPWriteOutput"]}
{"id": "C60", "title": "Forced overwriting deletes only files of the output stem", "statement": "With -f at most one file is deleted per checked stem and its name starts with the stem followed by a dot; no other file changes.", "quantifier": "all directory contents, all stems", "why_tests_cant": "Depends on what else is in the directory and on shell pattern characters in the stem.", "anchors": ["src/sorcha/utilities/sorchaCommandLineParser.py:warn_or_remove_file"]}
{"id": "C61", "title": "A SQLite run that wrote its rows completes", "statement": "If every chunk of a run could be written to the SQLite database, the run completes, whatever columns were requested.", "quantifier": "all accepted column lists, all chunks", "why_tests_cant": "The final indexing step refers to columns independently of the requested ones.", "anchors": ["src/sorcha/modules/PPOutput.py:PPIndexSQLDatabase", "src/sorcha/sorcha.py:runLSSTSimulation"]}
{"id": "C62", "title": "Results and statistics are kept apart", "statement": "The results file of a run with statistics consists of the header and the result rows only.", "quantifier": "all chunks, all accepted file stems", "why_tests_cant": "Both writers append to whatever file exists; tests use different stems.", "anchors": ["src/sorcha/modules/PPStats.py:stats", "src/sorcha/modules/PPOutput.py:PPOutWriteCSV"]}
{"id": "C63", "title": "The light-time iteration converges to the true light time", "statement": "For an object whose speed is at most v along its trajectory, the emission time used after n iterations differs from the exact one by at most (v/c)^(n-1) times the error of the initial guess, the returned light time by at most (v/c)^n times it, and the returned position is the object's position at that emission time.", "quantifier": "all trajectories with bounded speed, all observer positions, all iteration counts", "why_tests_cant": "Tests check one trajectory; the rate of convergence is a statement about every trajectory.", "anchors": ["src/sorcha/ephemeris/simulation_geometry.py:integrate_light_time", "src/sorcha/ephemeris/simulation_driver.py:create_ephemeris"]}
{"id": "C64", "title": "Reported sky rates are the time derivatives of the reported coordinates", "statement": "RARateCosDec and DecRate in the ephemeris are the derivatives of right ascension (times cos dec) and declination along the apparent motion; the range rate is the projection of the relative velocity on the line of sight.", "quantifier": "all differentiable apparent motions away from the poles", "why_tests_cant": "Derivatives of arbitrary motions cannot be enumerated.", "anchors": ["src/sorcha/ephemeris/simulation_driver.py:calculate_rates_and_geometry"]}
{"id": "C65", "title": "The phase angle is the angle at the object between Sun and observer", "statement": "The reported phase angle lies in [0,180] degrees and its cosine is the cosine of the angle between the directions from the object to the Sun and to the observer.", "quantifier": "all non-degenerate configurations of Sun, observer and object", "why_tests_cant": "A statement about all geometries; tests compare single numbers.", "anchors": ["src/sorcha/ephemeris/simulation_driver.py:calculate_rates_and_geometry"]}
{"id": "C66", "title": "The linking filter's separation is the great-circle distance", "statement": "The separation computed between two detections is the angle between their directions: symmetric, zero exactly for the same direction, and insensitive to right-ascension wrap-around and to the poles.", "quantifier": "all pairs of coordinates", "why_tests_cant": "Wrap-around and polar pairs are measure-zero in test data.", "anchors": ["src/sorcha/modules/PPMiniDifi.py:haversine_np"]}
{"id": "C67", "title": "Flux and magnitude conversions are inverse and decreasing", "statement": "flux2mag and mag2flux undo each other on positive fluxes, brighter flux means smaller magnitude, and five magnitudes are a factor of one hundred.", "quantifier": "all positive fluxes, all magnitudes, all positive zero points", "why_tests_cant": "Statement over all reals.", "anchors": ["src/sorcha/modules/PPRandomizeMeasurements.py:flux2mag", "src/sorcha/modules/PPRandomizeMeasurements.py:mag2flux"]}
{"id": "C69", "title": "The built-in identity variability models can be selected and change nothing", "statement": "Selecting the built-in identity light curve or identity cometary activity runs to completion and leaves every magnitude, and the set of culled objects, as without a variability model. A light curve that gives each row a shift changes the magnitude of each row by its own shift, and cometary activity works on the shifted magnitudes.", "quantifier": "all tables, filter lists and pointings", "why_tests_cant": "the claim ranges over every table and every combination with the culling stage", "anchors": ["src/sorcha/lightcurves/identity_lightcurve.py:IdentityLightCurve", "src/sorcha/activity/identity_activity.py:IdentityCometaryActivity", "src/sorcha/modules/PPCalculateSimpleCometaryMagnitude.py:PPCalculateSimpleCometaryMagnitude", "src/sorcha/modules/PPFaintObjectCullingFilter.py:PPFaintObjectCullingFilter"]}
{"id": "C68", "title": "Object names survive the ephemeris generator", "statement": "Every row of the generated ephemeris keeps the identifier of the object it was computed for and is joined with that object's own orbit.", "quantifier": "all object names, all generated rows, all orbit tables with one row per object", "why_tests_cant": "column type inference depends on every name in the chunk", "anchors": ["src/sorcha/ephemeris/simulation_driver.py:create_ephemeris"]}
{"id": "C70", "title": "Repeating a run with the same seed repeats its measurements", "statement": "Two runs with the same inputs and the same seed generate the same ephemeris rows, in the same order, and so give every detection the same random measurement errors.", "quantifier": "all inputs, seeds and interpreter runs (any iteration order of Python sets)", "why_tests_cant": "tests run in one interpreter with one hash seed", "anchors": ["src/sorcha/ephemeris/simulation_driver.py:create_ephemeris", "src/sorcha/ephemeris/pixel_dict.py:PixelDict.get_designations", "src/sorcha/modules/PPRandomizeMeasurements.py:randomizePhotometry"]}
{"id": "C71", "title": "The footprint filter keeps each observation once, with the detector it falls on", "statement": "With the camera footprint on, an observation is kept exactly when its focal plane position is on some detector, it appears once in the output in its original order, and its detectorID is the number of that detector.", "quantifier": "all tables of observations, footprints and edge thresholds", "why_tests_cant": "tests use one camera file whose detectors do not overlap", "anchors": ["src/sorcha/modules/PPApplyFOVFilter.py:PPApplyFOVFilter", "src/sorcha/modules/PPFootprintFilter.py:Footprint.applyFootprint"]}
{"id": "C72", "title": "Focal plane coordinates identify the direction on the sky", "statement": "The focal plane position of an observation determines its direction relative to the field: the distance from the origin is the tangent of the angle to the field centre whatever the camera rotation, and two directions with the same coordinates are the same.", "quantifier": "all directions, field centres and rotation angles", "why_tests_cant": "tests compare a few positions near the field centre", "anchors": ["src/sorcha/modules/PPFootprintFilter.py:radec_to_tangent_plane", "src/sorcha/modules/PPFootprintFilter.py:radec_to_focal_plane"]}
{"id": "C73", "title": "Detectors can be given in degrees and rotated", "statement": "A detector built from corners in degrees is the one built from the same corners in radians, and rotateDetector turns the outline about the origin by the given angle.", "quantifier": "all corner lists and angles", "why_tests_cant": "the tests build detectors in radians and do not compare a rotated detector with the original", "anchors": ["src/sorcha/modules/PPFootprintFilter.py:Detector.__init__", "src/sorcha/modules/PPFootprintFilter.py:Detector.rotateDetector"]}
{"id": "C74", "title": "Detection on a visit's CCDs depends on the observation alone", "statement": "With the visits footprint, whether an observation is kept, and the detector and limiting magnitude it is given, depend on its own position and its visit's CCDs, not on the other observations in the chunk.", "quantifier": "all tables of observations, CCD layouts, buffers and set iteration orders", "why_tests_cant": "the CCDs tested for a point are pooled over all points of the visit, so the outcome varies with the company a test happens to choose", "anchors": ["src/sorcha/modules/PPVisitsFootprintFilter.py:PPVisitsFootprint", "src/sorcha/modules/PPApplyFOVFilter.py:PPApplyFOVFilter"]}
{"id": "C75", "title": "Elements computed from a state describe that state's orbit", "statement": "Cometary elements computed from a position and velocity have the energy, angular momentum and orbit plane of that state, recover the perihelion distance and eccentricity of the orbit it was made from, and the perihelion time is a time at which the object is at perihelion.", "quantifier": "all states with non-zero angular momentum", "why_tests_cant": "Tests convert a handful of states in general position; states on a coordinate plane or at an apse are a measure-zero set which random tests never hit.", "anchors": ["src/sorcha/ephemeris/orbit_conversion_utilities.py:universal_cometary"]}
{"id": "C76", "title": "The perihelion distance used for culling is that of the object's orbit", "statement": "Whatever format an orbit is given in, the perihelion distance estimated for faint-object culling is the perihelion distance of the heliocentric orbit on which the ephemeris places the object.", "quantifier": "all orbit rows, formats and positions of the Sun", "why_tests_cant": "Tests compare a few rows per format with stored values and do not relate the two independent parsing functions.", "anchors": ["src/sorcha/ephemeris/simulation_parsing.py:get_perihelion_row", "src/sorcha/modules/PPFaintObjectCullingFilter.py:PPEstimatePerihelion"]}
{"id": "C77", "title": "An accepted configuration holds the values written in the file", "statement": "In an accepted configuration every number, name and list of the sections other than AUXILIARY, and the switches drop_unlinked, fading_function_on, default_snr_cut, brute_force, randomization_on, vignetting_on and trailing_losses_on, is what Python reads from the text of its own key in its own section: numbers as int() or float() read them, lists as the text between the commas in order with surrounding blanks removed, switches by their documented spellings; an absent optional key gives the documented default. A section with a key that is not documented is not accepted. The order of the sections and of the keys within a section does not matter.", "quantifier": "all configuration files and surveys", "why_tests_cant": "a swapped or misread key only shows for the combination of keys that is used, and there are unboundedly many files", "anchors": ["src/sorcha/utilities/sorchaConfigs.py:sorchaConfigs._read_configs_from_object", "src/sorcha/utilities/sorchaConfigs.py:cast_as_bool"]}
{"id": "C78", "title": "A Dark Energy Survey simulation writes exactly the observations that its enabled cuts and the discovery criteria allow", "statement": "Every observation written by a DES simulation joins an ephemeris row with a pointing of its field and a selected filter, falls on the camera, meets the enabled magnitude and saturation limits, moves within the motion limits, belongs to an object seen on the camera at an allowed heliocentric distance, and, with the discovery filter on, the written observations of its object meet the discovery criteria. With the fading function and fill factor off the converse holds (up to the triplet search of C53): exactly these observations are written. No ephemeris row is written more often than it was read. With a deterministic camera, the union of the written rows does not depend on the chunk size.", "quantifier": "all pointings, ephemerides, auxiliary tables, measured values, camera footprints, cut bounds that are finite and not negative, draws, chunk sizes", "why_tests_cant": "the tests exercise the cuts one at a time on a short table; whether the order of the cuts, the empty-table shortcuts and the chunking change the catalogue depends on all combinations", "anchors": ["src/sorcha/des.py:runDESSimulation", "src/sorcha/modules/PPDistanceandMotionCuts.py", "src/sorcha/modules/DESDiscoveryFilter.py", "src/sorcha/modules/PPApplyFOVFilter.py"]}
{"id": "C80", "title": "The configuration files that come with the package are accepted and mean what their documentation says", "statement": "Started for its survey, with the inputs it needs on the command line, each shipped configuration file is accepted; the Rubin files and the demo file switch on linking, saturation, fading, vignetting, trailing losses and randomisation with the documented values, and the known-object prediction switches all of them off.", "quantifier": "the five shipped files; all parse functions that read their decimal numbers, file systems, registries of models and other command-line arguments", "why_tests_cant": "no test reads the shipped DES file; the tests of the configuration build their own dictionaries", "anchors": ["src/sorcha/data/survey_setups", "src/sorcha/data/demo/sorcha_config_demo.ini", "src/sorcha/utilities/sorchaConfigs.py:sorchaConfigs", "src/sorcha/utilities/sorchaConfigs.py:fadingfunctionConfigs"]}
{"id": "C79", "title": "A round that detects something writes exactly the documented columns", "statement": "If a configuration is accepted and the input files have the documented columns, then a round in which observations are left never stops because a column is missing; the catalogue has the basic columns (with object_linked when unlinked observations are kept), all columns (those of the ephemeris, of the input files, of the pointings and the computed ones, and no others), or the requested list, and a requested column that does not exist stops the run. A column that the chosen light curve or activity model requires and that no input file has stops the run as well.", "quantifier": "all accepted configurations of both surveys, all further columns of the input files, all required columns of light curve and activity models, with and without statistics", "why_tests_cant": "the columns that exist at the end depend on every switch of the configuration and on the columns of four input files", "anchors": ["src/sorcha/sorcha.py:runLSSTSimulation", "src/sorcha/des.py:runDESSimulation", "src/sorcha/modules/PPOutput.py:PPWriteOutput", "src/sorcha/modules/PPApplyColourOffsets.py", "src/sorcha/modules/PPMatchPointingToObservations.py"]}
{"id": "C81", "title": "A run starts exactly when its command is in order", "statement": "`sorcha run` calls the simulation of the survey named with -s (rubin_sim or RUBIN_SIM: runLSSTSimulation; DES or des: runDESSimulation), with the arguments of the command line and with the seed of SORCHA_SEED if that is set, exactly when: the files of -p, --ob, -c, --pd and, if given, --er, --cp and --vd exist; -o and, if given, --ar are directories; the configuration file is accepted and fits the command line; and, unless -f is given, no output of the same ephemeris, statistics or result stem is present. When the simulation is called all these files are there.", "quantifier": "all command lines, all file systems, all configuration files, all environments", "why_tests_cant": "The conditions are spread over four modules and checked in an order that changes the file system in between; tests try single commands in an empty directory.", "anchors": ["src/sorcha_cmdline/run.py:execute", "src/sorcha/utilities/sorchaCommandLineParser.py:sorchaCommandLineParser", "src/sorcha/utilities/sorchaArguments.py:validate_arguments", "src/sorcha/utilities/fileAccessUtils.py:FindFileOrExit"]}
{"id": "C82", "title": "A command that is rejected leaves all earlier results in place", "statement": "When `sorcha run` refuses to start a simulation, for whatever reason, every file other than its own two log files is as it was before the command. In any case it never touches a file that is not one of its logs and not named after the stems given on the command line.", "quantifier": "all command lines, all file systems, all reasons for rejection", "why_tests_cant": "Tests look at the exit, not at the files that were there before, and cannot combine every reason for rejection with every content of the output directory.", "anchors": ["src/sorcha_cmdline/run.py:execute", "src/sorcha/utilities/sorchaCommandLineParser.py:warn_or_remove_file"]}
{"id": "C83", "title": "A command that cannot be run is rejected with an error message", "statement": "When `sorcha run` does not start a simulation it ends with sys.exit and a message that names the mistake; no mistake in the command line, the environment or the choice of files surfaces as an unhandled Python exception.", "quantifier": "all command lines, all file systems, all configuration files, all environments", "why_tests_cant": "Every combination of wrong arguments would have to be tried; the tests check the anticipated ones.", "anchors": ["src/sorcha_cmdline/run.py:execute", "src/sorcha/utilities/sorchaCommandLineParser.py:sorchaCommandLineParser", "src/sorcha/utilities/sorchaGetLogger.py:sorchaGetLogger"]}
{"id": "C84", "title": "Forced overwriting never deletes the inputs of the run", "statement": "With -f, `sorcha run` deletes earlier outputs but none of the files that it is itself told to read (-p, --ob, -c, --pd, --er, --cp, --vd): these have the same contents when the simulation is called as before.", "quantifier": "all command lines with -f, all file systems", "why_tests_cant": "It depends on how inputs and outputs are named and where they lie; tests keep them apart.", "anchors": ["src/sorcha/utilities/sorchaCommandLineParser.py:warn_or_remove_file", "src/sorcha/utilities/sorchaCommandLineParser.py:sorchaCommandLineParser", "src/sorcha_cmdline/run.py:execute"]}
{"id": "C85", "title": "An external ephemeris is accepted exactly when it has the documented columns", "statement": "A table read from an external ephemeris file is accepted exactly when it has all the documented headings and no others than these and fieldJD_TDB, V and V(H=0); blanks around a heading and the order of the columns do not matter.  An accepted table has the documented columns in the documented order, and every row keeps its identifier and its value under each heading.  A table that is not accepted is rejected with an error message.", "quantifier": "all tables with distinct headings, all orders of columns, all values", "why_tests_cant": "The check compares sets of headings and then selects by name; tests try one good file and one with a wrong heading.", "anchors": ["src/sorcha/readers/EphemerisReader.py:EphemerisDataReader._process_and_validate_input_table"]}
{"id": "C86", "title": "A saved ephemeris can be used instead of generating it", "statement": "When a run saves its ephemeris, a run that reads this file in the same format gets for any set of objects exactly the saved rows of these objects, in order and with every value under its own heading, whatever the chunk sizes of the two runs; in particular, with equal chunks every round of the second run starts from the same observations, joined with the same orbits and parameters, as the round that generated them.", "quantifier": "all accepted ephemeris formats, all rows whose names and values need no quotation marks and are not changed by type inference, all partitions into rounds, all auxiliary tables with one row per object", "why_tests_cant": "Writing appends round by round and reading selects by object; tests save and read a single round in one format.", "anchors": ["src/sorcha/ephemeris/simulation_driver.py:write_out_ephemeris_file", "src/sorcha/ephemeris/simulation_driver.py:create_ephemeris", "src/sorcha/modules/PPOutput.py:PPOutWriteCSV", "src/sorcha/modules/PPOutput.py:PPOutWriteHDF5", "src/sorcha/readers/EphemerisReader.py:EphemerisDataReader", "src/sorcha/readers/HDF5Reader.py:HDF5DataReader._read_objects_internal", "src/sorcha/readers/CombinedDataReader.py:CombinedDataReader.read_block"]}
{"id": "C87", "title": "A camera file may list detector corners in any order", "statement": "The camera footprint has exactly one detector for each name in the detector column of the corner file, numbered in the order in which the names first appear. If the corners of each detector are the corners of a strictly convex outline, the detector of a name accepts the points inside that outline (and none outside by more than the tolerance) in whatever order, and however interleaved with other detectors, the corner rows are listed; listing the rows in another order gives the same detectors.", "quantifier": "all corner files", "why_tests_cant": "The tests use the two shipped files, whose rows are grouped by detector; the number of orders of the rows is factorial.", "anchors": ["src/sorcha/modules/PPFootprintFilter.py:Footprint.__init__", "src/sorcha/modules/PPFootprintFilter.py:Detector.sortCorners"]}
{"id": "C88", "title": "The log records the settings of a run", "statement": "Once a configuration is accepted, writing it to the log cannot fail, and the log tells the settings with which the results were made: for the input files, formats, filters, switches, the camera, the limits, the fading function, the linking filter, the ephemeris generator, the light-curve and activity models and the output, the log contains the line for a value if and only if the run uses that value.", "quantifier": "all accepted configurations and command lines, all spellings of numbers", "why_tests_cant": "The log is built from some fifty branches on the settings; a test compares the log of one or two configurations, and does not see a setting that leaves no trace or a line about a setting that is not applied.", "anchors": ["src/sorcha/utilities/sorchaConfigs.py:PrintConfigsToLog", "src/sorcha/sorcha.py:runLSSTSimulation", "src/sorcha/des.py:runDESSimulation"]}
{"id": "C89", "title": "Every object is propagated from its own orbit", "statement": "For every row of the orbit table one simulation is started, under the row's ObjID, at the row's epoch (a modified Julian date, or a Julian date) and in the state its own elements describe, whatever other rows the table has; a row that does not give a state ends the run, and no simulation is returned.", "quantifier": "all orbit tables, epochs, formats, positions of the Sun", "why_tests_cant": "A test starts a few objects; that the shared cache of solar positions, the order of the rows and the other rows never matter is a statement about all tables.", "anchors": ["src/sorcha/ephemeris/simulation_setup.py:generate_simulations", "src/sorcha/ephemeris/simulation_parsing.py:parse_orbit_row"]}
{"id": "C90", "title": "Each visit is seen from where the observatory is at its midpoint", "statement": "For an observatory with non-zero parallax constants, every visit gets a time that differs from the TDB Julian date of its midpoint by at most 0.0432 s plus the difference between TDB and TT, visits keep their order in time, the position of the observatory is that of the Earth plus the rotated parallax vector at this time, its velocity differs from the true one by at most a sixth of the Earth's radius times 100 s^2 times the third derivative of the rotation, the Sun is taken at the same time, and all of this depends on the visit alone.", "quantifier": "all pointing tables, observatories, Earth orientations and ephemerides", "why_tests_cant": "Error bounds over all times and all smooth rotations, and independence of all other rows, cannot be sampled.", "anchors": ["src/sorcha/ephemeris/simulation_setup.py:precompute_pointing_information", "src/sorcha/ephemeris/simulation_geometry.py:barycentricObservatoryRates", "src/sorcha/ephemeris/simulation_parsing.py:mjd_tai_to_epoch"]}
{"id": "C91", "title": "A run uses the data files its configuration names, and the cache can be trusted", "statement": "Before ephemerides are generated, a run loads exactly the SPICE kernels named in its configuration, from its cache directory and from the least to the most precise, and opens the planetary, small-body and observatory files it names; files already in the cache are neither changed nor downloaded again, missing ones come from the configured address, and a complete cache needs no network. A failed run or bootstrap never makes a later run use wrong files, and sorcha bootstrap, also with --force, ends normally only with a complete cache and ends normally whenever every download succeeds.", "quantifier": "all AUXILIARY sections, cache contents, network failures and histories of commands on a cache", "why_tests_cant": "The cache outlives the runs; what is loaded depends on the whole history of earlier configurations and failed downloads, and the tests run with one complete cache.", "anchors": ["src/sorcha/ephemeris/simulation_setup.py:furnish_spiceypy", "src/sorcha/ephemeris/simulation_setup.py:_create_assist_ephemeris", "src/sorcha/ephemeris/simulation_parsing.py:Observatory.__init__", "src/sorcha/utilities/generate_meta_kernel.py:build_meta_kernel_file", "src/sorcha/utilities/retrieve_ephemeris_data_files.py:_remove_files", "src/sorcha_cmdline/bootstrap.py:execute"]}
{"id": "C92", "title": "The commands beside sorcha run leave a user's files alone", "statement": "The commands init, demo prepare and outputs check-logs neither change nor remove a file of the user unless --force is given, and then only the files they are going to write. When a command ends normally the files asked for are there with the contents that come with sorcha, and when it refuses the directory is as it was. A report of check-logs has every log file below the directory once, and says of each whether its run was completed; it is written exactly when a run failed, and a file is removed only if the new report takes its place.", "quantifier": "all directory contents, menu entries, output names, log files, with and without --force", "why_tests_cant": "The tests copy into empty temporary directories or into one with all files; what is lost depends on which files are already there and on the names chosen.", "anchors": ["src/sorcha_cmdline/init.py:execute", "src/sorcha_cmdline/init.py:parse_file_selection", "src/sorcha_cmdline/demo.py:cmd_demo_prepare", "src/sorcha_cmdline/outputs.py:cmd_outputs_check_logs", "src/sorcha/utilities/sorcha_copy_configs.py:copy_demo_configs", "src/sorcha/utilities/sorcha_copy_demo_files.py:copy_demo_files", "src/sorcha/utilities/check_output_logs.py:check_output_logs"]}
{"id": "C93", "title": "With a table of CCDs an observation is kept exactly when it falls on one", "statement": "With the visits footprint, an observation is kept exactly when its position, whole turns of right ascension apart, lies inside one of the CCDs listed for its visit. It is kept once, with that CCD's detector and limiting magnitude.", "quantifier": "all tables of observations, cameras made of equal CCDs in rows, buffers and set iteration orders", "why_tests_cant": "only the CCDs owning one of the three corners or centres nearest to some observation are tested; whether that always includes the right one depends on the geometry of the whole camera and every position on it", "anchors": ["src/sorcha/modules/PPVisitsFootprintFilter.py:PPVisitsFootprint", "src/sorcha/modules/PPApplyFOVFilter.py:PPApplyFOVFilter"]}
{"id": "C94", "title": "States of elliptic orbits are the two-body positions at the epoch", "statement": "For elements of an elliptic orbit (perihelion distance q > 0, eccentricity e < 1, angles, time of perihelion, epoch) universal_cartesian ends, and the state it returns lies on the ellipse with those elements, at the eccentric anomaly E that solves Kepler's equation E - e sin E = n (epoch - tp) modulo whole turns, with the velocity of two-body motion there; the residual of Kepler's equation and the distances to the exact position and velocity are below stated small bounds.", "quantifier": "all gravitational parameters, perihelion distances, eccentricities below 1, angles, times of perihelion and epochs", "why_tests_cant": "Tests convert a few orbits and compare with stored vectors; an error of the series, of the doubling steps, of the period reduction or of the acceptance test of the root finder that shows only for some eccentricities or phases goes unseen.", "anchors": ["src/sorcha/ephemeris/orbit_conversion_utilities.py:stumpff", "src/sorcha/ephemeris/orbit_conversion_utilities.py:root_function", "src/sorcha/ephemeris/orbit_conversion_utilities.py:halley_safe", "src/sorcha/ephemeris/orbit_conversion_utilities.py:universal_cartesian"]}
{"id": "C95", "title": "Elements and states convert into each other and back", "statement": "Converting the position and velocity of a bound object to cometary elements and those back to a state gives the position and velocity one started from, and converting a state on a conic to elements gives the elements that describe it: perihelion distance, eccentricity and inclination exactly, node and argument of perihelion up to whole turns, perihelion time up to whole periods.", "quantifier": "all states and conics in general position: orbit plane neither in nor at a right angle to a coordinate plane, object not on the line of nodes nor at a right angle to it, true anomaly not a multiple of ninety degrees, eccentricity not 1", "why_tests_cant": "Tests convert a few orbits there and back and compare to a tolerance; they do not show that the angles and the perihelion time found determine the same orbit for every state.", "anchors": ["src/sorcha/ephemeris/orbit_conversion_utilities.py:universal_cometary", "src/sorcha/ephemeris/orbit_conversion_utilities.py:universal_cartesian"]}
{"id": "C96", "title": "States of hyperbolic and parabolic orbits are the two-body positions at the epoch", "statement": "For elements of a hyperbolic or parabolic orbit (perihelion distance q > 0, eccentricity e >= 1) the search for a bracket in universal_cartesian ends after at most 4/q + 2 steps. A state returned for e > 1 lies, up to stated small bounds relative to its size, on the hyperbola with those elements at a hyperbolic anomaly F that solves e sinh F - F = n (epoch - tp) with a stated small residual, with the velocity of two-body motion there, whenever the root found stands for an anomaly of at most 100 in size. A state returned for e = 1 lies on the parabola at a true anomaly that solves Barker's equation with a stated small residual, and its velocity is exactly that of two-body motion there.", "quantifier": "all gravitational parameters, perihelion distances, eccentricities of at least 1, angles, times of perihelion and epochs", "why_tests_cant": "Tests convert a few orbits and compare with stored vectors; interstellar objects have eccentricities and phases that no test covers, and an error in the series or the doublings for negative arguments shows only there.", "anchors": ["src/sorcha/ephemeris/orbit_conversion_utilities.py:stumpff", "src/sorcha/ephemeris/orbit_conversion_utilities.py:root_function", "src/sorcha/ephemeris/orbit_conversion_utilities.py:halley_safe", "src/sorcha/ephemeris/orbit_conversion_utilities.py:universal_cartesian"]}
{"id": "C97", "title": "Results in HDF5 files are complete", "statement": "A run whose output_format is hdf5 writes the same columns and rows, in the same order, as a run with csv, whatever the identifiers and the requested columns: if it ends well the file holds every row of every round exactly once, and if a round cannot be written the run stops with an error and the file holds exactly the rows of the rounds before it. The run ends well exactly if no string of a later round is longer than all strings of its column in the first round that has rows.", "quantifier": "all sequences of rounds, tables, column selections and rounding options", "why_tests_cant": "The test writes one table of results with identifiers of one length; whether later rounds with longer identifiers or an empty first round are stored depends on the order and contents of all rounds.", "anchors": ["src/sorcha/modules/PPOutput.py:PPOutWriteHDF5", "src/sorcha/modules/PPOutput.py:PPWriteOutput"]}
{"id": "C98", "title": "sorcha VERB runs sorcha-VERB with the arguments as given", "statement": "Whenever a program sorcha-VERB is on PATH, the command 'sorcha VERB ARGS' runs the first such program, exactly once, with exactly ARGS, and exits with its status; no other program is run. A verb without a program runs nothing and exits with a status other than zero. 'sorcha --version' prints the version and runs nothing.", "quantifier": "all PATHs, directories, verbs and argument lists, and all programs", "why_tests_cant": "Tests call the verbs directly; what the dispatcher finds depends on the directories, names and permissions on the user's PATH, and argparse's treatment of what follows the verb on every possible argument list.", "anchors": ["src/sorcha_cmdline/main.py:find_sorcha_verbs", "src/sorcha_cmdline/main.py:main"]}
{"id": "C99", "title": "Variability models of add-ons can be selected", "statement": "Every light-curve and activity class that an installed add-on defines is available to a run under its own name, with the package's own classes unchanged; asking for a name that no class has is an error, and two classes with the same name are reported as an error rather than one silently replacing the other.", "quantifier": "all sets of classes that the package and installed add-ons define", "why_tests_cant": "Tests register one class at a time in one interpreter; which classes exist when the run starts, their names and their inheritance depend on the add-ons installed by the user.", "anchors": ["src/sorcha/lightcurves/lightcurve_registration.py:register_lc_subclasses", "src/sorcha/lightcurves/lightcurve_registration.py:update_lc_subclasses", "src/sorcha/activity/activity_registration.py:register_activity_subclasses", "src/sorcha/activity/activity_registration.py:update_activity_subclasses", "src/sorcha_cmdline/run.py:execute"]}
{"id": "C100", "title": "create-sqlite gathers all results and inputs", "statement": "When 'sorcha outputs create-sqlite' ends well, the output database holds every row of every result database found and every row of every input file found, once each and under the columns' own names. It ends well whenever the databases and the input files, in any format that sorcha reads, have matching columns, wherever the output is put; and when it fails, tables that an earlier call made are still there.", "quantifier": "all directories, result databases and input files", "why_tests_cant": "The tests merge a few small files with one layout; the outcome depends on the directory's listing order, on the files' separators and columns and on what the output held before.", "anchors": ["src/sorcha/utilities/createResultsSQLDatabase.py:create_results_table", "src/sorcha/utilities/createResultsSQLDatabase.py:create_inputs_table", "src/sorcha/utilities/createResultsSQLDatabase.py:create_results_database", "src/sorcha_cmdline/outputs.py:cmd_outputs_create_sqlite"]}
{"id": "C101", "title": "Floating-point rounding does not change what is linked", "statement": "Times, limits and sums of random weights in the linking stage are binary64 numbers and every operation rounds. For limits of at least 1e-10 and at most a million observation times that are binary64 numbers within 1e9 days, taken between 0.101 and 0.899 of a day after the start of nights, with no time gap between two observations of one object that agrees with the tracklet time limit to fifteen digits and no separation of two of its observations within that time limit that agrees with the separation limit to fifteen digits, the filter with efficiency one and weights of at least 1e-9 flags exactly the objects that exact arithmetic links and reports the same discovery nights; with any efficiency its output is the one of exact arithmetic unless rounding makes the weights of two different windows look alike. Whatever the times within 1e9 days, an observation the filter accepts lies between 0.0999 and 0.9001 of the night it is counted in, and no two consecutive discovery opportunities come from the same tracklet nights.", "quantifier": "all observation tables, linking parameters, weights and random draws", "why_tests_cant": "The tests use a few tables whose gaps are far from the limits, so a rounding that moved an observation to another night or a gap over the limit would not show.", "anchors": ["src/sorcha/modules/PPMiniDifi.py:linkObject", "src/sorcha/modules/PPMiniDifi.py:hasTracklet", "src/sorcha/modules/PPMiniDifi.py:discoveryOpportunities", "src/sorcha/modules/PPLinkingFilter.py:PPLinkingFilter"]}
{"id": "C102", "title": "Rounding written columns in binary64 arithmetic", "statement": "When positions or magnitudes are written with n decimals (n > 0) and float64 arithmetic as numpy performs it: (1) a value x with |x| 10^n at most 10^308 is written as a finite float64 within (1/2 + 1e-14) units of the last decimal plus |x|/1e15 of x; (2) of two values the larger is not written as the smaller; (3) a value between two whole numbers is written as a value between them (for n up to 22 and numbers below 2^53/10^n), so declinations stay within 90 degrees; (4) for n up to 22 and |x| 10^n at most 2^50, what is written is the float64 nearest to a decimal number with n digits, namely x 10^n rounded to a whole number up to one rounding of the product; (5) a value that is already the float64 nearest to such a decimal number is written unchanged; (6) missing and infinite values are written unchanged (n up to 308); (7) right ascensions below 360 are written below 360; (8) every number of decimals that the configuration accepts yields numbers.", "quantifier": "all tables, rows, rounded columns, numbers of decimals and float64 values in the stated ranges", "why_tests_cant": "Tests round a few values to a few decimals; ties, values next to whole numbers and the edge of the float64 range need an argument about every float.", "anchors": ["src/sorcha/modules/PPOutput.py:PPWriteOutput"]}
{"id": "C103", "title": "A simulation called from Python returns what it would have written", "statement": "Calling runLSSTSimulation or runDESSimulation with return_only=True: (1) the observations returned are, in order, those that the same call with return_only=False writes to its CSV file or SQLite database (where the requested columns are shown, rounded as configured), and the statistics returned, present exactly when they were asked for, are those it writes; (2) whenever the writing call completes and writes something, the other returns; (3) no result or statistics file on the disk is changed; (4) a call that finds nothing returns too; (5) a call ends normally only after all its rounds did; (6) results of earlier calls on the disk make no difference.", "quantifier": "all survey inputs, chunk sizes, configurations and contents of the output directory", "why_tests_cant": "No test calls the simulation with return_only, and the interplay with files left by earlier calls and with rounds that find nothing takes whole runs.", "anchors": ["src/sorcha/sorcha.py:runLSSTSimulation", "src/sorcha/des.py:runDESSimulation", "src/sorcha/modules/PPOutput.py:PPIndexSQLDatabase"]}
{"id": "C104", "title": "The command line of sorcha run is read as its help describes it", "statement": "(1) Every 'sorcha run' command line made of documented options - by their names or unambiguous beginnings of long names, values as the next argument, after an equals sign or directly after a single letter, switches bundled in one argument - that gives all required options runs sorcha with exactly the values written, the last one winning where an option is repeated and the documented defaults where it is absent. (2) Every other command line exits without touching any file; a line that asks for help shows it and exits. (3) The same reading holds for the options of init, bootstrap, cite, demo prepare, outputs create-sqlite and outputs check-logs. (4) Any file name may be given as the next argument after its option. (5) -l (--log-level) makes the log carry additional information.", "quantifier": "all lists of arguments, all values and all states of the file system", "why_tests_cant": "The tests build the namespace by hand, so no test goes from a command line to the files opened; abbreviations, bundles, repeated options and values that look like options make infinitely many lines.", "anchors": ["src/sorcha_cmdline/run.py:main", "src/sorcha_cmdline/init.py:main", "src/sorcha_cmdline/bootstrap.py:main", "src/sorcha_cmdline/cite.py:main", "src/sorcha_cmdline/demo.py:main", "src/sorcha_cmdline/outputs.py:main"]}
{"id": "C105", "title": "The fading function keeps its meaning in floating-point arithmetic", "statement": "With float64 arithmetic as numpy performs it and an exponential function accurate to one unit in the last place: (1) for finite magnitudes, a peak efficiency between 0 and 1 and a width in (0, 1], the detection probability is a number between 0 and the peak, within peak/1e15 + 1e-300 of peak / (1 + exp((m - limit) / width)), also where the exponential overflows; (2) where the exponential is monotone, an observation brighter relative to its limit is never less likely to be kept; (3) at the limiting magnitude the probability is exactly half the peak; (4) 64 widths brighter it is exactly the peak (so with a peak of 1 no such row is dropped) and 1024 widths fainter exactly zero; (5) a row with a missing magnitude or limit is dropped; (6) the rows kept are, in order, those whose probability is at least their draw; (7) the fading function of the DES filter has the same range, accuracy, order and treatment of missing values, with the steepness k in place of the width; (8) a row whose probability is zero is not kept; (9) an infinitely faint magnitude has probability zero, and a row whose magnitude and limit are the same infinity is dropped.", "quantifier": "all finite float64 magnitudes and limits, peaks, widths, steepnesses, draws and tables, and every exponential function with the stated accuracy", "why_tests_cant": "Tests evaluate the formula at a few magnitudes with a tolerance; overflow of the exponential, monotonicity under rounding and the edge where the draw equals the probability concern every float.", "anchors": ["src/sorcha/modules/PPDetectionProbability.py:calcDetectionProbability", "src/sorcha/modules/PPDropObservations.py:PPDropObservations", "src/sorcha/modules/PPFadingFunctionFilter.py:PPFadingFunctionFilter", "src/sorcha/modules/DESDetectionProbability.py:DEScalcDetectionProbability", "src/sorcha/modules/DESFadingFunctionFilter.py:DESFadingFunctionFilter"]}
{"id": "C106", "title": "The geometry columns of an ephemeris row describe one configuration", "statement": "In an ephemeris row computed by Sorcha for an object that is neither at the observer nor at the Sun: (1) the vector from observer to object, as the difference of the heliocentric position columns, is the range column times the direction given by the right ascension and declination columns, with positive range, right ascension in [0,360) and declination in [-90,90]; (2) the range rate column is the component along that direction of the difference of the heliocentric velocity columns; (3) the phase angle column lies in [0,180] and obeys the law of cosines with the three distances of the row; (4) the position and velocity columns are those of the object at one and the same time (how near it is to the time at which the light left is C63), in km and km/s from au and au/day, relative to the Sun, and the returned light time is the range column divided by the speed of light; (5) away from the poles, the two rates on the sky times the range are the components of the light-time corrected relative velocity along the directions of growing right ascension and declination.", "quantifier": "all orbits given as position and velocity functions of time, observer and Sun states, starting light times and iteration counts", "why_tests_cant": "identities between real-valued columns over all geometries; tests compare a few rows with stored numbers", "anchors": ["src/sorcha/ephemeris/simulation_driver.py:calculate_rates_and_geometry", "src/sorcha/ephemeris/simulation_geometry.py:integrate_light_time"]}
{"id": "C107", "title": "With the same seed, random cuts do not depend on the chunk size", "statement": "For an external ephemeris, unique identifiers and complete input tables, and from the same state of the random generators: when the fading function or the fill factor of the camera draws random numbers, the rows written by a completed run are the same for every positive chunk size, in the same order when the linking filter is off. This holds (1) when measurements are not randomised and the ephemeris rows of the objects stand in groups in the order of the parameter table; (2) also when measurements are randomised; (3) also when the ephemeris rows are in another order.", "quantifier": "all inputs, all streams of random numbers, all pairs of chunk sizes, all configurations of the filters", "why_tests_cant": "tests run a few chunk sizes on one seed; the claim ranges over all inputs, streams and chunk sizes", "anchors": ["src/sorcha/sorcha.py:runLSSTSimulation", "src/sorcha/modules/PPDropObservations.py:PPDropObservations", "src/sorcha/modules/PPApplyFOVFilter.py:PPSimpleSensorArea", "src/sorcha/utilities/sorchaModuleRNG.py:PerModuleRNG"]}
{"id": "C108", "title": "Right ascensions and declinations stay in range in floating point", "statement": "In float64 arithmetic, whenever the library's arctan2 and arcsin return floats no larger than the float64 values of pi and pi/2: (1) the declination that Sorcha computes for an ephemeris row, or when it randomises a position, is a float64 in [-90,90] within 2^-43 degrees of the returned angle converted to degrees; (2) the right ascension is a float64 in [0,360] and within 2^-43 degrees of the returned angle converted to degrees, up to whole turns; (3) the right ascension is less than 360.", "quantifier": "all vectors, all float64 values returned by arctan2 and arcsin within those bounds", "why_tests_cant": "the range holds or fails at the last bit, for angles that no test samples", "anchors": ["src/sorcha/ephemeris/simulation_geometry.py:vec2ra_dec", "src/sorcha/modules/PPRandomizeMeasurements.py:icrf2radec"]}
{"id": "C109", "title": "Signal-to-noise ratios and uncertainties keep their meaning in floating point", "statement": "In float64 arithmetic, for finite magnitudes and depths, on-sky rates up to 2^100 deg/day, seeing between 2^-100 and 2^100 arcsec and exposures up to 2^100 s, and a library whose power of ten and decimal logarithm are increasing, exact at 0 and 1 and roughly right: (1) the signal-to-noise ratio of a source at the five-sigma depth is exactly 5 (for the trailed magnitude: when trailing losses are off or the object does not move); (2) the signal-to-noise ratios and uncertainties added to a row are never missing and never negative, and in a row that differs by fainter magnitudes or a shallower depth no ratio is larger and no uncertainty smaller; (3) the astrometric uncertainty is never below the systematic floor of 10 mas; (4) trailing losses are finite, not negative, and zero for an object that does not move; switching them on never raises the trailed ratio, never lowers the trailed magnitude's and the astrometric uncertainty, and leaves the PSF columns alone; (5) within 100 magnitudes of the depth the ratio is positive and finite and the photometric uncertainty finite.", "quantifier": "all rows of float64 values in those ranges, all libraries of that kind", "why_tests_cant": "rounding, overflow and division by zero over all float64 inputs; tests compare a few values with a tolerance", "anchors": ["src/sorcha/modules/PPAddUncertainties.py:addUncertainties", "src/sorcha/modules/PPAddUncertainties.py:calcAstrometricUncertainty", "src/sorcha/modules/PPAddUncertainties.py:calcPhotometricUncertainty", "src/sorcha/modules/PPTrailingLoss.py:calcTrailingLoss"]}
{"id": "C110", "title": "Computed uncertainties agree with the published formulas to twelve digits", "statement": "In float64 arithmetic with a power of ten and a decimal logarithm accurate to a relative error of 2^-50, for magnitudes and depths between -50 and 50, on-sky rates that are zero or between 2^-100 and 1000 deg/day in size, seeing between 2^-10 and 2^10 arcsec and exposures between 2^-20 and 2^20 s: (1) the signal-to-noise ratios and the astrometric uncertainty added to a row are within a relative error of 10^-12 of 1/sqrt(0.001 X + 0.039 X^2) with X = 10^(0.4(m-m5)) and of sqrt(10^2 + (600 seeing/SNR)^2) mas in degrees; (2) the photometric uncertainties are within 10^-12 mag of 2.5 log10(1+1/SNR); (3) both trailing losses are within 10^-12 mag of 1.25 log10(1 + a x^2/(1 + b x)) with x = rate*exposure/(24*seeing); (4) these formulas are what the same code computes over the real numbers.", "quantifier": "all rows of float64 values in those ranges, all libraries of that accuracy", "why_tests_cant": "accumulated rounding over all inputs; tests compare a few rows with stored numbers", "anchors": ["src/sorcha/modules/PPAddUncertainties.py:addUncertainties", "src/sorcha/modules/PPAddUncertainties.py:calcAstrometricUncertainty", "src/sorcha/modules/PPTrailingLoss.py:calcTrailingLoss"]}
{"id": "C111", "title": "Measured positions scatter around the true ones by the stated uncertainty, everywhere on the sky", "statement": "When a position is randomised with uncertainty sigma and the three normal draws g have r = sigma |g| < 1 (sigma in radians): (1) the angle between the true and the measured position is below 90 degrees and its sine is at most r; (2) in every direction tangent to the sphere at the true position the measured one is displaced by sigma times the component of the draws in that direction, divided by one number between 1 - r and 1 + r; in particular (3) the displacement to the east, cos(dec') sin(ra' - ra), and the one to the north have that size at every declination, so that the scatter in right ascension itself grows with 1/cos(dec) and is not lost or doubled near the poles or across 0/360.", "quantifier": "all true positions, uncertainties and draws with sigma |g| < 1", "why_tests_cant": "Tests compare sample standard deviations at a few positions; the exact map from draws to displacements and its behaviour at the poles and at RA 0 needs the geometry for all positions.", "anchors": ["src/sorcha/modules/PPRandomizeMeasurements.py:randomizeAstrometry", "src/sorcha/modules/PPRandomizeMeasurements.py:sampleNormalFOV"]}
{"id": "C112", "title": "The ephemeris generator misses no object well inside the field", "statement": "Let the visits be in the order of time, and let healpy behave as documented: query_disc(inclusive=True) covers the disc, get_all_neighbours surrounds a pixel, and no pixel is wider than D degrees with D < ar_ang_fov < 90. Within one and a half picket intervals h of a visit let the direction to an object (as integrated, with light time) have third derivatives of at most M and a speed of at most V (radians, days), and let sin(eta) >= M h^3 / 9 + V h / (n_sub_intervals - 1). Then: (1) an object within ar_ang_fov - eta of the field centre at the time of the visit has a row for that visit in the ephemeris; (2) at every time between the outer pickets the interpolated direction is within M h^3 / 9 of the integrated one. (3) If moreover every direction within m degrees of a pixel is in that pixel or in one of its neighbours, with m < ar_fov_buffer, then an object within ar_ang_fov + m - eta has a row: the buffer is used as far as the neighbouring pixels reach.", "quantifier": "all objects, visits in time order, picket intervals, numbers of sub-intervals, fields, positive buffers and pixel grids with these properties", "why_tests_cant": "Tests generate ephemerides of a handful of slow objects; that no object is lost through the coarse pixel search, whatever its motion relative to pixels and pickets, is a statement about all trajectories.", "anchors": ["src/sorcha/ephemeris/pixel_dict.py:compute_pixel_traversed", "src/sorcha/ephemeris/pixel_dict.py:get_designations", "src/sorcha/ephemeris/pixel_dict.py:lagrange3", "src/sorcha/ephemeris/simulation_driver.py:create_ephemeris"]}
{"id": "C113", "title": "Magnitudes and limiting depths computed in float64 agree with the formulas and keep their order", "statement": "In float64 arithmetic with a decimal logarithm accurate to a relative error of 2^-50: (1) for distances between 10^-6 and 10^6 au and reduced magnitudes up to 100 in size, the apparent magnitude is within 10^-12 mag of 5 log10(range/au) + 5 log10(sun distance/au) + the reduced magnitude; (2) with a logarithm that does not decrease, a larger range, larger components of the Sun-object vector or a larger reduced magnitude never give a smaller apparent magnitude; (3) for rates up to 2^100 deg/day, seeing between 2^-100 and 2^100 arcsec and exposures up to 2^100 s the PSF magnitude is never brighter than the trailed magnitude, and equal to it if trailing losses are off or the object does not move; for rates that are zero or between 2^-100 and 1000 deg/day in size, seeing between 2^-10 and 2^10 arcsec, exposures between 2^-20 and 2^20 s and magnitudes up to 100 in size it is within 10^-12 mag of the trailed magnitude + 1.25 log10(1 + 0.42 x^2/(1 + 0.003 x)), x = rate*exposure/(24*seeing); (4) for field depths up to 100 in size the depth at a source is never deeper than that of the field, is within 10^-12 mag of the field's depth + 2.5 log10 of the fraction of light that the published table gives by linear interpolation (its last value beyond 2 degrees), equals the field's depth within 0.64 degrees of the centre, and equals it everywhere if vignetting is off.", "quantifier": "all float64 values in those ranges, all libraries of that accuracy", "why_tests_cant": "accumulated rounding and the order over all inputs; tests compare a few values with stored numbers", "anchors": ["src/sorcha/modules/PPCalculateApparentMagnitudeInFilter.py:PPCalculateApparentMagnitudeInFilter", "src/sorcha/sorcha.py:runLSSTSimulation", "src/sorcha/modules/PPVignetting.py:vignettingEffects", "src/sorcha/modules/PPVignetting.py:vignetFunc"]}
{"id": "C114", "title": "The computed midpoint of a visit never precedes its start, nor a computed start follows the midpoint", "statement": "In float64 arithmetic, for times between MJD 0 and 131072 and durations between 0 and 10^6 s: (1) the midpoint computed from start and visit time (rubin_sim) is finite, not before the start, and within 10^-10 day (9 microseconds) of start + half the visit time; (2) a later start or longer visit never gives an earlier midpoint, so visits with equal durations keep their order; (3) the start computed from midpoint and exposure (DES) is finite, not after the midpoint, and within 10^-10 day of midpoint - half the exposure; (4) a later midpoint or shorter exposure never gives an earlier start.", "quantifier": "all float64 times and durations in those ranges", "why_tests_cant": "rounding over all times and durations; tests compare a few rows", "anchors": ["src/sorcha/modules/PPReadPointingDatabase.py:PPReadPointingDatabase"]}
{"id": "C115", "title": "The catalogue of a run without random decisions, described outright", "statement": "For an external ephemeris, well-formed inputs with unique object identifiers that all tables contain, deterministic settings (no randomisation, fading or fill factor, a camera model that judges each row on its own) and linking either off or with efficiency one (window, tracklets and observations at least one, all detections well within a night), for every positive chunk size: (1) a completed run writes, up to order, exactly the observations that join a row of the ephemeris of an object in the orbit table, with its object's own data from every table, to a pointing of the same field with a filter, that the camera sees and that pass every enabled threshold - once per detector; with linking, each carries whether and on which first night its object can be linked from all its own observations, and those of unlinked objects are left out if so configured; (2) a run completes only if every such row is at the time of its pointing within numpy's default tolerance; (3) with that, and saturation limits that are one number or one for each filter, a run that is not cut off before all chunks are read does complete.", "quantifier": "all inputs, all deterministic configurations, all chunk sizes, all random streams and sorting routines", "why_tests_cant": "total correctness of the whole run over all inputs and chunkings; tests compare a few runs with stored output", "anchors": ["src/sorcha/sorcha.py:runLSSTSimulation", "src/sorcha/readers/CombinedDataReader.py:CombinedDataReader.read_block", "src/sorcha/modules/PPMatchPointingToObservations.py:PPMatchPointingToObservations", "src/sorcha/modules/PPLinkingFilter.py:PPLinkingFilter"]}
{"id": "C116", "title": "Angles on the sky computed in float64 are right, and linking and vignetting rest on them safely", "statement": "In float64 arithmetic with sine, cosine and arcsine accurate to a relative error of 2^-50, for positions with right ascensions within 360 and declinations within 90 degrees of zero: (1) the separation the linking stage computes for two positions at most 90 degrees apart is a non-negative float64 number within 10^-11 degrees of the great-circle distance, exactly 0 for one position taken twice, and at least 70 for positions between 90 and 170 degrees apart; (2) with times and limits as in C101 and a separation limit of at most 50 degrees, the linking filter with efficiency one, run on computed separations, flags exactly the objects that exact arithmetic links from true separations, on the same nights, provided the observations of one object within the tracklet time limit are at most 170 degrees apart and none of these separations is within 10^-10 degrees of the limit; (3) for a source at most 90 degrees from the field centre and field depths up to 100 in size, with a decimal logarithm of the same accuracy, the depth at the source computed from the two positions is never deeper than that of the field, equal to it within 0.63 degrees, and within 10^-9 mag of the field's depth + 2.5 log10 of the fraction of light that the published table gives by linear interpolation at the true distance.", "quantifier": "all float64 positions, tables of observations, linking parameters, weights and random draws, all libraries of that accuracy", "why_tests_cant": "cancellation and accumulated rounding over all positions (close pairs, the poles, across the origin of right ascension) and their effect on the linking decision; tests compare a few separations and losses with stored numbers", "anchors": ["src/sorcha/modules/PPMiniDifi.py:haversine_np", "src/sorcha/modules/PPMiniDifi.py:hasTracklet", "src/sorcha/modules/PPVignetting.py:vignettingEffects", "src/sorcha/modules/PPVignetting.py:calcVignettingLosses", "src/sorcha/modules/PPVignetting.py:haversine"]}
{"id": "C117", "title": "The camera footprint decides correctly in float64 arithmetic, away from the edges of detectors", "statement": "In float64 arithmetic with sine and cosine accurate to a relative error of 2^-50 and sums of the accuracy of adding one number after the other: (1) for a field centre of at most 89 degrees declination and a source at most 60 degrees from it, the place on the camera computed for the source is within 10^-11 in each coordinate of the gnomonic projection about the field centre turned by the rotation angle; (2) for a detector of at most 64 corners within a tenth of a radian of the axes of the camera, of convex outline with edges of at least a thousandth of a radian, a source whose true place is inside the outline by more than 2*10^-10 is reported on the detector, and for a source reported on the detector the triangle of its true place with any edge sticks out by an area of at most 2*10^-11; (3) with an edge threshold of at most 3600 arcsec, a source inside by more than the threshold plus 2*10^-10 is reported on the detector, and one reported on the detector is in addition further from every edge than the threshold less 2*10^-10. (4) With an arc tangent accurate to a relative error of 2^-50, and detectors none of whose corners is in line with two neighbours and whose centre is at least 10^-9 inside, the same holds for a camera read from a file that lists the corners of each detector in any order: a row well inside a detector is kept with the number of that detector, counted in order of first appearance in the file, and every row kept is a row of the input whose place is as in (2) and (3) for the detector of its number.", "quantifier": "all float64 positions, rotation angles, detectors and thresholds in the stated ranges, all libraries of that accuracy", "why_tests_cant": "the decision compares two sums of triangle areas with a tolerance of 10^-11; whether rounding ever loses a source well inside a detector, or keeps one outside, depends on cancellation over all positions, which a few stored sources do not settle", "anchors": ["src/sorcha/modules/PPFootprintFilter.py:radec_to_tangent_plane", "src/sorcha/modules/PPFootprintFilter.py:radec_to_focal_plane", "src/sorcha/modules/PPFootprintFilter.py:Detector.ison", "src/sorcha/modules/PPFootprintFilter.py:Detector.segmentedArea", "src/sorcha/modules/PPFootprintFilter.py:Detector.trueArea", "src/sorcha/modules/PPFootprintFilter.py:distToSegment", "src/sorcha/modules/PPFootprintFilter.py:Detector.sortCorners", "src/sorcha/modules/PPFootprintFilter.py:Footprint.applyFootprint", "src/sorcha/modules/PPApplyFOVFilter.py:PPApplyFOVFilter"]}
{"id": "C118", "title": "The cameras that come with the package are where they should be, and no source is recorded twice", "statement": "For the camera files shipped with the package, read to a relative error of 2^-50 per number, and the arithmetic of C117: (1) for survey names rubin_sim and lsst every detector has four corners that form a convex outline meeting the conditions of C117; (2) a row whose true place is inside a detector by the edge threshold plus 2*10^-10 is kept, every kept row is at most 2.06 degrees from the centre of its field, the angular field that the shipped Rubin configurations with this camera give the ephemeris generator, and has a detector number below 189, and with distinct row labels no row is kept twice, since no place is on two detectors; (3) the numbers of each file are taken in the unit the file is in, so that with the DES file no source far outside the field is kept; (4) the numbers of the LSST file are used as documented, as tangents, that is as places on the focal plane, so that no corner is displaced by the width of the edge threshold (2 arcsec).", "quantifier": "all reads of the shipped files, all frames of float64 positions in the stated ranges, all thresholds up to 3600 arcsec, all libraries of that accuracy", "why_tests_cant": "tests look at a handful of sources on a handful of detectors; that 189 outlines are convex, in the unit assumed, within the field and pairwise apart by more than rounding and projection move them is a statement about every place on the sky", "anchors": ["src/sorcha/modules/PPFootprintFilter.py:556-591", "src/sorcha/modules/data/LSST_detector_corners_100123.csv", "src/sorcha/modules/data/DES_ccd_corners.csv", "src/sorcha/modules/PPApplyFOVFilter.py:47-56", "docs/inputs.rst:443"]}
{"id": "C119", "title": "What becomes of the identifiers of a table that is read", "statement": "Of the identifiers in one block of a text table: (1) if every one is an integer (an optional sign and decimal digits) and all fit int64, or none has a minus sign and all fit uint64, each is replaced by the usual decimal text of the same integer; (2) if one is not an integer, or the integers fit neither type, all are left as written; (3) hence identifiers that are not integers, or are integers written as usual, are never changed, whatever the block; and (4) two objects whose identifiers are the same integer get the same identifier.", "quantifier": "all lists of identifiers without blanks, none of them a float, a truth value or a missing-value marker", "why_tests_cant": "the outcome for one identifier depends on every other identifier in the block", "anchors": ["src/sorcha/readers/CSVReader.py:199-211", "src/sorcha/readers/ObjectDataReader.py:150", "src/sorcha/ephemeris/simulation_driver.py:create_ephemeris"]}
{"id": "C120", "title": "The demonstration works as told", "statement": "After sorcha demo prepare ended normally in a directory, the command that sorcha demo howto prints, typed in that directory, starts the LSST simulation: it reads the four files that were copied, with the contents shipped, takes the settings of the shipped demonstration configuration, and is going to write testrun_e2e and testrun_stats there. Of the user's other files none has changed, apart from logs of that stem. If results of an earlier demonstration are in the directory, the command is refused and only logs change.", "quantifier": "all directories and their contents, all contents shipped, all registered models, seeds, time stamps", "why_tests_cant": "The tests run the command in one temporary directory with the files in place; they do not vary what else is there, and the three parts (files copied, line printed, arguments accepted, configuration accepted) live in four modules that are tested apart.", "anchors": ["src/sorcha/utilities/sorcha_demo_command.py:get_demo_command", "src/sorcha/utilities/sorcha_copy_demo_files.py:copy_demo_files", "src/sorcha_cmdline/run.py:main", "src/sorcha_cmdline/run.py:execute", "src/sorcha/data/demo/sorcha_config_demo.ini"]}
{"id": "C121", "title": "The result file of a run without random decisions, described outright", "statement": "Under the conditions of C115 on inputs and settings, with output columns that the observations have, no results on the disk at the start, and no return_only: (1) a completed run that writes CSV leaves a file with one heading, the requested columns in order, followed by exactly one line for each observation of the catalogue of C115, showing the requested values rounded as configured, and no database; if the catalogue is empty there is no file. (2) The same for the table of the SQLite database, if the three columns it is indexed by are requested and none is called level_0. (3) The run completes whenever the rows are at the times of their pointings, the saturation limits fit and it is not cut off. (4) The CSV files of completed runs with different chunk sizes, seeds and statistics settings have the same lines up to order.", "quantifier": "all inputs, all deterministic configurations, all output columns and roundings, all chunk sizes and random streams", "why_tests_cant": "from the input tables to the last line of the file, over all inputs and chunkings; tests compare a few files with stored ones", "anchors": ["src/sorcha/sorcha.py:runLSSTSimulation", "src/sorcha/modules/PPOutput.py:PPWriteOutput", "src/sorcha/modules/PPOutput.py:PPOutWriteCSV", "src/sorcha/readers/CombinedDataReader.py:CombinedDataReader.read_block"]}
{"id": "C122", "title": "The result file of a Dark Energy Survey run without random decisions, described outright", "statement": "For a Dark Energy Survey run on an external ephemeris with no random decision (no fading function, no fill factor), inputs whose tables have no repeated identifiers and describe the same objects, non-negative bounds and a clean output directory: take the rows of the ephemeris of the listed objects with their data, of these the observations that are on the camera and pass the magnitude and saturation limits, of these those of objects that are at an allowed distance from the Sun in at least one of them, of these the ones at an allowed rate of motion, and of these (with the discovery filter) those of the objects it discovers, where a discovered object satisfies the documented criteria and one that surely satisfies them (C53) is discovered. If the run ends well, the CSV file consists of one heading and one line for each of these observations, with the requested columns and nothing else, whatever the chunk size; with SQLite, provided the columns that get an index are requested and none is called level_0, the table holds those rows; with no such observation there is no file. The run ends well if every row of the ephemeris is at the time of its pointing, saturation limits are one number or one per filter and no signal-to-noise limit is set.", "quantifier": "for all ephemerides, auxiliary tables, pointings, configurations without random decisions, chunk sizes and output configurations whose columns are available", "why_tests_cant": "Tests run one small survey end to end and compare with stored results; they cannot show for all inputs and chunk sizes that nothing is missing from the file, nothing is in it twice and nothing in it fails a cut.", "anchors": ["src/sorcha/des.py:150-400", "src/sorcha/modules/DESDiscoveryFilter.py:7-199", "src/sorcha/modules/PPDistanceandMotionCuts.py:5-69", "src/sorcha/modules/PPOutput.py:135-261"]}
{"id": "C123", "title": "A state of parabolic speed survives conversion to elements and back", "statement": "When a position and velocity of parabolic speed (kinetic energy equal to the potential energy) are converted to cometary elements and those elements are converted back to a state at the same epoch, the perihelion distance q is positive and any state returned agrees with the one started from: the position to within 2e-12 of its length r times sqrt(r/q), the velocity to within 2e-12 of its length.", "quantifier": "all gravitational parameters, epochs and states of parabolic speed in general position: no component of the angular momentum zero, object not on the line of nodes nor at a right angle to it, true anomaly not a multiple of ninety degrees", "why_tests_cant": "Parabolic speed is a single value on a continuum, so random tests never meet it, and the few parabolic orbits in tests do not bound the error far from perihelion.", "anchors": ["src/sorcha/ephemeris/orbit_conversion_utilities.py:universal_cometary", "src/sorcha/ephemeris/orbit_conversion_utilities.py:universal_cartesian"]}
