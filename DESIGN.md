# Formal model of sorcha in Rocq

## Goal
A machine-checked model (Coq 8.16.1) of the observable behaviour of `dirac-institute/sorcha` and proofs of the
properties in `properties.jsonl`, for all inputs, tables, schedules and crash points.

## Layout (`rocq/theories`)
* `Base/`       result type, extended numbers with NaN, list, sorting and selection vocabulary
* `Model/`      the code, function by function; every definition cites file and lines of /repo
* `Spec/`       small independent specifications (no model helper is used to state what is required)
* `Proofs/`     lemmas
* `Properties/` one theorem per property (or part), closed by `exact`, with `Print Assumptions` and a concrete instance

Theorem names: `Cxx_…` belongs to property Cxx of `properties.jsonl`. `…_partial`: only part of the statement, the note in
`MANIFEST.json` says what is missing. `…_refuted`: the statement (or the clause named) is false of the model, with a witness;
those are the findings listed below.

## Modelling conventions
* Python exceptions and `sys.exit` are values of a result type (`Base/Prelude.v`). Loops are structural recursions, folds, or
  fuel with an explicit out-of-fuel value; theorems either prove it unreachable or speak about it.
* A pandas table is a list of rows (records); index labels are modelled where the code depends on them.
* Numbers: comparison-only code uses extended rationals with NaN and infinities (`num`): comparisons of binary64 values
  are exact on their rational values. Code doing arithmetic before a comparison uses exact rationals (rounding is not
  modelled, except in LinkingFloat, Rounding, FadingFloat, AngleFloat, UncertaintyFloat, MagnitudeFloat, SeparationFloat and FootprintFloat, which use Flocq's binary64 format; noted at each definition). Photometry, geometry, ephemeris and orbits use the standard library reals.
* Random generators, the numerical integrator (ASSIST/REBOUND), healpy, sbpy phase functions, the order of ties in
  unstable sorts, python's iteration order of sets, md5 and `int`/`float` parsing are explicit parameters over which
  theorems quantify. What is assumed of one is a hypothesis in the theorem, never an axiom.
* Logging is left out, except where a log line is the observable (C49, C88).

## Trusted base
* Coq 8.16.1's kernel, `coqc`, and `vm_compute` (used in examples and some refutations).
* The axioms `Print Assumptions` lists, all of the standard library and nothing else (per theorem in the last section):
  * `ClassicalDedekindReals.sig_forall_dec`, `ClassicalDedekindReals.sig_not_dec` — the construction of the reals;
  * `FunctionalExtensionality.functional_extensionality_dep` — used by the reals;
  * `Classical_Prop.classic` — used by the library on `exp`, `ln`, `Rpower`, derivatives and integrals.
* The model being a faithful reading of /repo. The code was read as text, never run. Each definition cites its lines.
* The behaviour of the libraries the code calls as described in the comments of the model: pandas `merge`, `groupby`, `query`,
  `sort_values`, `read_csv`; numpy `unique`, `searchsorted`, `interp`, `isclose`, `argsort`; `glob`, `sqlite3`, `argparse`,
  `configparser`. Where the model takes a simpler view it says so at the definition.

## What is modelled, and what is not
Paths are relative to /repo/src/sorcha.

| Model file | Code | Left out |
|---|---|---|
| Linking | modules/PPMiniDifi.py, modules/PPLinkingFilter.py | rounding of time differences and sums (it is in LinkingFloat); the haversine formula is a parameter (it is in Sphere) |
| Filters | modules/PPMagnitudeLimit, PPSNRLimit, PPBrightLimit, PPDropObservations, PPFadingFunctionFilter, DESFadingFunctionFilter, PPDetectionEfficiency, PPDistanceandMotionCuts, the circle part of PPApplyFOVFilter | |
| Pipeline | sorcha.py 227-390, modules/PPApplyFOVFilter.py | the photometric formulas, which are parameters there and modelled in Photometry; log messages |
| Driver | sorcha.py 140-409, readers/CombinedDataReader.py | timing and logging; pandas type inference |
| Csv, Readers | readers/CSVReader.py, HDF5Reader.py, ObjectDataReader.py, CombinedDataReader.py | quoting, comments, non-ASCII text, ragged rows, DatabaseReader.py |
| OrbitAux | readers/OrbitAuxReader.py | warnings |
| Output, Hdf5Output | modules/PPOutput.py, modules/PPStats.py | formatting of numbers; index labels and column types in HDF5 |
| Files | utilities/sorchaCommandLineParser.py, check_output_logs.py, generate_meta_kernel.py, createResultsSQLDatabase.py, sorchaGetLogger.py | crashes inside one write, permissions, links |
| Randomize | modules/PPRandomizeMeasurements.py, utilities/sorchaModuleRNG.py | the distributions of the draws; rounding |
| Colours | modules/PPApplyColourOffsets.py, PPGetMainFilterAndColourOffsets.py, PPFaintObjectCullingFilter.py, PPCalculateApparentMagnitude.py | |
| Photometry | modules/PPTrailingLoss, PPAddUncertainties, PPVignetting, PPCalculateApparentMagnitudeInFilter, PPDetectionProbability, DESDetectionProbability, lightcurves/, activity/ | rounding, NaN; sbpy's phase functions |
| Sphere | modules/PPRandomizeMeasurements.py, PPFootprintFilter.py, PPMiniDifi.py (haversine), ephemeris/simulation_geometry.py, simulation_constants.py | rounding |
| Footprint | modules/PPFootprintFilter.py, PPApplyFOVFilter.py | plotting, reading the detector file, rounding |
| VisitsFootprint | modules/PPVisitsFootprintFilter.py | rounding, missing FieldIDs, the k-d tree (its answers are the nearest points) |
| Ephemeris, EphemerisTable | ephemeris/simulation_driver.py, pixel_dict.py, simulation_geometry.py | healpy, ASSIST, SPICE kernels: parameters |
| Kepler | ephemeris/orbit_conversion_utilities.py | rounding |
| OrbitParse | ephemeris/simulation_parsing.py, the perihelion part of modules/PPFaintObjectCullingFilter.py | SPICE, `mjd_tai_to_epoch` |
| Config | utilities/sorchaConfigs.py, sorcha_cmdline/run.py (checks), ephemeris/simulation_data_files.py | printing the configuration: see Log |
| Pointing | modules/PPReadPointingDatabase.py, PPMatchPointingToObservations.py | the SQL query |
| DES | modules/DESDiscoveryFilter.py | rounding |
| DESPipeline | des.py 221-388 | as for Pipeline; the loop around it is that of Driver (des.py 150-404 is sorcha.py's) |
| Shipped | data/survey_setups/*.ini, data/demo/sorcha_config_demo.ini | comments in the files |
| Columns | the columns read, added, dropped and renamed along sorcha.py 129-388 and des.py 118-386, with the modules called there | contents of the columns; rounds in which a cut leaves nothing; user-defined light curve and activity models read only their required columns |
| Startup | sorcha_cmdline/run.py 136-253 up to the call of the simulation, sorchaCommandLineParser 8-115, fileAccessUtils, sorchaGetLogger 44-70, sorchaArguments 54-110, sorchaConfigs 1214-1229 | argparse itself, contents of the logs, links and permissions, relative and trailing-separator spellings of the same path, stems with a separator, the registration of plug-in models |
| SavedEphemeris | ephemeris/simulation_driver.py 135-159 and 339-371, modules/PPOutput.py 34-36 and 64-72 as used there, readers/EphemerisReader.py 38-48, 106-107 and 137-179 | printing and parsing of numbers, quotation marks in text files, text columns of HDF5 tables other than ObjID, repeated headings |
| Log | utilities/sorchaConfigs.py 1503-1749 | `str()` of numbers: a parameter |
| Setup | ephemeris/simulation_setup.py 121-273, simulation_parsing.py 12-28, simulation_geometry.py 168-216 | SPICE and ASSIST (functions of time), integrator settings, tables without rows |
| Cache | ephemeris/simulation_setup.py 69-118, simulation_parsing.py 298-322, simulation_data_files.py, utilities/generate_meta_kernel.py 49-77, retrieve_ephemeris_data_files.py 11-87, sorcha_cmdline/bootstrap.py 56-80 | pooch (its fetch is described in the model), SPICE, ASSIST, parallel downloads of the same file, file names that are URLs or lie in other directories |
| WholeRun | sorcha.py 375-386 and des.py 373-384: the data frame of a round handed to the output, on Pipeline, DESPipeline and Library | the columns and their cells are parameters |
| FrontEnds | sorcha_cmdline/init.py, demo.py 8-22, outputs.py 37-62, utilities/sorcha_copy_configs.py, sorcha_copy_demo_files.py, check_output_logs.py 6-27 and 68-117 | absolute paths without links; the CSV text of a report, what is printed and the decoding of log files are parameters or left out |
| Demo | utilities/sorcha_demo_command.py 17: the line printed, typed in a directory | the shell splits at blanks; the programs sorcha and sorcha-run are found; what is printed around the line |
| Dispatch | sorcha_cmdline/main.py | command lines that begin with an option other than --version; programs that can be found but not started |
| Registration | lightcurves/lightcurve_registration.py, activity/activity_registration.py, their calls in sorcha_cmdline/run.py | import of add-ons, classes as name, value and derived classes |
| ResultsDatabase | utilities/createResultsSQLDatabase.py, sorcha_cmdline/outputs.py 8-28 | types of columns, locking of the output when very many rows wait, quotation marks |
| LinkingFloat | modules/PPMiniDifi.py, modules/PPLinkingFilter.py in binary64 arithmetic (Flocq) | overflow; the haversine formula is a parameter |
| Rounding | the rounding of modules/PPOutput.py:208-241 in binary64 arithmetic (Flocq), with overflow | the sign of zero; C's pow is taken to be correctly rounded |
| Library | return_only of sorcha.py and des.py: sorcha.py:179-182, 374-409, modules/PPOutput.py:126-132 | HDF5 output; the saved ephemeris; the index of the returned tables |
| Arguments | the parsers of run.py:8-133, init.py:82-101, bootstrap.py:10-26, cite.py:10-35, demo.py:45-87, outputs.py:70-149, with the part of CPython 3.11's argparse they use (prefix matching, bundled letters, negative numbers, sub-commands) | the text of messages; argument files; environment of the terminal. The argparse part was also compared with Python 3.11.10's argparse on 3000 random command lines (a test of the model, not a proof) |
| FadingFloat | PPDetectionProbability 49 and 101-106, DESDetectionProbability 51 and 104-110, PPFadingFunctionFilter 39-50, DESFadingFunctionFilter 44-51, PPDropObservations 27-34 in binary64 arithmetic with overflow | the implementation of numpy's exp (any function with an error of one unit in the last place), the sign of zero, flags and warnings |
| AngleFloat | simulation_geometry.vec2ra_dec 159-165, PPRandomizeMeasurements.icrf2radec 376-403 (deg=True) in binary64 arithmetic | numpy's arctan2, arcsin and norm (parameters whose results are bounded), division by a zero norm, the sign of zero |
| UncertaintyFloat | PPTrailingLoss.calcTrailingLoss 83-97, PPAddUncertainties 101-137, 205-220, 276 and 297 in binary64 arithmetic with overflow and division by zero | numpy's power and log10 (parameters), astropy's conversion factor (a parameter), nvisit > 1, output in arcsec, the sign of zero |
| MagnitudeFloat | PPCalculateApparentMagnitudeInFilter 75-91 and 131, sorcha.py 254-272, PPVignetting 49-51 and 144-357, PPReadPointingDatabase 69-76 in binary64 arithmetic | numpy's log10 (a parameter), astropy's conversion factor (a parameter), phase functions, NaN among the angles' neighbours in numpy's interp, the sign of zero |
| SeparationFloat | PPMiniDifi 37-44, PPVignetting 49-51, 80-87 and 117-119 in binary64 arithmetic | numpy's sin, cos, arcsin and log10 (parameters of stated accuracy), NaN positions |
| FootprintFloat | PPFootprintFilter: the projections, sortCorners, Detector.ison, the areas and distToSegment, grouping of the file, applyFootprint, in binary64 arithmetic | numpy's sin, cos, arctan2 and sums (parameters of stated accuracy), sign of zero, NaN positions |
| Cameras | the two shipped camera files, number by number, and the choice between them in PPFootprintFilter (lines 556-563) | reading CSV text, detector names as numbers |

Not modelled at all: utilities/citation_text.py and the cite command, parsing of the sub-commands' options by argparse, plotting, the download itself,
diffTestUtils.py, dataUtilitiesForTests.py, generateGoldens.py, readers/DatabaseReader.py, the integrator of ASSIST and REBOUND, memory use, speed, and floating-point rounding outside the modules named …Float and Rounding.

## Wrong programs (`seeded/LOG.jsonl`)

Each line is one edit of the model, built in a scratch copy. Proofs that fail are admitted there and the build goes on.
`failed` lists the theorems whose proof, or the proof of a lemma below them, no longer goes through. A proof can also
fail because its script does not fit the edited definition, so `failed` shows that a theorem noticed the edit, not by
itself that its statement became false. `killed` is true when a theorem on the claim is among them. It is
`"inconclusive"` when the file of those theorems could not be built at all (`not_built`). It is false for edits that
survived; `note` and `tightened` say what was done. When a claim was corrected after the run, `note` names the first one.
Where `rebuilt` is present only the modules that the theorems on the claim depend on were built, so `failed` is not complete.
Earlier versions of the log counted theorems of files that could not be built as failed, and left out ten edits of
Model/Randomize (now GR01 to GR10) whose numbers were also used for Model/Config.

## Properties: approach and where they are proved
* **C01** Tracklet test is exact. Model/Linking: has_tracklet as nested scans over a list of observations with exact rational times and an arbitrary separation function; prove iff to an existential specification on positions (induction on the scans). Status: proved, Properties/Linking.
* **C02** Nights are neither merged nor split. Model/Linking: np.unique + searchsorted(right) slices; prove by induction that the slices are the per-night sublists. Status: proved, Properties/Linking.
* **C03** Discovery opportunities are sound and complete. Model/Linking: zero array, cumulative sum, shifted subtraction over Z and Q; prove the windowed-count identity, then the deduplication step under a genericity hypothesis on the weights. Status: proved, Properties/Linking.
* **C04** Linking at efficiency one is deterministic and exact. compose C01-C03 with the draw comparison; p=1 and p=0 extremes for every stream in [0,1). Status: proved, Properties/Linking.
* **C05** Linking is all-or-nothing per object. Model/Linking: table-level filter, np.isin, inner merge, sort as an arbitrary sorting oracle; prove membership iff and multiplicities. Status: proved, Properties/Linking.
* **C06** Linking verdict of an object does not depend on the others. Model/Linking: grouping by stable argsort; prove verdict is a function of the object's sub-table; table splits by object. Status: proved, Properties/Linking.
* **C07** Magnitude, SNR and saturation cuts keep exactly the right rows in order. Model/Filters over extended numbers with NaN; specification is an inductive order-preserving selection relation. Status: proved, Properties/Filters.
* **C08** Per-filter saturation limits are applied to the right filter. as C07 with filter/limit lists. Status: proved, Properties/Filters.
* **C09** Random detection drops behave at the extremes and monotonically. Model/Filters with the draws as an input list; pointwise monotonicity by induction. Status: proved, Properties/Filters.
* **C10** DES distance cut is per object, motion cut per row. Model/Filters. Status: partial, Properties/Filters.
* **C11** Every surviving observation satisfies every enabled cut. Model/Pipeline: run of all stages as a composition with configuration record; prove each enabled cut holds of every surviving row. Status: proved, Properties/Driver.
* **C12** No observation is invented. Model/Pipeline with key-preservation invariant. Status: proved, Properties/Driver.
* **C13** The chunk loop processes every object exactly once and stops. Model/Driver: fuel-based loop over reader state; prove sufficient fuel, and the exact sequence of blocks. Status: proved, Properties/Driver.
* **C14** Non-positive chunk sizes are rejected. Model/Config + Model/Driver; expected to be refuted for zero (finding). Status: partial, Properties/Config, Driver.
* **C15** Chunk size does not change the catalogue. Model/Driver with per-object pipeline; permutation/equality of concatenations. Status: proved, Properties/Driver.
* **C16** Consecutive block reads partition a file. Model/Readers. Status: proved, Properties/Readers.
* **C17** Reading by object returns exactly the requested objects. Model/Readers. Status: partial, Properties/Readers.
* **C18** Header detection never loses or misaligns data rows. Model/Csv: lines of text, header search. Status: partial, Properties/Readers.
* **C19** Auxiliary files must describe the same objects. Model/Readers. Status: proved, Properties/Readers.
* **C20** Accepted orbits are physically admissible. Model/OrbitAux. Status: proved, Properties/Readers.
* **C21** Output file has one header and all chunks in order. Model/Output: file system as a map from names to lines. Status: proved, Properties/Files.
* **C22** Interrupted runs leave a prefix of the complete output. Model/Output + Driver: prefix of the write history. Status: proved, Properties/Driver, Files.
* **C23** Forced overwrite removes all stale output. Model/Files: directory as a list of names, glob; expected refutation when two files match. Status: partial, Properties/Files.
* **C24** Statistics table agrees with the observations. Model/Output: group-by with min/max/median/size. Status: partial, Properties/Files.
* **C25** Random streams of modules do not interfere. Model/Randomize: map from names to stream positions; interleavings by induction on the request history. Status: proved, Properties/Sphere.
* **C26** Trailing loss is non-negative, zero for still objects and increasing with speed. Model/Photometry over R; monotonicity. Status: proved, Properties/Photometry.
* **C27** SNR is five at the five-sigma depth and falls with magnitude. Model/Photometry over R. Status: proved, Properties/Photometry.
* **C28** Vignetting only reduces depth. Model/Photometry: table over Q, piecewise linear interpolation, log over R. Status: proved, Properties/Photometry.
* **C29** Colour offsets are applied exactly once and to the right filter. Model/Colours. Status: partial, Properties/Photometry.
* **C30** Apparent magnitude follows the inverse-square law. Model/Photometry over R. Status: proved, Properties/Photometry.
* **C31** Faint-object culling never removes an observable object. Model/Colours and Photometry over R. Status: partial, Properties/Photometry.
* **C32** Fading function is a decreasing probability, half the peak at the limit. Model/Photometry over R. Status: proved, Properties/Photometry.
* **C33** RA/Dec and unit vectors are inverse. Model/Sphere over R (cos, sin, atan2 built from atan/acos). Status: proved, Properties/Sphere.
* **C34** Frame rotations are inverse isometries. Model/Sphere over R. Status: proved, Properties/Sphere.
* **C35** Sky-rate basis is orthonormal. Model/Sphere over R. Status: proved, Properties/Sphere.
* **C36** A point is on a detector only if inside its outline. Model/Footprint over R (areas of triangles, convexity). Status: proved, Properties/Footprint.
* **C37** Circular footprint keeps points inside the circle. Model/Filters. Status: partial, Properties/Filters.
* **C38** Quadratic interpolation is exact where it must be. Model/Ephemeris over R. Status: proved, Properties/Ephemeris.
* **C39** The interpolation nodes always bracket the requested time. Model/Ephemeris; expected refutation for backward schedules, proof for non-decreasing schedules. Status: partial, Properties/Ephemeris.
* **C40** Interpolated positions are for the right object and time. Model/Ephemeris with ghost oracle. Status: proved, Properties/Ephemeris.
* **C41** Ephemeris rows are exactly the in-field candidates. Model/Ephemeris with abstract oracles. Status: partial, Properties/Ephemeris.
* **C42** Kepler solver is bracketed and terminates. Model/Kepler over R. Status: partial, Properties/Kepler.
* **C43** Orbit conversions conserve the two-body invariants. Model/Kepler over R. Status: partial, Properties/EnergyBound, Kepler.
* **C44** Orbit formats are dispatched correctly. Model/OrbitParse. Status: proved, Properties/Kepler.
* **C45** Observatory positions are used whenever they are known. Model/OrbitParse; expected refutation for zero constants. Status: partial, Properties/Kepler.
* **C46** Accepted configurations are internally consistent. Model/Config. Status: partial, Properties/Config.
* **C47** Custom data files are never fetched from the default location. Model/Config; expected refutation. Status: partial, Properties/Config.
* **C48** Main filter and colour columns are recognised for every filter order. Model/Colours over strings. Status: partial, Properties/Photometry.
* **C49** Only completed runs are reported successful. Model/Files. Status: partial, Properties/Files.
* **C50** Long kernel paths are split losslessly. Model/Files. Status: proved, Properties/Files.
* **C51** Observations are matched to their own visit. Model/Pointing. Status: partial, Properties/DESRun, Pointing.
* **C52** Pointing filter selection and midpoint times. Model/Pointing. Status: partial, Properties/Pointing.
* **C53** DES discovery criteria. Model/DES; soundness proved, completeness of triplets expected to be refuted. Status: partial, Properties/Pointing.
* **C54** Merging result databases loses no rows. Model/Files. Status: partial, Properties/Files.
* **C55** Randomised measurements keep the true values and only add noise. Model/Randomize. Status: proved, Properties/Sphere.
* **C56** Linking never fails on night-time observations and names the right observation. Model/Linking: totality of the scans and the discovery observation. Status: proved, Properties/Linking.
* **C57** Cached readers never serve data that failed validation. Model/Readers: the cache is filled before validation. Status: partial, Properties/Readers.
* **C58** Meta kernel entries name the cached kernels. Model/Files: leftmost replacement on strings. Status: proved, Properties/Files.
* **C59** Output rounding touches exactly the configured columns. Model/Output. Status: partial, Properties/Files.
* **C60** Forced overwriting deletes only files of the output stem. Model/Files: glob patterns. Status: partial, Properties/Files.
* **C61** A SQLite run that wrote its rows completes. Model/Output and Driver. Status: partial, Properties/Files.
* **C62** Results and statistics are kept apart. Model/Output. Status: partial, Properties/Files.
* **C63** The light-time iteration converges to the true light time. Model/Sphere: light-time iteration as a contraction. Status: proved, Properties/Sphere.
* **C64** Reported sky rates are the time derivatives of the reported coordinates. Model/Sphere: derivatives over R. Status: proved, Properties/Sphere.
* **C65** The phase angle is the angle at the object between Sun and observer. Model/Sphere: law of cosines. Status: proved, Properties/Sphere.
* **C66** The linking filter's separation is the great-circle distance. Model/Sphere. Status: proved, Properties/Sphere.
* **C67** Flux and magnitude conversions are inverse and decreasing. Model/Randomize. Status: proved, Properties/Sphere.
* **C69** The built-in identity variability models can be selected and change nothing. Model/Photometry and Colours: registries. Status: partial, Properties/Photometry.
* **C68** Object names survive the ephemeris generator. Model/EphemerisTable: text level. Status: partial, Properties/Ephemeris.
* **C70** Repeating a run with the same seed repeats its measurements. Model/Ephemeris: iteration order of sets as a parameter. Status: partial, Properties/Ephemeris.
* **C71** The footprint filter keeps each observation once, with the detector it falls on. Model/Footprint. Status: partial, Properties/Footprint.
* **C72** Focal plane coordinates identify the direction on the sky. Model/Footprint: gnomonic projection. Status: partial, Properties/Footprint.
* **C73** Detectors can be given in degrees and rotated. Model/Footprint. Status: partial, Properties/Footprint.
* **C74** Detection on a visit's CCDs depends on the observation alone. Model/VisitsFootprint. Status: partial, Properties/VisitsFootprint.
* **C75** Elements computed from a state describe that state's orbit. Model/Kepler over R. Status: partial, Properties/Cometary, Kepler.
* **C76** The perihelion distance used for culling is that of the object's orbit. Model/OrbitParse. Status: partial, Properties/Kepler.
* **C77** An accepted configuration holds the values written in the file. Model/Config: what each key says, order of sections. Status: proved, Properties/Config.
* **C78** A Dark Energy Survey simulation writes exactly the observations that its enabled cuts and the discovery criteria allow. Model/DESPipeline: the round of des.py on the shared stages of Pipeline; a generic lemma on runs whose output is made object by object. Status: proved, Properties/DESRun.
* **C80** The configuration files that come with the package are accepted and mean what their documentation says. Model/Shipped: the .ini files transcribed, evaluated through startup with symbolic number parsers. Status: partial, Properties/Config.
* **C79** A round that detects something writes exactly the documented columns. Model/Columns: a table as the list of its columns, a round as the reads and writes of columns, driven by the accepted configuration. Status: partial, Properties/Columns.
* **C81** A run starts exactly when its command is in order. Model/Startup: the command as steps on a file system that may fail. Status: partial, Properties/Startup.
* **C82** A command that is rejected leaves all earlier results in place. Model/Startup: every step changes only logs and outputs. Status: partial, Properties/Startup.
* **C83** A command that cannot be run is rejected with an error message. Model/Startup: classification of failures. Status: partial, Properties/Startup.
* **C84** Forced overwriting never deletes the inputs of the run. Model/Startup. Status: partial, Properties/Startup.
* **C85** An external ephemeris is accepted exactly when it has the documented columns. Model/SavedEphemeris: headings as strings, trimming as a relation. Status: partial, Properties/Saved.
* **C86** A saved ephemeris can be used instead of generating it. Model/SavedEphemeris: writer and reader on lines of text and on labelled HDF5 rows; the joins of Model/Readers on both sides. Status: partial, Properties/Saved.
* **C87** A camera file may list detector corners in any order. Model/Footprint: grouping by first appearance. Status: proved, Properties/Footprint.
* **C88** The log records the settings of a run. Model/Log: the statements of the function as blocks of optional messages; messages are told apart by their constant beginnings. Status: partial, Properties/Log.
* **C89** Every object is propagated from its own orbit. Model/Setup: the cache of the Sun shown irrelevant, dictionary as association list. Status: partial, Properties/Setup.
* **C90** Each visit is seen from where the observatory is at its midpoint. Model/Setup: SPICE as functions; central differences bounded by the third derivative. Status: proved, Properties/Setup.
* **C91** A run uses the data files its configuration names, and the cache can be trusted. Model/Cache: files of the cache as a function, network as an oracle for each attempt, state kept on failure. Status: partial, Properties/Cache.
* **C92** The commands beside sorcha run leave a user's files alone. Model/FrontEnds, on the file system of Model/Startup. Status: partial, Properties/FrontEnds.
* **C93** With a table of CCDs an observation is kept exactly when it falls on one. Model/VisitsFootprint: for CCDs on a half-shifted grid at most two points of other CCDs are as near as the five of the own one. Status: partial, Properties/Bricks.
* **C94** States of elliptic orbits are the two-body positions at the epoch. Model/Kepler: series bounded by the alternating series of sine and cosine, errors carried through the doublings, then through the acceptance test. Status: partial, Properties/Anomaly.
* **C95** Elements and states convert into each other and back. Model/Kepler: true anomaly and half-angle identities identify the conic; Kepler's equation is expanding, so a small residual means a near anomaly. Status: partial, Properties/Cometary.
* **C96** States of hyperbolic and parabolic orbits are the two-body positions at the epoch. Model/Kepler: Taylor polynomials of cosh and sinh by repeated integration, relative errors through the doublings. Status: proved, Properties/Hyperbola.
* **C97** Results in HDF5 files are complete. Model/Hdf5Output on the tables of Model/Output: widths of string columns fixed by the first table. Status: partial, Properties/Hdf5Output.
* **C98** sorcha VERB runs sorcha-VERB with the arguments as given. Model/Dispatch: PATH as a list of directories, programs as a function from paths. Status: partial, Properties/Dispatch.
* **C99** Variability models of add-ons can be selected. Model/Registration: the classes below the base class in order. Status: partial, Properties/Registration.
* **C100** create-sqlite gathers all results and inputs. Model/ResultsDatabase: what glob finds in listing order; statements on tables that take effect at once. Status: partial, Properties/ResultsDatabase.
* **C101** Floating-point rounding does not change what is linked. Model/LinkingFloat: the linking stage in binary64. Status: proved, Properties/LinkingFloat.
* **C102** Rounding written columns in binary64 arithmetic. Model/Rounding: numpy's round in binary64, put in place of the parameter of Model/Output. Status: partial, Properties/Rounding.
* **C103** A simulation called from Python returns what it would have written. Model/Library: the end of a run on the loop of Model/Driver, with the files as state. Status: partial, Properties/Library.
* **C104** The command line of sorcha run is read as its help describes it. Model/Arguments: argparse as two passes over the arguments; a grammar of command lines shown equivalent to what is accepted. Status: partial, Properties/Arguments.
* **C105** The fading function keeps its meaning in floating-point arithmetic. Model/FadingFloat: Flocq binary64. Status: partial, Properties/FadingFloat.
* **C106** The geometry columns of an ephemeris row describe one configuration. Model/Sphere. Status: proved, Properties/Geometry.
* **C107** With the same seed, random cuts do not depend on the chunk size. Model/Pipeline and Driver: positions in the streams carried through the rounds. Status: partial, Properties/Streams.
* **C108** Right ascensions and declinations stay in range in floating point. Model/AngleFloat: binary64 angles; monotone rounding for the ranges, half units in the last place for the errors. Status: partial, Properties/AngleFloat.
* **C109** Signal-to-noise ratios and uncertainties keep their meaning in floating point. Model/UncertaintyFloat: binary64 with overflow; an order on float64 values with infinities, every operation monotone in it. Status: proved, Properties/UncertaintyFloat.
* **C110** Computed uncertainties agree with the published formulas to twelve digits. Model/UncertaintyFloat: counting relative errors in units of 2^-50 operation by operation. Status: proved, Properties/UncertaintyClose.
* **C111** Measured positions scatter around the true ones by the stated uncertainty, everywhere on the sky. Model/Sphere (randomizeAstrometry): geometry of the perturbed unit vector. Status: proved, Properties/Scatter.
* **C112** The ephemeris generator misses no object well inside the field. Model/Ephemeris: C41 plus the error term of quadratic interpolation (Rolle), the triangle inequality for angles and a chain of directions across the disc. Status: proved, Properties/Complete.
* **C113** Magnitudes and limiting depths computed in float64 agree with the formulas and keep their order. Model/MagnitudeFloat: relative errors counted in units of 2^-50; numpy's interpolation followed along the table with the abscissa moved by a few units in the last place. Status: proved, Properties/MagnitudeFloat.
* **C114** The computed midpoint of a visit never precedes its start, nor a computed start follows the midpoint. Model/MagnitudeFloat: monotone rounding. Status: proved, Properties/MagnitudeFloat.
* **C115** The catalogue of a run without random decisions, described outright. Composition of C11, C13, C15, C04 and C19; completion from the totality of every stage. Status: proved, Properties/Catalogue.
* **C116** Angles on the sky computed in float64 are right, and linking and vignetting rest on them safely. Model/SeparationFloat; error analysis of the haversine formula with relative errors on each factor, arcsine by the mean value theorem; C101 and C113 on top. Status: proved, Properties/SeparationFloat.
* **C117** The camera footprint decides correctly in float64 arithmetic, away from the edges of detectors. Model/FootprintFloat; a calculus of nearness to real values, signed areas against absolute areas for convex outlines, C01 geometry on top. Status: proved, Properties/FootprintFloat.
* **C118** The cameras that come with the package are where they should be, and no source is recorded twice. Model/Cameras: the shipped files as integers; checks by computation, carried over to the reals by error bounds; then C117. Status: partial, Properties/Cameras.
* **C119** What becomes of the identifiers of a table that is read. Model/Csv pandas_ids against an independent reading of decimal numerals. Status: proved, Properties/Readers.
* **C120** The demonstration works as told. Model/Demo on Startup, Arguments, FrontEnds and Shipped: the printed line is run through the shell's splitting and argparse; then C92, C80 and C81. Status: proved, Properties/Demo.
* **C121** The result file of a run without random decisions, described outright. Model/WholeRun: the rounds of Model/Pipeline in the loop of Model/Library; C115 and C21 composed. Status: proved, Properties/WholeRun.
* **C122** The result file of a Dark Energy Survey run without random decisions, described outright. C121 for Model/DESPipeline: the generic lemma of C78 with its catalogue made explicit, totality of the round from that of the shared stages. Status: proved, Properties/DESWhole.
* **C123** A state of parabolic speed survives conversion to elements and back.  Status: proved, Properties/RoundTrip.

## Findings
The model follows the code; where the code does not have the property, the refutation is a theorem. The notes are those of
`MANIFEST.json`.
* **C10** (`C10_negative_bound_refuted`): Distance and motion cuts proved for non-negative bounds, in terms of real square roots. The statement's 'all bounds' is false: bounds are squared, so C10_negative_bound_refuted gives a negative bound that behaves as its absolute value.
* **C14** (`C14_config_refuted`): Refuted for the configuration: every size that parses as an integer is accepted (C14_config_refuted). Loop part proved: a non-positive size stops the run in its first round (AttributeError or ValueError) rather than looping forever.
* **C16** (`C16_identifiers_refuted`): Text level model of the CSV reader incl. header position, skiprows and pandas blank-line skipping; cached and uncached, any schedule of block sizes and any call history. C16_identifiers_refuted: per-block type inference changes identifiers such as 007.
* **C17** (`C17_hdf5_repeated_index_refuted`, `C17_csv_names_refuted`, `C17_csv_blank_refuted`): CSV exact for files without blank lines whose identifiers survive column type inference (C119_usual says which do). Both hypotheses are needed: C17_csv_names_refuted (an object named 007 is returned as 7) and C17_csv_blank_refuted (one blank line and no object can be read). With blank lines C17_csv_never_half_read_partial says a returned table is still exact, again assuming stable identifiers and no data row with a cell ObjID. HDF5 exact for distinct index labels, C17_hdf5_repeated_index_refuted otherwise.
* **C18** (`C18_blank_line_misaligns_blocks_refuted`): Header detection and whole-file reads proved; reading by object stops on blank lines. The clause that blank lines are never silently misaligned is false for block reads: C18_blank_line_misaligns_blocks_refuted.
* **C19** (`C19_repeated_identifiers_refuted`): Identifier check is multiset equality; joins sound and, for distinct identifiers, exact. Repeated identifiers: C19_repeated_identifiers_refuted.
* **C20** (`C20_missing_element_refuted`, `C20_mixed_formats_refuted`): Acceptance characterised exactly; missing values and formats mixed across chunks are findings.
* **C23** (`C23_forced_refuted`, `C23_pattern_refuted`): Refusal without -f is proved for stems without shell pattern characters; removal with -f is proved when at most one file of the stem exists and refuted otherwise (C23_forced_refuted), and pattern characters in the stem defeat the check (C23_pattern_refuted).
* **C24** (`C24_empty_rows_refuted`): Counts, minima, maxima, medians and uniqueness of keys (also over all chunks) proved; 'one row per non-empty group' fails because filters without observations get a row as well (C24_empty_rows_refuted).
* **C29** (`C29_single_refuted`): Offsets, preserved H and phase parameters exact for several observing filters, with sufficient conditions. C29_single_refuted: with one observing filter the documented per-filter parameters raise KeyError. One-character filter names.
* **C37** (`C37_zero_refuted`): Circle radius and fill factor proved for non-zero values. The statement's 'all tables' fails at zero: C37_zero_refuted shows a zero radius or fill factor is treated as unset and keeps every row.
* **C39** (`C39_backward_refuted`): Holds for requests in time order after one update and for any schedule after two updates (as the generator does: get_designations and interpolate_unit_vectors both update). The full statement, one update for any schedule, is false: C39_backward_refuted (a request between half and one interval before the central node moves the window forward).
* **C41** (`C41_own_pixel_refuted`): C41_rows_partial is the full characterisation of the rows, with candidates those registered in the pixels of the visit's disc. That objects in the field are always candidates is false for grids coarser than the field: C41_own_pixel_refuted. An empty table of pointings raises IndexError (C41_empty_partial).
* **C42** (`C42_outside_refuted`, `C42_root_refuted`): Termination proved: at most 3 + maxit evaluations for every function. A returned root is within (1 + 2M/m) xacc |root| of the true root for strongly increasing functions (m, M bounds on the slope at the evaluated points). Steps by bisection or with f f'' <= 0 stay inside the bracket. The clause that evaluation never leaves the bracket is false: C42_outside_refuted, a parabolic comet for which the first Halley guess is outside the bracket found by the caller. Nor does a returned root always lie in the bracket: C42_root_refuted, a polynomial of degree four with its true derivatives, bracketed by [0, 2], for which the root returned is -1.
* **C45** (`C45_zero_refuted`): Position from non-zero constants and missing constants proved. The statement is false for constants equal to zero, which count as missing: C45_zero_refuted (longitude of Greenwich), after which the observatory position raises TypeError.
* **C46** (`C46_nan_refuted`, `C46_half_width_refuted`, `C46_des_efficiency_refuted`, `C46_switch_refuted`, `C46_cut_order_refuted`): Proved for every file, survey and parse function: an accepted configuration satisfies every constraint the validation is meant to enforce, where a bound holds or the value is NaN; the linking and fading sections are accepted exactly when they parse and meet the constraints; the command line checks. Refuted (findings): NaN passes every bound check; a fading width of exactly 0.5 is accepted though documented as less than 0.5; the DES transient efficiency has no bounds; a switch given in the file counts as on whatever it says and without limits; cut bounds may be in the wrong order (C46_nan_refuted, C46_half_width_refuted, C46_des_efficiency_refuted, C46_switch_refuted, C46_cut_order_refuted).
* **C47** (`C47_refuted`): Refuted as stated: the dictionary of download URLs is built before validation, so a custom name keeps the default URL, for every data file and every new name (C47_refuted). Proved: the URL attribute is emptied exactly in that case, a URL without a name is rejected, and each file name is looked up at the URL in use.
* **C48** (`C48_order_refuted`): Exact acceptance condition. C48_order_refuted: the same filters in another order are rejected (the first listed filter is taken to be the main one).
* **C49** (`C49_empty_log_refuted`): Classification by the last line proved; an empty log file raises instead of being reported as failed (C49_empty_log_refuted).
* **C51** (`C51_mismatch_refuted`, `C51_repeated_refuted`): Proved for tables with distinct FieldIDs: exactly the observations with a pointing in the selected filters are kept, in order, each with its own pointing, and the run stops exactly when a time differs by more than numpy's default tolerance; a single pair beyond the tolerance stops a whole round of either survey (C51_round, C51_des_round, for any table). Refuted: that tolerance is relative, so a mismatch of half a day passes at present-day dates (C51_mismatch_refuted); a FieldID that occurs twice in the pointing table repeats the observation (C51_repeated_refuted).
* **C52** (`C52_des_refuted`): Proved for rubin_sim as stated. For DES the midpoint is read from the table and the start is set half of the exposure time (not the visit time) before it (C52_des_partial); the statement is then false whenever the two times differ (C52_des_refuted). The SQL query is outside the model.
* **C53** (`C53_missed_refuted`): Proved for times that group into nights: objects are kept or dropped as a whole; a kept object has nine nights, or seven nights with a long arc and a triplet within the window; nine nights suffice, and so does the second criterion when its triplet has shorter gaps than all earlier triples; the arc test is exact. Refuted in general: the greedy search misses a triplet after a short first gap (C53_missed_refuted).
* **C54** (`C54_columns_refuted`, `C54_output_refuted`): All rows exactly once when all databases have the same columns; merging by position (C54_columns_refuted) and the wrong exclusion of the output (C54_output_refuted) are findings.
* **C57** (`C57_cached_after_failure_refuted`): Holds uncached, and cached when the table validates; C57_cached_after_failure_refuted shows a cached reader serving the unvalidated table after a failed first call.
* **C59** (`C59_zero_refuted`): Proved for positive numbers of decimals and for unset options; zero decimals is accepted by the configuration but ignored (C59_zero_refuted).
* **C60** (`C60_scope_refuted`): Proved for stems without shell pattern characters, refuted otherwise (C60_scope_refuted).
* **C61** (`C61_refuted`): The run completes exactly when ObjID, fieldMJD_TAI and optFilter are among the requested columns; refuted in general (C61_refuted).
* **C62** (`C62_same_name_refuted`): Proved for different stems; with the same stem statistics rows are appended to the results (C62_same_name_refuted).
* **C69** (`C69_activity_refuted`, `C69_culling_refuted`): The identity light curve changes nothing and other light curves shift each row by its own shift before activity; C69_activity_refuted: selecting identity activity always raises TypeError; C69_culling_refuted: either model with culling raises AttributeError.
* **C68** (`C68_zeros_refuted`): C68_table_partial: holds when some name in the chunk is not an integer or every integer is written as usual. In general false: C68_zeros_refuted (the column types passed to read_csv are None, so all-numeric names are read as integers).
* **C70** (`C70_order_refuted`): C70_same_rows_partial: the same rows up to their order, for any two iteration orders of the set of designations. The order, and with it the random errors each detection receives, is not determined by the seed: C70_order_refuted.
* **C71** (`C71_overlap_refuted`): C71_once_partial needs detectors that do not overlap at the observation; C71_overlap_refuted: where they do, the observation is duplicated.
* **C72** (`C72_antipode_refuted`): Holds for directions within 90 degrees of the field, fields off the poles; C72_antipode_refuted: the opposite point of the sky gets the same coordinates.
* **C73** (`C73_degrees_refuted`, `C73_rotate_refuted`): Refuted. C73_degrees_refuted: 'degrees' raises AttributeError and 'deg' is read as radians; C73_rotate_refuted: the rotated corners are projected a second time. Neither is used by the pipeline.
* **C74** (`C74_company_refuted`, `C74_labels_refuted`): C74_own_partial needs CCDs that do not overlap and the CCD under a point to own one of the 3 tabulated points nearest to it; C74_company_refuted: without the latter an observation lost alone is kept in company. C74_rows_partial needs labels that are positions (true in the pipeline); C74_labels_refuted otherwise. Convex outlines, exact rationals, ties in the nearest-point query broken by position.
* **C75** (`C75_latus_refuted`, `C75_descending_refuted`, `C75_node_refuted`, `C75_aphelion_refuted`): Energy, angular momentum, perihelion distance and eccentricity proved for every state with non-zero angular momentum; orbit plane proved when neither horizontal component of the angular momentum is zero; argument and time of perihelion proved in general position (C75_conic_partial, C75_ellipse_partial, C75_hyperbola_partial, C75_parabola_partial). False elsewhere: C75_node_refuted (node set to zero), C75_aphelion_refuted and C75_latus_refuted (at aphelion, and at a right angle from perihelion, the elements put the object at perihelion), C75_descending_refuted (at the descending node the argument is half a turn off). Eccentricities within 1e-15 of 1 but different from 1 are replaced by 1: nothing is shown for their perihelion time.
* **C76** (`C76_barycentric_refuted`): The parsing function agrees with the ephemeris' one for all six formats when it is given the Sun's actual state. The culling step passes a Sun at the barycentre, so the statement is false for barycentric formats: C76_barycentric_refuted.
* **C80** (`C80_des_refuted`): Proved for the three Rubin files and the demo file, with the documented values. Refuted for the DES file (C80_des_refuted): line 102 spells the key self.des_transient_efficency, which the dataclass does not have, so the run stops with a TypeError; with the key respelled the file is accepted (C80_des_respelled_partial).
* **C79** (`C79_des_basic_refuted`, `C79_des_snr_refuted`, `C79_bright_refuted`, `C79_cut_refuted`, `C79_visits_refuted`, `C79_index_refuted`, `C79_names_refuted`, `C79_example_refuted`, `C79_one_filter_refuted`): Proved for every accepted Rubin configuration (C79_rubin_partial) if bright_limit_on is not set without bright_limit, and for the Dark Energy Survey with all or listed columns if no snr_limit is set, every cut that is on has bounds and a visits database is not combined with an external ephemeris (C79_des_partial). C79_names_partial: the documented columns of the full output are there, except eight. C79_models_partial: a column that the chosen light curve or activity model requires and that no table has stops the round. Refuted otherwise, for all such runs: the basic columns in the Dark Energy Survey (C79_des_basic_refuted) and an snr_limit there (C79_des_snr_refuted) end in a KeyError, a cut that is on without bounds in a TypeError (C79_cut_refuted), a visits database with an external ephemeris in a TypeError (C79_visits_refuted: PPApplyFOVFilter adds two settings of the ephemeris generator, which are None), bright_limit_on without bright_limit stops after the simulation of the first chunk (C79_bright_refuted), a list without ObjID, fieldMJD_TAI and optFilter, such as the example of the documentation, in sqlite3 fails when the indices are made (C79_index_refuted), eight documented column names do not exist (C79_names_refuted), the physical parameters files shown in the documentation are rejected (C79_example_refuted), and phase parameters per filter fail when there is one filter (C79_one_filter_refuted). Rounds in which a stage leaves no observations are not covered.
* **C81** (`C81_pattern_refuted`): C81_started: when the simulation is called, everything in the statement holds in the file system of that moment (for --cp and --vd see C81_optional: unless -f has deleted them, C84). C81_no_old_output: without -f no earlier output of the three stems is present. C81_forced: with -f the old statistics are gone, and the old results too unless there were several files of them (C23). C81_starts: conversely every command meeting the conditions starts. Names are free of pattern characters in these two. Missing: for names with pattern characters the statement is false, C81_pattern_refuted: with the stem run* no command ever starts without -f, because the run takes its own log file for an earlier result. The acceptance of the configuration is read_configs, described by C46 and C77.
* **C82** (`C82_forced_refuted`): C82_unforced: without -f, whatever the outcome, only the two logs change. C82_forced: with or without -f nothing else than logs and files named after the stems changes (names without pattern characters). False with -f, C82_forced_refuted: earlier results are deleted before the configuration and the survey name are checked, so a command rejected for a misspelled survey has already destroyed them. Also proved, with -f as well: if a required path (other than --er and --ar) is missing, the command is refused and nothing but the logs changes (C82_missing); if --ar is not a directory, it is refused and the old results stay (C82_ar).
* **C83** (`C83_model_refuted`, `C83_seed_refuted`, `C83_outfile_refuted`): C83_errors lists every way in which a command can fail other than sys.exit. The statement is false, C83_model_refuted: a light curve or activity model without --cp gives a KeyError since the dictionary has no such key (the message of run.py:179-185 is never reached); C83_seed_refuted: SORCHA_SEED that is not an integer gives a ValueError; C83_outfile_refuted: -o naming a file passes FindFileOrExit and fails when the log file is opened.
* **C84** (`C84_input_refuted`, `C84_missing_refuted`): C84_kept: true for every file that is not in the output directory under the name of an output. False in general, C84_input_refuted: an object file in the output directory whose name begins with the stem is deleted; C84_missing_refuted: the file of complex parameters is deleted after it was found, is not looked for again and the simulation is called without it.
* **C85** (`C85_missing_column_refuted`): Proved: acceptance (iff), the columns and values of an accepted table, the error message for an unknown heading.  Refuted: a table that only lacks a heading ends in a KeyError from the selection of columns, without a message (C85_missing_column_refuted).
* **C86** (`C86_hdf5_rounds_refuted`, `C86_hdf5_names_refuted`): Proved for the csv and whitespace formats at the level of lines of text, for any rounds and any set of objects, and for HDF5 when at most one round has observations; the observations of a round agree in both runs.  Refuted for HDF5: as soon as two rounds have observations the second run exits in its first round, because rows are looked up by labels that restart in each round (C86_hdf5_rounds_refuted, for all files); a longer name in a later round stops the saving run (C86_hdf5_names_refuted).  Not covered here: a second run that uses the camera footprints of each visit fails after reading (C79_visits_refuted).
* **C88** (`C88_threshold_refuted`, `C88_activity_refuted`, `C88_radius_refuted`, `C88_des_refuted`): Proved: logging an accepted configuration never fails (given that the visits argument logged is the one checked), and for each of about seventy lines, those on auxiliary files among them, the log contains it exactly when the setting has that value; spellings of numbers and of file names are parameters. Refuted: without footprint_edge_threshold the log says that the default threshold is used, but the camera filter leaves no margin (C88_threshold_refuted; docs/postprocessing.rst says all of the detector area is used); an activity model not called 'comet' is in no line (C88_activity_refuted); the circle radius is not logged when there is a fill factor, though both are applied (C88_radius_refuted); the distance and motion cuts, the discovery filter and the efficiency of the fading function of the Dark Energy Survey leave no trace (C88_des_refuted).
* **C89** (`C89_repeated_refuted`): Characterised exactly for tables without repeated ObjIDs (C89_each is an equivalence), with the outcome at the first bad row, independence of other rows and both spellings of the epoch. False when an ObjID is repeated: C89_repeated_refuted (the later row replaces the earlier one without a message; the readers do not check for repeated ObjIDs in the orbit file).
* **C91** (`C91_stale_refuted`, `C91_codes_refuted`, `C91_truncated_refuted`, `C91_force_refuted`, `C91_silent_refuted`): Proved for AUXILIARY sections with distinct file names: what is loaded when there is no meta kernel yet, that files stay and where new ones come from, that a complete cache needs no network, that a run or a plain bootstrap succeeds on any cache once every download does, and that with the default kernels every history of runs and completed bootstraps keeps the meta kernel right. Five clauses are false: an existing meta kernel is loaded although the configuration names other kernels (C91_stale_refuted), unpacked observatory codes likewise (C91_codes_refuted), a failed bootstrap leaves an unfinished meta kernel that a later run loads (C91_truncated_refuted), bootstrap --force fails on a cache without meta kernel after removing files (C91_force_refuted), and bootstrap ends normally although a download failed (C91_silent_refuted). pooch is assumed to take a file that exists, and to raise ValueError for one without URL.
* **C92** (`C92_halfway_refuted`, `C92_suffix_refuted`, `C92_force_refuted`, `C92_lost_refuted`): Proved for all file systems and arguments: without --force init and demo prepare change nothing that is there and with it only the requested files; everything new has the contents shipped; exactly when they end normally and that the requested files are then there; check-logs keeps every file except the one it reports to (and with --force the output path), and without --force keeps all if the output path ends in .csv; a saved report has each log below the directory once with the right verdict, and some run failed. False: a refusal leaves the directory as it was (C92_halfway_refuted), -o name without --force overwrites name.csv (C92_suffix_refuted), --force removes only what is replaced (C92_force_refuted, C92_lost_refuted). An empty log file ends check-logs with an error (see C49).
* **C93** (`C93_wrap_refuted`, `C93_missed_refuted`): Proved for cameras of equal, axis-parallel CCDs in rows that are in line or shifted by half a CCD, with gaps small against the CCDs, every CCD lying within the radius (ar_ang_fov + ar_fov_buffer, at most 90) of the field centre in right ascension. Refuted without the last condition (C93_wrap_refuted: the radius is compared with differences of right ascension, so at declination -60 the shipped 1.5 degrees lose a CCD across the 0/360 boundary) and for rows shifted otherwise (C93_missed_refuted: three points are too few). Cameras with curved or rotated CCDs are not covered. Arithmetic is exact.
* **C97** (`C97_longer_refuted`, `C97_columns_refuted`): C97_rows_partial: success means every row once in order, an error leaves exactly the rows of the rounds before. C97_when_partial: success exactly if no later string is longer. Refuted clause (same as csv whatever identifiers and columns): C97_longer_refuted (a round with longer identifiers stops the run, the csv run goes on), C97_columns_refuted (a column list without ObjID is a KeyError). Index labels and the types of the columns are not modelled.
* **C98** (`C98_unlistable_refuted`, `C98_dashes_refuted`, `C98_killed_refuted`): C98_runs_partial, C98_only_partial, C98_unknown_partial and C98_version_partial for PATHs whose directories can all be listed and arguments that do not begin with two dashes. Refuted clauses: C98_unlistable_refuted (one PATH directory that cannot be listed stops every command with an exception; C98_unlistable_partial says so for all PATHs), C98_dashes_refuted ('--' directly after the verb is dropped), C98_killed_refuted (a program killed by signal 9 gives status 247). Command lines that begin with an option other than --version are not modelled.
* **C99** (`C99_duplicate_refuted`, `C99_derived_refuted`): C99_register_partial: the names registered are exactly those of the classes, and a repeated name is a ValueError. C99_start_partial: at the start of a run the package's classes are kept and every class directly below the base class can be found under its name; a name without a class is an error in the calculations (C69). Refuted clauses: C99_duplicate_refuted (two add-ons with one name: no error, the first is used), C99_derived_refuted (a class derived from another model cannot be selected). Classes are modelled by their name_id, value and derived classes; importing add-ons is not modelled.
* **C100** (`C100_commas_refuted`, `C100_output_refuted`, `C100_lost_refuted`, `C100_names_refuted`): C100_complete_partial: whenever the command ends well all rows of all databases and input files are there under their columns' names, capitals not distinguished. C100_ends_partial: it ends well for matching columns if the first database listed is not the output, the inputs are separated by blanks and no two columns, the column of row numbers included, have names that differ at most in capitals. Refuted clauses: C100_commas_refuted (comma-separated inputs become a single column), C100_output_refuted (a new output listed first among the results is an error, on every call), C100_lost_refuted (a failing merge leaves an empty table of results), C100_names_refuted (a column Index, which is not renamed as INDEX is, clashes with the row numbers). Types of columns and locking of large outputs are not modelled.
* **C102** (`C102_circle_refuted`, `C102_many_refuted`): Clauses 1 to 6 are proved (C102_close_partial, C102_order_partial, C102_between_partial, C102_decimal_partial, C102_again_partial, C102_special_partial). Refuted clauses: C102_circle_refuted (with 1 to 12 decimals every right ascension within a quarter of a unit below 360 is written as 360), C102_many_refuted (309 or more decimals are accepted and every number is written as NaN, since the power of ten is infinite). numpy's round is modelled as multiply, rint, divide in Flocq's binary64 format with overflow to infinity; C's pow is taken to be correctly rounded and the sign of zero is left out.
* **C103** (`C103_nothing_refuted`, `C103_database_refuted`, `C103_indexed_refuted`): Clause 1 is C103_csv_partial and C103_sqlite_partial (for the latter the indexed columns have to be among the requested ones, see C61), clause 2 C103_complete_partial, clause 3 C103_untouched_partial (CSV, or no database of that name), clause 5 C103_rounds_partial. Refuted clauses: C103_nothing_refuted (a call that finds nothing ends in the ValueError of pd.concat), C103_database_refuted (with SQLite output and the database of an earlier completed call, every later call ends in the OperationalError of CREATE INDEX after all its work, and returns nothing), C103_indexed_refuted (a database that has no indexes yet is given them, though return_only is to skip writing). HDF5 output and the file of a saved ephemeris are not modelled here.
* **C104** (`C104_dash_refuted`, `C104_level_refuted`): Clause 1 is C104_command_partial (an accepted line asks for exactly one command) with C104_run_partial and C104_only_partial (main does what execute does with that command, and nothing else ever gets that far); clause 2 C104_refused_partial and C104_help_partial, clause 3 C104_others_partial. Refuted clauses: C104_dash_refuted (a value that begins with a dash and is neither a negative number nor contains a space cannot be given as the next argument), C104_level_refuted (-l is a store_false switch with default True: it turns the additional log messages of des.py off). The model of argparse follows CPython 3.11; version-dependent text of messages is left out.
* **C105** (`C105_zero_refuted`): Clauses 1 to 7 are proved: C105_close_partial, C105_order_partial, C105_half_partial (peak at least 2^-1000), C105_bright_partial, C105_faint_partial, C105_kept_partial, C105_missing_partial, C105_rows_partial, C105_des_partial (k at least 1e-300), C105_des_order_partial, C105_des_missing_partial, C105_des_rows_partial. Clause 9 is C105_infinite_partial. Refuted clause 8: C105_zero_refuted (the comparison is probability >= draw and a draw of exactly 0 is possible). Arithmetic is Flocq's binary64 format with overflow to infinity, without the sign of zero; numpy's exp is a parameter.
* **C107** (`C107_randomised_refuted`, `C107_ungrouped_refuted`): (1) C107_chunk_size_partial. (2) C107_randomised_refuted: the positions in the stream at which a row's measurement errors are drawn depend on how many rows the chunk has. (3) C107_ungrouped_refuted: for an ephemeris in the order of time the fading function drops another row under another chunk size. Findings.
* **C108** (`C108_full_circle_refuted`): (1) and (2) are proved for both functions (C108_ephemeris, C108_randomised), and (3) for the randomised positions. (3) is false of the ephemeris: for every angle in [-2^-51, 0) vec2ra_dec returns exactly 360 (C108_full_circle_refuted), while icrf2radec returns 0. The conversion factor in the claim is 180 over the float64 value of pi; arctan2, arcsin and norm are parameters; the sign of zero is not modelled.
* **C118** (`C118_des_refuted`, `C118_tangent_refuted`): Model/Cameras holds the two shipped files number by number. Clauses 1 and 2 are proved for every read of the LSST file (checks on the integers of the file are run in the kernel and carried over to the reals). Clause 3 is refuted: DES_ccd_corners.csv is in degrees, the constructor reads radians, and in the real-number model a source more than 45 degrees from the centre of the field is kept (camera_model footprint with survey DES and no footprint_path; the shipped DES configuration uses visits_footprint instead). Clause 4 is refuted: the documentation calls the numbers tangents, but they are projected again as angles, which moves some corner by more than 2 arcsec.

## Print Assumptions of every property theorem

Closed under the global context, no axioms (295 theorems):
C01_error_iff_unordered, C01_tracklet_exact, C02_nights, C03_first_opportunity, C03_first_success, C03_opportunities_exact, C03_opportunities_sound, C04_efficiency_one, C04_efficiency_zero, C04_filter_efficiency_one, C05_flags_and_dates, C05_linking_rows, C06_row_order, C06_split_by_object, C06_verdict_is_local, C07_magnitude_limit, C07_nan_rows, C07_saturation_limit, C07_snr_limit, C08_per_filter_saturation, C08_short_list_raises, C08_unlisted_filter_kept, C09_efficiency_exact, C09_efficiency_monotone, C09_efficiency_out_of_bounds, C09_fading_exact, C09_fading_extremes, C09_fading_monotone, C100_commas_refuted, C100_complete_partial, C100_ends_partial, C100_lost_refuted, C100_names_refuted, C100_output_refuted, C103_complete_partial, C103_csv_partial, C103_database_refuted, C103_indexed_refuted, C103_nothing_refuted, C103_rounds_partial, C103_sqlite_partial, C103_untouched_partial, C104_command_partial, C104_dash_refuted, C104_help_partial, C104_level_refuted, C104_only_partial, C104_others_partial, C104_refused_partial, C104_run_partial, C107_chunk_size_partial, C107_randomised_refuted, C107_ungrouped_refuted, C10_distance_all_or_nothing_partial, C10_motion_cut_nonfinite_partial, C115_catalogue, C118_shipped_partial, C119_integers, C119_merged, C119_one, C119_text, C119_usual, C11_cuts, C11_exact, C11_stages, C120_again, C120_started, C121_chunks, C121_csv, C121_sqlite, C12_count, C12_provenance, C13_external, C13_internal, C13_terminates, C14_config_refuted, C14_loop_stops_internal_partial, C14_loop_stops_partial, C15_chunk_size, C16_block, C16_cache_transparent, C16_hdf5_block, C16_identifiers_refuted, C16_partition, C17_csv_blank_refuted, C17_csv_names_refuted, C17_csv_never_half_read_partial, C17_csv_partial, C17_hdf5_partial, C17_hdf5_repeated_index_refuted, C18_all_rows_read_partial, C18_blank_line_misaligns_blocks_refuted, C18_blank_line_stops_read_by_object_partial, C18_header_partial, C19_aux_rows, C19_each_row_once, C19_joined_rows_own_data, C19_repeated_identifiers_refuted, C19_same_objects, C20_accepted_iff, C20_blocks_of_accepted_table, C20_missing_element_refuted, C20_mixed_formats_refuted, C20_physical, C21_csv, C21_missing, C21_sql, C21_succeeds, C22_file, C22_prefix, C23_forced_partial, C23_forced_refuted, C23_pattern_refuted, C23_refused_partial, C24_chunks_partial, C24_empty_rows_refuted, C24_rows_partial, C25_alone, C25_base, C25_collision, C25_stream, C37_circle_footprint_partial, C37_circle_model_partial, C37_fill_factor_partial, C37_zero_refuted, C41_empty_partial, C46_accepted_partial, C46_cut_order_refuted, C46_des_efficiency_refuted, C46_fading_complete_partial, C46_half_width_refuted, C46_nan_refuted, C46_ssp_complete_partial, C46_startup_partial, C46_switch_refuted, C47_attribute_partial, C47_lookup_partial, C47_refuted, C47_url_alone_partial, C48_order_refuted, C48_spec_partial, C49_all_partial, C49_completed_partial, C49_empty_log_refuted, C49_interrupted_partial, C49_last_line_partial, C50_split, C51_des_round_partial, C51_matched_partial, C51_mismatch_refuted, C51_repeated_refuted, C51_round_partial, C51_selected_filters_partial, C51_stops_partial, C52_des_partial, C52_des_refuted, C52_rubin_partial, C52_stops_partial, C53_arc_partial, C53_complete_partial, C53_missed_refuted, C53_per_object_partial, C53_sound_partial, C54_columns_refuted, C54_output_refuted, C54_rows_partial, C56_linked_observation, C56_linking_total, C57_cached_after_failure_refuted, C57_cached_answers_partial, C57_uncached_validated_partial, C58_expand, C59_rounding_partial, C59_zero_refuted, C60_scope_partial, C60_scope_refuted, C61_index_partial, C61_refuted, C62_same_name_refuted, C62_separate_partial, C68_table_partial, C68_zeros_refuted, C69_activity_refuted, C74_company_refuted, C74_labels_refuted, C74_own_partial, C74_rows_partial, C77_documented, C77_order, C77_spelling, C77_values, C78_chunk_size, C78_count, C79_bright_refuted, C79_cut_refuted, C79_des_basic_refuted, C79_des_partial, C79_des_snr_refuted, C79_example_refuted, C79_index_refuted, C79_models_partial, C79_names_partial, C79_names_refuted, C79_one_filter_refuted, C79_rubin_partial, C79_visits_refuted, C80_des_refuted, C80_des_respelled_partial, C80_rubin_partial, C81_forced_partial, C81_no_old_output_partial, C81_optional_partial, C81_pattern_refuted, C81_started_partial, C81_starts_partial, C82_ar_partial, C82_forced_partial, C82_forced_refuted, C82_missing_partial, C82_unforced_partial, C83_errors_partial, C83_model_refuted, C83_outfile_refuted, C83_seed_refuted, C84_input_refuted, C84_kept_partial, C84_missing_refuted, C85_columns_partial, C85_missing_column_refuted, C85_unknown_column_partial, C86_formats_partial, C86_hdf5_names_refuted, C86_hdf5_one_round_partial, C86_hdf5_rounds_refuted, C86_observations_partial, C86_round_partial, C86_text_partial, C88_activity_refuted, C88_auxiliary_partial, C88_camera_partial, C88_des_refuted, C88_finishes_partial, C88_generator_partial, C88_inputs_partial, C88_limits_partial, C88_linking_partial, C88_output_partial, C88_radius_refuted, C88_switches_partial, C91_bootstrap_partial, C91_codes_refuted, C91_force_refuted, C91_history_partial, C91_kept_partial, C91_loaded_partial, C91_offline_partial, C91_recovers_partial, C91_silent_refuted, C91_source_partial, C91_stale_refuted, C91_truncated_refuted, C92_demo_partial, C92_force_refuted, C92_halfway_refuted, C92_init_done_partial, C92_init_kept_partial, C92_init_written_partial, C92_logs_answer_partial, C92_logs_kept_partial, C92_logs_report_partial, C92_logs_shown_partial, C92_lost_refuted, C92_suffix_refuted, C93_kept_partial, C93_missed_refuted, C93_once_partial, C93_rows_partial, C93_wrap_refuted, C97_columns_partial, C97_columns_refuted, C97_longer_refuted, C97_rows_partial, C97_when_partial, C98_dashes_refuted, C98_killed_refuted, C98_only_partial, C98_runs_partial, C98_unknown_partial, C98_unlistable_partial, C98_unlistable_refuted, C98_version_partial, C99_derived_refuted, C99_duplicate_refuted, C99_register_partial, C99_start_partial.

`sig_forall_dec` (5 theorems):
C29_rows_partial, C29_single_refuted, C29_succeeds_partial, C69_lightcurve_partial, C69_shift_partial.

`sig_forall_dec`, `functional_extensionality_dep` (7 theorems):
C38_quadratic, C38_stable, C38_weights, C42_accuracy_partial, C42_bounded_partial, C42_outside_refuted, C42_step_inside_partial.

`sig_forall_dec`, `sig_not_dec`, `functional_extensionality_dep` (62 theorems):
C10_distance_cut_partial, C10_motion_cut_partial, C10_negative_bound_refuted, C122_csv, C122_sqlite, C33_unit, C34_inverse, C34_isometry, C34_obliquity, C35_triad, C36_distance, C36_edge, C36_inside, C39_backward_refuted, C39_interpolate_partial, C39_sorted_partial, C40_coherent, C40_interpolated, C40_seen, C41_own_pixel_refuted, C43_energy_partial, C43_momentum_partial, C43_parabola_partial, C43_plane_partial, C44_barycentric, C44_cache, C44_cartesian, C44_columns, C44_kep_com, C44_own_mass, C44_shift, C44_unknown, C45_barycentric_partial, C45_known_partial, C45_missing_partial, C45_zero_refuted, C63_light_time, C64_projection, C71_once_partial, C71_overlap_refuted, C71_rows_partial, C72_angle_partial, C72_antipode_refuted, C72_corners_partial, C72_direction_partial, C73_degrees_refuted, C73_rotate_refuted, C78_cuts, C78_exact, C78_stages, C88_threshold_refuted, C89_each_partial, C89_epoch_partial, C89_outcome_partial, C89_own_partial, C89_repeated_refuted, C90_each, C90_order, C90_outcome, C90_own, C90_time, C96_ends.

`sig_forall_dec`, `sig_not_dec`, `classic`, `functional_extensionality_dep` (144 theorems):
C101_linked, C101_night, C101_opportunities, C101_same, C102_again_partial, C102_between_partial, C102_circle_refuted, C102_close_partial, C102_decimal_partial, C102_many_refuted, C102_order_partial, C102_special_partial, C105_bright_partial, C105_close_partial, C105_des_missing_partial, C105_des_order_partial, C105_des_partial, C105_des_rows_partial, C105_faint_partial, C105_half_partial, C105_infinite_partial, C105_kept_partial, C105_missing_partial, C105_order_partial, C105_rows_partial, C105_zero_refuted, C106_phase, C106_rates, C106_source, C106_triangle, C108_ephemeris_partial, C108_full_circle_refuted, C108_randomised_partial, C109_finite, C109_five, C109_floor, C109_loss, C109_losses, C109_order, C110_close, C110_formulas, C110_loss, C111_angle, C111_offset, C112_buffer, C112_complete, C112_interpolation, C113_close, C113_depth, C113_order, C113_psf, C113_trailing, C114_midpoint, C114_start, C116_depth, C116_distance, C116_linked, C116_same_place, C117_camera, C117_detector, C117_filter, C117_focal, C117_source, C118_des_refuted, C118_lsst_field_partial, C118_lsst_firm_partial, C118_tangent_refuted, C123_parabola, C26_detected, C26_loss, C26_monotone, C26_still, C27_astrometric, C27_photometric, C27_row, C27_snr, C28_depth, C28_loss, C30_law, C30_unit, C30_unknown, C31_absent_filter_partial, C31_exact_partial, C31_unobservable_partial, C32_column, C32_des, C32_fading, C33_angles, C33_vector, C33_vector2, C36_outline, C36_sorted, C41_angle_partial, C41_light_partial, C41_rows_partial, C42_root_refuted, C43_ellipse_bound_partial, C43_hyperbola_bound_partial, C43_parabola_bound_partial, C55_position, C55_rows, C55_zero_noise, C64_rates, C65_phase, C66_haversine, C66_symmetric, C66_zero, C67_five, C67_flux, C67_mag, C67_order, C69_culling_refuted, C70_order_refuted, C70_same_rows_partial, C75_aphelion_refuted, C75_conic_partial, C75_descending_refuted, C75_ellipse_partial, C75_energy_momentum_partial, C75_hyperbola_partial, C75_latus_refuted, C75_node_refuted, C75_normal_partial, C75_parabola_partial, C75_recovers_partial, C76_barycentric_refuted, C76_elements_partial, C76_state_partial, C87_corners, C87_names, C87_order, C90_velocity, C94_ends_partial, C94_functions_partial, C94_kepler_partial, C94_motion_partial, C95_elements_partial, C95_round_trip_partial, C95_time_partial, C96_functions, C96_kepler, C96_motion, C96_parabola, C96_parabola_motion.
