{"id": "C01", "title": "Recorded microphones are the exact convolution of the recorded sources", "statement": "For a simulation with stationary arrays, every recorded microphone sample t equals the sum, over all source arrays, of the convolution of that source array's recorded signal with the propagation path between the two arrays (samples before the sources start counting as zero). This holds for free sources and for loudspeakers driven by the processor, whatever the buffer size, chunk size, block size, number of arrays and set of other diagnostics.", "quantifier": "all array collections, paths, source signals, processors, sim_buffer/sim_chunk_size/block_size within the supported minimum, all run lengths, all time indices", "why_tests_cant": "A test fixes a handful of buffer/chunk/block sizes and a short run; an error at the moment the cyclic buffer is shifted depends on the joint residue of four integers and on how many shifts have happened.", "anchors": ["src/aspsim/simulator.py: Propagator.prepare, Propagator.propagate, Simulator.run_simulation, Signals._reset_signals", "src/aspsim/diagnostics/core.py: Logger.save_data", "src/aspsim/diagnostics/diagnostics.py: RecordSignal"]}
{"id": "C02", "title": "Buffer and chunk size are invisible in the recorded signals", "statement": "Two simulations that differ only in sim_buffer and sim_chunk_size (both within the supported minimum, sources started at time 0) record identical signals for every array and hand identical sample windows to the processor.", "quantifier": "all pairs of buffer/chunk sizes, all processors, array sets, source signals and run lengths", "why_tests_cant": "It is a statement about pairs of executions; tests compare against at most one other configuration.", "anchors": ["src/aspsim/simulator.py: Simulator.run_simulation, Simulator.last_block_on_buffer, Signals._reset_signals"]}
{"id": "C03", "title": "The processor is handed exactly the recorded past", "statement": "At its k-th call (k = 1, 2, ...), the window of the last h samples before the current index that the processor reads from any signal equals the recorded samples k*block_size-h .. k*block_size-1 of that signal: no sample is missing, duplicated, stale or from the future.", "quantifier": "all block sizes, window lengths h supported by the buffer, all signals, all calls of all runs", "why_tests_cant": "The window is read from a shifting buffer; whether it straddles a shift depends on all sizes and the call number.", "anchors": ["src/aspsim/simulator.py: Simulator.run_simulation, Signals", "src/aspsim/processor.py: AudioProcessor.process"]}
{"id": "C04", "title": "Processor output appears exactly one block later, once, in order", "statement": "The block the processor writes to a controllable source at its k-th call is recorded as samples k*block_size .. (k+1)*block_size-1 of that source; before sample block_size the loudspeaker is silent; nothing written is lost at a buffer shift or played twice.", "quantifier": "all block/buffer/chunk sizes, processors, runs", "why_tests_cant": "Loss of part of a block at a buffer shift needs a particular alignment of block, chunk and buffer; tests check one delay for a few sizes.", "anchors": ["src/aspsim/simulator.py: Simulator.run_simulation, Propagator.propagate, Signals._reset_signals", "src/aspsim/processor.py: DebugProcessor.process"]}
{"id": "C05", "title": "Free source signals are recorded without loss, duplication or reordering", "statement": "When sources start at time 0, recorded sample t of a free source is precisely the t-th sample its generator produces (counting from 0); when they start before time 0 it is sample t + sim_buffer - 1. It does not depend on processors, diagnostics, chunk size or other arrays.", "quantifier": "all generators, sizes, time indices", "why_tests_cant": "One dropped or repeated generator call can occur at any buffer shift; noise sources make it invisible to spot checks.", "anchors": ["src/aspsim/simulator.py: Propagator.prepare, Propagator.propagate", "src/aspsim/array.py: FreeSourceArray.get_samples"]}
{"id": "C06", "title": "Processing schedule", "statement": "A run calls the processor exactly floor((tot_samples+block_size)/block_size) times, at the simulation steps block_size-1, 2*block_size-1, ..., so at least tot_samples samples are always processed; a run always terminates; more than one processor is rejected before anything is simulated.", "quantifier": "all tot_samples >= 0 and block sizes >= 1", "why_tests_cant": "Statement about all (tot_samples, block_size) pairs and about termination.", "anchors": ["src/aspsim/simulator.py: Simulator.run_simulation, Simulator._prepare_simulation"]}
{"id": "C07", "title": "Minimum buffer and chunk sizes", "statement": "If sim_buffer >= block_size+1, sim_buffer >= block_size-1+h for the longest window h the processor reads, and sim_chunk_size >= 2 (or both chunk and block are 1), then no access to the signal buffers during a run is out of range, wraps around, or is silently truncated. Below these limits the claim fails.", "quantifier": "all sizes satisfying the inequality; witnesses just below it", "why_tests_cant": "The repository's own test for the minimum sim_buffer is unimplemented; boundary correctness needs the exact invariant of the index over an unbounded run.", "anchors": ["src/aspsim/simulator.py: Simulator.run_simulation, Simulator.last_block_on_buffer, Signals", "tests/test_simulator_basic.py: test_minimum_value_for_sim_buffer"]}
{"id": "C08", "title": "Source contributions add up to the microphone signal", "statement": "With save_source_contributions on, for every recorded sample the microphone signal equals the sum over sources of the recorded contribution signals, and each contribution equals that source alone filtered through its path; switching the option on or off does not change any other recorded signal.", "quantifier": "all array sets, signals, sizes, times", "why_tests_cant": "Accumulation order, reset of accumulators at buffer shifts and name handling must be right for every number of sources.", "anchors": ["src/aspsim/simulator.py: Signals.__init__, Propagator.prepare, Propagator.propagate"]}
{"id": "C09", "title": "Moving arrays: which position each recorded sample uses", "statement": "With moving arrays, recorded sample t >= 1 of a microphone is produced with the impulse responses for the positions at the last multiple of array_update_freq not exceeding t-1 (sample 0 uses the initial positions), simultaneously for all pairs, for every update frequency. In particular, with array_update_freq = 1 the position used lags the sample's own time index by exactly one sample.", "quantifier": "all trajectories, update frequencies, chunk/buffer sizes, times", "why_tests_cant": "Off-by-one in the position of a slowly moving array is below the tolerance of any numeric comparison unless checked for every sample.", "anchors": ["src/aspsim/simulator.py: Simulator.run_simulation, Propagator.propagate", "src/aspsim/array.py: ArrayCollection.update"]}
{"id": "C10", "title": "What exists before time 0", "statement": "With start_sources_before_0 off, sources are silent before time 0 and so should be the microphones; with it on, sources have run for sim_buffer-1 extra samples and microphones hold the corresponding convolution.", "quantifier": "all paths, sources, buffer sizes, negative times within the buffer", "why_tests_cant": "Pre-history is only visible to processors that look further back than one block; no test reads it.", "anchors": ["src/aspsim/simulator.py: Propagator.prepare"]}
{"id": "C11", "title": "A signal diagnostic stores every requested sample exactly once, with the right value", "statement": "After a run, a recorded signal contains at every time index inside its save intervals the value the signal had at that time, and is empty (NaN) outside them, no matter how buffer shifts split the intervals.", "quantifier": "all lists of increasing disjoint intervals inside the run, all sizes", "why_tests_cant": "Which saves get split by buffer shifts depends on sizes and intervals; exhaustive testing is impossible.", "anchors": ["src/aspsim/diagnostics/core.py: Logger.save_data, IntervalCounter", "src/aspsim/diagnostics/diagnostics.py: RecordSignal.save"]}
{"id": "C12", "title": "Save calls tile the requested intervals", "statement": "The sequence of save calls a diagnostic receives during a run partitions its save intervals in order: consecutive, non-overlapping, without gaps; a save interval is never split except at a buffer shift; and the buffer positions passed always denote the same samples as the global time indices passed.", "quantifier": "all interval lists, step sequences and sizes", "why_tests_cant": "Invariant over unbounded histories of save calls.", "anchors": ["src/aspsim/diagnostics/core.py: Logger.save_data, IntervalCounter.progress"]}
{"id": "C13", "title": "Every requested export happens exactly once, in order, as soon as the data is complete", "statement": "For each diagnostic the exported time indices are exactly the requested ones that do not exceed the last saved time, each exported once, in the requested order, never before all its data has been saved; the export loop always terminates; nothing is exported when plot_output is 'none'.", "quantifier": "all export frequencies and lists, all diagnostics, all runs", "why_tests_cant": "Needs termination of a while loop and a history argument over the entire run.", "anchors": ["src/aspsim/diagnostics/core.py: Logger.dispatch, Logger.export_this_idx, Logger.export_single_diag, IndexCounter"]}
{"id": "C14", "title": "Exported signal files contain exactly the samples before the export index", "statement": "The export of a recorded signal at index E contains precisely the requested samples with time index < E, with their final values and time stamps, irrespective of when during the run the export was executed.", "quantifier": "all export indices, save intervals and sizes", "why_tests_cant": "The moment of export depends on buffer shifts; file contents must be independent of it.", "anchors": ["src/aspsim/diagnostics/core.py: get_values_up_to_idx, SignalDiagnostic.get_processed_output, Logger.dispatch"]}
{"id": "C15", "title": "State diagnostics sample the processor state at the documented times", "statement": "A state diagnostic with save frequency f stores its k-th value when k*f samples have passed: the value reflects exactly the processing blocks completed after k*f samples, is labelled with time k*f-1, and there are floor(tot_samples/f) values.", "quantifier": "all f, block sizes, run lengths, k", "why_tests_cant": "Whether the processing call of the same step is included depends on f+1 mod block_size.", "anchors": ["src/aspsim/diagnostics/core.py: StateDiagnostic, IntervalCounter.from_frequency, Logger.save_data", "src/aspsim/diagnostics/diagnostics.py: RecordState.save"]}
{"id": "C16", "title": "State exports contain only values older than the export index", "statement": "Selecting values up to an index returns exactly the stored values whose time index is smaller, in order.", "quantifier": "all stored time indices (increasing), values and export indices", "why_tests_cant": "The boundary case (no value older than the index) is not exercised by tests.", "anchors": ["src/aspsim/diagnostics/core.py: get_values_from_selection"]}
{"id": "C17", "title": "Instant diagnostics export the state of their own time index", "statement": "Each export of an instant diagnostic at index E holds the processor property as it was saved at E, never an earlier or later snapshot, and every requested index within the run is exported.", "quantifier": "all increasing save lists / frequencies, sizes, property histories", "why_tests_cant": "A later save could overwrite the value before a delayed export; needs an interleaving argument.", "anchors": ["src/aspsim/diagnostics/core.py: InstantDiagnostic, Logger.dispatch", "src/aspsim/diagnostics/diagnostics.py: RecordFilter.save"]}
{"id": "C18", "title": "Accumulating diagnostics do not depend on how the signal is split into chunks", "statement": "Diagnostics that average over a save interval (mean sound-field power, signal summary by summation) give the same result as one pass over the whole interval, for every way buffer shifts split it.", "quantifier": "all splittings of all intervals, all signals", "why_tests_cant": "The number of possible splittings is exponential in the interval length.", "anchors": ["src/aspsim/diagnostics/diagnostics.py: SoundfieldPower.save", "src/aspsim/diagnostics/diagnosticscollection.py: SignalSummary"]}
{"id": "C19", "title": "Smoothed power ratios do not depend on chunking", "statement": "The power-ratio diagnostic's value at time t depends only on the numerator and denominator signals, not on where buffer shifts happen.", "quantifier": "all signals, smoothing lengths and splittings", "why_tests_cant": "Needs comparing the same signal under all splittings.", "anchors": ["src/aspsim/diagnostics/diagnostics.py: SignalPowerRatio.save"]}
{"id": "C20", "title": "Diagnostic constructors honour save and export settings", "statement": "A state diagnostic constructed with save frequency s and export setting e saves every s samples and exports at e; in particular the power-of-state diagnostic behaves like the other state diagnostics.", "quantifier": "all s, e, tot_samples", "why_tests_cant": "Swapped arguments agree whenever s = e, the case a test would naturally use.", "anchors": ["src/aspsim/diagnostics/diagnostics.py: StatePower.__init__, RecordState.__init__"]}
{"id": "C21", "title": "Debug processor logs equal the recorded signals", "statement": "The debug processor's own microphone log equals the recorded microphone signal for all tot_samples samples, its loudspeaker log equals the recorded loudspeaker signal, and the loudspeaker plays the microphone signal delayed by exactly block_size.", "quantifier": "all block/buffer/chunk sizes, signals, run lengths", "why_tests_cant": "Tests check chosen sizes only; the loop is closed (loudspeaker feeds back into microphone), so errors propagate.", "anchors": ["src/aspsim/processor.py: DebugProcessor.process", "src/aspsim/simulator.py: Simulator.run_simulation"]}
{"id": "C22", "title": "Event counter fires exactly on schedule", "statement": "After n calls to progress (n >= 1) the reported events are exactly those whose (n - offset) is a multiple of the frequency, in definition order, including events added later.", "quantifier": "all event definitions, all n, all histories of progress/add_event calls", "why_tests_cant": "Unbounded histories.", "anchors": ["src/aspsim/counter.py: EventCounter"]}
{"id": "C23", "title": "Phase counter reports the phase containing the current sample", "statement": "After n calls to progress, the reported phase is the one whose sample range contains n, zero-length phases never being reported; first_sample is true exactly at the first sample of each phase; after all phases have finished the phase is None.", "quantifier": "all phase definitions (including zero, infinite/negative lengths), all n", "why_tests_cant": "Unbounded n, all combinations of empty and infinite phases.", "anchors": ["src/aspsim/counter.py: PhaseCounter"]}
{"id": "C24", "title": "Repeating sequence source is a seamless loop", "statement": "A repeating sequence source produces, over any sequence of requests, sample n = amplitude * audio[n mod length] for each channel: how the requests are divided does not matter.", "quantifier": "all sequences, amplitudes, request histories", "why_tests_cant": "All ways of dividing a stream into requests.", "anchors": ["src/aspsim/signal/sources.py: Sequence.get_samples", "src/aspsim/utilities.py: calc_block_sizes"]}
{"id": "C25", "title": "Non-repeating sequence source plays the whole sequence once", "statement": "With end_mode 'raise' the source yields the sequence's samples (scaled by the amplitude) and raises only when asked for samples after the end.", "quantifier": "all sequences, amplitudes, request histories", "why_tests_cant": "Boundary at the exact end of the sequence.", "anchors": ["src/aspsim/signal/sources.py: Sequence.get_samples"]}
{"id": "C26", "title": "Pulse train and counter sources are determined by absolute time", "statement": "A pulse train's sample n is its amplitude iff n - delay is a multiple of the period and 0 otherwise; a counter source's sample n is start + n; both independent of how requests are divided.", "quantifier": "all parameters and request histories", "why_tests_cant": "All ways of dividing a stream into requests.", "anchors": ["src/aspsim/signal/sources.py: PulseTrain, Counter"]}
{"id": "C27", "title": "Sine sources are phase continuous", "statement": "Single- and multi-sine sources produce sample n = amplitude * cos(phase + 2*pi*f*n/samplerate) over any division into requests.", "quantifier": "all frequencies, amplitudes, phases, request histories (exact real arithmetic)", "why_tests_cant": "All ways of dividing a stream into requests; accumulated phase wrap.", "anchors": ["src/aspsim/signal/sources.py: SineSource, MultiSineSource"]}
{"id": "C28", "title": "White noise does not depend on request sizes", "statement": "For a given generator seed, the noise samples obtained by any sequence of requests equal those from one single request, for any number of channels and per-channel power.", "quantifier": "all channel counts, powers, random streams, request histories", "why_tests_cant": "Depends on axis order in the random draw for all shapes.", "anchors": ["src/aspsim/signal/sources.py: WhiteNoiseSource.get_samples"]}
{"id": "C29", "title": "Filtered noise does not depend on request sizes", "statement": "For a given generator seed, band-limited (and autocorrelation-shaped) noise obtained by any sequence of requests equals that of one single request.", "quantifier": "all channel counts, random streams, request histories", "why_tests_cant": "With one channel any axis order passes; needs the general case.", "anchors": ["src/aspsim/signal/sources.py: BandlimitedNoiseSource.get_samples, AutocorrSource.get_samples"]}
{"id": "C30", "title": "Gold sequence source", "statement": "The Gold-sequence source is a seamless loop over its sequence, every sample has magnitude equal to the square root of the configured power, and channel i is the product of the first base sequence with the second shifted cyclically by i.", "quantifier": "all base sequences, powers, request histories", "why_tests_cant": "All ways of dividing a stream into requests.", "anchors": ["src/aspsim/signal/sources.py: GoldSequenceSource"]}
{"id": "C31", "title": "Block splitting respects block boundaries", "statement": "Splitting num_samples samples starting at position start inside blocks of block_size yields positive block lengths that sum to num_samples, no block crosses a multiple of block_size, and all but the first and last equal block_size; the loop terminates.", "quantifier": "all num_samples >= 0, block_size >= 1, 0 <= start < block_size", "why_tests_cant": "Arithmetic over all triples; termination.", "anchors": ["src/aspsim/utilities.py: calc_block_sizes", "src/aspsim/processor.py: calc_block_sizes_with_buffer"]}
{"id": "C32", "title": "Block iteration ends exactly at the requested index", "statement": "Iterating blocks until an index gives consecutive blocks of exactly block_size, the last ending at the requested index, the first starting at or after the earliest allowed index and less than one block after it.", "quantifier": "all integers earliest <= end, block_size >= 1", "why_tests_cant": "Arithmetic over all triples.", "anchors": ["src/aspsim/processor.py: block_process_until_index, find_first_index_for_block"]}
{"id": "C33", "title": "Processor names are made unique", "statement": "After preparation all processor names are pairwise distinct, the first holder of a name keeps it and every new name extends the original one; the search terminates.", "quantifier": "all lists of names, including adversarial ones such as 'a', 'a', 'a 1'", "why_tests_cant": "Collisions between generated and given names.", "anchors": ["src/aspsim/simulator.py: set_unique_processor_names"]}
{"id": "C34", "title": "Figure and session folders are never reused", "statement": "The folder name returned for a new run never exists beforehand, whatever is in the directory, and the search always terminates; it is the first free number.", "quantifier": "all finite directory contents, prefixes", "why_tests_cant": "All directory contents.", "anchors": ["src/aspsim/fileutilities.py: get_unique_folder_name"]}
{"id": "C35", "title": "Requesting several folder names gives names that are all unused", "statement": "All names returned for a batch request are distinct and none of them exists.", "quantifier": "all directory contents and batch sizes", "why_tests_cant": "Needs a directory with a gap in numbering.", "anchors": ["src/aspsim/fileutilities.py: get_multiple_unique_folder_names"]}
{"id": "C36", "title": "keep_only_last_export never deletes anything but older exports of the same diagnostic", "statement": "After an export with keep_only_last_export, exactly one data file of that diagnostic exists, the newest; files of other diagnostics, even with names that extend or prefix each other, are untouched; at every moment in between at least one complete export exists.", "quantifier": "all diagnostic names, directory contents, export sequences, crash points between file operations", "why_tests_cant": "Name-prefix interactions and crash points.", "anchors": ["src/aspsim/diagnostics/plot.py: savenpz", "src/aspsim/fileutilities.py: find_all_earlier_files, find_index_in_name"]}
{"id": "C37", "title": "Array collections are consistent", "statement": "After any sequence of successful add_array calls, names are unique, every array is either a microphone or a source array (never both), lookups return the array added under that name, and the source/microphone combinations enumerate each pair exactly once; a duplicate name is rejected without change.", "quantifier": "all histories of additions", "why_tests_cant": "Invariant over histories.", "anchors": ["src/aspsim/array.py: ArrayCollection.add_array, mic_src_combos, sources, mics, __getitem__"]}
{"id": "C38", "title": "Propagation type resolution", "statement": "After defaults are applied every source/microphone pair has a type: a user supplied path always wins ('modified'), an explicitly set type is kept otherwise, and all remaining pairs get the default; applying defaults twice changes nothing.", "quantifier": "all collections, partial user settings, orders of calls", "why_tests_cant": "All subsets of user-set pairs.", "anchors": ["src/aspsim/array.py: ArrayCollection.set_default_path_type, set_path_types, set_prop_path"]}
{"id": "C39", "title": "User supplied paths are never overwritten by path generation", "statement": "Generating impulse responses leaves every user-supplied path unchanged and assigns to all other pairs a path of the right number of sources and microphones, generated from that pair's positions with that pair's type; a path is only accepted if its shape matches the arrays.", "quantifier": "all collections, paths and types", "why_tests_cant": "All combinations of user supplied and generated pairs.", "anchors": ["src/aspsim/array.py: ArrayCollection.setup_ir, set_prop_path", "src/aspsim/room/roomimpulseresponse.py: create_path"]}
{"id": "C40", "title": "Position updates refresh exactly the affected paths", "statement": "At an update step, every pair with at least one moving endpoint gets its path regenerated exactly once from both endpoints' new positions, every other path is unchanged; between update steps nothing changes.", "quantifier": "all collections, subsets of moving arrays, times", "why_tests_cant": "All subsets of moving arrays and orders of arrays.", "anchors": ["src/aspsim/array.py: ArrayCollection.update"]}
{"id": "C41", "title": "Array groups partition the array", "statement": "The index groups of an array are consecutive, disjoint and cover all its elements in order; group positions concatenate to the array's positions.", "quantifier": "all group sizes", "why_tests_cant": "All partitions.", "anchors": ["src/aspsim/array.py: Array"]}
{"id": "C42", "title": "A loaded session is acoustically the session that would have been computed", "statement": "If the session search accepts a stored session, then computing the impulse responses afresh for the present configuration and arrays would give the stored ones.", "quantifier": "all pairs of stored and present configurations and arrays", "why_tests_cant": "Soundness of a comparison over all field combinations; each omitted field is a counterexample only if a test varies exactly that field.", "anchors": ["src/aspsim/saveloadsession.py: load_session, search_for_matching_session", "src/aspsim/array.py: prototype_equals", "src/aspsim/configutil.py: SimulatorInfo, equal_audio"]}
{"id": "C43", "title": "A saved session is found again", "statement": "After a session has been saved, the same configuration and arrays find a matching session, regardless of which other sessions are stored; and the present sources, not the stored ones, are used.", "quantifier": "all configurations, arrays, stored sessions", "why_tests_cant": "Completeness of the comparison for every configuration.", "anchors": ["src/aspsim/saveloadsession.py: save_session, load_session, search_for_matching_session"]}
{"id": "C44", "title": "A crash while saving a session does not break later runs", "statement": "If the program stops at any point during session saving, later simulator creation with the same session folder still succeeds.", "quantifier": "all crash points, all folder contents", "why_tests_cant": "Crash points.", "anchors": ["src/aspsim/saveloadsession.py: save_session, search_for_matching_session, load_session"]}
{"id": "C45", "title": "Constant-speed linear trajectories", "statement": "A constant-speed linear trajectory starts at its first point, passes its points in order, is always on the segment between consecutive points, moves a distance proportional to elapsed time, and repeats with its period.", "quantifier": "all point lists, periods, sample rates, times (exact real arithmetic)", "why_tests_cant": "Continuum of times.", "anchors": ["src/aspsim/room/trajectory.py: LinearTrajectory, LinearTrajectory._constant_speed_pos_func"]}
{"id": "C46", "title": "Constant-time linear trajectories", "statement": "In constant-time mode each segment takes an equal share of the period and the trajectory is back at its first point exactly after one period.", "quantifier": "all point lists, periods, times", "why_tests_cant": "Continuum of times.", "anchors": ["src/aspsim/room/trajectory.py: LinearTrajectory._constant_time_pos_func"]}
{"id": "C47", "title": "Circular trajectories stay in their annulus", "statement": "A circular trajectory's horizontal distance to its centre always lies between the inner and outer radius, starts at the outer radius, its height is the centre's height, and it repeats after the common period.", "quantifier": "all radii, periods, times", "why_tests_cant": "Continuum of times.", "anchors": ["src/aspsim/room/trajectory.py: CircularTrajectory"]}
{"id": "C48", "title": "Generated points lie inside their region", "statement": "All equally spaced points and all sampled points of a cuboid, rectangle, disc, ball or cylinder lie in that region, and the requested number of random points is returned.", "quantifier": "all centres, sizes, spacings, random draws", "why_tests_cant": "Continuum of parameters; rounding in the number of grid points.", "anchors": ["src/aspsim/room/region.py: Cuboid, Rectangle, Disc, Ball, Cylinder: equally_spaced_points, sample_points, is_in_region"]}
{"id": "C49", "title": "Region membership is decided point by point", "statement": "Membership of a list of coordinates is decided per coordinate: the answer for one point does not depend on the other points in the call.", "quantifier": "all regions and coordinate lists", "why_tests_cant": "Interaction between points in a batch.", "anchors": ["src/aspsim/room/region.py: Rectangle.is_in_region, Disc.is_in_region, CombinedRegion.is_in_region"]}
{"id": "C50", "title": "Combined regions are sampled in proportion to volume", "statement": "In a combined region, a random point falls in sub-region i with probability volume_i / total volume.", "quantifier": "all lists of regions", "why_tests_cant": "Statistical; with equal volumes any permutation passes.", "anchors": ["src/aspsim/room/region.py: CombinedRegion.sample_points"]}
{"id": "C51", "title": "Coordinate conversions are inverse to each other", "statement": "Cartesian to polar/spherical and back gives the same point, for every point.", "quantifier": "all points in the plane / space (exact real arithmetic)", "why_tests_cant": "Continuum; quadrant boundaries.", "anchors": ["src/aspsim/room/generatepoints.py: cart2pol, pol2cart, cart2spherical, spherical2cart"]}
{"id": "C52", "title": "Point-distribution helpers return the requested number of points on the requested curve", "statement": "Circle, rectangle and stacked layouts return exactly the requested number of points, every point lies on the requested circle/rectangle, and points are distributed over the layers as evenly as possible.", "quantifier": "all counts, sizes, offsets", "why_tests_cant": "All counts and continuous parameters.", "anchors": ["src/aspsim/room/generatepoints.py: equiangular_circle, equidistant_rectangle, concentrical_circles, stacked_equidistant_rectangles"]}
{"id": "C53", "title": "Impulse response assembly is independent of batching", "statement": "For every source/microphone pair the returned impulse response is the simulated one cut or zero padded to the configured length, however many microphones there are and however they are batched; positions are passed to the room model relative to the room corner.", "quantifier": "all numbers of sources and microphones, lengths", "why_tests_cant": "The batch size of 500 is never exceeded in tests.", "anchors": ["src/aspsim/room/roomimpulseresponse.py: ir_room_image_source_3d"]}
{"id": "C54", "title": "Property paths are parsed faithfully", "statement": "For a property path made of attribute names, quoted dictionary keys and integer indices, the parsed getter performs exactly that chain of accesses.", "quantifier": "all chains of accesses with ordinary names", "why_tests_cant": "All strings.", "anchors": ["src/aspsim/diagnostics/core.py: attritemgetter"]}
{"id": "C55", "title": "Autocorrelation-shaped noise is warmed up with its own power", "statement": "AutocorrSource.prepare (run at construction) feeds the filter of every channel with noise of that channel's power, so that the first samples played already have the stationary distribution.", "quantifier": "all channel counts, powers, filter orders, random streams", "why_tests_cant": "Random outputs: a wrong scale during the warm-up is not visible in any single output.", "anchors": ["src/aspsim/signal/sources.py: AutocorrSource.prepare"]}
{"id": "C56", "title": "Base sequences of the Gold source have maximal length", "statement": "For every order the source supports, both shift register sequences of its table have period 2^order - 1 and no shorter period.", "quantifier": "all orders of the table, all times", "why_tests_cant": "A wrong tap shows only as a short period somewhere in thousands of samples.", "anchors": ["src/aspsim/signal/sources.py: GoldSequenceSource.preferredSequences"]}
{"id": "C57", "title": "Base sequences of the Gold source are preferred pairs", "statement": "For every order the source supports, the cyclic correlation of the two base sequences only takes the three values -1, -t, t-2 with t = 1 + 2^floor((order+2)/2).", "quantifier": "all orders of the table, all shifts", "why_tests_cant": "All shifts of all pairs.", "anchors": ["src/aspsim/signal/sources.py: GoldSequenceSource.preferredSequences"]}
{"id": "C58", "title": "A sine source has the configured power", "statement": "Over any whole number of periods, starting anywhere, the mean of the squared samples of a sine source equals the configured power.", "quantifier": "all powers, frequencies that are not multiples of half the samplerate, phases, start times (exact real arithmetic)", "why_tests_cant": "Real valued parameters.", "anchors": ["src/aspsim/signal/sources.py: SineSource"]}
{"id": "C59", "title": "A sine source accepts one power per channel", "statement": "If the power is an array with one value per channel, channel c plays a sine of power[c].", "quantifier": "all powers, channel counts, request sizes", "why_tests_cant": "Depends on the relation between the request size and the channel count.", "anchors": ["src/aspsim/signal/sources.py: SineSource.__init__, get_samples"]}
{"id": "C60", "title": "A source array stacks its sources", "statement": "SourceArray plays the channels of its sources one after the other, each source as if it were alone, and source i has amplitude[i].", "quantifier": "all sources, numbers of sources, request histories", "why_tests_cant": "All ways of dividing a stream into requests.", "anchors": ["src/aspsim/signal/sources.py: SourceArray"]}
{"id": "C61", "title": "Loading a session does not change the simulation", "statement": "A simulator created by loading a stored session behaves like one whose paths are computed: arrays, trajectories and configuration are those of the present setup.", "quantifier": "all stored and present setups accepted by the search", "why_tests_cant": "Each attribute that the comparison leaves out is a counterexample only if a test varies exactly that attribute and looks at a later time.", "anchors": ["src/aspsim/saveloadsession.py: load_session", "src/aspsim/array.py: prototype_equals, ArrayCollection.update", "src/aspsim/simulator.py: SimulatorSetup.create_simulator"]}
{"id": "C62", "title": "A session can be loaded from its path", "statement": "SimulatorSetup.load_from_path gives back the configuration and the arrays of a saved session, with or without a folder for figures.", "quantifier": "all saved sessions", "why_tests_cant": "The failing combination is never exercised by the tests and depends on a file that no code path writes.", "anchors": ["src/aspsim/saveloadsession.py: load_from_path, copy_sim_metadata, save_session", "src/aspsim/array.py: setup_ir"]}
{"id": "C63", "title": "A simulator from a loaded setup has the stored paths", "statement": "Creating a simulator from a setup obtained with load_from_path keeps all stored impulse responses, and the simulation can be run as the original one.", "quantifier": "all saved sessions and later configurations", "why_tests_cant": "Concerns every pair of arrays of every session, and moving arrays.", "anchors": ["src/aspsim/simulator.py: SimulatorSetup.load_from_path, create_simulator", "src/aspsim/array.py: set_default_path_type, setup_ir, update_path"]}
{"id": "C64", "title": "Trajectory collections combine their trajectories", "statement": "The positions of a trajectory collection at a time are the positions of its trajectories at that same time, one after the other in the order they were given.", "quantifier": "all lists of trajectories, all times", "why_tests_cant": "All lists and times.", "anchors": ["src/aspsim/room/trajectory.py: TrajectoryCollection"]}
{"id": "C65", "title": "Random points of regions are spread uniformly", "statement": "The random points of a cuboid, rectangle, disc, ball or cylinder are images of independent uniform numbers, each used once, under the map that makes them uniform: affine per coordinate for boxes and heights, radius proportional to the square root of the number for discs and cylinders, and rejection of candidates outside for balls.", "quantifier": "all regions, all counts, all number sequences", "why_tests_cant": "Statistical, and the order in which numbers are used is invisible.", "anchors": ["src/aspsim/room/region.py: Cuboid, Rectangle, Disc, Ball, Cylinder: sample_points"]}
{"id": "C66", "title": "Combining regions rejects overlap", "statement": "A combined region can be constructed from disjoint regions, has the sum of their volumes, and construction fails for overlapping regions.", "quantifier": "all lists of regions, all random draws", "why_tests_cant": "The check is by samples.", "anchors": ["src/aspsim/room/region.py: CombinedRegion.__init__, CombinedRegion._overlaps"]}
{"id": "C67", "title": "Extra side lengths place every other point on a larger rectangle", "statement": "With non-negative extra side lengths the points of a rectangle layout with even index lie on the rectangle with the given sides and those with odd index on the rectangle with the sides enlarged by the extra lengths, so that going around the rectangle the points alternate between the two.", "quantifier": "all numbers of points, sides, extra lengths and offsets", "why_tests_cant": "Whether the points alternate depends on how many fall on each side.", "anchors": ["src/aspsim/room/generatepoints.py: equidistant_rectangle"]}
{"id": "C68", "title": "Four rectangles layout", "statement": "The four rectangles layout returns the requested number of points for every number and side length, never fails to recognise the side a point is on, puts rows 2 and 3 of every four at the upper height and the others at the lower one, leaves even rows on the square and moves odd rows outwards by the side offset.", "quantifier": "all numbers of points, side lengths, offsets and heights", "why_tests_cant": "All numbers and lengths, and a tolerance comparison.", "anchors": ["src/aspsim/room/generatepoints.py: four_equidistant_rectangles"]}
{"id": "C69", "title": "Filled shapes have the requested number of points inside", "statement": "Filled rectangles, cuboids, discs and cylinders return points inside the shape; filled rectangles, cuboids, cylinders and sunflower patterns return exactly the requested number of points or fail.", "quantifier": "all numbers of points and dimensions", "why_tests_cant": "All numbers; the check of the number uses a relative tolerance.", "anchors": ["src/aspsim/room/generatepoints.py: uniform_cylinder, sunflower_pattern, uniform_disc, uniform_filled_rectangle, uniform_filled_cuboid"]}
{"id": "C70", "title": "The offset angle rotates a sunflower pattern", "statement": "A sunflower pattern with an offset angle is the pattern without one rotated by that angle, so the planes of a uniform cylinder are rotated by their random angles.", "quantifier": "all numbers of points, radii and angles", "why_tests_cant": "All angles.", "anchors": ["src/aspsim/room/generatepoints.py: sunflower_pattern, uniform_cylinder"]}
{"id": "C71", "title": "Metadata of impulse responses covers all pairs", "statement": "If metadata is asked for, the impulse responses are the same as without, the reported truncation error and truncated value are the largest over all source and microphone pairs of all batches, and the reported reverberation times are those of all pairs.", "quantifier": "all numbers of sources and microphones, lengths, simulators", "why_tests_cant": "More than 500 microphones are needed; all impulse responses.", "anchors": ["src/aspsim/room/roomimpulseresponse.py: ir_room_image_source_3d", "src/aspsim/room/roomimpulseresponse.py: calc_truncation_info"]}
{"id": "C72", "title": "The high-pass filter keeps shape and treats each impulse response alone", "statement": "Filtering impulse responses keeps their number and length; each is filtered on its own with one second of zeros on both sides, and the samples at its own place are kept.", "quantifier": "all arrays of impulse responses, sampling rates, filters that keep the length", "why_tests_cant": "All arrays.", "anchors": ["src/aspsim/room/roomimpulseresponse.py: filter_rirs"]}
{"id": "C73", "title": "Parameters of the room model", "statement": "A positive reverberation time gives the absorption of the inverse Sabine formula and eight reflections more than it says, otherwise only the direct path is simulated; no samples are dropped at the start of the impulse responses, the fractional delay filters have the odd length of twice the extra delay plus one, and an array without elements is refused.", "quantifier": "all rooms and arrays", "why_tests_cant": "All inputs.", "anchors": ["src/aspsim/room/roomimpulseresponse.py: calc_rir_parameters"]}
{"id": "C74", "title": "State diagnostics store the quantity they are named after", "statement": "A power diagnostic stores the mean of the squared entries of the property, a comparison diagnostic the comparison of the two properties, a summary diagnostic the summary of the property, always of the processor's state at the time the value is recorded for.", "quantifier": "all experiments, properties, functions, save frequencies and block sizes", "why_tests_cant": "Needs every run and every property.", "anchors": ["src/aspsim/diagnostics/diagnostics.py: StatePower", "src/aspsim/diagnostics/diagnostics.py: StateComparison", "src/aspsim/diagnostics/diagnostics.py: StateSummary"]}
{"id": "C75", "title": "Interval counters announce the number of values they save", "statement": "num_values of an interval counter is the number of samples covered by its intervals, however the counter was made.", "quantifier": "all lists of intervals and indices, all frequencies and simulation lengths", "why_tests_cant": "All lists and all frequencies; the buffers of diagnostics are sized with this number.", "anchors": ["src/aspsim/diagnostics/core.py: IntervalCounter"]}
{"id": "C76", "title": "Moving arrays keep a complete history of their positions", "statement": "After a run the history of every moving array holds exactly the multiples of the array update frequency among the steps made, in order, each with the position of the trajectory at that time; arrays that do not move have none.", "quantifier": "all experiments, trajectories, update frequencies and lengths", "why_tests_cant": "Runs of any length.", "anchors": ["src/aspsim/array.py: Array.update", "src/aspsim/array.py: ArrayCollection.update", "src/aspsim/simulator.py: Simulator.run_simulation"]}
{"id": "C77", "title": "Adding an array collection to a set-up takes over everything set in it", "statement": "Adding a collection with new names appends its arrays, in order and by class, and takes over the paths and path types set for them, leaving what was there untouched; a name already in use is refused.", "quantifier": "all pairs of collections reachable by the public functions", "why_tests_cant": "All combinations of collections.", "anchors": ["src/aspsim/simulator.py: SimulatorSetup.add_arrays", "src/aspsim/array.py: ArrayCollection.set_path_types"]}
{"id": "C78", "title": "Only usable configurations are accepted", "statement": "A configuration is accepted exactly if room size and room centre have one entry per dimension and the reverberation is a known kind, and only configurations a simulation can use are accepted; the configuration is not changed.", "quantifier": "all configurations", "why_tests_cant": "All values of all fields.", "anchors": ["src/aspsim/configutil.py: SimulatorInfo.__post_init__"]}
{"id": "C79", "title": "The highest numbered file is found", "statement": "The result is the file of the folder with the given prefix and suffix and the highest number between them, None exactly if there is no such file.", "quantifier": "all folders, prefixes and suffixes", "why_tests_cant": "All directory listings in any order.", "anchors": ["src/aspsim/fileutilities.py: get_highest_numbered_file"]}
{"id": "C80", "title": "The index at the end of a name is read completely", "statement": "The index of a name is the value of all digits at its end, None if it does not end with a digit; the assertion in the function never fails.", "quantifier": "all names", "why_tests_cant": "All strings, including leading zeros.", "anchors": ["src/aspsim/fileutilities.py: find_index_in_name"]}
{"id": "C81", "title": "Exactly the earlier numbered files are listed", "statement": "The listed files are those of the same name with a lower number, in the order of the folder; the current number and other files are not listed; a later file raises an error when asked for and is skipped otherwise.", "quantifier": "all folders, names and numbers, both options", "why_tests_cant": "All directory listings.", "anchors": ["src/aspsim/fileutilities.py: find_all_earlier_files"]}
{"id": "C82", "title": "Export settings are stored in order or refused", "statement": "A diagnostic's export functions, keyword arguments and preprocessing functions are accepted exactly if every name is known and the three have equal length; an export then calls each function once, in order, with its own keyword arguments and preprocessing; every export function offered by a class can use its output; diagnostic names are unique.", "quantifier": "all export arguments, diagnostic classes and names", "why_tests_cant": "All combinations of argument forms and lengths.", "anchors": ["src/aspsim/diagnostics/core.py: Diagnostic.__init__", "src/aspsim/diagnostics/core.py: export_single_diag", "src/aspsim/diagnostics/core.py: Logger.add_diagnostic"]}
{"id": "C83", "title": "Preprocessing functions are applied in order and compute what they are named after", "statement": "Preprocessing functions are applied to the output in the order of the list and leave the time indices; smooth is the causal moving average with zeros before the start; clip moves values to the nearer limit; the decibel scales agree with each other.", "quantifier": "all lists of functions, signals, lengths and limits", "why_tests_cant": "Real-valued signals of every length.", "anchors": ["src/aspsim/diagnostics/core.py: get_processed_output", "src/aspsim/diagnostics/preprocessing.py"]}
{"id": "C84", "title": "Sound field values are placed where they were measured", "statement": "For positions that form a rectangular grid, in any order, sort_for_imshow returns the position of row i and column j at [i, j], rows and columns in increasing order, and the signal values in the same columns with the rows in reverse order.", "quantifier": "all grids, orders of positions, jitter up to the rounding, signals and sorting algorithms", "why_tests_cant": "Real coordinates, all permutations.", "anchors": ["src/aspsim/diagnostics/soundfieldplot.py: sort_for_imshow", "src/aspsim/diagnostics/soundfieldplot.py: get_num_pixels"]}
{"id": "C85", "title": "Audio files hold the normalised signal with ramps", "statement": "create_audio_files writes one file per processor with distinct names; all channels are divided by the largest absolute sample of all channels and fade in and out over the same number of samples, at most 0.2 seconds and a tenth of the signal; no written sample exceeds 1; the file starts and ends with silence.", "quantifier": "all signals, sample rates, numbers of channels and names", "why_tests_cant": "Real-valued signals of every length.", "anchors": ["src/aspsim/diagnostics/plot.py: create_audio_files"]}
{"id": "C86", "title": "Legends list every label once", "statement": "legend_without_duplicates shows each label once, with the first handle that has it, in the order of first use.", "quantifier": "all lists of handles and labels", "why_tests_cant": "All lists of strings.", "anchors": ["src/aspsim/diagnostics/plot.py: legend_without_duplicates"]}
{"id": "C87", "title": "Frequency responses of paths are what a sinusoid sees", "statement": "get_freq_paths returns, for every pair of source and microphone array, an array of shape (frequencies, microphones, sources) whose entry is the complex factor by which the path (cut to num_freqs samples) changes a sinusoid of the returned frequency in Hertz; odd numbers of frequencies are refused.", "quantifier": "all even numbers of frequencies, sample rates, names, path lengths and path coefficients", "why_tests_cant": "Real-valued paths of every length and all phases of the sinusoid.", "anchors": ["src/aspsim/array.py: ArrayCollection.get_freq_paths"]}
{"id": "C88", "title": "AR source filters satisfy the Yule-Walker equations", "statement": "The coefficients and the noise power that AutocorrSource derives from an autocorrelation satisfy the Yule-Walker equations; the noise power is not negative for a positive semidefinite autocorrelation; filtering with the transfer function is the AR recursion.", "quantifier": "all autocorrelations and all input signals", "why_tests_cant": "All real autocorrelations of every order.", "anchors": ["src/aspsim/signal/sources.py: ar_coeffs_from_autocorr", "src/aspsim/signal/sources.py: ar_coeffs_to_transfer_function"]}
{"id": "C89", "title": "Audio files are loaded with the requested channels and rate", "statement": "load_audio_file returns the first num_channels channels of a file, unchanged if the file has the desired sample rate and otherwise resampled by exactly the ratio of the rates; a file with a lower sample rate is refused.", "quantifier": "all files, numbers of channels and pairs of sample rates", "why_tests_cant": "All pairs of sample rates.", "anchors": ["src/aspsim/signal/sources.py: load_audio_file"]}
{"id": "C90", "title": "Two omnidirectional microphones make a cardioid", "statement": "differential_cardioid_microphone passes a wave from the side of the main microphone with unit gain, cancels a wave from the side of the secondary one, removes the first frequency, attenuates only frequencies up to the chosen limit, and gives an output that is as long as the input and not delayed.", "quantifier": "all spacings, speeds, frequencies, directions, filter orders and signals", "why_tests_cant": "A continuum of frequencies, directions and spacings.", "anchors": ["src/aspsim/room/directional.py: differential_cardioid_microphone"]}
{"id": "C91", "title": "Simulators made from one setup do not influence each other", "statement": "create_simulator can be used several times on one setup: the simulators play the same source samples whether or not another one has run before, the setup's own sources are not advanced, and changing the configuration of the setup later does not alter a simulator made earlier.", "quantifier": "all setups, source states and numbers of samples", "why_tests_cant": "Depends on which objects are shared, for every setup; tests run one simulator.", "anchors": ["src/aspsim/simulator.py: SimulatorSetup.create_simulator", "src/aspsim/simulator.py: Simulator.__init__"]}
{"id": "C92", "title": "Every source array plays its source without gaps", "statement": "In a simulation every free source array gets consecutive samples of its source, whatever the numbers of samples requested at a time.", "quantifier": "all collections, sources and sequences of requests", "why_tests_cant": "All ways to share source objects between arrays and all buffer sizes.", "anchors": ["src/aspsim/simulator.py: Propagator.prepare", "src/aspsim/simulator.py: Propagator.propagate"]}
{"id": "C93", "title": "Figure folders are new", "statement": "_create_fig_folder makes a new folder with the first free number for a base folder given as a path or as a string, and none if no figures are wanted or no base folder is given.", "quantifier": "all folder contents, times and sequences of calls", "why_tests_cant": "All contents of the base folder.", "anchors": ["src/aspsim/simulator.py: SimulatorSetup._create_fig_folder"]}
{"id": "C94", "title": "Metadata files keep everything that was added", "statement": "After any additions the metadata file holds for every key the value added last, every processor is written under its name, and a crash between two file operations never loses the earlier contents.", "quantifier": "all sequences of additions and all crash points", "why_tests_cant": "All sequences of additions and all moments of a crash.", "anchors": ["src/aspsim/saveloadsession.py: add_to_sim_metadata", "src/aspsim/saveloadsession.py: write_processor_metadata", "src/aspsim/diagnostics/diagnosticsummary.py: add_to_summary"]}
{"id": "C95", "title": "Time strings sort by time", "statement": "Folder names made by get_time_string, sorted as strings, are sorted by time, with and without the detailed suffix.", "quantifier": "all pairs of dates of the years 1000-9999", "why_tests_cant": "All pairs of times.", "anchors": ["src/aspsim/fileutilities.py: get_time_string"]}
{"id": "C96", "title": "Regions have the volume of the points they accept", "statement": "The volume attribute of a cuboid, cylinder or ball is the volume of the set of points that is_in_region accepts, that of a rectangle or disc is the area of this set in its plane; rectangles and discs are only made in two or three dimensions with a centre of that dimension.", "quantifier": "all sizes and centres", "why_tests_cant": "A volume is an integral over a continuum of points.", "anchors": ["src/aspsim/room/region.py: Cuboid.__init__", "src/aspsim/room/region.py: Rectangle.__init__", "src/aspsim/room/region.py: Disc.__init__", "src/aspsim/room/region.py: Ball.__init__", "src/aspsim/room/region.py: Cylinder.__init__"]}
{"id": "C97", "title": "Exports write one file per export function", "statement": "An export of a diagnostic writes, for each of its export functions, one file named after the diagnostic and the time index with the ending of its kind, into the figure folder; no export overwrites another; without a figure folder nothing is written.", "quantifier": "all diagnostics, times and export functions, all plot methods", "why_tests_cant": "Any combination of export functions, names and times.", "anchors": ["src/aspsim/diagnostics/plot.py: output_plot", "src/aspsim/diagnostics/plot.py: savenpz", "src/aspsim/diagnostics/core.py: Logger.dispatch"]}
{"id": "C98", "title": "Figures show the exported values", "statement": "The figure of a function of time has one curve per channel of each processor with the exported times and values, and one legend entry per label; figures of impulse responses have one subplot per processor and channel with the true and the estimated response; matrices are shown under the diagnostic's and the processor's name; text exports have the mean of the values.", "quantifier": "all outputs, processors and channels", "why_tests_cant": "Any number of channels, processors and samples.", "anchors": ["src/aspsim/diagnostics/plot.py: function_of_time_plot", "src/aspsim/diagnostics/plot.py: plot_multiple_channels", "src/aspsim/diagnostics/plot.py: plot_ir", "src/aspsim/diagnostics/plot.py: matshow", "src/aspsim/diagnostics/plot.py: txt"]}
{"id": "C99", "title": "Sound field images share their colour limits", "statement": "The images of the sound fields of several processors all use the smallest and the largest value of all fields as colour limits, each image shows the sorted field of its processor, and the arrays are drawn into it if asked for.", "quantifier": "all sets of processors and fields", "why_tests_cant": "Any number of fields and values.", "anchors": ["src/aspsim/diagnostics/plot.py: soundfield"]}
{"id": "C100", "title": "Directivities keep their direction when converted", "statement": "Converting an array's directivities for pyroomacoustics gives, for each cardioid, the colatitude and azimuth of its direction, nothing for omnidirectional arrays, and accepts every mixture of the two.", "quantifier": "all direction vectors and types", "why_tests_cant": "A continuum of directions.", "anchors": ["src/aspsim/room/roomimpulseresponse.py: _directionality_arg_to_pyroomacoustics"]}
{"id": "C101", "title": "The figure of the arrays shows where they are", "statement": "The figure drawn when a simulator is created has, for each array in order and under its name, the positions of a static array or the way its trajectories travel while the simulation lasts (for circular ones one whole period), and the outline of the room if and only if some path uses the image source method; drawing never fails.", "quantifier": "all arrays, trajectories, periods and simulation lengths", "why_tests_cant": "Any arrays and a continuum of ways and periods.", "anchors": ["src/aspsim/array.py: ArrayCollection.plot", "src/aspsim/array.py: Array.plot", "src/aspsim/room/trajectory.py: LinearTrajectory.plot", "src/aspsim/room/trajectory.py: CircularTrajectory.plot", "src/aspsim/room/trajectory.py: TrajectoryCollection.plot"]}
{"id": "C102", "title": "The signals of a simulation", "statement": "A simulation has, throughout, exactly one signal for each array, one for each pair of source and microphone array if contributions are saved, and one for each signal that the processor created under a new name, each with sim_buffer + sim_chunk_size samples of its number of channels; if two of these names are equal, or there are several processors, it refuses to start.", "quantifier": "all array collections, processors, buffer sizes and simulation lengths", "why_tests_cant": "All runs and all names.", "anchors": ["src/aspsim/simulator.py: Signals.__init__", "src/aspsim/simulator.py: Signals.create_signal", "src/aspsim/simulator.py: Signals._reset_signals", "src/aspsim/simulator.py: Simulator._prepare_simulation"]}
{"id": "C103", "title": "A longer simulation begins with the shorter one", "statement": "If the same experiment is run for tot_samples = T and for tot_samples = T' >= T, everything recorded in the first run equals the first T samples recorded in the second one: no signal at a time up to T depends on how long the simulation goes on, including moving arrays, random sources, processors and early started sources.", "quantifier": "for all settings, arrays, sources, processors (that do not themselves look at tot_samples), T <= T', signals and sets of diagnostics", "why_tests_cant": "a test compares two lengths of one experiment; buffer wrap-arounds, array updates and blocks fall differently for every combination of sizes", "anchors": ["src/aspsim/simulator.py: Simulator.run_simulation", "src/aspsim/diagnostics/diagnostics.py: RecordSignal"]}
{"id": "C104", "title": "Diagnostics do not influence the simulation", "statement": "Two runs of the same experiment that both complete but have different diagnostics end with the same arrays, sources, paths, processors and time, and a signal recorded in both has the same samples.", "quantifier": "for all experiments and all pairs of sets of diagnostics, built-in or user-defined", "why_tests_cant": "any test observes the simulation through diagnostics, so it cannot compare with what happens without them or with all other sets", "anchors": ["src/aspsim/simulator.py: Simulator.run_simulation", "src/aspsim/diagnostics/core.py: Logger"]}
{"id": "C105", "title": "Running a simulator a second time", "statement": "After run_simulation every diagnostic is finished: its save intervals are used up and no export is due. Calling run_simulation again on the same simulator, in whatever state arrays and processors are, changes no recorded data and exports nothing; the sources continue where the first run stopped (after the samples up to time 0 and one for each step), they are not rewound.", "quantifier": "for all experiments whose diagnostics save up to tot_samples, all states for the second run", "why_tests_cant": "a test runs one simulator twice; the claim is about every schedule of saves and exports, every diagnostic and every source", "anchors": ["src/aspsim/simulator.py: Simulator.run_simulation", "src/aspsim/diagnostics/core.py: IntervalCounter", "src/aspsim/diagnostics/core.py: Logger.dispatch"]}
{"id": "C106", "title": "Simulators of one process do not disturb each other", "statement": "A simulator computes the paths of its moving arrays with its own speed of sound and extra delay, whatever other simulators the same process creates, loads or runs in between. (False: both are process-wide constants of pyroomacoustics that are set on creation only. It holds as long as all simulators of the process are created with the same two values.)", "quantifier": "for all simulators, configurations and histories of creating, loading and running simulators in one process", "why_tests_cant": "a test creates one simulator per process, or several with the same configuration; the interference needs two configurations and a moving array", "anchors": ["src/aspsim/room/roomimpulseresponse.py: PathGenerator.calc_rir_parameters", "src/aspsim/array.py: ArrayCollection.setup_ir", "src/aspsim/array.py: ArrayCollection.update_path", "src/aspsim/simulator.py: SimulatorSetup.create_simulator"]}
{"id": "C107", "title": "A microphone hears nothing but the sources", "statement": "What a microphone array records depends on the signals of the sources and the paths from them to it only: other microphone arrays, processors that do not drive the sources, diagnostics, buffer and chunk sizes and the length of the simulation do not matter. A path that is generated without random numbers depends on its two arrays only.", "quantifier": "for all pairs of experiments with stationary arrays, all collections of arrays", "why_tests_cant": "a test compares a few rooms; the claim relates every room to every other that shares the microphone, its sources and their paths", "anchors": ["src/aspsim/simulator.py: Simulator.run_simulation, Propagator.propagate", "src/aspsim/array.py: ArrayCollection.setup_ir", "src/aspsim/room/roomimpulseresponse.py: PathGenerator.create_path"]}
{"id": "C108", "title": "Simulations are causal", "statement": "If the sources of two experiments play the same signals up to a point in time, then everything the simulation computes up to that point is the same: what microphones record, what a processor has seen and what it has played, however the signals differ afterwards.", "quantifier": "for all pairs of experiments that differ in the signals of their sources after time T only, all T within the run, arbitrary processors, stationary or moving arrays", "why_tests_cant": "a test compares a few pairs of signals; the claim relates all signals that agree up to T, for every processor, buffer size and block size", "anchors": ["src/aspsim/simulator.py: Simulator.run_simulation", "src/aspsim/simulator.py: Propagator.propagate", "src/aspsim/array.py: ArrayCollection.update"]}
{"id": "C109", "title": "Superposition", "statement": "If the sources of a third experiment play p times what they play in a first plus q times what they play in a second one, then every signal of the third simulation is p times the first plus q times the second: what microphones pick up, the contribution of every source, and what a linear processor plays, including feedback from loudspeakers to microphones.", "quantifier": "for all triples of experiments that differ in their sources only, all p and q, every linear processor, stationary or moving arrays", "why_tests_cant": "a test adds a few signals; the claim holds for all signals, factors, rooms, block and buffer sizes", "anchors": ["src/aspsim/simulator.py: Simulator.run_simulation, Propagator.propagate", "src/aspsim/array.py: ArrayCollection.update"]}
{"id": "C110", "title": "Time invariance", "statement": "In a stationary room whose sources start at time 0, playing everything d samples later makes a microphone record silence for d samples and then exactly what it recorded before.", "quantifier": "for all experiments with stationary arrays and free sources, all delays, all buffer, block and chunk sizes", "why_tests_cant": "the delay shifts the signals across block, chunk and buffer boundaries; a test tries a few alignments", "anchors": ["src/aspsim/simulator.py: Simulator.run_simulation, Propagator.propagate"]}
{"id": "C111", "title": "Only the positions at updates matter", "statement": "If two experiments differ in the trajectories of their arrays only, and all arrays are in the same places at every multiple of array_update_freq, all signals are the same, however the arrays move in between. In particular an array that follows a trajectory which stays where it is gives exactly what a stationary array gives.", "quantifier": "for all collections of arrays and all pairs of trajectories that meet at the update times, all processors, buffer, block and chunk sizes", "why_tests_cant": "test_unmoving_trajectory_same_as_static compares one room with tolerance; the claim holds for all rooms and all trajectories that agree at the updates, with feedback through any processor", "anchors": ["src/aspsim/array.py: ArrayCollection.update, ArrayCollection.setup_ir, Array.update", "src/aspsim/simulator.py: Simulator.run_simulation, Propagator", "tests/test_simulator_moving.py: test_unmoving_trajectory_same_as_static"]}
{"id": "C112", "title": "Grouping, names and order of sources", "statement": "For stationary arrays, what a microphone records depends only on which source channels it can hear: the samples each channel plays and the impulse response from it. Names of the arrays, their order, how the channels are divided into arrays, and additional sources that play nothing or have a zero impulse response make no difference.", "quantifier": "for all pairs of experiments whose audible source channels correspond one to one, all buffer sizes, chunk sizes, diagnostics and processors", "why_tests_cant": "tests compare one grouping in one room; the correspondence may be any permutation of any number of channels and arrays", "anchors": ["src/aspsim/simulator.py: Propagator.propagate, Propagator.prepare", "src/aspsim/array.py: ArrayCollection.add_array, ArrayCollection.mic_src_combos", "src/aspsim/simulator.py: Signals"]}
{"id": "C113", "title": "Both versions of the room simulator agree", "statement": "ir_room_image_source_3d_orig, the earlier version of the room simulator that sets up everything itself, returns what ir_room_image_source_3d returns with the parameters that PathGenerator.calc_rir_parameters computes for the same two arrays: the same impulse responses, metadata, use of random numbers and errors.", "quantifier": "for all positions, rooms, lengths, reverberation times and room models, any number of microphones", "why_tests_cant": "neither function is compared with the other in any test, and the blocks of 500 microphones are never reached", "anchors": ["src/aspsim/room/roomimpulseresponse.py: ir_room_image_source_3d_orig, ir_room_image_source_3d, PathGenerator.calc_rir_parameters"]}
{"id": "C114", "title": "The earlier rectangle layouts", "statement": "equidistant_rectangle_old and equidistant_rectangle_for_fewer place exactly the requested number of points on the rectangle of the given size; from four points on they are one spacing apart along the border, which they follow counterclockwise from the lower left corner, the first one the given (or a random) share of the spacing away from it.", "quantifier": "for all numbers of points, side lengths, offsets and random numbers", "why_tests_cant": "the tests never call the two functions, and the accumulated start of each side depends on real arithmetic over all side lengths", "anchors": ["src/aspsim/room/generatepoints.py: equidistant_rectangle_old, equidistant_rectangle_for_fewer"]}
{"id": "C115", "title": "Moving and stationary microphones in the same place", "statement": "At any time, a moving microphone records exactly the sample that a stationary microphone (of the same simulation, or of another one with the same sources) records at that time, if the stationary one stands where the moving one was at the last position update before that time; how the microphone moved before and moves afterwards makes no difference. More generally this holds for any two microphones, moving or not, and for moving sources.", "quantifier": "for all trajectories of sources and microphones, times, update frequencies, numbers of channels, generators, rooms whose responses depend on the two points only, buffer and chunk sizes and diagnostics", "why_tests_cant": "the tests try one trajectory with an update at every sample and leave out the first two positions; they cannot cover all trajectories, update frequencies and buffer sizes", "anchors": ["src/aspsim/array.py: ArrayCollection.update, Array.update", "src/aspsim/simulator.py: Simulator.run_simulation, Propagator.propagate", "src/aspsim/room/roomimpulseresponse.py: PathGenerator.create_path"]}
{"id": "C116", "title": "Reciprocity of moving sources and microphones", "statement": "In a room whose responses are the same in both directions, exchanging the places of the source and the microphone at all times does not change the recording: a moving source and a stationary microphone record the same as a stationary source and a moving microphone.", "quantifier": "for all trajectories, generators, reciprocal rooms, update frequencies, buffer and chunk sizes, names and diagnostics", "why_tests_cant": "the test that tries it compares floating point signals of one trajectory within a tolerance, and its author doubts that the claim is true", "anchors": ["src/aspsim/array.py: ArrayCollection.update", "src/aspsim/simulator.py: Propagator.propagate, Simulator.run_simulation"]}
{"id": "C117", "title": "Grids cover their region", "statement": "Every point of a region is less than one spacing away, in every coordinate, from some point of the region's grid of equally spaced points.", "quantifier": "for all cuboids, rectangles, discs, cylinders and balls, their sizes, centres and spacings, and all points of them", "why_tests_cant": "the tests draw random regions and random points; the points near the rim of round regions, where it fails, are rarely drawn, and no number of draws covers all regions", "anchors": ["src/aspsim/room/region.py: Cuboid.equally_spaced_points, Rectangle.equally_spaced_points, Disc.equally_spaced_points, Ball.equally_spaced_points, Cylinder.equally_spaced_points", "tests/test_region.py: test_*_a_random_point_is_always_close_to_equally_spaced_point"]}
{"id": "C118", "title": "From the calls of a script to the arrays of a simulator", "statement": "Whatever set-up calls a script makes, and whichever of them fail, a simulator that can be created has consistent arrays and paths. If none fails it has exactly the arrays that were added, in that order and as described, each source array with the signal it was given last; a path is the one given last or else made as the configuration says. A call that fails (other than adding a whole collection) changes nothing; which calls fail and how is stated.", "quantifier": "for all sequences of set-up calls, array descriptions, trajectories, sources and paths, in every state of the set-up", "why_tests_cant": "the tests make a few fixed sequences of calls that succeed; the claim is about every sequence, including those in which some calls fail and are caught", "anchors": ["src/aspsim/simulator.py: SimulatorSetup.add_array, add_arrays, add_free_source, add_controllable_source, add_mics, set_path, set_source, create_simulator", "src/aspsim/array.py: Array.__init__, FreeSourceArray.__init__, FreeSourceArray.set_source, ArrayCollection.add_array, set_prop_path"]}
{"id": "C119", "title": "A processor that plays nothing changes nothing", "statement": "A processor that writes to no array, whatever it is handed and whatever signals of its own it keeps, has no influence on any array's signal or recorded contribution: each is the same, sample by sample, as in the simulation without a processor, although block size, buffer use and number of steps differ.", "quantifier": "for all configurations, arrays (moving ones and random room responses included), block sizes, processors that write to no array, and diagnostics, for all signals and times", "why_tests_cant": "the test compares two runs of 20 samples with one processor for ten block sizes, up to rounding; the claim is about all simulations and exact", "anchors": ["src/aspsim/simulator.py: Simulator._prepare_simulation, Simulator.run_simulation, Propagator.propagate", "src/aspsim/processor.py: AudioProcessor", "tests/test_diagnostics.py: test_record_signal_is_same_with_or_without_a_processor"]}
{"id": "C120", "title": "Removing earlier tikz figures", "statement": "When only the latest tikz figure is to be kept, the folders of earlier figures of the same name are removed, their pdf files are kept in the figure folder, and nothing else changes. Names without a number change nothing, a figure with a higher number is an error before anything is changed, a file of another kind is an AssertionError, and a file that may not be removed makes the function fail although PermissionErrors are passed over.", "quantifier": "for all figure folders, names and numbers, and all contents of the earlier folders", "why_tests_cant": "no test calls the function; the claim is about all contents of a folder and all permissions", "anchors": ["src/aspsim/diagnostics/plot.py: delete_earlier_tikz_plot", "src/aspsim/fileutilities.py: find_index_in_name, find_all_earlier_files"]}
{"id": "C121", "title": "Mean of the values before a time", "statement": "mean_near_time_idx gives for each output the mean of the values that are not NaN at the last 3000 times before the given one (fewer at the beginning), over all channels, and NaN if there are none.", "quantifier": "for all outputs and all times at or above 0", "why_tests_cant": "no test calls the function; the case in which the slice begins at a negative index and so counts from the end shows only for times below 3000", "anchors": ["src/aspsim/diagnostics/diagnosticsummary.py: mean_near_time_idx"]}
{"id": "C122", "title": "What compare_soundfields draws", "statement": "With the signals given as its documentation says, as a list or as an array of shape (algorithms, axes, positions) with fewer algorithms than positions, compare_soundfields draws nothing and raises an error. With one list of values for each position it draws one image for each row of the grid, not one image of the sound field; with an array of shape (positions, a, b) one image for each position, or an IndexError if the grid has one column and several rows. If all positions are the same point, it raises a ValueError. Each image has its own range of colours, and the figure has the proportions of the grid.", "quantifier": "for all rectangular grids in any order, all signals and labels", "why_tests_cant": "no test draws figures; the claim is about all grids and all shapes of signals", "anchors": ["src/aspsim/diagnostics/soundfieldplot.py: compare_soundfields, size_of_2d_plot, sort_for_imshow, sf_plot"]}
{"id": "C123", "title": "Legends for tikzplotlib", "statement": "tikzplotlib_fix_ncols gives every artist below the given one, at any depth, that has _ncols the attribute _ncol with the same value; all other artists keep what they have.", "quantifier": "for all trees of artists and all artists in them", "why_tests_cant": "the claim is about trees of any depth", "anchors": ["src/aspsim/diagnostics/plot.py: tikzplotlib_fix_ncols"]}
{"id": "C124", "title": "Drawings of positions", "statement": "plot_3d_in_2d draws every position exactly once, in the group whose label is its z rounded to four decimals; the labels differ and no group is empty. size_of_2d_plot gives the extent of all positions along x and y, and a ValueError without positions.", "quantifier": "for all positions", "why_tests_cant": "no test draws figures; the claim is about all positions, also those whose z lies between two roundings", "anchors": ["src/aspsim/diagnostics/plot.py: plot_3d_in_2d", "src/aspsim/diagnostics/soundfieldplot.py: size_of_2d_plot"]}
{"id": "C125", "title": "Direct paths are heard unchanged", "statement": "A microphone array all of whose paths are of type \"direct\" or \"none\" records at every time, in each channel, the sum of what the sources with direct paths play in the same channel at the same time, wherever the arrays are and however they move. This holds without high-pass filter only: with one it records that sum times the first sample of the filter's response, since the filter is applied to these paths too and is cut off after one sample.", "quantifier": "for all collections of arrays, processors, diagnostics and configurations, all times and channels", "why_tests_cant": "no test combines path types, motion, blocks and the high-pass filter; the claim is about all sets of sources and all runs", "anchors": ["src/aspsim/room/roomimpulseresponse.py: PathGenerator.create_path", "src/aspsim/simulator.py: Propagator.propagate"]}
{"id": "C126", "title": "Microphones are not louder than the gains of the paths allow", "statement": "At every time, no sample of a microphone is larger in absolute value than the sum, over all channels of all sources, of the gain of the path (the sum of the absolute values of its impulse response) times the largest absolute value that the channel has played so far. This holds for moving arrays with the gains of the paths in force at that time, although paths are replaced while sound is under way, and for sources that start before time 0.", "quantifier": "for all collections of arrays, all processors, configurations, times and channels", "why_tests_cant": "no test changes paths while sources play and checks the loudness; the claim is about all signals and all runs", "anchors": ["src/aspsim/simulator.py: Propagator.propagate, Simulator.run_simulation", "src/aspsim/array.py: ArrayCollection.update"]}
{"id": "C127", "title": "Configurations are stored and loaded faithfully", "statement": "A configuration file is loaded exactly if it holds each of the 21 settings, in any order, and nothing else, the room has as many lengths and centre coordinates as dimensions and the reverberation is none, direct or ism; the settings then have the values of the file. Every other file, and a path given as a string, raises an error of a known kind. Saving a configuration to a folder and loading the folder gives an equal configuration, and saving changes no other file. The settings in the package are accepted.", "quantifier": "for all file contents, folders, configurations and values", "why_tests_cant": "the tests load two or three configurations that are fine; the claim is about all contents, including values that were changed after loading", "anchors": ["src/aspsim/configutil.py: SimulatorInfo, SimulatorInfo.save_to_file, load_from_file, load_default_config", "src/aspsim/simulator.py: SimulatorSetup.__init__", "src/aspsim/saveloadsession.py: search_for_matching_session", "src/aspsim/config.yaml"]}
{"id": "C128", "title": "Sound takes its time and dies out", "statement": "If the impulse responses in force at some time are zero outside a range of delays, and every source is silent at all times that lie such a delay before, the microphone records an exact zero at that time. So nothing is heard before the sound can have arrived, and nothing after the last echo, for arrays that move or not, whatever was played before and whatever was in the buffers.", "quantifier": "for all collections of arrays, processors, configurations, times and channels", "why_tests_cant": "tests look at a few fixed impulse responses; leftovers in the ring buffers or filter states show only for particular chunk sizes, updates and times", "anchors": ["src/aspsim/simulator.py: Propagator.propagate, Simulator.run_simulation", "src/aspsim/array.py: ArrayCollection.update"]}
{"id": "C129", "title": "Periodic sources are recorded as periodic signals", "statement": "In a room where nothing moves, if all sources have a common period from some time on and no impulse response is longer than L, then every microphone array has that period from L - 1 samples later on, in all its channels.", "quantifier": "for all stationary collections of arrays, processors, configurations, periods and starting times", "why_tests_cant": "a finite run shows the period for one signal only; the claim relates all pairs of times in all runs, across buffer and chunk boundaries", "anchors": ["src/aspsim/simulator.py: Propagator.propagate, Simulator.run_simulation"]}
{"id": "C130", "title": "The logger announces the next export", "statement": "After prepare, and after every sequence of save_data and dispatch calls, next_export gives the earliest time at which any diagnostic exports next, and infinity if nothing is left to export, also if the output is switched off. When a dispatch with output returns, the next export of every diagnostic lies after the time until which it has saved. Adding a diagnostic leaves the others alone; the announcement stays as it is until the next dispatch with output, so it is right exactly if the new diagnostic does not export earlier.", "quantifier": "for all loggers, diagnostics, sequences of calls and data", "why_tests_cant": "no test asks for the next export; the claim is about all interleavings of calls", "anchors": ["src/aspsim/diagnostics/core.py: Logger.update_next_export, Logger.next_export, Logger.prepare, Logger.dispatch, Logger.save_data, Logger.add_diagnostic"]}
{"id": "C131", "title": "Walking over a collection visits every array and every path once", "statement": "Iterating over an array collection gives the arrays that were added, in that order; a name is in the collection exactly if an array with that name was added; the collection is empty exactly if none was. iter_paths yields the pairs of sources and microphones in order, each with its own path, up to the first pair without a path, where it raises KeyError. Once the impulse responses are set up it yields every pair exactly once, provided the pairs of type modified have a path.", "quantifier": "for all lists of added arrays and all consistent collections", "why_tests_cant": "tests walk over one or two small collections; the claim is about every mixture and order of arrays and about partly filled collections", "anchors": ["src/aspsim/array.py:56-61", "src/aspsim/array.py:111-141"]}
{"id": "C132", "title": "Processors are added in the order of the calls", "statement": "However processors are handed to add_processor, one by one or in lists, the simulator has all of them in the order of the calls, and a simulation with more than one is refused with NotImplementedError. If iterating over the argument fails, the processors that came before stay; a TypeError raised inside the iteration is not reported, and the argument itself is added as if it were a processor.", "quantifier": "for all sequences of calls, all arguments and all simulations", "why_tests_cant": "tests add a single processor; failing iterators and mixtures of lists and single processors do not occur", "anchors": ["src/aspsim/simulator.py:241-256"]}
{"id": "C133", "title": "The power of a Gold sequence source can be given in several forms and changed at any time", "statement": "A number, an array without axes, a vector and a matrix with one column are taken as power, one for all channels or one for each; everything else is refused with the error of its kind. Every channel plays its own sequence scaled by the root of its power. If the power is changed after any sequence of requests, the sequences go on where they were with the new powers. The number of channels of the output is the number the source was made with; this is false for one channel and several powers.", "quantifier": "for all orders, numbers of channels, forms of powers and sequences of requests", "why_tests_cant": "a test fixes one form of the power and one moment of change; the claim is about all moments in the cyclic sequence and about the malformed cases", "anchors": ["src/aspsim/signal/sources.py:429-486"]}
{"id": "C134", "title": "A steady sinusoid is recorded with the computed frequency response", "statement": "In a room where nothing moves, if from some time on every source channel plays a sinusoid, with its own amplitude and phase, whose frequency is one of those returned by get_freq_paths, and the impulse responses are not longer than L and not longer than the number of frequencies asked for, then from L - 1 samples later on every microphone channel records the sum of these sinusoids, each multiplied by the complex number that get_freq_paths returns for that frequency, source channel and microphone channel.", "quantifier": "for all stationary collections of arrays, processors, configurations, amplitudes, phases, frequencies and times", "why_tests_cant": "relates two separate parts of the library, the time domain simulation and the frequency domain paths, for all signals and all times; a test compares one path at one frequency up to a tolerance", "anchors": ["src/aspsim/array.py:366-405", "src/aspsim/simulator.py:284-312", "src/aspsim/simulator.py:445-476"]}
{"id": "C135", "title": "The arguments of diagnostics reach the common constructor under their names", "statement": "When a diagnostic of signals, a recording of a state or a summary of a range of samples is made, each keyword argument that it knows is received by the common constructor under its own name, and defaults take the place of those not given. A keyword that it does not know, or an argument given twice, raises a TypeError. A recording of a state without a frequency of saving is not implemented. Every diagnostic in the package can be made with suitable arguments.", "quantifier": "for all keyword arguments and values", "why_tests_cant": "covers all combinations of keywords through two or three constructors that pass *args and **kwargs on; a test makes a few diagnostics with a few keywords", "anchors": ["src/aspsim/diagnostics/core.py:256-399", "src/aspsim/diagnostics/diagnostics.py:81-187", "src/aspsim/diagnostics/diagnosticscollection.py:87-174", "src/aspsim/diagnostics/diagnosticsummary.py:42-157"]}
{"id": "C136", "title": "Impulse responses can be measured with perfect sequences", "statement": "In a room where nothing moves, let every source channel play, from some time on, the same sequence of period T whose products with itself add up to a over a period, and to zero with itself at any other time of the period, each channel with its own delay so that the delayed impulse responses, not longer than L, do not overlap within a period. Then, over any recorded period from L - 1 samples later on, the products of a microphone channel with the sequence, delayed by the delay of a source channel plus n samples, add up to a times coefficient n of the impulse response from that source channel to the microphone channel.", "quantifier": "for all stationary collections of arrays, processors, configurations, perfect sequences, delays, channels, coefficients and recorded periods", "why_tests_cant": "a measurement over a whole period with all sources playing at once must return every coefficient exactly, for every sequence, delay and room; a test measures one room up to noise", "anchors": ["src/aspsim/simulator.py: Propagator.propagate, Simulator.run_simulation", "src/aspsim/array.py: ArrayCollection.setup_ir, ArrayCollection.update"]}
{"id": "C137", "title": "A pulse is answered by the impulse response in force", "statement": "Arrays may move. If one source channel plays the value a at time t0 and nothing at other times, and every other channel is silent or cannot be heard, then the sample that a microphone channel records at time t is a times coefficient t - t0 of an impulse response between the two arrays at the places they have at time t (or of the one provided by the user), and zero before t0.", "quantifier": "for all collections of arrays with or without movement, processors, configurations, channels and times", "why_tests_cant": "which of the impulse responses answers a pulse that is still travelling while the arrays move depends on the time of every update; a test uses one trajectory and one pulse", "anchors": ["src/aspsim/simulator.py: Propagator.propagate, Simulator.run_simulation", "src/aspsim/array.py: ArrayCollection.setup_ir, ArrayCollection.update"]}
{"id": "C138", "title": "Power diagnostics of all signals of a processor", "statement": "Called with a processor whose handler has none of the names yet, power_of_all_signals adds one power diagnostic for each signal of the processor, called power_ and the name of the signal, in the order of the signals and after the diagnostics that are there, with the settings a power diagnostic has by default apart from the smoothing. If a name is taken, the signals before it have their diagnostics, nothing else is changed, and an AssertionError is raised.", "quantifier": "for all processors, signals, configurations and diagnostics already added", "why_tests_cant": "the leftover positional argument is silently taken for another parameter, so a test that only looks at the names of the diagnostics passes; the names of signals and of earlier diagnostics are arbitrary", "anchors": ["src/aspsim/diagnostics/diagnostics.py: power_of_all_signals, SignalPower.__init__", "src/aspsim/diagnostics/core.py: DiagnosticHandler.add_diagnostic", "src/aspsim/processor.py: AudioProcessor.__init__"]}
{"id": "C139", "title": "Impulse responses can be measured with sequences of two values", "statement": "Nothing moves. If from some time on every source channel plays the same periodic sequence whose products with itself take one value at no shift and another at every other shift (such as a sequence of maximal length), delayed so that the impulse responses do not overlap in the period, then the products of the microphone with the delayed sequence over any later period add up to the coefficient of the impulse response times the difference of the two values, plus the same constant for all delays: the lower value times the sum of all coefficients. The samples of a period add up to this sum times the sum of the sequence, so the constant can be removed.", "quantifier": "for all collections of arrays without movement, processors, configurations, sequences, delays, channels and periods", "why_tests_cant": "the identity needs every source channel, every coefficient and the end of the transient to line up with the period; a test checks one room and one sequence", "anchors": ["src/aspsim/simulator.py: Propagator.propagate, Simulator.run_simulation", "src/aspsim/signal/sources.py: Sequence"]}
{"id": "C140", "title": "Figures of spectra show one curve for each processor", "statement": "The figure of a spectrum has exactly one curve for each processor, in their order, with the processed values over their indices, labelled with the name; the legend names it. A SignalPowerSpectrum without preprocessing is drawn as the mean of the spectra of its channels. A diagnostic that fails, gives a number or gives values with times makes the export fail with a definite error.", "quantifier": "for all outputs, processors, names and preprocessing functions", "why_tests_cant": "any number of channels, frequencies and processors; matplotlib silently draws columns where rows are meant", "anchors": ["src/aspsim/diagnostics/plot.py: spectrum_plot, legend_without_duplicates", "src/aspsim/diagnostics/diagnosticscollection.py: SignalPowerSpectrum.get_output", "src/aspsim/diagnostics/core.py: Diagnostic.get_processed_output"]}
{"id": "C141", "title": "The saved metadata describe the arrays", "statement": "save_metadata writes one entry for each array, under its name and in their order, with its class, number of elements and groups, whether it moves, the shape of its region, and the arguments of its source: number of channels, power, frequencies, order and so on. Without a folder nothing is written. An entry that cannot be written as json makes the call fail with a TypeError.", "quantifier": "for all arrays, sources and their arguments, and all changes made to them before saving", "why_tests_cant": "which metadata can be written depends on the types of the arguments, and whether they are up to date on the calls made after construction", "anchors": ["src/aspsim/array.py: ArrayCollection.save_metadata, Array.__init__, RegionArray.__init__, FreeSourceArray", "src/aspsim/signal/sources.py: metadata of all sources", "src/aspsim/simulator.py: SimulatorSetup.create_simulator"]}
{"id": "C142", "title": "Source arrays can be reset", "statement": "FreeSourceArray.reset_state gives the array a copy of its source and puts that back to its start.", "quantifier": "for all source arrays and all classes of sources", "why_tests_cant": "a method that is never called is not tested; each class of sources needs a case of its own", "anchors": ["src/aspsim/array.py: FreeSourceArray.reset_state", "src/aspsim/signal/sources.py: all sources"]}
{"id": "C143", "title": "The metadata of paths name every pair and its type", "statement": "setup_ir keeps an entry for every pair of a source and a microphone array, in their order and under the two names with an arrow between them. The entry holds the type of the path, for the image source method the figures of exactly these two arrays, and nothing else; keeping it changes nothing else. metadata_paths.json holds the same entries, or nothing is written when a figure cannot be written.", "quantifier": "for all collections built by successful calls, all settings, all path types and figures", "why_tests_cant": "names, types and numbers of arrays are unbounded; two pairs share an entry only for rare names", "anchors": ["src/aspsim/array.py: ArrayCollection.setup_ir, _save_metadata_paths, path_info", "src/aspsim/room/roomimpulseresponse.py: PathGenerator.create_path"]}
{"id": "C144", "title": "save_metadata writes all of its files, in a fixed order", "statement": "Without a folder save_metadata writes nothing. Otherwise it writes the metadata of the arrays, the metadata of the paths and the coordinates of every element of every array to three files and touches no other. A value that cannot be written ends the call with a TypeError: its file is left unfinished, the files after it are neither written nor replaced.", "quantifier": "for all metadata, figures, positions and earlier contents of the folder", "why_tests_cant": "the outcome depends on arbitrary nested values in any array and on what the folder held before", "anchors": ["src/aspsim/array.py: ArrayCollection.save_metadata, _save_metadata_arrays, _save_metadata_paths, _save_readable_pos"]}
{"id": "C145", "title": "Sources whose path has the type none are not heard", "statement": "What a microphone array records is, at every time and in each of its channels, the sum over the channels of those sources whose path to it has another type than none, heard through the paths in force; no term belongs to a source of type none, whatever it plays and wherever the arrays move, with or without a high-pass filter that keeps silence.", "quantifier": "for all collections of arrays, path types, trajectories, processors, settings and times", "why_tests_cant": "mixtures of path types, moving arrays and signals are unbounded; a leak may appear only after an update of the paths", "anchors": ["src/aspsim/room/roomimpulseresponse.py: create_path (reverb none)", "src/aspsim/array.py: ArrayCollection.setup_ir, update_path", "src/aspsim/simulator.py: Propagator.propagate"]}
