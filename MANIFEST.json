{
 "claims": [
  {
   "property": "C01",
   "status": "proved",
   "theorems": [
    "C01_convolution"
   ],
   "note": "For all rooms, paths, sources, processors and supported sizes. The microphone array must not be written to by the processor (hypothesis mic_untouched)."
  },
  {
   "property": "C02",
   "status": "proved",
   "theorems": [
    "C02_setup",
    "C02_recorded",
    "C02_processor"
   ],
   "note": "For sources started at time 0: two runs of the same experiment with different sim_buffer and sim_chunk_size, both of supported size, record the same values and leave the processor in the same state. With start_sources_before_0 the number of samples drawn before time 0 depends on sim_buffer by design (C05, C10), so the theorem asks for start_sources_before_0 = false."
  },
  {
   "property": "C03",
   "status": "proved",
   "theorems": [
    "C03_window"
   ],
   "note": "Stated for any processor wrapped with a log of what every call is handed; the log is compared with the recorded samples."
  },
  {
   "property": "C04",
   "status": "proved",
   "theorems": [
    "C04_output"
   ],
   "note": "As C03, for controllable sources and the processor's own signals."
  },
  {
   "property": "C05",
   "status": "proved",
   "theorems": [
    "C05_requests",
    "C05_stream"
   ],
   "note": "C05_requests holds for any generator; C05_stream for generators whose samples do not depend on the sizes of the requests."
  },
  {
   "property": "C06",
   "status": "proved",
   "theorems": [
    "C06_calls",
    "C06_steps",
    "C06_one_processor",
    "C06_loop_ends"
   ],
   "note": "Calls are counted by a log kept by the processor; C06_steps gives the number of calls made by every time step."
  },
  {
   "property": "C07",
   "status": "proved",
   "theorems": [
    "C07_in_range",
    "C07_small_buffer_refuted",
    "C07_small_window_refuted",
    "C07_small_chunk_refuted"
   ],
   "note": "The limits: block_size + 1 <= sim_buffer, block_size - 1 + history <= sim_buffer, sim_chunk_size >= 2 (>= 1 for blocks of one sample), 4 <= sim_buffer without a processor. Inside them every index stays in range in every reachable state. The _refuted theorems are the witnesses asked for by the property that just below the limits the claim fails."
  },
  {
   "property": "C08",
   "status": "proved",
   "theorems": [
    "C08_contributions",
    "C08_setup",
    "C08_switched_off",
    "C08_processor"
   ],
   "note": "Switching the option off is shown to change no other recording provided the processor itself neither reads contribution signals nor creates signals named like them."
  },
  {
   "property": "C09",
   "status": "proved",
   "theorems": [
    "C09_positions",
    "C09_lag"
   ],
   "note": ""
  },
  {
   "property": "C10",
   "status": "partial",
   "theorems": [
    "C10_started_before",
    "C10_started_at_0_partial",
    "C10_started_at_0_refuted"
   ],
   "note": "Refuted for microphones when sources start at time 0: the value at time 0 fills all earlier buffer samples. The rest is proved."
  },
  {
   "property": "C100",
   "status": "partial",
   "theorems": [
    "C100_cardioid",
    "C100_omni",
    "C100_none",
    "C100_refused",
    "C100_others_refuted"
   ],
   "note": "Over real numbers; the function is not called by the library. False for mixtures of types, which are refused with NotImplementedError."
  },
  {
   "property": "C101",
   "status": "partial",
   "theorems": [
    "C101_speed",
    "C101_modes",
    "C101_time_partial",
    "C101_time_refuted",
    "C101_circular_partial",
    "C101_circular_refuted",
    "C101_figure_partial",
    "C101_figure_refuted"
   ],
   "note": "Over real numbers; a figure is what is handed to matplotlib. False for linear trajectories of constant time when the simulation ends within the last share of the first period (nothing is drawn) and for circular trajectories with periods below 1000 samples (ZeroDivisionError in create_simulator)."
  },
  {
   "property": "C102",
   "status": "proved",
   "theorems": [
    "C102_signals",
    "C102_end",
    "C102_clash",
    "C102_one_processor"
   ],
   "note": "For collections built by add_array (coll_ok) and a positive buffer. A signal of a processor has one channel axis in the model."
  },
  {
   "property": "C103",
   "status": "proved",
   "theorems": [
    "C103_setup",
    "C103_prefix",
    "C103_signals"
   ],
   "note": "Both runs are taken to complete; processors are the same objects in both, so a processor that reads tot_samples itself is not covered."
  },
  {
   "property": "C104",
   "status": "proved",
   "theorems": [
    "C104_same_end",
    "C104_recorded"
   ],
   "note": "Both runs are taken to complete: a diagnostic that raises stops the simulation."
  },
  {
   "property": "C105",
   "status": "proved",
   "theorems": [
    "C105_finished",
    "C105_again",
    "C105_sources"
   ],
   "note": "For diagnostics that do not save beyond tot_samples. The sources are those whose samples do not depend on how many are asked for at a time."
  },
  {
   "property": "C106",
   "status": "partial",
   "theorems": [
    "C106_alone_partial",
    "C106_created",
    "C106_other_refuted",
    "C106_loaded_refuted"
   ],
   "note": "False as it stands: c and extra_delay reach pyroomacoustics as process-wide constants that only create_simulator sets. C106_other_refuted: a simulator created later with another speed of sound changes the paths that an earlier one computes for its moving arrays. C106_loaded_refuted: a simulator loaded from a session in a new process computes them with the defaults. Proved: a simulator behaves as if alone when all others of the process are created with the same c and extra_delay (C106_alone_partial), and the paths computed on creation are always its own (C106_created). The random generator is kept per collection in the model; that np.random is shared between simulators is not covered."
  },
  {
   "property": "C107",
   "status": "partial",
   "theorems": [
    "C107_local",
    "C107_paths",
    "C107_random_refuted"
   ],
   "note": "Proved for stationary arrays (C107_local), given paths that agree; C107_paths shows that they do agree for generated paths that use no random numbers. For paths of type random it is false (C107_random_refuted): all are drawn one after the other from one generator."
  },
  {
   "property": "C108",
   "status": "proved",
   "theorems": [
    "C108_causal",
    "C108_recorded",
    "C108_processor"
   ],
   "note": "For stationary arrays, and for moving ones whose paths are generated without random numbers."
  },
  {
   "property": "C109",
   "status": "proved",
   "theorems": [
    "C109_signals",
    "C109_recorded"
   ],
   "note": "Samples are exact numbers (a commutative semiring), rounding is not modelled. No processor or a linear one; stationary arrays, or moving ones whose paths do not depend on random numbers."
  },
  {
   "property": "C11",
   "status": "proved",
   "theorems": [
    "C11_recorded",
    "C11_default_interval",
    "C11_power",
    "C11_channel_count",
    "C11_no_channel"
   ],
   "note": "Any run of run_simulation on a well-formed experiment; channels the diagnostic does not fill stay NaN."
  },
  {
   "property": "C110",
   "status": "proved",
   "theorems": [
    "C110_delay"
   ],
   "note": "Samples are exact numbers (a commutative semiring). Stationary arrays, sources that start at time 0, none of them driven by a processor."
  },
  {
   "property": "C111",
   "status": "proved",
   "theorems": [
    "C111_same_places",
    "C111_recorded",
    "C111_unmoving"
   ],
   "note": "Paths are generated without random numbers (the image source method without randomisation, 'direct', 'none') or provided by the user."
  },
  {
   "property": "C112",
   "status": "proved",
   "theorems": [
    "C112_grouping"
   ],
   "note": "Samples are exact numbers (a commutative semiring), rounding is not modelled. Stationary arrays; the microphone is not written to by the processor."
  },
  {
   "property": "C113",
   "status": "proved",
   "theorems": [
    "C113_versions"
   ],
   "note": "Over real numbers; pyroomacoustics is a parameter (inverse_sabine is assumed to return orders that are not negative). The metadata of the earlier version lacks median and mean reverberation time; measured values stand for the numbers computed from them."
  },
  {
   "property": "C114",
   "status": "partial",
   "theorems": [
    "C114_old_partial",
    "C114_on_rectangle",
    "C114_few",
    "C114_random_partial",
    "C114_few_random",
    "C114_few_places",
    "C114_none_random",
    "C114_short_side_refuted"
   ],
   "note": "Over real numbers. False when a side is shorter than the spacing (C114_short_side_refuted: a 10 by 1 rectangle with 4 points); proved when no side is, for offsets above 0 up to 1 and random numbers other than 0. The library does not call these functions."
  },
  {
   "property": "C115",
   "status": "proved",
   "theorems": [
    "C115_now",
    "C115_same_place"
   ],
   "note": "That room responses depend on the two points only (true of the image source model without randomisation, and of a linear high-pass filter) is a hypothesis about the room simulator, which is outside the model; so is exact arithmetic of samples. Sample 0 uses the places the arrays were created with."
  },
  {
   "property": "C116",
   "status": "proved",
   "theorems": [
    "C116_reciprocity"
   ],
   "note": "Reciprocity of the room simulator is a hypothesis. For one source and one microphone with one channel each; exact arithmetic of samples."
  },
  {
   "property": "C117",
   "status": "partial",
   "theorems": [
    "C117_cuboid",
    "C117_rectangle",
    "C117_disc_partial",
    "C117_cylinder_partial",
    "C117_ball_partial",
    "C117_disc_refuted",
    "C117_empty_refuted",
    "C117_cylinder_refuted",
    "C117_ball_refuted"
   ],
   "note": "Over real numbers. Proved without conditions for cuboids and rectangles. False of discs, cylinders and balls (the refuted theorems, within the ranges the tests draw from); proved for those whose number of grid points along each round axis is odd, so that one of them is in the middle."
  },
  {
   "property": "C118",
   "status": "proved",
   "theorems": [
    "C118_consistent",
    "C118_arrays",
    "C118_paths",
    "C118_refused",
    "C118_errors"
   ],
   "note": "Arrays are microphones or sources (others: C40_other_kind), and a trajectory keeps its number of points. Sessions are left out (C61, C63) and deepcopy is the identity in this model (C91). C118_paths is for scripts that do not add a whole collection (C77) and a default path type other than modified. C118_consistent assumes that the room simulator and the random generator return paths of the shape asked for."
  },
  {
   "property": "C119",
   "status": "proved",
   "theorems": [
    "C119_signals",
    "C119_recorded"
   ],
   "note": "Both simulations are assumed to run to their end. The test in the repository has a processor that does play, through a loudspeaker without a path to the microphone: that case is an instance of C112_grouping."
  },
  {
   "property": "C12",
   "status": "proved",
   "theorems": [
    "C12_save_calls",
    "C12_all_saved"
   ],
   "note": "Observed by a diagnostic that logs every save call it receives."
  },
  {
   "property": "C120",
   "status": "proved",
   "theorems": [
    "C120_cleaned",
    "C120_denied",
    "C120_other_file",
    "C120_nothing",
    "C120_later"
   ],
   "note": "Folders within the figures' folders are left out; permissions are parameters. C120_denied and C120_other_file are for one earlier folder. No code in the library asks for it (keep_only_latest_tikz is always False)."
  },
  {
   "property": "C121",
   "status": "partial",
   "theorems": [
    "C121_mean_partial",
    "C121_early_refuted"
   ],
   "note": "Proved for times from 3000 on and for outputs so short that the slice still begins at their start; false for all times below 3000 of outputs with 3000 samples or more, for which the result is NaN (C121_early_refuted). Over real numbers. Nothing in the library calls the function."
  },
  {
   "property": "C122",
   "status": "proved",
   "theorems": [
    "C122_list",
    "C122_array",
    "C122_point",
    "C122_rows",
    "C122_cells",
    "C122_one_column"
   ],
   "note": "Without arrays_to_plot, which sf_plot cannot draw (C99). numpy's argsort and allclose are parameters, as in C84, and the grid is rectangular in the sense of C84. Nothing in the library calls the function."
  },
  {
   "property": "C123",
   "status": "proved",
   "theorems": [
    "C123_legends"
   ],
   "note": "Artists are modelled as a tree: no artist has two parents."
  },
  {
   "property": "C124",
   "status": "proved",
   "theorems": [
    "C124_groups",
    "C124_size",
    "C124_empty"
   ],
   "note": "Coordinates are exact multiples of a fraction of the unit of rounding, as in C84."
  },
  {
   "property": "C125",
   "status": "proved",
   "theorems": [
    "C125_direct",
    "C125_highpass"
   ],
   "note": "Samples are added and multiplied like exact numbers. The filter is a parameter: C125_highpass assumes that it keeps the shape of the impulse responses and multiplies their first sample by a constant, as causal filters do."
  },
  {
   "property": "C126",
   "status": "proved",
   "theorems": [
    "C126_bounded",
    "C126_recorded"
   ],
   "note": "Samples are added and multiplied like exact numbers; the absolute value is any function to the reals with the usual inequalities. The processor may not write to the microphone itself. In the example the bound is attained."
  },
  {
   "property": "C127",
   "status": "partial",
   "theorems": [
    "C127_loaded",
    "C127_errors",
    "C127_saved_partial",
    "C127_not_saved",
    "C127_default",
    "C127_searched",
    "C127_blocked",
    "C127_tuple_refuted",
    "C127_changed_refuted"
   ],
   "note": "Saving and loading back is false in general: a room size that is a tuple is accepted but makes the saved file unreadable for safe_load, and settings changed after loading are not checked, so that a configuration can be saved that cannot be loaded; such a session stops every search that reaches it (C127_blocked). Proved for acceptable configurations of plain values. yaml is a parameter: dictionaries of plain values are assumed to be read back, those with tuples or objects to be refused."
  },
  {
   "property": "C128",
   "status": "proved",
   "theorems": [
    "C128_silence"
   ],
   "note": "Samples are added and multiplied like exact numbers. The processor may not write to the microphone itself."
  },
  {
   "property": "C129",
   "status": "proved",
   "theorems": [
    "C129_periodic"
   ],
   "note": "Samples are added and multiplied like exact numbers. The processor may not write to the microphone itself; what loudspeakers play is a hypothesis."
  },
  {
   "property": "C13",
   "status": "proved",
   "theorems": [
    "C13_exports",
    "C13_all_exported",
    "C13_no_exports",
    "C13_export_loop_ends"
   ],
   "note": "The schedule is proved for non-decreasing export indices, which is what the constructors build from a frequency and what a caller has to pass as a list."
  },
  {
   "property": "C130",
   "status": "proved",
   "theorems": [
    "C130_announced",
    "C130_after_dispatch",
    "C130_added"
   ],
   "note": "Adding after prepare is stated as it is: the announcement is not updated."
  },
  {
   "property": "C131",
   "status": "proved",
   "theorems": [
    "C131_walk",
    "C131_paths",
    "C131_set_up"
   ],
   "note": ""
  },
  {
   "property": "C132",
   "status": "proved",
   "theorems": [
    "C132_added",
    "C132_failed"
   ],
   "note": ""
  },
  {
   "property": "C133",
   "status": "partial",
   "theorems": [
    "C133_accepted",
    "C133_changed",
    "C133_refused",
    "C133_channels_refuted"
   ],
   "note": "Everything but the last sentence is proved. The last sentence is false of the code: with one channel and several powers the output has a row for each power."
  },
  {
   "property": "C134",
   "status": "proved",
   "theorems": [
    "C134_steady"
   ],
   "note": "Samples are added and multiplied like exact numbers and are read as real numbers. The processor may not write to the microphone itself; what loudspeakers play is a hypothesis."
  },
  {
   "property": "C135",
   "status": "partial",
   "theorems": [
    "C135_record_signal",
    "C135_signal_power",
    "C135_signal_power_ratio",
    "C135_record_state",
    "C135_no_frequency",
    "C135_power_spectrum",
    "C135_signal_summary",
    "C135_summaries_refuted"
   ],
   "note": "Python's binding of arguments to parameters is modelled. Everything but the last sentence is proved, with the required arguments given by position. The last sentence is false: the four summary classes of diagnosticsummary.py raise an error whatever they are given, because their constructor passes one argument too many."
  },
  {
   "property": "C136",
   "status": "proved",
   "theorems": [
    "C136_measured"
   ],
   "note": "Samples are added and multiplied like exact numbers. The processor may not write to the microphone itself; what loudspeakers play is a hypothesis."
  },
  {
   "property": "C137",
   "status": "proved",
   "theorems": [
    "C137_pulse"
   ],
   "note": "Samples are added and multiplied like exact numbers. The impulse response is one that setup_ir makes for the two arrays, see the definition of can_be_in_force; with random numbers it is determined up to the state of the generator. The processor may not write to the microphone itself; what loudspeakers play is a hypothesis."
  },
  {
   "property": "C138",
   "status": "partial",
   "theorems": [
    "C138_all_partial",
    "C138_taken",
    "C138_handler_refuted",
    "C138_export_refuted"
   ],
   "note": "Holds for names, order and signals, for processors that were given a handler. Refuted for the settings: the block size is passed on as the export times, a leftover of an earlier signature; and AudioProcessor sets no attribute diag, so the function fails with an AttributeError for a processor as it is constructed."
  },
  {
   "property": "C139",
   "status": "proved",
   "theorems": [
    "C139_two_level"
   ],
   "note": "Samples are added and multiplied like exact numbers. The processor may not write to the microphone itself; what loudspeakers play is a hypothesis."
  },
  {
   "property": "C14",
   "status": "proved",
   "theorems": [
    "C14_exported",
    "C14_power_exported"
   ],
   "note": ""
  },
  {
   "property": "C140",
   "status": "partial",
   "theorems": [
    "C140_vectors_partial",
    "C140_legend",
    "C140_failures",
    "C140_power_spectrum",
    "C140_matrix_refuted"
   ],
   "note": "For diagnostics whose processed output is a vector. Refuted for matrices with one row per channel: matplotlib draws the columns, one curve for each frequency over the numbers of the channels. That signal diagnostics offer this export though it always fails is C82_spectrum_refuted."
  },
  {
   "property": "C141",
   "status": "partial",
   "theorems": [
    "C141_written_partial",
    "C141_no_folder",
    "C141_unwritable",
    "C141_multisine_refuted",
    "C141_changed_refuted",
    "C141_groups_refuted",
    "C141_source_refuted",
    "C141_power_refuted",
    "C141_refused"
   ],
   "note": "For arrays as their constructors make them, and arguments that can be written as json. Refuted for MultiSineSource, whose frequencies are kept as a numpy array: metadata cannot be saved, so no simulator with a figure folder can be created. Refuted after set_source, set_groups and set_power, which do not change the metadata."
  },
  {
   "property": "C142",
   "status": "partial",
   "theorems": [
    "C142_kept",
    "C142_reset_refuted"
   ],
   "note": "The array keeps its state, but no class of sources has a method reset, so the call always fails with an AttributeError."
  },
  {
   "property": "C143",
   "status": "partial",
   "theorems": [
    "C143_same",
    "C143_entries_partial",
    "C143_file",
    "C143_arrow_refuted"
   ],
   "note": "For source names without the character '>'; entries of an earlier setup are replaced. Refuted for names with an arrow: two pairs then share a key, and the entry of one is lost. The figures are an uninterpreted function of the room, the random state and the positions; which random state is not stated."
  },
  {
   "property": "C144",
   "status": "proved",
   "theorems": [
    "C144_no_folder",
    "C144_written",
    "C144_bad_array",
    "C144_bad_path"
   ],
   "note": "That opening a file may fail is left out, what an unfinished file holds is left open. Positions are lists of rows."
  },
  {
   "property": "C145",
   "status": "proved",
   "theorems": [
    "C145_unheard",
    "C145_silence"
   ],
   "note": "Samples are added and multiplied like exact numbers. The filter is a parameter, assumed to turn impulse responses of zeros into impulse responses of zeros. The signals of the sources are those of the reference simulator (RunSpec.v)."
  },
  {
   "property": "C15",
   "status": "partial",
   "theorems": [
    "C15_stored",
    "C15_documented_partial",
    "C15_refuted"
   ],
   "note": "C15_stored gives number, times and values of what is stored. The value at k*f is the documented one unless a block ends with sample k*f (C15_documented_partial); in that case the claim is false (C15_refuted)."
  },
  {
   "property": "C16",
   "status": "partial",
   "theorems": [
    "C16_selection_partial",
    "C16_selection_refuted",
    "C16_exported_partial",
    "C16_early_export_refuted"
   ],
   "note": "True when some stored value is older than the export index. Otherwise all stored values are returned (refuted, also for exports of a run)."
  },
  {
   "property": "C17",
   "status": "proved",
   "theorems": [
    "C17_instant",
    "C17_frequencies",
    "C17_no_processor"
   ],
   "note": ""
  },
  {
   "property": "C18",
   "status": "proved",
   "theorems": [
    "C18_soundfield",
    "C18_soundfield_interval",
    "C18_no_processor",
    "C18_summary",
    "C18_sum_splits",
    "C18_spectrum",
    "C18_soundfield_exported",
    "C18_summary_exported",
    "C18_spectrum_exported"
   ],
   "note": "Under laws of exact arithmetic (exact_sums: associative sum with unit, division distributes); exact_Qc shows that the rationals satisfy them. Rounding is outside the model. SignalSummary for summary functions that add up over pieces, as the default does. The FFT of SignalPowerSpectrum is not modelled: the samples it is applied to are."
  },
  {
   "property": "C19",
   "status": "partial",
   "theorems": [
    "C19_stored",
    "C19_independent_partial",
    "C19_unsmoothed_partial",
    "C19_refuted"
   ],
   "note": "C19_stored gives the value of every sample. It is the one of the signals alone except for the first smoothing_len - 1 samples of a save call; there it depends on the chunk size (C19_refuted), so the claim holds only without smoothing."
  },
  {
   "property": "C20",
   "status": "partial",
   "theorems": [
    "C20_state_diagnostics",
    "C20_frequency_required",
    "C20_constructed_ok",
    "C20_state_power_refuted",
    "C20_bad_frequency"
   ],
   "note": "True for RecordState, StateComparison and StateSummary; StatePower exchanges the two settings (refuted)."
  },
  {
   "property": "C21",
   "status": "proved",
   "theorems": [
    "C21_debug"
   ],
   "note": ""
  },
  {
   "property": "C22",
   "status": "proved",
   "theorems": [
    "C22_events",
    "C22_raises",
    "C22_between"
   ],
   "note": "An event with frequency f fires once per f counted samples, exactly at multiples, whatever the blocks are; blocks that could skip events raise."
  },
  {
   "property": "C23",
   "status": "partial",
   "theorems": [
    "C23_phase_partial",
    "C23_not_empty",
    "C23_after_end",
    "C23_finished_refuted",
    "C23_no_phase",
    "C23_current",
    "C23_start_idxs"
   ],
   "note": "The phase reported is the one whose interval contains the sample, for all finite and infinite phases. The part of the claim about the time after all phases is false: the last non-empty phase is reported forever."
  },
  {
   "property": "C24",
   "status": "proved",
   "theorems": [
    "C24_loop",
    "C24_one_channel",
    "playing_division"
   ],
   "note": ""
  },
  {
   "property": "C25",
   "status": "partial",
   "theorems": [
    "C25_once_partial",
    "C25_no_error",
    "C25_modes",
    "C25_end_refuted",
    "C25_amplitude_refuted"
   ],
   "note": "Before the last sample the samples are right. False: a request that ends exactly at the end of the sequence already raises, so the last sample can never be played; and the amplitude factor is ignored in this mode."
  },
  {
   "property": "C26",
   "status": "proved",
   "theorems": [
    "C26_pulses",
    "C26_counter",
    "C26_counter_channels"
   ],
   "note": ""
  },
  {
   "property": "C27",
   "status": "proved",
   "theorems": [
    "C27_sine",
    "C27_phase",
    "C27_multisine",
    "C27_multisine_errors"
   ],
   "note": "Exact real arithmetic."
  },
  {
   "property": "C28",
   "status": "proved",
   "theorems": [
    "C28_white",
    "C28_shape",
    "playing_division"
   ],
   "note": ""
  },
  {
   "property": "C29",
   "status": "partial",
   "theorems": [
    "C29_bandlimited",
    "C29_autocorr",
    "C29_single_partial",
    "C29_single_autocorr_partial",
    "C29_fresh",
    "C29_start",
    "C29_bandlimited_refuted",
    "C29_autocorr_refuted"
   ],
   "note": "True for one channel. For several channels false: the random numbers are drawn channel by channel for every request, so another division gives other noise. What is played is proved for all divisions."
  },
  {
   "property": "C30",
   "status": "proved",
   "theorems": [
    "C30_orders",
    "C30_mls",
    "C30_mls_channels",
    "C30_gold",
    "C30_magnitude",
    "C30_errors",
    "C30_gold_powers"
   ],
   "note": ""
  },
  {
   "property": "C31",
   "status": "proved",
   "theorems": [
    "C31_blocks",
    "C31_middle",
    "C31_unique",
    "C31_with_buffer",
    "C31_terminates"
   ],
   "note": ""
  },
  {
   "property": "C32",
   "status": "proved",
   "theorems": [
    "C32_blocks",
    "C32_zero"
   ],
   "note": ""
  },
  {
   "property": "C33",
   "status": "partial",
   "theorems": [
    "C33_names",
    "C33_keeps_partial",
    "C33_distinct",
    "C33_keeps_refuted"
   ],
   "note": "All names differ, every new name extends the old one by the first free number, and the search ends. The part that the first holder of a name keeps it is false: with names 'a', 'a', 'a 1' the only holder of 'a 1' is renamed."
  },
  {
   "property": "C34",
   "status": "proved",
   "theorems": [
    "C34_unique"
   ],
   "note": ""
  },
  {
   "property": "C35",
   "status": "partial",
   "theorems": [
    "C35_names_partial",
    "C35_unused_partial",
    "C35_unused_refuted"
   ],
   "note": "The names are distinct and the first one is unused. That all are unused is false in general (gap in the numbering), and proved if there is no gap."
  },
  {
   "property": "C36",
   "status": "partial",
   "theorems": [
    "C36_newest",
    "C36_untouched",
    "C36_other_diagnostics",
    "C36_crash",
    "C36_crash_refuted",
    "C36_later",
    "C36_keep_all",
    "C36_sequence"
   ],
   "note": "Everything is proved but for one crash point: an export with the same number as the only existing one overwrites it, and between opening and completing it no complete export exists (C36_crash_refuted). A file name_digits.npz with leading zeros counts as an export of that number."
  },
  {
   "property": "C37",
   "status": "proved",
   "theorems": [
    "C37_collection_consistent",
    "C37_kinds",
    "C37_always_consistent",
    "C37_duplicate_rejected",
    "C37_new_accepted"
   ],
   "note": "Histories of add_array and, via the inductive predicate built, of all calls that change a collection."
  },
  {
   "property": "C38",
   "status": "proved",
   "theorems": [
    "C38_types_resolved",
    "C38_set_type"
   ],
   "note": "Any reachable collection; defaults applied twice change nothing."
  },
  {
   "property": "C39",
   "status": "proved",
   "theorems": [
    "C39_setup_ir",
    "C39_path_accepted",
    "C39_path_stored",
    "C39_generation_succeeds",
    "C39_generation_fails",
    "C39_shapes",
    "C39_empty_array_fails"
   ],
   "note": "The image source generator, numpy.random.normal and the high-pass filter are parameters; their output shape is a hypothesis of C39_shapes. An empty array makes the set-up raise (C39_empty_array_fails) although the code contains a branch for it."
  },
  {
   "property": "C40",
   "status": "proved",
   "theorems": [
    "C40_update_step",
    "C40_paths_after_update",
    "C40_no_update_in_between",
    "C40_frequency_zero",
    "C40_not_set_up",
    "C40_user_path_must_not_move",
    "C40_no_source",
    "C40_other_kind"
   ],
   "note": ""
  },
  {
   "property": "C41",
   "status": "proved",
   "theorems": [
    "C41_groups_partition",
    "C41_constructor",
    "C41_directivity",
    "C41_refused",
    "C41_set_groups",
    "C41_source_matches",
    "C41_set_groups_unchecked_refuted"
   ],
   "note": "Groups made by the constructor. Groups replaced by set_groups are not checked by the code; C41_set_groups_unchecked_refuted shows that the partition can be lost that way."
  },
  {
   "property": "C42",
   "status": "partial",
   "theorems": [
    "C42_paths_partial",
    "C42_cutoff_refuted",
    "C42_random_refuted",
    "C42_given_refuted"
   ],
   "note": "Proved under explicit side conditions: close positions/given paths are equal and of equal length, no random paths, equal high-pass cutoff if no path is of type ism. False in general: the cutoff is compared only if some path is ism although direct paths are filtered too; the length of random paths is not compared; np.allclose broadcasts given paths of one sample."
  },
  {
   "property": "C43",
   "status": "partial",
   "theorems": [
    "C43_found",
    "C43_sources",
    "C43_again",
    "C43_refuted"
   ],
   "note": "Proved when all stored sessions can be compared (in particular after the setup itself was saved into the folder, for every listing order). Refuted in general: a stored session with a given path of another length makes np.allclose raise ValueError, which create_simulator does not catch."
  },
  {
   "property": "C44",
   "status": "partial",
   "theorems": [
    "C44_refuted",
    "C44_ends_partial"
   ],
   "note": "False at every point between mkdir and the completion of config.yaml: each later creation fails (FileNotFoundError or TypeError), for all setups and listing orders. True before mkdir and after the last write."
  },
  {
   "property": "C45",
   "status": "proved",
   "theorems": [
    "C45_position",
    "C45_points",
    "C45_order",
    "C45_period",
    "C45_speed",
    "C45_exists",
    "C45_mode",
    "C45_repeated",
    "C45_no_points",
    "C45_one_point"
   ],
   "note": "Over the real numbers (rounding is not modelled). The way is the given points plus the first one again unless np.allclose finds the last one equal to it; consecutive points must differ (otherwise the constructor raises AssertionError, C45_repeated). Distances are proportional to time on each segment and the arrival times are proportional to the way travelled."
  },
  {
   "property": "C46",
   "status": "partial",
   "theorems": [
    "C46_segments_partial",
    "C46_rest",
    "C46_back",
    "C46_period",
    "C46_refuted"
   ],
   "note": "Equal shares, order and return to the first point are proved, but the share is period / (number of points including the closing one) instead of period / (number of segments): the trajectory rests at its first point in the last share (C46_rest). C46_refuted shows that a segment does not take its share of the period. Real arithmetic."
  },
  {
   "property": "C47",
   "status": "proved",
   "theorems": [
    "C47_position",
    "C47_annulus",
    "C47_start",
    "C47_inner",
    "C47_repeats",
    "C47_exists"
   ],
   "note": "Over the real numbers; the annulus statement assumes a nonnegative inner radius."
  },
  {
   "property": "C48",
   "status": "proved",
   "theorems": [
    "C48_cuboid_grid",
    "C48_cuboid_spacing",
    "C48_cuboid_fails",
    "C48_rectangle_grid",
    "C48_rectangle_fails",
    "C48_disc_grid",
    "C48_cylinder_grid",
    "C48_ball_grid",
    "C48_cuboid_sample",
    "C48_rectangle_sample",
    "C48_disc_sample",
    "C48_cylinder_sample",
    "C48_ball_sample",
    "C48_ball_ends"
   ],
   "note": "Over the real numbers, for positive spacings and nonnegative sizes. The loop of Ball.sample_points is modelled with a bound; C48_ball_ends says that it ends as soon as enough candidates are in the ball."
  },
  {
   "property": "C49",
   "status": "partial",
   "theorems": [
    "C49_cuboid",
    "C49_ball",
    "C49_cylinder",
    "C49_plane",
    "C49_rectangle_partial",
    "C49_disc_partial",
    "C49_off_plane",
    "C49_refuted",
    "C49_combined_refuted"
   ],
   "note": "True for cuboids, balls, cylinders and for plane regions in two dimensions. False for rectangles and discs in space: one coordinate off the plane makes the answer the scalar False. False for combined regions: is_in_region always raises TypeError."
  },
  {
   "property": "C50",
   "status": "partial",
   "theorems": [
    "C50_reversed_partial",
    "C50_shares",
    "C50_cover",
    "C50_symmetric",
    "C50_sample",
    "C50_inside",
    "C50_none",
    "C50_refuted"
   ],
   "note": "The numbers of points follow the volumes in reversed order of the regions; right exactly when the list of volumes reads the same in both orders. C50_sample: the requested number of points is returned, each from one of the regions."
  },
  {
   "property": "C51",
   "status": "proved",
   "theorems": [
    "C51_polar",
    "C51_polar_back",
    "C51_spherical",
    "C51_spherical_back"
   ],
   "note": "Over the exact reals with np.arctan2 defined by quadrants. Conversion and back is the identity for every list of points; the coordinates are the distance and the angles in their ranges. The other direction holds for positive distances and angles in range, off the third axis for spherical coordinates."
  },
  {
   "property": "C52",
   "status": "partial",
   "theorems": [
    "C52_rectangle",
    "C52_on_rectangle",
    "C52_rectangle_rejects",
    "C52_circle",
    "C52_stacked",
    "C52_concentric",
    "C52_concentric_rejects",
    "C52_offset_one_refuted",
    "C52_circle_empty_refuted",
    "C52_concentric_few_refuted"
   ],
   "note": "Proved for circles with at least one point, rectangles with an offset in [0,1), stacked rectangles, and concentric circles with at least one point per circle. False in three cases, which are proved as refutations: a rectangle with the allowed offset 1 lacks its last point, a circle of zero points divides by zero, and so do concentric circles with fewer points than circles."
  },
  {
   "property": "C53",
   "status": "proved",
   "theorems": [
    "C53_assembly",
    "C53_pairs",
    "C53_exact",
    "C53_directional"
   ],
   "note": "Over the real numbers, for any simulator of shoe box rooms with random state that returns one impulse response per pair; aspsim passes min_dly = 0 (C73)."
  },
  {
   "property": "C54",
   "status": "partial",
   "theorems": [
    "C54_getter_partial",
    "C54_start",
    "C54_unmatched",
    "C54_empty_item",
    "C54_keys_refuted"
   ],
   "note": "For names and keys without dots, brackets and apostrophes. Refuted for dictionary keys with these characters: a dot makes the getter raise, an apostrophe or bracket selects another key."
  },
  {
   "property": "C55",
   "status": "partial",
   "theorems": [
    "C55_warm_up_partial",
    "C55_warm_up_refuted"
   ],
   "note": "What the warm-up does is proved; that every channel gets noise of its own power is false: the power of channel i is used for all channels in round i."
  },
  {
   "property": "C56",
   "status": "proved",
   "theorems": [
    "C56_period"
   ],
   "note": ""
  },
  {
   "property": "C57",
   "status": "partial",
   "theorems": [
    "C57_correlation_partial",
    "C57_correlation_refuted"
   ],
   "note": "True for the orders 5, 6, 7, 9, 11; false for order 10 (and not claimed for 8, where no preferred pairs exist)."
  },
  {
   "property": "C58",
   "status": "proved",
   "theorems": [
    "C58_sine_power"
   ],
   "note": "Exact real arithmetic; the single-sine source with one power."
  },
  {
   "property": "C59",
   "status": "partial",
   "theorems": [
    "C59_single_power_partial",
    "C59_channel_powers_refuted",
    "C59_samples_refuted"
   ],
   "note": "An array with one number works. With one power for each of several channels the request fails, or scales the samples instead of the channels."
  },
  {
   "property": "C60",
   "status": "partial",
   "theorems": [
    "C60_stack",
    "C60_none",
    "C60_made",
    "C60_too_few",
    "C60_amplitude_refuted",
    "C60_noise_refuted"
   ],
   "note": "The channels are stacked and the sources independent; source i is made from amplitude i, too few amplitudes are an IndexError. False: the amplitudes are passed as number of channels."
  },
  {
   "property": "C61",
   "status": "partial",
   "theorems": [
    "C43_again",
    "C61_trajectory_refuted",
    "C61_frequency_refuted"
   ],
   "note": "True for the same setup (C43_again). False in general: trajectories and array_update_freq of the stored session are used."
  },
  {
   "property": "C62",
   "status": "partial",
   "theorems": [
    "C62_load",
    "C62_incomplete",
    "C62_load_refuted"
   ],
   "note": "True without a figure folder. With one the call always fails, because metadata_sim.json is never written."
  },
  {
   "property": "C63",
   "status": "partial",
   "theorems": [
    "C63_paths",
    "C63_moving_refuted"
   ],
   "note": "All stored paths are kept. But all of them count as given, so that a setup with a moving array fails at its first position update."
  },
  {
   "property": "C64",
   "status": "proved",
   "theorems": [
    "C64_collection",
    "C64_errors"
   ],
   "note": ""
  },
  {
   "property": "C65",
   "status": "proved",
   "theorems": [
    "C65_cuboid",
    "C65_rectangle",
    "C65_disc",
    "C65_disc_uniform",
    "C65_cylinder",
    "C65_ball"
   ],
   "note": "Probability is expressed through the numbers of the generator: which number goes where, and that a point of a disc is in a smaller circle exactly if its number is below the quotient of the areas."
  },
  {
   "property": "C66",
   "status": "partial",
   "theorems": [
    "C66_ctor",
    "C66_disjoint",
    "C66_points",
    "C66_no_points",
    "C66_refuted"
   ],
   "note": "Refused exactly if a grid point or one of 100 random points of a region is found in another one; so disjoint regions are accepted, but overlapping ones may be accepted too (C66_refuted)."
  },
  {
   "property": "C67",
   "status": "partial",
   "theorems": [
    "C67_rows",
    "C67_alternate_refuted"
   ],
   "note": "The rows with odd index lie on the larger rectangle and those with even index on the smaller one for all inputs. Going around the rectangle they do not always alternate, because positions on the third side are flipped but the outward shifts are not: refuted with 8 points on a square."
  },
  {
   "property": "C68",
   "status": "proved",
   "theorems": [
    "C68_four",
    "C68_rejects"
   ],
   "note": "Exact reals; the comparison with the tolerance of np.isclose is part of the model, so the side from which a point is moved is the one it is on up to that tolerance."
  },
  {
   "property": "C69",
   "status": "partial",
   "theorems": [
    "C69_sunflower",
    "C69_cylinder",
    "C69_filled_rectangle",
    "C69_filled_rectangle_limits",
    "C69_filled_rectangle_other_limits",
    "C69_filled_rectangle_number",
    "C69_filled_cuboid",
    "C69_filled_cuboid_no_layers",
    "C69_filled_cuboid_number",
    "C69_disc",
    "C69_cylinder_refuted",
    "C69_filled_rectangle_refuted"
   ],
   "note": "All points are inside. The numbers are right for sunflower patterns, and for filled rectangles and cuboids of fewer than 100000 points. False for cylinders if the number is not a multiple of 4, and for filled rectangles of 100490 points, which pass the relative tolerance of the check."
  },
  {
   "property": "C70",
   "status": "partial",
   "theorems": [
    "C70_rotation_refuted",
    "C70_offset_ignored",
    "C70_cylinder_planes"
   ],
   "note": "False: the offset angle is never used, so all planes of a uniform cylinder have the same points."
  },
  {
   "property": "C71",
   "status": "partial",
   "theorems": [
    "C71_truncation",
    "C71_rt60",
    "C71_failed",
    "C71_no_microphones",
    "C71_rt60_refuted"
   ],
   "note": "The truncation numbers cover all pairs. False for the reverberation times: with more than 500 microphones only those of the last batch are reported."
  },
  {
   "property": "C72",
   "status": "proved",
   "theorems": [
    "C72_filter"
   ],
   "note": "The filter itself (butter, sosfiltfilt) is a parameter that keeps the length of its input."
  },
  {
   "property": "C73",
   "status": "proved",
   "theorems": [
    "C73_parameters",
    "C73_empty"
   ],
   "note": ""
  },
  {
   "property": "C74",
   "status": "proved",
   "theorems": [
    "C74_power",
    "C74_wrong_size",
    "C74_comparison",
    "C74_summary"
   ],
   "note": "The mean is stated as: the number of entries times the stored value is the sum of the squares, under exact arithmetic (exact_mean, satisfied by the rationals). The times are those of C15."
  },
  {
   "property": "C75",
   "status": "partial",
   "theorems": [
    "C75_from_zero",
    "C75_intervals",
    "C75_indices",
    "C75_empty",
    "C75_frequency",
    "C75_frequency_refuted"
   ],
   "note": "True for counters made from intervals and indices. A counter made from a frequency announces one value too many unless the frequency divides the number of samples (C75_frequency gives the exact number). Counters without intervals cannot be made (IndexError)."
  },
  {
   "property": "C76",
   "status": "proved",
   "theorems": [
    "C76_history",
    "C76_times"
   ],
   "note": ""
  },
  {
   "property": "C77",
   "status": "partial",
   "theorems": [
    "C77_added",
    "C77_clash",
    "C77_path_refuted",
    "C77_resolved_refuted"
   ],
   "note": "Arrays, order, classes and path types are taken over. False for paths: a path set by the user in the added collection is lost, and is replaced by a generated one, or is missing if the collection's default path type had already been set."
  },
  {
   "property": "C78",
   "status": "partial",
   "theorems": [
    "C78_accepted",
    "C78_refused",
    "C78_unchecked_refuted"
   ],
   "note": "The accepted configurations are characterised exactly. Not all of them can be used: buffer, chunk and update interval may be zero."
  },
  {
   "property": "C79",
   "status": "partial",
   "theorems": [
    "C79_highest",
    "C79_exists_partial",
    "C79_exists_refuted"
   ],
   "note": "The number is the highest one. The returned name is an entry of the folder if numbers are written without leading zeros; otherwise it may not exist. int is modelled on digits only (no signs, spaces, underscores)."
  },
  {
   "property": "C80",
   "status": "proved",
   "theorems": [
    "C80_index",
    "C80_split"
   ],
   "note": "ASCII names."
  },
  {
   "property": "C81",
   "status": "proved",
   "theorems": [
    "C81_earlier",
    "C81_later"
   ],
   "note": "ASCII names."
  },
  {
   "property": "C82",
   "status": "partial",
   "theorems": [
    "C82_accepted",
    "C82_refused",
    "C82_calls",
    "C82_added",
    "C82_offered_partial",
    "C82_unnamed_refuted",
    "C82_defaults_refuted",
    "C82_spectrum_refuted",
    "C82_meaning",
    "C82_array_use"
   ],
   "note": "False in three places: a preprocessing function without __name__ (such as functools.partial) is accepted but every export raises; the default keyword arguments are refused unless there is exactly one export function; the export function 'spectrum' of signal diagnostics always raises."
  },
  {
   "property": "C83",
   "status": "proved",
   "theorems": [
    "C83_order",
    "C83_smooth",
    "C83_smooth_refused",
    "C83_clip",
    "C83_decibel"
   ],
   "note": "Over real numbers; scipy's oaconvolve is taken to be the convolution sum. The decibel laws are for positive values."
  },
  {
   "property": "C84",
   "status": "partial",
   "theorems": [
    "C84_sorted_partial",
    "C84_pixels",
    "C84_too_few",
    "C84_split_row_refuted",
    "C84_close_rows_refuted",
    "C84_missing_refuted"
   ],
   "note": "Proved for grids whose rows lie two rounding units (2e-5) or more apart and whose rows and columns do not straddle a rounding boundary; coordinates are exact rationals. False without these conditions: a row whose float errors straddle a boundary is drawn twice, rows one unit apart raise, and a missing position can go unnoticed."
  },
  {
   "property": "C85",
   "status": "partial",
   "theorems": [
    "C85_written",
    "C85_bounded",
    "C85_fades",
    "C85_files",
    "C85_nothing",
    "C85_no_fade_out_refuted",
    "C85_silent_refuted"
   ],
   "note": "Over real numbers. The gains are given exactly. False in two places: signals of 10 to 19 samples are not faded out, and a silent signal is written as NaN."
  },
  {
   "property": "C86",
   "status": "partial",
   "theorems": [
    "C86_entries",
    "C86_once_partial",
    "C86_underscore_refuted"
   ],
   "note": "The shown entries are characterised exactly for labels without backslashes. False for labels with underscores, which includes all numbered processors: they are repeated."
  },
  {
   "property": "C87",
   "status": "proved",
   "theorems": [
    "C87_responses",
    "C87_refused"
   ],
   "note": "Over real numbers; np.fft.rfft is taken to be the Fourier sum."
  },
  {
   "property": "C88",
   "status": "proved",
   "theorems": [
    "C88_yule_walker",
    "C88_noise_power",
    "C88_recursion",
    "C88_empty"
   ],
   "note": "Over real numbers; a result of scipy's solve_toeplitz is taken to solve its system, and lfilter to be its difference equation."
  },
  {
   "property": "C89",
   "status": "partial",
   "theorems": [
    "C89_loaded_partial",
    "C89_upsampling",
    "C89_mono_refuted",
    "C89_default_rate_refuted",
    "C89_default_channels_refuted",
    "C89_zero_rate"
   ],
   "note": "Proved for files with several channels and explicit arguments, with resample_poly left abstract and simplify_ratio assumed to keep the ratio. False otherwise: files with one channel never load, desired_sr=None always raises, and num_channels=None raises when the rate differs."
  },
  {
   "property": "C90",
   "status": "partial",
   "theorems": [
    "C90_pattern",
    "C90_first",
    "C90_zero",
    "C90_centred",
    "C90_division_refuted"
   ],
   "note": "Over real numbers, for the frequency responses and for the filtering of one pair of signals; the design of the FIR filters (aspcore) is not modelled. A delay is the factor exp(+jkx), as in the module. False where the spacing is a multiple of half the wavelength: the factors divide by zero."
  },
  {
   "property": "C91",
   "status": "partial",
   "theorems": [
    "C91_isolated",
    "C91_config_refuted"
   ],
   "note": "Proved on a heap of source and configuration objects. False for the configuration: all simulators share the setup's SimInfo object, so a later change also reaches simulators made earlier."
  },
  {
   "property": "C92",
   "status": "partial",
   "theorems": [
    "C92_pattern",
    "C92_own",
    "C92_run",
    "C92_shared_refuted"
   ],
   "note": "Proved when no two arrays share a source object; the exact samples are characterised in general. False for shared sources: the arrays get interleaved samples, which depend on the number of samples requested at a time."
  },
  {
   "property": "C93",
   "status": "partial",
   "theorems": [
    "C93_new",
    "C93_nothing",
    "C93_distinct",
    "C93_str_refuted",
    "C93_missing_refuted"
   ],
   "note": "False for a base folder given as a string (AttributeError) and for one that does not exist (FileNotFoundError)."
  },
  {
   "property": "C94",
   "status": "partial",
   "theorems": [
    "C94_merged",
    "C94_processors",
    "C94_summary",
    "C94_summary_file",
    "C94_crash_refuted"
   ],
   "note": "The merging is proved. False for crashes: the file is truncated before it is written, and a truncated file makes every later addition fail. json itself is not modelled."
  },
  {
   "property": "C95",
   "status": "partial",
   "theorems": [
    "C95_sorted",
    "C95_parts",
    "C95_detailed_refuted"
   ],
   "note": "Proved for the default names. False for the detailed names: microseconds are not padded."
  },
  {
   "property": "C96",
   "status": "proved",
   "theorems": [
    "C96_cuboid",
    "C96_cylinder",
    "C96_ball",
    "C96_plane",
    "C96_plane_refused"
   ],
   "note": "Over real numbers. Volumes are specified as integrals of the areas of sections, the area of a disc as the integral of circumferences."
  },
  {
   "property": "C97",
   "status": "partial",
   "theorems": [
    "C97_files",
    "C97_kept_partial",
    "C97_overwritten_refuted",
    "C97_no_folder_partial",
    "C97_no_folder_refuted",
    "C97_unknown_method"
   ],
   "note": "File names are proved, and that exports of different diagnostics, times or kinds do not overwrite each other. False for two functions of one diagnostic that write the same kind of file (the first is overwritten) and for npz, txt and wav exports without a figure folder (AttributeError)."
  },
  {
   "property": "C98",
   "status": "partial",
   "theorems": [
    "C98_time",
    "C98_refused",
    "C98_no_diagnostics",
    "C98_no_responses",
    "C98_legend_partial",
    "C98_legend_refuted",
    "C98_ir_partial",
    "C98_ir_refuted",
    "C98_matshow",
    "C98_text"
   ],
   "note": "matplotlib is not modelled: a figure is what is handed to it. False for the legend of processors with an underscore in their name (one entry per channel) and for impulse responses of different numbers of channels (IndexError)."
  },
  {
   "property": "C99",
   "status": "partial",
   "theorems": [
    "C99_images_partial",
    "C99_no_values",
    "C99_arrays_refuted",
    "C99_arrays_error_refuted"
   ],
   "note": "False if arrays are to be drawn into the image: Array.plot is called without sim_info (TypeError)."
  }
 ]
}