# Design

Model and proofs for aspsim (sources in /repo/src/aspsim, read as text, nothing built or run).
Proof assistant: Coq 8.16.1 with its standard library only.  No plugins, no own axioms, no functors.

## 1. Trusted base

1. **The Coq kernel**.  `coqchk -o` was run by hand over all `*Props` modules as of commit 6134ca6, over MetaProps, PathInfoProps and SaveMetaProps as of commit b685931, and over UnheardProps as of commit e689217: it accepts them and
   reports the four axioms named below and nothing else (no type-in-type, no unsafe fixpoints, no assumed positivity).
2. **What `Print Assumptions` lists for each theorem**; the command stands behind every theorem in the `*Props.v`
   files, so the lists appear in the build log.  The groups are in section 5.  Most theorems are closed.  The others
   use real numbers and get the axioms of Coq's `Reals` library: `sig_forall_dec`, `sig_not_dec`
   (ClassicalDedekindReals), `functional_extensionality_dep`, and in a few cases `Classical_Prop.classic` (used by the
   standard library's trigonometry).  No other axiom occurs.
3. **That the model is the code.**  Each definition in a `*Model.v` file cites file and lines of /repo and says where
   it simplifies.  Section 3 lists which code is modelled and which is not.
4. **The assumptions about external code** in section 4.
5. **The reading of the statements**: the specifications in `*Spec.v` and at the head of the sections of `*Props.v`.

## 2. How the code is modelled

* Python integers are `Z` (`//` and `%` are the rounding-down `Z.div` and `Z.modulo`); zero divisors are errors.
* A numpy array whose last axis is time is a list of *frames*; a frame holds the values of all channels at one time.
  Slices follow numpy: negative indices count from the end, bounds are clipped, an assignment of the wrong number of
  frames is an error unless numpy broadcasts it (one frame to many).
* Exceptions are values (`res A := Ok a | Err e` in PyBase); an error ends the function.
* `while` loops carry fuel.  Running out is the separate error `OutOfFuel`.  It is proved not to happen, for the block
  sizes (C31) under the condition that the block size is positive, which is when the loop of the code ends.
* Dicts are association lists in insertion order.
* Floating point: theorems about the movement of samples hold for any type of samples with any `add` and `mul` (no
  algebraic law is used), so they hold for floats as well.  Averages (C18) ask for the laws of exact arithmetic as an
  explicit hypothesis with the rational numbers as instance.  Geometry, sines and room acoustics are proved over the real
  numbers; rounding is not modelled there.
* External code is a field of a class or a section variable, so the theorems hold for all behaviours, except where
  section 4 names a concrete model.
* The unbounded parts are unbounded: any number of arrays, channels, samples, diagnostics, steps.

Files in rocq/theories: `PyBase`, `PyLemmas`, `PyStr`, `PyStrLemmas` python primitives; `*Model` the code; `*Spec` the
specifications; `*Refine`, `*Run`, `*Law`, `*Inv`, `*Start`, `*Proofs` lemmas; `Demo*` concrete experiments used in examples;
`*Props` the property theorems with `Print Assumptions`, and Examples that concrete cases meet the hypotheses.  Beside a theorem with
hypotheses stands an Example (`..._meets` or `..._example`) of a concrete case; sometimes one serves several theorems of a
property.

The central proof: `SimModel` follows the code (cyclic buffers, chunks, resets, negative slices).  `SimSpec` defines a
simulator on an unbounded timeline without buffers.  `SimRefine`/`SimRun` prove that every run of the first one agrees
with the second one, `SignalLaw`, `RunLaw`, `DiagRun` derive the laws for signals and diagnostics from it.

A property that the code does not have is still stated as a user would expect it.  A theorem `..._refuted` then gives
a witness (or shows that it always fails), and the part that holds is proved, named `..._partial` or stated as the exact
behaviour.  The status in MANIFEST.json is then `partial`.

Wrong programs: `seeded/LOG.jsonl` lists edits of the model that were tried, which theorems failed, and what was
tightened when none did.

## 3. Code that is modelled, and code that is not

A function counts as modelled when a definition of a `*Model.v` file cites lines of it.  The table is generated from these
citations.  A citation does not mean that every line is modelled: the comment at the definition says what is left out, in
general drawing, printing, profiling and, outside MetaModel, PathInfoModel, SaveMetaModel and SetupModel, metadata.  The functions in the last column are not modelled.
Four remarks:

* Accessors such as `__getitem__` and `__iter__` have no definition of their own; dict operations stand for them.
* `SimulatorSetup.add_*`, `set_path` and `set_source` (simulator.py 73-154) only forward to the collection, whose functions
  are modelled; the forwarding itself is not.
* The eigenvalue diagnostics, `RecordFilter` and `RecordFilterDifference` are modelled as diagnostics that store the value of
  an arbitrary function of the processor.  What this function computes (an eigenvalue, a difference of filters) is not
  modelled.
* The design of filters and of directivities is not modelled; filters are parameters.

| file (src/aspsim/) | modelled | model file | not modelled |
|---|---|---|---|
| array.py | ArrayCollection.__init__ 39-51, ArrayCollection.__getitem__ 53-54, ArrayCollection.__iter__ 56-58, ArrayCollection.__contains__ 60-61, ArrayCollection.save_metadata 63-73, ArrayCollection._save_metadata_arrays 75-80, ArrayCollection._save_metadata_paths 82-87, ArrayCollection._save_readable_pos 89-94, ArrayCollection.set_default_path_type 97-109, ArrayCollection.empty 111-114, ArrayCollection.mic_src_combos 131-135, ArrayCollection.iter_paths 137-141, ArrayCollection.add_array 143-163, ArrayCollection.set_prop_paths 165-177, ArrayCollection.set_prop_path 179-200, ArrayCollection.set_path_types 202-218, ArrayCollection.setup_ir 234-261, ArrayCollection.update_path 264-276, ArrayCollection.update 278-317, ArrayCollection.plot 321-352, ArrayCollection.get_freq_paths 366-405, load_arrays 407-418, prototype_equals 421-458, Array.__init__ 464-538, Array.set_groups 540-550, Array.plot 552-556, Array.update 558-564, MicArray.__init__ 579-580, RegionArray.__init__ 600-615, RegionArray.plot 617-618, ControllableSourceArray.__init__ 634-635, FreeSourceArray.__init__ 655-659, FreeSourceArray.reset_state 661-663, FreeSourceArray.get_samples 665-666, FreeSourceArray.set_source 668-670 | ArrFigModel, ArrayInitModel, ArrayModel, ConstModel, FigModel, FreqModel, IterModel, MetaModel, PathInfoModel, SaveMetaModel, ScriptModel, SessionModel, SetupModel | ArrayCollection.sources 116-119, ArrayCollection.mics 121-124, ArrayCollection.free_sources 126-129, ArrayCollection.save_to_file 354-364 |
| configutil.py | SimulatorInfo.__post_init__ 35-40, SimulatorInfo.save_to_file 43-46, load_from_file 48-54, load_default_config 57-59, equal_audio 62-77 | ConfFileModel, ConfigModel, SessionModel | - |
| counter.py | PhaseCounter.__init__ 34-64, PhaseCounter.next_phase 66-77, PhaseCounter.progress 79-84, PhaseCounter.current_phase_is 86-87, EventCounter.__init__ 109-116, EventCounter.add_event 118-119, EventCounter._check_events 121-125, EventCounter.progress 127-129 | CounterModel | - |
| diagnostics/core.py | Logger.__init__ 53-57, Logger.__contains__ 59-60, Logger.__iter__ 62-64, Logger.items 66-68, Logger.__getitem__ 70-71, Logger.__setitem__ 73-74, Logger.prepare 76-77, Logger.add_diagnostic 79-81, Logger.save_data 83-97, Logger.update_next_export 100-104, Logger.next_export 106-107, Logger.export_this_idx 109-115, Logger.verify_same_export_settings 117-127, Logger.export_single_diag 130-145, Logger.dispatch 148-159, IntervalCounter.__init__ 163-185, IntervalCounter.from_frequency 189-195, IntervalCounter.upcoming 207-208, IntervalCounter.progress 210-215, IndexCounter.__init__ 221-236, IndexCounter.progress 238-239, IndexCounter.upcoming 241-242, IndexCounter.num_idx_until 244-252, Diagnostic.__init__ 257-306, Diagnostic.next_export 308-309, Diagnostic.next_save 311-312, Diagnostic.progress_save 314-315, Diagnostic.progress_export 317-318, Diagnostic.get_processed_output 332-338, SignalDiagnostic.__init__ 349-367, SignalDiagnostic.get_processed_output 369-373, StateDiagnostic.__init__ 381-402, StateDiagnostic.get_processed_output 404-408, InstantDiagnostic.__init__ 418-440, attritemgetter 458-483, get_values_up_to_idx 488-507, get_values_from_selection 509-537 | AccessModel, CallModel, DiagCtorModel, DiagModel, ExportModel, FigModel, LoggerModel, PowerAllModel, SpectrumModel, UpcomingModel | Diagnostic.save 321-322, Diagnostic.get_output 329-330 |
| diagnostics/diagnostics.py | RecordFilter.__init__ 13-22, RecordFilter.save 24-25, RecordFilter.get_output 27-28, RecordSignal.__init__ 82-97, RecordSignal.save 99-109, RecordSignal.get_output 111-112, RecordState.__init__ 124-141, RecordState.save 144-149, RecordState.get_output 151-152, SignalPower.__init__ 158-166, SignalPower.save 168-170, SignalPower.get_output 172-173, SignalPowerRatio.__init__ 177-192, SignalPowerRatio.save 194-201, SignalPowerRatio.get_output 203-204, StatePower.__init__ 209-220, power_of_all_signals 298-305, SoundfieldPower.__init__ 316-349, SoundfieldPower.save 353-354, SoundfieldPower.get_output 356-357 | CallModel, DiagCtorModel, DiagModel, PowerAllModel | RecordFilterDifference.__init__ 34-40, RecordFilterDifference.save 42-43, StatePower.save 223-229, StatePower.get_output 231-232, StateComparison.__init__ 240-250, StateComparison.save 252-259, StateComparison.get_output 261-262, StateSummary.__init__ 271-280, StateSummary.save 283-289, StateSummary.get_output 291-292 |
| diagnostics/diagnosticscollection.py | EigenvaluesOverTime.__init__ 20-35, EigenvaluesOverTime.save 37-47, EigenvaluesOverTime.get_output 49-50, Eigenvalues.__init__ 54-70, Eigenvalues.save 72-78, Eigenvalues.get_output 80-81, SummaryDiagnostic.__init__ 93-113, SignalPowerSpectrum.__init__ 117-141, SignalPowerSpectrum.save 147-151, SignalPowerSpectrum.get_output 154-157, SignalSummary.__init__ 162-176, SignalSummary.save 180-184, SignalSummary.get_output 186-187 | CallModel, DiagCtorModel, DiagModel, SpectrumModel | - |
| diagnostics/diagnosticsummary.py | add_to_summary 8-19, mean_near_time_idx 22-31, SummaryDiagnostic.__init__ 48-69, SignalPowerRatioSummary.__init__ 77-98, SignalPowerSummary.__init__ 111-128, SignalPowerSpectrum.__init__ 143-166 | CallModel, HelperModel, SetupModel | last_value 34-35, SignalPowerRatioSummary.save 100-102, SignalPowerRatioSummary.get_output 106-107, SignalPowerSummary.save 132-133, SignalPowerSummary.get_output 137-138, SignalPowerSpectrum.save 170-174, SignalPowerSpectrum.get_output 177-180 |
| diagnostics/plot.py | delete_earlier_tikz_plot 13-36, tikzplotlib_fix_ncols 38-45, output_plot 48-110, plot_3d_in_2d 127-138, function_of_time_plot 149-175, plot_multiple_channels 177-190, legend_without_duplicates 192-200, savenpz 203-218, txt 221-228, soundfield 232-257, plot_ir 263-299, matshow 301-315, create_audio_files 318-354, spectrum_plot 359-384 | FigModel, FileModel, HelperModel, PlotModel, SpectrumModel, TikzModel | set_basic_plot_look 114-117, remove_axes_and_labels 119-125 |
| diagnostics/preprocessing.py | db_power 10-11, db_amplitude 13-14, clip 41-44, smooth 47-51 | ExportModel, PowerAllModel | linear 7-8, natural_log 16-17 |
| diagnostics/soundfieldplot.py | compare_soundfields 7-35, size_of_2d_plot 38-48, sf_plot 51-97, get_num_pixels 100-105, sort_for_imshow 108-156 | FigModel, HelperModel, PlotModel | - |
| fileutilities.py | get_time_string 6-23, get_unique_folder_name 26-38, get_multiple_unique_folder_names 41-54, get_highest_numbered_file 57-73, find_all_earlier_files 76-96, find_index_in_name 99-110 | FileModel, SetupModel, TikzModel | - |
| processor.py | AudioProcessor.__init__ 11-23, AudioProcessor.prepare 25-26, AudioProcessor.process 29-35, DebugProcessor.__init__ 40-48, DebugProcessor.process 51-62, calc_block_sizes_with_buffer 79-90, find_first_index_for_block 93-101, block_process_until_index 103-117 | PowerAllModel, ProcModel, SimModel, UtilModel | - |
| room/directional.py | differential_cardioid_microphone 8-86 | FreqModel | - |
| room/generatepoints.py | cart2spherical 4-25, spherical2cart 27-49, cart2pol 51-70, pol2cart 72-91, equiangular_circle 94-140, equidistant_rectangle 144-224, concentrical_circles 232-266, uniform_cylinder 272-286, sunflower_pattern 290-300, uniform_disc 303-321, uniform_filled_rectangle 324-341, uniform_filled_cuboid 343-352, four_equidistant_rectangles 355-397, stacked_equidistant_rectangles 400-422, equidistant_rectangle_old 425-464, equidistant_rectangle_for_fewer 467-507 | PointsModel, RectModel, TrajModel | - |
| room/region.py | CombinedRegion.__init__ 30-36, CombinedRegion._overlaps 38-48, CombinedRegion.is_in_region 50-51, CombinedRegion.equally_spaced_points 53-54, CombinedRegion.sample_points 56-66, Cuboid.__init__ 74-81, Cuboid.is_in_region 83-89, Cuboid.equally_spaced_points 91-116, Cuboid.sample_points 118-130, Rectangle.__init__ 138-183, Rectangle.is_in_region 185-210, Rectangle.equally_spaced_points 212-232, Rectangle.sample_points 234-253, Disc.__init__ 262-270, Disc.is_in_region 272-280, Disc.equally_spaced_points 282-302, Disc.sample_points 304-313, Ball.__init__ 322-350, Ball.is_in_region 352-356, Ball.equally_spaced_points 358-366, Ball.sample_points 368-387, Cylinder.__init__ 396-425, Cylinder.is_in_region 427-454, Cylinder.equally_spaced_points 456-480, Cylinder.sample_points 482-500 | RegionModel | Region.__init__ 7-11, Region.is_in_region 14-15, Region.equally_spaced_points 18-19, Region.sample_points 22-23, Region.plot 26-27, CombinedRegion.plot 68-70, Cuboid.plot 132-134, Rectangle.plot 255-257, Disc.plot 315-317, Ball.plot 389-391, Cylinder.plot 502-504 |
| room/roomimpulseresponse.py | PathGenerator.calc_rir_parameters 65-100, PathGenerator.create_path 104-171, filter_rirs 174-180, _cardoid_to_pyroomacoustics 182-191, _directionality_arg_to_pyroomacoustics 193-212, ir_room_image_source_3d 215-361, ir_room_image_source_3d_orig 366-473, calc_truncation_info 476-486, calc_truncation_error 489-495, calc_truncation_value 498-503 | ArrayModel, ConstModel, DirModel, PathInfoModel, RirModel, RirOldModel | PathGenerator.__init__ 39-63, show_rt60 506-511 |
| room/trajectory.py | Trajectory.__init__ 13-15, Trajectory.current_pos 18-30, Trajectory.plot 32-33, TrajectoryCollection.__init__ 39-45, TrajectoryCollection.current_pos 48-49, TrajectoryCollection.plot 51-53, LinearTrajectory.__init__ 56-92, LinearTrajectory._constant_speed_pos_func 94-113, LinearTrajectory._constant_time_pos_func 115-134, LinearTrajectory.plot 136-145, CircularTrajectory.__init__ 186-246, CircularTrajectory.plot 248-262 | ArrFigModel, TrajModel | - |
| saveloadsession.py | save_session 10-17, load_session 19-30, load_from_path 32-39, copy_sim_metadata 41-44, search_for_matching_session 49-58, add_to_sim_metadata 62-70, write_processor_metadata 73-82 | ConfFileModel, SessionModel, SetupModel | - |
| signal/sources.py | Source.__init__ 15-24, SourceArray.__init__ 32-36, SourceArray.get_samples 38-42, Sequence.__init__ 47-71, Sequence.get_samples 73-93, WhiteNoiseSource.__init__ 97-104, WhiteNoiseSource.get_samples 106-109, WhiteNoiseSource.set_power 111-118, SineSource.__init__ 122-139, SineSource.get_samples 141-147, Counter.__init__ 155-161, Counter.get_samples 163-166, MultiSineSource.__init__ 172-193, MultiSineSource.get_samples 195-207, BandlimitedNoiseSource.__init__ 212-232, BandlimitedNoiseSource.get_samples 234-237, BandlimitedNoiseSource.set_power 239-241, PulseTrain.__init__ 251-273, PulseTrain.get_samples 275-282, load_audio_file 288-311, ar_coeffs_from_autocorr 318-333, ar_coeffs_to_transfer_function 335-348, AutocorrSource.__init__ 362-377, AutocorrSource.prepare 379-381, AutocorrSource.get_samples 383-384, MLS.__init__ 399-409, MLS.get_samples 411-415, GoldSequenceSource.__init__ 429-462, GoldSequenceSource.get_samples 464-474, GoldSequenceSource.set_power 476-486 | FreqModel, IterModel, MetaModel, SineModel, SourceModel | Source.get_samples 28-29, LinearChirpSource.__init__ 492-505, LinearChirpSource.nextPhase 507-512, LinearChirpSource.get_samples 514-536 |
| simulator.py | SimulatorSetup.__init__ 14-56, SimulatorSetup.add_arrays 59-68, SimulatorSetup.add_array 73-82, SimulatorSetup.add_free_source 84-99, SimulatorSetup.add_controllable_source 101-112, SimulatorSetup.add_mics 114-125, SimulatorSetup.set_path 127-139, SimulatorSetup.set_source 141-154, SimulatorSetup.create_simulator 166-204, SimulatorSetup._create_fig_folder 206-217, Simulator.__init__ 221-239, Simulator.add_processor 241-252, Simulator._prepare_simulation 254-281, Simulator.run_simulation 284-312, Simulator.diag_moved_from_propagate 314-327, set_unique_processor_names 332-341, Signals.__init__ 351-361, Signals.create_signal 378-394, Signals._reset_signals 396-405, Propagator.__init__ 409-418, Propagator.prepare 420-443, Propagator.propagate 446-476 | ArrayModel, ConfFileModel, ConstModel, IterModel, PowerAllModel, ScriptModel, SessionModel, SetupModel, SimModel, UtilModel | SimulatorSetup.load_from_path 156-164, Simulator.last_block_on_buffer 329-330, Signals.__getitem__ 363-364, Signals.__contains__ 366-367, Signals.items 369-370, Signals.values 372-373, Signals.keys 375-376 |
| utilities.py | calc_block_sizes 4-15 | UtilModel | - |

## 4. Assumed behaviour of external code

* aspcore filters: `create_filter(ir=...)` is the FIR filter with zero initial state, `process` is the convolution sum, filters of
  several inputs and outputs add up over the inputs, `update_ir` keeps the past input (SimModel `fir_*`).
* scipy.signal.max_len_seq: the shift register of `lfsr` in SourceModel; sosfilt and IIR filters: any causal state
  machine per channel.
* numpy random generators: any state machine yielding one number after the other, arrays filled in C order; uniform
  numbers lie in [0,1).  Every region has a generator of its own.
* pyroomacoustics: a function with state that may raise; on success it returns one impulse response for each microphone
  and source.  The high-pass filter keeps the length (where a theorem needs it this is a hypothesis).
* User code (processors, sources, diagnostics, trajectories): any functions with state that may raise.
* File system: a folder is a list of names; writes are not atomic, a crash may happen between any two operations.
* dill/pickle: reading a complete file yields an equal collection, an incomplete one raises EOFError; yaml: an incomplete
  file lacks arguments of SimulatorInfo.
* copy.deepcopy yields an equal object; of a collection it copies each source object once (SetupModel).
* Except in SetupModel, objects are values: two arrays do not share one source object, two processors do not share one
  diagnostic.  C92 shows what happens when arrays share a source.

## 5. Axioms used

**No axioms** (closed under the global context): C01_convolution, C02_processor, C02_recorded, C02_setup, C03_window, C04_output, C05_requests, C05_stream, C06_calls, C06_loop_ends, C06_one_processor, C06_steps, C07_in_range, C07_small_buffer_refuted, C07_small_chunk_refuted, C07_small_window_refuted, C08_contributions, C08_processor, C08_setup, C08_switched_off, C09_lag, C09_positions, C102_clash, C102_end, C102_one_processor, C102_signals, C103_prefix, C103_setup, C103_signals, C104_recorded, C104_same_end, C105_again, C105_finished, C105_sources, C106_alone_partial, C106_created, C106_loaded_refuted, C106_other_refuted, C107_local, C107_paths, C107_random_refuted, C108_causal, C108_processor, C108_recorded, C109_recorded, C109_signals, C10_started_at_0_partial, C10_started_at_0_refuted, C10_started_before, C110_delay, C111_recorded, C111_same_places, C111_unmoving, C112_grouping, C114_none_random, C115_now, C115_same_place, C116_reciprocity, C118_arrays, C118_consistent, C118_errors, C118_paths, C118_refused, C119_recorded, C119_signals, C11_channel_count, C11_default_interval, C11_no_channel, C11_power, C11_recorded, C120_cleaned, C120_denied, C120_later, C120_nothing, C120_other_file, C123_legends, C124_empty, C124_groups, C124_size, C125_direct, C125_highpass, C127_blocked, C127_changed_refuted, C127_default, C127_errors, C127_loaded, C127_not_saved, C127_saved_partial, C127_searched, C127_tuple_refuted, C128_silence, C129_periodic, C12_all_saved, C12_save_calls, C130_added, C130_after_dispatch, C130_announced, C131_paths, C131_set_up, C131_walk, C132_added, C132_failed, C133_accepted, C133_changed, C133_channels_refuted, C133_refused, C135_no_frequency, C135_power_spectrum, C135_record_signal, C135_record_state, C135_signal_power, C135_signal_power_ratio, C135_signal_summary, C135_summaries_refuted, C136_measured, C137_pulse, C138_all_partial, C138_export_refuted, C138_handler_refuted, C138_taken, C139_two_level, C13_all_exported, C13_export_loop_ends, C13_exports, C13_no_exports, C140_failures, C140_legend, C140_matrix_refuted, C140_power_spectrum, C140_vectors_partial, C141_changed_refuted, C141_groups_refuted, C141_multisine_refuted, C141_no_folder, C141_power_refuted, C141_refused, C141_source_refuted, C141_unwritable, C141_written_partial, C142_kept, C142_reset_refuted, C143_arrow_refuted, C143_entries_partial, C143_file, C143_same, C144_bad_array, C144_bad_path, C144_no_folder, C144_written, C145_silence, C145_unheard, C14_exported, C14_power_exported, C15_documented_partial, C15_refuted, C15_stored, C16_early_export_refuted, C16_exported_partial, C16_selection_partial, C16_selection_refuted, C17_frequencies, C17_instant, C17_no_processor, C18_no_processor, C18_soundfield, C18_soundfield_exported, C18_soundfield_interval, C18_spectrum, C18_spectrum_exported, C18_sum_splits, C18_summary, C18_summary_exported, C19_independent_partial, C19_refuted, C19_stored, C19_unsmoothed_partial, C20_bad_frequency, C20_constructed_ok, C20_frequency_required, C20_state_diagnostics, C20_state_power_refuted, C21_debug, C22_between, C22_events, C22_raises, C23_after_end, C23_current, C23_finished_refuted, C23_no_phase, C23_not_empty, C23_phase_partial, C23_start_idxs, C24_loop, C24_one_channel, C25_amplitude_refuted, C25_end_refuted, C25_modes, C25_no_error, C25_once_partial, C26_counter, C26_counter_channels, C26_pulses, C28_shape, C28_white, C29_autocorr, C29_autocorr_refuted, C29_bandlimited, C29_bandlimited_refuted, C29_fresh, C29_single_autocorr_partial, C29_single_partial, C29_start, C30_errors, C30_gold, C30_gold_powers, C30_mls, C30_mls_channels, C30_orders, C31_blocks, C31_middle, C31_terminates, C31_unique, C31_with_buffer, C32_blocks, C32_zero, C33_distinct, C33_keeps_partial, C33_keeps_refuted, C33_names, C34_unique, C35_names_partial, C35_unused_partial, C35_unused_refuted, C36_crash, C36_crash_refuted, C36_keep_all, C36_later, C36_newest, C36_other_diagnostics, C36_sequence, C36_untouched, C37_always_consistent, C37_collection_consistent, C37_duplicate_rejected, C37_kinds, C37_new_accepted, C38_set_type, C38_types_resolved, C39_empty_array_fails, C39_generation_fails, C39_generation_succeeds, C39_path_accepted, C39_path_stored, C39_setup_ir, C39_shapes, C40_frequency_zero, C40_no_source, C40_no_update_in_between, C40_not_set_up, C40_other_kind, C40_paths_after_update, C40_update_step, C40_user_path_must_not_move, C41_constructor, C41_directivity, C41_groups_partition, C41_refused, C41_set_groups, C41_set_groups_unchecked_refuted, C41_source_matches, C42_cutoff_refuted, C42_given_refuted, C42_paths_partial, C42_random_refuted, C43_again, C43_found, C43_refuted, C43_sources, C44_ends_partial, C44_refuted, C45_no_points, C49_combined_refuted, C54_empty_item, C54_getter_partial, C54_keys_refuted, C54_start, C54_unmatched, C55_warm_up_partial, C55_warm_up_refuted, C56_period, C57_correlation_partial, C57_correlation_refuted, C60_amplitude_refuted, C60_made, C60_noise_refuted, C60_none, C60_stack, C60_too_few, C61_frequency_refuted, C61_trajectory_refuted, C62_incomplete, C62_load, C62_load_refuted, C63_moving_refuted, C63_paths, C64_collection, C64_errors, C66_no_points, C66_points, C69_filled_cuboid_no_layers, C74_comparison, C74_power, C74_summary, C74_wrong_size, C75_empty, C75_frequency, C75_frequency_refuted, C75_from_zero, C75_indices, C75_intervals, C76_history, C76_times, C77_added, C77_clash, C77_path_refuted, C77_resolved_refuted, C78_accepted, C78_refused, C78_unchecked_refuted, C79_exists_partial, C79_exists_refuted, C79_highest, C80_index, C80_split, C81_earlier, C81_later, C82_accepted, C82_added, C82_array_use, C82_calls, C82_defaults_refuted, C82_meaning, C82_offered_partial, C82_refused, C82_spectrum_refuted, C82_unnamed_refuted, C83_order, C84_close_rows_refuted, C84_missing_refuted, C84_pixels, C84_sorted_partial, C84_split_row_refuted, C84_too_few, C86_entries, C86_once_partial, C86_underscore_refuted, C89_default_channels_refuted, C89_default_rate_refuted, C89_loaded_partial, C89_mono_refuted, C89_upsampling, C89_zero_rate, C91_config_refuted, C91_isolated, C92_own, C92_pattern, C92_run, C92_shared_refuted, C93_distinct, C93_missing_refuted, C93_new, C93_nothing, C93_str_refuted, C94_crash_refuted, C94_merged, C94_processors, C94_summary, C94_summary_file, C95_detailed_refuted, C95_parts, C95_sorted, C97_files, C97_kept_partial, C97_no_folder_partial, C97_no_folder_refuted, C97_overwritten_refuted, C97_unknown_method, C98_ir_partial, C98_ir_refuted, C98_legend_partial, C98_legend_refuted, C98_matshow, C98_no_diagnostics, C98_no_responses, C98_refused, C98_time, playing_division.

**sig_forall_dec**: C66_ctor, C66_disjoint, C72_filter, C88_empty.

**sig_forall_dec, functional_extensionality_dep**: C101_circular_partial, C101_circular_refuted, C101_figure_partial, C101_figure_refuted, C114_few, C114_few_places, C114_few_random, C114_old_partial, C114_on_rectangle, C114_random_partial, C114_short_side_refuted, C117_cuboid, C117_rectangle, C121_early_refuted, C121_mean_partial, C122_array, C122_cells, C122_list, C122_one_column, C122_point, C122_rows, C126_bounded, C126_recorded, C48_cuboid_fails, C48_cuboid_grid, C48_cuboid_sample, C48_cuboid_spacing, C48_rectangle_fails, C48_rectangle_grid, C48_rectangle_sample, C49_cuboid, C49_rectangle_partial, C50_cover, C50_inside, C50_none, C50_refuted, C50_reversed_partial, C50_sample, C50_shares, C50_symmetric, C52_offset_one_refuted, C52_on_rectangle, C52_rectangle, C52_rectangle_rejects, C52_stacked, C65_cuboid, C65_rectangle, C66_refuted, C67_alternate_refuted, C67_rows, C68_four, C68_rejects, C73_empty, C73_parameters, C83_clip, C83_smooth, C83_smooth_refused, C85_bounded, C85_fades, C85_files, C85_no_fade_out_refuted, C85_nothing, C85_silent_refuted, C85_written, C88_noise_power, C88_recursion, C88_yule_walker, C90_centred, C98_text, C99_arrays_error_refuted, C99_arrays_refuted, C99_images_partial, C99_no_values.

**sig_forall_dec, sig_not_dec, functional_extensionality_dep**: C101_modes, C101_speed, C101_time_partial, C101_time_refuted, C117_ball_partial, C117_ball_refuted, C117_cylinder_partial, C117_cylinder_refuted, C117_disc_partial, C117_disc_refuted, C117_empty_refuted, C134_steady, C27_multisine, C27_multisine_errors, C27_phase, C27_sine, C30_magnitude, C45_exists, C45_mode, C45_one_point, C45_order, C45_period, C45_points, C45_position, C45_repeated, C45_speed, C46_back, C46_period, C46_refuted, C46_rest, C46_segments_partial, C47_annulus, C47_exists, C47_inner, C47_position, C47_repeats, C47_start, C48_ball_ends, C48_ball_grid, C48_ball_sample, C48_cylinder_grid, C48_cylinder_sample, C48_disc_grid, C48_disc_sample, C49_ball, C49_cylinder, C49_disc_partial, C49_off_plane, C49_plane, C49_refuted, C52_circle, C52_circle_empty_refuted, C52_concentric, C52_concentric_few_refuted, C52_concentric_rejects, C58_sine_power, C59_channel_powers_refuted, C59_samples_refuted, C59_single_power_partial, C65_ball, C65_cylinder, C65_disc, C65_disc_uniform, C69_cylinder, C69_cylinder_refuted, C69_disc, C69_filled_cuboid, C69_filled_cuboid_number, C69_filled_rectangle, C69_filled_rectangle_limits, C69_filled_rectangle_number, C69_filled_rectangle_other_limits, C69_filled_rectangle_refuted, C69_sunflower, C70_cylinder_planes, C70_offset_ignored, C70_rotation_refuted, C87_refused, C87_responses, C90_division_refuted, C90_first, C90_pattern, C96_ball, C96_cuboid, C96_cylinder, C96_plane, C96_plane_refused.

**sig_forall_dec, sig_not_dec, classic, functional_extensionality_dep**: C100_cardioid, C100_none, C100_omni, C100_others_refuted, C100_refused, C113_versions, C51_polar, C51_polar_back, C51_spherical, C51_spherical_back, C53_assembly, C53_directional, C53_exact, C53_pairs, C71_failed, C71_no_microphones, C71_rt60, C71_rt60_refuted, C71_truncation, C83_decibel, C90_zero.


## 6. Properties

Status, model and theorems for each property; the full statements are in properties.jsonl.

* **C01 Recorded microphones are the exact convolution of the recorded sources** — proved; theorems in SignalProps.v: C01_convolution. For all rooms, paths, sources, processors and supported sizes. The microphone array must not be written to by the processor (hypothesis mic_untouched).
* **C02 Buffer and chunk size are invisible in the recorded signals** — proved; theorems in SizeProps.v: C02_setup, C02_recorded, C02_processor. For sources started at time 0: two runs of the same experiment with different sim_buffer and sim_chunk_size, both of supported size, record the same values and leave the processor in the same state. With start_sources_before_0 the number of samples drawn before time 0 depends on sim_buffer by design (C05, C10), so the theorem asks for start_sources_before_0 = false.
* **C03 The processor is handed exactly the recorded past** — proved; theorems in ProcProps.v: C03_window. Stated for any processor wrapped with a log of what every call is handed; the log is compared with the recorded samples.
* **C04 Processor output appears exactly one block later, once, in order** — proved; theorems in ProcProps.v: C04_output. As C03, for controllable sources and the processor's own signals.
* **C05 Free source signals are recorded without loss, duplication or reordering** — proved; theorems in SignalProps.v: C05_requests, C05_stream. C05_requests holds for any generator; C05_stream for generators whose samples do not depend on the sizes of the requests.
* **C06 Processing schedule** — proved; theorems in ProcProps.v: C06_calls, C06_steps, C06_one_processor, C06_loop_ends. Calls are counted by a log kept by the processor; C06_steps gives the number of calls made by every time step.
* **C07 Minimum buffer and chunk sizes** — proved; theorems in SizeProps.v: C07_in_range, C07_small_buffer_refuted, C07_small_window_refuted, C07_small_chunk_refuted. The limits: block_size + 1 <= sim_buffer, block_size - 1 + history <= sim_buffer, sim_chunk_size >= 2 (>= 1 for blocks of one sample), 4 <= sim_buffer without a processor. Inside them every index stays in range in every reachable state. The _refuted theorems are the witnesses asked for by the property that just below the limits the claim fails.
* **C08 Source contributions add up to the microphone signal** — proved; theorems in ContribProps.v: C08_contributions, C08_setup, C08_switched_off, C08_processor. Switching the option off is shown to change no other recording provided the processor itself neither reads contribution signals nor creates signals named like them.
* **C09 Moving arrays: which position each recorded sample uses** — proved; theorems in SignalProps.v: C09_positions, C09_lag.
* **C10 What exists before time 0** — partial; theorems in SignalProps.v: C10_started_before, C10_started_at_0_partial, C10_started_at_0_refuted. Refuted for microphones when sources start at time 0: the value at time 0 fills all earlier buffer samples. The rest is proved.
* **C11 A signal diagnostic stores every requested sample exactly once, with the right value** — proved; theorems in SaveProps, StateProps.v: C11_recorded, C11_default_interval, C11_power, C11_channel_count, C11_no_channel. Any run of run_simulation on a well-formed experiment; channels the diagnostic does not fill stay NaN.
* **C12 Save calls tile the requested intervals** — proved; theorems in SaveProps.v: C12_save_calls, C12_all_saved. Observed by a diagnostic that logs every save call it receives.
* **C13 Every requested export happens exactly once, in order, as soon as the data is complete** — proved; theorems in SaveProps.v: C13_exports, C13_all_exported, C13_no_exports, C13_export_loop_ends. The schedule is proved for non-decreasing export indices, which is what the constructors build from a frequency and what a caller has to pass as a list.
* **C14 Exported signal files contain exactly the samples before the export index** — proved; theorems in SaveProps.v: C14_exported, C14_power_exported.
* **C15 State diagnostics sample the processor state at the documented times** — partial; theorems in StateProps.v: C15_stored, C15_documented_partial, C15_refuted. C15_stored gives number, times and values of what is stored. The value at k*f is the documented one unless a block ends with sample k*f (C15_documented_partial); in that case the claim is false (C15_refuted).
* **C16 State exports contain only values older than the export index** — partial; theorems in StateProps.v: C16_selection_partial, C16_selection_refuted, C16_exported_partial, C16_early_export_refuted. True when some stored value is older than the export index. Otherwise all stored values are returned (refuted, also for exports of a run).
* **C17 Instant diagnostics export the state of their own time index** — proved; theorems in StateProps.v: C17_instant, C17_frequencies, C17_no_processor.
* **C18 Accumulating diagnostics do not depend on how the signal is split into chunks** — proved; theorems in PowerProps, StateProps.v: C18_soundfield, C18_soundfield_interval, C18_no_processor, C18_summary, C18_sum_splits, C18_spectrum, C18_soundfield_exported, C18_summary_exported, C18_spectrum_exported. Under laws of exact arithmetic (exact_sums: associative sum with unit, division distributes); exact_Qc shows that the rationals satisfy them. Rounding is outside the model. SignalSummary for summary functions that add up over pieces, as the default does. The FFT of SignalPowerSpectrum is not modelled: the samples it is applied to are.
* **C19 Smoothed power ratios do not depend on chunking** — partial; theorems in PowerProps.v: C19_stored, C19_independent_partial, C19_unsmoothed_partial, C19_refuted. C19_stored gives the value of every sample. It is the one of the signals alone except for the first smoothing_len - 1 samples of a save call; there it depends on the chunk size (C19_refuted), so the claim holds only without smoothing.
* **C20 Diagnostic constructors honour save and export settings** — partial; theorems in StateProps.v: C20_state_diagnostics, C20_frequency_required, C20_constructed_ok, C20_state_power_refuted, C20_bad_frequency. True for RecordState, StateComparison and StateSummary; StatePower exchanges the two settings (refuted).
* **C21 Debug processor logs equal the recorded signals** — proved; theorems in ProcProps.v: C21_debug.
* **C22 Event counter fires exactly on schedule** — proved; theorems in CounterProps.v: C22_events, C22_raises, C22_between. An event with frequency f fires once per f counted samples, exactly at multiples, whatever the blocks are; blocks that could skip events raise.
* **C23 Phase counter reports the phase containing the current sample** — partial; theorems in CounterProps.v: C23_phase_partial, C23_not_empty, C23_after_end, C23_finished_refuted, C23_no_phase, C23_current, C23_start_idxs. The phase reported is the one whose interval contains the sample, for all finite and infinite phases. The part of the claim about the time after all phases is false: the last non-empty phase is reported forever.
* **C24 Repeating sequence source is a seamless loop** — proved; theorems in SourceProps.v: C24_loop, C24_one_channel, playing_division.
* **C25 Non-repeating sequence source plays the whole sequence once** — partial; theorems in SourceProps.v: C25_once_partial, C25_no_error, C25_modes, C25_end_refuted, C25_amplitude_refuted. Before the last sample the samples are right. False: a request that ends exactly at the end of the sequence already raises, so the last sample can never be played; and the amplitude factor is ignored in this mode.
* **C26 Pulse train and counter sources are determined by absolute time** — proved; theorems in SourceProps.v: C26_pulses, C26_counter, C26_counter_channels.
* **C27 Sine sources are phase continuous** — proved; theorems in SineProps.v: C27_sine, C27_phase, C27_multisine, C27_multisine_errors. Exact real arithmetic.
* **C28 White noise does not depend on request sizes** — proved; theorems in NoiseProps, SourceProps.v: C28_white, C28_shape, playing_division.
* **C29 Filtered noise does not depend on request sizes** — partial; theorems in NoiseProps.v: C29_bandlimited, C29_autocorr, C29_single_partial, C29_single_autocorr_partial, C29_fresh, C29_start, C29_bandlimited_refuted, C29_autocorr_refuted. True for one channel. For several channels false: the random numbers are drawn channel by channel for every request, so another division gives other noise. What is played is proved for all divisions.
* **C30 Gold sequence source** — proved; theorems in GoldProps, SineProps, TightProps.v: C30_orders, C30_mls, C30_mls_channels, C30_gold, C30_magnitude, C30_errors, C30_gold_powers.
* **C31 Block splitting respects block boundaries** — proved; theorems in UtilProps.v: C31_blocks, C31_middle, C31_unique, C31_with_buffer, C31_terminates.
* **C32 Block iteration ends exactly at the requested index** — proved; theorems in UtilProps.v: C32_blocks, C32_zero.
* **C33 Processor names are made unique** — partial; theorems in UtilProps.v: C33_names, C33_keeps_partial, C33_distinct, C33_keeps_refuted. All names differ, every new name extends the old one by the first free number, and the search ends. The part that the first holder of a name keeps it is false: with names 'a', 'a', 'a 1' the only holder of 'a 1' is renamed.
* **C34 Figure and session folders are never reused** — proved; theorems in FileProps.v: C34_unique.
* **C35 Requesting several folder names gives names that are all unused** — partial; theorems in FileProps.v: C35_names_partial, C35_unused_partial, C35_unused_refuted. The names are distinct and the first one is unused. That all are unused is false in general (gap in the numbering), and proved if there is no gap.
* **C36 keep_only_last_export never deletes anything but older exports of the same diagnostic** — partial; theorems in FileProps.v: C36_newest, C36_untouched, C36_other_diagnostics, C36_crash, C36_crash_refuted, C36_later, C36_keep_all, C36_sequence. Everything is proved but for one crash point: an export with the same number as the only existing one overwrites it, and between opening and completing it no complete export exists (C36_crash_refuted). A file name_digits.npz with leading zeros counts as an export of that number.
* **C37 Array collections are consistent** — proved; theorems in ArrayProps.v: C37_collection_consistent, C37_kinds, C37_always_consistent, C37_duplicate_rejected, C37_new_accepted. Histories of add_array and, via the inductive predicate built, of all calls that change a collection.
* **C38 Propagation type resolution** — proved; theorems in ArrayProps.v: C38_types_resolved, C38_set_type. Any reachable collection; defaults applied twice change nothing.
* **C39 User supplied paths are never overwritten by path generation** — proved; theorems in ArrayProps, ErrorProps.v: C39_setup_ir, C39_path_accepted, C39_path_stored, C39_generation_succeeds, C39_generation_fails, C39_shapes, C39_empty_array_fails. The image source generator, numpy.random.normal and the high-pass filter are parameters; their output shape is a hypothesis of C39_shapes. An empty array makes the set-up raise (C39_empty_array_fails) although the code contains a branch for it.
* **C40 Position updates refresh exactly the affected paths** — proved; theorems in ArrayProps.v: C40_update_step, C40_paths_after_update, C40_no_update_in_between, C40_frequency_zero, C40_not_set_up, C40_user_path_must_not_move, C40_no_source, C40_other_kind.
* **C41 Array groups partition the array** — proved; theorems in ArrayInitProps.v: C41_groups_partition, C41_constructor, C41_directivity, C41_refused, C41_set_groups, C41_source_matches, C41_set_groups_unchecked_refuted. Groups made by the constructor. Groups replaced by set_groups are not checked by the code; C41_set_groups_unchecked_refuted shows that the partition can be lost that way.
* **C42 A loaded session is acoustically the session that would have been computed** — partial; theorems in SessionProps.v: C42_paths_partial, C42_cutoff_refuted, C42_random_refuted, C42_given_refuted. Proved under explicit side conditions: close positions/given paths are equal and of equal length, no random paths, equal high-pass cutoff if no path is of type ism. False in general: the cutoff is compared only if some path is ism although direct paths are filtered too; the length of random paths is not compared; np.allclose broadcasts given paths of one sample.
* **C43 A saved session is found again** — partial; theorems in SessionProps.v: C43_found, C43_sources, C43_again, C43_refuted. Proved when all stored sessions can be compared (in particular after the setup itself was saved into the folder, for every listing order). Refuted in general: a stored session with a given path of another length makes np.allclose raise ValueError, which create_simulator does not catch.
* **C44 A crash while saving a session does not break later runs** — partial; theorems in SessionProps.v: C44_refuted, C44_ends_partial. False at every point between mkdir and the completion of config.yaml: each later creation fails (FileNotFoundError or TypeError), for all setups and listing orders. True before mkdir and after the last write.
* **C45 Constant-speed linear trajectories** — proved; theorems in TrajProps.v: C45_position, C45_points, C45_order, C45_period, C45_speed, C45_exists, C45_mode, C45_repeated, C45_no_points, C45_one_point. Over the real numbers (rounding is not modelled). The way is the given points plus the first one again unless np.allclose finds the last one equal to it; consecutive points must differ (otherwise the constructor raises AssertionError, C45_repeated). Distances are proportional to time on each segment and the arrival times are proportional to the way travelled.
* **C46 Constant-time linear trajectories** — partial; theorems in TrajProps.v: C46_segments_partial, C46_rest, C46_back, C46_period, C46_refuted. Equal shares, order and return to the first point are proved, but the share is period / (number of points including the closing one) instead of period / (number of segments): the trajectory rests at its first point in the last share (C46_rest). C46_refuted shows that a segment does not take its share of the period. Real arithmetic.
* **C47 Circular trajectories stay in their annulus** — proved; theorems in TrajProps.v: C47_position, C47_annulus, C47_start, C47_inner, C47_repeats, C47_exists. Over the real numbers; the annulus statement assumes a nonnegative inner radius.
* **C48 Generated points lie inside their region** — proved; theorems in RegionProps.v: C48_cuboid_grid, C48_cuboid_spacing, C48_cuboid_fails, C48_rectangle_grid, C48_rectangle_fails, C48_disc_grid, C48_cylinder_grid, C48_ball_grid, C48_cuboid_sample, C48_rectangle_sample, C48_disc_sample, C48_cylinder_sample, C48_ball_sample, C48_ball_ends. Over the real numbers, for positive spacings and nonnegative sizes. The loop of Ball.sample_points is modelled with a bound; C48_ball_ends says that it ends as soon as enough candidates are in the ball.
* **C49 Region membership is decided point by point** — partial; theorems in RegionProps.v: C49_cuboid, C49_ball, C49_cylinder, C49_plane, C49_rectangle_partial, C49_disc_partial, C49_off_plane, C49_refuted, C49_combined_refuted. True for cuboids, balls, cylinders and for plane regions in two dimensions. False for rectangles and discs in space: one coordinate off the plane makes the answer the scalar False. False for combined regions: is_in_region always raises TypeError.
* **C50 Combined regions are sampled in proportion to volume** — partial; theorems in RegionProps.v: C50_reversed_partial, C50_shares, C50_cover, C50_symmetric, C50_sample, C50_inside, C50_none, C50_refuted. The numbers of points follow the volumes in reversed order of the regions; right exactly when the list of volumes reads the same in both orders. C50_sample: the requested number of points is returned, each from one of the regions.
* **C51 Coordinate conversions are inverse to each other** — proved; theorems in PointsProps.v: C51_polar, C51_polar_back, C51_spherical, C51_spherical_back. Over the exact reals with np.arctan2 defined by quadrants. Conversion and back is the identity for every list of points; the coordinates are the distance and the angles in their ranges. The other direction holds for positive distances and angles in range, off the third axis for spherical coordinates.
* **C52 Point-distribution helpers return the requested number of points on the requested curve** — partial; theorems in PointsProps.v: C52_rectangle, C52_on_rectangle, C52_rectangle_rejects, C52_circle, C52_stacked, C52_concentric, C52_concentric_rejects, C52_offset_one_refuted, C52_circle_empty_refuted, C52_concentric_few_refuted. Proved for circles with at least one point, rectangles with an offset in [0,1), stacked rectangles, and concentric circles with at least one point per circle. False in three cases, which are proved as refutations: a rectangle with the allowed offset 1 lacks its last point, a circle of zero points divides by zero, and so do concentric circles with fewer points than circles.
* **C53 Impulse response assembly is independent of batching** — proved; theorems in RirProps.v: C53_assembly, C53_pairs, C53_exact, C53_directional. Over the real numbers, for any simulator of shoe box rooms with random state that returns one impulse response per pair; aspsim passes min_dly = 0 (C73).
* **C54 Property paths are parsed faithfully** — partial; theorems in AccessProps.v: C54_getter_partial, C54_start, C54_unmatched, C54_empty_item, C54_keys_refuted. For names and keys without dots, brackets and apostrophes. Refuted for dictionary keys with these characters: a dot makes the getter raise, an apostrophe or bracket selects another key.
* **C55 Autocorrelation-shaped noise is warmed up with its own power** — partial; theorems in NoiseProps.v: C55_warm_up_partial, C55_warm_up_refuted. What the warm-up does is proved; that every channel gets noise of its own power is false: the power of channel i is used for all channels in round i.
* **C56 Base sequences of the Gold source have maximal length** — proved; theorems in GoldProps.v: C56_period.
* **C57 Base sequences of the Gold source are preferred pairs** — partial; theorems in GoldProps.v: C57_correlation_partial, C57_correlation_refuted. True for the orders 5, 6, 7, 9, 11; false for order 10 (and not claimed for 8, where no preferred pairs exist).
* **C58 A sine source has the configured power** — proved; theorems in SineProps.v: C58_sine_power. Exact real arithmetic; the single-sine source with one power.
* **C59 A sine source accepts one power per channel** — partial; theorems in SineProps.v: C59_single_power_partial, C59_channel_powers_refuted, C59_samples_refuted. An array with one number works. With one power for each of several channels the request fails, or scales the samples instead of the channels.
* **C60 A source array stacks its sources** — partial; theorems in NoiseProps, SourceProps.v: C60_stack, C60_none, C60_made, C60_too_few, C60_amplitude_refuted, C60_noise_refuted. The channels are stacked and the sources independent; source i is made from amplitude i, too few amplitudes are an IndexError. False: the amplitudes are passed as number of channels.
* **C61 Loading a session does not change the simulation** — partial; theorems in SessionProps.v: C43_again, C61_trajectory_refuted, C61_frequency_refuted. True for the same setup (C43_again). False in general: trajectories and array_update_freq of the stored session are used.
* **C62 A session can be loaded from its path** — partial; theorems in SessionProps.v: C62_load, C62_incomplete, C62_load_refuted. True without a figure folder. With one the call always fails, because metadata_sim.json is never written.
* **C63 A simulator from a loaded setup has the stored paths** — partial; theorems in SessionProps.v: C63_paths, C63_moving_refuted. All stored paths are kept. But all of them count as given, so that a setup with a moving array fails at its first position update.
* **C64 Trajectory collections combine their trajectories** — proved; theorems in TrajProps.v: C64_collection, C64_errors.
* **C65 Random points of regions are spread uniformly** — proved; theorems in RegionProps.v: C65_cuboid, C65_rectangle, C65_disc, C65_disc_uniform, C65_cylinder, C65_ball. Probability is expressed through the numbers of the generator: which number goes where, and that a point of a disc is in a smaller circle exactly if its number is below the quotient of the areas.
* **C66 Combining regions rejects overlap** — partial; theorems in RegionProps.v: C66_ctor, C66_disjoint, C66_points, C66_no_points, C66_refuted. Refused exactly if a grid point or one of 100 random points of a region is found in another one; so disjoint regions are accepted, but overlapping ones may be accepted too (C66_refuted).
* **C67 Extra side lengths place every other point on a larger rectangle** — partial; theorems in PointsProps.v: C67_rows, C67_alternate_refuted. The rows with odd index lie on the larger rectangle and those with even index on the smaller one for all inputs. Going around the rectangle they do not always alternate, because positions on the third side are flipped but the outward shifts are not: refuted with 8 points on a square.
* **C68 Four rectangles layout** — proved; theorems in PointsProps.v: C68_four, C68_rejects. Exact reals; the comparison with the tolerance of np.isclose is part of the model, so the side from which a point is moved is the one it is on up to that tolerance.
* **C69 Filled shapes have the requested number of points inside** — partial; theorems in ErrorProps, PointsProps.v: C69_sunflower, C69_cylinder, C69_filled_rectangle, C69_filled_rectangle_limits, C69_filled_rectangle_other_limits, C69_filled_rectangle_number, C69_filled_cuboid, C69_filled_cuboid_no_layers, C69_filled_cuboid_number, C69_disc, C69_cylinder_refuted, C69_filled_rectangle_refuted. All points are inside. The numbers are right for sunflower patterns, and for filled rectangles and cuboids of fewer than 100000 points. False for cylinders if the number is not a multiple of 4, and for filled rectangles of 100490 points, which pass the relative tolerance of the check.
* **C70 The offset angle rotates a sunflower pattern** — partial; theorems in PointsProps.v: C70_rotation_refuted, C70_offset_ignored, C70_cylinder_planes. False: the offset angle is never used, so all planes of a uniform cylinder have the same points.
* **C71 Metadata of impulse responses covers all pairs** — partial; theorems in RirProps.v: C71_truncation, C71_rt60, C71_failed, C71_no_microphones, C71_rt60_refuted. The truncation numbers cover all pairs. False for the reverberation times: with more than 500 microphones only those of the last batch are reported.
* **C72 The high-pass filter keeps shape and treats each impulse response alone** — proved; theorems in RirProps.v: C72_filter. The filter itself (butter, sosfiltfilt) is a parameter that keeps the length of its input.
* **C73 Parameters of the room model** — proved; theorems in RirProps.v: C73_parameters, C73_empty.
* **C74 State diagnostics store the quantity they are named after** — proved; theorems in StateProps, StateValueProps.v: C74_power, C74_wrong_size, C74_comparison, C74_summary. The mean is stated as: the number of entries times the stored value is the sum of the squares, under exact arithmetic (exact_mean, satisfied by the rationals). The times are those of C15.
* **C75 Interval counters announce the number of values they save** — partial; theorems in StateValueProps, TightProps.v: C75_from_zero, C75_intervals, C75_indices, C75_empty, C75_frequency, C75_frequency_refuted. True for counters made from intervals and indices. A counter made from a frequency announces one value too many unless the frequency divides the number of samples (C75_frequency gives the exact number). Counters without intervals cannot be made (IndexError).
* **C76 Moving arrays keep a complete history of their positions** — proved; theorems in MoveProps.v: C76_history, C76_times.
* **C77 Adding an array collection to a set-up takes over everything set in it** — partial; theorems in AddProps.v: C77_added, C77_clash, C77_path_refuted, C77_resolved_refuted. Arrays, order, classes and path types are taken over. False for paths: a path set by the user in the added collection is lost, and is replaced by a generated one, or is missing if the collection's default path type had already been set.
* **C78 Only usable configurations are accepted** — partial; theorems in ConfigProps.v: C78_accepted, C78_refused, C78_unchecked_refuted. The accepted configurations are characterised exactly. Not all of them can be used: buffer, chunk and update interval may be zero.
* **C79 The highest numbered file is found** — partial; theorems in FileNumProps.v: C79_highest, C79_exists_partial, C79_exists_refuted. The number is the highest one. The returned name is an entry of the folder if numbers are written without leading zeros; otherwise it may not exist. int is modelled on digits only (no signs, spaces, underscores).
* **C80 The index at the end of a name is read completely** — proved; theorems in FileNumProps.v: C80_index, C80_split. ASCII names.
* **C81 Exactly the earlier numbered files are listed** — proved; theorems in FileNumProps.v: C81_earlier, C81_later. ASCII names.
* **C82 Export settings are stored in order or refused** — partial; theorems in ExportProps.v: C82_accepted, C82_refused, C82_calls, C82_added, C82_offered_partial, C82_unnamed_refuted, C82_defaults_refuted, C82_spectrum_refuted, C82_meaning, C82_array_use. False in three places: a preprocessing function without __name__ (such as functools.partial) is accepted but every export raises; the default keyword arguments are refused unless there is exactly one export function; the export function 'spectrum' of signal diagnostics always raises.
* **C83 Preprocessing functions are applied in order and compute what they are named after** — proved; theorems in ExportProps.v: C83_order, C83_smooth, C83_smooth_refused, C83_clip, C83_decibel. Over real numbers; scipy's oaconvolve is taken to be the convolution sum. The decibel laws are for positive values.
* **C84 Sound field values are placed where they were measured** — partial; theorems in PlotProps.v: C84_sorted_partial, C84_pixels, C84_too_few, C84_split_row_refuted, C84_close_rows_refuted, C84_missing_refuted. Proved for grids whose rows lie two rounding units (2e-5) or more apart and whose rows and columns do not straddle a rounding boundary; coordinates are exact rationals. False without these conditions: a row whose float errors straddle a boundary is drawn twice, rows one unit apart raise, and a missing position can go unnoticed.
* **C85 Audio files hold the normalised signal with ramps** — partial; theorems in PlotProps.v: C85_written, C85_bounded, C85_fades, C85_files, C85_nothing, C85_no_fade_out_refuted, C85_silent_refuted. Over real numbers. The gains are given exactly. False in two places: signals of 10 to 19 samples are not faded out, and a silent signal is written as NaN.
* **C86 Legends list every label once** — partial; theorems in PlotProps.v: C86_entries, C86_once_partial, C86_underscore_refuted. The shown entries are characterised exactly for labels without backslashes. False for labels with underscores, which includes all numbered processors: they are repeated.
* **C87 Frequency responses of paths are what a sinusoid sees** — proved; theorems in FreqProps.v: C87_responses, C87_refused. Over real numbers; np.fft.rfft is taken to be the Fourier sum.
* **C88 AR source filters satisfy the Yule-Walker equations** — proved; theorems in FreqProps.v: C88_yule_walker, C88_noise_power, C88_recursion, C88_empty. Over real numbers; a result of scipy's solve_toeplitz is taken to solve its system, and lfilter to be its difference equation.
* **C89 Audio files are loaded with the requested channels and rate** — partial; theorems in FreqProps, TightProps.v: C89_loaded_partial, C89_upsampling, C89_mono_refuted, C89_default_rate_refuted, C89_default_channels_refuted, C89_zero_rate. Proved for files with several channels and explicit arguments, with resample_poly left abstract and simplify_ratio assumed to keep the ratio. False otherwise: files with one channel never load, desired_sr=None always raises, and num_channels=None raises when the rate differs.
* **C90 Two omnidirectional microphones make a cardioid** — partial; theorems in FreqProps.v: C90_pattern, C90_first, C90_zero, C90_centred, C90_division_refuted. Over real numbers, for the frequency responses and for the filtering of one pair of signals; the design of the FIR filters (aspcore) is not modelled. A delay is the factor exp(+jkx), as in the module. False where the spacing is a multiple of half the wavelength: the factors divide by zero.
* **C91 Simulators made from one setup do not influence each other** — partial; theorems in SetupProps.v: C91_isolated, C91_config_refuted. Proved on a heap of source and configuration objects. False for the configuration: all simulators share the setup's SimInfo object, so a later change also reaches simulators made earlier.
* **C92 Every source array plays its source without gaps** — partial; theorems in SetupProps.v: C92_pattern, C92_own, C92_run, C92_shared_refuted. Proved when no two arrays share a source object; the exact samples are characterised in general. False for shared sources: the arrays get interleaved samples, which depend on the number of samples requested at a time.
* **C93 Figure folders are new** — partial; theorems in SetupProps.v: C93_new, C93_nothing, C93_distinct, C93_str_refuted, C93_missing_refuted. False for a base folder given as a string (AttributeError) and for one that does not exist (FileNotFoundError).
* **C94 Metadata files keep everything that was added** — partial; theorems in SetupProps.v: C94_merged, C94_processors, C94_summary, C94_summary_file, C94_crash_refuted. The merging is proved. False for crashes: the file is truncated before it is written, and a truncated file makes every later addition fail. json itself is not modelled.
* **C95 Time strings sort by time** — partial; theorems in SetupProps.v: C95_sorted, C95_parts, C95_detailed_refuted. Proved for the default names. False for the detailed names: microseconds are not padded.
* **C96 Regions have the volume of the points they accept** — proved; theorems in VolumeProps.v: C96_cuboid, C96_cylinder, C96_ball, C96_plane, C96_plane_refused. Over real numbers. Volumes are specified as integrals of the areas of sections, the area of a disc as the integral of circumferences.
* **C97 Exports write one file per export function** — partial; theorems in FigProps.v: C97_files, C97_kept_partial, C97_overwritten_refuted, C97_no_folder_partial, C97_no_folder_refuted, C97_unknown_method. File names are proved, and that exports of different diagnostics, times or kinds do not overwrite each other. False for two functions of one diagnostic that write the same kind of file (the first is overwritten) and for npz, txt and wav exports without a figure folder (AttributeError).
* **C98 Figures show the exported values** — partial; theorems in FigProps.v: C98_time, C98_refused, C98_no_diagnostics, C98_no_responses, C98_legend_partial, C98_legend_refuted, C98_ir_partial, C98_ir_refuted, C98_matshow, C98_text. matplotlib is not modelled: a figure is what is handed to it. False for the legend of processors with an underscore in their name (one entry per channel) and for impulse responses of different numbers of channels (IndexError).
* **C99 Sound field images share their colour limits** — partial; theorems in FigProps.v: C99_images_partial, C99_no_values, C99_arrays_refuted, C99_arrays_error_refuted. False if arrays are to be drawn into the image: Array.plot is called without sim_info (TypeError).
* **C100 Directivities keep their direction when converted** — partial; theorems in DirProps.v: C100_cardioid, C100_omni, C100_none, C100_refused, C100_others_refuted. Over real numbers; the function is not called by the library. False for mixtures of types, which are refused with NotImplementedError.
* **C101 The figure of the arrays shows where they are** — partial; theorems in ArrFigProps.v: C101_speed, C101_modes, C101_time_partial, C101_time_refuted, C101_circular_partial, C101_circular_refuted, C101_figure_partial, C101_figure_refuted. Over real numbers; a figure is what is handed to matplotlib. False for linear trajectories of constant time when the simulation ends within the last share of the first period (nothing is drawn) and for circular trajectories with periods below 1000 samples (ZeroDivisionError in create_simulator).
* **C102 The signals of a simulation** — proved; theorems in SignalsProps.v: C102_signals, C102_end, C102_clash, C102_one_processor. For collections built by add_array (coll_ok) and a positive buffer. A signal of a processor has one channel axis in the model.
* **C103 A longer simulation begins with the shorter one** — proved; theorems in PrefixProps.v: C103_setup, C103_prefix, C103_signals. Both runs are taken to complete; processors are the same objects in both, so a processor that reads tot_samples itself is not covered.
* **C104 Diagnostics do not influence the simulation** — proved; theorems in PrefixProps.v: C104_same_end, C104_recorded. Both runs are taken to complete: a diagnostic that raises stops the simulation.
* **C105 Running a simulator a second time** — proved; theorems in AgainProps.v: C105_finished, C105_again, C105_sources. For diagnostics that do not save beyond tot_samples. The sources are those whose samples do not depend on how many are asked for at a time.
* **C106 Simulators of one process do not disturb each other** — partial; theorems in ConstProps.v: C106_alone_partial, C106_created, C106_other_refuted, C106_loaded_refuted. False as it stands: c and extra_delay reach pyroomacoustics as process-wide constants that only create_simulator sets. C106_other_refuted: a simulator created later with another speed of sound changes the paths that an earlier one computes for its moving arrays. C106_loaded_refuted: a simulator loaded from a session in a new process computes them with the defaults. Proved: a simulator behaves as if alone when all others of the process are created with the same c and extra_delay (C106_alone_partial), and the paths computed on creation are always its own (C106_created). The random generator is kept per collection in the model; that np.random is shared between simulators is not covered.
* **C107 A microphone hears nothing but the sources** — partial; theorems in LocalProps.v: C107_local, C107_paths, C107_random_refuted. Proved for stationary arrays (C107_local), given paths that agree; C107_paths shows that they do agree for generated paths that use no random numbers. For paths of type random it is false (C107_random_refuted): all are drawn one after the other from one generator.
* **C108 Simulations are causal** — proved; theorems in CausalProps.v: C108_causal, C108_recorded, C108_processor. For stationary arrays, and for moving ones whose paths are generated without random numbers.
* **C109 Superposition** — proved; theorems in LinearProps.v: C109_signals, C109_recorded. Samples are exact numbers (a commutative semiring), rounding is not modelled. No processor or a linear one; stationary arrays, or moving ones whose paths do not depend on random numbers.
* **C110 Time invariance** — proved; theorems in LinearProps.v: C110_delay. Samples are exact numbers (a commutative semiring). Stationary arrays, sources that start at time 0, none of them driven by a processor.
* **C111 Only the positions at updates matter** — proved; theorems in MotionProps.v: C111_same_places, C111_recorded, C111_unmoving. Paths are generated without random numbers (the image source method without randomisation, 'direct', 'none') or provided by the user.
* **C112 Grouping, names and order of sources** — proved; theorems in GroupProps.v: C112_grouping. Samples are exact numbers (a commutative semiring), rounding is not modelled. Stationary arrays; the microphone is not written to by the processor.
* **C113 Both versions of the room simulator agree** — proved; theorems in RirOldProps.v: C113_versions. Over real numbers; pyroomacoustics is a parameter (inverse_sabine is assumed to return orders that are not negative). The metadata of the earlier version lacks median and mean reverberation time; measured values stand for the numbers computed from them.
* **C114 The earlier rectangle layouts** — partial; theorems in RectProps.v: C114_old_partial, C114_on_rectangle, C114_few, C114_random_partial, C114_few_random, C114_few_places, C114_none_random, C114_short_side_refuted. Over real numbers. False when a side is shorter than the spacing (C114_short_side_refuted: a 10 by 1 rectangle with 4 points); proved when no side is, for offsets above 0 up to 1 and random numbers other than 0. The library does not call these functions.
* **C115 Moving and stationary microphones in the same place** — proved; theorems in WayProps.v: C115_now, C115_same_place. That room responses depend on the two points only (true of the image source model without randomisation, and of a linear high-pass filter) is a hypothesis about the room simulator, which is outside the model; so is exact arithmetic of samples. Sample 0 uses the places the arrays were created with.
* **C116 Reciprocity of moving sources and microphones** — proved; theorems in WayProps.v: C116_reciprocity. Reciprocity of the room simulator is a hypothesis. For one source and one microphone with one channel each; exact arithmetic of samples.
* **C117 Grids cover their region** — partial; theorems in CoverProps.v: C117_cuboid, C117_rectangle, C117_disc_partial, C117_cylinder_partial, C117_ball_partial, C117_disc_refuted, C117_empty_refuted, C117_cylinder_refuted, C117_ball_refuted. Over real numbers. Proved without conditions for cuboids and rectangles. False of discs, cylinders and balls (the refuted theorems, within the ranges the tests draw from); proved for those whose number of grid points along each round axis is odd, so that one of them is in the middle.
* **C118 From the calls of a script to the arrays of a simulator** — proved; theorems in ScriptProps.v: C118_consistent, C118_arrays, C118_paths, C118_refused, C118_errors. Arrays are microphones or sources (others: C40_other_kind), and a trajectory keeps its number of points. Sessions are left out (C61, C63) and deepcopy is the identity in this model (C91). C118_paths is for scripts that do not add a whole collection (C77) and a default path type other than modified. C118_consistent assumes that the room simulator and the random generator return paths of the shape asked for.
* **C119 A processor that plays nothing changes nothing** — proved; theorems in SilentProps.v: C119_signals, C119_recorded. Both simulations are assumed to run to their end. The test in the repository has a processor that does play, through a loudspeaker without a path to the microphone: that case is an instance of C112_grouping.
* **C120 Removing earlier tikz figures** — proved; theorems in TikzProps.v: C120_cleaned, C120_denied, C120_other_file, C120_nothing, C120_later. Folders within the figures' folders are left out; permissions are parameters. C120_denied and C120_other_file are for one earlier folder. No code in the library asks for it (keep_only_latest_tikz is always False).
* **C121 Mean of the values before a time** — partial; theorems in HelperProps.v: C121_mean_partial, C121_early_refuted. Proved for times from 3000 on and for outputs so short that the slice still begins at their start; false for all times below 3000 of outputs with 3000 samples or more, for which the result is NaN (C121_early_refuted). Over real numbers. Nothing in the library calls the function.
* **C122 What compare_soundfields draws** — proved; theorems in HelperProps.v: C122_list, C122_array, C122_point, C122_rows, C122_cells, C122_one_column. Without arrays_to_plot, which sf_plot cannot draw (C99). numpy's argsort and allclose are parameters, as in C84, and the grid is rectangular in the sense of C84. Nothing in the library calls the function.
* **C123 Legends for tikzplotlib** — proved; theorems in HelperProps.v: C123_legends. Artists are modelled as a tree: no artist has two parents.
* **C124 Drawings of positions** — proved; theorems in HelperProps.v: C124_groups, C124_size, C124_empty. Coordinates are exact multiples of a fraction of the unit of rounding, as in C84.
* **C125 Direct paths are heard unchanged** — proved; theorems in DirectProps.v: C125_direct, C125_highpass. Samples are added and multiplied like exact numbers. The filter is a parameter: C125_highpass assumes that it keeps the shape of the impulse responses and multiplies their first sample by a constant, as causal filters do.
* **C126 Microphones are not louder than the gains of the paths allow** — proved; theorems in BoundProps.v: C126_bounded, C126_recorded. Samples are added and multiplied like exact numbers; the absolute value is any function to the reals with the usual inequalities. The processor may not write to the microphone itself. In the example the bound is attained.
* **C127 Configurations are stored and loaded faithfully** — partial; theorems in ConfFileProps.v: C127_loaded, C127_errors, C127_saved_partial, C127_not_saved, C127_default, C127_searched, C127_blocked, C127_tuple_refuted, C127_changed_refuted. Saving and loading back is false in general: a room size that is a tuple is accepted but makes the saved file unreadable for safe_load, and settings changed after loading are not checked, so that a configuration can be saved that cannot be loaded; such a session stops every search that reaches it (C127_blocked). Proved for acceptable configurations of plain values. yaml is a parameter: dictionaries of plain values are assumed to be read back, those with tuples or objects to be refused.
* **C128 Sound takes its time and dies out** — proved; theorems in DecayProps.v: C128_silence. Samples are added and multiplied like exact numbers. The processor may not write to the microphone itself.
* **C129 Periodic sources are recorded as periodic signals** — proved; theorems in DecayProps.v: C129_periodic. Samples are added and multiplied like exact numbers. The processor may not write to the microphone itself; what loudspeakers play is a hypothesis.
* **C130 The logger announces the next export** — proved; theorems in UpcomingProps.v: C130_announced, C130_after_dispatch, C130_added. Adding after prepare is stated as it is: the announcement is not updated.
* **C131 Walking over a collection visits every array and every path once** — proved; theorems in IterProps.v: C131_walk, C131_paths, C131_set_up.
* **C132 Processors are added in the order of the calls** — proved; theorems in IterProps.v: C132_added, C132_failed.
* **C133 The power of a Gold sequence source can be given in several forms and changed at any time** — partial; theorems in IterProps.v: C133_accepted, C133_changed, C133_refused, C133_channels_refuted. Everything but the last sentence is proved. The last sentence is false of the code: with one channel and several powers the output has a row for each power.
* **C134 A steady sinusoid is recorded with the computed frequency response** — proved; theorems in SteadyProps.v: C134_steady. Samples are added and multiplied like exact numbers and are read as real numbers. The processor may not write to the microphone itself; what loudspeakers play is a hypothesis.
* **C135 The arguments of diagnostics reach the common constructor under their names** — partial; theorems in CallProps.v: C135_record_signal, C135_signal_power, C135_signal_power_ratio, C135_record_state, C135_no_frequency, C135_power_spectrum, C135_signal_summary, C135_summaries_refuted. Python's binding of arguments to parameters is modelled. Everything but the last sentence is proved, with the required arguments given by position. The last sentence is false: the four summary classes of diagnosticsummary.py raise an error whatever they are given, because their constructor passes one argument too many.
* **C136 Impulse responses can be measured with perfect sequences** — proved; theorems in MeasureProps.v: C136_measured. Samples are added and multiplied like exact numbers. The processor may not write to the microphone itself; what loudspeakers play is a hypothesis.
* **C137 A pulse is answered by the impulse response in force** — proved; theorems in PulseProps.v: C137_pulse. Samples are added and multiplied like exact numbers. The impulse response is one that setup_ir makes for the two arrays, see the definition of can_be_in_force; with random numbers it is determined up to the state of the generator. The processor may not write to the microphone itself; what loudspeakers play is a hypothesis.
* **C138 Power diagnostics of all signals of a processor** — partial; theorems in PowerAllProps.v: C138_all_partial, C138_taken, C138_handler_refuted, C138_export_refuted. Holds for names, order and signals, for processors that were given a handler. Refuted for the settings: the block size is passed on as the export times, a leftover of an earlier signature; and AudioProcessor sets no attribute diag, so the function fails with an AttributeError for a processor as it is constructed.
* **C139 Impulse responses can be measured with sequences of two values** — proved; theorems in MlsProps.v: C139_two_level. Samples are added and multiplied like exact numbers. The processor may not write to the microphone itself; what loudspeakers play is a hypothesis.
* **C140 Figures of spectra show one curve for each processor** — partial; theorems in SpectrumProps.v: C140_vectors_partial, C140_legend, C140_failures, C140_power_spectrum, C140_matrix_refuted. For diagnostics whose processed output is a vector. Refuted for matrices with one row per channel: matplotlib draws the columns, one curve for each frequency over the numbers of the channels. That signal diagnostics offer this export though it always fails is C82_spectrum_refuted.
* **C141 The saved metadata describe the arrays** — partial; theorems in MetaProps.v: C141_written_partial, C141_no_folder, C141_unwritable, C141_multisine_refuted, C141_changed_refuted, C141_groups_refuted, C141_source_refuted, C141_power_refuted, C141_refused. For arrays as their constructors make them, and arguments that can be written as json. Refuted for MultiSineSource, whose frequencies are kept as a numpy array: metadata cannot be saved, so no simulator with a figure folder can be created. Refuted after set_source, set_groups and set_power, which do not change the metadata.
* **C142 Source arrays can be reset** — partial; theorems in MetaProps.v: C142_kept, C142_reset_refuted. The array keeps its state, but no class of sources has a method reset, so the call always fails with an AttributeError.
* **C143 The metadata of paths name every pair and its type** — partial; theorems in PathInfoProps.v: C143_same, C143_entries_partial, C143_file, C143_arrow_refuted. For source names without the character '>'; entries of an earlier setup are replaced. Refuted for names with an arrow: two pairs then share a key, and the entry of one is lost. The figures are an uninterpreted function of the room, the random state and the positions; which random state is not stated.
* **C144 save_metadata writes all of its files, in a fixed order** — proved; theorems in SaveMetaProps.v: C144_no_folder, C144_written, C144_bad_array, C144_bad_path. That opening a file may fail is left out, what an unfinished file holds is left open. Positions are lists of rows.
* **C145 Sources whose path has the type none are not heard** — proved; theorems in UnheardProps.v: C145_unheard, C145_silence. Samples are added and multiplied like exact numbers. The filter is a parameter, assumed to turn impulse responses of zeros into impulse responses of zeros. The signals of the sources are those of the reference simulator (RunSpec.v).
