{
 "claims": [
  {
   "property": "C01",
   "status": "proved",
   "theorems": [
    "C01_timing_constraints_tight",
    "C01_tree_timed"
   ],
   "note": "Proved for ASAP and ALAP, one schedule level and whole schedule trees."
  },
  {
   "property": "C02",
   "status": "proved",
   "theorems": [
    "C02_order_independent",
    "C02_any_two_orders"
   ],
   "note": "Any topological order gives the same result as the compiler."
  },
  {
   "property": "C03",
   "status": "proved",
   "theorems": [
    "C03_accepted_only_if_well_founded",
    "C03_unknown_rejected",
    "C03_circular_rejected",
    "C03_well_founded_accepted"
   ],
   "note": "Soundness, exact error and completeness."
  },
  {
   "property": "C04",
   "status": "proved",
   "theorems": [
    "C04_normalisation",
    "C04_earliest_start_is_zero"
   ],
   "note": ""
  },
  {
   "property": "C05",
   "status": "proved",
   "theorems": [
    "C05_back_to_back"
   ],
   "note": "ASAP and ALAP."
  },
  {
   "property": "C06",
   "status": "proved",
   "theorems": [
    "C06_duration",
    "C06_covers_every_execution"
   ],
   "note": "Per schedule level, and for whole trees with all loops unrolled."
  },
  {
   "property": "C07",
   "status": "partial",
   "theorems": [
    "C07_retiming_partial",
    "C07_retiming_refuted",
    "C07_retiming_delay_refuted"
   ],
   "note": "The full property is false of the code (two refutations proved); proved without delays and without a normalising shift."
  },
  {
   "property": "C08",
   "status": "partial",
   "theorems": [
    "C08_add",
    "C08_history",
    "C08_operation_partial",
    "C08_repetitions",
    "C08_mutation_replaces",
    "C08_hash_collision",
    "C08_int_hash"
   ],
   "note": "Label uniqueness, order, immutability of earlier schedulables, resolvability and no-effect failures are proved for every history (incl. failing calls, uuid collisions, mutated operations). That the stored operation is the added one is proved if hashes are injective and operations are not mutated; both assumptions can fail in the program (refuted: mutation of an added sub-schedule; ShiftClockPhase(-1)/(-2) collide)."
  },
  {
   "property": "C09",
   "status": "proved",
   "theorems": [
    "C09_table",
    "C09_exists",
    "C09_untimed",
    "C09_within",
    "C09_iterations_disjoint",
    "C09_schedule_duration",
    "C09_operation_duration"
   ],
   "note": "Rows of timing_table are in bijection with the executions (paths through sub-schedules, loop iterations and info entries), sorted by time; exists iff timed and non-empty; everything lies within the operation's duration. The t0 argument of LoopOperation/ConditionalOperation is ignored by the table (as in the code). Durations are characterised exactly."
  },
  {
   "property": "C10",
   "status": "partial",
   "theorems": [
    "C10_angle_in_range_and_equivalent",
    "C10_canonical",
    "C10_idempotent",
    "C10_rxy_partial",
    "C10_rxy_phi_partial",
    "C10_rxy_minus_180_refuted",
    "C10_rxy_phi_360_refuted"
   ],
   "note": "Proved for Rz; Rxy rounds to 8 decimals after the mapping and can reach -180 (refuted), proved there within the rounding error and for the closed interval."
  },
  {
   "property": "C11",
   "status": "partial",
   "theorems": [
    "C11_merge_partial",
    "C11_distinct_objects",
    "C11_nothing_to_merge",
    "C11_total",
    "C11_three_equal_refuted",
    "C11_elsewhere_refuted",
    "C11_time_order_refuted",
    "C11_schedulables_kept"
   ],
   "note": "Preservation proved for all nested schedules in which no Rz object that accumulates a following Rz is used anywhere else (and in insertion order). FALSE in general, refuted: equal gates are one object (3 x Rz(90) -> 360), merging changes equal gates elsewhere, and insertion order is used instead of time order. Sharing of whole sub-schedule objects is not modelled. No schedulable is added, removed or reordered."
  },
  {
   "property": "C12",
   "status": "partial",
   "theorems": [
    "C12_pulse_limits",
    "C12_balanced_partial",
    "C12_anywhere",
    "C12_alap_refuted",
    "C12_loop_over_schedule_refuted",
    "C12_other_clock_refuted"
   ],
   "note": "Proved for every nesting of schedules, loops and PulseCompensations compiled with the ASAP strategy: amplitude limit, shortest duration on the grid, zero flux over the rows of the timing table. The claim as stated fails for pulses on the port with a clock other than baseband (silently left out), and compilation is rejected for loops over schedules and for the ALAP strategy: these are proved as refutations. Exact rationals instead of floats."
  },
  {
   "property": "C13",
   "status": "partial",
   "theorems": [
    "C13_after_last_pulse_partial",
    "C12_anywhere",
    "C12_other_clock_refuted",
    "C13_negative_delay_refuted"
   ],
   "note": "Proved for all executed baseband pulses on the port, loops unrolled, with the exact start; the compensation pulse may overlap a pulse on the same port with another clock (C12_other_clock_refuted). Also refuted: a compensated body with a negative next_operation_delay (a Measure with apply_acquisition_delay=False) has its compensation pulses start before its last pulse ends; the theorem asks for a non-negative delay of the body itself only."
  },
  {
   "property": "C14",
   "status": "partial",
   "theorems": [
    "C14_wait_takes_exactly",
    "C14_negative_rejected",
    "C14_nonnegative_accepted",
    "C14_immediates_partial",
    "C14_minimum_immediate_refuted"
   ],
   "note": "Exact duration proved; the lower bound of 4 ns on immediates is false of the code (refuted: 65533 ns) and proved for waits whose remainder modulo 65532 is 0 or at least 4."
  },
  {
   "property": "C15",
   "status": "proved",
   "theorems": [
    "C15_program_plays_schedule",
    "C15_runs_deterministic",
    "C15_every_pulse_every_repetition",
    "C15_sequencers_stay_synchronised"
   ],
   "note": "Compiler correctness against a Q1 machine; conditionals with the restrictions of C19."
  },
  {
   "property": "C16",
   "status": "proved",
   "theorems": [
    "C16_late_operation_rejected",
    "C16_late_error"
   ],
   "note": ""
  },
  {
   "property": "C17",
   "status": "partial",
   "theorems": [
    "C17_registers_partial",
    "C17_malformed_rejected",
    "C17_R64_refuted",
    "C17_alias_refuted"
   ],
   "note": "Proved when only names R0..R63 are freed; R64 and other spellings are accepted by the code (refuted in general)."
  },
  {
   "property": "C18",
   "status": "proved",
   "theorems": [
    "C18_loop_bodies_run_exactly_n_times",
    "C15_program_plays_schedule",
    "C18_zero_repetitions_refuted"
   ],
   "note": "n >= 1; 0 repetitions are accepted and loop 2^32 times (refuted outside the property's range)."
  },
  {
   "property": "C19",
   "status": "partial",
   "theorems": [
    "C19_branches_take_equal_time_partial",
    "C19_after_conditional_on_time_partial",
    "C19_body_follows_its_trigger_partial",
    "C19_loop_in_body_refuted",
    "C19_long_body_refuted",
    "C19_short_gap_refuted",
    "C19_ttl_in_body_refuted",
    "C19_latch_reset_in_body_refuted"
   ],
   "note": "False in general (five refutations); proved for bodies of single-instruction operations up to 65528 ns with gaps of 0 or >= 4 ns, and the body plays exactly when the latch of its own trigger address is set."
  },
  {
   "property": "C20",
   "status": "proved",
   "theorems": [
    "C20_updates_removed_safely"
   ],
   "note": "For every control-flow forest, condition outcome and initial state."
  },
  {
   "property": "C21",
   "status": "proved",
   "theorems": [
    "C21_bins_never_shared",
    "C21_append_bins_consecutive",
    "C21_append_bins_distinct",
    "C21_empty_request_refuted",
    "C21_trace_on_binned_refuted"
   ],
   "note": "Allocation histories and the execution of append-mode acquisitions on the machine; requests without indices (loops of 0 repetitions) are outside and refuted."
  },
  {
   "property": "C22",
   "status": "partial",
   "theorems": [
    "C22_capacity_partial",
    "C22_append_capacity_refuted",
    "C22_out_of_indices",
    "C22_too_many_bins"
   ],
   "note": "False of the code in append mode: the repetitions are not counted in the check (refuted); proved for average mode."
  },
  {
   "property": "C23",
   "status": "proved",
   "theorems": [
    "C23_acquisition_indices",
    "C23_no_index_shared",
    "C23_indices_in_time_order",
    "C23_mixed_channel_rejected",
    "C23_explicit_append_refuted",
    "C23_accepted_iff",
    "C23_rejected_with_ValueError",
    "C23_kinds"
   ],
   "note": "Explicit indices are honoured in average mode only; in append mode the code ignores them (refuted as an extra claim)."
  },
  {
   "property": "C24",
   "status": "proved",
   "theorems": [
    "C24_exact_or_rejected",
    "C24_predicate",
    "C24_monotone"
   ],
   "note": ""
  },
  {
   "property": "C25",
   "status": "proved",
   "theorems": [
    "C25_dac",
    "C25_monotone",
    "C25_resolution"
   ],
   "note": ""
  },
  {
   "property": "C26",
   "status": "partial",
   "theorems": [
    "C26_phase_partial",
    "C26_phase_full_turn_refuted",
    "C26_frequency"
   ],
   "note": "The phase word lies in [0, 1e9]; the upper end (a full turn) is reached by rounding (refuted), everything else proved."
  },
  {
   "property": "C27",
   "status": "proved",
   "theorems": [
    "C27_consistent",
    "C27_no_mixing",
    "C27_rejected_iff",
    "C27_shared_external_lo",
    "C27_rf_module"
   ],
   "note": ""
  },
  {
   "property": "C28",
   "status": "proved",
   "theorems": [
    "C28_waveform_table",
    "C28_complex_waveform_table",
    "C28_collision_refuted"
   ],
   "note": "For waveforms without a collision of the hash (an arbitrary function in the model); a collision is not detected (refuted)."
  },
  {
   "property": "C29",
   "status": "partial",
   "theorems": [
    "C29_switch_on_partial",
    "C29_windows_disjoint_and_tight_partial",
    "C29_second_loop_iteration_refuted",
    "C29_bare_body_refuted",
    "C29_open_offset_refuted"
   ],
   "note": "False of the code for later loop iterations, control-flow bodies that are single operations and offsets never reset (three refutations); proved for everything else."
  },
  {
   "property": "C30",
   "status": "partial",
   "theorems": [
    "C30_stacking_partial",
    "C30_end_minus_one_refuted",
    "C30_shape_mismatch_refuted",
    "C30_two_pulses_refuted",
    "C30_reference_magnitude_refuted"
   ],
   "note": "False of the code for arbitrary pulses with an event 1 ns before their end, operations with several pulses and reference magnitudes (refutations); proved for everything else, for square and arbitrary pulses and nested schedules, for every iteration order of the key sets."
  },
  {
   "property": "C31",
   "status": "partial",
   "theorems": [
    "C31_overlap",
    "C31_operation_end",
    "C31_builder",
    "C31_long_square",
    "C31_staircase",
    "C31_staircase_rejects",
    "C31_long_ramp_partial",
    "C31_ramp_offset_doubled"
   ],
   "note": "For every builder history: overlap rejection exactly characterised, offset value at every time, zero at the end. Long square and staircase waveforms for all inputs. The ramp is proved except for a nonzero offset with negligible amplitude and several parts, where the code doubles the offset (C31_ramp_offset_doubled). A staircase with steps of exactly the minimum operation time is rejected (C31_staircase_rejects). Times are exact integers in ns."
  },
  {
   "property": "C32",
   "status": "partial",
   "theorems": [
    "C32_received_partial",
    "C32_matrix",
    "C32_unlisted_port_raises",
    "C32_reuse_loses_compensation",
    "C32_reuse_scales_twice",
    "C32_coincidence",
    "C32_numerical_copied",
    "C32_loop_body_not_compensated",
    "C32_second_pulse_doubled"
   ],
   "note": "Proved for every invertible complex crosstalk matrix and every flat schedule in which each operation is a single amplitude-scaled pulse on a listed port-clock, is used once and does not coincide with a compensation pulse. The full statement is false: five counterexample theorems (operation reuse, coincidence, NumericalPulse, loop bodies) and unlisted ports raise. np.linalg.inv is taken as an exact inverse; nested schedules not modelled. Also refuted: an operation with two pulses has its second pulse played twice."
  },
  {
   "property": "C33",
   "status": "proved",
   "theorems": [
    "C33_relative",
    "C33_start_times",
    "C33_none"
   ],
   "note": "For every list of port-clocks and every table; also the resulting start times of the sequencer programs."
  },
  {
   "property": "C34",
   "status": "partial",
   "theorems": [
    "C34_unprepared",
    "C34_start_partial",
    "C34_start_failing",
    "C34_components",
    "C34_retrieve",
    "C34_failed_prepare_starts_mixture",
    "C34_invalid_prepare_start_silent",
    "C34_removed_component_skipped",
    "C34_last_schedule",
    "C34_stop",
    "C34_retrieve_waits"
   ],
   "note": "All histories: without a prepare, start/retrieve raise and touch nothing; after a successful last prepare, start runs exactly the registered components with instructions, in registration order, each holding the instructions of that schedule; crash points of start; registration invariants; retrieve merges all data or raises. The clause 'a failing prepare does not leave the coordinator able to start' is FALSE of the code and refuted (three theorems)."
  },
  {
   "property": "C35",
   "status": "partial",
   "theorems": [
    "C35_straight_line_acquisitions_apart_partial",
    "C35_close_acquisition_rejected",
    "C35_loop_iterations_refuted"
   ],
   "note": "Proved without control flow; refuted across loop iterations."
  },
  {
   "property": "C36",
   "status": "proved",
   "theorems": [
    "C36_resize",
    "C36_closest_number_ceil"
   ],
   "note": ""
  },
  {
   "property": "C37",
   "status": "proved",
   "theorems": [
    "C37_shift"
   ],
   "note": ""
  },
  {
   "property": "C38",
   "status": "proved",
   "theorems": [
    "C38_loops",
    "C38_program_plays_schedule",
    "C38_forest",
    "C38_forest_events",
    "C38_nothing_lost",
    "C38_time_order",
    "C38_accepted_iff",
    "C38_concurrent_pulse_repeated_refuted",
    "C38_touching_phase_conditional_refuted",
    "C38_foreign_clock_once_refuted",
    "C38_loop_offset_refuted",
    "C38_durations"
   ],
   "note": "C38_loops is the end-to-end statement for schedules of loops; with conditionals, C38_program_plays_schedule gives the same for conditions that all hold or all fail, provided the bodies of the conditionals meet the timing conditions of Q1Spec.node_ok. The refuted theorems show that each hypothesis on the schedule is needed: accepted schedules play a concurrent pulse in every iteration, drop a phase shift that touches a conditional, execute a port-less operation once instead of n times, or repeat half of the body of a loop with a time offset."
  },
  {
   "property": "C39",
   "status": "proved",
   "theorems": [
    "C39_retrieved_bin_is_the_executed_bin",
    "C39_mapping"
   ],
   "note": "One bin register per hardware index (acquisitions of a channel all inside one control flow or all outside)."
  },
  {
   "property": "C40",
   "status": "partial",
   "theorems": [
    "C40_circuit_to_device",
    "C40_sound",
    "C40_complete",
    "C40_unique",
    "C40_device_level",
    "C40_idempotent",
    "C40_known_only",
    "C40_simultaneous",
    "C40_alap_refuted",
    "C40_delay",
    "C40_mux_next_partial",
    "C40_mux_next_refuted",
    "C40_acq_delay_partial",
    "C40_acq_delay_override_refuted",
    "C40_shared_refuted",
    "C40_compensation",
    "C40_compensation_accepted"
   ],
   "note": "Exact characterisation of the pass (sound, complete, unique), also with shared operation objects. Partial because parts of the claim are false of the code: a shared operation whose elements are represented partly by an operation and partly by a schedule loses the schedules at its second place (C40_shared_refuted); overriding acq_delay leaves next_operation_delay at the configured value (C40_acq_delay_override_refuted); a multiplexed measurement takes the longest duration and the most negative delay of different elements, so the next operation can start too early (C40_mux_next_refuted); multiplexed gates cannot be timed with ALAP (C40_alap_refuted). Factories are arbitrary functions; object identities are modelled for operations, not for schedules."
  },
  {
   "property": "C41",
   "status": "partial",
   "theorems": [
    "C41_clocks_added",
    "C41_clocks_present",
    "C41_accepts",
    "C41_accepted",
    "C41_inconsistent",
    "C41_one_frequency_partial",
    "C41_one_frequency_refuted"
   ],
   "note": "Exact, except that one frequency per clock holds only without pulse compensations: the definitions in the body of a pulse compensation are not compared with the others (C41_one_frequency_refuted). Arrays of frequencies and warnings are not modelled."
  },
  {
   "property": "C42",
   "status": "partial",
   "theorems": [
    "C42_addresses",
    "C42_preceded",
    "C42_used",
    "C42_counter",
    "C42_settings",
    "C42_settings_known",
    "C42_resets",
    "C42_unchanged",
    "C42_weighted_refuted",
    "C42_settings_order_refuted",
    "C42_loop_body_refuted",
    "C42_second_acquisition_refuted",
    "C42_unused_refuted"
   ],
   "note": "Proved for schedules in which no labelled acquisition is weighted or is the whole body of a loop, and in which the first acquisition of an operation has a label if any has. Outside of that it is false: see the refutations. Settings are only complete if the trigger count is listed first (C42_settings_known, refuted otherwise)."
  },
  {
   "property": "C43",
   "status": "partial",
   "theorems": [
    "C43_wired",
    "C43_distinct",
    "C43_measure",
    "C43_options",
    "C43_lo",
    "C43_all",
    "C43_mixer",
    "C43_example",
    "C43_refuted_input_first",
    "C43_refuted_shared_lo",
    "C43_refuted_greedy",
    "C43_refuted_dropped",
    "C43_refuted_two_mixers",
    "C43_refuted_laser",
    "C43_order",
    "C43_order_mixers",
    "C43_accept",
    "C43_accept_example",
    "C43_lo_complete",
    "C43_lo_example"
   ],
   "note": "proved: origin, wiring and connectability of every sequencer, distinctness, options, local oscillator, exactly one sequencer with exactly the wired channels for directly wired ports, one behind mixers. False of the code: independence of the order with a local oscillator behind two mixers, every used port gets a sequencer (other neighbours are dropped), one sequencer for a port behind two mixers, all clocks kept behind a laser, whatever fits is accepted (QRC, input listed first).  Also proved: the order does not matter without mixers (with mixers: except for the local oscillator), and a sufficient condition for acceptance."
  },
  {
   "property": "C44",
   "status": "partial",
   "theorems": [
    "C44_t1",
    "C44_ramsey",
    "C44_echo",
    "C44_rabi",
    "C44_rabi_shapes",
    "C44_heterodyne_nco",
    "C44_two_tone_nco",
    "C44_acquisition_staircase",
    "C44_awg_staircase",
    "C44_chevron",
    "C44_chevron_same_qubit",
    "C44_allxy",
    "C44_allxy_table",
    "C44_allxy_index",
    "C44_allxy_index_refuted",
    "C44_readout_calibration",
    "C44_readout_calibration_errors",
    "C44_multiplexing_staircase",
    "C44_nv_dark_esr_nco",
    "C44_nv_dark_esr_nco_repeated",
    "C44_heterodyne",
    "C44_two_tone",
    "C44_rabi_pulse",
    "C44_trace",
    "C44_two_tone_trace",
    "C44_nv_dark_esr",
    "C44_clock_reused",
    "C44_cpmg",
    "C44_cpmg_errors",
    "C44_power_of_two",
    "C44_long_time_trace",
    "C44_cpmg_one_gate_refuted",
    "C44_chevron_overlap_refuted",
    "C44_multiplexing_repetitions"
   ],
   "note": "Every function of the five library modules. Partial because the claim fails in corners, shown by the refutations: AllXY index 21 raises IndexError, one-gate CPMG is 4 ns longer than the echo it is documented to equal, the chevron flux pulse overlaps a longer pi pulse on the other qubit, dark ESR refuses a repeated frequency, equal clocks are refused. Gate durations are those of the device (arbitrary); only measurements delay the next operation."
  },
  {
   "property": "C45",
   "status": "partial",
   "theorems": [
    "C45_round_trip_partial",
    "C45_dict_form_partial",
    "C45_same_document_partial",
    "C45_second_trip_partial",
    "C45_document_stable_partial",
    "C45_exact_partial",
    "C45_operation_equal_partial",
    "C45_schedule_partial",
    "C45_unhashable_operation_refuted",
    "C45_component_object_refuted",
    "C45_int_keys_refuted",
    "C45_keys_collide_refuted",
    "C45_qblox_int_channel_refuted",
    "C45_qblox_str_channel",
    "C45_tuple_channel_refuted",
    "C45_opaque_refuted",
    "C45_class_object_refuted",
    "C45_plain_enum_refuted",
    "C45_reserved_key_refuted",
    "C45_main_class_refuted",
    "C45_legacy_qubits_refuted",
    "C45_nan_refuted",
    "C45_hardware_tables_refuted",
    "C45_tuple_refuted",
    "C45_constant_keys_refuted",
    "C45_duration"
   ],
   "note": "Proved for every storable value: string keys, importable classes, known leaf types, components that are dictionaries. The refuted theorems show exactly what falls outside: integer keys (so a compiled Qblox schedule with integer acquisition channels cannot be retrieved after reading back), other leaf types, unhashable operations and dataclass components (lost silently), classes and plain enumerations, the reserved key, legacy qubits. Python's json printer and parser are trusted to be inverse."
  },
  {
   "property": "C46",
   "status": "partial",
   "theorems": [
    "C46_devices",
    "C46_hdawg",
    "C46_clock",
    "C46_repetitions",
    "C46_covered",
    "C46_uhfqa",
    "C46_early_refuted",
    "C46_overlap_refuted",
    "C46_dropped_refuted",
    "C46_rejected",
    "C46_rate_refuted",
    "C46_acquisitions_apart"
   ],
   "note": "Proved: every device is configured; the program of every AWG plays the rows of its channel, in order, one each, at their clock cycles, repeated as requested, and the counted clock cycles agree with what the statements take. Missing because false (refuted by accepted schedules): a pulse that starts inside a clock cycle is played at its beginning, up to 7 samples early; pulses of a channel may overlap; channels beyond the AWGs of the device or grouping are silently dropped; the sampling rate used for times follows the device's name instead of its type and clock_select."
  },
  {
   "property": "C47",
   "status": "partial",
   "theorems": [
    "C47_shifts",
    "C47_distance",
    "C47_aligned",
    "C47_on_grid",
    "C47_accepts",
    "C47_order_refuted"
   ],
   "note": "Alignment of every acquisition is proved when the schedule lists its acquisitions in the order of their times (in_order); otherwise it is false: C47_order_refuted gives an accepted schedule with an unaligned acquisition, because labels of rows before sorting are used as positions after sorting. The other parts hold for all schedules."
  },
  {
   "property": "C48",
   "status": "partial",
   "theorems": [
    "C48_hdawg",
    "C48_uhfqa",
    "C48_collision_refuted",
    "C48_greedy_refuted",
    "C48_gap_refuted"
   ],
   "note": "Proved for rows whose operation's text has no acq_index and no pulse and acquisition with the same number (unmistakable), or when all rows with the same name have the same description (same_named), and for channels numbered without a gap. Outside these conditions it is false: refuted by accepted schedules."
  },
  {
   "property": "C49",
   "status": "partial",
   "theorems": [
    "C49_results",
    "C49_weights",
    "C49_exclusive"
   ],
   "note": "Weights and exclusiveness are proved for acquisitions that are unmistakable or same_named (see C48, whose C48_collision_refuted shows weights made from a readout pulse); the numbers of results and averages for all schedules."
  },
  {
   "property": "C50",
   "status": "partial",
   "theorems": [
    "C50_timeline",
    "C50_resources",
    "C50_agreed",
    "C50_clock_refuted",
    "C50_twins_refuted",
    "C50_clash_refuted",
    "C50_unnested"
   ],
   "note": "Proved when the hash of an operation is not the key of another one. Refuted: when two subschedules define a clock differently, one definition is used for both (C50_clock_refuted); an operation stored under an older key (compiled gates) and also used in a subschedule is duplicated, which the backend then rejects (C50_twins_refuted)."
  },
  {
   "property": "C51",
   "status": "partial",
   "theorems": [
    "C51_sequencers",
    "C51_frame",
    "C51_unused",
    "C51_module",
    "C51_module_frame",
    "C51_qrc_attenuation_refuted",
    "C51_leftover",
    "C51_stale_cache_refuted",
    "C51_mixture_refuted",
    "C51_accepts",
    "C51_names"
   ],
   "note": "Proved for sequencer and module parameters of the five analog modules, with frame conditions. Refuted parts: a QRC gets attenuation 1 whatever the program says; what an earlier program set stays when the next program says nothing about it; with wrong caches and without force_set_parameters prepare may leave wrong values; a prepare that raises may leave a mixture of two programs. Settings given as dicts (from_dict) are not modelled. C51_accepts: a permissive driver accepts every sensible program; C51_names: only sequencers the module has."
  },
  {
   "property": "C52",
   "status": "partial",
   "theorems": [
    "C52_sideband",
    "C52_unused",
    "C52_qrc",
    "C52_lo",
    "C52_again",
    "C52_calibrated_at_old_lo_refuted",
    "C52_retry_refuted"
   ],
   "note": "Proved: when each calibration runs and with which settings. Refuted: the sideband calibration of a program that also changes the LO frequency runs at the old LO frequency; after a prepare that raised, the retry omits the calibration."
  },
  {
   "property": "C53",
   "status": "partial",
   "theorems": [
    "C53_prepare",
    "C53_start",
    "C53_start_fails",
    "C53_start_unprepared",
    "C53_cleared",
    "C53_run",
    "C53_stop",
    "C53_sync",
    "C53_external",
    "C53_retrieve",
    "C53_accepts",
    "C53_unknown_module",
    "C53_failed_prepare_refuted",
    "C53_sync_refuted"
   ],
   "note": "Proved for calls on the cluster component. Refuted by example: after a prepare that raised, start runs the programs the other modules had before; without stop, unused modules keep waiting for synchronisation. wait_done, is_running and logs are not modelled."
  },
  {
   "property": "C54",
   "status": "proved",
   "theorems": [
    "C54_qtm",
    "C54_qtm_frame",
    "C54_qtm_unused",
    "C54_qtm_names",
    "C54_qtm_accepts"
   ],
   "note": "prepare of the QTM; the example C54_example meets the hypotheses."
  },
  {
   "property": "C55",
   "status": "partial",
   "theorems": [
    "C55_binned",
    "C55_value_unique",
    "C55_channels",
    "C55_coords",
    "C55_trace",
    "C55_digital_trace",
    "C55_distribution",
    "C55_timetag_trace",
    "C55_present",
    "C55_accepts",
    "C55_scope_stored",
    "C55_cluster",
    "C55_append_split",
    "C55_append_split_refuted",
    "C55_distribution_coords",
    "C55_timetag_split"
   ],
   "note": "The clauses on split appending channels, split windows and distributions with user coordinates are refuted (the code raises); several traces on one sequencer are not covered: only the last is stored"
  },
  {
   "property": "C56",
   "status": "partial",
   "theorems": [
    "C56_get_fresh",
    "C56_get_once",
    "C56_get_again",
    "C56_start_needs_upload",
    "C56_stopped",
    "C56_params_none",
    "C56_report",
    "C56_other_gettable_refuted",
    "C56_failed_initialize_refuted",
    "C56_compile_between_refuted",
    "C56_report_breaks_get_refuted",
    "C56_left_running_refuted",
    "C56_report_debug_refuted",
    "C56_report_stale_refuted",
    "C56_get_succeeds",
    "C56_failed_first",
    "C56_stop_error"
   ],
   "note": "Proved for every world and failure; the parts listed as refuted in the statement do not hold of the code. Not modelled: conversion of the dataset to I/Q arrays (quantify_core), a wait that times out, datasets with channels but without values."
  },
  {
   "property": "C57",
   "status": "partial",
   "theorems": [
    "C57_passes",
    "C57_no_state",
    "C57_no_passes",
    "C57_default_config",
    "C57_not_kept_refuted",
    "search_contract"
   ],
   "note": "Proved; schedule objects are whole values (sharing of parts between two schedule objects, which the documentation of keep_original_schedule=False warns about, is not modelled)."
  },
  {
   "property": "C58",
   "status": "partial",
   "theorems": [
    "C58_round_trip",
    "C58_can_save",
    "C58_tuple_channel_does_not_load",
    "C58_empty_port_is_renamed",
    "C58_references_are_lost",
    "C58_reference_history",
    "C58_round_trip_example",
    "C58_reference_lost_refuted",
    "C58_strategy_lost_refuted"
   ],
   "note": "The full property (everything the user set comes back) is false of the code; what is lost is stated in C58_round_trip and refuted by example. qcodes' own checks of names, infinities, JSON text (C45) and mutation of the lists returned by elements() and edges() are not modelled."
  },
  {
   "property": "C59",
   "status": "partial",
   "theorems": [
    "C59_config",
    "C59_settings",
    "C59_clocks_are_defined",
    "C59_edges",
    "C59_isolated",
    "C59_config_after_loading",
    "C59_can_configure",
    "C59_nv_compensation_clock_is_undefined",
    "C59_config_after_loading_example",
    "C59_factories",
    "C59_clocks_used",
    "C59_hadamard_qubit",
    "C59_reference_magnitude",
    "C59_laser_pulses",
    "C59_frequency_accepted"
   ],
   "note": "The claim that every clock used is defined is false for NV centers (C59_nv_compensation_clock_is_undefined). pydantic's validation of the generated configuration is not modelled."
  },
  {
   "property": "C60",
   "status": "partial",
   "theorems": [
    "C60_corrected_once",
    "C60_times_kept",
    "C60_applies",
    "C60_shared_operation_refuted",
    "C60_acquisition_lost_refuted",
    "C60_empty_waveform_refuted",
    "C60_offset_uncorrected_refuted"
   ],
   "note": "Samples are real (not complex) numbers; sampling and filter functions are arbitrary parameters; validation of the configuration by pydantic is a parameter."
  },
  {
   "property": "C61",
   "status": "partial",
   "theorems": [
    "C61_only_overlaps",
    "C61_previous_checked",
    "C61_next_checked",
    "C61_complete_on_one_port_clock",
    "C61_key_names",
    "C61_key_collision_refuted",
    "C61_other_port_hides_refuted",
    "C61_idle_hides_refuted",
    "C61_identical_times_refuted",
    "C61_instant_offset_hides_refuted",
    "C61_loop_cycles_refuted"
   ],
   "note": "The check is not complete in general (refuted); completeness is proved for operations on one port-clock. Rational times."
  },
  {
   "property": "C62",
   "status": "partial",
   "theorems": [
    "C62_arguments",
    "C62_rxy_transmon",
    "C62_rxy_spin",
    "C62_rxy_nv",
    "C62_rz",
    "C62_reset",
    "C62_hadamard",
    "C62_spin_edge_not_implemented",
    "C62_dispersive",
    "C62_measure",
    "C62_optical",
    "C62_optical_lengths",
    "C62_optical_no_delay_refuted",
    "C62_cz",
    "C62_frequency",
    "C62_dispersive_accepts",
    "C62_dispersive_rejects",
    "C62_long_time_trace_rejects",
    "C62_no_delay",
    "C62_frequency_held",
    "C62_no_delay_override_refuted",
    "C62_no_delay_frequency_refuted",
    "C62_frequency_no_delay_refuted",
    "C62_channel_kept",
    "C62_bin_mode_kept",
    "C62_rotation_kept",
    "C62_long_time_trace_channel_refuted",
    "C62_trace_bin_mode_refuted",
    "C62_weighted_rotation_refuted",
    "C62_spin_init"
   ],
   "note": "Every clause proved except those refuted by concrete sessions (suffix _refuted): apply_acquisition_delay=False with an overridden acq_delay or a frequency, and for optical measurements; the channel of LongTimeTrace; the bin mode of Trace; the rotation of WeightedThresholdedAcquisition. Examples in FacExample.v."
  },
  {
   "property": "C63",
   "status": "partial",
   "theorems": [
    "C63_unitary",
    "C63_rz",
    "C63_rxy",
    "C63_rxy_close",
    "C63_rz_sum",
    "C63_rz_inverse",
    "C63_named_gates",
    "C63_hadamard",
    "C63_hadamard_axes",
    "C63_controlled",
    "C63_cnot",
    "C63_symmetric",
    "C63_frame",
    "C63_outcomes",
    "C63_pulses_implement_partial",
    "C63_pulses_implement_refuted"
   ],
   "note": "Rests on the axioms of the reals of the standard library (see DESIGN.md). The last clause is proved for Rz by multiples of 180 degrees and refuted in general, for either sign of the dependence of the axis on the phase of the signal."
  },
  {
   "property": "C64",
   "status": "partial",
   "theorems": [
    "C64_interm",
    "C64_setting",
    "C64_own_oscillator",
    "C64_no_interm_rejected",
    "C64_accepts",
    "C64_agreeing",
    "C64_both_given_refuted",
    "C64_shared_refuted",
    "C64_conflict_refuted",
    "C64_order_refuted"
   ],
   "note": "The property is false in general, and this is proved: options with interm_freq None are always rejected (C64_no_interm_rejected: the oscillator alone cannot be given, although the documentation of ModulationFrequencies does so); if both are given the sum is not compared with the clock; an oscillator shared by two channels is set for the first and the other silently plays elsewhere; different lo_freq for one oscillator are accepted, and which one is used depends on the iteration order of a set. Proved for all inputs: what is set in every accepted case (C64_setting, C64_interm), correctness for a channel with its own oscillator, and that acceptance never depends on the frequencies (C64_accepts). Not modelled: a port and clock connected to several channels; old-style hardware configs."
  },
  {
   "property": "C65",
   "status": "partial",
   "theorems": [
    "C65_instructions",
    "C65_spacing",
    "C65_spacing_entries",
    "C65_new_frequency",
    "C65_played",
    "C65_in_force",
    "C65_before",
    "C65_phase_total",
    "C65_accepted",
    "C65_shared_clock_refuted",
    "C65_order_refuted",
    "C65_downconverter_refuted"
   ],
   "note": "False in general, and this is proved: the entry of a SetClockFrequency is one dictionary for all sequencers, every sequencer writes its NCO frequency into it before any is compiled, so all use that of the LAST sequencer of the clock (C65_instructions says this for all schedules); two ports of one clock with different local oscillators play different frequencies, and which is right depends on their order. With a downconverter the played frequency moves the other way. Proved for all schedules: everything else, and the frequency itself when the sequencers of the clock agree. The number of operations sharing a phase reset with shifts is not composed (C65_phase_total ignores resets). The accepted band between 500 MHz and 500 MHz + 1/8 Hz is not decided by C65_accepted."
  },
  {
   "property": "C66",
   "status": "partial",
   "theorems": [
    "C66_qrm_accepted_iff",
    "C66_qrm_settings",
    "C66_qtm_accepted_iff",
    "C66_qtm_settings",
    "C66_trace_length_partial",
    "C66_threshold_beyond_limit_refuted",
    "C66_two_count_thresholds_refuted",
    "C66_two_durations_refuted",
    "C66_trace_length_refuted",
    "C66_unlabelled_count_refuted",
    "C66_mixed_timetag_refuted"
   ],
   "note": "Partial because the code is false in places, each proved: the threshold that is set (threshold x length) may exceed the hardware limit, two count thresholds on a channel pass next to a ThresholdedAcquisition, durations 1000 and 1000.4 ns share one length, a QTM trace takes the length of the first acquisition of any protocol, an unlabelled ThresholdedTriggerCount and a Timetag next to another protocol are refused on a QTM. Durations and thresholds are rationals."
  },
  {
   "property": "C67",
   "status": "partial",
   "theorems": [
    "C67_accepted_iff",
    "C67_all_pairs",
    "C67_pulse_instants",
    "C67_pulses",
    "C67_acquisition_instants",
    "C67_acquisitions_partial",
    "C67_range",
    "C67_acquisition_refuted",
    "C67_order_refuted",
    "C67_loop_refuted",
    "C67_rounding_refuted"
   ],
   "note": "Partial because the code is false in places, each proved: acquire_timetags 0 is executed 4 ns before the checked end, so an acquisition of 8 ns with different delays is accepted and not executable; the list is ordered by the start of operations, not of their entries; loops are checked once; delays are compared in ps but executed in steps of 1/128 ns. Proved for all lists of representable delays: acceptance iff, all pairs of pulses in order, and acquisitions of 11 ns or more."
  },
  {
   "property": "C68",
   "status": "partial",
   "theorems": [
    "C68_square",
    "C68_ramp",
    "C68_staircase",
    "C68_descending_staircase_refuted",
    "C68_single_step_refuted",
    "C68_sudden_net_zero",
    "C68_sudden_net_zero_too_long",
    "C68_net_zero_uncorrected_refuted",
    "C68_net_zero_short_refuted",
    "C68_rotate",
    "C68_chirp",
    "C68_drag_shape",
    "C68_drag_samples",
    "C68_drag_offset",
    "C68_drag_errors",
    "C68_hermite",
    "C68_hermite_samples",
    "C68_soft_square",
    "C68_soft_square_refuted",
    "C68_soft_square_short"
   ],
   "note": "Partial because the code is false in places, each proved: the clipping of a staircase assumes start <= final, so a descending one is constant; one step divides by zero; a net zero pulse sums to zero only with correction samples and enough of them; the Hann window of two samples is zero, so a softened square of 4 or 5 samples is not a number. Floats are exact rationals or reals; complex amplitudes of square and interpolated_complex_waveform (scipy interp1d) are not modelled."
  },
  {
   "property": "C69",
   "status": "partial",
   "theorems": [
    "C69_played",
    "C69_accepted",
    "C69_table",
    "C69_shared",
    "C69_weights_partial",
    "C69_silent_path_refuted",
    "C69_weights_refuted"
   ],
   "note": "Partial because the code is false in two places, both proved: the gain of a path whose amplitude is between 1/65536 and 1/32768 is 1, not 0, so the other path's waveform comes out there (included in the bound of C69_played); abs(max(w)) accepts weights below -1. The samples of a pulse are arbitrary; the 16-bit rounding of the table itself by the hardware, injected assembly (InlineQ1ASM) and complex weights are not modelled."
  },
  {
   "property": "C70",
   "status": "partial",
   "theorems": [
    "C70_gain",
    "C70_gain_conflict",
    "C70_gain_none",
    "C70_gain_mode",
    "C70_offset",
    "C70_offset_range",
    "C70_output_attenuation",
    "C70_output_agreed",
    "C70_input_attenuation",
    "C70_input_conflict",
    "C70_scope",
    "C70_gain_of_measure_refuted",
    "C70_offset_overwritten_refuted",
    "C70_attenuation_lost_refuted"
   ],
   "note": "Partial because the code is false in three places, all proved: gain of a measure channel, offsets overwritten, attenuation lost; the theorems give exactly what is set instead (the last port-clock of the output wins). Floating point is replaced by rationals (unit conversion of offsets, value % 1)."
  },
  {
   "property": "C71",
   "status": "partial",
   "theorems": [
    "C71_enabled",
    "C71_compensated",
    "C71_debug",
    "C71_range_partial",
    "C71_other",
    "C71_fir_range_refuted",
    "C71_order_refuted",
    "C71_overwritten_refuted",
    "C71_qrc_refuted"
   ],
   "note": "Partial because the code is false in four places, all proved: FIR range (np.any(value) < -2 compares a truth value), order of complex outputs and overwriting (the check looks at output n instead of 2n), IndexError for the QRC. Theorems are for modules with baseband outputs; the marker indices of RF modules are modelled but not judged. Where several described channels compensate the same output differently the last one in the order of a Python set wins; the theorems ask for agreement."
  },
  {
   "property": "C72",
   "status": "partial",
   "theorems": [
    "C72_acquisitions_partial",
    "C72_program",
    "C72_unsupported",
    "C72_gain_conflict",
    "C72_missing_options",
    "C72_unprepared",
    "C72_first_pulse_only_refuted",
    "C72_fifteen_samples_refuted",
    "C72_no_pulse_refuted",
    "C72_underscore_refuted",
    "C72_other_port_refuted",
    "C72_slow_refuted"
   ],
   "note": "Proved under the conditions that the code needs and does not check: connected port names without '_' and 'TRACE', sampling rate of at least 1 GHz, and, if there is a trace, a pulse whose sampled length survives numpy's arange. The full statement is false: a trace shows only the first pulse of the schedule at whatever time it is played, and traces of e.g. 15 samples, traces without pulse, ports with underscores and acquisitions on other ports than q0:res fail or use the wrong input (refuted)."
  },
  {
   "property": "C73",
   "status": "partial",
   "theorems": [
    "C73_time_reference",
    "C73_reference_refused",
    "C73_trigger_accepted",
    "C73_trigger_refused",
    "C73_option_threshold_refuted",
    "C73_no_threshold_refuted",
    "C73_none_threshold_refuted"
   ],
   "note": "The time reference part is proved in full, given that every port-clock combination has a path (C43). The trigger part is proved as an equivalence; the promised 'either via the settings or the hardware options' is false: a threshold in the hardware options only is refused, a missing threshold is accepted if the channel is not connected or the option is None, and then always fails at start (refuted)."
  },
  {
   "property": "C74",
   "status": "partial",
   "theorems": [
    "C74_options",
    "C74_modulation",
    "C74_wiring",
    "C74_inputs",
    "C74_frequency",
    "C74_mixer",
    "C74_acquisitions",
    "C74_accepted_iff",
    "C74_channels",
    "C74_second_output_refuted",
    "C74_demodulation_refuted",
    "C74_qrc_marker_refuted",
    "C74_qrc_input_refuted"
   ],
   "note": "End to end: from options to instrument parameters, for all module types but QTM. Partial because the code is false in places, each proved: complex_output_1 of a QRM-RF may be given to a sequencer but has no default marker (KeyError); an input of a QRM with an intermediate frequency is not demodulated, because it has no outputs; a digital or an input channel of a QRC has its NCO on without a frequency, so the instrument cannot be prepared. Floats are rationals; the frequency theorem has the clock in the resources of the schedule; qasm_hook_func is not modelled. C74_accepted_iff takes the class of a channel name from the model (class_of), not from a separate specification."
  }
 ]
}