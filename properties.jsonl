{"id": "C01", "title": "ASAP start times satisfy every timing constraint, tightly", "statement": "After compiling a fresh schedule with the ASAP strategy, every schedulable except the first one starts no earlier than the time implied by each of its timing constraints (reference point of the referenced schedulable + rel_time + the referenced operation's next_operation_delay - reference point of the new operation), and starts exactly at the time implied by at least one of them.", "quantifier": "every schedule (any number of schedulables, any constraints with any reference points, relative times and durations) whose references form an acyclic graph", "why_tests_cant": "The set of constraint graphs and real-valued durations/relative times is infinite; tests check a few fixed graphs.", "anchors": ["quantify_scheduler/compilation.py: _determine_absolute_timing_schedule, _get_start_time, _make_timing_constraints_explicit, _apply_operation_delays"]}
{"id": "C02", "title": "Timing does not depend on the topological order chosen", "statement": "The absolute times produced do not depend on which topological order of the reference graph the compiler happens to iterate in: any two topological orders starting with the same schedulable give the same start times.", "quantifier": "every acyclic schedule and every pair of topological orders of its reference graph", "why_tests_cant": "A test observes one order (the one networkx returns); the claim is about all linear extensions.", "anchors": ["quantify_scheduler/compilation.py: _determine_absolute_timing_schedule, _populate_references_graph, _validate_schedulable_references"]}
{"id": "C03", "title": "Unknown or circular references are rejected; a schedule is only timed when its references are well-founded", "statement": "Timing determination returns start times only if every referenced schedulable exists and there is no chain of references leading from a schedulable back to itself; in every other case an error is raised, and schedules with well-founded references never raise one of these errors.", "quantifier": "every schedule with arbitrary reference labels", "why_tests_cant": "Cycles can have any length and pass through any constraint; enumerating them is impossible.", "anchors": ["quantify_scheduler/compilation.py: _validate_schedulable_references, _populate_references_graph"]}
{"id": "C04", "title": "Normalised start times are non-negative and keep relative timing", "statement": "After normalisation no schedulable starts before 0; if some schedulable started before 0 then the earliest one starts exactly at 0; and the difference of any two start times is unchanged.", "quantifier": "every schedule with absolute times, including negative ones, and every pair of schedulables", "why_tests_cant": "Quantifies over all lists of real start times and all pairs.", "anchors": ["quantify_scheduler/compilation.py: _normalize_absolute_timing"]}
{"id": "C05", "title": "Unconstrained operations are played back to back and the duration is the sum", "statement": "A schedule built by adding operations without timing constraints is timed so that each operation starts when the previous one ends, with both the ASAP and (after normalisation) the ALAP strategy, and the total duration is repetitions times the sum of the operation durations.", "quantifier": "every list of operations with non-negative durations and every repetition count", "why_tests_cant": "Arbitrary-length lists of durations.", "anchors": ["quantify_scheduler/compilation.py: _make_timing_constraints_explicit, _get_start_time", "quantify_scheduler/schedules/schedule.py: get_schedule_duration"]}
{"id": "C06", "title": "The reported schedule duration covers every operation and is attained", "statement": "The duration of a timed schedule divided by its repetitions is an upper bound on the end time of every schedulable, it is non-negative, and it is 0 or the end time of some schedulable.", "quantifier": "every timed schedule", "why_tests_cant": "Ranges over all schedules.", "anchors": ["quantify_scheduler/schedules/schedule.py: ScheduleBase.get_schedule_duration", "quantify_scheduler/compilation.py: _determine_absolute_timing_schedule"]}
{"id": "C07", "title": "Determining timing again does not change a schedule", "statement": "Running timing determination and normalisation on a schedule that has already been timed leaves all start times unchanged.", "quantifier": "every schedule accepted by timing determination", "why_tests_cant": "Requires comparing two runs on every schedule; stale state is only visible on particular constraint patterns.", "anchors": ["quantify_scheduler/compilation.py: _determine_absolute_timing_schedule, _apply_operation_delays, _normalize_absolute_timing"]}
{"id": "C08", "title": "Schedule.add keeps labels unique and every schedulable resolvable", "statement": "After any sequence of Schedule.add calls (successful or failing), all labels are distinct, insertion order is preserved, every schedulable's operation is stored in the schedule under the schedulable's operation id, previously added schedulables are untouched, and a failing add changes nothing.", "quantifier": "every finite history of add calls with arbitrary labels, operations and references", "why_tests_cant": "Quantifies over all call histories.", "anchors": ["quantify_scheduler/schedules/schedule.py: Schedule.add, _add, _validate_add_arguments"]}
{"id": "C09", "title": "The timing table lists every loop iteration exactly once at the right time", "statement": "The timing table of a compiled schedule contains, for each pulse or acquisition, exactly one row for each of its executions when all loops are unrolled, with the absolute time equal to the start of that iteration plus the time inside the body.", "quantifier": "every nesting of schedules and loops with any repetition counts", "why_tests_cant": "Arbitrary nesting depth and repetition counts.", "anchors": ["quantify_scheduler/schedules/schedule.py: timing_table, _generate_timing_table_list"]}
{"id": "C10", "title": "Rotation angles are mapped to the equivalent angle in (-180, 180]", "statement": "The angle stored by a rotation gate is congruent to the requested angle modulo 360 degrees and lies in the half-open interval (-180, 180]; applying the mapping twice is the same as once.", "quantifier": "every rational angle", "why_tests_cant": "All rationals.", "anchors": ["quantify_scheduler/operations/gate_library.py: _modulo_360_with_mapping"]}
{"id": "C11", "title": "Merging consecutive Rz gates preserves the accumulated Z rotation", "statement": "Compiling away consecutive Rz gates on the same qubit leaves the total Z rotation applied to each qubit between any two other gates unchanged.", "quantifier": "every gate sequence, including sequences in which the same operation object occurs several times", "why_tests_cant": "Quantifies over all sequences and all sharing patterns of operations; a few literal sequences do not reveal the aliasing.", "anchors": ["quantify_scheduler/compilation.py: _merge_rz_gates, _merge_rz_gates_inner"]}
{"id": "C12", "title": "Compensation pulses cancel the net flux within limits", "statement": "For each compensated port the inserted pulse has |amplitude| at most the configured maximum, its duration is a multiple of the duration grid, and the sum of amplitude x duration over all executed pulses on the port (loops unrolled) plus the compensation pulse is exactly zero.", "quantifier": "every schedule of pulses, sub-schedules and loops, every positive grid and maximum amplitude", "why_tests_cant": "Ranges over all waveform integrals and loop structures.", "anchors": ["quantify_scheduler/pulse_compensation.py: process_compensation_pulses, SumEnd, _determine_sum_and_end, _determine_compensation_pulse"]}
{"id": "C13", "title": "Compensation pulses start after the last pulse on their port", "statement": "The end time the compiler uses to place a compensation pulse is an upper bound for the end of every executed pulse on that port, with loops unrolled.", "quantifier": "every nesting of schedules and loops", "why_tests_cant": "Arbitrary nesting and repetition counts.", "anchors": ["quantify_scheduler/pulse_compensation.py: _determine_sum_and_end, SumEnd"]}
{"id": "C14", "title": "Waits take exactly the requested time and each immediate is legal", "statement": "For every requested wait time the emitted wait instructions (possibly in a counted loop) take exactly that many nanoseconds when executed by the sequencer, and each wait immediate is between 4 and 65532; times between 1 and 3 ns and negative times are rejected.", "quantifier": "every integer wait time", "why_tests_cant": "All integers; boundaries at multiples of 65532 with small remainders are infinitely many.", "anchors": ["quantify_scheduler/backends/qblox/qasm_program.py: QASMProgram.auto_wait"]}
{"id": "C15", "title": "Compiled sequencer programs play every operation at its scheduled time", "statement": "When the generated Q1ASM program is executed, every pulse and acquisition instruction executes, in every loop iteration and every schedule repetition, exactly at its scheduled time relative to the start of that repetition, and successive repetitions start exactly (schedule duration + a fixed 4 ns) apart, on every sequencer.", "quantifier": "every list of operations with grid times, arbitrarily nested loops, all repetition counts", "why_tests_cant": "Compiler correctness: all programs, all loop nestings.", "anchors": ["quantify_scheduler/backends/qblox/compiler_abc.py: SequencerCompiler.generate_qasm_program, _parse_operations", "quantify_scheduler/backends/qblox/qasm_program.py: wait_till_start_operation, wait_till_start_then_play, loop", "quantify_scheduler/backends/qblox/operation_handling/*"]}
{"id": "C16", "title": "Operations that would be late are rejected", "statement": "If an operation is scheduled earlier than the program can reach it, or closer than the minimum instruction time to the previous one, code generation raises an error instead of emitting a late instruction.", "quantifier": "every list of operations", "why_tests_cant": "All timings.", "anchors": ["quantify_scheduler/backends/qblox/qasm_program.py: wait_till_start_operation", "quantify_scheduler/backends/qblox/operation_handling/pulses.py"]}
{"id": "C17", "title": "Register allocation never hands out a live register", "statement": "For every history of allocations and frees, a register returned by allocate is not currently allocated, is one of the 64 existing registers R0..R63, and allocate fails only if all 64 are in use; nested temporary registers are distinct and released.", "quantifier": "every history of allocate_register / free_register calls", "why_tests_cant": "All histories.", "anchors": ["quantify_scheduler/backends/qblox/register_manager.py: RegisterManager"]}
{"id": "C18", "title": "Loops execute their body exactly the requested number of times", "statement": "A loop emitted for n>=1 repetitions executes its body exactly n times and then continues; nested loops use distinct counters that the body does not overwrite.", "quantifier": "every repetition count and body", "why_tests_cant": "Unbounded counts and nesting.", "anchors": ["quantify_scheduler/backends/qblox/qasm_program.py: QASMProgram.loop"]}
{"id": "C19", "title": "Both branches of a conditional take the same time", "statement": "The time taken by a conditional playback block is the same whether or not the trigger condition is met.", "quantifier": "every conditional body", "why_tests_cant": "All bodies.", "anchors": ["quantify_scheduler/backends/qblox/qasm_program.py: QASMProgram.conditional", "quantify_scheduler/backends/qblox/conditional.py: FeedbackTriggerOperator"]}
{"id": "C20", "title": "Removing redundant parameter updates keeps every parameter change effective at the same time", "statement": "Removing update-parameter instructions never changes the time at which any parameter setting takes effect, and never removes anything else.", "quantifier": "every ordered list of operations of a sequencer", "why_tests_cant": "All lists.", "anchors": ["quantify_scheduler/backends/qblox/compiler_abc.py: SequencerCompiler._remove_redundant_update_parameters"]}
{"id": "C21", "title": "Acquisitions of different channels and indices never share a hardware bin", "statement": "Within a sequencer, different acquisition channels get different hardware acquisition indices, and different (acquisition index, loop/schedule repetition) pairs get different bins inside the declared number of bins.", "quantifier": "every history of bin and trace allocations", "why_tests_cant": "All histories of allocations.", "anchors": ["quantify_scheduler/backends/qblox/qblox_acq_index_manager.py: QbloxAcquisitionIndexManager"]}
{"id": "C22", "title": "Bin capacity of the hardware is respected", "statement": "The total number of bins declared never exceeds the hardware capacity and at most 32 acquisition indices are used; a request exceeding it is rejected with an error.", "quantifier": "every history of allocations", "why_tests_cant": "All histories.", "anchors": ["quantify_scheduler/backends/qblox/qblox_acq_index_manager.py: allocate_bins, allocate_qblox_index"]}
{"id": "C23", "title": "Acquisition indices are unique and contiguous per channel", "statement": "For every schedule the compiler assigns to each binned acquisition (each loop iteration in append mode) an acquisition index so that per channel the indices in use are exactly 0..n-1, each with its own coordinates, and no two acquisitions of a channel share an index; a channel used with two different protocols or bin modes is rejected.", "quantifier": "every schedule tree with loops, conditionals and any mix of explicit and implicit indices", "why_tests_cant": "All trees.", "anchors": ["quantify_scheduler/helpers/generate_acq_channels_data.py: generate_acq_channels_data"]}
{"id": "C24", "title": "Grid rounding is exact or rejected", "statement": "Converting a time to the hardware grid returns an integer number of ns that is a multiple of the grid and differs from the given time by at most the tolerance of 1.1 ps; any other time raises an error.", "quantifier": "every rational time and positive grid", "why_tests_cant": "All rationals.", "anchors": ["quantify_scheduler/backends/qblox/helpers.py: to_grid_time"]}
{"id": "C25", "title": "Amplitude to DAC code conversion is range safe and monotone", "statement": "Every amplitude within [-1,1] maps to a signed 16 bit code, monotonically, with error at most half a step except at full scale; other amplitudes raise an error.", "quantifier": "every rational amplitude", "why_tests_cant": "All rationals.", "anchors": ["quantify_scheduler/backends/qblox/qasm_program.py: QASMProgram.expand_awg_from_normalised_range"]}
{"id": "C26", "title": "NCO phase and frequency words are in range and faithful", "statement": "The NCO phase argument is in the legal range and represents the phase modulo 360 degrees within half a step; the frequency argument represents the frequency within an eighth of a Hz and out-of-range frequencies are rejected.", "quantifier": "every rational phase and frequency", "why_tests_cant": "All rationals.", "anchors": ["quantify_scheduler/backends/qblox/helpers.py: get_nco_phase_arguments, get_nco_set_frequency_arguments"]}
{"id": "C27", "title": "Clock, LO and intermediate frequency are consistent", "statement": "Whenever the compiler determines the frequencies with mixing enabled, LO + IF equals the (downconverted) clock frequency, exactly if one of them was free and within the comparison tolerance if the user gave both, and any user-given LO or IF is kept; without mixing the LO is the clock frequency; several port-clocks sharing an LO get the same LO; exactly the under- or over-determined settings and impossible downconversions are rejected.", "quantifier": "every combination of given/absent frequencies", "why_tests_cant": "All rationals.", "anchors": ["quantify_scheduler/backends/qblox/helpers.py: determine_clock_lo_interm_freqs"]}
{"id": "C28", "title": "Waveform table indices are unique and shared only by equal waveforms", "statement": "After any sequence of waveform insertions each waveform has one index, different entries have different indices, an insertion of an existing waveform reuses it, and previously returned indices remain valid.", "quantifier": "every sequence of insertions", "why_tests_cant": "All histories.", "anchors": ["quantify_scheduler/backends/qblox/helpers.py: add_to_wf_dict_if_unique, generate_waveform_dict"]}
{"id": "C29", "title": "The RF switch is on during every microwave pulse", "statement": "With automatic RF switching, at every instant during which a microwave pulse plays on a port (with ramp buffer before and after, clipped at time 0) the switch of that port is on, and the inserted switch windows of a port-clock do not overlap and are separated by more than zero time.", "quantifier": "every schedule and every non-negative ramp buffer", "why_tests_cant": "All interval sets; loop iterations.", "anchors": ["quantify_scheduler/backends/qblox/auto_rf_switch.py: auto_rf_switch_dressing, _merge_pulses_into_windows, _collect_all_mw_events_recursive, _insert_rf_switch_operation"]}
{"id": "C30", "title": "Pulse stacking preserves the played waveform", "statement": "Replacing overlapping square pulses by stacked ones leaves the sum of amplitudes at every instant unchanged, and the stacked pulses do not overlap.", "quantifier": "every set of pulses on a port-clock", "why_tests_cant": "All sets of intervals and all instants.", "anchors": ["quantify_scheduler/backends/qblox/stack_pulses.py: stack_pulses, _construct_pulses_by_interval, _stack_square_pulses"]}
{"id": "C31", "title": "Stitched pulses have the requested waveform and end at zero offset", "statement": "Long square, staircase and ramp pulses built from voltage offsets produce at each sample exactly the requested amplitude, and the voltage offset is zero at the end; offsets that overlap in time are rejected.", "quantifier": "every amplitude, duration, part duration and builder call history", "why_tests_cant": "All durations and amplitudes.", "anchors": ["quantify_scheduler/backends/qblox/operations/pulse_factories.py", "quantify_scheduler/backends/qblox/operations/stitched_pulse.py: StitchedPulseBuilder"]}
{"id": "C32", "title": "Crosstalk compensation yields the requested amplitudes", "statement": "After compensation the amplitude seen at each port, i.e. the sum over driving ports of driven amplitude times crosstalk, equals the amplitude the user asked for.", "quantifier": "every crosstalk matrix and schedule of pulses", "why_tests_cant": "All matrices and pulse sets, including reuse of one operation.", "anchors": ["quantify_scheduler/backends/qblox/crosstalk_compensation.py: crosstalk_compensation"]}
{"id": "C33", "title": "Relative latency corrections are non-negative and minimal", "statement": "Latency corrections used for compilation are all >= 0, the smallest is 0 and differences between port-clocks equal the configured differences (unspecified ones counting as 0).", "quantifier": "every set of port-clocks and latency table", "why_tests_cant": "All tables.", "anchors": ["quantify_scheduler/backends/corrections.py: determine_relative_latency_corrections"]}
{"id": "C34", "title": "Instrument coordinator only starts what was prepared", "statement": "start and retrieve_acquisition raise an error unless a schedule was prepared; start runs exactly the components the last prepared schedule has instructions for, in the order they were added; a failing prepare does not leave the coordinator able to start.", "quantifier": "every history of add/remove/prepare/start/stop calls, including failing ones", "why_tests_cant": "All histories and crash points.", "anchors": ["quantify_scheduler/instrument_coordinator/instrument_coordinator.py: InstrumentCoordinator"]}
{"id": "C35", "title": "Acquisitions of one sequencer are at least 300 ns apart or rejected", "statement": "If a program is generated for a sequencer, any two acquisitions it executes start at least 300 ns apart; schedules for which this does not hold are rejected.", "quantifier": "all schedules, loops and repetitions", "why_tests_cant": "must hold between every pair of executed acquisitions in every loop iteration", "anchors": ["quantify_scheduler/backends/qblox/operation_handling/acquisitions.py:AcquisitionStrategyPartial.insert_qasm", "quantify_scheduler/backends/qblox/constants.py:MIN_TIME_BETWEEN_ACQUISITIONS"]}
{"id": "C36", "title": "Waveforms are padded to the hardware granularity with zeros only", "statement": "Resizing a waveform to a granularity keeps all its samples in place, appends fewer zeros than one granule (one whole granule for an empty waveform), gives a positive multiple of the granularity, and agrees with the size computed separately for the same number of samples.", "quantifier": "every waveform and positive granularity", "why_tests_cant": "Boundary cases depend on the length modulo the granularity for arbitrary lengths.", "anchors": ["quantify_scheduler/helpers/waveforms.py:resize_waveform", "quantify_scheduler/helpers/waveforms.py:get_waveform_size", "quantify_scheduler/backends/zhinst/helpers.py", "quantify_scheduler/math.py:closest_number_ceil"]}
{"id": "C37", "title": "Shifting a waveform to the clock grid keeps its start time", "statement": "Shifting a waveform that starts off the hardware clock grid yields a whole number of clock cycles and a zero padded waveform such that the first original sample is played within half a sample of the requested start time; the padding is shorter than one clock cycle and the samples are unchanged.", "quantifier": "every waveform, rational start and positive clock resolution", "why_tests_cant": "Start times are arbitrary rationals; the boundary between cycle count and padding matters for all of them.", "anchors": ["quantify_scheduler/helpers/waveforms.py:shift_waveform"]}
{"id": "C39", "title": "Retrieved results are read from the bins the acquisitions were executed into", "statement": "For an append-mode channel, the data returned for (repetition r, acquisition index a) is read from exactly the hardware bin into which the sequencer stored the execution of acquisition a in repetition r.", "quantifier": "every history of bin allocations of a sequencer with distinct acquisition indices per channel, every schedule of nested loops and every repetition count", "why_tests_cant": "It relates the allocator, the generated program executed over all loop iterations and repetitions, and the retrieval arithmetic.", "anchors": ["quantify_scheduler/backends/qblox/qblox_acq_index_manager.py:allocate_bins", "quantify_scheduler/backends/qblox/compiler_abc.py:_initialize_acquisition_qblox_values_append_not_in_control_flow", "quantify_scheduler/instrument_coordinator/components/qblox.py:_get_binned_data"]}
{"id": "C38", "title": "Each sequencer plays exactly the executions its port-clock is scheduled for", "statement": "Compiling a timed schedule for Qblox hardware gives, for every port-clock, a program that in each repetition executes every operation on that port-clock at its scheduled time, once per iteration of the loops around it, and executes nothing else; no operation is lost, duplicated or sent to another port-clock, and compilation is refused exactly when a port-clock, pulse information or duration is missing. This holds when no operation runs concurrently with a loop or conditional on the same port-clock, every loop names the port-clocks it concerns and loops have no time offset; outside of that, accepted schedules exist that play something else.", "quantifier": "every schedule of nested sub-schedules, loops and conditionals with integer times, every port-clock, hardware configuration, repetition count and order in which operations were added", "why_tests_cant": "It relates unbounded nesting, two stable sorts and the distribution over sequencers to the execution of the generated program over all iterations.", "anchors": ["quantify_scheduler/backends/qblox/helpers.py:_get_list_of_operations_for_op_info_creation", "quantify_scheduler/backends/qblox/helpers.py:assign_pulse_and_acq_info_to_devices", "quantify_scheduler/backends/qblox/helpers.py:_assign_pulse_info_to_devices", "quantify_scheduler/backends/qblox/compiler_abc.py:_get_ordered_operations", "quantify_scheduler/operations/control_flow_library.py:get_used_port_clocks"]}
{"id": "C40", "title": "A circuit is compiled to exactly what the device configuration prescribes", "statement": "Compiling a circuit to the device layer replaces every gate, at any nesting depth, by the pulses and acquisitions (or schedule) its configured factory makes from the configured arguments, the arguments of the gate and the device overrides, where an override replaces an argument but never adds one; it leaves structure, timing constraints, repetitions and already compiled operations unchanged, leaves nothing at the gate level, changes nothing when run again, and refuses unknown elements, operations and edges. The parts of a multiplexed gate start simultaneously. An operation object used in several places gets the same treatment in each. A measurement that does not wait for its acquisition delay moves the next operation earlier by that delay.", "quantifier": "every device configuration with arbitrary factory functions, every circuit of nested schedules, loops, conditionals and pulse compensations, every pattern of shared operation objects, every override", "why_tests_cant": "Factories are arbitrary functions that can return schedules of further gates, the recursion is unbounded and operations are changed in place.", "anchors": ["quantify_scheduler/backends/circuit_to_device.py:compile_circuit_to_device_with_config_validation", "quantify_scheduler/backends/circuit_to_device.py:_compile_multiplexed", "quantify_scheduler/backends/circuit_to_device.py:_get_device_repr_from_cfg", "quantify_scheduler/backends/circuit_to_device.py:_compile_two_device_elements"]}
{"id": "C41", "title": "Every schedule gets the clocks it uses, each with one frequency", "statement": "After the clocks are set, every schedule at any depth has each clock its operations use among its resources; nothing else changes; a clock already in a schedule keeps its frequency even if the device configuration disagrees; a clock that is added has the frequency written elsewhere in the schedule, or else that of the device configuration, never NaN; a clock has one frequency in the whole schedule. The pass is refused exactly when the written frequencies disagree, an operation is at the gate level, or a clock has no known frequency.", "quantifier": "every schedule of nested schedules, loops, conditionals and pulse compensations, every device configuration", "why_tests_cant": "The frequencies are collected over an unbounded tree and written back into every nested schedule.", "anchors": ["quantify_scheduler/backends/circuit_to_device.py:set_pulse_and_acquisition_clock", "quantify_scheduler/backends/circuit_to_device.py:_extract_clock_freqs", "quantify_scheduler/backends/circuit_to_device.py:_valid_clock_in_schedule"]}
{"id": "C42", "title": "A conditional acts on the result of its own acquisition", "statement": "After conditional playback is compiled: feedback trigger addresses are in 1..15, and conditionals and acquisitions share an address exactly if they share the label; each conditional that runs is preceded by an acquisition with its label, without an acquisition with a label or a conditional on the same label in between, and no labelled result is overwritten before a conditional used it; when a conditional runs, the trigger counters of its address in all sequencers its body uses have counted exactly the triggers of the latest acquisition with its label, in every repetition of every loop; the trigger settings of a conditional are those of the trigger counts with its label; LatchResets are added only for such acquisitions and nothing else changes.", "quantifier": "every schedule of nested schedules, loops and conditionals, every number of labels, acquisitions and repetitions, every sequence of hardware triggers within the latency", "why_tests_cant": "The counters depend on the whole history of triggers and resets over all repetitions of the nested loops.", "anchors": ["quantify_scheduler/backends/qblox_backend.py:compile_conditional_playback", "quantify_scheduler/backends/qblox_backend.py:_set_conditional_info_map", "quantify_scheduler/backends/qblox_backend.py:_insert_latch_reset", "quantify_scheduler/backends/qblox_backend.py:_update_conditional_info_from_acquisition", "quantify_scheduler/backends/qblox_backend.py:_all_conditional_acqs_and_control_flows_and_latch_reset"]}
{"id": "C43", "title": "Every port-clock is played by a sequencer wired to its port", "statement": "When a schedule is compiled for Qblox clusters, every sequencer that is configured belongs to a port-clock combination the schedule uses; it is a sequencer of a module described in the hardware description, in the slot the connectivity names; all its channels are wired to the port, directly or through a mixer, and this sequencer of such a module can be connected to them; a sequencer with extra input channels is on a readout module and has an output. Two port-clocks of a module never share a sequencer and a port-clock has only one. Every used port-clock whose port is wired to channels gets exactly one sequencer with exactly those channels. A sequencer has the hardware options given for its port-clock and no others, and the local oscillator connected to the mixer of its channel. The result does not depend on the order in which the used port-clocks are enumerated.", "quantifier": "all hardware descriptions, all connectivity graphs, all hardware options and all sets of used port-clock combinations", "why_tests_cant": "The graph, the names and the number of port-clocks per module are unbounded, the assignment is greedy with shared mutable path objects, and the order of a set of port-clocks varies between runs; tests use a handful of example configurations.", "anchors": ["quantify_scheduler/backends/qblox_backend.py: _extract_instrument_compilation_configs, find_all_port_clock_combinations, _ClusterModuleCompilationConfig._sequencer_to_portclock, _validate_channel_name_measure, sequencer_allowed_channels, _extract_sequencer_compilation_configs, ChannelPath", "quantify_scheduler/backends/types/common.py: Connectivity", "quantify_scheduler/backends/qblox/compiler_abc.py: SequencerCompiler.__init__"]}
{"id": "C44", "title": "Library experiment schedules contain the documented sequence at every setpoint", "statement": "Every schedule-generating function of the library (Rabi, T1, Ramsey, echo, CPMG, AllXY, readout calibration, pulse-level Rabi, heterodyne and two-tone spectroscopy with and without frequency sweep, dark ESR, chevron, staircases, traces) returns, for every valid argument, a schedule that the timing pass accepts, with the requested repetitions and clocks, and in whose time line the i-th group of operations is the documented sequence for the i-th setpoint (in order, none missing, none extra): the delays between its operations are the requested ones for that setpoint, acquisition indices and amplitudes and phases belong to that setpoint, and each group starts when the previous one has ended. Arguments outside the documented domain raise the documented exception.", "quantifier": "every number and value of setpoints, every qubit, port and clock name, every gate duration of the device, every stream of unique identifiers", "why_tests_cant": "The labels, references and positions depend on the number of setpoints, which is unbounded, on arbitrary names, and on device durations; tests compile a few setpoints with one device.", "anchors": ["quantify_scheduler/schedules/timedomain_schedules.py: rabi_sched, t1_sched, ramsey_sched, echo_sched, cpmg_sched, allxy_sched, readout_calibration_sched, rabi_pulse_sched", "quantify_scheduler/schedules/spectroscopy_schedules.py: heterodyne_spec_sched, heterodyne_spec_sched_nco, two_tone_spec_sched, two_tone_spec_sched_nco, nv_dark_esr_sched, nv_dark_esr_sched_nco", "quantify_scheduler/schedules/two_qubit_transmon_schedules.py: chevron_cz_sched", "quantify_scheduler/schedules/verification.py: acquisition_staircase_sched, awg_staircase_sched, multiplexing_staircase_sched", "quantify_scheduler/schedules/trace_schedules.py: trace_schedule, two_tone_trace_schedule, long_time_trace", "quantify_scheduler/schedules/schedule.py: Schedule.add"]}
{"id": "C45", "title": "Schedules and operations survive storing as JSON", "statement": "When an operation, a schedule or a compiled schedule is stored with to_json (or to_dict, to_json_file) and read back with from_json (or from_dict, from_json_file), the result is an object of the same class with the same contents: the same operations, schedulables, timing constraints, resources and compiled instructions, under the same names and in the same order, with the same numbers, complex numbers and arrays. An operation read back is equal (==) to the stored one and has the same duration, and a schedule has the same hash. Storing the result again gives the same document, so nothing changes on later round trips. Documented exceptions (tuples are read back as lists, members of string enumerations as strings, numpy floats as floats) are the only differences.", "quantifier": "all schedules, operations and compiled schedules built from the classes of the library with arbitrary nesting of lists, dictionaries, control flow, arrays and objects, all recursion limits, all hash functions", "why_tests_cant": "Values nest without bound and every pair of encoder and decoder of a class must be inverse inside every other; failures are silent, because the encoder swallows every exception; tests store a handful of schedules.", "anchors": ["quantify_scheduler/json_utils.py: SchedulerJSONEncoder.default, SchedulerJSONDecoder, JSONSerializable", "quantify_scheduler/operations/operation.py: Operation.__getstate__, __setstate__, __hash__, __eq__, _update", "quantify_scheduler/schedules/schedule.py: Schedule, CompiledSchedule, Schedulable, TimingConstraint: __getstate__, __setstate__", "quantify_scheduler/resources.py: Resource.__getstate__, __setstate__", "quantify_scheduler/backends/qblox/schedule.py: CompiledInstructions", "quantify_scheduler/helpers/importers.py: export_python_object_to_path_string, import_python_object_from_string", "quantify_scheduler/helpers/collections.py: make_hash"]}
{"id": "C46", "title": "Zurich Instruments programs play every pulse and acquisition of their channel at its clock cycle", "statement": "When a schedule is compiled for Zurich Instruments hardware, every configured device gets a configuration under its name, and running the uploaded sequencer program of a channel plays exactly the pulses (and, on a UHFQA, starts exactly the acquisitions) of the schedule whose port and clock are connected to that channel, one event each, in the order of their times, each at its time (with latency and alignment corrections), as often as the schedule is to be repeated; on a device without trigger input successive repetitions are one schedule duration apart. A schedule for which such a program does not exist is rejected.", "quantifier": "all schedules, hardware configurations (devices, channels, markers, triggers, groupings), latency corrections and numbers of repetitions, every way to order simultaneous rows", "why_tests_cant": "The wait of each instruction depends on all the clock cycles counted so far, which must agree with what the instrument spends on each statement for any sequence; tests compare a few generated programs with stored text.", "anchors": ["quantify_scheduler/backends/zhinst_backend.py: compile_backend, _compile_for_hdawg, _assemble_hdawg_sequence, _compile_for_uhfqa, _assemble_uhfqa_sequence, _get_instruction_list, _determine_clock_sample_start, _add_channel_information", "quantify_scheduler/backends/zhinst/seqc_il_generator.py: add_wait, add_set_trigger, add_execute_table_entry, add_play_wave, add_start_qa, SEQC_INSTR_CLOCKS"]}
{"id": "C47", "title": "Alignment to the Zurich Instruments clocks only delays, keeps the order and aligns the acquisitions", "statement": "The corrected timing table of a schedule compiled for Zurich Instruments hardware contains every pulse and acquisition of the schedule once, at its scheduled time plus the latency correction of its port and clock plus a delay. The delays are never negative, are multiples of the common period of the devices' clocks, do not decrease along the table (so the order is kept and nothing comes closer together), and are bounded by a constant per acquisition. Every acquisition starts at the beginning of a UHFQA clock cycle. Times off the sampling grid of the device are rejected, times on the grid are accepted.", "quantifier": "all schedules, hardware configurations and latency corrections, every way to order simultaneous rows", "why_tests_cant": "The corrections of the acquisitions accumulate along the table, so that alignment must be shown for any number of acquisitions and any pulses in between; tests check one or two acquisitions.", "anchors": ["quantify_scheduler/backends/zhinst_backend.py: _apply_latency_corrections, _add_clock_sample_starts, _determine_clock_sample_start, _determine_measurement_fixpoint_correction, _apply_measurement_fixpoint_correction, _validate_schedule", "quantify_scheduler/schedules/schedule.py: CompiledSchedule.timing_table"]}
{"id": "C48", "title": "Zurich Instruments programs play the waveform of the scheduled pulse", "statement": "Every waveform played by a program compiled for Zurich Instruments hardware is the waveform of the pulse scheduled there: computed from that pulse's own description and duration, at the sampling rate of its device and with the modulation and mixer settings of the output it is played on. The table entry, the placeholder and the uploaded waveform agree in index and length.", "quantifier": "all schedules, hardware configurations and latency corrections, any number of operations sharing waveforms", "why_tests_cant": "Waveforms are shared between rows whose textual identifiers agree after substitutions by regular expressions; that equal identifiers imply equal waveforms is a statement about all pairs of operations of all schedules.", "anchors": ["quantify_scheduler/backends/zhinst_backend.py: _add_waveform_ids, _determine_waveform_id, construct_waveform_table, _add_wave_nodes, _get_operations_by_repr, get_wave_info", "quantify_scheduler/schedules/schedule.py: CompiledSchedule.timing_table"]}
{"id": "C49", "title": "UHFQA acquisition settings match the scheduled acquisitions", "statement": "A schedule compiled for a UHFQA configures it for its acquisitions: the number of results and averages follow from the number of acquisitions, the repetitions and the bin mode common to all acquisitions; the integration length is the duration of every acquisition in samples; the two weight functions of an acquisition channel are those of the acquisition with that channel (real and imaginary part, and imaginary and negated real part), or all ones for a trace, and the results of that channel are read from the same two; weights of unused channels are zero; two different acquisitions never share a channel.", "quantifier": "all schedules, hardware configurations and latency corrections, any number of acquisitions and channels", "why_tests_cant": "The settings are assembled in a loop over distinct waveform identifiers that overwrites nodes of earlier iterations; that none is lost must hold for every set of acquisitions.", "anchors": ["quantify_scheduler/backends/zhinst_backend.py: _compile_for_uhfqa", "quantify_scheduler/backends/zhinst/helpers.py: get_sampling_rates", "quantify_scheduler/helpers/schedule.py: extract_acquisition_metadata_from_schedule, get_acq_info_by_uuid"]}
{"id": "C50", "title": "Flattening subschedules for the Zurich Instruments backend keeps what is played and when", "statement": "Before a schedule with subschedules (nested to any depth, used any number of times) is compiled for Zurich Instruments hardware it is flattened. The flattened schedule refers to no subschedule; it plays exactly the operations of the nested schedule, in the same order and each at the same absolute time (its time inside its subschedule plus the times of all enclosing ones); it has every resource of every subschedule, with the enclosing schedule's definition where it has its own; and a schedule whose times are all determined is accepted.", "quantifier": "all schedules with any nesting, any reuse of subschedules, any hash function without clashes in the schedule, any supply of unique names", "why_tests_cant": "The dictionaries of operations and schedulables are changed while they are iterated over, recursively; that nothing is lost, duplicated or overwritten must hold for any nesting and sharing; tests flatten a few hand-made schedules.", "anchors": ["quantify_scheduler/backends/zhinst_backend.py: flatten_schedule, ZIHardwareCompilationConfig.compilation_passes, _get_operations_by_repr", "quantify_scheduler/schedules/schedule.py: Schedule.add_resource"]}
{"id": "C51", "title": "After prepare a Qblox module is configured as its program says", "statement": "When preparing a Qblox analog module (QCM, QRM, QCM-RF, QRM-RF, QRC) succeeds, every parameter the program determines has the program's value in the instrument, whatever was prepared before: for every sequencer of the program its synchronisation, sequence, NCO frequency and modulation, offsets, gains, connections to outputs and inputs, triggers and acquisition settings; and offsets, attenuations, gains, LO frequencies, filters and scope settings of the module. Sequencers that are not in the program have synchronisation disabled and are otherwise unchanged; no other parameter changes.", "quantifier": "all programs, all module types, all states of the instrument (with right caches, or with force_set_parameters), all drivers", "why_tests_cant": "Parameters are written lazily, in an order spread over five classes with multiple inheritance; that nothing is skipped, overwritten or left over must hold for every history of earlier programs; tests prepare a few programs on a fresh dummy.", "anchors": ["quantify_scheduler/instrument_coordinator/components/qblox.py: _ModuleComponentBase, _AnalogModuleComponent, _QCMComponent, _AnalogReadoutComponent, _QRMComponent, _RFComponent, _QCMRFComponent, _QRMRFComponent, _QRCComponent", "quantify_scheduler/instrument_coordinator/utility.py: parameter_value_same_as_cache, lazy_set"]}
{"id": "C52", "title": "Automatic mixer calibrations run exactly when due, with the new frequencies", "statement": "Preparing a module runs the sideband calibration of a sequencer exactly once if its settings ask for it and its NCO frequency changes, with the new settings of the sequencer in place, and otherwise sets the mixer corrections of the program; it runs the calibration of an LO exactly once if the settings ask for it and the LO frequency (or, in the mode that says so, the NCO frequency of a sequencer playing through it) changes, with the new LO and NCO frequencies in place; preparing the same program again calibrates nothing; other sequencers are not calibrated.", "quantifier": "all programs, module types with mixers, instrument states and histories", "why_tests_cant": "Whether a calibration is due depends on the caches left by all earlier programs and on flags collected over several loops; its order with respect to the parameter writes is spread over the class hierarchy.", "anchors": ["quantify_scheduler/instrument_coordinator/components/qblox.py: _configure_nco_mixer_calibration, _configure_lo_settings, _RFComponent.prepare, _AnalogModuleComponent._configure_sequencer_settings"]}
{"id": "C53", "title": "A Qblox cluster runs exactly the sequencers of the prepared program", "statement": "After a successful prepare of a cluster the reference source is the program's, every module of the program has been prepared with its program and the other modules are untouched. After any number of start, stop and retrieve calls, a successful start leaves exactly the sequencers of the last prepared program running; it first stops everything, deletes the old acquisition data of every sequencer that acquires before arming it, and synchronises the time of the cluster on the external trigger (if the program asks) after arming and before starting, with the trigger channel configured as input with its threshold. A start that raises leaves nothing running, and before the first prepare start runs nothing. Stop leaves nothing running and disables the synchronisation of all sequencers, so that after stop and prepare only sequencers whose program says so wait for others. Data is retrieved from exactly the modules of the program with acquisitions. (Refuted: after a prepare that raised, start still runs the old programs of the remaining modules; without a stop, modules that the new program does not use keep waiting for synchronisation.)", "quantifier": "all clusters, programs, drivers, states of the instrument and sequences of calls", "why_tests_cant": "What runs depends on the state left in each module by all earlier calls; the order of the commands must hold for every mix of modules; tests prepare one program on a fresh dummy.", "anchors": ["quantify_scheduler/instrument_coordinator/components/qblox.py: ClusterComponent, _ModuleComponentBase.arm_all_sequencers_in_program, disable_sync, clear_data"]}
{"id": "C54", "title": "After prepare a QTM is configured as its program says", "statement": "When preparing a QTM succeeds, every parameter that the program determines has the program's value, whatever was prepared before: synchronisation, sequence and trigger settings of each sequencer, the direction of each digital channel, and threshold, trigger forwarding, scope and trace mode, time source and time reference, and the trigger addresses of the channel of the sequencer. Sequencers that are not in the program have synchronisation disabled; no other parameter changes. With a driver that takes all values a program is accepted exactly when its sequencers are those of the module.", "quantifier": "all programs, states of the instrument (with right caches, or with force_set_parameters) and drivers", "why_tests_cant": "Parameters are written lazily per channel in loops over sequencers that share channels; that none is skipped or overwritten must hold for every history.", "anchors": ["quantify_scheduler/instrument_coordinator/components/qblox.py: _QTMComponent.prepare, _QTMComponent._configure_io_channel_settings, _ModuleComponentBase._configure_sequencer_settings"]}
{"id": "C55", "title": "Data retrieved from Qblox modules is what the hardware measured", "statement": "When the acquisitions of a QRM or QTM are retrieved, the dataset has exactly the acquisition channels of the program. For binned protocols every acquisition index (and every repetition, when appending) holds the value of its own bin of its own hardware acquisition, converted as the protocol says (divided by the integration length, sum of both paths, threshold, counts, counts against a threshold, time tags in ns; nan or -1 without data), and the coordinates that the user gave with that acquisition and no others. A trace holds the samples of the scope paths of the sequencer's inputs, and the scope acquisition stored beforehand is that of the trace. A trigger count distribution holds, for every count that occurred, the number of runs with exactly that count. Windows of time tags are relative to the start of their window, padded with nan. Data that the hardware does not have, or a bin mode that the module does not support, raises instead of giving data; with complete data retrieval succeeds. A cluster gives the union of its modules' data. (Refuted: an appending channel, or windows of time tags, acquired with two sequencers is never retrieved, although the acquisition indices are different; a distribution with coordinates of the user is only retrieved with a single count.)", "quantifier": "all programs of a module (channels, protocols, bin modes, mappings to bins, repetitions, coordinates), all hardware data and all clusters", "why_tests_cant": "The value at an index depends on the mapping made at compile time, the stride of the loops, the protocol and on merging with the data of all other sequencers and modules; tests use a few fixed mappings with dummy data.", "anchors": ["quantify_scheduler/instrument_coordinator/components/qblox.py: _AcquisitionManagerBase.retrieve_acquisition, _get_binned_data, _get_trigger_count_data, _get_trigger_count_threshold_data, _convert_from_cumulative, _QRMAcquisitionManager, _QTMAcquisitionManager, ClusterComponent.retrieve_acquisition", "quantify_scheduler/instrument_coordinator/utility.py: check_already_existing_acquisition, add_acquisition_coords_binned, add_acquisition_coords_nonbinned", "quantify_scheduler/backends/qblox/operation_handling/bin_mode_compat.py: QRM_COMPATIBLE_BIN_MODES, QTM_COMPATIBLE_BIN_MODES"]}
{"id": "C56", "title": "ScheduleGettable returns the data of the schedule it stands for", "statement": "With always_initialize (the default), and at the first get(), the data that get() returns are those of the schedule that the schedule function gives for the values of the parameters, the repetitions and the configuration at that moment, each instrument running what that schedule has for it, whatever was done before with the parameters, the coordinator and other gettables. Without always_initialize they are those of the schedule compiled at the last initialization, as long as nobody prepares the coordinator in between. Nothing is started unless the whole current schedule was uploaded, also when something fails; a parameter without a value raises TypeError and only stops the components; after a successful get() nothing is left running. A diagnostics report never shows a compiled schedule or data of an earlier call, and its flag says which step failed. (Refuted: without always_initialize, another gettable on the same coordinator, a failed re-initialization or a compile() in between make get() return other data than compiled_schedule says; a get() that fails leaves components running; a report switches the debug mode on for good, and may show keyword arguments of an earlier call.)", "quantifier": "all worlds (parameters, configuration, coordinator, histories of what reached the components), all schedule functions and compilers, all failures of components, all histories of actions between initialization and get", "why_tests_cant": "The claim is about every history of settings, initializations, failures and uses of the same coordinator; tests use a mocked coordinator and a single get.", "anchors": ["quantify_scheduler/gettables.py: ScheduleGettable.get, ScheduleGettable.initialize, ScheduleGettable.compile, ScheduleGettable.initialize_and_get_with_report, _evaluate_parameter_dict", "quantify_scheduler/helpers/diagnostics_report.py: _generate_diagnostics_report", "quantify_scheduler/instrument_coordinator/instrument_coordinator.py: InstrumentCoordinator"]}
{"id": "C57", "title": "The compiler runs every configured pass once, in order", "statement": "Compiling a schedule runs the compilation passes of the device configuration and then those of the hardware configuration, each exactly once, in the given order, each on what the one before returned, starting from the schedule without its old compiled instructions; the first exception ends it. The result is a CompiledSchedule. It does not matter what the same compiler object was used for before. With keep_original_schedule no existing schedule object is changed, also when a pass raises; without it only the given one is. No passes, or neither a configuration nor a quantum device, raises. (Refuted: with keep_original_schedule=False a compilation that fails has lost the compiled instructions of the given schedule.)", "quantifier": "all lists of passes (also changing the schedule in place, returning new ones, raising), all configurations, all histories of the compiler object, and all shortest-path functions that fulfil networkx's contract", "why_tests_cant": "The order comes out of a shortest-path search in a graph that is rebuilt on a reused object; tests compile with the few standard pass lists.", "anchors": ["quantify_scheduler/backends/graph_compilation.py: SerialCompiler.construct_graph, SerialCompiler._compilation_func, QuantifyCompiler.compile, SimpleNode", "quantify_scheduler/schedules/schedule.py: CompiledSchedule.__init__"]}
{"id": "C58", "title": "A saved device loads as the same device", "statement": "QuantumDevice.to_json succeeds exactly when the device has an element or edge and all of them are open, and otherwise raises RuntimeError. Loading the document in any other session where those names are free gives a device with the same name, elements and edges in the same order, and repetitions, and every element and edge has the same class, name and parameter values; instruments that were open are not changed. Only parameter values without tuples and with non-empty port names are kept. (Refuted: reference magnitudes, the scheduling strategy, keep_original_schedule and the hardware configuration are not saved and come back as defaults; a device with a tuple as acquisition channel is saved but cannot be loaded; an empty port name comes back as the default name.) Of several settings of a reference magnitude, in any units, only the last that is not nan counts.", "quantifier": "all histories of creating, configuring, closing, adding, removing and loading in both sessions, all six element and edge classes, all parameter values", "why_tests_cant": "Tests save and load one fixed device per class; which settings are dropped depends on the history and the value.", "anchors": ["quantify_scheduler/device_under_test/quantum_device.py: QuantumDevice.to_json, __getstate__, __setstate__, add_element, add_edge, remove_element, remove_edge", "quantify_scheduler/device_under_test/device_element.py: DeviceElement.__getstate__, __setstate__, __init__", "quantify_scheduler/device_under_test/edge.py: Edge", "quantify_scheduler/device_under_test/transmon_element.py: ReferenceMagnitude", "quantify_scheduler/helpers/validators.py"]}
{"id": "C59", "title": "The device configuration is exactly the settings of its elements and edges", "statement": "generate_device_config has one entry per element and per edge of the device, in order, and the scheduling strategy; every keyword of every operation is the current value of the documented parameter of that element or edge (of the parent element for the flux port), every clock of an element is in it once with the frequency that is set and there are no other clocks, and every clock that an operation of a transmon, spin qubit or charge sensor uses is defined. Setting a parameter of one element changes no other element's entry or clocks and no edge that it is not the parent of. Loading a saved device without reference magnitudes gives the same configuration. It is generated exactly when all members and the endpoints of the edges are open, the parent of a CompositeSquareEdge has a flux port and the reference magnitudes can be read. (Refuted for NV centers: their pulse compensation uses the clock f_larmor, which they never define.)", "quantifier": "all histories of a session and all six element and edge classes, all parameter values", "why_tests_cant": "Tests compare single settings of fixed devices; cross-talk between elements, clock name collisions and stale values depend on the names and the history.", "anchors": ["quantify_scheduler/device_under_test/quantum_device.py: QuantumDevice.generate_device_config", "quantify_scheduler/device_under_test/transmon_element.py: BasicTransmonElement._generate_config, generate_device_config", "quantify_scheduler/device_under_test/spin_element.py: BasicSpinElement, ChargeSensor", "quantify_scheduler/device_under_test/nv_element.py: BasicElectronicNVElement", "quantify_scheduler/device_under_test/composite_square_edge.py: CompositeSquareEdge.generate_edge_config", "quantify_scheduler/device_under_test/spin_edge.py: SpinEdge.generate_edge_config"]}
{"id": "C60", "title": "Software distortion corrections change exactly the pulses they are for, once", "statement": "For every schedule in which no operation object (and no pulse_info list) occurs twice, apply_software_distortion_corrections returns or updates the schedule so that every pulse whose port and clock have a software correction, in an operation without voltage offset, is replaced once by a numerical pulse on the same port and clock, with the same start and duration, whose samples are the samples of that pulse after the filter function, limited to the clipping values if there are exactly two, at evenly spaced times over the duration of the pulse; every other pulse, the order and the number of pulses, the names and order of operations, and objects outside the schedule are unchanged. It raises no exception if the waveforms and filters give at least one sample. (Refuted: an operation object used in a schedule and in a schedule inside it is corrected twice; an operation whose first pulse is corrected loses its acquisitions, its name and its duration; corrected pulses lose their reference magnitude; a pulse without samples raises IndexError; an operation that has a voltage offset on any port is not corrected, with only a warning.)", "quantifier": "all nested schedules and control flow, all pulses, waveform functions, filter functions and correction configurations", "why_tests_cant": "Tests correct a few fixed pulses; double correction depends on which objects are shared, and samples on every filter.", "anchors": ["quantify_scheduler/backends/corrections.py: apply_software_distortion_corrections, distortion_correct_pulse, _is_distortion_correctable", "quantify_scheduler/operations/pulse_library.py: NumericalPulse", "quantify_scheduler/backends/types/common.py: SoftwareDistortionCorrection"]}
{"id": "C61", "title": "The check for pulses overlapping voltage offsets", "statement": "When the Qblox backend rejects a schedule because of overlapping pulses with voltage offsets, two of its operations, one with a voltage offset, do overlap on the same port-clock (of the same port and clock if port names have no underscore). When it accepts a schedule, an operation with an offset overlaps neither the operation just before it in time, nor, if that one has ended, the one just after it, except at identical times; and if all operations play on one port-clock for their whole duration, no two at identical times, and those without offset do not overlap each other, there is no overlap at all longer than 1e-10 s. (Refuted in general: a shorter pulse on another port, an idle pulse or an instantaneous offset hides an overlap with an earlier pulse; identical times are not an overlap; cycles of a loop after the first are not checked; two port-clocks can have the same name.)", "quantifier": "all nested schedules with loops and conditionals, all operations, times and durations", "why_tests_cant": "Tests check a few pairs of operations; what is missed depends on the order of all operations in time.", "anchors": ["quantify_scheduler/backends/qblox_backend.py: validate_non_overlapping_stitched_pulse, _exists_pulse_starting_before_current_end, _raise_if_pulses_overlap_on_same_port_clock, _get_pulse_start_ends, _all_abs_times_ops_with_voltage_offsets_pulses"]}
{"id": "C62", "title": "Gates and measurements become the pulses that the device was set up for", "statement": "For a gate or measurement on an element or edge of a QuantumDevice, the pulses and acquisitions made are those of its settings: Rxy(theta, phi) is one pulse of amplitude amp180*theta/180, phase phi and the configured duration, port, clock and shape parameters; Rz only shifts the phase of its clock by theta; Reset lasts its configured duration; CZ is the configured square pulse with the configured phase corrections on both clocks; H is Z then Y90; Measure resets the phase of the readout clock (if configured), plays the readout pulse (and gate pulse) at its start, and acquires, with the chosen protocol, channel, bin mode, coords and index, acq_delay after its start for the configured time; the measurement lasts until the last of these ends. Optical measurements keep all laser pulses simultaneous and separate them from the acquisition by exactly acq_delay. Arguments of the gate and device overrides take precedence over the settings. With a frequency, the clock frequency is set at the start and set back when the measurement is over. With apply_acquisition_delay=False the next operation is moved back by the acquisition delay. Unknown protocols, missing weights and unsupported bin modes are rejected. (Refuted: the move back ignores an overridden acq_delay and is lost with a frequency, where the frequency is also set back while acquiring; optical measurements with apply_acquisition_delay=False are a TypeError; LongTimeTrace always uses channel 0; Trace always averages; WeightedThresholdedAcquisition ignores the rotation.)", "quantifier": "all device sessions, elements, edges, settings, gate arguments and overrides", "why_tests_cant": "Tests compare a few compiled operations with default settings; the claim is about every value of every setting, every protocol, and combinations with overrides.", "anchors": ["quantify_scheduler/operations/pulse_factories.py", "quantify_scheduler/operations/measurement_factories.py: _dispersive_measurement, dispersive_measurement_transmon, dispersive_measurement_spin, optical_measurement", "quantify_scheduler/operations/composite_factories.py", "quantify_scheduler/operations/pulse_library.py", "quantify_scheduler/operations/acquisition_library.py", "quantify_scheduler/backends/circuit_to_device.py: _get_device_repr_from_cfg"]}
{"id": "C63", "title": "The unitaries of gates, of composite gates, and of the pulses played for them", "statement": "The unitary stored with every gate is unitary and is the one documented: Rxy(theta, phi) is the rotation by theta around the axis at phi in the xy plane and Rz(theta) the rotation by theta around z, for every angle asked for, up to a global phase (for Rxy exactly if the angles have at most 8 decimals, else every entry within 2e-10); X, X90, Y, Y90, Z, Z90, S, SDagger, T and TDagger have the documented matrices. Products of Rz gates are the Rz of the sum. H is exactly Z followed by Y90; CNOT is H on the target, CZ, H on the target up to a global phase; CNOT and CZ are the controlled X and Z; CZ, marked symmetric, does not depend on the order of its qubits and CNOT does. The pulses played for a circuit of Rxy and Rz gates on a transmon give the outcomes of the circuit if every Rz is by a multiple of 180 degrees. (Refuted in general: Rz(theta) shifts the clock by +theta, but moving the rotation past later pulses needs their phase reduced by theta; the pulses for X90, S, Y90 give 0 with certainty, the circuit gives 1.)", "quantifier": "all angles, all circuits of rotations, all settings of the device", "why_tests_cant": "Tests compare matrices for a few angles with tolerance; that two descriptions of a circuit (unitaries, and pulses with clock phases) agree for every circuit is not checked by any finite list.", "anchors": ["quantify_scheduler/operations/gate_library.py: Rxy, Rz, X, X90, Y, Y90, Z, Z90, S, SDagger, T, TDagger, H, CNOT, CZ", "quantify_scheduler/operations/composite_factories.py: hadamard_as_y90z, cnot_as_h_cz_h", "quantify_scheduler/operations/pulse_factories.py: rxy_drag_pulse, phase_shift", "quantify_scheduler/operations/pulse_library.py: ShiftClockPhase"]}
{"id": "C64", "title": "Zurich Instruments: local oscillators are set so that outputs are at the frequencies of their clocks", "statement": "In the settings that compiling for Zurich Instruments produces, the frequency of the local oscillator of a channel plus the intermediate frequency of its waveforms is the frequency of the clock of the channel: given the intermediate frequency in modulation_frequencies the oscillator is computed, given the oscillator the intermediate frequency is; contradictory frequencies for one oscillator are rejected; and the settings do not depend on the order in which the used ports and clocks are visited. (Only the first part holds, for a channel with an oscillator of its own: see the theorems.)", "quantifier": "all options modulation_frequencies, all sets of used ports and clocks and orders of visiting them, all devices, channels and oscillators, all clocks", "why_tests_cant": "Tests compile a few setups with one channel per oscillator and frequencies that fit; the claim is about every combination of options and of channels sharing an oscillator, and about the iteration order of a set, which a test run fixes.", "anchors": ["quantify_scheduler/backends/zhinst_backend.py: _add_lo_config, _generate_legacy_hardware_config, _parse_local_oscillators, compile_backend", "quantify_scheduler/backends/types/zhinst.py: Modulation", "quantify_scheduler/backends/types/common.py: ModulationFrequencies"]}
{"id": "C65", "title": "Changes of clock frequency and phase reach the NCO of every sequencer of the clock", "statement": "On Qblox hardware, SetClockFrequency(clock, f) makes every sequencer that plays on this clock play at f from its time on until the next change of that clock, whatever was set before, and SetClockFrequency(clock, None) makes it play at the frequency of the clock again (up to 1/8 Hz); phase shifts of the clock add up in every sequencer, up to full turns and half a step each; instructions come in the order of time and every one comes from an operation on the clock of the sequencer. Changes of frequency less than 4 ns apart, changes of phase less than 4 ns apart, an undefined clock or NCO frequency and NCO frequencies beyond 500 MHz are refused, and nothing else is. (The frequency is wrong if sequencers of one clock have different NCO frequencies, and with a downconverter: see the theorems.)", "quantifier": "all schedules of nested schedules, control flow and operations with any entries at any times, all resources, all lists of sequencers with any NCO frequencies", "why_tests_cant": "Tests compile single operations on one sequencer; the claim is about every combination of operations, sub-schedules and sequencers, and the dictionary of an operation is shared by all of them.", "anchors": ["quantify_scheduler/backends/qblox_backend.py: _add_clock_freqs_to_set_clock_frequency", "quantify_scheduler/backends/qblox/helpers.py: assign_pulse_and_acq_info_to_devices, _get_list_of_operations_for_op_info_creation", "quantify_scheduler/backends/qblox/analog.py: _update_set_clock_frequency_operations, _assert_enough_time_between_freq_phase_updates", "quantify_scheduler/backends/qblox/operation_handling/virtual.py: NcoSetClockFrequencyStrategy, NcoPhaseShiftStrategy, NcoResetClockPhaseStrategy"]}
{"id": "C66", "title": "Acquisition settings of a Qblox sequencer fit all of its acquisitions", "statement": "The settings of a sequencer of a QRM or QTM module are determined exactly when they can be the same for all acquisitions on its port and clock (trigger-count bin modes, single input, feedback address, rotation and threshold within limits, count thresholds per channel, duration in ns; for a QTM trace types, counting protocols, reference times, thresholds and addresses), and are refused otherwise; then every acquisition finds its own length, discrimination line and trigger address in them, and a QTM sends the trigger of an acquisition exactly when its count meets the condition. (False: limits of the threshold that is actually set, count thresholds next to a ThresholdedAcquisition, durations between nanoseconds, the length of a QTM trace, unlabelled counts on a QTM; see the theorems.)", "quantifier": "all lists of acquisitions of all protocols, bin modes, durations, thresholds, addresses and inputs", "why_tests_cant": "Tests compile a few pairs of acquisitions; which settings are compared depends on which other protocols occur anywhere in the schedule.", "anchors": ["quantify_scheduler/backends/qblox/analog.py: QRM _prepare_acq_settings, _prepare_thresholded_acquisition_settings, _get_integration_length_from_acquisitions", "quantify_scheduler/backends/qblox/timetag.py: _prepare_acq_settings, _prepare_thresholded_trigger_count_settings, _prepare_dual_thresholded_trigger_count_settings", "quantify_scheduler/backends/qblox/compiler_abc.py: _get_unique_value_or_raise, _validate_thresholded_trigger_count_metadata_by_acq_channel"]}
{"id": "C67", "title": "Fine delays on a QTM are executable", "statement": "On a QTM, two edges of digital pulses, and two edges of timetag acquisitions, that the compiler accepts on a port are executed a whole number of ns or at least 7 ns apart (otherwise the hardware is undefined); a schedule whose neighbouring edges keep this is accepted, and a fine delay from 0 to 2047/128 ns is executed and any other is refused. (False for acquisitions under 11 ns, whose end is executed 4 ns early; for edges that are not listed in the order of time; across the end of a loop; and for delays below a picosecond: see the theorems.)", "quantifier": "all lists of operations with any times, durations and fine delays", "why_tests_cant": "Tests try a few pairs of delays around 7 ns; the claim is about every two instructions of the program and needs the relation of picoseconds to steps of 1/128 ns.", "anchors": ["quantify_scheduler/backends/qblox/timetag.py: _assert_fine_delays_executable", "quantify_scheduler/backends/qblox/helpers.py: convert_qtm_fine_delay_to_int", "quantify_scheduler/backends/qblox/operation_handling/pulses.py: DigitalPulseStrategy", "quantify_scheduler/backends/qblox/operation_handling/acquisitions.py: TimetagAcquisitionStrategy"]}
{"id": "C68", "title": "The standard waveforms have their documented shape", "statement": "For every array of times: a square is its amplitude at each sample; a ramp is linear from its offset to offset plus amplitude; a staircase has num_steps levels of equal duration from the start to the final amplitude; a sudden net zero pulse, with its correction, sums to zero; a DRAG pulse is a Gaussian with its derivative, symmetric about the middle, rotated by its phase, and subtracting the offset makes the chosen sample zero; a skewed Hermite pulse is symmetric in I with Q its scaled derivative; a chirp has constant magnitude and its instantaneous frequency goes linearly from start to end; a softened square never exceeds its amplitude and reaches it away from its edges; a rotation keeps the magnitude of each sample. (False for a descending or one-step staircase, a net zero pulse without correction or too short for it, and a softened square of four or five samples: see the theorems.)", "quantifier": "all arrays of times, amplitudes, durations and phases", "why_tests_cant": "Tests compare arrays at a few parameters; the claims are about every length, time and amplitude (sums of all samples, derivatives, bounds).", "anchors": ["quantify_scheduler/waveforms.py: square, ramp, staircase, soft_square, chirp, drag, sudden_net_zero, rotate_wave, skewed_hermite"]}
{"id": "C69", "title": "A Qblox sequencer puts out the samples of its pulses", "statement": "For every list of pulses of a sequencer, whatever their waveforms: each accepted pulse is played from the waveform table with gains such that every sample comes out within 1/32768 of its value on either path, or within 1/16384 on a path whose samples are all below 1/32768. A pulse is refused exactly if it is empty, exceeds the range, or is complex on a real channel; the table is refused exactly if it has more than 16384 samples, and pulses that are multiples of each other share a waveform. The weights of an acquisition are uploaded under the indices it uses. (False: a path without a waveform has not always gain 0, and weights below -1 are not refused.)", "quantifier": "all lists of pulses with any samples, all hash functions without collisions on their waveforms", "why_tests_cant": "Tests play single square or DRAG pulses; the claim is about every sample of every waveform, with normalisation, sharing of table entries and rounding of gains acting together.", "anchors": ["quantify_scheduler/helpers/waveforms.py: normalize_waveform_data", "quantify_scheduler/backends/qblox/operation_handling/pulses.py: GenericPulseStrategy", "quantify_scheduler/backends/qblox/qasm_program.py: set_gain_from_amplitude", "quantify_scheduler/backends/qblox/compiler_abc.py: _generate_awg_dict, _generate_weights_dict, _validate_awg_dict", "quantify_scheduler/backends/qblox/operation_handling/acquisitions.py: WeightedAcquisitionStrategy.generate_data"]}
{"id": "C70", "title": "Hardware options of port-clocks reach the settings of their module", "statement": "For every module and all its port-clocks: an input gets the gain its port-clocks ask for, and nothing if none asks; different gains for one input are refused and nothing else is. Mixer offsets are set in the unit of the module, exactly if all of them are within its range. The attenuation of an output is the one its port-clocks agree on, and is refused if it is not an integer. At most one sequencer may use scope acquisition. (False: the gain of a port-clock with an output and an input is set on the input with the number of its output; a second clock of an output that has no attenuation or offset, or another one, silently discards the first one's.)", "quantifier": "all modules, port-clocks, channels and hardware options, in any order", "why_tests_cant": "Tests set one option for one port-clock; the claim is about any number of port-clocks that share inputs and outputs, in every order of the dictionaries.", "anchors": ["quantify_scheduler/backends/qblox/analog.py: AnalogModuleCompiler._configure_input_gains, _configure_mixer_offsets, _ensure_single_scope_mode_acquisition_sequencer; RFModuleCompiler.assign_attenuation", "quantify_scheduler/backends/qblox/helpers.py: calc_from_units_volt", "quantify_scheduler/backends/qblox_backend.py: _ClusterModuleCompilationConfig._validate_input_gain_mode"]}
{"id": "C71", "title": "Real-time distortion filters are configured as asked, output by output", "statement": "For every QCM module, whatever channels and corrections its port-clocks have: the filters of a correction are enabled with their coefficients at the outputs of its port-clock, I and Q at their own output; every other filter has no coefficients and is bypassed, or delay-compensated exactly if the channel of its output asks for that filter. The marker of an output follows its own channel or, in marker debug mode, the output, and cannot then be used otherwise. Exponential coefficients outside their range and wrong numbers of coefficients are refused. QRM modules have the delay compensation only. (False: the range of FIR coefficients is not checked; two complex outputs are refused or accepted depending on the order of the options; two corrections of the second complex output are accepted and the last one wins; describing outputs 2 to 5 of a QRC fails.)", "quantifier": "all sets of port-clocks, channel descriptions and corrections of a module, in any order", "why_tests_cant": "Tests check one hardware configuration; the claim is about all combinations of channels, orders, compensations and debug modes.", "anchors": ["quantify_scheduler/backends/qblox/instrument_compilers.py: QCMCompiler._configure_hardware_distortion_corrections, _get_distortion_configs_per_output, _configure_filter", "quantify_scheduler/backends/qblox/analog.py: AnalogModuleCompiler._configure_distortion_correction_latency_compensations, _configure_dc_latency_comp_for_output, _configure_dc_latency_comp_for_marker", "quantify_scheduler/backends/types/qblox.py: StaticAnalogModuleProperties._get_connected_output_indices"]}
{"id": "C72", "title": "Mock readout backend returns what was scheduled", "statement": "A schedule of pulses, traces and averaged single-sideband integrations that compiles for the mock readout module can be prepared, started and retrieved. The returned dataset has one entry per trace acquisition channel - the modulated pulse, sampled on a 1 ns grid and multiplied by the gain configured for the acquisition's port and clock - and, for every binned acquisition, at its channel and acquisition index, the number measured for it and for no other acquisition. Traces of one schedule with different gains, operations of other kinds and pulses without an intermediate frequency are refused.", "quantifier": "every list of operations, connectivity graph, set of gains and intermediate frequencies, sampling rate, modulation function and sequence of measured numbers; every earlier state of the coordinator component", "why_tests_cant": "The tests compile one schedule with one or two acquisitions on one port; locations, indices and sample counts of arbitrary mixtures are unbounded.", "anchors": ["quantify_scheduler/backends/mock/mock_rom.py: hardware_compile, MockReadoutModule.execute, MockROMInstrumentCoordinatorComponent.prepare/start/retrieve_acquisition", "quantify_scheduler/helpers/generate_acq_channels_data.py"]}
{"id": "C73", "title": "Time references and trigger inputs of a QTM", "statement": "When a time tag acquisition refers to another port, compilation either fails or the acquisition's reference channel becomes the index of the one channel of the module to which all port-clock combinations of that port are connected; no other operation changes. It fails exactly if no operation of the module uses the port or the port is connected to several channels. An external trigger is accepted exactly if the module in its slot, if described, is a QTM and every port-clock combination connected to the trigger's channel is a digital input whose threshold agrees with the trigger's, one of them being given; otherwise a ValueError is raised.", "quantifier": "every set of operations per port-clock combination, connectivity, hardware description, digitization thresholds and trigger settings", "why_tests_cant": "The tests use a handful of connectivities; combinations of clocks per port, channels and thresholds are unbounded.", "anchors": ["quantify_scheduler/backends/qblox/instrument_compilers.py: QTMCompiler._set_time_ref_channel, ClusterCompiler._validate_external_trigger_sync", "quantify_scheduler/backends/qblox_backend.py: ChannelPath.channel_idx", "quantify_scheduler/instrument_coordinator/components/qblox.py: _sync_on_external_trigger"]}
{"id": "C74", "title": "The hardware options of a port-clock reach its sequencer", "statement": "If a program compiles for an analog Qblox module and is loaded on it, then the sequencer of a port-clock has the AWG offsets and gains of its sequencer_options (0 and 1 by default, never beyond [-1, 1]), its TTL threshold, its mixer corrections (unless calibrated automatically), is connected to exactly the outputs and inputs that its channel name and that of its measurement name, modulates (and demodulates) exactly if it has an analog channel and interm_freq is not 0, has an NCO frequency that is that of the clock or adds up to it with the local oscillator, given frequencies being kept, and has the integration length, threshold, rotation, trigger address and TTL input of its acquisitions. Options out of range are refused; every channel a sequencer may serve is accepted.", "quantifier": "every module type, channel name and number, choice of options, clock and local oscillator frequencies, list of acquisitions, program, trigger setting, and every earlier state of the instrument with correct caches (or force_set_parameters)", "why_tests_cant": "Tests compile a few configurations and look at settings, not at the instrument; defaults, channel parsing, frequencies and acquisitions interact over infinitely many configurations and instrument histories.", "anchors": ["quantify_scheduler/backends/types/qblox.py: StaticHardwareProperties._get_connected_output_indices, _get_connected_input_indices, AnalogSequencerSettings.initialize_from_compilation_config, SequencerOptions, QbloxMixerCorrections", "quantify_scheduler/backends/qblox/analog.py: AnalogSequencerCompiler.__init__, frequency, assign_frequencies, _prepare_acq_settings", "quantify_scheduler/backends/qblox/instrument_compilers.py: default_markers, default_nco_en", "quantify_scheduler/instrument_coordinator/components/qblox.py: prepare, _configure_sequencer_settings"]}
