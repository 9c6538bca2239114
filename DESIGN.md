# Formal model of quantify-scheduler in Rocq/Coq 8.16.1

## Approach

Each area of the code is modelled as small total Gallina functions mirroring the Python functions branch by branch;
exceptions are values (`result A := Ok a | Err exn`, `theories/Base.v`).  Every definition cites the file and lines in
`/repo` it models and says where it simplifies.  For each area `X`:

* `theories/XModel.v`   executable model, no proofs (`Q1Machine.v` is the model of the hardware);
* `theories/XSpec.v`    (when the statement needs more vocabulary than fits beside the theorem) an independent specification;
* `theories/XProps*.v` and the others: lemmas, the theorems `Cnn_...` named in `MANIFEST.json`, and beside them
  `Example`s showing concrete cases that meet their hypotheses.

Naming: `_partial` = part of the property (comment says what is missing); `_refuted` = the claim in its name or comment is
false of the faithful model, with an explicit counterexample (a finding about the code).

Mutation tests: `seeded/LOG.jsonl` has one line per edited model (definition, edit, claim broken, theorems that failed,
theorems tightened because they did not).

## Numbers

Python floats (times in seconds, amplitudes, angles, frequencies) are modelled by exact rationals `Q`; hardware
times (integer ns after `to_grid_time`), bins, indices and DAC codes by `Z`.  Floating point rounding is NOT modelled.

## Plan per property

<!-- plan -->
| id | property | model and specification | how it is proved | status |
|---|---|---|---|---|
| C01 | ASAP start times satisfy every timing constraint, tightly | TimingModel, TimingSpec: constraint graph, topological order, start times, the whole schedule tree | induction over the topological order; a start time satisfies every constraint and attains one of them | proved |
| C02 | Timing does not depend on the topological order chosen | TimingModel | any topological order gives the same start times (induction along the order) | proved |
| C03 | Unknown or circular references are rejected; a schedule is only timed when its references are well-founded | TimingModel | well-foundedness of references; soundness, completeness and the exact error | proved |
| C04 | Normalised start times are non-negative and keep relative timing | TimingModel | normalisation is a shift by the minimum | proved |
| C05 | Unconstrained operations are played back to back and the duration is the sum | TimingModel | induction over the list of schedulables | proved |
| C06 | The reported schedule duration covers every operation and is attained | TimingModel, TimingSpec | maximum over ends; tree induction with loops unrolled | proved |
| C07 | Determining timing again does not change a schedule | TimingModel | idempotence without delays; refutations by computation | partial |
| C08 | Schedule.add keeps labels unique and every schedulable resolvable | SchedModel: state machine of Schedule.add, add_resource, make_hash | invariant over all histories of calls, failing ones included | partial |
| C09 | The timing table lists every loop iteration exactly once at the right time | TableModel; executions as paths in the tree | tree induction: bijection between rows and paths | proved |
| C10 | Rotation angles are mapped to the equivalent angle in (-180, 180] | NumericModel | floor arithmetic over Q | partial |
| C11 | Merging consecutive Rz gates preserves the accumulated Z rotation | RzModel: heap of shared operation objects | simulation of the merge pass; refutations with aliasing | partial |
| C12 | Compensation pulses cancel the net flux within limits | PulseCompModel: compensation pass and the timing pass after it | tree induction, rational algebra | partial |
| C13 | Compensation pulses start after the last pulse on their port | PulseCompModel | tree induction over executed pulses | partial |
| C14 | Waits take exactly the requested time and each immediate is legal | Q1Model, Q1Machine | induction over the emitted waits; refutation for 65533 ns | partial |
| C15 | Compiled sequencer programs play every operation at its scheduled time | Q1Model (generator), Q1Machine (sequencer), Q1Spec (what a forest of operations does) | compiler correctness: simulation of code blocks by induction over the forest, repetitions unbounded | proved |
| C16 | Operations that would be late are rejected | Q1Model | case analysis of the wait before every operation | proved |
| C17 | Register allocation never hands out a live register | RegModel | invariant over histories; refutation for R64 | partial |
| C18 | Loops execute their body exactly the requested number of times | Q1Model, Q1Machine, Q1Spec | loop counter invariant | proved |
| C19 | Both branches of a conditional take the same time | Q1Model, Q1Machine | execution of both branches; refutations | partial |
| C20 | Removing redundant parameter updates keeps every parameter change effective at the same time | UpdModel with a latch semantics of parameters | induction over the operation list and the control-flow forest | proved |
| C21 | Acquisitions of different channels and indices never share a hardware bin | AcqIndexModel, Q1Machine | invariant over allocation histories; executions of the program | proved |
| C22 | Bin capacity of the hardware is respected | AcqIndexModel | invariant over histories; refutation in append mode | partial |
| C23 | Acquisition indices are unique and contiguous per channel | AcqChanModel | tree induction; acceptance characterised exactly | proved |
| C24 | Grid rounding is exact or rejected | NumericModel | rounding lemmas over Q | proved |
| C25 | Amplitude to DAC code conversion is range safe and monotone | NumericModel | rounding and clamping lemmas | proved |
| C26 | NCO phase and frequency words are in range and faithful | NumericModel | rounding lemmas; refutation at a full turn | partial |
| C27 | Clock, LO and intermediate frequency are consistent | FreqModel | case analysis, rational algebra | proved |
| C28 | Waveform table indices are unique and shared only by equal waveforms | WfModel | invariant over histories; the hash is an arbitrary function | proved |
| C29 | The RF switch is on during every microwave pulse | RfModel | list induction over executions; refutations | partial |
| C30 | Pulse stacking preserves the played waveform | StackModel | sweep invariant; pointwise sums of waveforms | partial |
| C31 | Stitched pulses have the requested waveform and end at zero offset | StitchModel, pulse factories | builder histories; rational algebra on ramps and staircases | partial |
| C32 | Crosstalk compensation yields the requested amplitudes | CrossModel | finite sums, inverse matrices; refutations | partial |
| C33 | Relative latency corrections are non-negative and minimal | LatencyModel | minimum over a list | proved |
| C34 | Instrument coordinator only starts what was prepared | CoordModel: the coordinator as a state machine over components | invariant over all histories; refutation for failed prepares | partial |
| C35 | Acquisitions of one sequencer are at least 300 ns apart or rejected | Q1Model | induction over the operation list; refutation across iterations | partial |
| C36 | Waveforms are padded to the hardware granularity with zeros only | WfModel, NumericModel | list lemmas | proved |
| C37 | Shifting a waveform to the clock grid keeps its start time | WfModel | rational arithmetic of floor and remainder | proved |
| C39 | Retrieved results are read from the bins the acquisitions were executed into | AcqIndexModel, AcqRetrieve, Q1Machine | composition of the allocator, the executed program and the retrieval arithmetic | proved |
| C38 | Each sequencer plays exactly the executions its port-clock is scheduled for | DistModel (collect, sort, distribute, sort), DistSpec (what a schedule asks of a port-clock), then Q1Model and Q1Machine | stable sorting of blocks (DistSort), tree induction (DistTree), composed with C15; refutations of each hypothesis | proved |
| C40 | A circuit is compiled to exactly what the device configuration prescribes | CircModel (circuit_to_device.py), CircSpec (which device-level circuit the configuration prescribes, as an inductive relation) | soundness by induction on the depth, completeness by mutual induction on the relation, a store of shared operations with an invariant, C01 for simultaneity; refutations | partial |
| C41 | Every schedule gets the clocks it uses, each with one frequency | CircModel (set_clocks), ClockSpec | folds over the definitions in the tree, induction on the tree, exact acceptance; refutation for pulse compensation | partial |
| C42 | A conditional acts on the result of its own acquisition | CondModel (the pass), CondSpec (what runs when, triggers and counters of the sequencers) | invariant of the label map, induction on the tree and the depth for the LatchResets, the check as an automaton over the sorted events, counter history argument; refutations | partial |
| C43 | Every port-clock is played by a sequencer wired to its port | PathModel (port-clocks to channel paths with shared mutable path objects, greedy choice of sequencers per module type), PathSpec (wiring, channels per sequencer) | invariant over ports and neighbours with a heap of shared paths, simulation by a function per port, table of allowed channels; refutations | partial |
| C44 | Library experiment schedules contain the documented sequence at every setpoint | LibModel (all functions of the five library modules over the builder Schedule.add with labels and uuids), LibSpec (time line of the compiled schedule), reuses TimingModel | blocks of entries per setpoint by induction; labels distinct by decimal numerals; every operation refers backwards, so the timing pass accepts and its equations give the delays; refutations | partial |
| C45 | Schedules and operations survive storing as JSON | JsonModel (values, JSON trees, encoder with every getstate, decoder with every setstate, class lookup, hashes), JsonSpec (what is read back, which values can be stored) | induction on the size of the value with one predicate per place in a compiled schedule; agreement of hashes and sameness of documents by the same induction; a checker by computation for the examples; refutations | partial |
| C46 | Zurich Instruments programs play every pulse and acquisition of their channel at its clock cycle | ZiModel (timing table, channels, corrections, waveform ids and table, sequencer programs, UHFQA settings), ZiSpec (clock cycles of the statements, execution of a program, occurrences of the schedule) | induction on the instructions with the clock counter as invariant; rounding lemmas for the clock cycle; refutations of the unrestricted claims by computation | partial |
| C47 | Alignment to the Zurich Instruments clocks only delays, keeps the order and aligns the acquisitions | ZiModel (timing table, channels, corrections, waveform ids and table, sequencer programs, UHFQA settings), ZiSpec (table with shifts) | the list of corrections as a fold over the acquisitions: invariant on residues modulo 8 and on the suffix that is shifted; the search for a correction always succeeds | partial |
| C48 | Zurich Instruments programs play the waveform of the scheduled pulse | ZiModel (timing table, channels, corrections, waveform ids and table, sequencer programs, UHFQA settings), ZiSpec (a row's own waveform) | identifiers of rows are injective up to the stated substitution (string lemmas); the first row of each id represents it; lookup lemmas | partial |
| C49 | UHFQA acquisition settings match the scheduled acquisitions | ZiModel (timing table, channels, corrections, waveform ids and table, sequencer programs, UHFQA settings), ZiSpec (weight nodes and resolvers) | invariant of the loop over the distinct acquisitions (nodes, channels, resolvers) | partial |
| C50 | Flattening subschedules for the Zurich Instruments backend keeps what is played and when | ZiFlat (flatten_schedule with its dictionaries, uuid supply, hashes; the time line of a nested schedule) | induction over nested schedules; invariant of the loop over the schedulables: processed ones in place, results at the end, operations only added | partial |
| C51 | After prepare a Qblox module is configured as its program says | QbModel (parameters with caches, lazy writes, prepare of all analog modules by method resolution), QbSpec (the value of each parameter, as an inductive relation) | each method as a list of writes on the keys of interest (on success) and a set of keys it can touch (always); the last write of a key decides; tables of names without duplicates | partial |
| C52 | Automatic mixer calibrations run exactly when due, with the new frequencies | QbModel (flags for changed frequencies, log of calibrations with the state of the instrument), QbSpec (when a calibration is due) | relations kept by every call (log, flags, memory); decomposition of the loops at a sequencer | partial |
| C53 | A Qblox cluster runs exactly the sequencers of the prepared program | QbClModel (modules with their drivers, the remembered program, the commands sent), QbClSpec (effect of the commands on the sequencers) | induction over the modules and over the calls; on top of C51 and C54 | partial |
| C54 | After prepare a QTM is configured as its program says | QbModel (prepare_qtm, config_io), QbQtmSpec (what the program wants) | each step is a list of writes; the last write of each parameter | proved |
| C55 | Data retrieved from Qblox modules is what the hardware measured | RetModel (retrieve, retrieve_cluster), RetSpec (what each bin stands for) | the array of each channel from the bin functions; merging keeps all parts (Within), by induction over the parts | partial |
| C56 | ScheduleGettable returns the data of the schedule it stands for | GettModel (ScheduleGettable as state and exceptions over CoordModel; hardware failures and data arbitrary), GettSpec (compiled_now, data_from) | inversion of a successful get into its events; invariant `holding` over all actions that upload nothing else | partial |
| C57 | The compiler runs every configured pass once, in order | PipeModel (compiler object, graph of node objects, heap of schedules, passes as arbitrary functions) | the graph is a chain, every path from end to end is the chain; frame condition on the heap by induction over the passes | partial |
| C58 | A saved device loads as the same device | DevModel (values, validators, six class schemas, registry of open instruments, device, JSON document, histories) | invariant of sessions (every instrument fits its class schema, names are consistent); re-construction from the document by induction over submodules and parameters | partial |
| C59 | The device configuration is exactly the settings of its elements and edges | DevConf (operation templates, clocks, configuration), on DevModel | the folds over elements and edges are maps of parts with distinct names and distinct clock names; tables checked per class | partial |
| C60 | Software distortion corrections change exactly the pulses they are for, once | DcModel (heap of shared schedules, operations and pulse lists; sampling and filter functions arbitrary) | footprints of trees in the heap, invariant of the loop over operations; induction over the depth | partial |
| C61 | The check for pulses overlapping voltage offsets | OvModel (operations in time, extents per port-clock, the scan) | extents characterised by induction over pulse information; invariant of the scan linking neighbours in sorted order | partial |
| C62 | Gates and measurements become the pulses that the device was set up for | FacModel: the factory functions, the constructors of the pulses and acquisitions they use, the call with keywords, overrides and defaults, on top of DevModel/DevConf (sessions and the generated configuration) and TimingModel (absolute times) | inversion of each factory; device level by C59 (settings in the configuration); times by C01/C05 over the timing pass; refutations by concrete sessions | partial |
| C63 | The unitaries of gates, of composite gates, and of the pulses played for them | GateModel (unitaries over the reals of the standard library, with the stored angles of NumericModel), GateSpec (rotations from Pauli matrices), FacModel for the pulses | trigonometry and matrix algebra; normalised angles by C10; induction over the circuit moving Rz to the end; the pulses by C62; refutation by a concrete session | partial |
| C64 | Zurich Instruments: local oscillators are set so that outputs are at the frequencies of their clocks | ZiFreqModel: the options written to channels and oscillators in the order of the set of ports and clocks, parsing (interm_freq None is not a float), _add_lo_config for all channels of all devices with its updates of oscillators and settings | invariants over the three passes for arbitrary lists (functions from channels and oscillators to values); acceptance by a simulation that never looks at frequencies; refutations with two qubits sharing an oscillator | partial |
| C65 | Changes of clock frequency and phase reach the NCO of every sequencer of the clock | NcoModel: old frequencies written down the tree, flattening with grid times, distribution over sequencers, the dictionaries as a heap that all sequencers write in prepare and read in compile, the checks of distances, the instructions | exact correspondence of instructions and entries for arbitrary trees (induction on the tree, permutations through the sorts), the last sequencer wins in the heap, distances in both directions (refusal and acceptance), in-force frequency over time; refutations: two ports of a clock, downconverter | partial |
| C66 | Acquisition settings of a Qblox sequencer fit all of its acquisitions | AcqSetModel: both _prepare_acq_settings as functions of the list of acquisition infos with optional keys | acceptance as an iff with a pairwise specification, settings per acquisition, the trigger sent as a function of the count; refutations on concrete lists and for all lists | partial |
| C67 | Fine delays on a QTM are executable | FineModel: the check in ps with its two running ends, the conversion to 1/128 ns, the instants of the emitted instructions | check on ps equivalent to the relation on 1/128 ns for representable delays (rounding is periodic), acceptance iff by induction over the list, all pairs from neighbours; refutations on concrete lists | partial |
| C68 | The standard waveforms have their documented shape | WaveModel (rationals): square, ramp, staircase, sudden_net_zero with slices and negative indices; WaveRModel (reals): soft_square with the Hann window and 'same' convolution, chirp, drag, skewed_hermite, rotate_wave | sums over slices of the pulse; floor characterisation of staircase levels; derivatives with derivable_pt_lim; positivity of the Hann window; refutations on concrete or general inputs | partial |
| C69 | A Qblox sequencer puts out the samples of its pulses | AmpModel: peak and normalisation, generate_data and insert_qasm of pulses, the awg and weights dictionaries (with WfModel's table and NumericModel's gain conversion) | invariant of the table over the list of pulses (entries keep the key of a part of a pulse), error bound per sample from the gain bound of C25 and 12-decimal keys; refutations on concrete pulses | partial |
| C70 | Hardware options of port-clocks reach the settings of their module | OptModel: the three loops over portclock_to_path, with their local variables, unit conversion and range check, the scope check | invariants over prefixes of the port-clocks (what was asked so far; the last port-clock of a channel); refutations on concrete modules | partial |
| C71 | Real-time distortion filters are configured as asked, output by output | RtfModel: the settings of four outputs with five filters each, the loops of latency compensation over described channels and outputs, corrections per output, ranges, enabling | the writes of the loops as a list of events (last write of an output and of a marker), map from outputs to corrections as an invariant; refutations on concrete modules | partial |
| C72 | Mock readout backend returns what was scheduled | The whole chain: hardware_compile as a fold over the schedulables (using the acquisition indices of the model of C23), the instruction strings and their parsing, execute with a stream of random numbers, prepare/start/retrieve; the time grid of a trace in binary64 (SpecFloat). | Invariant of the compilation fold (locations, mappings, gain, waveforms), uniqueness of the keys from C23, induction over the instructions for execution, over the mappings for retrieval; refutations by computation: a trace shows the first pulse only, traces of 15 samples, without pulse, ports with underscores, other ports than q0:res, sampling rates below 1 GHz. | partial |
| C73 | Time references and trigger inputs of a QTM | Operations per port-clock combination with their time_ref entries, paths from the model of C43 with dataclass equality (sets compared as sets); the validator with modules by slot, thresholds by port-clock combination. | Both functions are characterised by equivalences (accepted iff), from which uniqueness, refusal and exception classes follow; composed with the coordinator model of C53 for triggers without a threshold. | partial |
| C74 | The hardware options of a port-clock reach its sequencer | Initial settings of a sequencer (channel name parsing, options and their validators, NCO switch, default marker), then frequency assignment (FreqModel), then acquisition settings (AcqSetModel), giving the settings record of QbModel; the instrument is that of QbModel. | Inversion of the three stages into what each setting is, composed with C51/C52 (parameters hold what the program wants), C27 (frequencies) and C66 (acquisitions); channel names split by lemmas on decimal numerals, for all numbers; acceptance as an iff; false parts refuted by concrete programs. | partial |
<!-- /plan -->

## Trusted base

* Coq's kernel (8.16.1), including its `vm_compute` machine, and the parsing of the statements.
* `Print Assumptions` says "Closed under the global context" for every theorem named in `MANIFEST.json` except those of
  C63 and the ones of C68 about reals (`python3 tools/assumptions.py` in a built checkout prints the list). These are about sines, cosines, exponentials
  and square roots, over the reals of the standard library, and use its axioms: `ClassicalDedekindReals.sig_not_dec`,
  `ClassicalDedekindReals.sig_forall_dec`, `FunctionalExtensionality.functional_extensionality_dep`, and, for
  `C63_rxy_close` and `C68_drag_shape` only, `Classical_Prop.classic`. There is no axiom of any other library and none of our own. No kernel
  check is switched off. (`Rdefinitions` seals the constants of the reals, `R`, `R0`, `R1`, `Rplus`, ..., behind a signature, and the
  standard library's `Setoid` loads `Coq.ssr.ssrunder`, so a list of everything
  loaded shows these constants and the parameters of `ssrunder` too; they are no assumptions of the theorems.)
* For C63: that a pulse of the amplitude of Rxy(theta, .) and total phase p rotates the qubit by theta around the axis at
  p (GateVirtual.v, `played` and `rotations`), for either orientation of the axis in the refutation.
* For C42: the trigger counters of CondSpec.v (a LatchReset zeroes them, triggers arrive within a fixed latency).
* The faithfulness of the hand-written model to the Python code. The mapping is in the comments, definition by
  definition; the general simplifications are listed below.
* For C15, C16, C18-C21, C35, C38, C39: `Q1Machine.v`, an operational semantics of the Qblox Q1 sequence
  processor written from the vendor's instruction set documentation as far as the code base and its comments reflect it
  (registers of 32 bits, real-time queue with one wall clock, `set_cond` with trigger latches, `loop`, `wait`, `play`,
  `acquire`...). The outcome of the trigger conditions is an arbitrary function `env` in the theorems.

* For C46, C48: `ZiSpec.v`, the clock cycles and effects of the statements of SeqC programs, written from the table in
  seqc_il_generator.py and its comments.

General simplifications, besides those in the comments:

* floats are rationals; `np.round`-like operations are exact; NaN and infinities are not represented (FreqModel: "not given");
* Python dictionaries are association lists in insertion order; sets are lists whose order is not used by any theorem;
* `hash` of operations (C08, C28) is an arbitrary function or CPython's integer hash as stated at the definition;
* logging, warnings, plotting and the text of error messages are dropped; the class of an exception is kept;
* object identity is modelled (as a heap) only where the code's behaviour depends on it: C11, C30, C32, C34, C43.

## What is modelled

| code | files |
|---|---|
| compilation.py: absolute timing (ASAP, ALAP), normalisation, durations, merging of Rz gates | Timing*, Rz* |
| schedules/schedule.py: add, add_resource, timing table, durations | Sched*, Table* |
| operations/gate_library.py: angles; operations/control_flow_library.py: durations, port-clocks; operation.py: durations | Numeric*, Table*, Dist* |
| backends/circuit_to_device.py | Circ*, Clock* |
| pulse_compensation (backends/qblox), crosstalk_compensation.py, stack_pulses.py, auto_rf_switch.py | PulseComp*, Cross*, Stack*, Rf* |
| backends/qblox/operations/stitched_pulse.py, pulse_factories.py (long square, staircase, ramp) | Stitch* |
| backends/qblox/helpers.py: collection and distribution of operations, grid times, waveform helpers | Dist*, Numeric*, Wf* |
| backends/qblox: qasm_program.py, register_manager.py, compiler_abc.py (program generation, ordering, removal of parameter updates), conditional.py, operation strategies | Q1*, Reg*, Upd* |
| backends/qblox/qblox_acq_index_manager.py, helpers/generate_acq_channels_data.py, binned retrieval of instrument_coordinator/components/qblox.py | AcqIndex*, AcqChan*, AcqRetrieve |
| backends/corrections.py: latency corrections; frequency assignment of LO and IF | Latency*, Freq* |
| backends/qblox_backend.py: compilation of conditional playback (labels, addresses, LatchResets) | Cond* |
| backends/qblox_backend.py: port-clock combinations to clusters, modules and sequencers; types/common.py: connectivity graph | Path* |
| schedules/timedomain_schedules.py, spectroscopy_schedules.py, two_qubit_transmon_schedules.py, verification.py, trace_schedules.py | Lib* |
| json_utils.py, the `__getstate__`/`__setstate__` methods of schedules, operations, resources and compiled instructions, helpers/importers.py, make_hash | Json* |
| backends/zhinst_backend.py, backends/zhinst/seqc_il_generator.py (timing, channels, programs, waveforms, UHFQA settings) | Zi* |
| instrument_coordinator/instrument_coordinator.py | Coord* |
| instrument_coordinator/components/qblox.py: prepare of the modules, ClusterComponent; utility.py: lazy_set | Qb* |
| instrument_coordinator/components/qblox.py: acquisition managers of QRM and QTM, retrieval of a cluster; utility.py: merging, coordinates (xarray's align and merge are modelled for the arrays that occur) | Ret* |
| gettables.py, helpers/diagnostics_report.py (flag and contents) | Gett* |
| backends/graph_compilation.py: the serial compiler (networkx's shortest path by its contract) | Pipe* |
| device_under_test/: quantum_device.py, device_element.py, edge.py, the six element and edge classes; helpers/validators.py | Dev* |
| backends/corrections.py: software distortion corrections | Dc* |
| backends/qblox_backend.py: check of pulses that overlap voltage offsets | Ov* |
| operations/pulse_factories.py, measurement_factories.py, composite_factories.py; the constructors in pulse_library.py and acquisition_library.py that they call; circuit_to_device.py: _get_device_repr_from_cfg (not: arrays or complex numbers as amplitudes, nan times, warnings) | Fac* |
| operations/gate_library.py: the unitaries; what pulses with clock phases do to a qubit (a pulse of amplitude amp180*theta/180 and phase p on a clock with phase c rotates by theta around the axis p + c: specification, not code) | Gate* |
| `zhinst_backend.py` l.905-946, l.1442-1480, `_add_lo_config`, `_parse_local_oscillators`; `types/zhinst.py` Modulation | ZiFreq* |
| `qblox_backend.py` `_add_clock_freqs_to_set_clock_frequency`; `qblox/helpers.py` l.724-985 (pulses); `qblox/analog.py` l.418-462; `operation_handling/virtual.py` l.60-160 | Nco* |
| `qblox/analog.py` l.227-415; `qblox/timetag.py` l.266-440; `compiler_abc.py` l.307-320, l.484-524 | AcqSet* |
| `qblox/timetag.py` l.114, l.158-240; `helpers.py` l.1551-1563; `operation_handling/pulses.py` l.331-375; `acquisitions.py` l.431-480 (instants) | Fine* |
| `waveforms.py` l.24-370, l.453-561 (all but interpolated_complex_waveform; floats are rationals or reals) | Wave* |
| `helpers/waveforms.py` l.449-487; `qblox/operation_handling/pulses.py` l.57-245; `qblox/compiler_abc.py` l.349-470; `acquisitions.py` l.185-264 (real weights) | Amp* |
| `qblox/analog.py` l.700-815, l.903-950, l.1204-1260; `qblox/helpers.py` l.986-1040; `qblox_backend.py` l.1429-1451 | Opt* |
| `qblox/instrument_compilers.py` l.68-157; `qblox/analog.py` l.816-902, l.1261-1285; `types/qblox.py` l.95-108 | Rtf* |
| `backends/mock/mock_rom.py` (compilation, module, coordinator component; waveform functions and coordinates other than the acquisition index excluded) | Mock* |
| `backends/qblox/instrument_compilers.py` l.463-505, l.619-690 (time references, external trigger) | Tref* |
| types/qblox.py AnalogSequencerSettings.initialize_from_compilation_config, connected indices, SequencerOptions, QbloxMixerCorrections (fields of the sequencer); analog.py AnalogSequencerCompiler.__init__ (without labels), frequency setter, assign_frequencies; default_markers | Init* |

## What is not modelled

The mock backend, hardware configuration parsing and validation (pydantic), resampling and interpolation of waveforms (scipy), diagrams,
the conversion of data to I/Q arrays in gettables (quantify_core), JSON serialisation of pydantic models, qcodes itself, the printer and parser of Python's json, instrument drivers and everything that talks to instruments (except the calls
that prepare, start and read out Qblox modules, C51-C55), InlineQ1ASM, and asynchronous or concurrent use.
