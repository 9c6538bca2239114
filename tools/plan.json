{
 "C01": [
  "TimingModel, TimingSpec: constraint graph, topological order, start times, the whole schedule tree",
  "induction over the topological order; a start time satisfies every constraint and attains one of them"
 ],
 "C02": [
  "TimingModel",
  "any topological order gives the same start times (induction along the order)"
 ],
 "C03": [
  "TimingModel",
  "well-foundedness of references; soundness, completeness and the exact error"
 ],
 "C04": [
  "TimingModel",
  "normalisation is a shift by the minimum"
 ],
 "C05": [
  "TimingModel",
  "induction over the list of schedulables"
 ],
 "C06": [
  "TimingModel, TimingSpec",
  "maximum over ends; tree induction with loops unrolled"
 ],
 "C07": [
  "TimingModel",
  "idempotence without delays; refutations by computation"
 ],
 "C08": [
  "SchedModel: state machine of Schedule.add, add_resource, make_hash",
  "invariant over all histories of calls, failing ones included"
 ],
 "C09": [
  "TableModel; executions as paths in the tree",
  "tree induction: bijection between rows and paths"
 ],
 "C10": [
  "NumericModel",
  "floor arithmetic over Q"
 ],
 "C11": [
  "RzModel: heap of shared operation objects",
  "simulation of the merge pass; refutations with aliasing"
 ],
 "C12": [
  "PulseCompModel: compensation pass and the timing pass after it",
  "tree induction, rational algebra"
 ],
 "C13": [
  "PulseCompModel",
  "tree induction over executed pulses"
 ],
 "C14": [
  "Q1Model, Q1Machine",
  "induction over the emitted waits; refutation for 65533 ns"
 ],
 "C15": [
  "Q1Model (generator), Q1Machine (sequencer), Q1Spec (what a forest of operations does)",
  "compiler correctness: simulation of code blocks by induction over the forest, repetitions unbounded"
 ],
 "C16": [
  "Q1Model",
  "case analysis of the wait before every operation"
 ],
 "C17": [
  "RegModel",
  "invariant over histories; refutation for R64"
 ],
 "C18": [
  "Q1Model, Q1Machine, Q1Spec",
  "loop counter invariant"
 ],
 "C19": [
  "Q1Model, Q1Machine",
  "execution of both branches; refutations"
 ],
 "C20": [
  "UpdModel with a latch semantics of parameters",
  "induction over the operation list and the control-flow forest"
 ],
 "C21": [
  "AcqIndexModel, Q1Machine",
  "invariant over allocation histories; executions of the program"
 ],
 "C22": [
  "AcqIndexModel",
  "invariant over histories; refutation in append mode"
 ],
 "C23": [
  "AcqChanModel",
  "tree induction; acceptance characterised exactly"
 ],
 "C24": [
  "NumericModel",
  "rounding lemmas over Q"
 ],
 "C25": [
  "NumericModel",
  "rounding and clamping lemmas"
 ],
 "C26": [
  "NumericModel",
  "rounding lemmas; refutation at a full turn"
 ],
 "C27": [
  "FreqModel",
  "case analysis, rational algebra"
 ],
 "C28": [
  "WfModel",
  "invariant over histories; the hash is an arbitrary function"
 ],
 "C29": [
  "RfModel",
  "list induction over executions; refutations"
 ],
 "C30": [
  "StackModel",
  "sweep invariant; pointwise sums of waveforms"
 ],
 "C31": [
  "StitchModel, pulse factories",
  "builder histories; rational algebra on ramps and staircases"
 ],
 "C32": [
  "CrossModel",
  "finite sums, inverse matrices; refutations"
 ],
 "C33": [
  "LatencyModel",
  "minimum over a list"
 ],
 "C34": [
  "CoordModel: the coordinator as a state machine over components",
  "invariant over all histories; refutation for failed prepares"
 ],
 "C35": [
  "Q1Model",
  "induction over the operation list; refutation across iterations"
 ],
 "C36": [
  "WfModel, NumericModel",
  "list lemmas"
 ],
 "C37": [
  "WfModel",
  "rational arithmetic of floor and remainder"
 ],
 "C38": [
  "DistModel (collect, sort, distribute, sort), DistSpec (what a schedule asks of a port-clock), then Q1Model and Q1Machine",
  "stable sorting of blocks (DistSort), tree induction (DistTree), composed with C15; refutations of each hypothesis"
 ],
 "C39": [
  "AcqIndexModel, AcqRetrieve, Q1Machine",
  "composition of the allocator, the executed program and the retrieval arithmetic"
 ],
 "C40": [
  "CircModel (circuit_to_device.py), CircSpec (which device-level circuit the configuration prescribes, as an inductive relation)",
  "soundness by induction on the depth, completeness by mutual induction on the relation, a store of shared operations with an invariant, C01 for simultaneity; refutations"
 ],
 "C41": [
  "CircModel (set_clocks), ClockSpec",
  "folds over the definitions in the tree, induction on the tree, exact acceptance; refutation for pulse compensation"
 ],
 "C42": [
  "CondModel (the pass), CondSpec (what runs when, triggers and counters of the sequencers)",
  "invariant of the label map, induction on the tree and the depth for the LatchResets, the check as an automaton over the sorted events, counter history argument; refutations"
 ],
 "C43": [
  "PathModel (port-clocks to channel paths with shared mutable path objects, greedy choice of sequencers per module type), PathSpec (wiring, channels per sequencer)",
  "invariant over ports and neighbours with a heap of shared paths, simulation by a function per port, table of allowed channels; refutations"
 ],
 "C44": [
  "LibModel (all functions of the five library modules over the builder Schedule.add with labels and uuids), LibSpec (time line of the compiled schedule), reuses TimingModel",
  "blocks of entries per setpoint by induction; labels distinct by decimal numerals; every operation refers backwards, so the timing pass accepts and its equations give the delays; refutations"
 ],
 "C45": [
  "JsonModel (values, JSON trees, encoder with every getstate, decoder with every setstate, class lookup, hashes), JsonSpec (what is read back, which values can be stored)",
  "induction on the size of the value with one predicate per place in a compiled schedule; agreement of hashes and sameness of documents by the same induction; a checker by computation for the examples; refutations"
 ],
 "C46": [
  "ZiModel (timing table, channels, corrections, waveform ids and table, sequencer programs, UHFQA settings), ZiSpec (clock cycles of the statements, execution of a program, occurrences of the schedule)",
  "induction on the instructions with the clock counter as invariant; rounding lemmas for the clock cycle; refutations of the unrestricted claims by computation"
 ],
 "C47": [
  "ZiModel (timing table, channels, corrections, waveform ids and table, sequencer programs, UHFQA settings), ZiSpec (table with shifts)",
  "the list of corrections as a fold over the acquisitions: invariant on residues modulo 8 and on the suffix that is shifted; the search for a correction always succeeds"
 ],
 "C48": [
  "ZiModel (timing table, channels, corrections, waveform ids and table, sequencer programs, UHFQA settings), ZiSpec (a row's own waveform)",
  "identifiers of rows are injective up to the stated substitution (string lemmas); the first row of each id represents it; lookup lemmas"
 ],
 "C49": [
  "ZiModel (timing table, channels, corrections, waveform ids and table, sequencer programs, UHFQA settings), ZiSpec (weight nodes and resolvers)",
  "invariant of the loop over the distinct acquisitions (nodes, channels, resolvers)"
 ],
 "C50": [
  "ZiFlat (flatten_schedule with its dictionaries, uuid supply, hashes; the time line of a nested schedule)",
  "induction over nested schedules; invariant of the loop over the schedulables: processed ones in place, results at the end, operations only added"
 ],
 "C51": [
  "QbModel (parameters with caches, lazy writes, prepare of all analog modules by method resolution), QbSpec (the value of each parameter, as an inductive relation)",
  "each method as a list of writes on the keys of interest (on success) and a set of keys it can touch (always); the last write of a key decides; tables of names without duplicates"
 ],
 "C52": [
  "QbModel (flags for changed frequencies, log of calibrations with the state of the instrument), QbSpec (when a calibration is due)",
  "relations kept by every call (log, flags, memory); decomposition of the loops at a sequencer"
 ],
 "C53": [
  "QbClModel (modules with their drivers, the remembered program, the commands sent), QbClSpec (effect of the commands on the sequencers)",
  "induction over the modules and over the calls; on top of C51 and C54"
 ],
 "C54": [
  "QbModel (prepare_qtm, config_io), QbQtmSpec (what the program wants)",
  "each step is a list of writes; the last write of each parameter"
 ],
 "C55": [
  "RetModel (retrieve, retrieve_cluster), RetSpec (what each bin stands for)",
  "the array of each channel from the bin functions; merging keeps all parts (Within), by induction over the parts"
 ],
 "C56": [
  "GettModel (ScheduleGettable as state and exceptions over CoordModel; hardware failures and data arbitrary), GettSpec (compiled_now, data_from)",
  "inversion of a successful get into its events; invariant `holding` over all actions that upload nothing else"
 ],
 "C57": [
  "PipeModel (compiler object, graph of node objects, heap of schedules, passes as arbitrary functions)",
  "the graph is a chain, every path from end to end is the chain; frame condition on the heap by induction over the passes"
 ],
 "C58": [
  "DevModel (values, validators, six class schemas, registry of open instruments, device, JSON document, histories)",
  "invariant of sessions (every instrument fits its class schema, names are consistent); re-construction from the document by induction over submodules and parameters"
 ],
 "C59": [
  "DevConf (operation templates, clocks, configuration), on DevModel",
  "the folds over elements and edges are maps of parts with distinct names and distinct clock names; tables checked per class"
 ],
 "C60": [
  "DcModel (heap of shared schedules, operations and pulse lists; sampling and filter functions arbitrary)",
  "footprints of trees in the heap, invariant of the loop over operations; induction over the depth"
 ],
 "C61": [
  "OvModel (operations in time, extents per port-clock, the scan)",
  "extents characterised by induction over pulse information; invariant of the scan linking neighbours in sorted order"
 ],
 "C62": [
  "FacModel: the factory functions, the constructors of the pulses and acquisitions they use, the call with keywords, overrides and defaults, on top of DevModel/DevConf (sessions and the generated configuration) and TimingModel (absolute times)",
  "inversion of each factory; device level by C59 (settings in the configuration); times by C01/C05 over the timing pass; refutations by concrete sessions"
 ],
 "C63": [
  "GateModel (unitaries over the reals of the standard library, with the stored angles of NumericModel), GateSpec (rotations from Pauli matrices), FacModel for the pulses",
  "trigonometry and matrix algebra; normalised angles by C10; induction over the circuit moving Rz to the end; the pulses by C62; refutation by a concrete session"
 ],
 "C64": [
  "ZiFreqModel: the options written to channels and oscillators in the order of the set of ports and clocks, parsing (interm_freq None is not a float), _add_lo_config for all channels of all devices with its updates of oscillators and settings",
  "invariants over the three passes for arbitrary lists (functions from channels and oscillators to values); acceptance by a simulation that never looks at frequencies; refutations with two qubits sharing an oscillator"
 ],
 "C65": [
  "NcoModel: old frequencies written down the tree, flattening with grid times, distribution over sequencers, the dictionaries as a heap that all sequencers write in prepare and read in compile, the checks of distances, the instructions",
  "exact correspondence of instructions and entries for arbitrary trees (induction on the tree, permutations through the sorts), the last sequencer wins in the heap, distances in both directions (refusal and acceptance), in-force frequency over time; refutations: two ports of a clock, downconverter"
 ],
 "C66": [
  "AcqSetModel: both _prepare_acq_settings as functions of the list of acquisition infos with optional keys",
  "acceptance as an iff with a pairwise specification, settings per acquisition, the trigger sent as a function of the count; refutations on concrete lists and for all lists"
 ],
 "C67": [
  "FineModel: the check in ps with its two running ends, the conversion to 1/128 ns, the instants of the emitted instructions",
  "check on ps equivalent to the relation on 1/128 ns for representable delays (rounding is periodic), acceptance iff by induction over the list, all pairs from neighbours; refutations on concrete lists"
 ],
 "C68": [
  "WaveModel (rationals): square, ramp, staircase, sudden_net_zero with slices and negative indices; WaveRModel (reals): soft_square with the Hann window and 'same' convolution, chirp, drag, skewed_hermite, rotate_wave",
  "sums over slices of the pulse; floor characterisation of staircase levels; derivatives with derivable_pt_lim; positivity of the Hann window; refutations on concrete or general inputs"
 ],
 "C69": [
  "AmpModel: peak and normalisation, generate_data and insert_qasm of pulses, the awg and weights dictionaries (with WfModel's table and NumericModel's gain conversion)",
  "invariant of the table over the list of pulses (entries keep the key of a part of a pulse), error bound per sample from the gain bound of C25 and 12-decimal keys; refutations on concrete pulses"
 ],
 "C70": [
  "OptModel: the three loops over portclock_to_path, with their local variables, unit conversion and range check, the scope check",
  "invariants over prefixes of the port-clocks (what was asked so far; the last port-clock of a channel); refutations on concrete modules"
 ],
 "C71": [
  "RtfModel: the settings of four outputs with five filters each, the loops of latency compensation over described channels and outputs, corrections per output, ranges, enabling",
  "the writes of the loops as a list of events (last write of an output and of a marker), map from outputs to corrections as an invariant; refutations on concrete modules"
 ],
 "C72": [
  "The whole chain: hardware_compile as a fold over the schedulables (using the acquisition indices of the model of C23), the instruction strings and their parsing, execute with a stream of random numbers, prepare/start/retrieve; the time grid of a trace in binary64 (SpecFloat).",
  "Invariant of the compilation fold (locations, mappings, gain, waveforms), uniqueness of the keys from C23, induction over the instructions for execution, over the mappings for retrieval; refutations by computation: a trace shows the first pulse only, traces of 15 samples, without pulse, ports with underscores, other ports than q0:res, sampling rates below 1 GHz."
 ],
 "C73": [
  "Operations per port-clock combination with their time_ref entries, paths from the model of C43 with dataclass equality (sets compared as sets); the validator with modules by slot, thresholds by port-clock combination.",
  "Both functions are characterised by equivalences (accepted iff), from which uniqueness, refusal and exception classes follow; composed with the coordinator model of C53 for triggers without a threshold."
 ],
 "C74": [
  "Initial settings of a sequencer (channel name parsing, options and their validators, NCO switch, default marker), then frequency assignment (FreqModel), then acquisition settings (AcqSetModel), giving the settings record of QbModel; the instrument is that of QbModel.",
  "Inversion of the three stages into what each setting is, composed with C51/C52 (parameters hold what the program wants), C27 (frequencies) and C66 (acquisitions); channel names split by lemmas on decimal numerals, for all numbers; acceptance as an iff; false parts refuted by concrete programs."
 ]
}