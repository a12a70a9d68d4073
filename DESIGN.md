# Formal model of yaleqc/qtcodes in Rocq (Coq 8.16.1)

## Approach

The Python code is modelled as total, computable Gallina functions (std++ style), function by
function, branch by branch, with exceptions as values and mutable objects as explicit state.
External libraries are modelled by a contract:

* **Qiskit** – a circuit is the list of instructions appended to it plus the list of registers;
  a duplicate register name, a negative size, an empty operand list and operand lists of `measure` whose
  lengths do not fit raise `CircuitError`.  A register made without a name (C70) is called "c" or "q"
  and the value of a counter of its class, which then grows by one; the size is checked first.  The model does not check that the operands of a gate are
  in the circuit and differ; C64 shows that the library never gets that wrong, so the check would not
  be observable.  The instructions have a
  state-vector semantics (unnormalised amplitudes over finite sets of qubits, an arbitrary
  2-torsion-free abelian group of amplitudes), all measurement/reset outcomes being quantified over.
  A counts key is the space-separated list of classical registers, last added first, most significant
  bit first.
* **retworkx** – `PyGraph` (multigraph=False) is modelled concretely; `graph_floyd_warshall_numpy`,
  `num_shortest_paths_unweighted` and `max_weight_matching` are arguments constrained by a contract
  (shortest distances, path counts, *some* maximum-weight maximum-cardinality matching), and the
  contract is shown satisfiable by a reference implementation.
* **numpy / files / floats** – arrays are lists, `argsort` is any sorting permutation, floats are
  idealised to rationals / reals (stated per theorem), the data file is `absent | corrupt | contents`.

## Per property plan

| id | model | proof |
|----|-------|-------|
| C01 | `_params_validate_and_generate` over Z | arithmetic |
| C02 | `_set_geometry` index lists vs coordinates of the h x w grid | div/mod arithmetic |
| C03 C04 C08 | Pauli operators of plaquettes and logical operators, commutation = parity of overlap | overlap counting on the checkerboard |
| C05 | subsets of plaquettes | peeling / triangular argument |
| C06 | sets of data qubits | row-parity invariant |
| C07 | plaquettes containing a data qubit | geometry |
| C09-C13 | state-vector semantics of emitted instructions | Pauli-frame (stabilizer) lemmas proved from the state-vector semantics |
| C14 C21 | strings, `split`, `int(_,2)`, masks, shifts | induction on bit lists |
| C15 | `TopologicalCircuit.cx` instructions; Z basis proved; superposition refuted | stabilizer lemmas / computed witness |
| C16-C20 | heap of params dicts, circuit state machine with exceptions | invariants over histories / witnesses |
| C22-C24 | recursive graph construction on fuel | DFS invariant + connectivity |
| C25 C26 C43 | error graph + matching contract | T-join lemma, triangle inequality, cut argument |
| C27 | composition of circuits, counts key, parse, decode | composition |
| C44 | the same with the data qubits read out | composition |
| C45 | decoding with every real `err_prob` (Degen.v) | the first pair weighed raises; otherwise as C31 |
| C46 | the same with a bound on degeneracies | cut argument of C26 with perturbed weights |
| C47 C48 | file names, directory listings (Bench.v) | injectivity of the printed numbers; permutation of the sorted list |
| C49 | Pauli gates inserted into the emitted code | Pauli frames pushed through the rounds; each fault accounted for by at most two edges; computed counterexample for the factor |
| C50 | the same with `err_prob` | composition with C46 |
| C51 | as C26 | complement of the flipped qubits within the chain, C26 |
| C52 | programs constructing qubits on one circuit | invariant with exact register names; parsing of numbered names |
| C53 | interleaved calls and errors on several qubits | instructions on different qubits commute; shuffles of independent instructions; composition with C27, C44 |
| C54 | decoder objects, their encoders, dictionaries as heap cells shared with qubits, programs over both | every library call keeps the size and flag stored in every dictionary; invariant on one decoder along a program; composition with C27, C44, C22 |
| C55 | circuits with Pauli errors after identity gates, expectations over error patterns | a noisy circuit is the circuit of a history with faults (up to gates without effect), so C27/C26 and C51 decide the extreme patterns; counting by induction over the places; binomial identities |
| C56 | the ideal machine of SpecIdeal.v (apply a Pauli, project on a recorded value) against the amplitudes computed by the emitted instructions | refinement: each call simulates its ideal operations up to a power of two and a basis state of the ancilla (Ideal.v, IdealRound.v, IdealRun.v), by induction over the history; commuting projections reorder the plaquettes; on eigenstates a projection is 0 or multiplication by 2 |
| C57 | sessions of calls and cx on a register (CxHist.v) against the classical machine of SpecProgram.v, whose bits may be unknown | simulation, by induction over the session: per call, what the emitted instructions do to the eigenvalue of every logical Z (LZ_op, reset_spec, readz_spec; for cx the new lemma cx_product, that the target's Z becomes the product of both, and the fact that cx leaves the control definite); contradictory readings have amplitude zero; readout registers are fresh and nothing else writes to them |
| C58 | `correct_readout` with every kind of argument (DecoderApi.v) | counting of crossing matches; reduction to C26 and C46 |
| C59 | `_run_mwpm_graph` (DecoderApi.v) | invariant of the loop that builds the graph; perfect matching of C25 |
| C60 | squared norms of the branches of a circuit (SpecFair.v) over integer amplitudes | four-run relation: if three lists of outcomes are possible then so is their sum, with the same norm and the summed record (Fair.v, FairRun.v: states reached from a basis state are fixed up to a sign by their stabilizers; FairNorm.v: norms add up to 2^hadamards); hence equal classes, whose number divides a power of two; session induction for the API |
| C61 | C60's probabilities of the shots of circuits with faults inserted at random (P_Rate.v) | C49 and C50 decide the patterns with few faults, C60_certain turns certainty into probability 0; sums over the patterns; independent errors reduce to C55's binomial bound |
| C62 | `parse_readout` on every string, with Python's `int(_, 2)` (SpecInt.v, P_ParseAny.v) | a grammar of base-2 numerals proved equivalent to the parser; case analysis on the words, reusing C21's masks |
| C63 | `cx` with one X error on `cnot_readout`, inside a session (Par.v, P_CxFault.v) | calls do not depend on the instructions already emitted (Par.v); simulation between configurations that differ in the bit m1 only, which every cx overwrites before reading; readings from C57 |
| C64 | programs over one circuit (SpecLegal.v): constructors, registers, several TopologicalCircuits, all methods, failing calls | Hoare-style rules for the exception monad (`ok` in P_Legal.v) with an invariant on circuit, qubits, registers and dictionaries; induction over the program |
| C65 | `TopologicalCircuit.cx` with empty dictionaries on a circuit that has its registers (P_Second.v) | symbolic execution of four calls |
| C66 | runs of C27 and C44 with errors before the first and after the last round (P_Prep.v), also with an error probability (P_PrepW.v) | induction over the run: the errors of the first stretch only set the reference signs; counting along the readout row |
| C67 | the decoders for two values of T (P_Rounds.v); degeneracies of a 3x3 code for any T (P_RoundsW.v) and the circuits they come from (P_PrepW.v) | paths of the longer graph are mapped into the shorter one without getting longer; the shortest paths are enumerated and all pairings of two events compared |
| C68 | programs of calls and cx with errors between them (SpecSpread.v) against the classical machine of C57 with inversions; the words of one qubit in the key (RegsGrow.v: registers are only appended, names stay different) | simulation by induction over the program as in C57; beside it, for each stabilizer of each qubit, that every call, every cx and every error elsewhere keeps its value and an own error inverts it; then C26 on the record of one qubit |
| C69 | TReg.v adds treg["name"] and the list treg.params to the register of TCirc.v; SpecTReg.v says what is shown in terms of one list of entries (`shows`), and what a call may do to it (`carried_out`). Induction over programs; C69_same: the register built is that of TCirc.v. |
| C70 | TReg.v: `u_add` with the key None and qiskit's counters; SpecAddReg.v describes the result by the list of calls (first of each key, overriding ones, first of each name). Induction over the calls; the three corollaries are what a user meets. |
| C71 | TestSuite.v: the tests themselves, `get_neighbors` of both classes, `simulate` with any counts the simulator may return (SpecTests.v), the decoder object of DecObj.v reused between the cases; a run ends in Passed, Failed or Raised. From C21, C27, C07 for a single error between two rounds, then induction over the cases. |
| C72 | Bench.v, Noise.v; both types of stabilizers in one run (`both_reported`) and C26 for the type that was not prepared | as C27, then the arithmetic of rates from C36 |
| C73 | Lookup.v with shots of the circuits of C27 (`shot`) | C27 decodes a shot to its value, so the two tables are disjoint; C33-C35 then give the result |
| C74 | The circuits of C27 (`memory_run`) with the probabilities of C60 and Lookup.v | After a reset an error of the other type fixes the state but moves the outcomes of the round, and chains of errors to the boundary reach every combination (FirstRound.v); C60 makes them equally likely; the reports of C71 show they determine the string |
| C75 | Degen.v on the decoding graph of a repetition code with one layer | The graph is a line with two boundary nodes (LineGraph.v), so shortest paths are unique and weights are integers times one positive or negative number; every pairing of a line gives the same value (LineDecode.v); C55 and C36 give the rates |
| C76 | Circ.v as before; SpecSize.v defines counts, levels of bits and depth as Qiskit does | Sums over plaquettes of the closed forms of Hist.v (SizeFacts.v); upper and lower bounds on the levels of all bits, by layers, chains through one qubit and barriers (DepthFacts.v) |
| C77 | Draw.v: positions, lines, labels and colours of `draw` and `draw3D` (rows, columns and heights doubled); sizes, fonts, rounding of labels and view angle left out | Positions of nodes determine cell and round; the middle of an edge determines its cells (one data qubit) and its round (P_Draw.v), with C23 and C59 |
| C78 | Plot.v: both `plot` methods, over a small model of pyplot's state (figures, axes, which are current, saved files); layout and rendering left out | Frame lemma: an operation on the current axes changes only these; induction over the analyses; with C38, C47 and C48 for the points (P_Plot.v) |
| C79 | DecObj.v and Circ.v (dictionaries on a heap); programs of C54 with stored flags | A tuple under d is never changed (invariant of C54 without the flag); each constructor stores it before anything can fail; C41, C54_construct for what is accepted (P_Shape.v). Covers TestRepExceptions of tests/rep.py for all wrong values |
| C80 | TCirc.v, Wrap.v: all single-qubit methods of `TopologicalCircuit` | Case analysis; no method of a qubit changes the register (compositional invariant); induction over programs (P_Wrap.v). This is what lets theorems about qubits be read as theorems about circuits |
| C81 | Parse.v: `parse_readout` on the strings of circuits | Rounds are added bit by bit; the plaquette parities of a lattice readout are linear; coordinates are distinct (P_Linear.v, from C21 and C14). For "every set of events" the shot is constructed round by round |
| C82 | Parse.v, Decoder.v, Degen.v: `correct_readout` on strings | From C81 (equal lists of events) and linearity of the crossing parity; commutation of stabilizers and logical operators (P_Gauge.v). The matcher is any function of the graph |
| C83 | Geometry.v, SpecCode.v: plaquettes, stabilizers and logical operators | Each plaquette is the box at a corner; corners of X plaquettes turn to corners of Z plaquettes because h is odd; XZZX by conjugation with Hadamards on the even qubits, which turning preserves (P_Turn.v) |
| C28-C32 | decoder internals | graph equality, cache invariant, reals |
| C33-C36 | rationals | field arithmetic |
| C37-C39 | lists, file state, interleavings, crash points | permutation reasoning / witnesses |
| C40-C42 | entangle variants, repetition params | case analysis |

Not expressible / out of scope: rendering of figures (what is drawn where is C77 and C78), `__str__`, progress bars, the Aer
simulator's sampling statistics, pickling of the worker lambda in `sweep_mp`, CPython's recursion limit,
rounding of floats.

## What is modelled, file by file

Every definition of a model file cites the lines it models.  Model files contain no proofs.

| /repo file | model | not modelled |
|---|---|---|
| circuits/base.py | Circ.v: lattice and qubit constructors, `entangle`, `stabilize`, `id`, `id_data` and the forwarding methods of `TopologicalQubit` | `draw`, `__str__`, abstract declarations |
| circuits/rotated_surface.py | Geometry.v: `_params_validate_and_generate`, `_set_geometry`, coordinates; Circ.v: `_gen_registers`, `_gen_qubit_indices_and_stabilizers`, `entangle_x/z`, `stabilize`; Parse.v: `extract_final_stabilizer_and_logical_readout*`, `parse_readout` | non-ASCII digits and blanks in `int(_, 2)` (signs, prefixes, underscores and blanks are modelled) |
| circuits/xxzz.py, circuits/xzzx.py | Circ.v: all methods | |
| circuits/repetition.py | Circ.v (`rep_d`, `rep_validate`) | |
| circuits/circ.py | TCirc.v: `TopologicalRegister` (construction, `add_tqubits`, `add_tqubit`, look-up by index), `TopologicalCircuit` (wrappers, `cx`, `add_creg/add_qreg` as `cx` uses them); TReg.v: `treg["name"]`, `treg.params`, `add_creg/add_qreg` without a name and with `override`; a given circuit `circ=` is an initial state that already has registers (C52, C53) | `draw`, `__str__`, the argument `bits` of `add_creg/add_qreg` |
| circuits/qubit_types.py, common/constants.py | TCirc.v (`str2qtype`) | |
| fitters/base.py | Lookup.v: look-up tables; DecObj.v: constructor | abstract declarations |
| fitters/lattice_decoder.py | Decoder.v, Degen.v, DecoderApi.v: `_make_error_graph`, `_path_degeneracy`, `_path_degeneracy_helper`, `_run_mwpm`, `_run_mwpm_graph`, `_corrections`, `correct_readout`; DecObj.v: constructor, `encoder`, `parse_readout`; Draw.v: `draw`, `draw3D` | sizes, fonts and rounded labels of pictures |
| fitters/rotated_surface.py, fitters/repetition.py | Decoder.v, DecObj.v: everything | |
| tools/benchmarking.py | Bench.v: `TopologicalBenchmark` (`sweep_mp` as any number of processes calling `append_data`, C39), `TopologicalAnalysis.load_data`, `TopologicalBatchAnalysis.__init__`; Plot.v: both `plot` methods | layout of pictures, `tqdm`, running the simulator: its counts are an argument |
| data/*/simulation.py | Noisy.v: the noise models (errors after identity gates) and the experiments as circuits (C55) | the parameter lists |
| tests/base.py, tests/rotated_surface.py, tests/rep.py | TestSuite.v: TestBase and the classes derived from it; TestRepExceptions is C79_exceptions | printing |
| docs, tutorials, setup.py, data/*/visualize.py | | everything |

## Trusted base

1. Coq's kernel (8.16.1), and `vm_compute` where examples and two counterexamples are computed.
2. The axioms `Print Assumptions` lists (below): only the standard library's.
3. That the model files say what the Python code does.  Their comments state the simplifications.  The
   main ones: exceptions carry no message; Python objects are shared by reference only where the code
   mutates them (params dictionaries, counts dictionaries, lists of events); coordinates, which the code
   keeps as halves in floats, are doubled integers (exact in floats for all sizes that fit into memory).
4. Contracts of libraries, all hypotheses or definitions in the theorems, never axioms:
   * Qiskit: registers, instructions and counts keys as described under Approach.  `QSem.v` gives the
     meaning of instructions; its amplitudes form any commutative ring in which 2x = 0 implies x = 0
     (C53: in which being zero is decided; C56: in which 2 is not a zero divisor).  States are not
     normalised; most theorems say which outcomes are possible.  C60, C61, C74 and the C55_shots theorems
     compute probabilities: squared norms of the branches, over integer amplitudes, divided by their sum.
   * retworkx: `rx_ok` of SpecRx.v, for graphs which may have loops.  RxRef.v implements it, so that
     it is not contradictory, and examples run the decoder with that implementation.
   * numpy: `argsort` returns some sorting permutation (`np_ok`); `savez` first truncates the file and
     then writes it (C39).
5. Idealisation of floats: in `err_prob` decoding as real numbers, in look-up tables and benchmarking as
   exact rationals; `nan` and `inf` do not occur.  C31 accounts for the one rounding the code performs
   itself, `int(n * 10000)`.
6. C55: the simulator's noise is a product of independent Pauli errors after identity gates.  C61: noise is a
   distribution of Pauli errors between instructions.

### Assumptions of the theorems

`Print Assumptions` stands beneath every property theorem.  The following use the axioms of the standard library's real numbers,
`ClassicalDedekindReals.sig_not_dec`, `ClassicalDedekindReals.sig_forall_dec`,
`FunctionalExtensionality.functional_extensionality_dep` and `Classical_Prop.classic`:

C31_weight, C31_most_likely, C45_outcome, C45_no_events, C45_plain, C46_corrects, C46_corrects_lattice_z,
C46_rare, C46_small_probability, C36_code, C36_code_weighted, C50_small, C50_logical, C50_lattice,
C50_faults_lattice, C50_faults_logical, C55_weighted, C55_shots_weighted, C61_weighted, C58_string, C58_dict_value, C58_dict_list,
C58_corrects, C58_corrects_weighted, C67_weighted_events, C67_weighted, C67_threshold,
C67_circuit, C66_logical_weighted, C66_lattice_weighted,
C72_rate, C72_uncorrected, C72_phase_flip, C72_phase_flip_rate, C75_same, C75_same_lattice, C75_half, C75_rate, C75_bench, C75_bench_half,
C82_decode, C82_decode_lattice, C82_idle, C82_operator, C82_stabilizer, C82_logical.

`C46_bound` uses only `ClassicalDedekindReals.sig_forall_dec` and `FunctionalExtensionality.functional_extensionality_dep`.

All other theorems of MANIFEST.json (242; `C10_rounds_agree` is claimed by two properties) are closed under the global context:

C01_construction, C01_even_rejected, C01_default, C01_negative_refuted, C02_plaquettes,
C02_coordinates_distinct, C03_stabilizers_commute, C04_logical_operators, C04_constructed, C05_independent,
C05_count, C06_distance, C06_attained, C07_single_error_XXZZ, C07_inside, C07_single_error_XZZX,
C40_entangle_x_z, C40_width_one, C40_height_one_refuted, C41_shape, C41_number, C41_rejected,
C42_entangle_never_raises, C08_stabilizers, C08_logical, C08_reset, C08_readout, C08_lattice_readout,
C09_plaquette, C10_rounds_agree, C10_repeated_round, C10_syndromes_stay_clean, C10_initially_clean, C11_z,
C11_x, C11_z_with_faults, C11_x_with_faults, C11_lattice_z, C11_lattice_x, C12_syndrome_change,
C13_z_repeatable, C13_x_repeatable, C16_fresh_names, C18_indexing, C19_rejects, C19_accepts,
C15_truth_table, C15_frame, C15_not_coherent, C17_explicit_ancilla, C17_default_ancilla_clash,
C20_failed_cx_disables_cx, C14_lattice_z, C14_no_new_x_events, C14_lattice_x_attribute_error,
C14_lattice_x_never, C21_round_trip, C23_syndrome_graph, C23_total, C24_edge_of_flip, C24_flip_of_edge,
C22_events_are_nodes, C22_decodes, C22_late_event, C22_late_event_lattice_z, C25_perfect_matching,
C26_corrects, C26_corrects_lattice_z, rx_ref_ok, C28_repeated_decoding, C32_same_matchings, C27_end_to_end,
C44_end_to_end_lattice, C43_end_round, C43_single_misread_refuted, C29_history, C30_degeneracy,
C30_first_ancilla_refuted, C33_bayes, C33_decision, C34_unseen, C34_seen, C34_errors, C35_last_set,
C35_not_set, C35_unknown, C35_consistent, C35_stale_shots_refuted, C36_value, C36_rejected, C36_range,
C36_extremes, C36_order, C36_merge, C36_bound, C37_success, C37_failure, C37_succeeds, C37_single,
C38_appends, C38_append_ok, C38_load, C38_load_missing, C39_nothing_invented, C39_own_point,
C39_nothing_lost, C39_race_refuted, C39_crash_refuted, C39_sequential, C47_filename, C47_own_parameters, C47_decoder, C47_decoders,
C48_batch, C49_lattice, C49_logical, C49_half_refuted, C51_majority, C51_majority_lattice_z, C51_sharp,
C52_shared_circuit, C52_registers, C53_noninterference, C53_own_part, C53_end_to_end,
C53_end_to_end_lattice, C53_constructed, C53_register, C53_whole_key, C53_whole_key_refuted, C54_construct,
C54_decoder_fixed, C54_decoding_harmless, C54_own_dict_new, C54_own_dict, C54_own_dict_decodes,
C54_own_dict_lattice, C54_own_dict_lattice_refuted, C54_too_early, C55_upper, C55_lower, C55_repetition,
C55_threshold, C55_larger_better, C55_decided, C56_ideal, C56_possible, C56_memory, C56_encoded,
C57_program, C57_output, C57_readings, C59_matches_as_graph, C59_every_event, C60_normalised,
C60_certain, C60_uniform, C60_coin,
C60_counts, C60_session, C55_shots, C55_shots_repetition, C61_any, C61_independent, C62_int, C62_int_else, C62_words, C62_logical, C62_lattice_z, C62_lattice_errors, C62_blanks,
C63_undetectable, C63_readings, C63_wrong, C64_legal, C65_second, C66_logical, C66_lattice,
C66_single, C67_events, C67_readouts, C68_program, C68_decoded, C68_spread, C69_container, C69_same, C69_unknown,
C70_registers, C70_override, C70_repeat, C70_unnamed_clash, C70_same,
C71_cases, C71_xxzz, C71_xzzx, C71_repetition, C71_nodes, C71_xzzx_narrow, C72_other_type, C73_trained, C74_first_round, C74_strings, C74_table, C74_complete, C75_unique, C76_counts, C76_depth, C76_depth_exact, C76_memory, C77_decoding_graph, C77_colours, C77_error_graph, C78_current_axes, C78_new_figure, C78_closed, C78_figure, C78_unequal, C78_batch, C78_batch_fails, C78_labels, C78_every_point, C79_shape_fixed, C79_qubits, C79_decoders, C79_flag, C79_exceptions, C80_method, C80_missing, C80_program, C80_parse, C81_add, C81_add_lattice, C81_order, C81_alike, C81_alike_lattice, C81_any, C83_stabilizers, C83_logical, C83_places, C83_half_turn, C83_commutation, C83_logical_z.

