{"id": "C01", "title": "Distance validation and qubit counts", "statement": "Constructing an XXZZ or XZZX qubit with a distance d (a number, or a tuple (height,width)) raises LatticeError when a dimension is even; with positive dimensions it succeeds exactly when both are odd, and then reports num_data = h*w and numbers of X and Z stabilizers that are non-negative and sum to h*w-1.", "quantifier": "every integer or tuple value of d", "why_tests_cant": "there are infinitely many distances; tests instantiate three of them", "anchors": ["qtcodes/circuits/rotated_surface.py:_RotatedLattice._params_validate_and_generate"]}
{"id": "C02", "title": "Plaquettes are the geometric neighbours of the reported coordinate", "statement": "For every valid lattice, each stabilizer's plaquette consists of exactly those data qubits of the h x w grid that touch the (row, col) coordinate which parse_readout reports for that stabilizer; all indices are in range, and each plaquette has 2 or 4 of them.", "quantifier": "all odd h,w >= 1 and every stabilizer index", "why_tests_cant": "index arithmetic with // and % has boundary cases on every row and column of every lattice size", "anchors": ["qtcodes/circuits/rotated_surface.py:_RotatedLattice._set_geometry", "qtcodes/circuits/rotated_surface.py:_RotatedLattice.parse_readout"]}
{"id": "C03", "title": "Stabilizers commute pairwise", "statement": "Any two stabilizers measured by stabilize() commute as Pauli operators, for the XXZZ code and for the XZZX code.", "quantifier": "all odd h,w >= 1, all pairs of stabilizers, both codes", "why_tests_cant": "all pairs on all lattice sizes; a single anticommuting pair would silently randomise syndromes", "anchors": ["qtcodes/circuits/rotated_surface.py:_RotatedLattice._set_geometry", "qtcodes/circuits/xxzz.py:_XXXX.entangle", "qtcodes/circuits/xxzz.py:_ZZZZ.entangle", "qtcodes/circuits/xzzx.py:_XZZX.entangle"]}
{"id": "C04", "title": "Logical operators", "statement": "The Pauli operators applied by x() and z() commute with every stabilizer and anticommute with each other, for both codes.", "quantifier": "all odd h,w >= 1, every stabilizer, both codes", "why_tests_cant": "all lattice sizes and all stabilizers", "anchors": ["qtcodes/circuits/xxzz.py:_XXZZLattice.x", "qtcodes/circuits/xxzz.py:_XXZZLattice.z", "qtcodes/circuits/xzzx.py:_XZZXLattice.x", "qtcodes/circuits/xzzx.py:_XZZXLattice.z"]}
{"id": "C05", "title": "Exactly one logical qubit", "statement": "The h*w-1 stabilizers are independent: no non-empty product of them is proportional to the identity, so h*w data qubits encode exactly one logical qubit.", "quantifier": "all odd h,w >= 1, all non-empty subsets of stabilizers, both codes", "why_tests_cant": "2^(h*w-1) subsets for every size", "anchors": ["qtcodes/circuits/rotated_surface.py:_RotatedLattice._set_geometry"]}
{"id": "C06", "title": "Code distance", "statement": "Every Pauli error on the data qubits that is invisible to all stabilizers and changes the logical Z (resp. X) value acts on at least h (resp. w) data qubits with the flipping Pauli component, and the operator applied by x() (resp. z()) attains that bound.", "quantifier": "all odd h,w >= 1, all sets of erroneous data qubits", "why_tests_cant": "the error sets are exponentially many at every size", "anchors": ["qtcodes/circuits/rotated_surface.py:_RotatedLattice._set_geometry", "qtcodes/circuits/xxzz.py:_XXZZLattice.x", "qtcodes/circuits/xxzz.py:_XXZZLattice.z"]}
{"id": "C07", "title": "Syndrome of a single data-qubit error", "statement": "A bit flip on one data qubit of an XXZZ lattice flips exactly the Z stabilizers at the diagonal coordinates (given by the qubit's parity) that lie inside the lattice, at most two of them and, when h >= 3, at least one; dually for phase flips and X stabilizers; for XZZX each single X (Z) error flips the stabilizers on one (the other) diagonal.", "quantifier": "all odd h,w >= 1 and all data qubits", "why_tests_cant": "all positions at all sizes", "anchors": ["qtcodes/circuits/rotated_surface.py:_RotatedLattice._set_geometry", "tests/base.py:get_neighbors", "tests/rotated_surface.py:get_neighbors"]}
{"id": "C08", "title": "XZZX is the Hadamard-conjugate of XXZZ", "statement": "Conjugating the XXZZ qubit's stabilizers, logical operators, reset states and readout bases by a Hadamard on every even-indexed data qubit gives those of the XZZX qubit with the same distance.", "quantifier": "all odd h,w >= 1 and all stabilizers and logical operators", "why_tests_cant": "all sizes", "anchors": ["qtcodes/circuits/xzzx.py:_XZZXLattice", "qtcodes/circuits/xxzz.py:_XXZZLattice"]}
{"id": "C09", "title": "A plaquette circuit measures the plaquette operator", "statement": "From any state whose syndrome qubit is |0>, running the gates emitted for one plaquette and measuring its syndrome qubit with outcome m leaves the data in the projection (1+(-1)^m P)psi, where P is the plaquette's Pauli operator, and the syndrome qubit in |m>.", "quantifier": "all states, all plaquettes (2- and 4-body, both codes), both outcomes", "why_tests_cant": "the quantum state space is continuous", "anchors": ["qtcodes/circuits/xxzz.py:_XXXX.entangle", "qtcodes/circuits/xxzz.py:_ZZZZ.entangle", "qtcodes/circuits/xzzx.py:_XZZX.entangle"]}
{"id": "C10", "title": "Repeated stabilisation reports no change", "statement": "On every execution, two consecutive stabilize() rounds with nothing between them record identical syndrome bits, whatever the state of the data qubits before the first round was (the syndrome qubits being in |0>, as they are initially and as every call leaves them); the same holds with non-destructive calls between the rounds.", "quantifier": "all initial states, all measurement outcomes, all odd sizes, both codes", "why_tests_cant": "random outcomes and arbitrary states", "anchors": ["qtcodes/circuits/rotated_surface.py:RotatedQubit.stabilize", "qtcodes/circuits/base.py:_TopologicalLattice.entangle"]}
{"id": "C11", "title": "Logical preparation and readout", "statement": "After reset_z(), any number of stabilize() rounds, and any sequence of logical x()/z() calls, readout_z() records the parity of the number of x() calls with certainty; dually for reset_x(), z() and readout_x(); and lattice_readout gives the same logical value.", "quantifier": "all odd sizes, both codes, all operation sequences, all measurement outcomes", "why_tests_cant": "histories and outcomes are unbounded", "anchors": ["qtcodes/circuits/xxzz.py:_XXZZLattice", "qtcodes/circuits/xzzx.py:_XZZXLattice", "qtcodes/circuits/rotated_surface.py:RotatedQubit.stabilize"]}
{"id": "C12", "title": "Recorded syndrome changes are the syndrome of the error", "statement": "If Pauli errors hit the data qubits between two stabilize() rounds, the syndrome bits recorded by the second round differ from those of the first exactly on the stabilizers that anticommute with the accumulated error.", "quantifier": "all odd sizes, both codes, all Pauli errors, all initial states, all outcomes", "why_tests_cant": "exponentially many errors, continuous states", "anchors": ["qtcodes/circuits/rotated_surface.py:RotatedQubit.stabilize"]}
{"id": "C13", "title": "Logical readout is non-destructive", "statement": "readout_z() (readout_x()) disturbs neither the stabilizer values nor the logical value: any later stabilize() agrees with the previous one and reading out again gives the same bit.", "quantifier": "all odd sizes, both codes, all initial states, all outcomes", "why_tests_cant": "continuous states, random outcomes", "anchors": ["qtcodes/circuits/xxzz.py:_XXZZLattice.readout_z", "qtcodes/circuits/xzzx.py:_XZZXLattice.readout_z"]}
{"id": "C14", "title": "Lattice readout post-processing", "statement": "For a Z-basis lattice readout, parse_readout derives the final Z-stabilizer round and logical value as the parities of the measured data bits over the plaquettes and over the top row, and carries over the previous X round. (In the code as written, an X-basis lattice readout string always raises AttributeError, because the lattice has no attribute DW.)", "quantifier": "all odd sizes, all readout strings", "why_tests_cant": "all bit strings at all sizes", "anchors": ["qtcodes/circuits/rotated_surface.py:extract_final_stabilizer_and_logical_readout_x", "qtcodes/circuits/rotated_surface.py:extract_final_stabilizer_and_logical_readout_z", "qtcodes/circuits/rotated_surface.py:parse_readout"]}
{"id": "C15", "title": "Logical CNOT on basis values; collapse on superpositions", "statement": "Whatever calls and cx calls were made before on a register, a successful cx(i,j) with i != j maps logical Z eigenvalues (c,t) to (c, t xor c), whatever the measurement outcomes; it preserves every plaquette eigenvalue of every data qubit of the register, the logical X eigenvalue of the target and every Pauli eigenvalue of the qubits not involved. It is not a coherent CNOT: after every possible execution the control has a definite logical Z value, so a control in |+> never yields a Bell state.", "quantifier": "all registers, code types, sizes, histories, states, measurement outcomes", "why_tests_cant": "continuous states, random outcomes, all sizes", "anchors": ["qtcodes/circuits/circ.py:TopologicalCircuit.cx", "qtcodes/circuits/xxzz.py:_XXZZLattice.cx", "qtcodes/circuits/xzzx.py:_XZZXLattice.cx"]}
{"id": "C16", "title": "Register names never collide", "statement": "For any sequence of operations (stabilize, readouts, lattice readouts, resets, logical gates) on the qubits of a register whose params dictionaries are distinct objects, every classical register created has a fresh name, so no operation fails with a name clash, and the k-th stabilize() of a qubit named n writes register n_c{k-1}.", "quantifier": "all operation sequences on all registers", "why_tests_cant": "unbounded histories", "anchors": ["qtcodes/circuits/rotated_surface.py:RotatedQubit.stabilize", "qtcodes/circuits/xxzz.py:_XXZZLattice.readout_z", "qtcodes/circuits/circ.py:TopologicalRegister.add_tqubit"]}
{"id": "C17", "title": "What a cx does to later calls", "statement": "If every cx requests its ancilla explicitly, then in every interleaving of calls and cx calls no two registers share a name, every qubit keeps numbering its rounds, readouts and lattice readouts consecutively, and no call fails except those unsupported on width-1 XZZX lattices. With the default ancilla (same params object as the control) this breaks: after any history in which qubit i used a kind of numbered register, the first cx(i,j) makes i's next call of that kind raise CircuitError.", "quantifier": "all histories mixing calls and cx, all registers", "why_tests_cant": "needs histories mixing stabilize and cx; aliasing of the params dictionary is invisible to single-call tests", "anchors": ["qtcodes/circuits/circ.py:TopologicalCircuit.cx", "qtcodes/circuits/rotated_surface.py:_params_validate_and_generate"]}
{"id": "C18", "title": "Register indexing", "statement": "After any sequence of successful additions to a TopologicalRegister, the qubits have indices 0..n-1 in order of addition across all sub-registers, treg[i] returns the i-th added qubit, and any other integer raises ValueError.", "quantifier": "all sequences of additions", "why_tests_cant": "unbounded histories", "anchors": ["qtcodes/circuits/circ.py:TopologicalRegister.add_tqubit", "qtcodes/circuits/circ.py:TopologicalRegister.__getitem__"]}
{"id": "C19", "title": "add_tqubits validates before adding", "statement": "If the number of types and params differ or some type is unknown, add_tqubits raises ValueError and leaves the register and circuit unchanged.", "quantifier": "all argument lists and all prior states", "why_tests_cant": "all lists, all positions of the bad element", "anchors": ["qtcodes/circuits/circ.py:TopologicalRegister.add_tqubits"]}
{"id": "C20", "title": "A cx that fails on an unknown ancilla type disables cx for good", "statement": "On a register without an ancilla, cx with an unknown explicit ancilla type raises KeyError, and after it every later cx on that register raises IndexError (or ValueError for a bad index), whatever is called in between and however the later cx is parameterised.", "quantifier": "all registers, all histories before and after the failing call", "why_tests_cant": "exception-safety over histories", "anchors": ["qtcodes/circuits/circ.py:TopologicalCircuit.cx", "qtcodes/circuits/circ.py:TopologicalRegister.add_tqubit"]}
{"id": "C21", "title": "Readout strings round-trip", "statement": "For every recorded history of syndrome rounds and logical readout bit, parsing the result string produced from the classical registers returns that logical bit and exactly the list of (t,row,col) at which a stabilizer bit differs between rounds t and t+1, with no duplicates, X and Z stabilizers separated.", "quantifier": "all odd sizes, all numbers of rounds, all bit values", "why_tests_cant": "exponentially many strings at all sizes", "anchors": ["qtcodes/circuits/rotated_surface.py:parse_readout", "qtcodes/circuits/rotated_surface.py:RotatedQubit.stabilize"]}
{"id": "C22", "title": "Decoder graph contains every reportable event", "statement": "Every event that parse_readout can report for a string with at most T+1 syndrome rounds is a node of the decoder's graph for that stabilizer type, and correct_readout on it never raises KeyError; an event at time T or later does raise KeyError.", "quantifier": "all odd sizes, all T, all readout strings", "why_tests_cant": "all strings, sizes", "anchors": ["qtcodes/fitters/rotated_surface.py:_make_syndrome_graph", "qtcodes/fitters/lattice_decoder.py:_make_error_graph"]}
{"id": "C23", "title": "Syndrome graph construction", "statement": "RotatedDecoder terminates for every odd size and T, and the graph it builds has exactly one node per (round, stabilizer) plus one per virtual boundary coordinate, and exactly the edges joining diagonally adjacent positions of the same round (or boundary) and equal positions of consecutive rounds, all with weight 1.", "quantifier": "all odd sizes h>=3 (Z) / w>=3 (X), all T >= 1", "why_tests_cant": "recursive traversal with shared visited list: termination and completeness at all sizes", "anchors": ["qtcodes/fitters/rotated_surface.py:_populate_syndrome_graph", "qtcodes/fitters/rotated_surface.py:_make_syndrome_graph", "qtcodes/fitters/rotated_surface.py:_specify_virtual"]}
{"id": "C24", "title": "Graph edges are physical faults", "statement": "Each single data-qubit flip corresponds to exactly one edge of the decoder graph whose non-virtual endpoints are exactly the events it causes, and the edge touches the readout boundary exactly when the qubit lies on the logical readout path; conversely each spatial edge comes from exactly one data qubit.", "quantifier": "all odd sizes, all data qubits, X and Z", "why_tests_cant": "all sizes and positions", "anchors": ["qtcodes/fitters/rotated_surface.py:_populate_syndrome_graph", "qtcodes/fitters/rotated_surface.py:_is_crossing_readout_path"]}
{"id": "C25", "title": "The matching problem is always solvable", "statement": "For every set of events, the error graph handed to the matcher admits a perfect matching.", "quantifier": "all event sets, all sizes", "why_tests_cant": "exponentially many event sets", "anchors": ["qtcodes/fitters/lattice_decoder.py:_make_error_graph"]}
{"id": "C26", "title": "Minimum-weight decoding corrects (d-1)/2 faults", "statement": "For every combination of data-qubit flips and intermediate-round syndrome measurement errors of total weight at most (h-1)/2, correct_readout (of RotatedDecoder, or of a RepetitionDecoder of matching type) in the Z basis returns the logical value without the errors, whatever maximum-weight maximum-cardinality matching the matcher returns; dually (w-1)/2 in the X basis.", "quantifier": "all odd sizes, all T, all fault sets up to the bound, all legal matchings", "why_tests_cant": "exponentially many fault sets, solver tie-breaking", "anchors": ["qtcodes/fitters/lattice_decoder.py:correct_readout", "qtcodes/fitters/lattice_decoder.py:_corrections", "qtcodes/fitters/lattice_decoder.py:_make_error_graph", "qtcodes/fitters/lattice_decoder.py:_run_mwpm", "qtcodes/fitters/rotated_surface.py:_is_crossing_readout_path"]}
{"id": "C27", "title": "End-to-end fault tolerance", "statement": "In a fresh circuit: reset_z, stabilize, then any sequence of stabilize, x, z, id, id_data calls with Pauli errors on data qubits in between, stabilize, readout_z. If the errors that flip Z stabilizers and the syndrome bits misread in intermediate rounds number at most (h-1)/2 together, correct_readout applied to the counts key of the circuit returns the parity of the number of x() calls on every execution that can happen. Likewise with X and Z exchanged and (w-1)/2. Holds for XXZZ, XZZX and Repetition qubits, any initial state of the data qubits, RotatedDecoder and RepetitionDecoder, and any matcher that returns an optimal perfect matching.", "quantifier": "all odd sizes, codes, call sequences, error patterns within the bound, measurement outcomes, optimal matchings", "why_tests_cant": "continuous/random quantum behaviour and exponentially many errors", "anchors": ["qtcodes/circuits/rotated_surface.py:RotatedQubit.stabilize", "qtcodes/circuits/rotated_surface.py:parse_readout", "qtcodes/fitters/lattice_decoder.py:correct_readout"]}
{"id": "C28", "title": "Decoding is repeatable on the same input object", "statement": "Decoding the same syndromes dictionary twice gives the same matching problem both times. (The call is not read-only: it appends the virtual nodes to the caller's list.)", "quantifier": "all event lists, any number of repeated calls", "why_tests_cant": "histories of calls sharing a mutable argument", "anchors": ["qtcodes/fitters/lattice_decoder.py:_make_error_graph", "qtcodes/fitters/lattice_decoder.py:correct_readout"]}
{"id": "C29", "title": "Degeneracy cache is transparent", "statement": "The degeneracy reported for a pair of syndrome nodes does not depend on which pairs were asked about before with the same dictionary of path numbers, nor on the order of the two nodes.", "quantifier": "all odd sizes, numbers of rounds, types, all histories of queries, every library meeting the retworkx contract", "why_tests_cant": "histories of cached queries", "anchors": ["qtcodes/fitters/lattice_decoder.py:_path_degeneracy_helper", "qtcodes/fitters/lattice_decoder.py:_path_degeneracy"]}
{"id": "C30", "title": "Degeneracy counts shortest error paths", "statement": "Between two ancilla nodes the degeneracy is the number of shortest paths of the syndrome graph. Between an ancilla and a boundary node it is the number of shortest paths to all boundary nodes at that same distance, with one exception: for the first ancilla of the first round only the paths to that single boundary node are counted, so the documented sum is not what is returned there.", "quantifier": "all odd sizes, numbers of rounds, types, all node pairs and query histories", "why_tests_cant": "all pairs; the failing pair involves one special node index", "anchors": ["qtcodes/fitters/lattice_decoder.py:_path_degeneracy"]}
{"id": "C31", "title": "Degeneracy weighting finds a most likely pairing", "statement": "With an error probability p other than 1/2 the weight of a pair of nodes is the logarithm to the base (1-p)/p of its likelihood, the degeneracy times (p/(1-p))^distance. For 0 < p < 1/2, correct_readout returns the value read plus the parity of the pairs touching the readout side, for a pairing of the events with each other and with boundary nodes that no other pairing exceeds in likelihood (the product over pairs) by more than the factor ((1-p)/p)^(1/5000) per event that the rounding of weights costs.", "quantifier": "all probabilities, odd sizes, numbers of rounds, event lists, pairings, every library meeting the retworkx contract", "why_tests_cant": "real-valued parameters and exponentially many pairings", "anchors": ["qtcodes/fitters/lattice_decoder.py:_make_error_graph", "qtcodes/fitters/lattice_decoder.py:_run_mwpm", "qtcodes/fitters/lattice_decoder.py:correct_readout"]}
{"id": "C32", "title": "err_prob = 0 decodes like err_prob = None", "statement": "Passing err_prob=0 yields the same set of legal matchings as not passing it.", "quantifier": "all event lists, all sizes", "why_tests_cant": "all inputs", "anchors": ["qtcodes/fitters/lattice_decoder.py:_make_error_graph", "qtcodes/fitters/lattice_decoder.py:_run_mwpm"]}
{"id": "C33", "title": "Look-up table posterior", "statement": "After any history of table updates, whenever the look-up decoder returns the two posterior values for a readout string they satisfy Bayes' rule for the tabulated relative frequencies and the given priors (1/2, 1/2 by default), sum to 1, and are non-negative when counts and priors are; correct_readout_look_up_table then returns 0 exactly when the frequency of the string in the table of value 0 is at least that in the table of value 1.", "quantifier": "all histories of set/reset calls and of changes by the caller to the dictionaries, all strings, types and priors", "why_tests_cant": "all tables and histories", "anchors": ["qtcodes/fitters/base.py:_run_look_up", "qtcodes/fitters/base.py:correct_readout_look_up_table"]}
{"id": "C34", "title": "Look-up of an unseen string", "statement": "A string that occurs in neither table makes look-up decoding raise ZeroDivisionError rather than return a value; a string with a positive count in at least one table is decoded, provided counts are non-negative and every table that lists it was set with a non-zero total; an unknown readout type raises KeyError, and no other exceptions occur.", "quantifier": "all tables, strings and types", "why_tests_cant": "all tables", "anchors": ["qtcodes/fitters/base.py:_run_look_up", "qtcodes/fitters/base.py:correct_readout_look_up_table"]}
{"id": "C35", "title": "Look-up table updates", "statement": "After any sequence of set/reset calls, each (type,value) entry refers to the dictionary last set for it since the last reset (empty if none), so it shows later changes by the caller, while its shot count is the total of that dictionary at the time it was set; they agree as long as the caller does not change the dictionary afterwards, and need not otherwise.  Setting an unknown type raises KeyError and changes nothing.", "quantifier": "all sequences of set/reset calls interleaved with changes by the caller to the dictionaries", "why_tests_cant": "unbounded histories", "anchors": ["qtcodes/fitters/base.py:set_look_up_table", "qtcodes/fitters/base.py:reset_look_up_table"]}
{"id": "C36", "title": "Logical error rate", "statement": "logical_error_rate of a counts dictionary is the number of shots not decoded to the correct value divided by the number of shots.  With non-negative counts it lies in [0,1]; with positive counts it is 0 iff every string decodes to the correct value and 1 iff none does; it does not depend on the order of the entries, and merging two runs gives the shot-weighted average.  An empty dictionary raises ZeroDivisionError, and the first string the decoder rejects its exception.  For a surface code benchmark it is at most the fraction of shots with more than (d-1)/2 faults.", "quantifier": "all dictionaries, all decoders, all correct values; for the bound all odd sizes and numbers of rounds", "why_tests_cant": "all dictionaries", "anchors": ["qtcodes/tools/benchmarking.py:TopologicalBenchmark.logical_error_rate"]}
{"id": "C37", "title": "Sweep results", "statement": "After a successful sweep() the stored physical error rates are the requested ones (4, 7, 10, 13 and 16 percent if none are given) in ascending order, each next to the logical error rate measured for it (measured in descending order), and the data file has gained exactly these points.  A sweep fails only with the exception of the first failing measurement; then exactly the earlier points are stored (in descending order) and saved.", "quantifier": "all lists of rates, simulators, decoders and initial files in order", "why_tests_cant": "all lists, orders and failure points", "anchors": ["qtcodes/tools/benchmarking.py:TopologicalBenchmark.sweep", "qtcodes/tools/benchmarking.py:TopologicalBenchmark.single"]}
{"id": "C38", "title": "Saved data accumulates", "statement": "After any sequence of completed appends by any number of benchmarks each data file holds exactly its initial points and those appended to it, sorted by physical rate, with the d and T of the benchmark that wrote last; an unreadable or missing file counts as empty.  An append changes no other file and does not raise, and load_data returns exactly these points, d and T.", "quantifier": "all append sequences, any initial files whose two arrays are equally long", "why_tests_cant": "unbounded histories", "anchors": ["qtcodes/tools/benchmarking.py:TopologicalBenchmark.append_data", "qtcodes/tools/benchmarking.py:TopologicalAnalysis.load_data"]}
{"id": "C39", "title": "Concurrent and interrupted appends", "statement": "Whatever the interleaving of processes and wherever they crash, the data file never holds a point more often than it was there initially or appended, its two arrays stay equally long, and a process that completes its write has its point in the file.  If appends do not overlap and no process dies while writing, no point is lost.  Otherwise points can be lost: two overlapping appends without any crash may keep only one of the two points, and after a crash while writing the next append silently discards all previously saved points.", "quantifier": "all numbers of processes, work lists, interleavings and crash points", "why_tests_cant": "schedules and crash points", "anchors": ["qtcodes/tools/benchmarking.py:TopologicalBenchmark.append_data", "qtcodes/tools/benchmarking.py:TopologicalBenchmark.sweep_mp"]}
{"id": "C40", "title": "entangle_x / entangle_z on all shapes", "statement": "For widths of at least 3, entangle_x() touches only data and X syndrome qubits and reaches every X syndrome qubit; for height and width at least 3 likewise entangle_z() for Z. On lattices of height 1 and width at least 3, which have no Z plaquettes, entangle_z() does exactly what entangle_x() does instead of nothing; on lattices of width 1 both raise KeyError and add nothing to the circuit.", "quantifier": "all odd sizes including 1-wide lattices, both codes", "why_tests_cant": "the deviating sizes are degenerate lattices", "anchors": ["qtcodes/circuits/rotated_surface.py:entangle_x", "qtcodes/circuits/rotated_surface.py:entangle_z", "qtcodes/circuits/base.py:_TopologicalLattice.entangle"]}
{"id": "C41", "title": "Repetition qubit shape", "statement": "RepetitionQubit accepts a missing d, a number, or a tuple; on success the lattice is (d,1) for bit-flip and (1,d) for phase-flip protection; a tuple of the wrong shape and any other type raise LatticeError.", "quantifier": "all params dictionaries", "why_tests_cant": "all values", "anchors": ["qtcodes/circuits/repetition.py:RepetitionQubit._validate_params", "qtcodes/fitters/repetition.py:RepetitionDecoder._params_validation"]}
{"id": "C42", "title": "Plaquette consistency check never fires", "statement": "entangle() never raises LatticeError on a constructed lattice: the missing neighbours of a boundary plaquette are always paired the way the XXZZ circuits require.", "quantifier": "all odd sizes, all plaquettes", "why_tests_cant": "all sizes", "anchors": ["qtcodes/circuits/xxzz.py:_XXXX.entangle", "qtcodes/circuits/xxzz.py:_ZZZZ.entangle"]}
{"id": "C43", "title": "Misread stabilizer in the first or last round", "statement": "When the only fault is one stabilizer misread in the first or in the last recorded round, correct_readout returns the value read, inverted exactly when that stabilizer is nearer to the side of the readout (top row for Z, left column for X) than to the opposite side. A single measurement error in the last round is therefore not always harmless.", "quantifier": "all odd sizes, both types, all numbers of rounds, all stabilizers, every optimal matcher", "why_tests_cant": "requires reasoning about the missing time boundary at every size and stabilizer", "anchors": ["qtcodes/fitters/lattice_decoder.py:correct_readout", "qtcodes/fitters/rotated_surface.py:_make_syndrome_graph"]}
{"id": "C44", "title": "End-to-end fault tolerance with a lattice readout", "statement": "As C27, with the run ended by lattice_readout_z instead of stabilize and readout_z: if the errors that flip Z stabilizers and the syndrome bits misread after the first round number at most (h-1)/2 together, correct_readout in the Z basis returns the parity of the number of x() calls. Misreadings in the last recorded round are covered, since the final round is deduced from the data bits.", "quantifier": "all odd sizes, codes, call sequences, error patterns within the bound, measurement outcomes, optimal matchings", "why_tests_cant": "continuous/random quantum behaviour and exponentially many errors", "anchors": ["qtcodes/circuits/rotated_surface.py:lattice_readout_z", "qtcodes/circuits/rotated_surface.py:extract_final_stabilizer_and_logical_readout_z", "qtcodes/fitters/lattice_decoder.py:correct_readout"]}
{"id": "C45", "title": "Outcome of decoding for every error probability", "statement": "For a non-empty list of events, correct_readout with a number err_prob returns 0 or 1 if 0 <= err_prob < 1 and err_prob is not 1/2, raises ZeroDivisionError if it is 1/2 and ValueError if it is negative or at least 1. Without events the value read is returned whatever err_prob is; err_prob=None and err_prob=0 are the plain decoder with the same matchings (C32).", "quantifier": "all real numbers, odd sizes, event lists, every library meeting the retworkx contract", "why_tests_cant": "real-valued parameters", "anchors": ["qtcodes/fitters/lattice_decoder.py:_make_error_graph", "qtcodes/fitters/lattice_decoder.py:_corrections", "qtcodes/fitters/lattice_decoder.py:correct_readout"]}
{"id": "C46", "title": "Decoding with a small error probability corrects half the distance", "statement": "If every degeneracy is at most rho to the power of the distance and (ln rho / ln((1-p)/p) + 1/10000)(d+1) < 2 then correct_readout with err_prob=p returns the right logical value for all fault patterns of weight at most (d-1)/2, for logical readouts of both types and Z lattice readouts, as without err_prob (C26). The squared number of graph nodes is always such a rho, so for every size below 19999 and number of rounds there is a p0 > 0 such that every p up to p0 works.", "quantifier": "all odd sizes, rounds, probabilities, fault patterns within the bound, every library meeting the retworkx contract", "why_tests_cant": "real-valued parameters and exponentially many fault patterns", "anchors": ["qtcodes/fitters/lattice_decoder.py:correct_readout", "qtcodes/fitters/lattice_decoder.py:_make_error_graph"]}
{"id": "C47", "title": "Data file names", "statement": "The benchmark of a decoder made for height h, width w and T saves to d_(h, w)_T_T.npz (numbers filled in). Two benchmarks use the same data file exactly if they agree on d and T; so a loaded file reports the d and T of every benchmark that saved points to it (while different codes, circuits and noise models with equal d and T share one file).", "quantifier": "all benchmarks and append sequences", "why_tests_cant": "all sizes and histories", "anchors": ["qtcodes/tools/benchmarking.py:TopologicalBenchmark.__init__", "qtcodes/tools/benchmarking.py:TopologicalBenchmark.append_data"]}
{"id": "C48", "title": "Batch analysis", "statement": "TopologicalBatchAnalysis loads every data file of the directory exactly once and orders the analyses by increasing height; it fails exactly if some file cannot be loaded.", "quantifier": "all directories and listing orders", "why_tests_cant": "all directories", "anchors": ["qtcodes/tools/benchmarking.py:TopologicalBatchAnalysis.__init__"]}
{"id": "C49", "title": "Faults within rounds", "statement": "A fresh circuit: reset_z, stabilize, then any sequence of stabilize, x, z, id, id_data calls, ended by lattice_readout_z, or by stabilize, stabilize and readout_z. If X, Y or Z errors are inserted anywhere in the emitted code after the first round (for the logical readout, before the last two rounds) - on data, syndrome or other qubits, in the middle of rounds - and syndrome bits are misread, then correct_readout returns the parity of the number of x() calls whenever twice the number of errors plus the number of misread bits is at most (h-1)/2. Likewise with X and Z exchanged and (w-1)/2 for the logical readout. The factor two is needed: there is a run in which (h-1)/2 errors within rounds always lead to the wrong value.", "quantifier": "all odd sizes, codes, call sequences, insertion points and error types within the bound, measurement outcomes, optimal matchings", "why_tests_cant": "an error in the middle of a round spreads through later gates; exponentially many patterns, random outcomes", "anchors": ["qtcodes/circuits/rotated_surface.py:RotatedQubit.stabilize", "qtcodes/circuits/xxzz.py:_XXXX.entangle", "qtcodes/circuits/xxzz.py:_ZZZZ.entangle", "qtcodes/circuits/xzzx.py:_XZZX.entangle", "qtcodes/fitters/lattice_decoder.py:correct_readout"]}
{"id": "C50", "title": "End-to-end fault tolerance with an error probability", "statement": "C27, C44 and C49 hold unchanged for correct_readout called with err_prob=p, for every p that is small enough in the sense of C46; for every size below 19999 and number of rounds all p up to some bound are.", "quantifier": "all odd sizes, codes, call sequences, error patterns within the bounds, measurement outcomes, probabilities, every library meeting the retworkx contract", "why_tests_cant": "real-valued parameters, random outcomes and exponentially many errors", "anchors": ["qtcodes/fitters/lattice_decoder.py:correct_readout", "qtcodes/fitters/lattice_decoder.py:_make_error_graph", "qtcodes/circuits/rotated_surface.py:RotatedQubit.stabilize", "qtcodes/circuits/rotated_surface.py:parse_readout"]}
{"id": "C51", "title": "Decoding reaches no further than half the distance", "statement": "Along a chain of data qubits from the readout side to the opposite side (a column for Z readouts, a row for X readouts) decoding is a majority vote: if more than half of the qubits of one chain are flipped between the same two rounds, correct_readout always returns the wrong value.  So the bound of C26 is sharp for every size: (d+1)/2 flips can be too many.", "quantifier": "all sizes, chains, sets of more than half of a chain, rounds, both codes and bases, all perfect matchers of minimum weight", "why_tests_cant": "all sizes and all subsets of a chain", "anchors": ["qtcodes/fitters/lattice_decoder.py:correct_readout", "qtcodes/fitters/lattice_decoder.py:_make_error_graph", "qtcodes/fitters/lattice_decoder.py:_run_mwpm"]}
{"id": "C52", "title": "Sharing a circuit", "statement": "Qubits constructed on one circuit (circ=...) from different params dictionaries, and calls on them, in any order: there is an exception exactly if two qubits get the same name, or if a qubit called nm has its data qubits read out with lattice_readout_x/z and one called nm_lattice is read out with readout_x/z, and the exception is a CircuitError. Qubits of registers with different names never clash.", "quantifier": "all programs constructing any number of qubits of any type, size and name on one circuit, interleaved with any supported calls", "why_tests_cant": "all sets of names and all programs; tests use the default names", "anchors": ["qtcodes/circuits/base.py:TopologicalQubit.__init__", "qtcodes/circuits/rotated_surface.py:_gen_registers", "qtcodes/circuits/rotated_surface.py:stabilize", "qtcodes/circuits/xxzz.py:readout_z", "qtcodes/circuits/xxzz.py:lattice_readout_z"]}
{"id": "C53", "title": "Qubits on one circuit do not disturb each other", "statement": "Take any number of qubits constructed on one circuit under different names from different params dictionaries (C52, or a TopologicalRegister), and any interleaving of calls on them (readouts into their own registers) with Pauli errors on their data qubits. For each qubit the registers it created, its counters and the outcomes that can occur in these registers are exactly those of running only its own calls and errors on the same circuit. Hence C27 and C44 hold for each qubit whatever happens to the others, once the words of the qubit's own registers are selected from the counts key. Selecting them is needed: parse_readout of the whole key reports the bit of the register created last, whichever qubit it belongs to.", "quantifier": "all numbers of qubits, types, sizes, interleavings, errors, outcomes", "why_tests_cant": "random outcomes, all interleavings; tests look at one qubit at a time", "anchors": ["qtcodes/circuits/rotated_surface.py:RotatedQubit.stabilize", "qtcodes/circuits/rotated_surface.py:parse_readout", "qtcodes/circuits/circ.py:TopologicalCircuit.parse_readout", "qtcodes/fitters/lattice_decoder.py:correct_readout"]}
{"id": "C54", "title": "Decoders and qubits sharing a params dictionary", "statement": "A decoder answers as determined by the values of d, T and phase-flip-protected in its dictionary at its construction, whatever happens before or after: qubits and decoders constructed from the same dictionary (which resets T) or others, calls on these qubits (stabilize increments T), the caller storing another T, earlier decodings. Decoding changes no circuit, qubit or existing dictionary. A decoder constructed from the dictionary of a qubit after a run decodes its logical readout as in C27; for a lattice readout it is one round short, so that errors after the last round that change a stabilizer make it raise KeyError; constructed before the first round it raises KeyError on every event.", "quantifier": "all programs constructing qubits and decoders, calling them and changing T on shared dictionaries; all sizes, codes, runs, outcomes", "why_tests_cant": "aliasing histories of unbounded length", "anchors": ["qtcodes/fitters/lattice_decoder.py:LatticeDecoder.__init__", "qtcodes/fitters/lattice_decoder.py:LatticeDecoder.encoder", "qtcodes/fitters/rotated_surface.py:_params_validation", "qtcodes/circuits/repetition.py:RepetitionQubit._validate_params", "qtcodes/circuits/base.py:_TopologicalLattice.__init__"]}
{"id": "C55", "title": "Logical error rate of the threshold experiments", "statement": "A run of reset, stabilize, any calls of stabilize, x, z and id_data, stabilize and a logical readout, simulated with independent Pauli errors after every identity gate (one per data qubit and id_data call, M in total) as in the threshold scripts.  If errors that matter for the readout basis have probability q at every gate, the probability that correct_readout returns a wrong value is at most the probability of at least (d+1)/2 such errors among M, and at most C(M,(d+1)/2) q^((d+1)/2) if they have probability at most q; it is at least (1-q)^(M-d) times the probability of at least (d+1)/2 among d.  So the logical error rate vanishes exactly with the power (d+1)/2.  For repetition codes and one id_data it equals the probability of at least (d+1)/2 among d; going from distance d to d+2 lowers it for 0 < q < 1/2, raises it for 1/2 < q < 1 and leaves it unchanged for q = 1/2.  The bounds also hold for correct_readout with an err_prob that is small in the sense of C46.", "quantifier": "all odd sizes, codes, call sequences, Pauli error distributions, measurement outcomes, perfect matchers", "why_tests_cant": "a probability over exponentially many error patterns; simulations estimate it at a few points", "anchors": ["data/rep_threshold/20210617/simulation.py:noise_model_func", "data/xxzz_threshold/20210601/simulation.py:noise_model_func", "data/xzzx_threshold/20210611/simulation.py:noise_model_func", "qtcodes/fitters/lattice_decoder.py:correct_readout", "qtcodes/tools/benchmarking.py:TopologicalBenchmark.logical_error_rate"]}
{"id": "C56", "title": "The circuit is a quantum memory", "statement": "For a history of stabilize, x, z, id, id_data, logical readouts into their own registers and Pauli faults on data qubits, from any state of the data qubits (and of whatever they are entangled with) with syndrome qubits and ancilla in 0: every possible execution of the emitted instructions leaves, up to one factor common to all executions, the state that an ideal machine computes from the recorded bits, which applies the logical or fault operators and projects on the recorded value of every stabilizer (stabilize) or logical operator (readout).  A record can be observed exactly when the ideal machine does not map the state to zero.  If every stabilizer has a definite value at the start, as after a round, then any history without readouts leaves exactly the state its gates and faults alone make, whatever the rounds record: every superposition of the logical states survives.", "quantifier": "all lattice sizes, both codes, all histories, initial states, superpositions and measurement outcomes", "why_tests_cant": "superpositions are a continuum; tests look at readouts of basis states only", "anchors": ["qtcodes/circuits/rotated_surface.py:RotatedQubit", "qtcodes/circuits/base.py:TopologicalQubit.stabilize", "qtcodes/circuits/xxzz.py:_XXZZLattice", "qtcodes/circuits/xzzx.py:_XZZXLattice"]}
{"id": "C57", "title": "Logical programs compute classically", "statement": "A TopologicalRegister of any qubits, after any session of calls and logical CNOTs whatsoever. In any further sequence of calls on its qubits that raises no exception (reset_z, reset_x, x, z, id, id_data, stabilize, logical readouts into their own registers, lattice readouts, cx between different qubits with default or explicit ancillas) the logical values behave like bits of a classical machine: reset_z makes 0, x negates, cx adds the control to the target, a Z readout records the value and keeps it, and stabilize, z and identities change nothing. A value that is unknown may turn out either way when it is read or used as a control and is known from then on; reset_x, X readouts and lattice readouts make it unknown. The recorded bits are those of such a classical run, each in a register of its own that nothing later overwrites. So a program that initialises the qubits it reads or uses as controls records what the classical program prints, from every initial state and for all measurement outcomes.", "quantifier": "all registers, earlier sessions, programs, initial quantum states and measurement outcomes", "why_tests_cant": "unbounded programs, arbitrary initial states and random intermediate outcomes", "anchors": ["qtcodes/circuits/circ.py:TopologicalCircuit", "qtcodes/circuits/circ.py:TopologicalCircuit.cx", "qtcodes/circuits/rotated_surface.py:RotatedQubit", "qtcodes/circuits/repetition.py:RepetitionQubit"]}
{"id": "C58", "title": "Correcting parsed events", "statement": "correct_readout on a dictionary of events uses only the list under the requested type: it either raises an exception whatever the value given, or makes some number n of corrections that depends on that list only. With n = 0 it returns the value given, even None; with n > 0 it returns (value + n) mod 2, and raises TypeError if no value is given. A missing entry, and a type other than X and Z with events, raise KeyError; an empty list returns the value given. The call appends the boundary nodes to a non-empty list it uses and changes no other list. On a string the value given plays no part: the string is decoded as its parsed events with its parsed value. Events of at most (d-1)/2 faults, in any order, together with the measured value give back the encoded value; without the measured value the call returns None or raises TypeError, and always the latter when the faults inverted the measured value.", "quantifier": "all dictionaries, lists, orders, values (also none), types, probabilities, sizes, fault patterns within the bound, every library meeting the retworkx contract", "why_tests_cant": "all dictionaries and optional arguments; tests pass strings", "anchors": ["qtcodes/fitters/lattice_decoder.py:LatticeDecoder.correct_readout", "qtcodes/fitters/lattice_decoder.py:_corrections", "qtcodes/fitters/rotated_surface.py:_is_crossing_readout_path"]}
{"id": "C59", "title": "The graph of matches shows the matches", "statement": "On any graph with distinct labels the graph returned for the tutorials has exactly the nodes matched by the decoder, once each, and exactly one edge per match, with the weight it had in the given graph. For the error graph of some events every event is a node with exactly one edge, to another event or to a boundary node, weighted with minus the length of a shortest path of the syndrome graph; boundary nodes are never joined to each other.", "quantifier": "all labelled graphs and weights; all odd sizes, numbers of rounds, event lists, every library meeting the retworkx contract", "why_tests_cant": "all graphs and optimal matchings", "anchors": ["qtcodes/fitters/lattice_decoder.py:_run_mwpm_graph", "qtcodes/fitters/lattice_decoder.py:_run_mwpm", "qtcodes/fitters/lattice_decoder.py:_make_error_graph"]}
{"id": "C60", "title": "Every key of the counts is equally likely", "statement": "A TopologicalRegister of any qubits, any session of calls on them and of cx between different data qubits that raises no exception, any Pauli errors at any places of the emitted circuit, run from |0...0>: all keys that can occur in the counts have the same probability, a power of 1/2; the others have probability 0. Every recorded bit, and every parity of recorded bits (such as a difference of syndromes or a logical value read from the data qubits), is the same in all shots or exactly a fair coin. What is true in every possible execution has probability 1, what is true in none has probability 0, and the probabilities add up to 1.", "quantifier": "all registers, sessions, error placements, keys, sets of bits", "why_tests_cant": "a statement about exact probabilities: sampling gives estimates for a few circuits", "anchors": ["qtcodes/circuits/circ.py:TopologicalCircuit", "qtcodes/circuits/circ.py:TopologicalCircuit.cx", "qtcodes/circuits/rotated_surface.py:RotatedQubit", "qtcodes/circuits/repetition.py:RepetitionQubit"]}
{"id": "C61", "title": "Logical error rate under circuit-level noise", "statement": "A fresh lattice is reset and stabilised once; any calls of stabilize, x, z, id and id_data follow and then the readout of all data qubits (Z basis), or two rounds and a logical readout in either basis.  Noise inserts Pauli errors at random before and after the instructions of the middle part (of the data readout too), on any qubits, with any joint distribution.  The probability that correct_readout on the key of a shot returns anything but the value the logical gates lead to is at most the probability that more than ((d-1)/2)/2 errors happen.  If an error happens with probability at most y, independently, before and after every instruction on each of its qubits, with M such places, the rate is at most C(M,m) y^m with m = floor((d-1)/4)+1.  The same holds with a small err_prob in the sense of C46.", "quantifier": "all odd sizes, both codes, call sequences, joint distributions of Pauli errors at all places of the circuit, measurement outcomes weighted with their quantum probabilities, perfect matchers", "why_tests_cant": "a probability over exponentially many error patterns and random outcomes; simulations estimate single points", "anchors": ["qtcodes/fitters/lattice_decoder.py:correct_readout", "qtcodes/circuits/rotated_surface.py:RotatedQubit", "qtcodes/tools/benchmarking.py:TopologicalBenchmark.logical_error_rate", "data/xzzx_threshold/20210611/simulation.py:noise_model_func"]}
{"id": "C62", "title": "Exactly which strings the lattice parser accepts, and what it makes of the others", "statement": "Take parse_readout of a lattice with odd dimensions and more than one data qubit, and any string of ASCII characters; the string is one or more words separated by single blanks. If the first word has at most one character, the call succeeds exactly when that character is a decimal digit and every other word writes a whole number in base 2 by Python's rules (blanks around it, a sign, the prefix 0b or 0B, single underscores between digits); it then returns the digit, even one greater than 1, and as events the changes between consecutive words of the bits of each stabilizer, each once, whatever the lengths of the words (missing leading bits count as 0 and extra ones are ignored). If the first word is longer, it is taken for the readings of the data qubits: without a type the call raises AssertionError, with no further word IndexError, with an unknown type TypeError, with a character that is not a digit ValueError, with fewer digits than data qubits IndexError; read as type X it always raises; read as type Z it returns the parity of the top row and the events of the words with a last round made of the first characters of the next word and the parities of the Z stabilizers, provided all those words write numbers, and raises ValueError otherwise. In particular a key with a leading, doubled or trailing blank is always rejected.", "quantifier": "every odd dimension pair with more than one data qubit, every string of ASCII characters and every readout type", "why_tests_cant": "Tests parse a handful of well-formed keys; which malformed strings are rejected and which are silently accepted, and with what result, is a statement about all strings.", "anchors": ["qtcodes/circuits/rotated_surface.py:_RotatedLattice.parse_readout", "qtcodes/circuits/rotated_surface.py:_RotatedLattice.extract_final_stabilizer_and_logical_readout", "qtcodes/circuits/rotated_surface.py:_RotatedLattice.extract_final_stabilizer_and_logical_readout_z", "qtcodes/circuits/rotated_surface.py:_RotatedLattice.extract_final_stabilizer_and_logical_readout_x"]}
{"id": "C63", "title": "One error on the measuring qubit of cx is a logical error that no syndrome shows", "statement": "Take a TopologicalRegister of qubits with odd dimensions, any session of calls, then cx between two different qubits of the register with any default or explicit ancilla, then any further session, none of these later calls raising an exception. The circuit in which one X error strikes the qubit cnot_readout just before its first measurement in that cx behaves exactly like the circuit of the session with one more call, x(target), right after the cx: the calls emit the same instructions otherwise, every execution of one is matched by an execution of the other with the same final state and the same value of every classical bit except the one of m1. So no stabilizer outcome of any round differs, and readings of the target are inverted: with known logical values of control and target, cx, any number of z, id, id_data and stabilize calls on any qubits and measure_z(target) read the CNOT without the error and its negation with it, whatever the distances.", "quantifier": "all registers, sessions before and after the cx, ancillas, initial states and measurement outcomes", "why_tests_cant": "Showing that an error cannot be detected is a statement about all later circuits and all measurement outcomes; a test can only exhibit one shot that goes wrong, and none of the project's tests injects errors inside a cx.", "anchors": ["qtcodes/circuits/circ.py:TopologicalCircuit.cx", "qtcodes/circuits/circ.py:TopologicalCircuit.x", "qtcodes/circuits/circ.py:TopologicalCircuit.stabilize", "qtcodes/circuits/circ.py:TopologicalCircuit.measure_z", "qtcodes/circuits/xxzz.py:XXZZLattice.x_c_if", "qtcodes/circuits/xzzx.py:XZZXLattice.x_c_if"]}
{"id": "C64", "title": "Whatever calls a program makes, the circuit stays one that Qiskit accepts", "statement": "Start from any circuit that is well formed (register names differ, every instruction acts on qubits and bits of the circuit's registers, the two qubits of a controlled gate differ, conditions compare a register of the circuit) and has no register called m1, m2, m3 or cnot_readout. Let a program make, in any order and number and with exceptions caught, any of these calls on it: constructing qubits of any type with any parameter dictionary, shared or edited or invalid ones included; constructing TopologicalRegisters and adding qubits to them; constructing any number of TopologicalCircuits over them; every method of a qubit, of its lattice (entangle_x/z, c_if corrections and the physical-to-logical cx included) and of a TopologicalCircuit, on indices that may not exist; logical cx between any qubits, also a qubit with itself, with any ancilla; adding registers and instructions of its own. As long as the registers and bits the program itself passes belong to the circuit and its own new registers do not take one of the four names, the circuit is well formed after every call, whether that call returned or raised: the library never emits an instruction on a missing qubit, a stale register or the same qubit twice.", "quantifier": "all well-formed initial circuits and all programs, of any length, including failing calls", "why_tests_cant": "The claim is about all interleavings of constructors, methods and failures, with dictionaries shared between qubits; tests run a handful of fixed circuits in which nothing raises.", "anchors": ["qtcodes/circuits/rotated_surface.py:RotatedSurfaceCodeLattice", "qtcodes/circuits/xxzz.py:XXZZLattice", "qtcodes/circuits/xzzx.py:XZZXLattice", "qtcodes/circuits/repetition.py:RepetitionQubit", "qtcodes/circuits/base.py:TopologicalQubit", "qtcodes/circuits/circ.py:TopologicalRegister.add_tqubits", "qtcodes/circuits/circ.py:TopologicalCircuit.cx", "qtcodes/circuits/circ.py:TopologicalCircuit.add_creg", "qtcodes/circuits/circ.py:TopologicalCircuit.add_qreg"]}
{"id": "C65", "title": "A second TopologicalCircuit on a register must fail four times before its cx works", "statement": "Let cx have been used through one TopologicalCircuit, so that the QuantumCircuit has the registers m1, m2, m3 and cnot_readout and the register an ancilla with at least two data qubits, and construct another TopologicalCircuit over the same TopologicalRegister. Its first four calls of cx, with any control, target and ancilla arguments that name qubits, raise CircuitError. The first three leave registers and instructions of the circuit as they were; the fourth leaves behind a reset of the ancilla's data qubits and nothing else. After them the new object has entries for all four registers, so that further calls no longer try to add them.", "quantifier": "all states in which such an object can be, all pairs of qubits, all ancilla arguments", "why_tests_cant": "The failures come from hidden state, which names an object has seen, and each call fails at a different place; a test of one call sees one exception.", "anchors": ["qtcodes/circuits/circ.py:TopologicalCircuit", "qtcodes/circuits/circ.py:TopologicalCircuit.cx", "qtcodes/circuits/circ.py:TopologicalCircuit.add_creg", "qtcodes/circuits/circ.py:TopologicalCircuit.add_qreg"]}
{"id": "C66", "title": "Errors before the first round and, with a logical readout, after the last round are not corrected", "statement": "Prepare, then a stretch of calls and Pauli errors on data qubits with no stabilize(), then the first round, rounds with a correctable number of errors and misreadings, a last round, another stretch without stabilize(), and a logical readout along the top row or the left column. What correct_readout returns is the number of logical calls that invert the readout plus the number of detectable errors of the first and last stretch that are on the readout row (column), modulo 2: all others are harmless, each of those inverts the result, whatever the size of the code and the number of rounds; a single such error is enough. With a lattice readout, which closes the record, the errors after the last round are corrected like all others, those before the first are not. All this holds without err_prob and with every small enough err_prob.", "quantifier": "all sizes, both types of readout, all three codes, all sequences of calls, all Pauli errors before the first and after the last round, all correctable sets of errors and misreadings between, all measurement outcomes, all matchings rustworkx may return", "why_tests_cant": "The effect depends on where relative to the rounds an error falls, and that the failure is independent of the distance is a statement over all sizes.", "anchors": ["qtcodes/circuits/rotated_surface.py:RotatedQubit.reset_z", "qtcodes/circuits/rotated_surface.py:RotatedQubit.stabilize", "qtcodes/circuits/rotated_surface.py:RotatedQubit.readout_z", "qtcodes/fitters/lattice_decoder.py:LatticeDecoder.correct_readout", "qtcodes/circuits/rotated_surface.py:parse_readout"]}
{"id": "C67", "title": "Decoding does not depend on T without an error probability, and with one it goes wrong when T is large", "statement": "Two decoders for the same lattice that were made for different T, rotated or repetition, agree on every string whose number of blanks is at most both T, whether it is a well-formed readout or not: correct_readout without err_prob (or with err_prob 0) returns the same value or raises the same exception; and they agree on every list of events that lie in rounds of both, also on what is left in the caller's list. With err_prob they do not, because shortest paths through the boundary nodes, which all rounds share, are counted once for each of the T rounds: for a 3x3 code, either XXZZ or XZZX, with one single X error on data qubit 5 between any two rounds and nothing else, correct_readout with err_prob p, 0 < p <= 1/3, returns the wrong logical value whenever 2 (T + 1) > ((1-p)/p)^(3 + 1/2500), however many rounds the run has and whatever matching of maximum weight rustworkx picks, while without err_prob it returns the right one; so every circuit that prepares such a qubit and has this error among rounds and logical calls comes out wrong with certainty. Such T exist for each of these p.", "quantifier": "all sizes, pairs of T, strings and lists of events (first part); all T above the threshold, probabilities up to 1/3, times of the error, numbers of rounds, registers, matchers (second part)", "why_tests_cant": "A test compares two values of T on a few records; that no record can tell them apart, and that for every small probability there are T for which a single error is decoded wrongly, are statements about all T and all real p.", "anchors": ["qtcodes/fitters/lattice_decoder.py:LatticeDecoder.correct_readout", "qtcodes/fitters/lattice_decoder.py:LatticeDecoder._make_error_graph", "qtcodes/fitters/lattice_decoder.py:LatticeDecoder._path_degeneracy", "qtcodes/fitters/rotated_surface.py:RotatedDecoder._make_syndrome_graph"]}
{"id": "C68", "title": "Programs with errors: what each reading means, and why a corrected control still inverts the target of a cx", "statement": "Take a TopologicalRegister of any number of qubits of any type and size, any session on it, and then any program of calls, logical cx between different data qubits included, with X and Z errors on data qubits of any of the qubits in between. The readings of logical Z the program records are those of a classical machine in which a detectable error on the top row of a qubit inverts its bit and every other error does nothing, and in which cx is CNOT of the inverted bits. Let in addition one of the qubits have a round, then a stretch of the program without resets and lattice readouts of that qubit but with anything else, cx from and to it included, then a round and a logical readout: if the errors on its own data qubits in the stretch and the misread bits of its own rounds are correctable, correct_readout, given its own words of the counts key, returns the recorded reading with the effect of its own errors undone, and of nothing else, because the cx leaves the syndromes of both qubits as they are. So one X error on the top row of a control before cx(control, target) is corrected on the control and inverts the decoded value of the target, whose own record shows no error, at every distance and with any number of rounds before, between and after.", "quantifier": "all registers, sizes, sessions, programs, errors, correctable sets, misreadings, measurement outcomes, matchings rustworkx may return", "why_tests_cant": "The statement is about all programs and all placements of errors; the project's tests contain no cx on a noisy qubit, and that the failure does not depend on the distance cannot be seen from examples.", "anchors": ["qtcodes/circuits/circ.py:TopologicalCircuit.cx", "qtcodes/circuits/circ.py:TopologicalCircuit.stabilize", "qtcodes/circuits/circ.py:TopologicalCircuit.measure_z", "qtcodes/circuits/rotated_surface.py:RotatedQubit.stabilize", "qtcodes/fitters/lattice_decoder.py:LatticeDecoder.correct_readout", "qtcodes/circuits/rotated_surface.py:parse_readout"]}
{"id": "C69", "title": "What treg[i], treg[\"name\"] and treg.params return after any program", "statement": "Make a TopologicalRegister with any lists of types and dictionaries, and run any program on it: adding qubits to any sub-register one by one or in lists, cx with or without named ancilla, every method of the qubits, changes of the dictionaries, failing calls included. The register always shows one list of entries in the order in which they were made: its length is the number of entries; treg[i] is the object of entry i for 0 <= i < n and raises ValueError for every other integer, negative ones included; that object has the type asked for and the name name_i, and stays the same object; treg[x] for a string lists, under their indices in the whole register, exactly the entries made for that sub-register, and raises KeyError exactly if no call ever got as far as adding to it; treg.params lists the dictionaries passed, in order. Lists of different length or with an unknown type raise ValueError and change nothing, and so does cx with a bad index or with only one of the two ancilla arguments; every other call carries out a prefix of its requests, all of them if it returns; cx adds one qubit to \"ancilla\" the first time and none later. An unknown type given to add_tqubit raises KeyError but opens the sub-register. The entry of treg.params is the dictionary the qubit uses exactly if it was not empty when passed.", "quantifier": "all register names, types, dictionaries, programs of any length, failing calls included", "why_tests_cant": "The claim is about every interleaving of additions, cx and failures; a test sees one order, and that a failing call leaves an empty sub-register or that an empty dictionary is not shared shows only in particular histories.", "anchors": ["qtcodes/circuits/circ.py:TopologicalRegister.__init__", "qtcodes/circuits/circ.py:TopologicalRegister.add_tqubits", "qtcodes/circuits/circ.py:TopologicalRegister.add_tqubit", "qtcodes/circuits/circ.py:TopologicalRegister.__getitem__", "qtcodes/circuits/circ.py:TopologicalCircuit.cx"]}
{"id": "C70", "title": "add_creg and add_qreg: names, no name, and override", "statement": "Call add_creg and add_qreg on a new TopologicalCircuit over any register, in any order, with any sizes, with or without a name, with or without override. The registers they add to the circuit are, for each name, the first one made of it, quantum or classical, if the circuit had no register of that name; circuit.creg[name] and circuit.qreg[name] are the register most recently made for that key. A register is made by the first call of each key with an allowed size and by every call with override; each call returns or raises CircuitError as stated in terms of the calls before it. So override never changes the circuit: it raises CircuitError for a name that is there, and leaves an entry of the requested size which the circuit does not contain. Without override only the first call of a key has an effect: the second unnamed call silently makes nothing, whatever its size. If the name qiskit makes up is taken, the call raises and disables the later unnamed calls.", "quantifier": "all circuits, sequences of calls, names, sizes, override flags, values of qiskit's counters", "why_tests_cant": "The entry of the dictionary and the registers of the circuit drift apart only after particular sequences of calls; tests cannot go through all sequences.", "anchors": ["qtcodes/circuits/circ.py:TopologicalCircuit.add_creg", "qtcodes/circuits/circ.py:TopologicalCircuit.add_qreg"]}
{"id": "C71", "title": "The project's own single-error tests pass at every size", "statement": "Run the class tests of the project (tests/base.py with RotatedDecoder or RepetitionDecoder and XXZZQubit or XZZXQubit) with any size instead of the three written there and with any T >= 1. XXZZQubit with RotatedDecoder and any odd dh and dw, also 1; XZZXQubit with odd dh and dw of at least 3; XXZZQubit with the dictionary of a RepetitionDecoder of any odd number, in both variants: whatever counts the simulator returns, as long as each key is a possible outcome of the circuit, no assertion fails and nothing is raised, and such runs exist. For XXZZ the nodes parsed from each key are exactly the neighbours the test expects. For XZZX with a single row or column no run passes, because one of the two readouts raises.", "quantifier": "all sizes, T >= 1, counts the simulator may return, matchings of minimal weight the graph library may return", "why_tests_cant": "The tests use three sizes, one simulator run each and one graph library; they say nothing about other sizes, and the simulator samples only some of the possible outcomes.", "anchors": ["tests/base.py:TestBase.test_single_errors", "tests/base.py:TestBase.simulate", "tests/base.py:TestBase.get_neighbors", "tests/rotated_surface.py:TestXZZX.get_neighbors", "tests/rep.py:TestRep", "tests/rep.py:TestPhaseFlipProtectedRep", "qtcodes/fitters/rotated_surface.py:RotatedDecoder", "qtcodes/circuits/xxzz.py:XXZZQubit", "qtcodes/circuits/xzzx.py:XZZXQubit"]}
{"id": "C72", "title": "TopologicalBenchmark reads every circuit as a Z experiment", "statement": "logical_error_rate always decodes with type Z. For a circuit that starts with reset_x, runs rounds, operations and data-qubit errors in any order and ends with readout_x, and a decoder of its size, every string is decoded without complaint, and the rate is 0 or 1 according to the parity of the Z-type errors on the left column plus the X-type errors on the top row, however many errors the code could have corrected (up to half the distance of X-type ones). With Z-type errors only, nothing is ever corrected, for every error probability; one such error on the left column gives the rate 1, although decoding as X is right. An X-type error on the top row, which does not affect a logical X, also gives 1. In general a run of one basis decoded as the other type yields the value inverted by both. For the phase-flip protected repetition code the rate is that of the bare readout bits, because it has no Z stabilizers.", "quantifier": "all sizes, both codes, histories with any number of rounds, operations and errors, counts the simulator may return, error probabilities, matchings", "why_tests_cant": "A test of the benchmark would use a Z experiment, where the fixed type is right; that an X experiment is silently not corrected shows only in the statistics.", "anchors": ["qtcodes/tools/benchmarking.py:TopologicalBenchmark.logical_error_rate", "qtcodes/tools/benchmarking.py:TopologicalBenchmark.sweep", "qtcodes/fitters/lattice_decoder.py:LatticeDecoder.correct_readout", "qtcodes/fitters/repetition.py:RepetitionDecoder"]}
{"id": "C73", "title": "A look-up table filled with shots of both logical values decodes as matching does", "statement": "Fill a decoder's look-up table with counts of a memory experiment: set_look_up_table(type, 0, ...) with shots of runs whose logical value is 0 and set_look_up_table(type, 1, ...) with shots of runs whose value is 1, each shot having at most half the distance of data-qubit errors and misread syndrome bits. Then no string occurs in both tables, every string that occurs is decoded by correct_readout_look_up_table to the value that was prepared, the same value as correct_readout returns with matching, and every other string raises ZeroDivisionError. Earlier uses of the decoder do not matter.", "quantifier": "both bases and codes, all sizes, numbers of rounds and shots, histories with operations and errors, possible executions, earlier uses of the decoder", "why_tests_cant": "Two independent decoders are compared over all strings of all shots of all experiments; tests can fill a table with a few.", "anchors": ["qtcodes/fitters/base.py:TopologicalDecoder.set_look_up_table", "qtcodes/fitters/base.py:TopologicalDecoder.correct_readout_look_up_table", "qtcodes/fitters/lattice_decoder.py:LatticeDecoder.correct_readout"]}
{"id": "C74", "title": "The first round of a memory experiment reports random outcomes for the other type of stabilizer, so a look-up table needs 2^n strings", "statement": "Run reset_z() (or reset_x()), stabilize(), any further rounds, gates and data-qubit errors, stabilize() and readout_z() (readout_x()) from |0...0>. In the first round all stabilizers of the prepared type are reported as 0, and every combination of outcomes of the n stabilizers of the other type has probability exactly 1/2^n. The counts have exactly 2^n different result strings, each with probability 1/2^n, whatever follows the first round. So a decoder used with look-up tables, whatever they contain, decodes a shot with probability at most (number of strings in its tables)/2^n, and tables that decode every shot have at least 2^n strings.", "quantifier": "both bases and codes, all sizes, all numbers of rounds and histories with operations and errors, all contents of the look-up tables and earlier uses of the decoder", "why_tests_cant": "A claim about exact probabilities and about exponentially many strings; a test sees finitely many shots of a few sizes.", "anchors": ["qtcodes/circuits/rotated_surface.py:RotatedQubit.stabilize", "qtcodes/circuits/xxzz.py:_XXZZLattice.reset_z", "qtcodes/circuits/xzzx.py:_XZZXLattice.reset_z", "qtcodes/fitters/base.py:TopologicalDecoder.correct_readout_look_up_table", "qtcodes/fitters/base.py:TopologicalDecoder.set_look_up_table"]}
{"id": "C75", "title": "Giving a repetition-code decoder an error probability for two rounds changes nothing, except that 1/2 is an error", "statement": "For a repetition code, the strings of an experiment with two stabilizer rounds and a logical readout (or one round and a readout of the lattice), and any error probability p strictly between 0 and 1 other than 1/2, correct_readout returns exactly what it returns without an error probability. All pairs of events have degeneracy 1 there. So the logical error rate is the binomial probability that a majority of qubits flipped, also for p > 1/2, where the weights change sign; and the benchmark computes the same logical error rate at every physical error rate of the sweep, with and without degeneracy weighting. At p = 1/2, on every lattice and for any number of rounds, correct_readout returns the readout if no syndrome bit changed and raises ZeroDivisionError otherwise; the benchmark cannot compute a rate at 1/2 as soon as one shot has such a change.", "quantifier": "all odd distances, bit-flip and phase-flip codes, all result strings of that form, all real error probabilities, all valid outcomes of the path search and of the matching, all noise rates", "why_tests_cant": "A claim about all strings, all real probabilities and every tie-breaking of the matching library.", "anchors": ["qtcodes/fitters/lattice_decoder.py:LatticeDecoder._make_error_graph", "qtcodes/fitters/lattice_decoder.py:LatticeDecoder.correct_readout", "qtcodes/circuits/repetition.py:RepetitionQubit", "qtcodes/tools/benchmarking.py:TopologicalBenchmark.logical_error_rate"]}
{"id": "C76", "title": "The size and the depth of a circuit follow closed formulas", "statement": "For every lattice of dh x dw data qubits and every sequence of successful calls of stabilize, readout_x/z, lattice_readout_x/z, reset_x/z, x, z, id and id_data: stabilize adds 4*dh*dw - 2*dh - 2*dw two-qubit gates, dh*dw - 1 measurements and as many resets, and (dh + 1)*(dw - 1) Hadamard gates for an XXZZ or repetition lattice but 4*dh*dw - 2*dh - 2*dw for an XZZX lattice; a logical readout adds as many two-qubit gates as the logical operator has qubits, one reset, and one measurement per bit of the register read into; the other methods have formulas of the same kind. The stabilizers of a round are measured one after the other, so that the depth (as QuantumCircuit.depth counts it) of a round is its number of gates plus two: it grows with the number of qubits. Depths of successive calls add up exactly, except that what follows a reset of an XZZX lattice can overlap with it, because of these methods only those resets do not end with a barrier; then the sum is an upper bound, and the sum without the resets a lower bound, both attained.", "quantifier": "all lattice sizes, both codes and the repetition code, all sequences of method calls and all earlier contents of the circuit (for the depth: empty or ending with a barrier)", "why_tests_cant": "A formula in the size of the lattice and the number of calls; tests can only compare it at a few sizes.", "anchors": ["qtcodes/circuits/rotated_surface.py:RotatedQubit.stabilize", "qtcodes/circuits/base.py:_TopologicalLattice.entangle", "qtcodes/circuits/xxzz.py:_XXZZLattice.reset_z", "qtcodes/circuits/xzzx.py:_XZZXLattice.reset_z", "qtcodes/circuits/xzzx.py:_XZZXLattice.reset_x"]}
{"id": "C77", "title": "Pictures of graphs: nothing overlaps, and colours tell rounds", "statement": "draw() of a decoding graph puts no two nodes at one point, writes no two edge weights at one point and none at a node; all nodes and all edges of the graph are drawn, each edge between the points of its nodes. The same holds for the nodes of the graph that is matched and of the graph of matches, whatever the events: the extra node that makes their number even is drawn beside the lattice. With one layer (T = 1) a 2D figure is returned; with more, the boundary nodes are drawn at the height of the middle layer of a 3D picture, two nodes have the same colour exactly if they belong to the same round (or both to the boundary), the colour is always on the colour map, and draw() returns None and shows the figure even if show=False.", "quantifier": "all odd lattice sizes (at least 3 in the direction of the chains), all T >= 1, both types, all lists of distinct events, all outcomes of the matching", "why_tests_cant": "Two nodes overlapping is a question of coordinates at every size and number of rounds.", "anchors": ["qtcodes/fitters/lattice_decoder.py:LatticeDecoder.draw", "qtcodes/fitters/lattice_decoder.py:LatticeDecoder.draw3D"]}
{"id": "C78", "title": "Pictures of measured error rates", "statement": "TopologicalBatchAnalysis.plot() adds two figures and saves them as comparison_log.png and comparison.png: on logarithmic and on linear scales, one curve per data file (ordered as the analyses) and the breakeven line at the physical rates of the first. Every point a benchmark ever appended to a data file of the directory is on the curve labelled with its d and T, and labels agree exactly if d and T do. An empty directory is an IndexError and arrays of unequal length a ValueError; nothing is saved then. TopologicalAnalysis.plot() makes a figure with the points (divided by T if per_round), but ignores axes passed to it: with ax alone it still makes a new figure and leaves ax empty; with fig and ax the curve goes to the current axes of the current figure, whatever was passed (to a new figure if none is current); with fig alone the new axes get the curve exactly if fig is the current figure. No other figure changes.", "quantifier": "all analyses, all sequences of appends by any benchmarks, all states of the plotting library and all backends", "why_tests_cant": "Where a curve goes depends on the state left behind by everything plotted before.", "anchors": ["qtcodes/tools/benchmarking.py:TopologicalAnalysis.plot", "qtcodes/tools/benchmarking.py:TopologicalBatchAnalysis.plot"]}
{"id": "C79", "title": "A params dictionary keeps the shape of the first object constructed from it", "statement": "With a number z under d, the first construction from the dictionary, of a qubit or a decoder, even if it fails, replaces the number by a tuple: (z,1) or (1,z) for the repetition classes, depending on phase-flip-protected, and (z,z) for the others. No later construction, call, decoding or change of the flag or of T changes it. So every later XXZZQubit, XZZXQubit and RotatedDecoder of the dictionary has that shape (a surface code qubit becomes a single line), and a repetition qubit is refused with LatticeError exactly if the flag at that time does not fit; a RepetitionDecoder is then refused too. In particular, for z other than 1, storing the other flag after a first use, or using the dictionary of a surface code, makes RepetitionQubit and RepetitionDecoder raise LatticeError, although a new dictionary with the same number is accepted. A wrong d (neither number nor tuple, or a tuple with another width, or height, than 1) makes every attempt in any sequence of RepetitionQubit and RepetitionDecoder constructions raise LatticeError and leaves d, T, the circuit and other dictionaries as they were.", "quantifier": "all numbers, both flags, all classes, all programs in between (constructions, calls, stored flags and T, decoding), all sequences of failing attempts", "why_tests_cant": "The dictionary is changed in place; what a constructor does depends on everything constructed before.", "anchors": ["qtcodes/circuits/repetition.py:RepetitionQubit._validate_params", "qtcodes/circuits/rotated_surface.py:_RotatedLattice._params_validate_and_generate", "qtcodes/fitters/rotated_surface.py:RotatedDecoder._params_validation", "qtcodes/fitters/repetition.py:RepetitionDecoder._params_validation"]}
{"id": "C80", "title": "Methods of TopologicalCircuit are the methods of its qubits", "statement": "stabilize, id, id_data, reset_x, reset_z, x, z, measure_x, measure_z (with the register passed), measure_lattice_x, measure_lattice_z and parse_readout of a TopologicalCircuit, called with an index or with a qubit, do exactly what the method of that qubit does with the same arguments: same circuit, same dictionaries, same exception. An index that is not in the register raises ValueError and changes nothing. None of them changes which qubits the register holds, so a program of such calls, exceptions caught, does what it does when each index is replaced by the qubit it means at the start.", "quantifier": "all registers, indices, qubits, arguments and programs", "why_tests_cant": "Tests call few of the wrappers, and only in good cases.", "anchors": ["qtcodes/circuits/circ.py:TopologicalCircuit", "qtcodes/circuits/circ.py:TopologicalCircuit._get_index", "qtcodes/circuits/circ.py:TopologicalCircuit.parse_readout"]}
{"id": "C81", "title": "The events of shots add up, and every set of events can occur", "statement": "Take two shots with the same registers and flip, in all-zero registers, exactly the bits in which they differ: parse_readout then reports the sum modulo 2 of the two logical values, and the events that exactly one of the two shots has, each once. This holds for logical readouts and for Z-basis lattice readouts. Equal sets of events are listed in the same order, whatever the strings. Two shots with a logical readout report the same value exactly when the bits read are equal, and the same events exactly when, stabilizer by stabilizer, they differ in all rounds or in none. For lattice readouts the parity of the differing data bits around a Z stabilizer counts as its last round, and of the other data bits only the parity of the top row is seen. Conversely every value, with any set of events at stabilizers between recorded rounds, is reported for some shot with a logical readout.", "quantifier": "all lattice sizes, numbers of rounds, register names, shots and sets of events", "why_tests_cant": "Tests look at a few strings; additivity relates all pairs of shots, and no enumeration shows that every set of events occurs at every size.", "anchors": ["qtcodes/circuits/rotated_surface.py:_RotatedLattice.parse_readout", "qtcodes/circuits/rotated_surface.py:_RotatedLattice.extract_final_stabilizer_and_logical_readout_z"]}
{"id": "C82", "title": "Decoding sees changes only, and flipping the raw value flips the result", "statement": "Two shots with a logical readout whose stabilizer bits differ, stabilizer by stabilizer, in all rounds or in none (such as the random outcomes of the first round) are decoded to the same value if their bits read are equal and to opposite values if not; if decoding one raises, so does the other, with the same exception. Rounds at the end that report what the round before reported change nothing, for the same decoder. For Z-basis lattice readouts: X errors just before the readout on a set of data qubits that commutes with all stabilizers flip the decoded value exactly if the set crosses the top row an odd number of times; so errors forming an X stabilizer change nothing, and errors forming the logical X flip the result, whatever else went wrong in the shot.", "quantifier": "all lattice sizes, decoders of that size, matchings that retworkx may return as a function of the graph, error probabilities or none, numbers of rounds, shots and sets of qubits", "why_tests_cant": "It relates the results for all pairs of shots, including those with more errors than the code corrects.", "anchors": ["qtcodes/fitters/lattice_decoder.py:LatticeDecoder.correct_readout", "qtcodes/circuits/rotated_surface.py:_RotatedLattice.parse_readout"]}
{"id": "C83", "title": "A lattice turned by a quarter is the lattice of the other shape with X and Z exchanged", "statement": "For both codes, turn the h x w lattice so that the data qubit in row i, column j comes to row j, column h-1-i, and exchange X and Z: the stabilizers become exactly the stabilizers of the w x h lattice, logical X becomes logical Z, logical Z becomes a logical X (it commutes with all stabilizers and anticommutes with logical Z), and operators commute after turning if they did before. An X event reported at (row, col) corresponds to a Z event at (col, h-1-row). Turning twice, numbering the data qubits backwards maps each code to itself.", "quantifier": "all odd sizes h, w, both codes, all stabilizers and all operators on the data qubits", "why_tests_cant": "Tests build a few shapes and compare none of them with each other.", "anchors": ["qtcodes/circuits/rotated_surface.py:_RotatedLattice._set_geometry", "qtcodes/circuits/rotated_surface.py:_RotatedLattice.parse_readout", "qtcodes/circuits/xxzz.py:XXZZQubit", "qtcodes/circuits/xzzx.py:XZZXQubit"]}
