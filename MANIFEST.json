{
 "claims": [
  {
   "property": "C01",
   "status": "proved",
   "theorems": [
    "C01_construction",
    "C01_even_rejected",
    "C01_default",
    "C01_negative_refuted"
   ],
   "note": "for names not already used in the circuit; C01_negative_refuted records that the validation also lets the negative odd d=-1 through"
  },
  {
   "property": "C02",
   "status": "proved",
   "theorems": [
    "C02_plaquettes",
    "C02_coordinates_distinct"
   ],
   "note": ""
  },
  {
   "property": "C03",
   "status": "proved",
   "theorems": [
    "C03_stabilizers_commute"
   ],
   "note": ""
  },
  {
   "property": "C04",
   "status": "proved",
   "theorems": [
    "C04_logical_operators",
    "C04_constructed"
   ],
   "note": ""
  },
  {
   "property": "C05",
   "status": "proved",
   "theorems": [
    "C05_independent",
    "C05_count"
   ],
   "note": ""
  },
  {
   "property": "C06",
   "status": "proved",
   "theorems": [
    "C06_distance",
    "C06_attained"
   ],
   "note": ""
  },
  {
   "property": "C07",
   "status": "proved",
   "theorems": [
    "C07_single_error_XXZZ",
    "C07_inside",
    "C07_single_error_XZZX"
   ],
   "note": ""
  },
  {
   "property": "C40",
   "status": "proved",
   "theorems": [
    "C40_entangle_x_z",
    "C40_width_one",
    "C40_height_one_refuted"
   ],
   "note": "C40_height_one_refuted shows that the unrestricted claim fails for h = 1"
  },
  {
   "property": "C41",
   "status": "proved",
   "theorems": [
    "C41_shape",
    "C41_number",
    "C41_rejected"
   ],
   "note": ""
  },
  {
   "property": "C42",
   "status": "proved",
   "theorems": [
    "C42_entangle_never_raises"
   ],
   "note": ""
  },
  {
   "property": "C08",
   "status": "proved",
   "theorems": [
    "C08_stabilizers",
    "C08_logical",
    "C08_reset",
    "C08_readout",
    "C08_lattice_readout"
   ],
   "note": ""
  },
  {
   "property": "C09",
   "status": "proved",
   "theorems": [
    "C09_plaquette"
   ],
   "note": "the projection appears multiplied by 2^N/2 because the semantics uses unnormalised Hadamards"
  },
  {
   "property": "C10",
   "status": "proved",
   "theorems": [
    "C10_rounds_agree",
    "C10_repeated_round",
    "C10_syndromes_stay_clean",
    "C10_initially_clean"
   ],
   "note": ""
  },
  {
   "property": "C11",
   "status": "proved",
   "theorems": [
    "C11_z",
    "C11_x",
    "C11_z_with_faults",
    "C11_x_with_faults",
    "C11_lattice_z",
    "C11_lattice_x"
   ],
   "note": ""
  },
  {
   "property": "C12",
   "status": "proved",
   "theorems": [
    "C12_syndrome_change"
   ],
   "note": ""
  },
  {
   "property": "C13",
   "status": "proved",
   "theorems": [
    "C13_z_repeatable",
    "C13_x_repeatable",
    "C10_rounds_agree"
   ],
   "note": ""
  },
  {
   "property": "C16",
   "status": "proved",
   "theorems": [
    "C16_fresh_names"
   ],
   "note": ""
  },
  {
   "property": "C18",
   "status": "proved",
   "theorems": [
    "C18_indexing"
   ],
   "note": ""
  },
  {
   "property": "C19",
   "status": "proved",
   "theorems": [
    "C19_rejects",
    "C19_accepts"
   ],
   "note": ""
  },
  {
   "property": "C15",
   "status": "proved",
   "theorems": [
    "C15_truth_table",
    "C15_frame",
    "C15_not_coherent"
   ],
   "note": ""
  },
  {
   "property": "C17",
   "status": "proved",
   "theorems": [
    "C17_explicit_ancilla",
    "C17_default_ancilla_clash"
   ],
   "note": ""
  },
  {
   "property": "C20",
   "status": "proved",
   "theorems": [
    "C20_failed_cx_disables_cx"
   ],
   "note": ""
  },
  {
   "property": "C14",
   "status": "proved",
   "theorems": [
    "C14_lattice_z",
    "C14_no_new_x_events",
    "C14_lattice_x_attribute_error",
    "C14_lattice_x_never"
   ],
   "note": ""
  },
  {
   "property": "C21",
   "status": "proved",
   "theorems": [
    "C21_round_trip"
   ],
   "note": ""
  },
  {
   "property": "C23",
   "status": "proved",
   "theorems": [
    "C23_syndrome_graph",
    "C23_total"
   ],
   "note": ""
  },
  {
   "property": "C24",
   "status": "proved",
   "theorems": [
    "C24_edge_of_flip",
    "C24_flip_of_edge"
   ],
   "note": ""
  },
  {
   "property": "C22",
   "status": "proved",
   "theorems": [
    "C22_events_are_nodes",
    "C22_decodes",
    "C22_late_event",
    "C22_late_event_lattice_z"
   ],
   "note": "err_prob None or 0; retworkx enters through its contract rx_ok (SpecRx.v), met by the exhaustive implementation rx_ref_ok"
  },
  {
   "property": "C25",
   "status": "proved",
   "theorems": [
    "C25_perfect_matching"
   ],
   "note": ""
  },
  {
   "property": "C26",
   "status": "proved",
   "theorems": [
    "C26_corrects",
    "C26_corrects_lattice_z",
    "rx_ref_ok"
   ],
   "note": "faults_within excludes misreadings in the first and the last round, see C43"
  },
  {
   "property": "C28",
   "status": "proved",
   "theorems": [
    "C28_repeated_decoding"
   ],
   "note": ""
  },
  {
   "property": "C32",
   "status": "proved",
   "theorems": [
    "C32_same_matchings"
   ],
   "note": ""
  },
  {
   "property": "C27",
   "status": "proved",
   "theorems": [
    "C27_end_to_end"
   ],
   "note": "faults are Pauli gates on data qubits between calls and wrong syndrome bits; faults inside a round are the subject of C49"
  },
  {
   "property": "C44",
   "status": "proved",
   "theorems": [
    "C44_end_to_end_lattice"
   ],
   "note": "Z basis; the X-basis lattice readout cannot be parsed (C14)"
  },
  {
   "property": "C43",
   "status": "proved",
   "theorems": [
    "C43_end_round",
    "C43_single_misread_refuted"
   ],
   "note": "exact outcome for one misread stabilizer in an end round"
  },
  {
   "property": "C29",
   "status": "proved",
   "theorems": [
    "C29_history"
   ],
   "note": ""
  },
  {
   "property": "C30",
   "status": "proved",
   "theorems": [
    "C30_degeneracy",
    "C30_first_ancilla_refuted"
   ],
   "note": "C30_first_ancilla_refuted exhibits the exception for the first ancilla"
  },
  {
   "property": "C31",
   "status": "proved",
   "theorems": [
    "C31_weight",
    "C31_most_likely"
   ],
   "note": "floats are idealised as real numbers"
  },
  {
   "property": "C45",
   "status": "proved",
   "theorems": [
    "C45_outcome",
    "C45_no_events",
    "C45_plain"
   ],
   "note": "floats are idealised as real numbers"
  },
  {
   "property": "C46",
   "status": "proved",
   "theorems": [
    "C46_corrects",
    "C46_corrects_lattice_z",
    "C46_bound",
    "C46_rare",
    "C46_small_probability"
   ],
   "note": "floats are idealised as real numbers"
  },
  {
   "property": "C33",
   "status": "proved",
   "theorems": [
    "C33_bayes",
    "C33_decision"
   ],
   "note": "Floats idealised as exact rationals."
  },
  {
   "property": "C34",
   "status": "proved",
   "theorems": [
    "C34_unseen",
    "C34_seen",
    "C34_errors"
   ],
   "note": "Floats idealised as exact rationals."
  },
  {
   "property": "C35",
   "status": "proved",
   "theorems": [
    "C35_last_set",
    "C35_not_set",
    "C35_unknown",
    "C35_consistent",
    "C35_stale_shots_refuted"
   ],
   "note": "The decoder keeps a reference to the caller's dictionary but a snapshot of its total."
  },
  {
   "property": "C36",
   "status": "proved",
   "theorems": [
    "C36_value",
    "C36_rejected",
    "C36_range",
    "C36_extremes",
    "C36_order",
    "C36_merge",
    "C36_bound",
    "C36_code",
    "C36_code_weighted"
   ],
   "note": "floats are idealised as exact rationals; error probabilities as reals"
  },
  {
   "property": "C37",
   "status": "proved",
   "theorems": [
    "C37_success",
    "C37_failure",
    "C37_succeeds",
    "C37_single"
   ],
   "note": "floats are idealised as exact rationals; the simulator is an arbitrary function; np.argsort is an arbitrary function that sorts"
  },
  {
   "property": "C38",
   "status": "proved",
   "theorems": [
    "C38_appends",
    "C38_append_ok",
    "C38_load",
    "C38_load_missing"
   ],
   "note": "floats are idealised as exact rationals"
  },
  {
   "property": "C39",
   "status": "proved",
   "theorems": [
    "C39_nothing_invented",
    "C39_own_point",
    "C39_nothing_lost",
    "C39_race_refuted",
    "C39_crash_refuted",
    "C39_sequential"
   ],
   "note": "np.savez is modelled as truncating the file and then writing it; writes that overlap may leave an unreadable file"
  },
  {
   "property": "C47",
   "status": "proved",
   "theorems": [
    "C47_filename",
    "C47_own_parameters",
    "C47_decoder",
    "C47_decoders"
   ],
   "note": ""
  },
  {
   "property": "C48",
   "status": "proved",
   "theorems": [
    "C48_batch"
   ],
   "note": ""
  },
  {
   "property": "C49",
   "status": "proved",
   "theorems": [
    "C49_lattice",
    "C49_logical",
    "C49_half_refuted"
   ],
   "note": "the readout of a logical readout run and the two rounds before it are free of errors; C49_half_refuted shows that (d-1)/2 errors within rounds are too many"
  },
  {
   "property": "C50",
   "status": "proved",
   "theorems": [
    "C50_small",
    "C50_logical",
    "C50_lattice",
    "C50_faults_lattice",
    "C50_faults_logical"
   ],
   "note": "floats are idealised as real numbers"
  },
  {
   "property": "C51",
   "status": "proved",
   "theorems": [
    "C51_majority",
    "C51_majority_lattice_z",
    "C51_sharp"
   ],
   "note": ""
  },
  {
   "property": "C52",
   "status": "proved",
   "theorems": [
    "C52_shared_circuit",
    "C52_registers"
   ],
   "note": "the circuit may hold other registers whose names are of another form"
  },
  {
   "property": "C53",
   "status": "proved",
   "theorems": [
    "C53_noninterference",
    "C53_own_part",
    "C53_end_to_end",
    "C53_end_to_end_lattice",
    "C53_constructed",
    "C53_register",
    "C53_whole_key",
    "C53_whole_key_refuted"
   ],
   "note": "amplitudes for which being zero is decided, such as the exact ones of the examples; cx between qubits is the subject of C15-C17"
  },
  {
   "property": "C54",
   "status": "proved",
   "theorems": [
    "C54_construct",
    "C54_decoder_fixed",
    "C54_decoding_harmless",
    "C54_own_dict_new",
    "C54_own_dict",
    "C54_own_dict_decodes",
    "C54_own_dict_lattice",
    "C54_own_dict_lattice_refuted",
    "C54_too_early"
   ],
   "note": "the caller changes only T; sizes are odd and positive"
  },
  {
   "property": "C55",
   "status": "proved",
   "theorems": [
    "C55_upper",
    "C55_lower",
    "C55_weighted",
    "C55_repetition",
    "C55_threshold",
    "C55_larger_better",
    "C55_decided",
    "C55_shots",
    "C55_shots_weighted",
    "C55_shots_repetition"
   ],
   "note": "probabilities are exact rationals; the simulator's noise is modelled as independent Pauli errors after identity gates; the C55_shots theorems weigh the measurement outcomes with their quantum probabilities, the others hold for every assignment that respects certainty"
  },
  {
   "property": "C56",
   "status": "proved",
   "theorems": [
    "C56_ideal",
    "C56_possible",
    "C56_memory",
    "C56_encoded"
   ],
   "note": "amplitudes in any commutative ring in which 2 is not a zero divisor; states are not normalised, so probabilities appear as a common factor; logical readouts into an explicit register, lattice readouts and resets end such a history and are covered by C10-C13"
  },
  {
   "property": "C57",
   "status": "proved",
   "theorems": [
    "C57_program",
    "C57_output",
    "C57_readings"
   ],
   "note": "without faults (C27, C49 and C53 treat faults); the session must raise no exception, which C17 characterises; readouts into a register passed by the caller are covered by C13"
  },
  {
   "property": "C58",
   "status": "proved",
   "theorems": [
    "C58_string",
    "C58_dict_value",
    "C58_dict_list",
    "C58_corrects",
    "C58_corrects_weighted"
   ],
   "note": "the lists of a dictionary are different objects; real numbers stand for floats"
  },
  {
   "property": "C59",
   "status": "proved",
   "theorems": [
    "C59_matches_as_graph",
    "C59_every_event"
   ],
   "note": "the second theorem for weights without an error probability"
  },
  {
   "property": "C60",
   "status": "proved",
   "theorems": [
    "C60_normalised",
    "C60_certain",
    "C60_uniform",
    "C60_coin",
    "C60_counts",
    "C60_session"
   ],
   "note": "probabilities are squared norms of the branches divided by their sum, computed exactly; gates without the factor 1/sqrt 2 of the Hadamard gate, whose square C60_normalised accounts for"
  },
  {
   "property": "C61",
   "status": "proved",
   "theorems": [
    "C61_any",
    "C61_independent",
    "C61_weighted"
   ],
   "note": "preparation and first round, and for logical readouts the last two rounds and the readout, are free of noise, as in C49; misreadings are X errors before a measurement"
  },
  {
   "property": "C62",
   "status": "proved",
   "theorems": [
    "C62_int",
    "C62_int_else",
    "C62_words",
    "C62_logical",
    "C62_lattice_z",
    "C62_lattice_errors",
    "C62_blanks"
   ],
   "note": "strings of ASCII characters"
  },
  {
   "property": "C63",
   "status": "proved",
   "theorems": [
    "C63_undetectable",
    "C63_readings",
    "C63_wrong"
   ],
   "note": "executions are matched with equal states, so with equal weights; the later calls may measure into registers of the caller in C63_undetectable"
  },
  {
   "property": "C64",
   "status": "proved",
   "theorems": [
    "C64_legal"
   ],
   "note": "the caller's own arguments must belong to the circuit, as Qiskit itself demands; the classical arguments bits= and override= of add_creg/add_qreg are not modelled"
  },
  {
   "property": "C65",
   "status": "proved",
   "theorems": [
    "C65_second"
   ],
   "note": ""
  },
  {
   "property": "C66",
   "status": "proved",
   "theorems": [
    "C66_logical",
    "C66_lattice",
    "C66_single",
    "C66_logical_weighted",
    "C66_lattice_weighted"
   ],
   "note": "the _weighted theorems use real numbers for the floats; as in C27 the bits of the first and last round of a logical readout are read correctly"
  },
  {
   "property": "C67",
   "status": "proved",
   "theorems": [
    "C67_events",
    "C67_readouts",
    "C67_weighted_events",
    "C67_weighted",
    "C67_threshold",
    "C67_circuit"
   ],
   "note": "real numbers stand for the floats in the part with err_prob"
  },
  {
   "property": "C68",
   "status": "proved",
   "theorems": [
    "C68_program",
    "C68_decoded",
    "C68_spread"
   ],
   "note": "after a cx with default ancilla the control cannot be stabilized again (C17), so C68_spread concerns cx calls that name their ancilla"
  },
  {
   "property": "C69",
   "status": "proved",
   "theorems": [
    "C69_container",
    "C69_same",
    "C69_unknown"
   ],
   "note": ""
  },
  {
   "property": "C70",
   "status": "proved",
   "theorems": [
    "C70_registers",
    "C70_override",
    "C70_repeat",
    "C70_unnamed_clash",
    "C70_same"
   ],
   "note": "the argument bits is not modelled; how qiskit makes up names is trusted"
  },
  {
   "property": "C71",
   "status": "proved",
   "theorems": [
    "C71_cases",
    "C71_xxzz",
    "C71_xzzx",
    "C71_repetition",
    "C71_nodes",
    "C71_xzzx_narrow"
   ],
   "note": "the error rate, a float in the tests, is an exact rational; Aer is replaced by: a non-empty dictionary of possible outcomes with positive counts"
  },
  {
   "property": "C72",
   "status": "proved",
   "theorems": [
    "C72_other_type",
    "C72_rate",
    "C72_uncorrected",
    "C72_phase_flip",
    "C72_phase_flip_rate"
   ],
   "note": ""
  },
  {
   "property": "C73",
   "status": "proved",
   "theorems": [
    "C73_trained"
   ],
   "note": ""
  },
  {
   "property": "C74",
   "status": "proved",
   "theorems": [
    "C74_first_round",
    "C74_strings",
    "C74_table",
    "C74_complete"
   ],
   "note": ""
  },
  {
   "property": "C75",
   "status": "proved",
   "theorems": [
    "C75_unique",
    "C75_same",
    "C75_same_lattice",
    "C75_half",
    "C75_rate",
    "C75_bench",
    "C75_bench_half"
   ],
   "note": ""
  },
  {
   "property": "C76",
   "status": "proved",
   "theorems": [
    "C76_counts",
    "C76_depth",
    "C76_depth_exact",
    "C76_memory"
   ],
   "note": ""
  },
  {
   "property": "C77",
   "status": "proved",
   "theorems": [
    "C77_decoding_graph",
    "C77_colours",
    "C77_error_graph"
   ],
   "note": ""
  },
  {
   "property": "C78",
   "status": "proved",
   "theorems": [
    "C78_current_axes",
    "C78_new_figure",
    "C78_closed",
    "C78_figure",
    "C78_unequal",
    "C78_batch",
    "C78_batch_fails",
    "C78_labels",
    "C78_every_point"
   ],
   "note": ""
  },
  {
   "property": "C79",
   "status": "proved",
   "theorems": [
    "C79_shape_fixed",
    "C79_qubits",
    "C79_decoders",
    "C79_flag",
    "C79_exceptions"
   ],
   "note": ""
  },
  {
   "property": "C80",
   "status": "proved",
   "theorems": [
    "C80_method",
    "C80_missing",
    "C80_program",
    "C80_parse"
   ],
   "note": ""
  },
  {
   "property": "C81",
   "status": "proved",
   "theorems": [
    "C81_add",
    "C81_add_lattice",
    "C81_order",
    "C81_alike",
    "C81_alike_lattice",
    "C81_any"
   ],
   "note": ""
  },
  {
   "property": "C82",
   "status": "proved",
   "theorems": [
    "C82_decode",
    "C82_decode_lattice",
    "C82_idle",
    "C82_operator",
    "C82_stabilizer",
    "C82_logical"
   ],
   "note": "The stabilizers meant are those of XXZZ; a lattice readout of XZZX turns its qubits first, so the same sets apply."
  },
  {
   "property": "C83",
   "status": "proved",
   "theorems": [
    "C83_stabilizers",
    "C83_logical",
    "C83_places",
    "C83_half_turn",
    "C83_commutation",
    "C83_logical_z"
   ],
   "note": ""
  }
 ]
}