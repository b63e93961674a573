{
 "claims": [
  {
   "property": "C01",
   "status": "partial",
   "theorems": [
    "C01_register_is_list",
    "C01_range_register_is_list",
    "C01_bit_equal_to_index_refuted"
   ],
   "note": "Full refinement to duplicate-free lists for items that do not compare equal to an integer (qubits, strings, integers, unset bits, unset variables). Refuted for a bit whose value equals its position. relabel mappings must have keys in the register (C05)."
  },
  {
   "property": "C02",
   "status": "proved",
   "theorems": [
    "C02_index_inverse"
   ],
   "note": "Every reachable register."
  },
  {
   "property": "C03",
   "status": "proved",
   "theorems": [
    "C03_add"
   ],
   "note": "Every reachable register, every list of items."
  },
  {
   "property": "C04",
   "status": "partial",
   "theorems": [
    "C04_slice_partial",
    "C04_slice_refuted"
   ],
   "note": "Holds for non-negative bounds, stop within the register and positive step; refuted with witnesses for negative bounds, stop beyond the end, and negative steps."
  },
  {
   "property": "C05",
   "status": "partial",
   "theorems": [
    "C05_relabel",
    "C05_relabel_rejects",
    "C05_relabel_as_integers",
    "C05_unknown_key_refuted"
   ],
   "note": "Simultaneous substitution, undone by the inverse mapping; refused mappings change nothing. A mapping with an unknown key is accepted and corrupts the register (refuted)."
  },
  {
   "property": "C06",
   "status": "partial",
   "theorems": [
    "C06_concat",
    "C06_result_usable_refuted",
    "C06_result_never_usable"
   ],
   "note": "Items and exceptions as claimed; the result is not usable for add (refuted, and shown for every pair)."
  },
  {
   "property": "C07",
   "status": "partial",
   "theorems": [
    "C07_self_incrementing",
    "C07_own_variables_refuted"
   ],
   "note": "Fresh register: any access sequence. With own variables a name clash raises (refuted)."
  },
  {
   "property": "C08",
   "status": "partial",
   "theorems": [
    "C08_ids_distinct",
    "C08_ids_distinct_shipped",
    "C08_ids_wellformed",
    "C08_across_reset_refuted"
   ],
   "note": "Distinct between resets; the same id can be issued again after a reset (refuted)."
  },
  {
   "property": "C09",
   "status": "proved",
   "theorems": [
    "C09_exhaustion"
   ],
   "note": "Every alphabet, start length, batch size and schedule."
  },
  {
   "property": "C10",
   "status": "partial",
   "theorems": [
    "C10_equivalence",
    "C10_hash",
    "C10_symmetric",
    "C10_same_object",
    "C10_lasting",
    "C10_transitive_refuted",
    "C10_hash_refuted"
   ],
   "note": "Within a class both halves hold for all objects, value states and programs (C10_equivalence, C10_hash, C10_lasting, C10_same_object). Read across classes it is false: Bit and Variable with a value equal a plain number but hash differently, and == is then not transitive (C10_hash_refuted, C10_transitive_refuted)."
  },
  {
   "property": "C11",
   "status": "proved",
   "theorems": [
    "C11_set",
    "C11_reset",
    "C11_sequences",
    "C11_kept"
   ],
   "note": "Exact outcome of set, forced set and reset, the value after every sequence of calls, and that no other call in any program changes it."
  },
  {
   "property": "C12",
   "status": "partial",
   "theorems": [
    "C12_quantum_registers",
    "C12_classical_registers",
    "C12_classical_registers_with_values",
    "C12_set_bit_refuted"
   ],
   "note": "Quantum registers: all programs of circuit methods. Classical registers: all programs in which no bit holds the number of its own position when bits is computed (in particular those that never set a bit). Refuted otherwise: a bit with value 1 at position 1 is taken for the integer 1 and can be added twice."
  },
  {
   "property": "C13",
   "status": "partial",
   "theorems": [
    "C13_qubits_partial",
    "C13_bits_partial",
    "C13_bits_without_values_partial",
    "C13_qubits_of_registers_partial",
    "C13_dropped_registers_refuted",
    "C13_changed_register_refuted",
    "C13_set_bit_refuted"
   ],
   "note": "Proved for programs of circuit methods that never drop registers (and, for bits, the condition of C12). Refuted: reset(keep_registers=False) keeps the cached view; a register changed directly is not seen; a set bit appears as the integer 1."
  },
  {
   "property": "C14",
   "status": "partial",
   "theorems": [
    "C14_own_partial",
    "C14_set_refuted",
    "C14_reset_refuted"
   ],
   "note": "Every qubit of every operation in a circuit is an item of one of its quantum registers, in every state that a program passes through (recording, append, extend, circuit calls, failures included). Partial: it holds for programs that do not set the qubits of a recorded operation and do not drop registers, and each of these two is refuted by a program (C14_set_refuted, C14_reset_refuted). It is also limited to programs that add to registers through the circuit's methods only, and to less than 2^63 qubits; for these two no counterexample is claimed."
  },
  {
   "property": "C15",
   "status": "partial",
   "theorems": [
    "C15_append",
    "C15_enter",
    "C15_build",
    "C15_unchanged",
    "C15_nothing_to_add_refuted",
    "C15_empty_call_refuted"
   ],
   "note": "append, extend, entering the context, building operations and calling circuits raise and leave the operations alone; no program without unlock, reset or remove of the circuit changes it. Refuted in the corner where there is nothing to add: extend([]) and calling a circuit without operations do not raise."
  },
  {
   "property": "C16",
   "status": "partial",
   "theorems": [
    "C16_exit",
    "C16_second_context",
    "C16_inside",
    "C16_balanced_partial",
    "C16_balanced_without_values_partial",
    "C16_released_refuted"
   ],
   "note": "Exit and second entry proved for all programs; balanced programs under the conditions of C12. Refuted without them: an exception from circuit.bits inside __enter__ leaves the context active."
  },
  {
   "property": "C17",
   "status": "partial",
   "theorems": [
    "C17_order",
    "C17_context",
    "C17_frozen_partial",
    "C17_outside",
    "C17_once",
    "C17_nested_freeze_refuted"
   ],
   "note": "Proved for all programs: a circuit gets exactly the objects built while its context is active and not frozen, in order and once; nothing outside contexts. Refuted: the end of a nested freeze ends the outer freeze, so a gate built inside the outer freeze is recorded; freezes without nesting are proved."
  },
  {
   "property": "C18",
   "status": "partial",
   "theorems": [
    "C18_replay_partial",
    "C18_bits_partial",
    "C18_outside",
    "C18_itself",
    "C18_wrong_number",
    "C18_condition_refuted",
    "C18_measurement_refuted",
    "C18_single_bit_refuted",
    "C18_controls_refuted"
   ],
   "note": "A successful call of a circuit inside another context adds, to the recording circuit only, one operation per operation of the called circuit, in order, of the same class, with the i-th qubit and bit replaced by the i-th given one; the called circuit keeps its operations, registers, lock and context. The three refusals (no context, own context, wrong number of qubits) are proved as well. Partial: programs that set the qubits of recorded operations, drop registers, or add to registers other than through the circuit are excluded; that the replaced bits are those of the classical registers needs the further condition classical_ok; that a call succeeds is not proved. Refuted parts: conditions are dropped, a measurement without bits raises when bits are given, a single bit of value 0 counts as none, an operation with two controls raises TypeError."
  },
  {
   "property": "C19",
   "status": "partial",
   "theorems": [
    "C19_substitutes_partial",
    "C19_numbers_partial",
    "C19_own_variables",
    "C19_too_few",
    "C19_zero_refuted",
    "C19_controlled_refuted",
    "C19_nested_refuted"
   ],
   "note": "A successful call of a parametric circuit repeats its operations as in C18, with the i-th variable of the called circuit replaced by the i-th parameter in every ParametricOperation, when the recording circuit has no variables of its own; in every state of every program the ParametricOperations of a circuit without parameters hold numbers only; each variable belongs to one circuit, once; too few parameters raise IndexError and add nothing. Partial for the same programs as C18, and false in three ways: the parameter 0 is refused, a ParametricControlledOperation keeps its variables, and inside a parametric circuit with variables the given values are lost."
  },
  {
   "property": "C20",
   "status": "partial",
   "theorems": [
    "C20_unset_partial",
    "C20_exit",
    "C20_too_few_refuted"
   ],
   "note": "Proved when nobody sets variables by hand and parametric circuits get enough parameters, and for all circuits on the exit list of any context. Refuted with too few parameters: the call raises IndexError and the first variables stay set."
  },
  {
   "property": "C21",
   "status": "partial",
   "theorems": [
    "C21_reset_partial",
    "C21_reset_registers_partial",
    "C21_qubits_remain_refuted",
    "C21_set_bit_refuted"
   ],
   "note": "Proved with kept registers under the condition of C12, and for dropped registers from any state. Refuted: circuit.qubits still has the dropped qubits; with a bit holding 1 at position 1 reset raises AttributeError half way."
  },
  {
   "property": "C22",
   "status": "partial",
   "theorems": [
    "C22_find_qubit",
    "C22_find_bit",
    "C22_get_qubit",
    "C22_get_bit",
    "C22_false_label_refuted"
   ],
   "note": "find and get for qubits (all programs of circuit methods) and bits (condition of C12), with the error cases. Refuted in one corner: a register with an empty name cannot be looked in."
  },
  {
   "property": "C23",
   "status": "partial",
   "theorems": [
    "C23_add_qubit_partial",
    "C23_add_bit_partial",
    "C23_add_qregister",
    "C23_add_cregister",
    "C23_add_qubit_refuted"
   ],
   "note": "Exact outcome of all four methods. add_qregister and add_cregister: proved as stated. add_qubit, add_bit: refuted, a register created by the failing call stays behind, empty; that is all that can remain."
  },
  {
   "property": "C24",
   "status": "partial",
   "theorems": [
    "C24_add_bit_partial",
    "C24_zero_bit_refuted",
    "C24_second_bit_refuted"
   ],
   "note": "Proved for a bit that is unset, or holds 1 and does not come second in its register. Refuted for value 0 (a fresh bit is added) and for value 1 in second place (the integer 1 is stored)."
  },
  {
   "property": "C25",
   "status": "partial",
   "theorems": [
    "C25_remove_partial",
    "C25_remove_general",
    "C25_parameters_refuted",
    "C25_itself_refuted"
   ],
   "note": "Exact three-way outcome for all reachable states. Refuted: a parametrised operation before the match makes remove raise AttributeError. Also refuted: the operation deleted need not be the one given (C25_itself_refuted), because conditions do not count in comparisons."
  },
  {
   "property": "C26",
   "status": "partial",
   "theorems": [
    "C26_default_qregister_partial",
    "C26_default_cregister_partial",
    "C26_taken_refuted",
    "C26_taken_bits_refuted"
   ],
   "note": "Proved when the user gives no label beginning with qreg (creg). Refuted: a user label can take the next default name."
  },
  {
   "property": "C27",
   "status": "proved",
   "theorems": [
    "C27_kernel_is_operator",
    "C27_operator_on_product_states",
    "C27_norm_kernel",
    "C27_circuit_is_ordered_operators"
   ],
   "note": "Generic gate kernel equals the matrix of the gate on its targets and controls, for any number of qubits up to 30, any targets and controls, both bit orders, over any commutative ring with conjugation. C27_circuit_is_ordered_operators lifts this to whole measurement-free circuits, SWAP, CSWAP and CCX included."
  },
  {
   "property": "C28",
   "status": "proved",
   "theorems": [
    "C28_stays_in_bounds",
    "C28_indices_in_bounds_and_disjoint",
    "C28_any_order"
   ],
   "note": "All indices in range and blocks disjoint, and the result does not depend on the order blocks are processed in, for n up to 30 (uint32 model)."
  },
  {
   "property": "C29",
   "status": "proved",
   "theorems": [
    "C29_simulation_normalised",
    "C29_library_gates",
    "C29_mixed_simulation_accepted"
   ],
   "note": "Exact arithmetic, at most 30 qubits (C int shift). Covers measurements; the final set_state call is part of the model."
  },
  {
   "property": "C30",
   "status": "proved",
   "theorems": [
    "C30_endianness"
   ],
   "note": "Any amplitude ring, any measurement-free circuit on distinct qubits, at most 30 qubits."
  },
  {
   "property": "C31",
   "status": "proved",
   "theorems": [
    "C31_gate_matrices_unitary"
   ],
   "note": "Every matrix of the gate library (controlled ones included, any real parameters) is unitary over exact complex numbers built from Coq reals; floating point rounding is not modelled."
  },
  {
   "property": "C32",
   "status": "proved",
   "theorems": [
    "C32_matrix_is_simulated_action",
    "C32_decompositions",
    "C32_matrix_identities"
   ],
   "note": "The stated matrix of each gate is the operator the simulator applies, and each decomposition listed by Z, Rotation, SWAP and CSWAP multiplies to its matrix; exact reals."
  },
  {
   "property": "C33",
   "status": "partial",
   "theorems": [
    "C33_controlled_blocks",
    "C33_controlled_any_number",
    "C33_controlled_in_context_partial",
    "C33_in_context_refuted"
   ],
   "note": "Proved when no circuit context is active, for any number of controls and one target. Refuted inside an active context: the indices of the circuit's qubits are used with the dimension of the gate alone, so the read raises or places the operator at the circuit positions; the partial theorem characterises that case."
  },
  {
   "property": "C34",
   "status": "proved",
   "theorems": [
    "C34_born_rule_and_collapse",
    "C34_measuring_again",
    "C34_measurement_in_circuit"
   ],
   "note": "Single qubits in both byte orders, and whole Measurement operations inside a circuit: outcome order, bits written, random numbers consumed, warnings."
  },
  {
   "property": "C35",
   "status": "proved",
   "theorems": [
    "C35_choice_cannot_fail"
   ],
   "note": "For every complete operator set, not only the measurement projectors; exact arithmetic."
  },
  {
   "property": "C36",
   "status": "proved",
   "theorems": [
    "C36_conditional",
    "C36_conditional_mixed"
   ],
   "note": "An unset bit counts as not blocking, as in Bit.__bool__. Pure and mixed simulation."
  },
  {
   "property": "C37",
   "status": "proved",
   "theorems": [
    "C37_mixed_is_outer_product"
   ],
   "note": "At most 15 qubits because the density matrix is simulated on twice as many."
  },
  {
   "property": "C38",
   "status": "partial",
   "theorems": [
    "C38_density_matrix_partial",
    "C38_density_matrix_refuted"
   ],
   "note": "Refuted: the code omits the complex conjugate, so RX(pi) gives a density matrix with diagonal entry -1. Proved: the result is the projector exactly when all amplitudes are real."
  },
  {
   "property": "C39",
   "status": "partial",
   "theorems": [
    "C39_set_state_partial",
    "C39_normalised_vectors",
    "C39_pure_density_matrices",
    "C39_normalize",
    "C39_normalize_zero",
    "C39_density_matrices_refuted"
   ],
   "note": "Refuted for mixed density matrices (the Frobenius norm is checked), for non-density matrices of norm 1 and for circuits without qubits. Proved: exact acceptance condition, no overwrite without force, failed calls change nothing, rescaling."
  },
  {
   "property": "C40",
   "status": "partial",
   "theorems": [
    "C40_sample",
    "C40_sample_after_runs_partial",
    "C40_second_run_refuted"
   ],
   "note": "True after one simulation; refuted after a second one because the recorded indices are never cleared. The partial theorem gives the exact sampling behaviour after k runs."
  },
  {
   "property": "C41",
   "status": "partial",
   "theorems": [
    "C41_deterministic_partial",
    "C41_history_refuted"
   ],
   "note": "Refuted: bits keep their values between runs. Proved when every condition refers to bits that agree at the start or are measured earlier in the circuit."
  },
  {
   "property": "C42",
   "status": "proved",
   "theorems": [
    "C42_controlled_unitary",
    "C42_default_num_qubits",
    "C42_overlap_raises",
    "C42_too_large_raises",
    "C42_several_targets_raise"
   ],
   "note": "Non-negative distinct indices, any number of qubits and controls; the error cases too."
  },
  {
   "property": "C43",
   "status": "partial",
   "theorems": [
    "C43_build_unitary_partial",
    "C43_parametric_controlled_refuted",
    "C43_condition_refuted"
   ],
   "note": "Proved for one-qubit gates and for one or two controls with a class-level target matrix, without conditions. Refuted for parametric controlled gates (TypeError) and for conditional operations."
  },
  {
   "property": "C44",
   "status": "partial",
   "theorems": [
    "C44_unedited_partial",
    "C44_earlier_state_partial",
    "C44_stale_refuted"
   ],
   "note": "Refuted: the lru_cache keyed on the circuit object returns stale matrices. Proved: correct when no edit follows the first call, and always the matrix of some earlier state."
  },
  {
   "property": "C45",
   "status": "partial",
   "theorems": [
    "C45_by_index_partial",
    "C45_exactly_when",
    "C45_exhausted",
    "C45_used_twice_refuted",
    "C45_other_order_refuted"
   ],
   "note": "Proved when the variables occur once each in register order (exactly the case in which every list of numbers is bound right, C45_exactly_when). Refuted otherwise: a parameter used in two operations gives IndexError, parameters used in another order give another matrix. Parameters that are themselves variables are outside the theorems."
  },
  {
   "property": "C46",
   "status": "partial",
   "theorems": [
    "C46_mixed_big_endian_partial",
    "C46_little_endian_refuted"
   ],
   "note": "Refuted: the flag is ignored in mixed mode; the partial theorem says the big-endian matrix is returned for either flag."
  },
  {
   "property": "C47",
   "status": "partial",
   "theorems": [
    "C47_mixed_measurement_refuted",
    "C47_measurement_free_partial"
   ],
   "note": "Refuted for every well-formed circuit containing a measurement (TypeError). Without measurements both modes succeed."
  },
  {
   "property": "C48",
   "status": "partial",
   "theorems": [
    "C48_operands_partial",
    "C48_false_label_refuted",
    "C48_same_text_refuted",
    "C48_same_label_refuted"
   ],
   "note": "Proved for text without register labels, and with labels that are true values with different words as texts. Refuted with witnesses otherwise: a false label (0 or the empty string) is declared as q but used under its own name; labels 1 and \"1\" give one name to two registers; a quantum and a classical register may share a label."
  },
  {
   "property": "C49",
   "status": "partial",
   "theorems": [
    "C49_statements_partial",
    "C49_written",
    "C49_refused",
    "C49_measurement_refuted",
    "C49_conditions_lost",
    "C49_conditions_refuted",
    "C49_defined_once_refuted",
    "C49_made_undefined_refuted",
    "C49_made_parameters_refuted"
   ],
   "note": "Proved: one statement per operation in order with name, parameters and operands, definitions in order of use, for gates of the library and operations made from circuits. Refuted: measurements and barriers make the text fail; conditions leave no trace; definitions are repeated per use; operations made from circuits have neither definition nor parameters."
  },
  {
   "property": "C50",
   "status": "partial",
   "theorems": [
    "C50_compiled_partial",
    "C50_succeeds",
    "C50_late_gate",
    "C50_identity_refuted",
    "C50_one_each_refuted"
   ],
   "note": "Order, functions, parameters, operands and measurements last hold for all circuits that compile (C50_compiled_partial; operands are places within the qubit's register, see C51), success and the late-gate error too (C50_succeeds, C50_late_gate). 'One instruction per operation' is false: Identity does not compile (C50_identity_refuted) and a measurement of several qubits gives several instructions (C50_one_each_refuted). Conditions on operations are not read by the compiler and are dropped."
  },
  {
   "property": "C51",
   "status": "partial",
   "theorems": [
    "C51_numbering_partial",
    "C51_qubits_refuted",
    "C51_bits_refuted"
   ],
   "note": "True when all qubits are in one register and all bits in one register (C51_numbering_partial); false with several registers, because places within a register are used as QIR numbers (C51_qubits_refuted, C51_bits_refuted)."
  },
  {
   "property": "C52",
   "status": "partial",
   "theorems": [
    "C52_round_trip_partial",
    "C52_registers_refuted",
    "C52_qubits_lost_refuted",
    "C52_measured_refuted",
    "C52_external_refuted",
    "C52_merged_refuted"
   ],
   "note": "True for circuits with one qubit and one bit register, no repeated gate that QIR lacks, and no measured qubit after the last qubit with a gate (C52_round_trip_partial, up to merging the measurements into one). False otherwise: several registers, trailing qubits, measured qubits without gates, repeated external gates, several measurements (C52_..._refuted)."
  },
  {
   "property": "C53",
   "status": "partial",
   "theorems": [
    "C53_signature_partial",
    "C53_parametrised",
    "C53_signature_refuted"
   ],
   "note": "Declared and used kinds agree exactly for gates without parameters (C53_signature_partial); with parameters the declaration has the qubits first and the call the parameters first (C53_signature_refuted), and the circuit does not compile (C53_parametrised)."
  },
  {
   "property": "C54",
   "status": "partial",
   "theorems": [
    "C54_recompiled_partial",
    "C54_same_partial",
    "C54_history_partial",
    "C54_external_refuted",
    "C54_reset_refuted"
   ],
   "note": "A forced compilation writes the calls of the instructions that are not external, for every module history (C54_recompiled_partial, C54_same_partial, C54_history_partial). External instructions are lost (C54_external_refuted), also by a failing reset (C54_reset_refuted)."
  },
  {
   "property": "C55",
   "status": "partial",
   "theorems": [
    "C55_inverse",
    "C55_emitted_partial",
    "C55_renamed_refuted"
   ],
   "note": "The tables are inverse for all tables with distinct QIR names (C55_inverse), and every emitted function is read back as the gate unless it was declared again and renamed (C55_emitted_partial); the renamed ones are not (C55_renamed_refuted). The renaming is LLVM's, an assumption of the model."
  },
  {
   "property": "C56",
   "status": "partial",
   "theorems": [
    "C56_instance",
    "C56_class",
    "C56_readonly",
    "C56_locked",
    "C56_controlled",
    "C56_overwritten_refuted",
    "C56_deleted_refuted"
   ],
   "note": "Reads on instances and classes hold for all wrapped functions, instances, environments and programs that do not set or delete the name on a class (refused assignments are allowed). 'Never overwritten' is false in general: only the name matrix is locked on classes, other mixed properties can be assigned on the class (C56_overwritten_refuted), and deleting on the class is never refused (C56_deleted_refuted)."
  },
  {
   "property": "C57",
   "status": "partial",
   "theorems": [
    "C57_arity_partial",
    "C57_known_arity_partial",
    "C57_reading_settles",
    "C57_controlled_refuted",
    "C57_reported_partial",
    "C57_reported_refuted",
    "C57_operations_partial",
    "C57_parameters"
   ],
   "note": "Proved for all classes that have their arity from the start and for every class once its arity is known: other calls fail, and no operation object of such a class ever has another number of qubits (C57_operations_partial). Refuted: a controlled class accepts any number of qubits until its num_qubits is first read. num_qubits of an operation is the number of its qubits unless they are replaced (C57_reported_partial, C57_reported_refuted)."
  },
  {
   "property": "C58",
   "status": "partial",
   "theorems": [
    "C58_recorded_refuted",
    "C58_repeated_qubit_refuted"
   ],
   "note": "Refuted: CX(q0, q0) is accepted and recorded, and at the simulator X(q0); CHadamard(q0, q0) ends with total probability 0."
  },
  {
   "property": "C59",
   "status": "proved",
   "theorems": [
    "C59_store",
    "C59_no_qubits"
   ],
   "note": "Exact outcome, including measurements without qubits (TypeError)."
  },
  {
   "property": "C60",
   "status": "proved",
   "theorems": [
    "C60_dephase_complete",
    "C60_amp_damp_complete"
   ],
   "note": "All strengths in [0,1]; the shipped file uses 0.01. Consequence for outcome probabilities through C35."
  },
  {
   "property": "C61",
   "status": "partial",
   "theorems": [
    "C61_unsupported_partial",
    "C61_three_controls_refuted"
   ],
   "note": "Refuted: a controlled operation with three or more controls is silently skipped. All other unsupported kinds raise."
  },
  {
   "property": "C62",
   "status": "proved",
   "theorems": [
    "C62_pauli",
    "C62_rotations",
    "C62_rotations_compose",
    "C62_roots"
   ],
   "note": "Exact arithmetic; together with C32 (Rotation, SWAP, CSWAP) and C33 (controlled gates) this fixes every library matrix."
  },
  {
   "property": "C63",
   "status": "proved",
   "theorems": [
    "C63_samples_joint_born",
    "C63_samples_possible",
    "C63_measured_in_turn",
    "C63_marginals"
   ],
   "note": "Stated without measure theory: the random numbers leading to given outcomes are exactly a box, whose volume is the joint probability."
  },
  {
   "property": "C64",
   "status": "partial",
   "theorems": [
    "C64_fraction_of_ones_partial",
    "C64_certain_outcomes",
    "C64_errors",
    "C64_single_index_refuted"
   ],
   "note": "The mean over the distribution is C63_marginals. A single index raises TypeError (refuted)."
  },
  {
   "property": "C65",
   "status": "partial",
   "theorems": [
    "C65_compare_partial",
    "C65_combine",
    "C65_equal_same_position_refuted"
   ],
   "note": "The methods of collections.abc.Set are modelled from the standard library. Equality ignores the order, so equal registers can index differently (refuted)."
  },
  {
   "property": "C66",
   "status": "partial",
   "theorems": [
    "C66_copy",
    "C66_copy_succeeds",
    "C66_again",
    "C66_in_place_partial",
    "C66_conditions_partial",
    "C66_in_place_refuted",
    "C66_all_or_nothing_refuted",
    "C66_zero_refuted",
    "C66_conditions_refuted",
    "C66_applied"
   ],
   "note": "Agreement in place needs different operation objects, agreement of conditions needs parametric operations not conditioned on measured bits; four refutations show what fails otherwise. deepcopy is assumed to succeed. C66_applied says, bit by bit and instruction by instruction, what the copy's operations do."
  },
  {
   "property": "C67",
   "status": "partial",
   "theorems": [
    "C67_simulates_partial",
    "C67_no_qubits_refuted",
    "C67_three_qubits_refuted"
   ],
   "note": "Partial: the operations must have qubits, distinct ones unless they are measurements, two if controlled, numbers as parameters if controlled or in a parametric circuit. Ownership of qubits, the order of the view, the number of qubits and of parameters and the values of plain parametric operations are proved invariants, not assumptions."
  },
  {
   "property": "C68",
   "status": "partial",
   "theorems": [
    "C68_outcome",
    "C68_reflexive",
    "C68_symmetric_partial",
    "C68_transitive_partial",
    "C68_same_gate",
    "C68_symmetric_refuted",
    "C68_names_refuted",
    "C68_transitive_refuted",
    "C68_conditions_refuted",
    "C68_bits_refuted",
    "C68_instructions",
    "C68_calls_partial",
    "C68_qubits_refuted",
    "C68_external_refuted",
    "C68_order_refuted"
   ],
   "note": "Outcome of every comparison characterised. Reflexive; symmetric when neither side raises; transitive when the middle operation is on qubits and at most one variable is involved; equal library operations show the simulator the same gate on the same qubits. Refuted: symmetry (AttributeError), transitivity (two variables holding one value), conditions and bits ignored, instruction equality ignores which qubits, the order of numbers and qubits, and external functions."
  },
  {
   "property": "C69",
   "status": "partial",
   "theorems": [
    "C69_qir_partial",
    "C69_qasm_partial",
    "C69_find",
    "C69_same_place_refuted",
    "C69_shape_refuted"
   ],
   "note": "Proved for every program that keeps registers and the qubits of operations and in which no bit is taken for a number, and every circuit whose gates are complete (qubits, two for controlled classes, parameters) and, for QIR, writable; the lookup used in the compiler model agrees with find_qubit and find_bit. Refuted without these conditions: operations without qubits, controlled gates with three qubits, qubits of two registers called by the same number. The definitions that precede the statements are those offered for the gates, one per use."
  },
  {
   "property": "C70",
   "status": "partial",
   "theorems": [
    "C70_gates",
    "C70_means_partial",
    "C70_definitions_partial",
    "C70_rotation_refuted",
    "C70_crotation_refuted",
    "C70_controlled_refuted",
    "C70_swap_refuted"
   ],
   "note": "Every written name means its gate up to a phase for all parameters (C70_gates); whole texts of circuits built by any program mean what the simulator computes, without definitions (C70_means_partial) and with them (C70_definitions_partial). Partial: no measurements or conditions, and the included file must define the gates. Refuted: the definition of Rotation cannot be read, CRotation is never defined, CRX and CRY are missing from the article's file, SWAP used twice or already in the file is defined again. The semantics of OpenQASM and the contents of qelib1.inc are a specification written from the article, not code of the repository."
  },
  {
   "property": "C71",
   "status": "partial",
   "theorems": [
    "C71_means_partial",
    "C71_registers_refuted",
    "C71_condition_refuted"
   ],
   "note": "C71_means_partial: for circuits built by any program with the library's classes, the compiled calls and the simulation have the same runs: random numbers determine outcomes, the run with these outcomes ends in the amplitudes, bit values and recorded results of the simulation, and the random numbers of a run form a box whose volume is its probability. Partial: one register of qubits and one of bits in use, no conditions, gates with a base-profile function (not add_external's), measurements into enough bits, at most 30 qubits. Refuted with two registers (C71_registers_refuted) and with a condition (C71_condition_refuted). The machine is a specification written from the QIR base profile, not code of the repository."
  },
  {
   "property": "C72",
   "status": "partial",
   "theorems": [
    "C72_every_module",
    "C72_new_partial",
    "C72_loads_partial",
    "C72_means_partial",
    "C72_round_trip_partial",
    "C72_rotation_refused",
    "C72_order_refuted",
    "C72_registers_refuted",
    "C72_failing_refuted",
    "C72_untouched_refuted",
    "C72_active_refuted",
    "C72_arity_refuted",
    "C72_unused_refuted"
   ],
   "note": "C72_every_module: every module asks for something in the sense of the specification, so the others cover all modules. C72_new_partial, C72_loads_partial: what loading into a new or an existing circuit leaves and returns, including the refusals; the new world is again one that programs can get to. C72_means_partial: the circuit loaded from a base-profile program has the same runs as the program. C72_round_trip_partial: compiled and loaded back. Partial: no context is active; added qubits go to the last register in use (else C72_registers_refuted); gates before measurements for the meaning (else C72_order_refuted); the last qubit is used by a gate (else C72_untouched_refuted, C72_unused_refuted); at most 30 qubits. C72_rotation_refused: modules that call rot or crot never load. Further refutations: C72_failing_refuted, C72_active_refuted, C72_arity_refuted. Call arguments that are not doubles, qubits or results, and how PyQIR parses a module, are not modelled."
  },
  {
   "property": "C73",
   "status": "partial",
   "theorems": [
    "C73_construct",
    "C73_accepted_partial",
    "C73_call",
    "C73_again_partial",
    "C73_condition",
    "C73_whole_refuted",
    "C73_set_qubits_refuted",
    "C73_undivided_refuted"
   ],
   "note": "The construction and the call theorem hold in every state a program goes through. Which constructions are accepted is an equivalence under C14's guard (registers changed by the circuit's own methods and not dropped), as otherwise the cached view of the qubits may differ from the registers. Calling again on the same qubits excludes setting op.qubits and controlled classes without a number of controls; both exceptions are refuted with witnesses, as is that a call copies condition and bits. Arguments of controlled classes are either qubits or control and target; both at once are not modelled."
  },
  {
   "property": "C74",
   "status": "partial",
   "theorems": [
    "C74_operator_partial",
    "C74_matrix_partial",
    "C74_called_partial",
    "C74_parametric_partial",
    "C74_condition_refuted",
    "C74_foreign_refuted",
    "C74_repeated_refuted"
   ],
   "note": "C74_operator_partial and C74_matrix_partial are over every commutative ring with conjugation. C74_called_partial and C74_parametric_partial combine C18 and C19 (what a call records) with C67 (what the simulator sees) and the kernel theorems: slicing a state along the given qubits turns the steps of the copy into the steps of the original. Partial: C14's guard on programs; operations of the called circuit are ready as in C67, for parametric circuits up to their variables; the given qubits are different qubits of the calling circuit (else C74_foreign_refuted, C74_repeated_refuted); the called circuit has no measurements, and its conditions do not count (C74_condition_refuted); the calling circuit is seen by the simulator, has at most 30 qubits and, for a parametric call, no variables of its own. build_unitary only for the gates it supports (see C43)."
  },
  {
   "property": "C75",
   "status": "partial",
   "theorems": [
    "C75_matrix_partial",
    "C75_simulated_partial",
    "C75_called_partial",
    "C75_custom_partial",
    "C75_refused",
    "C75_variable",
    "C75_names",
    "C75_condition_refuted",
    "C75_set_qubits_refuted"
   ],
   "note": "Joins C42/C43 (the matrices) with C67 (what the simulator sees), C73's invariant on control and target and C74 (calling). C75_names: every class of the library is handled or refused, so C75_matrix_partial and C75_refused/C75_variable together decide the result. Partial: C14's guard on programs, operations ready as in C67, at least one qubit; conditions do not count (C75_condition_refuted) and nobody sets the qubits of an operation (C75_set_qubits_refuted); C75_simulated_partial, C75_called_partial and C75_custom_partial up to 30 qubits and for the bit order build_unitary uses. The cache of build_unitary is C44; binding parameters of custom operations is C45. A custom operation with more qubits is refused by the simulator (simulator.pyx:122-126)."
  },
  {
   "property": "C76",
   "status": "partial",
   "theorems": [
    "C76_programs",
    "C76_simulates_partial",
    "C76_little_endian",
    "C76_little_endian_refused",
    "C76_mixed",
    "C76_mixed_refused",
    "C76_again_refuted",
    "C76_reset_refuted"
   ],
   "note": "C76_programs reduces every state of a program with simulations to a state of a program of C14 (bit.set(\u2026, force=True) in place of a simulation), so all results about reachable worlds carry over. C76_simulates_partial: C14's guard on programs, operations ready as in C67, 1 to 30 qubits; that a second simulation repeats the first needs `settled` conditions (C76_again_refuted is the counterexample without it). C76_little_endian, C76_mixed and the two refusals say the rest of the options. C76_reset_refuted: a program that simulates and then resets can fail in reset (through C21). set_state inside such programs is C79, sample C77."
  },
  {
   "property": "C77",
   "status": "partial",
   "theorems": [
    "C77_born_partial",
    "C77_collapse_partial",
    "C77_unmeasured",
    "C77_sampled_partial",
    "C77_sampled_again_partial",
    "C77_again_refuted",
    "C77_two_circuits_refuted"
   ],
   "note": "Joins C63 (joint distributions) with C76 (programs that simulate). The box of C77_born_partial does not depend on the random numbers, nor do the state v and the places ts. Partial: C14's guard on programs, operations ready as in C67, 1 to 30 qubits; for the bits, the first measurement of the circuit, without condition, with distinct bits that no later operation stores into; for samples, a measurement that occurs once in the circuit and has no condition. C77_sampled_again_partial says what is sampled after further simulations, C77_again_refuted and C77_two_circuits_refuted what goes wrong then."
  },
  {
   "property": "C78",
   "status": "partial",
   "theorems": [
    "C78_branches",
    "C78_total",
    "C78_determined",
    "C78_program_partial"
   ],
   "note": "C78_branches and C78_total are about every well-formed circuit of library gates as the simulator sees it. C78_program_partial carries them to programs with C14's guard, operations ready as in C67 and 1 to 30 qubits. Extends C77_born_partial, which is about the first measurement only, to all measurements."
  },
  {
   "property": "C79",
   "status": "partial",
   "theorems": [
    "C79_lawful",
    "C79_kept",
    "C79_stays",
    "C79_no_influence",
    "C79_failed",
    "C79_set_partial",
    "C79_set_normalize_partial",
    "C79_reset_refuted",
    "C79_fits_refuted",
    "C79_refused_refuted"
   ],
   "note": "C79_lawful, C79_kept, C79_stays, C79_no_influence and C79_failed hold of all programs without guards. C79_set_partial and C79_set_normalize_partial: programs that use the circuits' own methods and keep the registers (otherwise num_qubits is not the number of qubits in the registers, C13). The last sentence of the statement is false in all three parts: C79_reset_refuted, C79_fits_refuted, C79_refused_refuted. lawful does not say that a matrix is a density matrix nor that the matrix beside a vector is its projector; both are false (C38, C39)."
  },
  {
   "property": "C80",
   "status": "partial",
   "theorems": [
    "C80_rewritten",
    "C80_branches",
    "C80_density",
    "C80_identities",
    "C80_disjoint",
    "C80_program_partial",
    "C80_controlled_refuted"
   ],
   "note": "Simulations, branches, density matrices and the identities for all circuits of the stated sizes; C80_program_partial: programs with library operations whose parameters are numbers (own_ok, ready). C80_controlled_refuted: same effect does not survive a control."
  },
  {
   "property": "C81",
   "status": "partial",
   "theorems": [
    "C81_simulated",
    "C81_branches",
    "C81_density",
    "C81_program_partial",
    "C81_same_numbers_refuted"
   ],
   "note": "Simulations, branches and density matrices for all circuits of the stated sizes; C81_program_partial: programs with library operations whose parameters are numbers (own_ok, ready). C81_same_numbers_refuted: two measurements exchanged with the same random numbers give another bit. Independence is proved in a weaker form than stated: common qubits are allowed if both operations keep them (C84)."
  },
  {
   "property": "C82",
   "status": "partial",
   "theorems": [
    "C82_simulated",
    "C82_branches",
    "C82_repeated",
    "C82_program_partial",
    "C82_unread_refuted"
   ],
   "note": "Simulations, branches and repeated measurements for all circuits of the stated sizes; C82_program_partial: programs with library operations whose parameters are numbers (own_ok, ready). C82_unread_refuted: a measurement whose bit is never used cannot be dropped. When it can be dropped: C83."
  },
  {
   "property": "C83",
   "status": "partial",
   "theorems": [
    "C83_simulated",
    "C83_chances",
    "C83_program_partial",
    "C83_same_numbers_refuted"
   ],
   "note": "Simulations and probabilities for all circuits of the stated sizes; C83_program_partial: programs with library operations whose parameters are numbers (own_ok, ready). C83_same_numbers_refuted: with the same random numbers a dropped measurement changes a later bit. Independence is proved in a weaker form than stated: common qubits are allowed if both operations keep them (C84)."
  },
  {
   "property": "C84",
   "status": "partial",
   "theorems": [
    "C84_keeps",
    "C84_library",
    "C84_phases",
    "C84_program_partial",
    "C84_changed_refuted"
   ],
   "note": "Gates, simulations for all circuits of the stated sizes; exchanges with common kept qubits through the (weaker) independence used in C81, C82 and C83 (C84_order_case); C84_program_partial: programs with library operations whose parameters are numbers (own_ok, ready). C84_changed_refuted: H and Z on one qubit cannot change places although Z keeps it."
  },
  {
   "property": "C85",
   "status": "partial",
   "theorems": [
    "C85_label",
    "C85_primitives",
    "C85_value",
    "C85_objects",
    "C85_registers",
    "C85_operations_partial",
    "C85_measurements_partial",
    "C85_circuits",
    "C85_variable_refuted",
    "C85_parameters_refuted",
    "C85_measurement_refuted"
   ],
   "note": "Labels are strings of the first 256 characters. C85_operations_partial: parameters are numbers whose printed forms are distinct, not empty and without comma and closing bracket (as those of int, float and complex); C85_parameters_refuted: for variables false (a set variable prints as its number; odd names can be read two ways). C85_measurements_partial: qubits and bits; C85_measurement_refuted: the condition of a measurement is not printed. C85_variable_refuted: a variable set to 0 prints as if unset."
  },
  {
   "property": "C86",
   "status": "partial",
   "theorems": [
    "C86_sample",
    "C86_unmeasured",
    "C86_expval",
    "C86_from_the_end_refuted"
   ],
   "note": "Up to 30 qubits, normalised states. C86_from_the_end_refuted: index -1 is not the last qubit (OverflowError, from Cython's conversion to an unsigned integer)."
  },
  {
   "property": "C87",
   "status": "partial",
   "theorems": [
    "C87_effect",
    "C87_first",
    "C87_simulated",
    "C87_removed",
    "C87_same_order_refuted",
    "C87_program_partial"
   ],
   "note": "Up to 30 qubits for simulations. C87_same_order_refuted: H, Z, H, Z is not the identity. C87_program_partial: library operations with numbers as parameters and bits for measurements."
  }
 ]
}