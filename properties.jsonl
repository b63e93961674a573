{"id": "C01", "title": "A register is a list of distinct items", "statement": "After any history of construction, add, extend, pop, remove, relabel, relabel-as-integers, copy and clear, a register's length, iteration order, indexing, index lookup and membership answers are those of a plain duplicate-free list put through the same operations, including which calls raise.", "quantifier": "every finite history of register operations, every item kind (ints, strings, qubits, bits, variables), every register size", "why_tests_cant": "The register keeps two partial dictionaries with implicit integer labels; agreement with a list must hold after every interleaving of operations, of which a test can try only a few.", "anchors": ["dwave/gate/registers/cyregister.pyx:cyRegister"]}
{"id": "C02", "title": "Index lookup and item lookup are inverse", "statement": "For every reachable register, reg.index(reg[i]) == i for every valid i and reg[reg.index(x)] == x for every member x, non-members raise ValueError and out-of-range positions raise IndexError.", "quantifier": "every reachable register, every position, every item", "why_tests_cant": "Ranges over all register contents, including integer labels stored at positions other than their own value.", "anchors": ["dwave/gate/registers/cyregister.pyx:index", "dwave/gate/registers/cyregister.pyx:at", "dwave/gate/registers/cyregister.pyx:count"]}
{"id": "C03", "title": "Adding to a register never stores a duplicate and never reorders", "statement": "Register.add keeps all earlier items in place, appends new items in order, and raises ValueError at the first item already present (keeping exactly the items before it); a frozen register raises and does not change.", "quantifier": "every register, every list of items to add, every frozen flag", "why_tests_cant": "Depends on the position of the first duplicate in arbitrary input lists.", "anchors": ["dwave/gate/registers/registers.py:Register.add", "dwave/gate/registers/cyregister.pyx:_append", "dwave/gate/registers/cyregister.pyx:_extend"]}
{"id": "C04", "title": "Register slices agree with sequence slices", "statement": "reg[start:stop:step] contains the same items in the same order as the list slice. (Holds for in-range non-negative bounds and positive step; fails for negative or over-long bounds.)", "quantifier": "every register, every slice triple", "why_tests_cant": "The slice bounds range over all integers; the tested slices are all non-negative and in range.", "anchors": ["dwave/gate/registers/cyregister.pyx:__getitem__"]}
{"id": "C05", "title": "Relabelling is a simultaneous substitution", "statement": "Relabelling with a mapping whose keys are in the register and whose new names are free (or freed by the same mapping, including swaps and cycles) replaces each label by its image, keeps every position, and is undone by the inverse mapping; relabel-as-integers returns a mapping that restores the old labels.", "quantifier": "every register, every mapping", "why_tests_cant": "Swaps, cycles and clashes of arbitrary length go through temporary labels whose freshness depends on the whole register.", "anchors": ["dwave/gate/registers/cyregister.pyx:_relabel", "dwave/gate/registers/cyregister.pyx:_iter_safe_relabels", "dwave/gate/registers/cyregister.pyx:_resolve_label_conflict", "dwave/gate/registers/cyregister.pyx:_relabel_as_integers"]}
{"id": "C06", "title": "Register concatenation", "statement": "a + b has the items of a followed by those of b, raises ValueError exactly when they share an item, and leaves a and b unchanged; the result is itself a usable register.", "quantifier": "every pair of registers", "why_tests_cant": "Quantifies over all pairs, including overlapping and frozen ones.", "anchors": ["dwave/gate/registers/registers.py:Register.__add__", "dwave/gate/registers/cyregister.pyx:copy"]}
{"id": "C07", "title": "Parameter register grows on demand", "statement": "For a fresh parametric circuit, p[k] always returns the variable named str(k), for any sequence of accesses in any order, two accesses with the same k give the same variable, different k give different variables, and the register length is one more than the largest index used; after freezing, out-of-range access raises and adds nothing.", "quantifier": "every sequence of non-negative indices, every freeze point", "why_tests_cant": "Access order is unbounded and growth depends on the history.", "anchors": ["dwave/gate/registers/registers.py:SelfIncrementingRegister.__getitem__"]}
{"id": "C08", "title": "Issued ids never repeat", "statement": "All ids handed out between two resets of the id counter are pairwise distinct, whatever the batch size, whichever element set.pop picks, and however refresh calls are interleaved; hence distinct qubits or bits never compare equal.", "quantifier": "every alphabet without repeated letters, start length, batch size, every schedule of next and refresh, every choice made by set.pop", "why_tests_cant": "set.pop order is unspecified and the id space is about 2^36; uniqueness over all schedules cannot be sampled.", "anchors": ["dwave/gate/tools/counters.py:IDCounter", "dwave/gate/primitives.py:Qubit.__eq__"]}
{"id": "C09", "title": "Ids run out only when every combination has been used", "statement": "next() raises only after exactly the number of combinations of the alphabet with at least the start length has been issued.", "quantifier": "every alphabet, start length, batch size and schedule", "why_tests_cant": "The exhaustion point lies beyond any test run (about 6.8e10 ids).", "anchors": ["dwave/gate/tools/counters.py:IDCounter.refresh", "dwave/gate/tools/counters.py:IDCounter.next"]}
{"id": "C10", "title": "Equality and hashing of primitives", "statement": "Qubit, Bit and Variable equality within a class is an equivalence, and equal objects hash alike.", "quantifier": "every pair and triple of primitives in every value state", "why_tests_cant": "Concerns all pairs and triples of objects and values, including comparison with plain integers.", "anchors": ["dwave/gate/primitives.py:Qubit", "dwave/gate/primitives.py:Bit", "dwave/gate/primitives.py:Variable"]}
{"id": "C11", "title": "A bit keeps its value until reset or forced", "statement": "A bit's value is unset, 0 or 1; set stores the truth value of its argument; setting a set bit without force raises and leaves it unchanged; reset unsets it.", "quantifier": "every sequence of set, forced set and reset calls", "why_tests_cant": "Histories are unbounded.", "anchors": ["dwave/gate/primitives.py:Bit.set", "dwave/gate/primitives.py:Bit.reset"]}
{"id": "C12", "title": "No qubit or bit occurs twice in a circuit", "statement": "In every reachable circuit the quantum registers are pairwise disjoint and duplicate-free, and so are the classical registers.", "quantifier": "every history of add_qubit, add_bit, add_qregister, add_cregister, append, remove, lock, unlock, reset, context use", "why_tests_cant": "The duplicate check goes through a cached view; its adequacy depends on the whole history.", "anchors": ["dwave/gate/circuit.py:Circuit.add_qubit", "dwave/gate/circuit.py:Circuit.add_bit", "dwave/gate/circuit.py:Circuit.qubits"]}
{"id": "C13", "title": "circuit.qubits and num_qubits reflect the registers", "statement": "circuit.qubits is always the concatenation of the quantum registers in creation order, circuit.bits likewise, and num_qubits, num_bits are their lengths.", "quantifier": "every history of API calls", "why_tests_cant": "The view is cached; staleness depends on the order of reads, additions and resets.", "anchors": ["dwave/gate/circuit.py:Circuit.qubits", "dwave/gate/circuit.py:Circuit.bits", "dwave/gate/circuit.py:Circuit.reset"]}
{"id": "C14", "title": "A circuit only holds operations on its own qubits", "statement": "Every qubit of every operation in circuit.circuit belongs to a quantum register of that circuit.", "quantifier": "every history of API calls", "why_tests_cant": "A reachability invariant over unbounded histories.", "anchors": ["dwave/gate/circuit.py:Circuit.append"]}
{"id": "C15", "title": "A locked circuit does not grow", "statement": "While a circuit is locked, append, extend, entering its context and calling a circuit into it raise CircuitError and leave its operations unchanged.", "quantifier": "every locked circuit, every operation list", "why_tests_cant": "Must hold for all operations and all ways of reaching the locked state.", "anchors": ["dwave/gate/circuit.py:Circuit.append", "dwave/gate/circuit.py:CircuitContext.__enter__", "dwave/gate/circuit.py:Circuit.lock"]}
{"id": "C16", "title": "At most one context is active and exit always releases it", "statement": "Entering a context while another is active raises and changes nothing; leaving a context, normally or through an exception in the body, leaves no active context and the circuit locked.", "quantifier": "every history of enter, exit, exceptions and operations, any number of circuits", "why_tests_cant": "Involves global state over all interleavings and exception points.", "anchors": ["dwave/gate/circuit.py:CircuitContext.__enter__", "dwave/gate/circuit.py:CircuitContext.__exit__"]}
{"id": "C17", "title": "Operations built in a context are recorded once and in order", "statement": "The operations of a circuit after a context body are the earlier ones followed by those constructed while the context was active and not frozen, each once, in construction order; operations constructed outside a context or while frozen are recorded nowhere.", "quantifier": "every sequence of operation constructions, freezes and unfreezes", "why_tests_cant": "Arbitrary sequences of constructions.", "anchors": ["dwave/gate/operations/base.py:Operation.__init__", "dwave/gate/circuit.py:CircuitContext.freeze"]}
{"id": "C18", "title": "Calling a circuit replays it on new qubits", "statement": "Calling a circuit inside another context appends exactly its operations, in order, with the same kind and parameters and with its i-th qubit (bit) replaced by the i-th given qubit (bit); the called circuit does not change.", "quantifier": "every template circuit, every target circuit, every qubit and bit list of matching length", "why_tests_cant": "Ranges over all template circuits; the tests call a handful.", "anchors": ["dwave/gate/circuit.py:Circuit.__call__"]}
{"id": "C19", "title": "Calling a parametric circuit substitutes parameters", "statement": "Calling a parametric circuit with parameters appends its operations with every variable p[i] replaced by the i-th parameter, and no unresolved variable remains in a non-parametric circuit.", "quantifier": "every parametric template, every parameter list", "why_tests_cant": "All parameter values (including 0) and all gate kinds.", "anchors": ["dwave/gate/circuit.py:ParametricCircuit.__call__", "dwave/gate/operations/base.py:ParametricOperation.eval", "dwave/gate/operations/base.py:ParametricControlledOperation.__init__"]}
{"id": "C20", "title": "Parameters of one call do not leak into the next", "statement": "After the context in which a parametric circuit was called has been left, all its variables are unset.", "quantifier": "every sequence of parametric calls and context exits, including failing ones", "why_tests_cant": "Depends on callbacks registered globally over a history.", "anchors": ["dwave/gate/circuit.py:ParametricCircuit.reset_variables", "dwave/gate/circuit.py:CircuitContext.__exit__"]}
{"id": "C21", "title": "reset returns a circuit to its empty state", "statement": "reset() leaves no operations, unlocks the circuit, unsets all bits and keeps registers; with keep_registers=False no register and no qubit remains.", "quantifier": "every reachable circuit", "why_tests_cant": "Depends on caches filled by earlier calls.", "anchors": ["dwave/gate/circuit.py:Circuit.reset"]}
{"id": "C22", "title": "Qubit lookup", "statement": "find_qubit(q) returns the register and position holding q, and raises exactly when no register holds q; get_qubit(label) returns the first qubit with that label in circuit order, return_all gives all of them in order.", "quantifier": "every reachable circuit and qubit", "why_tests_cant": "All register layouts and label assignments.", "anchors": ["dwave/gate/circuit.py:Circuit.find_qubit", "dwave/gate/circuit.py:Circuit.get_qubit", "dwave/gate/circuit.py:Circuit.find_bit", "dwave/gate/circuit.py:Circuit.get_bit"]}
{"id": "C23", "title": "A rejected addition leaves the circuit unchanged", "statement": "If add_qubit, add_bit, add_qregister or add_cregister raises, the circuit's registers are as before.", "quantifier": "every reachable circuit and arguments", "why_tests_cant": "Failure atomicity for every error path and state.", "anchors": ["dwave/gate/circuit.py:Circuit.add_qubit", "dwave/gate/circuit.py:Circuit.add_bit"]}
{"id": "C24", "title": "add_bit adds the given bit", "statement": "circuit.add_bit(b) with a bit not yet in the circuit makes b the last bit of the chosen register.", "quantifier": "every bit in every value state, every circuit", "why_tests_cant": "Depends on the bit's run-time value.", "anchors": ["dwave/gate/circuit.py:Circuit.add_bit", "dwave/gate/primitives.py:Bit.__bool__"]}
{"id": "C25", "title": "remove deletes one matching operation", "statement": "circuit.remove(op) deletes the first operation equal to op and keeps all others in order; it raises ValueError exactly when there is none.", "quantifier": "every operation list and operation", "why_tests_cant": "Depends on equality between all pairs of operation kinds.", "anchors": ["dwave/gate/circuit.py:Circuit.remove", "dwave/gate/operations/base.py:Operation.__eq__", "dwave/gate/operations/base.py:ParametricOperation.__eq__"]}
{"id": "C26", "title": "Default register names are free", "statement": "add_qregister and add_cregister without a label always succeed.", "quantifier": "every reachable circuit", "why_tests_cant": "Depends on which labels the user chose before.", "anchors": ["dwave/gate/circuit.py:Circuit.add_qregister", "dwave/gate/circuit.py:Circuit.add_cregister"]}
{"id": "C27", "title": "Simulator gate application is the tensor-product action", "statement": "Applying a one-qubit, controlled, doubly controlled, swap or controlled-swap gate in the simulator changes amplitudes exactly as the mathematical operator on the chosen qubits, for both endiannesses.", "quantifier": "every number of qubits (up to the C int range), every distinct target and control qubits, every gate matrix, every state vector", "why_tests_cant": "Index arithmetic by bit masks over all sizes and positions.", "anchors": ["dwave/gate/simulator/operation_generation.py:generate_op_c_code", "dwave/gate/simulator/operation_generation.py:compile_gate", "dwave/gate/simulator/operation_generation.py:generate_op"]}
{"id": "C28", "title": "Simulator index safety", "statement": "Every amplitude index read or written while applying a gate to valid qubits lies within the state vector, and different loop iterations touch disjoint amplitudes.", "quantifier": "every size, every qubit choice (even repeated), every iteration", "why_tests_cant": "Out-of-bounds access and races are not visible in small runs.", "anchors": ["dwave/gate/simulator/operation_generation.py:generate_op_c_code"]}
{"id": "C29", "title": "Simulation preserves the norm", "statement": "Simulating any circuit of library gates from a normalised state gives a normalised state, so simulate never fails with a normalisation error (exact arithmetic).", "quantifier": "every circuit, every number of qubits, every parameter", "why_tests_cant": "Ranges over all circuits and real parameters.", "anchors": ["dwave/gate/simulator/simulator.pyx:simulate", "dwave/gate/simulator/simulator.pyx:apply_instruction", "dwave/gate/circuit.py:Circuit.set_state"]}
{"id": "C30", "title": "Endianness only permutes amplitudes", "statement": "For every measurement-free circuit, the little-endian result is the big-endian result with each basis index bit-reversed.", "quantifier": "every circuit, every number of qubits", "why_tests_cant": "All circuits and sizes.", "anchors": ["dwave/gate/simulator/operation_generation.py:generate_op_c_code", "dwave/gate/simulator/simulator.pyx:apply_instruction"]}
{"id": "C31", "title": "Every gate matrix is unitary", "statement": "The matrix of every library gate is unitary for all real parameters.", "quantifier": "every gate, every real parameter value", "why_tests_cant": "Real parameters are uncountable.", "anchors": ["dwave/gate/operations/operations.py"]}
{"id": "C32", "title": "Gate decompositions are correct", "statement": "Z = H X H, Rotation(b,g,d) = RZ(d) RY(g) RZ(b), SWAP is three CX, CSWAP = CX CCX CX in the declared operand order, and the listed decompositions act as the gate.", "quantifier": "all real parameters", "why_tests_cant": "Real parameters.", "anchors": ["dwave/gate/operations/operations.py:Rotation", "dwave/gate/operations/operations.py:SWAP", "dwave/gate/operations/operations.py:CSWAP", "dwave/gate/operations/operations.py:Z"]}
{"id": "C33", "title": "Controlled gates act as the target gate when the control is set", "statement": "The matrix of each controlled gate is the identity on control 0 and the target gate's matrix on control 1, for all parameters.", "quantifier": "every controlled gate, every real parameter", "why_tests_cant": "Real parameters.", "anchors": ["dwave/gate/operations/operations.py:CX", "dwave/gate/operations/base.py:ControlledOperation.matrix"]}
{"id": "C34", "title": "Measurement follows the Born rule and collapses", "statement": "Measuring a qubit returns 0 exactly when the random number is below the total probability of its 0 amplitudes; afterwards amplitudes inconsistent with the outcome are zero, the others are scaled by one common factor and the state is normalised; measuring again gives the same outcome.", "quantifier": "every normalised state, every qubit, every random number in [0,1), both endiannesses", "why_tests_cant": "Continuous state and random number.", "anchors": ["dwave/gate/simulator/simulator.pyx:sample_qubit", "dwave/gate/simulator/simulator.pyx:_measure", "dwave/gate/simulator/operation_generation.py:generate_op_set"]}
{"id": "C35", "title": "Measurement cannot fail on a normalised state", "statement": "The measurement kernel never reports an unsuccessful outcome choice and never divides by zero on a normalised state with a random number in [0,1).", "quantifier": "every normalised state, every random number", "why_tests_cant": "Continuous inputs.", "anchors": ["dwave/gate/simulator/operation_generation.py:generate_op_set"]}
{"id": "C36", "title": "Conditional operations run exactly when their bits are set", "statement": "In simulation an operation with a condition is applied iff no condition bit holds 0 at that moment.", "quantifier": "every circuit, every condition, every random outcome", "why_tests_cant": "All outcome histories.", "anchors": ["dwave/gate/operations/base.py:Operation.is_blocked", "dwave/gate/simulator/simulator.pyx:apply_instruction"]}
{"id": "C37", "title": "Mixed-state simulation agrees with pure-state simulation", "statement": "For measurement-free circuits, simulate(mixed_state=True) gives the outer product of the pure result with its conjugate.", "quantifier": "every circuit, every number of qubits, every parameter", "why_tests_cant": "All circuits.", "anchors": ["dwave/gate/simulator/simulator.pyx:_simulate_circuit_density_matrix"]}
{"id": "C38", "title": "density_matrix of a pure state is the projector", "statement": "After a pure-state simulation circuit.density_matrix is |psi><psi|.", "quantifier": "every state vector", "why_tests_cant": "All complex state vectors; tests use real ones.", "anchors": ["dwave/gate/circuit.py:Circuit.density_matrix"]}
{"id": "C39", "title": "set_state accepts exactly valid states", "statement": "set_state accepts every normalised vector of the right length and every density matrix, rejects wrong shapes and non-normalised input, does not overwrite without force, and with normalize stores the rescaled state.", "quantifier": "every array, every flag combination, every number of qubits", "why_tests_cant": "Continuous inputs and all flag combinations.", "anchors": ["dwave/gate/circuit.py:Circuit.set_state", "dwave/gate/circuit.py:Circuit._assert_state"]}
{"id": "C40", "title": "Sampling reports the measured qubits", "statement": "Measurement.sample() without arguments returns one value per measured qubit and leaves the circuit state untouched.", "quantifier": "every number of simulations, every measurement", "why_tests_cant": "Depends on how often the circuit was simulated.", "anchors": ["dwave/gate/operations/base.py:Measurement.sample", "dwave/gate/simulator/simulator.pyx:_measure"]}
{"id": "C41", "title": "simulate is a function of circuit and seed", "statement": "Simulating the same circuit twice with the same random numbers gives the same state and bit values.", "quantifier": "every circuit, every random stream, every earlier run", "why_tests_cant": "Depends on residue left by earlier runs.", "anchors": ["dwave/gate/simulator/simulator.pyx:simulate", "dwave/gate/primitives.py:Bit"]}
{"id": "C42", "title": "build_controlled_unitary is the controlled operator", "statement": "For distinct valid control and target qubits the returned matrix applies the unitary to the target exactly on basis states whose control qubits are all 1 and is the identity elsewhere; overlapping or too large indices raise.", "quantifier": "every number of qubits, control set, target, matrix", "why_tests_cant": "All sizes and positions.", "anchors": ["dwave/gate/tools/unitary.py:build_controlled_unitary"]}
{"id": "C43", "title": "build_unitary agrees with the simulator", "statement": "For circuits of one-qubit and singly controlled gates, build_unitary applied to |0...0> is the simulated state, and build_unitary is the ordered product of the gate operators.", "quantifier": "every such circuit", "why_tests_cant": "All circuits and sizes.", "anchors": ["dwave/gate/tools/unitary.py:build_unitary", "dwave/gate/simulator/simulator.pyx:simulate"]}
{"id": "C44", "title": "build_unitary reflects the current circuit", "statement": "build_unitary(circuit) is the matrix of the circuit as it is at the time of the call.", "quantifier": "every history of circuit edits and build_unitary calls", "why_tests_cant": "Depends on call history through a cache.", "anchors": ["dwave/gate/tools/unitary.py:build_unitary"]}
{"id": "C45", "title": "Operations made from parametric circuits bind parameters by index", "statement": "The matrix of an operation created from a parametric circuit is the circuit's matrix with p[i] replaced by the i-th parameter.", "quantifier": "every parametric circuit", "why_tests_cant": "Depends on the order and multiplicity of variable occurrences.", "anchors": ["dwave/gate/operations/base.py:create_operation"]}
{"id": "C46", "title": "Endianness is honoured by every simulation mode", "statement": "simulate(circuit, mixed_state=True, little_endian=True) returns the little-endian density matrix.", "quantifier": "every circuit", "why_tests_cant": "All circuits.", "anchors": ["dwave/gate/simulator/simulator.pyx:simulate", "dwave/gate/simulator/simulator.pyx:_simulate_circuit_density_matrix"]}
{"id": "C47", "title": "Every supported circuit can be simulated in every mode", "statement": "Circuits with measurements can be simulated with mixed_state=True.", "quantifier": "every circuit with a measurement", "why_tests_cant": "Universal claim over circuits.", "anchors": ["dwave/gate/simulator/simulator.pyx:_simulate_circuit_density_matrix", "dwave/gate/simulator/simulator.pyx:_measure"]}
{"id": "C48", "title": "QASM operands name the right qubits", "statement": "In to_qasm output each operand reg[i] resolves, through the declared registers in order, to the position of the operation's qubit in circuit.qubits; every operand is declared and in range; different qubits get different operands.", "quantifier": "every circuit layout, with and without register labels", "why_tests_cant": "All register layouts.", "anchors": ["dwave/gate/circuit.py:Circuit.to_qasm", "dwave/gate/registers/registers.py:QuantumRegister.to_qasm", "dwave/gate/operations/base.py:Operation._map_qubits"]}
{"id": "C49", "title": "QASM lists every operation once and in order", "statement": "to_qasm emits one statement per operation in circuit order with its parameters, declares each custom gate once before use, and keeps conditions.", "quantifier": "every circuit", "why_tests_cant": "All circuits.", "anchors": ["dwave/gate/circuit.py:Circuit.to_qasm", "dwave/gate/operations/operations.py"]}
{"id": "C50", "title": "QIR compilation keeps order and operands", "statement": "to_qir emits one instruction per operation in circuit order, each addressing the QIR qubits of that operation, with measurements last; a gate after a measurement raises.", "quantifier": "every circuit", "why_tests_cant": "All circuits.", "anchors": ["dwave/gate/qir/compiler.py:qir_module", "dwave/gate/qir/compiler.py:BaseModule._compile"]}
{"id": "C51", "title": "Different qubits become different QIR qubits", "statement": "Two different qubits of a circuit are never compiled to the same QIR qubit, and likewise for bits.", "quantifier": "every circuit layout", "why_tests_cant": "All register layouts; tests use one register.", "anchors": ["dwave/gate/qir/compiler.py:qir_module", "dwave/gate/circuit.py:Circuit.find_qubit"]}
{"id": "C52", "title": "QIR round trip", "statement": "Loading compiled QIR gives a circuit with the same gates on the same qubits and the same measurements.", "quantifier": "every circuit", "why_tests_cant": "All circuits.", "anchors": ["dwave/gate/qir/loader.py:_module_to_circuit", "dwave/gate/qir/loader.py:_add_measurements", "dwave/gate/qir/compiler.py:qir_module"]}
{"id": "C53", "title": "External QIR functions are declared with the signature they are called with", "statement": "Every call emitted by to_qir(add_external=True) matches the declared parameter types of the callee.", "quantifier": "every circuit", "why_tests_cant": "All circuits.", "anchors": ["dwave/gate/qir/compiler.py:BaseModule.add_external_function", "dwave/gate/qir/compiler.py:qir_module"]}
{"id": "C54", "title": "Recompilation keeps the program", "statement": "compile(force=True) yields the same instructions as the first compilation.", "quantifier": "every module history", "why_tests_cant": "Depends on module history.", "anchors": ["dwave/gate/qir/compiler.py:BaseModule.compile", "dwave/gate/qir/compiler.py:BaseModule.reset", "dwave/gate/qir/compiler.py:BaseModule._remove_external_instructions"]}
{"id": "C55", "title": "Gate name tables are consistent", "statement": "Every gate the QIR compiler emits under a name is read back by the loader as the same gate.", "quantifier": "every gate of the tables", "why_tests_cant": "The claim is about the two tables as inverse functions, for every entry.", "anchors": ["dwave/gate/qir/instructions.py:Operations"]}
{"id": "C56", "title": "Class and instance properties", "statement": "A mixed property read on an instance always evaluates with that instance; read on the class it evaluates with no instance, giving None (or raising under an active context when the wrapped code needs an instance), and can never be overwritten.", "quantifier": "every property function, every instance, every context state", "why_tests_cant": "Universal over wrapped functions.", "anchors": ["dwave/gate/mixedproperty.py:mixedproperty"]}
{"id": "C57", "title": "Operation arity is always enforced", "statement": "Constructing an operation with a number of qubits different from the gate's arity raises ValueError, regardless of what was called before.", "quantifier": "every gate, every qubit list, every earlier history", "why_tests_cant": "Depends on class-level state changed by unrelated property reads.", "anchors": ["dwave/gate/operations/base.py:Operation._check_qubits", "dwave/gate/operations/base.py:ControlledOperation.num_qubits"]}
{"id": "C58", "title": "Operations on repeated qubits", "statement": "An operation recorded in a circuit acts on pairwise distinct qubits, so that simulation is unitary.", "quantifier": "every gate and qubit list", "why_tests_cant": "All qubit lists.", "anchors": ["dwave/gate/operations/base.py:Operation._check_qubits", "dwave/gate/circuit.py:Circuit.append"]}
{"id": "C59", "title": "Storing measurements", "statement": "measurement | bits stores the first num_qubits bits in order and raises, changing nothing, when there are too few.", "quantifier": "every measurement and bit list", "why_tests_cant": "All lengths.", "anchors": ["dwave/gate/operations/base.py:Measurement.__or__"]}
{"id": "C60", "title": "Noise channels are trace preserving", "statement": "The generated noise operator sets (dephasing, amplitude damping) satisfy sum K^dagger K = I for all probabilities in [0,1], hence outcome probabilities sum to one.", "quantifier": "all real noise strengths", "why_tests_cant": "Real parameter.", "anchors": ["dwave/gate/simulator/operation_generation.py:generate_op_set"]}
{"id": "C61", "title": "Unsupported operations are reported, not skipped", "statement": "Simulating a circuit with an operation the simulator has no rule for raises an exception; it is never silently left out.", "quantifier": "every operation, every number of controls, every state", "why_tests_cant": "Ranges over all operations users may define, with any number of controls.", "anchors": ["dwave/gate/simulator/simulator.pyx:apply_instruction", "dwave/gate/operations/base.py:ControlledOperation"]}
{"id": "C62", "title": "One-qubit gates are the Pauli gates, their roots and rotations", "statement": "X exchanges the amplitudes, Z negates the second, Y satisfies the Pauli algebra with them; RX, RY, RZ by theta are cos(theta/2) - i sin(theta/2) times the Pauli matrix and add up; Hadamard is the normalised sum of X and Z, T squared is S, S squared is Z, with the positive phase.", "quantifier": "all real angles, all state vectors", "why_tests_cant": "Real angles; a sign or conjugation error leaves every gate unitary and most distributions unchanged.", "anchors": ["dwave/gate/operations/operations.py:X", "dwave/gate/operations/operations.py:Y", "dwave/gate/operations/operations.py:Z", "dwave/gate/operations/operations.py:S", "dwave/gate/operations/operations.py:T", "dwave/gate/operations/operations.py:RX", "dwave/gate/operations/operations.py:RY", "dwave/gate/operations/operations.py:RZ", "dwave/gate/operations/operations.py:Hadamard"]}
{"id": "C63", "title": "Joint outcomes follow the Born rule", "statement": "When several qubits are measured or sampled, the outcomes of one sample occur with the joint Born probability of the measured state, samples are independent, every sample shows one basis state of non-zero amplitude (entangled qubits agree, a qubit listed twice gives one outcome), and the state left by a measurement is the scaled projection on all outcomes.", "quantifier": "all states, all lists of qubits, all numbers of samples, all random numbers", "why_tests_cant": "A statement about the volume of a set of random numbers for every state and every list of outcomes; sampling tests only estimate frequencies for a few states.", "anchors": ["dwave/gate/operations/base.py:701-747", "dwave/gate/simulator/simulator.pyx:176-219"]}
{"id": "C64", "title": "Expectation values and bit strings summarise the samples", "statement": "expval returns for each sampled qubit the fraction of samples with outcome 1, a number in [0,1] that is exact when the outcome is certain and whose mean over the outcome distribution is the probability of 1; bit strings are the samples written as digits; a single qubit index, as documented, is accepted. (The last part is false.)", "quantifier": "all states, all qubit selections, all numbers of samples, all random numbers", "why_tests_cant": "Random results can only be tested approximately and for few states.", "anchors": ["dwave/gate/operations/base.py:701-760"]}
{"id": "C65", "title": "Registers compare and combine as sets", "statement": "Comparing two registers with ==, <=, < or isdisjoint never raises and decides equality, inclusion, strict inclusion and disjointness of their items; &, -, | and ^ give a new unfrozen register with exactly the items of the set operation, in the documented order of collections.abc.Set; equal registers hold an item at the same position. (The last part is false.)", "quantifier": "all registers reachable by register methods, of any size, with any items", "why_tests_cant": "Tests compare a few short registers; the operators are inherited from the standard library and rest on membership and length of a register that keeps two dictionaries in step.", "anchors": ["dwave/gate/registers/registers.py:41-50", "dwave/gate/registers/cyregister.pyx:51-86"]}
{"id": "C66", "title": "Evaluating a parametric circuit binds every variable, on a copy as in place", "statement": "eval returns a circuit with the same operations in which every variable of the operation at position i, index j is replaced by the given number at i, j or else by the variable's value; it succeeds exactly when each variable has one; evaluating again changes nothing; in place the circuit becomes the same as the returned copy, all or nothing, for every value including 0, and a simulation applies the same operations of both. (The last three parts are false: a shared operation object takes the first numbers, a failing call leaves half of the circuit evaluated, 0 counts as no value, and on a copy conditions are read from bits no measurement writes.)", "quantifier": "all states of the heap, all circuits of any length, all given numbers, all measurement outcomes", "why_tests_cant": "Tests evaluate circuits of one operation; sharing of operation objects and of copied bits shows only in circuits with several operations and a simulation afterwards.", "anchors": ["dwave/gate/circuit.py:726-750", "dwave/gate/operations/base.py:382-409", "dwave/gate/simulator/simulator.pyx:53-59"]}
{"id": "C67", "title": "Circuits built with the library simulate, and the simulator sees what was built", "statement": "Every circuit with 1 to 30 qubits that a program builds from library operations through the circuit's methods is seen by the simulator with its qubits in register order and, one for one, with the gates its operations are named after, on the qubits they were given; the simulation succeeds and leaves a normalised state. (False without further conditions: an operation without qubits is accepted by append and fails in the simulation, a controlled gate given three qubits ignores the last, repeated qubits and unbound variables of controlled operations are accepted.)", "quantifier": "all programs, all states they pass through, all circuits of any length, all parameter values, all random streams", "why_tests_cant": "Tests simulate a few fixed circuits; that nothing a program can do before leads to a circuit whose simulation fails, other than the listed conditions, needs an invariant over all programs.", "anchors": ["dwave/gate/simulator/simulator.pyx:44-173", "dwave/gate/circuit.py:180-232", "dwave/gate/operations/operations.py:78-866", "dwave/gate/operations/base.py:183-221"]}
{"id": "C68", "title": "Equality of operations and of QIR instructions", "statement": "Two operations are equal exactly when they have the same class name, the same qubits and the same parameters; equality is an equivalence relation and equal operations act alike. Two QIR instructions are equal exactly when they have the same name, type, numbers of qubits and results and the same parameters, and equal instructions call the same function with equal numbers. (False in part: RX == X raises AttributeError while X == RX is False; RX(v0) == RX(5) == RX(v1) without RX(v0) == RX(v1); conditions and the bits of measurements are ignored, so remove can delete another operation than the one given; instructions on different qubits or with different external functions are equal.)", "quantifier": "all pairs and triples of operations in all states reached by any program; all pairs of instructions with argument lists of any length", "why_tests_cant": "Tests compare a handful of pairs; the equivalence laws and their exceptions range over all pairs and triples and over the values variables hold at the time.", "anchors": ["dwave/gate/operations/base.py:253-256", "dwave/gate/operations/base.py:372-375", "dwave/gate/qir/instructions.py:187-221"]}
{"id": "C69", "title": "Circuits built with the library compile to QIR and are written as OpenQASM", "statement": "Every circuit that a program builds from library operations through the circuit's methods, with its measurements last, compiles to a QIR program that calls for each gate in order the function of its name with its parameters and its qubits, then measures and records in order; and every circuit without measurements is written as an OpenQASM program that reads as its registers and one statement per operation with its name, parameters and qubits. (False without further conditions: an operation without qubits or a controlled gate with three qubits makes the compiler fail, and qubits of different registers get the same QIR number.)", "quantifier": "all programs, all states they pass through, all circuits with any number of registers, qubits, bits and operations", "why_tests_cant": "Tests export a few fixed circuits; that nothing a program can do before leads to a circuit whose export fails or names other qubits, other than the listed conditions, needs invariants over all programs.", "anchors": ["dwave/gate/circuit.py:585-662", "dwave/gate/qir/compiler.py:339-403", "dwave/gate/operations/base.py:183-221", "dwave/gate/operations/base.py:286-295"]}
{"id": "C70", "title": "The OpenQASM text means what the circuit does", "statement": "The OpenQASM 2.0 text that to_qasm writes for a circuit of library gates without measurements and conditions, read with the semantics of the language and with the included qelib1.inc, acts on every state as the operations of the circuit do, up to a global phase, so from the zero state it gives the state that simulate stores; the definitions written with gate_definitions=True are valid and mean the gates they name. (False in part: the definition written for Rotation is not grammatical, CRotation is never defined, CRX and CRY are not in the qelib1.inc of the language's definition and get no definition, a definition is repeated when a gate is used twice, and swap and cswap are defined again if the included file already has them.)", "quantifier": "all programs, all states they pass through, all circuits with any number of registers, qubits and operations, all real parameters, all initial states, both bit orders, every included file that extends qelib1.inc by the gates in question", "why_tests_cant": "The repository's tests compare the text with expected strings; no test gives the text a meaning, and equality up to a phase for all parameters and all circuits is not a finite check.", "anchors": ["dwave/gate/circuit.py:585-662", "dwave/gate/operations/base.py:183-221", "dwave/gate/operations/operations.py:435-438", "dwave/gate/operations/operations.py:702", "dwave/gate/operations/operations.py:730", "dwave/gate/operations/operations.py:778"]}
{"id": "C71", "title": "The QIR program does what the circuit does", "statement": "The QIR program that to_qir writes for a circuit of base-profile gates followed by measurements, run on the machine that the base profile describes, does what simulating the circuit does: with the same random numbers it ends in the same amplitudes, the same bit values and the same recorded results, and each sequence of outcomes has the same probability. (False in part: places of qubits and bits are counted within their registers, so with two registers in use the program acts on the wrong qubits; conditions are not compiled, so an operation that simulation skips is carried out.)", "quantifier": "all programs, all states they pass through, all circuits with any number of operations, measurements and bits and up to 30 qubits, all real parameters, all random numbers, all initial bit values", "why_tests_cant": "The repository's tests compare the text with expected strings; no test runs the QIR program, and equality of distributions of outcomes over all circuits and parameters is not a finite check.", "anchors": ["dwave/gate/qir/compiler.py:339-403", "dwave/gate/qir/compiler.py:162-185", "dwave/gate/qir/instructions.py:158-185", "dwave/gate/circuit.py:643-662", "dwave/gate/simulator/simulator.pyx:133-250"]}
{"id": "C72", "title": "Loading a QIR module into a circuit", "statement": "Loading a QIR module appends to the circuit, in order, the gates that the calls before the first return of each function ask for, on the qubits at the places named, and then one measurement of all measured qubits into the named bits; it adds just the qubits and bits that are missing, changes nothing else, and leaves a circuit that can be used like any other. A program of the base profile is loaded as a circuit that does what the program does, and a circuit that is compiled and loaded back does what it did before. Calls of unknown functions and with wrong arguments are refused. (False in part: a gate after a measurement is put before it; with two registers in use, added qubits shift the places and gates land on other qubits; a failing load leaves part of the module in the circuit; measured qubits that no gate uses raise IndexError; Rotation and CRotation can never be loaded; CX on one or three qubits is accepted; an unused last qubit is lost in a round trip; loading inside a context raises RuntimeError and unlocks the circuit.)", "quantifier": "all modules with any number of functions, blocks and calls, all states that programs can get to in which no context is active, new and existing circuits, all parameters; for the meaning also all random numbers and up to 30 qubits", "why_tests_cant": "The tests load a few modules into new circuits and compare operations; what happens for all call sequences, into circuits in all reachable states, and that behaviour and probabilities agree with the program, is unbounded.", "anchors": ["dwave/gate/qir/loader.py:83-133", "dwave/gate/qir/loader.py:136-152", "dwave/gate/qir/loader.py:155-190", "dwave/gate/qir/instructions.py:91-117"]}
{"id": "C73", "title": "Constructing, calling and conditioning operations", "statement": "A constructor that succeeds leaves exactly one new object of its class, whose qubits, control and target are those of the arguments (qubits divided after the controls), whose parameters are those given or their values, without bits or condition; a recording circuit gets it at its end and nothing else changes. It succeeds exactly when parameters are given to the classes that have them and in the right number, control and target to controlled classes only, qubits are given when a context is active and in the number the class wants, and a recording circuit is not locked, has the qubits and can resolve the parameters. Calling an operation makes another of its class and parameters on the arguments given, and on its own where none are given, so without arguments on the same qubits. conditional() replaces the condition that the simulator sees and changes nothing else. (False in part: a call loses condition and measured bits; after op.qubits was set on a controlled operation, calling goes back to the old qubits; a controlled class without a number of controls takes all qubits for both, and calling puts it on each qubit twice.)", "quantifier": "all programs, all states they pass through, all classes, arguments and parameters; for what is accepted, states in which registers are changed by the circuit's methods only and not dropped", "why_tests_cant": "The tests construct and call single operations; which of all argument combinations are accepted in which states, and that nothing else changes, needs a statement over all states.", "anchors": ["dwave/gate/operations/base.py:183-251", "dwave/gate/operations/base.py:302-309", "dwave/gate/operations/base.py:343-370", "dwave/gate/operations/base.py:419-453", "dwave/gate/operations/base.py:474-523", "dwave/gate/operations/base.py:600-641", "dwave/gate/circuit.py:180-215"]}
{"id": "C74", "title": "Calling a circuit applies its operator to the given qubits", "statement": "Every circuit without measurements and conditions has exactly one operator: a unitary matrix whose columns are what the circuit makes of the basis states, which says what it makes of every state, and which build_unitary computes. If such a circuit is called inside the context of another one, on qubits of that one, then simulating the calling circuit afterwards gives what simulating it before the call gives, changed by this operator on the given qubits and by nothing else: the same measurement outcomes, bits and random numbers used, the same errors. For a parametric circuit it is the operator of the gates with the variables replaced by the given values. (False in part: conditions of the called circuit are lost, so that what it does unconditionally is applied even where simulating it alone would skip it; foreign qubits are accepted for qubits that are not used; the same qubit can be given twice.)", "quantifier": "all programs, all states inside contexts that they pass through, all called circuits of any size and depth, all qubits given, parameters, random numbers and memories, both bit orders; calling circuits of up to 30 qubits", "why_tests_cant": "The tests call small circuits and compare the recorded operations; that the state is changed by the called circuit's matrix on the right tensor factors, for circuits of all sizes and depths and all choices of qubits, is a statement about exponentially large matrices.", "anchors": ["dwave/gate/circuit.py:94-156", "dwave/gate/circuit.py:696-720", "dwave/gate/simulator/simulator.pyx:133-175", "dwave/gate/tools/unitary.py:44-108"]}
{"id": "C75", "title": "build_unitary on circuits built with the library", "statement": "For every circuit that a program builds with the library's classes, if all its operations are one-qubit gates or controlled gates without parameters, build_unitary returns the operator of the circuit the simulator sees: a unitary matrix, whose first column is the simulated state; calling the circuit inside another one changes the simulated state by this matrix on the given qubits; a custom operation made from a one-qubit circuit is simulated as the circuit called there is. Every other circuit is refused at the first operation that does not fit: ValueError for SWAP, CSWAP and CCX, TypeError for measurements, for controlled gates with parameters and for parameters that are variables. (False in part: build_unitary ignores conditions; after the qubits of a controlled operation were set it goes on with the old control and target, while the simulator uses the new qubits.)", "quantifier": "all programs, all states they pass through, all circuits of any number of qubits and operations, all random numbers and memories", "why_tests_cant": "The tests compare a few hand-written matrices; that the loop over Kronecker products and controlled unitaries gives the simulator's operator for every circuit that can be built, and which circuits are refused with which error, depends on invariants of control, target and qubits over all histories.", "anchors": ["dwave/gate/tools/unitary.py:43-108", "dwave/gate/operations/base.py:79-155", "dwave/gate/operations/base.py:297-341", "dwave/gate/operations/base.py:543-597"]}
{"id": "C76", "title": "Programs that simulate", "statement": "For every program that builds circuits with the library's classes and simulates them as it goes: everything that holds of the states of programs without simulation holds of these states too. Simulating a circuit whose operations are complete succeeds, gives the circuit a normalised state vector of 2^n entries and no density matrix, gives every unconditional measurement its measured state, gives a value to every bit that an unconditional measurement stores into, and changes nothing else: not the other circuits, operations, bits or registers, apart from the cached qubits of the circuit. If every condition reads only bits that an earlier unconditional measurement stores into or that no measurement of the circuit stores into, simulating again with the same random numbers gives the same state and bits. Without measurements, little-endian gives the state with the qubits reversed and mixed_state gives its density matrix; with measurements both are refused, leaving bits and states as they were. (False in part: when a condition reads a bit measured later, simulating again gives another state; after a simulation stored 0 in a bit of place 0, reset() raises AttributeError.)", "quantifier": "all programs of any length with simulations anywhere in them, all states they pass through, all circuits up to 30 qubits (15 for mixed_state), all random numbers", "why_tests_cant": "The tests simulate a freshly built circuit once. Bits, states and measurement results outlive a simulation, so the second simulation, a reset or further building start from a state no test constructs; what one simulation may change of the shared heap is a statement over all histories.", "anchors": ["dwave/gate/simulator/simulator.pyx:133-219", "dwave/gate/circuit.py:225-283", "dwave/gate/circuit.py:342-360", "dwave/gate/primitives.py:104-139", "dwave/gate/operations/base.py:650-700"]}
{"id": "C77", "title": "Measuring and sampling in programs", "statement": "For every program that builds and simulates circuits: the values that the first measurement of a circuit leaves in its bits follow the Born rule. The gates before it lead from the all-zero state to a state v, and for all outcomes the random numbers for which the bits hold these outcomes form a box in the unit cube whose volume is their joint probability in v. If the measurement comes last, the circuit is left in the projection of v on the outcomes, scaled. Before the first simulation sample() raises CircuitError; after it the samples of a measurement show the measured qubits, independently, with the joint probabilities of the measured state. (False in part: every further simulation adds the measured qubits again, so after two simulations a sample of one qubit has two values; if a measurement belongs to two circuits, sample() raises ValueError after both were simulated when a place in the first circuit does not exist in the second.)", "quantifier": "all programs with simulations anywhere in them, all states they pass through, all circuits up to 30 qubits, all outcomes, all random numbers, all numbers of samples", "why_tests_cant": "Tests estimate frequencies for a few fixed circuits and simulate each circuit once; the distribution of the bits of an arbitrary circuit is a statement about the volume of a set of random numbers, and what is sampled depends on all simulations before.", "anchors": ["dwave/gate/simulator/simulator.pyx:133-219", "dwave/gate/operations/base.py:650-760", "dwave/gate/circuit.py:362-420"]}
{"id": "C78", "title": "Circuits with measurements and conditions, as a whole", "statement": "Simulating a circuit with any number of measurements and conditional operations anywhere in it does what the circuit means. Each list of outcomes of the measurements that run is one branch: gates act, a measurement keeps the amplitudes that show its outcomes and stores the outcomes in its bits, operations with a condition bit 0 do nothing. The random numbers that lead to a branch form a box in the unit cube whose volume is the weight of the branch, the sum of the squared amplitudes that remain; every sequence of random numbers lies in the box of exactly one branch. The simulation leaves the bits of this branch and its state, scaled to norm 1. There are finitely many branches and their weights sum to 1. The same holds for every simulation in a program.", "quantifier": "all circuits up to 30 qubits, all lists of operations with measurements and conditions, all bits before, all random numbers, all programs", "why_tests_cant": "Tests run few circuits with mid-circuit measurement and compare frequencies; that every branch has exactly its probability, that no random number is without a branch and that conditions act within the right branch is a statement about all random numbers and all circuits.", "anchors": ["dwave/gate/simulator/simulator.pyx:44-60", "dwave/gate/simulator/simulator.pyx:133-219", "dwave/gate/simulator/operation_generation.py:616-715", "dwave/gate/operations/base.py:311-321"]}
{"id": "C79", "title": "The state and the density matrix of circuits in programs", "statement": "Whatever a program builds, calls, simulates and sets, and wherever it fails, each circuit has at all times no state, or a vector of 2^k amplitudes (k > 0) of norm 1 up to numpy's tolerances, or such a vector with its density matrix, or a 2^k by 2^k matrix of that norm. Only simulating the circuit, set_state and reading density_matrix change this; nothing else the program does depends on it, and a simulation starts from |0...0> whatever was set before. set_state accepts exactly the normalised arrays of the shape that fits the circuit's qubits at that moment, refuses to replace a state unless forced, and a refused call or simulation changes no state. After reset a circuit is like new; a state always fits the circuit's qubits; a refused simulation leaves the measurements as they were.", "quantifier": "all programs with simulations, set_state and reads of state and density_matrix, all states they go through, all circuits, all arrays", "why_tests_cant": "Tests set or simulate one circuit once; that no order of building, simulating, failing and resetting leaves a malformed state, and that nothing else depends on it, is an invariant over all programs.", "anchors": ["dwave/gate/circuit.py:243-292", "dwave/gate/circuit.py:342-360", "dwave/gate/simulator/simulator.pyx:133-173", "dwave/gate/simulator/simulator.pyx:208-248"]}
{"id": "C80", "title": "Replacing parts of a circuit by parts with the same effect", "statement": "If one circuit comes from another by replacing runs of gates, all under the same condition, by runs whose matrix is the same up to a phase, then with the same random numbers both simulations succeed, leave the same bits and end in states that differ by a phase. Their branches have the same outcomes, bits and probabilities, and their density matrices are equal. Such runs are: gates without common qubits in the other order, each gate with a decomposition and its decomposition, two equal self-inverse gates and none, two rotations about an axis and the rotation by the sum of the angles, S S and Z, T T and S, H Z H and X, rotations by pi and the Pauli gates, rotations by pi/2 and pi/4 about z and S and T, CZ with its qubits exchanged. A phase may not be dropped under a control: RX(pi) can be replaced by X but CRX(pi) not by CX.", "quantifier": "all circuits up to 30 qubits (15 for density matrices) with measurements and conditions, all positions and numbers of replacements, all qubits, all angles, all random numbers, all programs", "why_tests_cant": "Tests compare a few matrices of single gates; that a replacement anywhere in a circuit with measurements and conditions changes no bit, probability or density matrix is a statement about all circuits and all random numbers.", "anchors": ["dwave/gate/operations/operations.py:55-870", "dwave/gate/simulator/simulator.pyx:44-219", "dwave/gate/simulator/operation_generation.py:616-715"]}
{"id": "C81", "title": "Operations of a circuit in another order", "statement": "Two operations are independent if they have no common qubit, neither writes a bit of the other's condition, and no bit is written by both. If the operations of a circuit are put in another order in which any two that change their order are independent, then: if no two measurements change their order, both simulations with the same random numbers leave the same bits and end in the same state, and density matrices are equal; if measurements change their order too, the branches of both circuits come in pairs with the same outcomes up to order, the same bits, the same state and the same probability. With the same random numbers the bits may then differ, since each measurement takes the next number.", "quantifier": "all circuits up to 30 qubits (15 for density matrices; any size for branches) with measurements and conditions, all reorderings, all random numbers, all programs", "why_tests_cant": "The tests simulate a few fixed circuits in one order; that every order that respects the dependencies gives the same result is a statement about all circuits, all permutations of their operations and all random numbers.", "anchors": ["dwave/gate/simulator/simulator.pyx:44-219", "dwave/gate/operations/base.py:297-321", "dwave/gate/circuit.py:175-178"]}
{"id": "C82", "title": "Measurements put later, split and merged", "statement": "A one-qubit gate under the condition that a qubit measured just before showed 1 can be replaced by the controlled gate before the measurement, also under further conditions; two neighbouring measurements under the same condition can be replaced by one measurement of all their qubits; independent operations can change places; all this in any number, anywhere and either way. Then, if no two measurements change places, both simulations with the same random numbers leave the same bits and end in the same state; otherwise the branches of both circuits come in pairs with the same outcomes up to order, the same bits, state and probability. Measuring the same qubits again just after a measurement gives the same outcomes whatever the random numbers and leaves the state as it was. A measurement whose bit is never used cannot be dropped in general.", "quantifier": "all circuits up to 30 qubits (any size for branches) with measurements and conditions, all sequences of such changes, all random numbers, all programs", "why_tests_cant": "The tests measure a few fixed circuits; that putting measurements later never changes outcomes or states is a statement about all circuits, all places and all random numbers.", "anchors": ["dwave/gate/simulator/simulator.pyx:44-219", "dwave/gate/operations/base.py:297-321", "dwave/gate/operations/base.py:653-772"]}
{"id": "C83", "title": "Operations on which nothing that is kept depends", "statement": "If every dropped operation is independent (no common qubit, no bit of the condition written, no bit written by both) of all kept operations after it, then: dropping gates leaves the random numbers used, all bits, and all joint outcome probabilities on qubits the dropped gates do not act on as they are; dropping measurements too leaves the probability of every test of the bits that does not look at the dropped measurements' bits as it is, so what is done to some qubits has no influence on measurements of others. With the same random numbers a dropped measurement can change later bits, since each measurement takes the next number.", "quantifier": "all circuits up to 30 qubits (any size for probabilities) with measurements and conditions, all choices of dropped operations, all tests of bits, all random numbers, all programs", "why_tests_cant": "The tests look at results of fixed circuits; that unrelated operations never influence a result is a statement about all circuits and all sets of unrelated operations.", "anchors": ["dwave/gate/simulator/simulator.pyx:44-219", "dwave/gate/operations/base.py:297-321", "dwave/gate/circuit.py:175-178"]}
{"id": "C84", "title": "Qubits that gates keep", "statement": "A gate leaves the outcome probabilities of one of its qubits as they are in every state exactly if the qubit is a control or the matrix is diagonal; the diagonal gates of the library are Identity, Z, S, T, RZ, and RX, RY, Rotation with middle angle theta where sin(theta/2) = 0 (and their controlled versions). Operations (gates and measurements) whose common qubits are kept by both can change places as in C81-C83. Diagonal gates after which nothing changes their qubits can be dropped: random numbers used, bits, and all joint outcome probabilities of all qubits stay the same. If only one of two operations keeps a common qubit they cannot always change places.", "quantifier": "all gates, positions and states; all circuits up to 30 qubits with measurements and conditions; all choices of dropped gates, all random numbers, all programs", "why_tests_cant": "The tests simulate fixed circuits; which qubits a gate leaves alone in every state, and that this allows exchanges in every circuit, is a statement about all states and circuits.", "anchors": ["dwave/gate/simulator/simulator.pyx:44-219", "dwave/gate/operations/operations.py:80-870", "dwave/gate/operations/base.py:297-321"]}
{"id": "C85", "title": "Printed forms tell objects apart", "statement": "The repr of a string label is a literal that stands for the label. Qubits and bits that print alike have the same class, label, id and value, so after any program two of them print alike only if they are one object. Registers (repr and str), operations, measurements and circuits that print alike agree in everything printed: class and items in order; class, parameters, qubits and condition; qubits and bits; class and the three counts.", "quantifier": "all labels (strings of the first 256 characters), all programs that make and change primitives, all registers, operations, measurements and circuits", "why_tests_cant": "The tests compare a few printed forms with the same format string; that no two different objects share a form, whatever their labels contain, is a statement about all pairs.", "anchors": ["dwave/gate/primitives.py:63-65", "dwave/gate/primitives.py:112-116", "dwave/gate/primitives.py:182-186", "dwave/gate/registers/registers.py:74-80", "dwave/gate/operations/base.py:258-274", "dwave/gate/operations/base.py:672-673", "dwave/gate/circuit.py:468-471"]}
{"id": "C86", "title": "Sampling with any integers as arguments", "statement": "For a measurement with a normalised state, sample refuses an empty list and any index of at least the number of qubits with ValueError; otherwise it returns no samples if the number of samples is zero or negative, refuses negative indices with OverflowError if samples are asked for, and else returns that many samples of the given qubits in the given order, each by successive collapses from the measured state. expval fails as sample does and, without samples, with ValueError; else it is the mean per qubit. Without a state both raise CircuitError. A negative index does not count from the end.", "quantifier": "all states up to 30 qubits, all lists of integers, all integers as number of samples, all random numbers", "why_tests_cant": "The tests sample small fixed states with valid arguments and one index that is too large; the order in which all kinds of bad arguments are refused is a statement about all lists of integers.", "anchors": ["dwave/gate/operations/base.py:701-760", "dwave/gate/simulator/simulator.pyx:176-205", "dwave/gate/simulator/operation_generation.py:672-720"]}
{"id": "C87", "title": "Sequences of gates can be taken back", "statement": "Every gate of the library has an inverse made of library gates. Any sequence of library gates on any qubits of a circuit and under any condition, followed by the inverses in the opposite order, has the effect of no gates at all, and so it has if the inverse comes first; the inverse of the inverse has the effect of the sequence; a circuit of just that ends exactly in the state in which it began, in both orders of the qubits; and between other operations, measurements included, it can be left out: the same random numbers are used, the bits are the same and the states differ by a phase. The same holds of two circuits of a program. Taking back in the same order does not do.", "quantifier": "all sequences of library gates of any length with any angles, all choices of qubits, all conditions, all circuits up to 30 qubits, all random numbers", "why_tests_cant": "The tests apply single gates and a few fixed circuits; that inverses undo every sequence is a statement about all lengths, all angles and all choices of qubits.", "anchors": ["dwave/gate/operations/operations.py:78-480", "dwave/gate/operations/operations.py:483-870", "dwave/gate/simulator/simulator.pyx:44-173"]}
