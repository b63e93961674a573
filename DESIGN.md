# Formal model of dwave-gate: design

Subject: the sources under `/repo/dwave/gate` at the pinned commit. The model is written in
Coq 8.16.1 (`/verif/rocq/theories`). The code was read as text and never run.

## Approach

* Each modelled function is a total Gallina function that follows the Python/Cython/C++ source branch
  by branch. Exceptions are values (`Err e`), and stateful methods return the new state together with the
  result, so that state left behind by a failing call is visible.
* `*Model.v` files hold definitions only, `*Spec.v` the independent specifications, `*Proofs.v`
  the lemmas and `Props*.v` the property theorems, each closed by `exact`, followed by
  `Print Assumptions` and a concrete non-trivial `Example`.
* What Python leaves open (the element chosen by `set.pop`, the random numbers, `float`
  formatting, the truth value of a parameter) is an argument of the model, universally quantified.
* Where the code does not have the property a user would expect, the full statement is refuted with a
  witness (`..._refuted`) and the part that does hold is proved, with a suffix `_partial` when the
  property is only partly true.

## Trusted base

* Coq's kernel (and `coqchk`), no axioms of our own. Theorems about real and complex numbers use the
  axioms of Coq's own real-number library, as printed by `Print Assumptions`:
  `ClassicalDedekindReals.sig_forall_dec`, `ClassicalDedekindReals.sig_not_dec`,
  `FunctionalExtensionality.functional_extensionality_dep`. All other theorems are closed under the
  global context. The exact list per theorem is in "Assumptions per theorem" below.
* That the definitions say what the cited source lines say.
* Abstractions: floating-point numbers are exact reals (or elements of an arbitrary commutative ring);
  `numpy` (`eye`, `kron`, `@`, `linalg.norm`, `isclose`) is its mathematical meaning; Python `dict` is an
  insertion-ordered association list; `list`, `str`, `range`, `sorted`, `itertools.combinations`,
  `itertools.product` have their documented meaning; object identity is a natural number; the LLVM
  module behind `pyqir` is a list of declared functions and calls.

## What is modelled, property by property

| id | model | proof |
|----|-------|-------|
| C01-C06 | `cyRegister` with both dictionaries and `_stop`; `Register.add`, `__add__`, `freeze`, `copy` | representation invariant; refinement to duplicate-free lists by induction over histories; refutations for negative slices, unknown relabel keys, bits equal to their index, `copy` without `_frozen` |
| C07 | `SelfIncrementingRegister.__getitem__` | induction over access sequences, injectivity of decimal printing |
| C08, C09 | `IDCounter` with `combinations`, `set.pop` as an oracle | permutation invariant: issued + pending + to come = all combinations |
| C10, C11 | `Qubit`, `Bit`, `Variable` equality, hash key, truth value | case analysis, induction over histories |
| C12-C17, C20-C26 | object heap with circuits, contexts, operations, bits, variables; one function per API call | invariants by induction over call sequences |
| C18, C19 | `Circuit.__call__`, `ParametricCircuit.__call__`, `ParametricOperation.eval` on the same heap | induction over the template's operations |
| C27, C28 | the loop emitted by `generate_op_c_code` with its masks, `compile_gate` | bit-level lemmas on `N.testbit`; disjoint-block loop lemma; any number of targets and controls |
| C29, C30, C36 | `apply_instruction`, `simulate` | induction over operations; reindexing of finite sums |
| C31-C33 | matrices of `operations.py` over complex numbers | ring computation with trigonometric identities |
| C34, C35, C60 | `generate_op_set` (norm collection, choice, rescaling) | sums of squares over the reals |
| C37, C46, C47 | `_simulate_circuit_density_matrix` | index splitting of `row * 2^n + column` |
| C38, C39 | `density_matrix`, `set_state`, `_assert_state` | algebra; refutations by witnesses |
| C40, C41 | `_measure`, `sample`, bit store across runs | induction over runs; refutations |
| C42-C44 | `build_controlled_unitary`, `build_unitary`, `lru_cache` | bit lists; Kronecker products; cache keyed by identity |
| C45 | `create_operation` parameter binding | list induction; refutation |
| C48, C49 | `to_qasm` as strings | operand reader; induction over operations |
| C50-C55 | `qir_module`, `BaseModule`, loader | induction over instruction lists; refutations |
| C56 | `mixedproperty.__get__` | case analysis over arbitrary wrapped functions |
| C57-C59 | `_check_qubits`, `ControlledOperation.__init__`, `Measurement.__or__` | case analysis; refutations |
| C61 | `apply_instruction` for operations without a rule | case analysis over class and number of controls |
| C62 | matrices of `operations.py` | matrix algebra over the complex numbers |
| C63, C64 | `Measurement.sample`, `expval`, `as_bitstring` | boxes of random numbers by induction over measured qubits and samples; exchange of finite sums |
| C65 | comparison and `&`, `-`, `\|`, `^` of registers (methods of `collections.abc.Set` over `Register`) | induction over the item lists, on the register invariant |
| C66 | `ParametricCircuit.eval`, `ParametricOperation.eval` on a copy and in place | induction over operations and parameters; heap changes framed by operation |
| C67 | library class table, `circuit.qubits`, `circuit.circuit` as read by `simulate` | invariants over all programs (qubits and parameters of operation objects), joined with C12-C14, C19 and C29 |
| C68 | `Operation.__eq__`, `ParametricOperation.__eq__`, `Instruction.__eq__` | case analysis on the heap invariant; permutations of argument lists |
| C69 | what `to_qir` and `to_qasm` read of a circuit; `find_qubit`, `find_bit` | invariant over all programs (reported number of qubits), joined with C12, C13, C49, C50 and C57 |
| C70 | `to_qasm` names, parameters, operands and `_qasm_decl` texts, with a semantics of OpenQASM 2.0 as specification | polynomial identities for each gate definition on the bits of its qubits; induction over statements; joined with C27, C49, C67 and C69 |
| C71 | `qir_module`, `_compile`, `execute` and the simulator, with a machine for QIR's base profile as specification | each base-profile function against the gate matrices; induction over calls in both directions; boxes of random numbers from C34; joined with C67 and C69 |
| C72 | `_module_to_circuit`, `_add_measurements` at the level of circuits, registers and contexts | the state after each call as an invariant over the calls read; asking for gates as a relation; meaning from C71's simulation of measurements; round trip by joining both |
| C73 | `Operation.__init__`, `__call__`, `conditional` and their overrides | the constructor followed step by step with every exit; acceptance as an equivalence with a description in terms of registers and variables; an invariant joining control and target to the qubits for every object, also those left by failing constructors |
| C74 | `Circuit.__call__`, `ParametricCircuit.__call__`, `simulate`, `build_unitary` | the operator of a circuit as a specification; linearity of runs; slices of the state along the given qubits commute with every gate; joined with C18, C19 and C67, the state after the call being again one a program passes through |
| C75 | `build_unitary` on circuits as they are built, `create_operation` with one qubit | what is read from an operation as a function of the heap; the loop step by step; the control and target invariant of C73; names of classes decided by the table |
| C76 | programs that simulate circuits between and inside their other calls | each simulation replaced by calls that set bits, so that reachable states are those of programs without simulation; which bits and measurement results the loop of `simulate` writes, by induction on the operations; conditions and later measurements |
| C77 | measurements and samples in programs that simulate | the run split at the first measurement; gates lead to one state whatever the random numbers; boxes of random numbers from C63; no measured qubits without measured state, an invariant of programs |
| C78 | whole circuits with measurements and conditions | branches as an inductive relation without scaling; induction over the operations, boxes of C63 put together; weights of branches summed over all outcomes |
| C79 | the state and density matrix of circuits in programs | invariant of programs with simulations; a relation between two runs that differ in the states of circuits only; `num_qubits` in programs from C13 |
| C80 | replacing parts of a circuit by parts with the same effect | induction over the replacements with the phase and the bits as invariant; matrices of the identities over the reals; programs through C67 and C76 |
| C81 | operations of a circuit in another order | exchanges of neighbours, from any order of positions that keeps dependent operations in order; each exchange by the commutation of masks and gates; branches paired by an injection in both directions; programs through C76 |
| C82 | measurements put later, split and merged | each change keeps bits, random numbers and state (outcome by outcome: the control reads the measured bit); closure by induction; branches paired by an injection in both directions; a second measurement is settled by the support left by the first; programs through C76 |
| C83 | operations on which nothing that is kept depends | dropped operations move to the end by the exchanges of C81; probabilities of tests by induction over the kept operations, outcome by outcome; gates at the end keep bits and joint probabilities on other qubits; programs through C76 |
| C84 | qubits that gates keep | a gate as matrix, targets and controls: masks on kept qubits commute with it; conversely, indicator states give every off-diagonal entry; exchanges by common controls or by phases; diagonal gates dropped through C83; programs through C76 |
| C85 | printed forms | each printed part ends where it can be told from its text alone (escapes checked over all 256 characters by computation), so concatenations, lists and tuples can be read in one way; ids from C10 |
| C86 | arguments of samples | the maximum of the list decides the first test; before the first negative index sampling cannot fail (C40), so its conversion is what fails; otherwise the loops agree with those of C40 and C64 |
| C87 | inverses of sequences | the matrices of a gate and its inverse multiply to one, which carries over to its action on any targets; induction on the sequence, from the outside in; circuits as in C80 |

## What is modelled, file by file

Line numbers refer to `/repo/dwave/gate`. Every definition in the model carries its own citation; this is
the overview, with what each model leaves out or changes.

### `registers/cyregister.pyx`, `registers/registers.py`: RegisterModel.v, SetModel.v

Modelled: construction, `__copy__`/`copy`, `__contains__`, `__getitem__` (integers and slices),
`__iter__`, `__len__`, `_append`, `_clear`, `_is_range`, `_extend`, `_pop`, `_relabel`,
`_relabel_as_integers`, `_remove`, `at`, `count`, `index`, `_iter_safe_relabels`,
`_resolve_label_conflict`; `Register.add`, `__add__`, `freeze`, `data`, and
`SelfIncrementingRegister.__getitem__`. SetModel.v adds `==`, `<=`, `<`, `isdisjoint`, `&`, `-`, `|` and
`^`, which registers inherit from `collections.abc.Set`; its code in Python's standard library is
transcribed.

Simplified: objects in a register are compared by value for integers and by identity for all others; a
bit or variable compares to a number through its current value (argument of the model). Objects whose
`__hash__` or `__eq__` raise are left out, except unhashable objects such as lists. `__repr__` and `__str__` are in PrintModel.v. Not modelled:
`pickle`, the hash of a set, set operators with an operand that is not a register.

### `tools/counters.py`: CounterModel.v

Modelled: `next`, `refresh`, `reset`. An id is the list of its characters. The element that `set.pop`
takes is an argument. Threads are not modelled.

### `primitives.py`: PrimModel.v

Modelled: constructors, `label` setters, `__eq__`, `__hash__`, `__bool__`, `set`, `reset`, `value` of
`Qubit`, `Bit`, `Variable`. Labels are strings here (arbitrary hashable objects in the circuit model).
The hashes of strings and numbers are arbitrary functions. `__repr__` is in PrintModel.v.

### `__repr__` and `__str__`: PrintModel.v

Modelled: `__repr__` of `Qubit`, `Bit`, `Variable`, `Register`, `Operation`, `Measurement`, `Circuit`,
`__str__` of registers and operations, `name` of operations, and Python's `repr` of strings, lists and
tuples. Labels are strings of the first 256 characters. What numbers print is an arbitrary function. The
parts of an operation that are printed are given as a record. A condition is a tuple here, while
`conditional` stores any sequence it is given. Not modelled: labels that are not strings.

### `mixedproperty.py`, `ABCLockedAttr`: MixedModel.v

Modelled: `__get__`, `__set__`, Python's attribute lookup over a class hierarchy, the metaclass lock on
`__setattr__`. The wrapped functions are arbitrary but pure. Attributes of the metaclass itself
are left out.

### `circuit.py`, `operations/base.py` on a heap: WorldModel.v

Modelled, one function per API call and all runnable from programs with `with`, `try` and nesting:
circuit construction, `append`, `extend`, `remove`, `qubits`, `bits` with their caches, `num_qubits`,
`num_bits`, `parametric`, `context`, `lock`, `unlock`, `is_locked`, `reset`, `add_qubit`, `add_bit`,
`add_qregister`, `add_cregister`, `get_qubit`, `find_qubit`, `get_bit`, `find_bit`, `Circuit.__call__`,
`ParametricCircuit.__call__`, in-place `eval`, `reset_variables`, context `__enter__`/`__exit__`, `freeze`;
`Operation.__init__`, `_check_qubits`, `__call__`, `__eq__`, `qubits` setter, `conditional`, the
parametric and controlled constructors and calls, `_check_parameters`, `ParametricOperation.eval` in
place, `Measurement.__or__`, `num_qubits` on class and instance.

Simplified:

* A single qubit given where a sequence is expected is written as the list of that qubit.
* The parameter register of a parametric circuit is the list of its variables.
* The operation object that a failing constructor leaves behind stays addressable by its index; a Python
  program could not name it. Invariants are therefore proved about more objects than exist in Python.
* Labels are `None`, strings, integers or opaque true objects; equality of labels is structural.
  Unhashable labels and label setters are left out.
* Functions a user appends to the list of exit functions are left out.
* `eval` with `inplace=False` is modelled in EvalModel.v as a function of the heap that returns the
  operations of the new circuit. `copy.deepcopy` is assumed to succeed; the model records for each
  operation which copies of the bits it refers to.
* Numbers used as parameters form an arbitrary type with arbitrary equality and truth value.

### `operations/operations.py`, matrices in `base.py`: GateModel.v

Modelled: every `matrix` method, `ControlledOperation.matrix`, `ParametricControlledOperation.matrix`,
over the complex numbers; the listed decompositions (`GateModel.decomposition`, C32). Not modelled: the
`decomposition` property's `NotImplementedError`. `name` and `__repr__` are in PrintModel.v.

### `simulator/operation_generation.py`: KernelModel.v, SimModel.v

Modelled: `compile_gate`, the loops that `generate_op_c_code` emits (masks, strides, bit order, the
decision which products to skip), `generate_op_set` (norms, choice, rescaling). The C++ text itself is
represented by the function it denotes. `1 << n` in a C `int` for `n >= 31` is undefined behaviour;
kernel theorems are stated for `n <= 30` qubits.

### `simulator/simulator.pyx`: SimModel.v, SimReal.v, SampleModel.v, LinkModel.v

LinkModel.v translates a circuit of WorldModel.v into what SimModel.v simulates: the class of an operation
by its position in a table of the library's classes, numbers as real parameters. Operations of other
classes or with variables as parameters have no translation.

Modelled: `apply_instruction`, `simulate`, `sample_qubit`, `_measure`,
`_simulate_circuit_density_matrix`, `Measurement.sample` (non-negative indices) with `as_bitstring`,
`Measurement.expval` (exact means); IndexModel.v has both for any integers as arguments, where a negative index fails in Cython's conversion to `uint64_t`. Not modelled: `numpy` dtypes, the seeding of random generators.

SessionModel.v runs programs that contain simulations: the heap of WorldModel.v together with the state and
density matrix of each circuit and the measured state and indices of each measurement. A simulation reads bits and
matrices from the heap, as LinkModel.v says, and writes the bits back. Every simulation has its own stream of random
numbers, since `simulate` makes a new generator. `sample` changes nothing, so sampling is applied to the states of such programs (C77).
`set_state` and reading `state` and `density_matrix` are calls of these programs.  Not modelled: simulating a circuit that LinkModel.v does not translate.

### `circuit.py:243-292`: StateModel.v

Modelled: `state`, `density_matrix`, `set_state`, `_assert_state` with exact arithmetic;
`numpy.isclose` by its documented inequality.

### `tools/unitary.py`: UnitaryModel.v, CacheModel.v, MatrixModel.v

Modelled: `build_unitary`, `_apply_single_qubit_gate`, `_apply_controlled_gate`,
`build_controlled_unitary`, the `lru_cache` keyed by circuit identity. A call that gives the circuit by
keyword uses a separate cache key; not modelled. MatrixModel.v says what `build_unitary` reads from the operations
of a circuit of WorldModel.v (control and target, or qubits, number of qubits and matrix) and runs the loop on them.

### `create_operation`: CustomModel.v

Modelled: the parameter binding loop, the evaluation of the matrix on the class and on instances.
`copy.deepcopy` is the persistent heap, with sharing of operation objects kept. The part of an operation
that `build_unitary` needs is evaluated for every operation when its turn comes.

### `to_qasm`: QasmModel.v

Modelled: `Circuit.to_qasm` with its options, register declarations, operands, all `to_qasm` methods of
operations, custom operations. The text of a parameter is abstract; `strip` and `lower` are those of
ASCII strings. Not modelled: `ParametricCircuit.to_qasm`, which only raises.

QelibSpec.v is a specification, not a model of repository code: the meaning of OpenQASM 2.0 programs (the
built-in gates `U` and `CX`, gate definitions, register operands) and the file `qelib1.inc`, both written from
arXiv:1707.03429, with `crx`, `cry`, `swap`, `cswap` as later versions of the file define them. Gate definitions
in the text are read by a small parser of the grammar; a second definition of a name is an error. What number
the text of a parameter denotes is a parameter of the theorems (`value`), assumed only to read back the texts
that are written for the parameters of the circuit.

### `qir/`: QirModel.v

Modelled: the gate tables, `Instruction` (construction and execution), `BaseModule` (`compile`,
`_compile`, `add_instruction`, `add_external_function`, `reset`), `qir_module`, the loader's
`_module_to_circuit`, `_add_measurements`, `_deconstruct_call_instruction`, `to_qir`/`from_qir`.
PyQIR is not in the repository; what is assumed of it is marked "PyQIR:" in the file. The verifier only
checks for unfinished functions; conditions are not compiled by the code and not read back. Not
modelled: `set_return`, bitcode encoding. `Instruction.__eq__` is `EqModel.v`.

LoadModel.v models `_module_to_circuit` and `_add_measurements` again, on the circuits, registers and contexts of
WorldModel.v instead of on a list of gates: blocks and returns, adding qubits and bits, unlocking, entering the
context, constructing through the class, storing. A module is a list of functions of blocks of instructions, where an
instruction is a call, a return or something else. Arguments other than doubles, qubits and results are not modelled;
a second and third double of a controlled class (its `control` and `target` arguments) are dropped as the code drops them
when `qubits` is given.

QirSemSpec.v is a specification, not a model of repository code: a machine with qubits, results and recorded
outputs that runs the calls of QIR's base profile (x, y, z, h, s, t, cnot, cz, rx, ry, rz, mz, result_record_output,
initialize), written from the QIR specification. Its runs carry their outcomes and the probability of these outcomes.

### What exports read of a circuit: ExportModel.v

Translates a circuit of WorldModel.v into what QirModel.v compiles and QasmModel.v writes: class names,
parameters (numbers or variables), qubits and bits by number, reported numbers of qubits, registers in order.
Conditions are left out (neither export reads them); of classical registers OpenQASM only uses labels and
lengths. Operations that report no number of qubits have no translation.

## Not modelled

* Floating-point rounding, `numpy` dtypes, memory management, threads.
* Text formatting other than the QASM statements; LLVM bitcode encoding; warnings.
* Gate matrices whose computation raises (for instance a parameter that is not a number).

## Assumptions per theorem

As printed by `Print Assumptions` against the compiled files, for every theorem named in `MANIFEST.json`.
R3 stands for the three axioms `ClassicalDedekindReals.sig_forall_dec`,
`ClassicalDedekindReals.sig_not_dec` and `FunctionalExtensionality.functional_extensionality_dep`; R2
for these without `sig_not_dec`; R1 for `sig_forall_dec` alone; "closed" for "Closed under the global context".

| property | theorem | file | assumptions |
|---|---|---|---|
| C01 | `C01_register_is_list` | `PropsRegister.v` | closed |
| C01 | `C01_range_register_is_list` | `PropsRegister.v` | closed |
| C01 | `C01_bit_equal_to_index_refuted` | `PropsRegister.v` | closed |
| C02 | `C02_index_inverse` | `PropsRegister.v` | closed |
| C03 | `C03_add` | `PropsRegister.v` | closed |
| C04 | `C04_slice_partial` | `PropsRegister.v` | closed |
| C04 | `C04_slice_refuted` | `PropsRegister.v` | closed |
| C05 | `C05_relabel` | `PropsRegister.v` | closed |
| C05 | `C05_relabel_rejects` | `PropsRegister.v` | closed |
| C05 | `C05_relabel_as_integers` | `PropsRegister.v` | closed |
| C05 | `C05_unknown_key_refuted` | `PropsRegister.v` | closed |
| C06 | `C06_concat` | `PropsRegister.v` | closed |
| C06 | `C06_result_usable_refuted` | `PropsRegister.v` | closed |
| C06 | `C06_result_never_usable` | `PropsRegister.v` | closed |
| C07 | `C07_self_incrementing` | `PropsRegister.v` | closed |
| C07 | `C07_own_variables_refuted` | `PropsRegister.v` | closed |
| C08 | `C08_ids_distinct` | `PropsCounter.v` | closed |
| C08 | `C08_ids_distinct_shipped` | `PropsCounter.v` | closed |
| C08 | `C08_ids_wellformed` | `PropsCounter.v` | closed |
| C08 | `C08_across_reset_refuted` | `PropsCounter.v` | closed |
| C09 | `C09_exhaustion` | `PropsCounter.v` | closed |
| C10 | `C10_equivalence` | `PropsPrim.v` | closed |
| C10 | `C10_hash` | `PropsPrim.v` | closed |
| C10 | `C10_symmetric` | `PropsPrim.v` | closed |
| C10 | `C10_same_object` | `PropsPrim.v` | closed |
| C10 | `C10_lasting` | `PropsPrim.v` | closed |
| C10 | `C10_transitive_refuted` | `PropsPrim.v` | closed |
| C10 | `C10_hash_refuted` | `PropsPrim.v` | closed |
| C11 | `C11_set` | `PropsContext.v` | closed |
| C11 | `C11_reset` | `PropsContext.v` | closed |
| C11 | `C11_sequences` | `PropsContext.v` | closed |
| C11 | `C11_kept` | `PropsContext.v` | closed |
| C12 | `C12_quantum_registers` | `PropsCircuit.v` | closed |
| C12 | `C12_classical_registers` | `PropsCircuit.v` | closed |
| C12 | `C12_classical_registers_with_values` | `PropsCircuit.v` | closed |
| C12 | `C12_set_bit_refuted` | `PropsCircuit.v` | closed |
| C13 | `C13_qubits_partial` | `PropsCircuit.v` | closed |
| C13 | `C13_bits_partial` | `PropsCircuit.v` | closed |
| C13 | `C13_bits_without_values_partial` | `PropsCircuit.v` | closed |
| C13 | `C13_qubits_of_registers_partial` | `PropsCircuit.v` | closed |
| C13 | `C13_dropped_registers_refuted` | `PropsCircuit.v` | closed |
| C13 | `C13_changed_register_refuted` | `PropsCircuit.v` | closed |
| C13 | `C13_set_bit_refuted` | `PropsCircuit.v` | closed |
| C14 | `C14_own_partial` | `PropsReplay.v` | closed |
| C14 | `C14_set_refuted` | `PropsReplay.v` | closed |
| C14 | `C14_reset_refuted` | `PropsReplay.v` | closed |
| C15 | `C15_append` | `PropsContext.v` | closed |
| C15 | `C15_enter` | `PropsContext.v` | closed |
| C15 | `C15_build` | `PropsContext.v` | closed |
| C15 | `C15_unchanged` | `PropsContext.v` | closed |
| C15 | `C15_nothing_to_add_refuted` | `PropsContext.v` | closed |
| C15 | `C15_empty_call_refuted` | `PropsContext.v` | closed |
| C16 | `C16_exit` | `PropsContext.v` | closed |
| C16 | `C16_second_context` | `PropsContext.v` | closed |
| C16 | `C16_inside` | `PropsContext.v` | closed |
| C16 | `C16_balanced_partial` | `PropsContext.v` | closed |
| C16 | `C16_balanced_without_values_partial` | `PropsContext.v` | closed |
| C16 | `C16_released_refuted` | `PropsContext.v` | closed |
| C17 | `C17_order` | `PropsBuild.v` | closed |
| C17 | `C17_context` | `PropsBuild.v` | closed |
| C17 | `C17_frozen_partial` | `PropsBuild.v` | closed |
| C17 | `C17_outside` | `PropsBuild.v` | closed |
| C17 | `C17_once` | `PropsBuild.v` | closed |
| C17 | `C17_nested_freeze_refuted` | `PropsBuild.v` | closed |
| C18 | `C18_replay_partial` | `PropsReplay.v` | closed |
| C18 | `C18_bits_partial` | `PropsReplay.v` | closed |
| C18 | `C18_outside` | `PropsReplay.v` | closed |
| C18 | `C18_itself` | `PropsReplay.v` | closed |
| C18 | `C18_wrong_number` | `PropsReplay.v` | closed |
| C18 | `C18_condition_refuted` | `PropsReplay.v` | closed |
| C18 | `C18_measurement_refuted` | `PropsReplay.v` | closed |
| C18 | `C18_single_bit_refuted` | `PropsReplay.v` | closed |
| C18 | `C18_controls_refuted` | `PropsReplay.v` | closed |
| C19 | `C19_substitutes_partial` | `PropsReplay.v` | closed |
| C19 | `C19_numbers_partial` | `PropsReplay.v` | closed |
| C19 | `C19_own_variables` | `PropsReplay.v` | closed |
| C19 | `C19_too_few` | `PropsReplay.v` | closed |
| C19 | `C19_zero_refuted` | `PropsReplay.v` | closed |
| C19 | `C19_controlled_refuted` | `PropsReplay.v` | closed |
| C19 | `C19_nested_refuted` | `PropsReplay.v` | closed |
| C20 | `C20_unset_partial` | `PropsContext.v` | closed |
| C20 | `C20_exit` | `PropsContext.v` | closed |
| C20 | `C20_too_few_refuted` | `PropsContext.v` | closed |
| C21 | `C21_reset_partial` | `PropsCircuit.v` | closed |
| C21 | `C21_reset_registers_partial` | `PropsCircuit.v` | closed |
| C21 | `C21_qubits_remain_refuted` | `PropsCircuit.v` | closed |
| C21 | `C21_set_bit_refuted` | `PropsCircuit.v` | closed |
| C22 | `C22_find_qubit` | `PropsCircuit.v` | closed |
| C22 | `C22_find_bit` | `PropsCircuit.v` | closed |
| C22 | `C22_get_qubit` | `PropsCircuit.v` | closed |
| C22 | `C22_get_bit` | `PropsCircuit.v` | closed |
| C22 | `C22_false_label_refuted` | `PropsCircuit.v` | closed |
| C23 | `C23_add_qubit_partial` | `PropsCircuit.v` | closed |
| C23 | `C23_add_bit_partial` | `PropsCircuit.v` | closed |
| C23 | `C23_add_qregister` | `PropsCircuit.v` | closed |
| C23 | `C23_add_cregister` | `PropsCircuit.v` | closed |
| C23 | `C23_add_qubit_refuted` | `PropsCircuit.v` | closed |
| C24 | `C24_add_bit_partial` | `PropsCircuit.v` | closed |
| C24 | `C24_zero_bit_refuted` | `PropsCircuit.v` | closed |
| C24 | `C24_second_bit_refuted` | `PropsCircuit.v` | closed |
| C25 | `C25_remove_partial` | `PropsContext.v` | closed |
| C25 | `C25_remove_general` | `PropsContext.v` | closed |
| C25 | `C25_parameters_refuted` | `PropsContext.v` | closed |
| C25 | `C25_itself_refuted` | `PropsEq.v` | closed |
| C26 | `C26_default_qregister_partial` | `PropsCircuit.v` | closed |
| C26 | `C26_default_cregister_partial` | `PropsCircuit.v` | closed |
| C26 | `C26_taken_refuted` | `PropsCircuit.v` | closed |
| C26 | `C26_taken_bits_refuted` | `PropsCircuit.v` | closed |
| C27 | `C27_kernel_is_operator` | `PropsKernel.v` | closed |
| C27 | `C27_operator_on_product_states` | `PropsKernel.v` | closed |
| C27 | `C27_norm_kernel` | `PropsKernel.v` | closed |
| C27 | `C27_circuit_is_ordered_operators` | `PropsSim.v` | closed |
| C28 | `C28_stays_in_bounds` | `PropsKernel.v` | closed |
| C28 | `C28_indices_in_bounds_and_disjoint` | `PropsKernel.v` | closed |
| C28 | `C28_any_order` | `PropsKernel.v` | closed |
| C29 | `C29_simulation_normalised` | `PropsSim.v` | R3 |
| C29 | `C29_library_gates` | `PropsSim.v` | R3 |
| C29 | `C29_mixed_simulation_accepted` | `PropsSim.v` | R3 |
| C30 | `C30_endianness` | `PropsSim.v` | closed |
| C31 | `C31_gate_matrices_unitary` | `PropsGate.v` | R3 |
| C32 | `C32_matrix_is_simulated_action` | `PropsGate.v` | R3 |
| C32 | `C32_decompositions` | `PropsGate.v` | R3 |
| C32 | `C32_matrix_identities` | `PropsGate.v` | R3 |
| C33 | `C33_controlled_blocks` | `PropsGate.v` | R3 |
| C33 | `C33_controlled_any_number` | `PropsGate.v` | R2 |
| C33 | `C33_controlled_in_context_partial` | `PropsGate.v` | R2 |
| C33 | `C33_in_context_refuted` | `PropsGate.v` | R3 |
| C34 | `C34_born_rule_and_collapse` | `PropsSim.v` | R3 |
| C34 | `C34_measuring_again` | `PropsSim.v` | R3 |
| C34 | `C34_measurement_in_circuit` | `PropsSim.v` | R3 |
| C35 | `C35_choice_cannot_fail` | `PropsSim.v` | R3 |
| C36 | `C36_conditional` | `PropsSim.v` | closed |
| C36 | `C36_conditional_mixed` | `PropsSim.v` | closed |
| C37 | `C37_mixed_is_outer_product` | `PropsSim.v` | closed |
| C38 | `C38_density_matrix_partial` | `PropsState.v` | R2 |
| C38 | `C38_density_matrix_refuted` | `PropsState.v` | R3 |
| C39 | `C39_set_state_partial` | `PropsState.v` | R3 |
| C39 | `C39_normalised_vectors` | `PropsState.v` | R3 |
| C39 | `C39_pure_density_matrices` | `PropsState.v` | R3 |
| C39 | `C39_normalize` | `PropsState.v` | R3 |
| C39 | `C39_normalize_zero` | `PropsState.v` | R3 |
| C39 | `C39_density_matrices_refuted` | `PropsState.v` | R3 |
| C40 | `C40_sample` | `PropsSim.v` | R3 |
| C40 | `C40_sample_after_runs_partial` | `PropsSim.v` | R3 |
| C40 | `C40_second_run_refuted` | `PropsSim.v` | R3 |
| C41 | `C41_deterministic_partial` | `PropsSim.v` | closed |
| C41 | `C41_history_refuted` | `PropsSim.v` | R3 |
| C42 | `C42_controlled_unitary` | `PropsUnitary.v` | closed |
| C42 | `C42_default_num_qubits` | `PropsUnitary.v` | closed |
| C42 | `C42_overlap_raises` | `PropsUnitary.v` | closed |
| C42 | `C42_too_large_raises` | `PropsUnitary.v` | closed |
| C42 | `C42_several_targets_raise` | `PropsUnitary.v` | closed |
| C43 | `C43_build_unitary_partial` | `PropsUnitary.v` | closed |
| C43 | `C43_parametric_controlled_refuted` | `PropsUnitary.v` | R3 |
| C43 | `C43_condition_refuted` | `PropsUnitary.v` | closed |
| C44 | `C44_unedited_partial` | `PropsUnitary.v` | closed |
| C44 | `C44_earlier_state_partial` | `PropsUnitary.v` | closed |
| C44 | `C44_stale_refuted` | `PropsUnitary.v` | closed |
| C45 | `C45_by_index_partial` | `PropsCustom.v` | closed |
| C45 | `C45_exactly_when` | `PropsCustom.v` | closed |
| C45 | `C45_exhausted` | `PropsCustom.v` | closed |
| C45 | `C45_used_twice_refuted` | `PropsCustom.v` | R3 |
| C45 | `C45_other_order_refuted` | `PropsCustom.v` | R3 |
| C46 | `C46_mixed_big_endian_partial` | `PropsSim.v` | R3 |
| C46 | `C46_little_endian_refuted` | `PropsSim.v` | R3 |
| C47 | `C47_mixed_measurement_refuted` | `PropsSim.v` | R3 |
| C47 | `C47_measurement_free_partial` | `PropsSim.v` | closed |
| C48 | `C48_operands_partial` | `PropsQasm.v` | closed |
| C48 | `C48_false_label_refuted` | `PropsQasm.v` | closed |
| C48 | `C48_same_text_refuted` | `PropsQasm.v` | closed |
| C48 | `C48_same_label_refuted` | `PropsQasm.v` | closed |
| C49 | `C49_statements_partial` | `PropsQasm.v` | closed |
| C49 | `C49_written` | `PropsQasm.v` | closed |
| C49 | `C49_refused` | `PropsQasm.v` | closed |
| C49 | `C49_measurement_refuted` | `PropsQasm.v` | closed |
| C49 | `C49_conditions_lost` | `PropsQasm.v` | closed |
| C49 | `C49_conditions_refuted` | `PropsQasm.v` | closed |
| C49 | `C49_defined_once_refuted` | `PropsQasm.v` | closed |
| C49 | `C49_made_undefined_refuted` | `PropsQasm.v` | closed |
| C49 | `C49_made_parameters_refuted` | `PropsQasm.v` | closed |
| C50 | `C50_compiled_partial` | `PropsQir.v` | closed |
| C50 | `C50_succeeds` | `PropsQir.v` | closed |
| C50 | `C50_late_gate` | `PropsQir.v` | closed |
| C50 | `C50_identity_refuted` | `PropsQir.v` | closed |
| C50 | `C50_one_each_refuted` | `PropsQir.v` | closed |
| C51 | `C51_numbering_partial` | `PropsQir.v` | closed |
| C51 | `C51_qubits_refuted` | `PropsQir.v` | closed |
| C51 | `C51_bits_refuted` | `PropsQir.v` | closed |
| C52 | `C52_round_trip_partial` | `PropsQir.v` | closed |
| C52 | `C52_registers_refuted` | `PropsQir.v` | closed |
| C52 | `C52_qubits_lost_refuted` | `PropsQir.v` | closed |
| C52 | `C52_measured_refuted` | `PropsQir.v` | closed |
| C52 | `C52_external_refuted` | `PropsQir.v` | closed |
| C52 | `C52_merged_refuted` | `PropsQir.v` | closed |
| C53 | `C53_signature_partial` | `PropsQir.v` | closed |
| C53 | `C53_parametrised` | `PropsQir.v` | closed |
| C53 | `C53_signature_refuted` | `PropsQir.v` | closed |
| C54 | `C54_recompiled_partial` | `PropsQir.v` | closed |
| C54 | `C54_same_partial` | `PropsQir.v` | closed |
| C54 | `C54_history_partial` | `PropsQir.v` | closed |
| C54 | `C54_external_refuted` | `PropsQir.v` | closed |
| C54 | `C54_reset_refuted` | `PropsQir.v` | closed |
| C55 | `C55_inverse` | `PropsQir.v` | closed |
| C55 | `C55_emitted_partial` | `PropsQir.v` | closed |
| C55 | `C55_renamed_refuted` | `PropsQir.v` | closed |
| C56 | `C56_instance` | `PropsMixed.v` | closed |
| C56 | `C56_class` | `PropsMixed.v` | closed |
| C56 | `C56_readonly` | `PropsMixed.v` | closed |
| C56 | `C56_locked` | `PropsMixed.v` | closed |
| C56 | `C56_controlled` | `PropsMixed.v` | closed |
| C56 | `C56_overwritten_refuted` | `PropsMixed.v` | closed |
| C56 | `C56_deleted_refuted` | `PropsMixed.v` | closed |
| C57 | `C57_arity_partial` | `PropsContext.v` | closed |
| C57 | `C57_known_arity_partial` | `PropsContext.v` | closed |
| C57 | `C57_reading_settles` | `PropsContext.v` | closed |
| C57 | `C57_controlled_refuted` | `PropsContext.v` | closed |
| C57 | `C57_reported_partial` | `PropsExport.v` | closed |
| C57 | `C57_reported_refuted` | `PropsExport.v` | closed |
| C57 | `C57_operations_partial` | `PropsLink.v` | closed |
| C57 | `C57_parameters` | `PropsLink.v` | closed |
| C58 | `C58_recorded_refuted` | `PropsContext.v` | closed |
| C58 | `C58_repeated_qubit_refuted` | `PropsSim.v` | R3 |
| C59 | `C59_store` | `PropsContext.v` | closed |
| C59 | `C59_no_qubits` | `PropsContext.v` | closed |
| C60 | `C60_dephase_complete` | `PropsSim.v` | R3 |
| C60 | `C60_amp_damp_complete` | `PropsSim.v` | R3 |
| C61 | `C61_unsupported_partial` | `PropsSim.v` | closed |
| C61 | `C61_three_controls_refuted` | `PropsSim.v` | closed |
| C62 | `C62_pauli` | `PropsGate2.v` | R3 |
| C62 | `C62_rotations` | `PropsGate2.v` | R3 |
| C62 | `C62_rotations_compose` | `PropsGate2.v` | R3 |
| C62 | `C62_roots` | `PropsGate2.v` | R3 |
| C63 | `C63_samples_joint_born` | `PropsSample.v` | R3 |
| C63 | `C63_samples_possible` | `PropsSample.v` | R3 |
| C63 | `C63_measured_in_turn` | `PropsSample.v` | R3 |
| C63 | `C63_marginals` | `PropsSample.v` | R2 |
| C64 | `C64_fraction_of_ones_partial` | `PropsSample.v` | R3 |
| C64 | `C64_certain_outcomes` | `PropsSample.v` | R3 |
| C64 | `C64_errors` | `PropsSample.v` | R3 |
| C64 | `C64_single_index_refuted` | `PropsSample.v` | R3 |
| C65 | `C65_compare_partial` | `PropsSet.v` | closed |
| C65 | `C65_combine` | `PropsSet.v` | closed |
| C65 | `C65_equal_same_position_refuted` | `PropsSet.v` | closed |
| C66 | `C66_copy` | `PropsEval.v` | closed |
| C66 | `C66_copy_succeeds` | `PropsEval.v` | closed |
| C66 | `C66_again` | `PropsEval.v` | closed |
| C66 | `C66_in_place_partial` | `PropsEval.v` | closed |
| C66 | `C66_conditions_partial` | `PropsEval.v` | closed |
| C66 | `C66_in_place_refuted` | `PropsEval.v` | closed |
| C66 | `C66_all_or_nothing_refuted` | `PropsEval.v` | closed |
| C66 | `C66_zero_refuted` | `PropsEval.v` | closed |
| C66 | `C66_conditions_refuted` | `PropsEval.v` | closed |
| C66 | `C66_applied` | `PropsEval.v` | closed |
| C67 | `C67_simulates_partial` | `PropsLink.v` | R3 |
| C67 | `C67_no_qubits_refuted` | `PropsLink.v` | R3 |
| C67 | `C67_three_qubits_refuted` | `PropsLink.v` | R3 |
| C68 | `C68_outcome` | `PropsEq.v` | closed |
| C68 | `C68_reflexive` | `PropsEq.v` | closed |
| C68 | `C68_symmetric_partial` | `PropsEq.v` | closed |
| C68 | `C68_transitive_partial` | `PropsEq.v` | closed |
| C68 | `C68_same_gate` | `PropsEq.v` | R3 |
| C68 | `C68_symmetric_refuted` | `PropsEq.v` | closed |
| C68 | `C68_names_refuted` | `PropsEq.v` | closed |
| C68 | `C68_transitive_refuted` | `PropsEq.v` | closed |
| C68 | `C68_conditions_refuted` | `PropsEq.v` | closed |
| C68 | `C68_bits_refuted` | `PropsEq.v` | closed |
| C68 | `C68_instructions` | `PropsEq.v` | closed |
| C68 | `C68_calls_partial` | `PropsEq.v` | closed |
| C68 | `C68_qubits_refuted` | `PropsEq.v` | closed |
| C68 | `C68_external_refuted` | `PropsEq.v` | closed |
| C68 | `C68_order_refuted` | `PropsEq.v` | closed |
| C69 | `C69_qir_partial` | `PropsExport.v` | closed |
| C69 | `C69_qasm_partial` | `PropsExport.v` | closed |
| C69 | `C69_find` | `PropsExport.v` | closed |
| C69 | `C69_same_place_refuted` | `PropsExport.v` | closed |
| C69 | `C69_shape_refuted` | `PropsExport.v` | closed |
| C70 | `C70_gates` | `PropsQelib.v` | R3 |
| C70 | `C70_means_partial` | `PropsQelib.v` | R3 |
| C70 | `C70_definitions_partial` | `PropsQelib.v` | R3 |
| C70 | `C70_rotation_refuted` | `PropsQelib.v` | R3 |
| C70 | `C70_crotation_refuted` | `PropsQelib.v` | R3 |
| C70 | `C70_controlled_refuted` | `PropsQelib.v` | R3 |
| C70 | `C70_swap_refuted` | `PropsQelib.v` | R3 |
| C71 | `C71_means_partial` | `PropsQirSem.v` | R3 |
| C71 | `C71_registers_refuted` | `PropsQirSem.v` | R3 |
| C71 | `C71_condition_refuted` | `PropsQirSem.v` | R3 |
| C72 | `C72_every_module` | `PropsLoad.v` | closed |
| C72 | `C72_new_partial` | `PropsLoad.v` | closed |
| C72 | `C72_loads_partial` | `PropsLoad.v` | closed |
| C72 | `C72_means_partial` | `PropsLoad.v` | R3 |
| C72 | `C72_round_trip_partial` | `PropsLoad.v` | R3 |
| C72 | `C72_rotation_refused` | `PropsLoad.v` | closed |
| C72 | `C72_order_refuted` | `PropsLoad.v` | R3 |
| C72 | `C72_registers_refuted` | `PropsLoad.v` | closed |
| C72 | `C72_failing_refuted` | `PropsLoad.v` | closed |
| C72 | `C72_untouched_refuted` | `PropsLoad.v` | R3 |
| C72 | `C72_active_refuted` | `PropsLoad.v` | closed |
| C72 | `C72_arity_refuted` | `PropsLoad.v` | closed |
| C72 | `C72_unused_refuted` | `PropsLoad.v` | R1 |
| C73 | `C73_construct` | `PropsMake.v` | closed |
| C73 | `C73_accepted_partial` | `PropsMake.v` | closed |
| C73 | `C73_call` | `PropsMake.v` | closed |
| C73 | `C73_again_partial` | `PropsMake.v` | closed |
| C73 | `C73_condition` | `PropsMake.v` | R3 |
| C73 | `C73_whole_refuted` | `PropsMake.v` | closed |
| C73 | `C73_set_qubits_refuted` | `PropsMake.v` | closed |
| C73 | `C73_undivided_refuted` | `PropsMake.v` | closed |
| C74 | `C74_operator_partial` | `PropsCall.v` | closed |
| C74 | `C74_matrix_partial` | `PropsCall.v` | closed |
| C74 | `C74_called_partial` | `PropsCall.v` | R3 |
| C74 | `C74_parametric_partial` | `PropsCall.v` | R3 |
| C74 | `C74_condition_refuted` | `PropsCall.v` | R3 |
| C74 | `C74_foreign_refuted` | `PropsCall.v` | R3 |
| C74 | `C74_repeated_refuted` | `PropsCall.v` | R3 |
| C75 | `C75_matrix_partial` | `PropsMatrix.v` | R3 |
| C75 | `C75_simulated_partial` | `PropsMatrix.v` | R3 |
| C75 | `C75_called_partial` | `PropsMatrix.v` | R3 |
| C75 | `C75_custom_partial` | `PropsMatrix.v` | R3 |
| C75 | `C75_refused` | `PropsMatrix.v` | R3 |
| C75 | `C75_variable` | `PropsMatrix.v` | R3 |
| C75 | `C75_names` | `PropsMatrix.v` | R1 |
| C75 | `C75_condition_refuted` | `PropsMatrix.v` | R3 |
| C75 | `C75_set_qubits_refuted` | `PropsMatrix.v` | R3 |
| C76 | `C76_programs` | `PropsSession.v` | R3 |
| C76 | `C76_simulates_partial` | `PropsSession.v` | R3 |
| C76 | `C76_little_endian` | `PropsSession.v` | R3 |
| C76 | `C76_little_endian_refused` | `PropsSession.v` | R3 |
| C76 | `C76_mixed` | `PropsSession.v` | R3 |
| C76 | `C76_mixed_refused` | `PropsSession.v` | R3 |
| C76 | `C76_again_refuted` | `PropsSession.v` | R3 |
| C76 | `C76_reset_refuted` | `PropsSession.v` | R3 |
| C77 | `C77_born_partial` | `PropsBorn.v` | R3 |
| C77 | `C77_collapse_partial` | `PropsBorn.v` | R3 |
| C77 | `C77_unmeasured` | `PropsBorn.v` | R3 |
| C77 | `C77_sampled_partial` | `PropsBorn.v` | R3 |
| C77 | `C77_sampled_again_partial` | `PropsBorn.v` | R3 |
| C77 | `C77_again_refuted` | `PropsBorn.v` | R3 |
| C77 | `C77_two_circuits_refuted` | `PropsBorn.v` | R3 |
| C78 | `C78_branches` | `PropsBranch.v` | R3 |
| C78 | `C78_total` | `PropsBranch.v` | R2 |
| C78 | `C78_determined` | `PropsBranch.v` | R2 |
| C78 | `C78_program_partial` | `PropsBranch.v` | R3 |
| C79 | `C79_lawful` | `PropsStates.v` | R3 |
| C79 | `C79_kept` | `PropsStates.v` | R3 |
| C79 | `C79_stays` | `PropsStates.v` | R3 |
| C79 | `C79_no_influence` | `PropsStates.v` | R3 |
| C79 | `C79_failed` | `PropsStates.v` | R3 |
| C79 | `C79_set_partial` | `PropsStates.v` | R3 |
| C79 | `C79_set_normalize_partial` | `PropsStates.v` | R3 |
| C79 | `C79_reset_refuted` | `PropsStates.v` | R3 |
| C79 | `C79_fits_refuted` | `PropsStates.v` | R3 |
| C79 | `C79_refused_refuted` | `PropsStates.v` | R3 |
| C80 | `C80_rewritten` | `PropsRewrite.v` | R3 |
| C80 | `C80_branches` | `PropsRewrite.v` | R2 |
| C80 | `C80_density` | `PropsRewrite.v` | R3 |
| C80 | `C80_identities` | `PropsRewrite.v` | R3 |
| C80 | `C80_disjoint` | `PropsRewrite.v` | R2 |
| C80 | `C80_program_partial` | `PropsRewrite.v` | R3 |
| C80 | `C80_controlled_refuted` | `PropsRewrite.v` | R3 |
| C81 | `C81_simulated` | `PropsOrder.v` | R3 |
| C81 | `C81_branches` | `PropsOrder.v` | R2 |
| C81 | `C81_density` | `PropsOrder.v` | R3 |
| C81 | `C81_program_partial` | `PropsOrder.v` | R3 |
| C81 | `C81_same_numbers_refuted` | `PropsOrder.v` | R3 |
| C82 | `C82_simulated` | `PropsDefer.v` | R3 |
| C82 | `C82_branches` | `PropsDefer.v` | R2 |
| C82 | `C82_repeated` | `PropsDefer.v` | R3 |
| C82 | `C82_program_partial` | `PropsDefer.v` | R3 |
| C82 | `C82_unread_refuted` | `PropsDefer.v` | R3 |
| C83 | `C83_simulated` | `PropsCone.v` | R3 |
| C83 | `C83_chances` | `PropsCone.v` | R2 |
| C83 | `C83_program_partial` | `PropsCone.v` | R3 |
| C83 | `C83_same_numbers_refuted` | `PropsCone.v` | R3 |
| C84 | `C84_keeps` | `PropsKeep.v` | R2 |
| C84 | `C84_library` | `PropsKeep.v` | R3 |
| C84 | `C84_phases` | `PropsKeep.v` | R3 |
| C84 | `C84_program_partial` | `PropsKeep.v` | R3 |
| C84 | `C84_changed_refuted` | `PropsKeep.v` | R3 |
| C85 | `C85_label` | `PropsPrint.v` | closed |
| C85 | `C85_primitives` | `PropsPrint.v` | closed |
| C85 | `C85_value` | `PropsPrint.v` | closed |
| C85 | `C85_objects` | `PropsPrint.v` | closed |
| C85 | `C85_registers` | `PropsPrint.v` | closed |
| C85 | `C85_operations_partial` | `PropsPrint.v` | closed |
| C85 | `C85_measurements_partial` | `PropsPrint.v` | closed |
| C85 | `C85_circuits` | `PropsPrint.v` | closed |
| C85 | `C85_variable_refuted` | `PropsPrint.v` | closed |
| C85 | `C85_parameters_refuted` | `PropsPrint.v` | closed |
| C85 | `C85_measurement_refuted` | `PropsPrint.v` | closed |
| C86 | `C86_sample` | `PropsIndex.v` | R3 |
| C86 | `C86_unmeasured` | `PropsIndex.v` | R3 |
| C86 | `C86_expval` | `PropsIndex.v` | R3 |
| C86 | `C86_from_the_end_refuted` | `PropsIndex.v` | R3 |
| C87 | `C87_effect` | `PropsInverse.v` | R3 |
| C87 | `C87_first` | `PropsInverse.v` | R3 |
| C87 | `C87_simulated` | `PropsInverse.v` | R3 |
| C87 | `C87_removed` | `PropsInverse.v` | R3 |
| C87 | `C87_same_order_refuted` | `PropsInverse.v` | R3 |
| C87 | `C87_program_partial` | `PropsInverse.v` | R3 |
