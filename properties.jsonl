{"id": "C01", "title": "run() applies the gates in call order", "statement": "For a circuit built with valid dimensions and initial levels, after any sequence of valid gate calls and measure_all(), run() returns exactly the basis states with nonzero amplitude, each once, in lexicographic order, with the amplitude obtained by applying the gates one after the other, in call order, to the initial basis state. Merging gates into layers, Kronecker products and matrix products are invisible.", "quantifier": "all register lists (any number of qudits, any dimensions >= 2), all initial levels, all finite sequences of h/x/z/cx/toffoli/gate calls with valid arguments, all scalar rings", "why_tests_cant": "the state space is a product of unboundedly many registers and the layer merging depends on the whole call history; tests sample a handful of circuits", "anchors": ["src/qudiet/core/quantum_circuit.py: QuantumCircuit.run, __add_moment_to_opflow", "src/qudiet/core/operator_flow.py: OperatorFlow.populate_opflow_test, exec", "src/qudiet/core/moment.py: Moment.exec, replace_igate", "src/qudiet/core/output.py: Output.__call__"]}
{"id": "C02", "title": "x(plus) is the cyclic increment of one register", "statement": "x(r, plus=p) with -d <= p < d maps every basis state to the one whose level at register r is (level + p) mod d and leaves all other registers alone. For any other p the call is accepted but run() never returns a result, and it raises exactly IndexError when every other call is valid.", "quantifier": "all register layouts, all registers, all integers plus", "why_tests_cant": "every dimension and every increment must be right; tests try single values", "anchors": ["src/qudiet/circuit_library/standard_gates/x.py: XGate.unitary", "src/qudiet/core/quantum_circuit.py: QuantumCircuit.x"]}
{"id": "C03", "title": "cx adds to the target exactly when the control is at its top level", "statement": "cx((c, t), p) with distinct registers maps a basis state whose control level is d_c - 1 to the state whose target level is (level + p) mod d_t, and fixes every other basis state, whatever the order and distance of c and t and whatever lies between them.", "quantifier": "all register layouts, all pairs of distinct registers in either order, all integers plus", "why_tests_cant": "the matrix is built from truth tables of unbounded width; tests cover two register pairs", "anchors": ["src/qudiet/circuit_library/standard_gates/cx.py: CXGate.unitary, CXGate.update", "src/qudiet/utils/linalg.py: ttg", "src/qudiet/utils/numpy.py: get_index", "src/qudiet/core/quantum_circuit.py: QuantumCircuit.cx"]}
{"id": "C04", "title": "toffoli fires exactly when all controls are at their top level", "statement": "toffoli((controls, t), p) whose registers span at least three positions, t not among the controls, adds p mod d_t to the target level of exactly those basis states whose control levels are all d - 1, and fixes all others.", "quantifier": "all register layouts, all control lists (any length, repetitions and any order allowed), all targets, all integers plus", "why_tests_cant": "number of controls and dimensions are unbounded", "anchors": ["src/qudiet/circuit_library/standard_gates/toffoli_utility.py: toffoli_dm, Toffoli", "src/qudiet/circuit_library/__init__.py: ArbitaryGate.unitary", "src/qudiet/core/quantum_circuit.py: QuantumCircuit.toffoli"]}
{"id": "C05", "title": "Reversible circuits give one outcome with amplitude exactly 1", "statement": "Any circuit made only of x, cx and toffoli calls, started in a basis state, returns exactly one outcome, with amplitude 1, whose label is the classical evaluation of the gates.", "quantifier": "all layouts, initial levels and call sequences over x/cx/toffoli", "why_tests_cant": "needs every call sequence; tests check a few literals", "anchors": ["src/qudiet/core/quantum_circuit.py: QuantumCircuit.run", "src/qudiet/core/output.py: Output.__call__"]}
{"id": "C06", "title": "Placing a gate into an earlier idle slot never changes the result", "statement": "When a single-register gate is merged into the last layer instead of getting a layer of its own, the operator implemented by the layers is the same as if it had been appended; consequently two consecutive gates on disjoint registers may be issued in either order without changing run().", "quantifier": "all circuits reachable by call sequences and all single-register gates", "why_tests_cant": "merging depends on the history of the circuit", "anchors": ["src/qudiet/core/operator_flow.py: OperatorFlow.populate_opflow_test", "src/qudiet/core/moment.py: Moment.replace_igate, get_qreg_moment"]}
{"id": "C07", "title": "Layers always tile the register line", "statement": "After any sequence of API calls, including rejected and raising ones, the first layer is the initial states and every later unmeasured layer covers each register exactly once, in order, with at most one gate per register, and every merged gate sits on the register it was issued for.", "quantifier": "all histories of API calls", "why_tests_cant": "an invariant over unbounded histories", "anchors": ["src/qudiet/core/operator_flow.py: populate_opflow_test", "src/qudiet/core/moment.py: replace_igate", "src/qudiet/core/quantum_circuit.py: __add_moment_to_opflow"]}
{"id": "C08", "title": "measure_all is final", "statement": "After measure_all() on a circuit with at least one register, every further h/x/z/cx/gate call either raises or returns False, and toffoli/measure_all either raise or return True, and in all cases the circuit is unchanged.", "quantifier": "all circuits and all later call sequences", "why_tests_cant": "ranges over all histories", "anchors": ["src/qudiet/core/operator_flow.py: populate_opflow_test", "src/qudiet/core/quantum_circuit.py: measure_all"]}
{"id": "C09", "title": "run() before measure_all() raises AssertionError", "statement": "On a circuit with at least one register, run() raises AssertionError as long as measure_all() has not been called. After measure_all(), for histories without gate() and toffoli() calls, run() never raises AssertionError.", "quantifier": "all histories of API calls", "why_tests_cant": "ranges over all histories", "anchors": ["src/qudiet/core/operator_flow.py: OperatorFlow.exec"]}
{"id": "C10", "title": "Dense and sparse backends agree", "statement": "The same script run with NumpyBackend and with SparseBackend gives the same result: the same list of outcomes, or the same exception.", "quantifier": "all register layouts, all scripts, valid or not", "why_tests_cant": "tests run one script on each backend and assert nothing about equality", "anchors": ["src/qudiet/core/backend/NumpyBackend.py", "src/qudiet/core/backend/SparseBackend.py"]}
{"id": "C11", "title": "Basis-state labels and indices are inverse", "statement": "Nbase_to_bin(bin_to_Nbase(s, base), base) = s for every digit list s valid in base, bin_to_Nbase(Nbase_to_bin(v, base), base) = v for 0 <= v < prod(base), provided prod(base) <= 2^63; Nbase_to_bin of any v >= prod(base) or v < 0 raises IndexError. With an integer base b, digits below b and b^len at most 2^63, bin_to_Nbase gives the value of the digits in base b, most significant first.", "quantifier": "all mixed-radix bases and all indices", "why_tests_cant": "unbounded lengths and 64-bit boundary", "anchors": ["src/qudiet/utils/numpy.py: bin_to_Nbase, Nbase_to_bin"]}
{"id": "C12", "title": "Every outcome label has one digit per register, below its dimension", "statement": "Each label returned by run() has exactly one level per register, each level below that register's dimension, and no label is returned twice; the printed labels are distinct too when every dimension is at most 10.", "quantifier": "all list-form circuits that run successfully", "why_tests_cant": "ranges over all circuits", "anchors": ["src/qudiet/core/output.py: Output.__call__", "src/qudiet/utils/numpy.py: Nbase_to_bin"]}
{"id": "C13", "title": "Printed labels are ambiguous above dimension 10 (defect)", "statement": "There is a circuit whose run() returns two different basis states under the same printed label.", "quantifier": "existential witness; the guard of C12 (every dimension at most 10) is sharp", "why_tests_cant": "no test uses a dimension above 4", "anchors": ["src/qudiet/core/output.py: Output.__call__"]}
{"id": "C14", "title": "Register index too large is rejected", "statement": "x, h, z and gate on a register index >= n raise ValueError, toffoli with such a register raises IndexError, and the circuit is unchanged. cx with one register >= n and the other in 0..n-1 is accepted but run() then never returns a result.", "quantifier": "all circuits, all indices", "why_tests_cant": "unbounded indices and histories", "anchors": ["src/qudiet/core/quantum_circuit.py: __validate_gate_inputs, cx, toffoli", "src/qudiet/circuit_library/standard_gates/cx.py: CXGate.unitary"]}
{"id": "C15", "title": "Negative register indices, and cx beyond the line, are silently ignored (defect)", "statement": "x, h, z and gate on a register index below 0, and cx on two negative registers or on two registers >= n, return True before measure_all(), yet have no effect on any later run() result.", "quantifier": "all circuits, all such indices", "why_tests_cant": "a silent no-op is invisible to tests that do not look for it", "anchors": ["src/qudiet/core/quantum_circuit.py: __validate_gate_inputs, __add_moment_to_opflow"]}
{"id": "C16", "title": "Wrong gate dimension never yields a wrong answer", "statement": "x, h, z and one-register gate() with a dims argument above the dimension of the register raise ValueError and leave the circuit as it was. A dims argument below it (and not 0) is accepted and the call returns True, but then run() raises, whatever is called before and after, and never returns a result; in an otherwise valid program the exception is ValueError. Guard for the second part: every matrix given for three or more registers is square and not larger than the space it covers, and toffoli names no register by a negative index (such matrices can make up for the missing size).", "quantifier": "all circuits, all dims arguments, all histories before and after the call that meet the guard; witnesses show that each part of the guard is needed", "why_tests_cant": "unbounded", "anchors": ["src/qudiet/core/quantum_circuit.py: __validate_gate_inputs", "src/qudiet/core/backend"]}
{"id": "C17", "title": "Constructor validation", "statement": "QuantumCircuit(list) succeeds exactly when every dimension is at least 2, there are at most as many initial levels as registers, and each given level s satisfies -d <= s < d; missing levels default to 0; a dimension below 2 or a level above the dimension raises ValueError, a level equal to the dimension or below -d raises IndexError, too many levels raises IndexError.", "quantifier": "all lists of dimensions and levels", "why_tests_cant": "unbounded argument space", "anchors": ["src/qudiet/core/quantum_circuit.py: QuantumCircuit.__init__", "src/qudiet/core/init_states.py: InitState.__init__"]}
{"id": "C18", "title": "Negative initial levels wrap around (defect)", "statement": "An initial level s with -d <= s < 0 is accepted and means level d + s.", "quantifier": "all circuits", "why_tests_cant": "no test passes a negative level", "anchors": ["src/qudiet/core/init_states.py: InitState.__init__"]}
{"id": "C19", "title": "The constructor writes to the caller's init_states list (defect)", "statement": "A nonempty init_states list shorter than the register is extended in place by the constructor; building a second circuit with fewer registers from the same list object then raises IndexError, although building it first succeeds.", "quantifier": "all nonempty lists shorter than the register", "why_tests_cant": "aliasing across two constructor calls, never exercised by tests", "anchors": ["src/qudiet/core/quantum_circuit.py: QuantumCircuit.__init__ (line 102, 121)"]}
{"id": "C20", "title": "Tuple form of qregs is not equivalent to the list form (defect)", "statement": "QuantumCircuit((n, d)) is documented as n qudits of dimension d, but its outcome labels have two digits in base (n, d) instead of n digits in base d: for n >= 3 the all-zero state of every measured empty circuit is labelled |00>, and outcomes with index >= n*d raise IndexError.", "quantifier": "all n and d", "why_tests_cant": "no test uses the tuple form", "anchors": ["src/qudiet/core/quantum_circuit.py: QuantumCircuit.__init__", "src/qudiet/core/output.py: Output"]}
{"id": "C21", "title": "Depth bookkeeping", "statement": "get_circuit_config()['depth'] and get_circuit_info()['depth'] agree on list-form circuits with at least one register and equal the number of gate layers; every gate call raises the depth by 0 or 1, and a single-register gate leaves it unchanged exactly when the last layer is idle on its register.", "quantifier": "all histories of API calls", "why_tests_cant": "histories", "anchors": ["src/qudiet/core/quantum_circuit.py: get_circuit_config, get_circuit_info"]}
{"id": "C22", "title": "Gate counts are exact", "statement": "For a list-form circuit, get_circuit_info() reports for each gate kind exactly the number of calls of that kind that were accepted on valid registers before measurement; rejected, raising and ignored calls are not counted; gate_count is their sum and kinds with zero calls are absent; the entries come in the order h, x, z, cx, toffoli, arbitary.", "quantifier": "all histories of API calls", "why_tests_cant": "histories", "anchors": ["src/qudiet/core/quantum_circuit.py: get_circuit_info"]}
{"id": "C23", "title": "h on level 0 gives the uniform superposition; h twice undoes it", "statement": "For every dimension d, h on a register at level 0 gives amplitude 1/sqrt(d) at every level of that register, and a second h returns level 0 with amplitude 1.", "quantifier": "all dimensions, all registers, whatever order numpy returns the roots of unity in (as long as 1 is last)", "why_tests_cant": "tests check d = 2 only", "anchors": ["src/qudiet/circuit_library/standard_gates/h.py: HGate.unitary"]}
{"id": "C24", "title": "h is unitary for qubits and qutrits", "statement": "The h matrix for d = 2 and d = 3 is unitary and is the discrete Fourier matrix (for d = 3 up to the choice of primitive root).", "quantifier": "all admissible root orders", "why_tests_cant": "order of the roots is unspecified", "anchors": ["src/qudiet/circuit_library/standard_gates/h.py: HGate.unitary"]}
{"id": "C25", "title": "h is not unitary for ququarts (defect)", "statement": "For d = 4 the h matrix is not unitary, in whatever order the roots of unity are returned; a circuit exists whose outcome probabilities do not sum to 1.", "quantifier": "all orderings of the 4th roots of unity", "why_tests_cant": "the test for d = 4 only asserts a nonempty result", "anchors": ["src/qudiet/circuit_library/standard_gates/h.py: HGate.unitary"]}
{"id": "C26", "title": "z multiplies each level by a d-th root of unity", "statement": "z on a register of dimension d multiplies the amplitude of each basis state by a d-th root of unity depending only on the level of that register, distinct levels getting distinct roots; d applications are the identity; with the root 1 returned last, level 0 gets a phase different from 1 (defect: z does not fix level 0).", "quantifier": "all dimensions and root orders", "why_tests_cant": "tests never inspect z amplitudes", "anchors": ["src/qudiet/circuit_library/standard_gates/z.py: ZGate.unitary"]}
{"id": "C27", "title": "Total probability is 1", "statement": "Over the complex numbers, any circuit of x, z, cx, toffoli, h on registers of dimension 2 or 3, and arbitrary gates whose matrix is exactly unitary yields outcomes whose squared moduli sum to 1.", "quantifier": "all layouts, initial levels and such call sequences", "why_tests_cant": "unbounded circuits", "anchors": ["src/qudiet/core/quantum_circuit.py: QuantumCircuit.run"]}
{"id": "C28", "title": "Probability output is the square, not the squared modulus (defect)", "statement": "With OutputMethod.probability the reported number is amplitude**2; for real amplitudes this is the probability, but there is a one-gate qutrit circuit whose reported numbers are not real.", "quantifier": "all results; witness circuit", "why_tests_cant": "tests only use amplitude output", "anchors": ["src/qudiet/core/output.py: Output.__call__"]}
{"id": "C29", "title": "Inverse gates cancel", "statement": "x(r, p) followed by x(r, -p), and cx((c,t), p) followed by cx((c,t), -p), and toffoli with p then -p, leave every result unchanged wherever they are inserted in a circuit.", "quantifier": "all circuits and insertion points", "why_tests_cant": "unbounded", "anchors": ["src/qudiet/core/quantum_circuit.py: x, cx, toffoli"]}
{"id": "C30", "title": "Toffoli whose target is also a control is rejected at run", "statement": "toffoli with the target among the controls and p not divisible by d_t makes run() raise, never return a result.", "quantifier": "all layouts, control lists and increments", "why_tests_cant": "never tested", "anchors": ["src/qudiet/circuit_library/standard_gates/toffoli_utility.py: toffoli_dm", "src/qudiet/circuit_library/__init__.py: ArbitaryGate.unitary"]}
{"id": "C31", "title": "cx with control = target is accepted and is not reversible (defect)", "statement": "cx((r, r), p) with p not divisible by d_r is accepted, run() succeeds, and two different basis inputs give the same output.", "quantifier": "all layouts, registers and increments", "why_tests_cant": "never tested", "anchors": ["src/qudiet/circuit_library/standard_gates/cx.py: CXGate.unitary"]}
{"id": "C32", "title": "Single-register arbitrary gates act as their matrix", "statement": "gate(G, r) with a unitary d x d matrix acts on register r as that matrix and as the identity elsewhere; a non-unitary matrix or a wrong shape makes run() raise.", "quantifier": "all layouts, registers and matrices", "why_tests_cant": "unbounded", "anchors": ["src/qudiet/core/quantum_circuit.py: gate", "src/qudiet/circuit_library/__init__.py: ArbitaryGate.unitary"]}
{"id": "C33", "title": "Two-register arbitrary gates and one-control toffolis always fail (defect)", "statement": "After gate(G, [a, b]) on two registers (default dims), or toffoli over exactly two adjacent registers, run() always raises, whatever the matrix.", "quantifier": "all layouts, registers, matrices", "why_tests_cant": "never tested", "anchors": ["src/qudiet/circuit_library/__init__.py: ArbitaryGate.unitary (line 85)"]}
{"id": "C34", "title": "Multi-register arbitrary gates ignore the order of their register list (defect)", "statement": "gate(G, l) for a list l of three or more registers (default dims) behaves the same for every list with the same set of registers and the same length: the matrix is always applied to the contiguous span in ascending order.", "quantifier": "all layouts and permutations", "why_tests_cant": "never tested", "anchors": ["src/qudiet/core/quantum_circuit.py: gate, __add_moment_to_opflow"]}
{"id": "C35", "title": "run() is repeatable", "statement": "Calling run() any number of times returns the same result and leaves the circuit unchanged; running between gate calls does not affect later results.", "quantifier": "all histories with interleaved run() calls", "why_tests_cant": "histories; a FIXIT comment records that it once failed", "anchors": ["src/qudiet/core/quantum_circuit.py: run", "src/qudiet/core/operator_flow.py: exec"]}
{"id": "C36", "title": "Layer objects form a consistent doubly linked list", "statement": "After any history, the layers are named Moment0, Moment1, ... in order, each layer's prev/next pointers name its neighbours, and only the ends have none.", "quantifier": "all histories", "why_tests_cant": "histories", "anchors": ["src/qudiet/core/operator_flow.py: populate_opflow_test", "src/qudiet/core/moment.py: Moment"]}
{"id": "C37", "title": "QASM text and API calls build the same circuit", "statement": "circuit_from_qasm of a well-formed text (header, .qudit/.qubit/.qutrit line, declarations, .begin, one gate per line, .end) yields the same circuit state as issuing the corresponding API calls in order followed by measure_all(), on registers of the declared dimensions with the second register of every Toffoli line given one more level (C39).", "quantifier": "all register declarations and all gate sequences over X, H, Z, CX/CNOT, Toffoli in the documented syntax", "why_tests_cant": "texts are unbounded strings processed by six regular expressions", "anchors": ["src/qudiet/qasm/qasm_parser.py: circuit_from_qasm"]}
{"id": "C38", "title": "QASM ignores what it does not recognise", "statement": "A gate line that starts with none of X, RX...180, H, Z, CX, CNOT, Toffoli (comments, lower-case gates, other gates) leaves the circuit unchanged and no error is reported.", "quantifier": "all lines", "why_tests_cant": "unbounded strings", "anchors": ["src/qudiet/qasm/qasm_parser.py: circuit_from_qasm (lines 85-119)"]}
{"id": "C39", "title": "QASM Toffoli on qubits does not compute AND (defect)", "statement": "The register in the second position of a Toffoli line has its dimension raised by one, and the gate fires at the raised top level: for the text with qubits x0 x1 x2, X x0, X x1, Toffoli x0, x1, x2 the result is |110>, not |111>.", "quantifier": "witness, plus the general rule for which dimensions are raised", "why_tests_cant": "the only test compares the parser with itself", "anchors": ["src/qudiet/qasm/qasm_parser.py: circuit_from_qasm (lines 61-82)"]}
{"id": "C40", "title": "QASM increments are misread (defect)", "statement": "'RX xk 180' is turned into an increment of 180, so run() raises IndexError unless the dimension exceeds 180, and the sign of a CX increment is dropped ('CX x0 x1 -1' adds 1).", "quantifier": "all circuits containing such a line; all increments", "why_tests_cant": "the shipped testbench contains 804 such lines, but no test runs them", "anchors": ["src/qudiet/qasm/qasm_parser.py (lines 86-93, 108-112)"]}
{"id": "C41", "title": "QASM section markers must start a line", "statement": "A text in which the three section markers do not each directly follow a newline makes circuit_from_qasm raise IndexError; in particular the indented README example does.", "quantifier": "all texts with fewer than three line-initial markers", "why_tests_cant": "unbounded strings", "anchors": ["src/qudiet/qasm/qasm_parser.py: circuit_from_qasm (lines 42-49)", "README.md"]}
{"id": "C42", "title": "The text drawing shows each gate in its row and column", "statement": "str(circuit) has one line per register plus a summary; the cell of register r in layer j shows the gate acting there (control *, target X(p), passage |, H, Z, M), idle cells and arbitrary gates show -----, and all lines have equal length when dimensions are at most 9, initial levels are not negative and increments have at most two characters (a dimension of 10 spoils the alignment).", "quantifier": "all list-form histories whose cx and toffoli registers are on the line", "why_tests_cant": "unbounded drawings", "anchors": ["src/qudiet/core/quantum_circuit.py: QuantumCircuit.__str__"]}
{"id": "C43", "title": "The matplotlib drawing mislabels shifted gates (defect)", "statement": "draw(style='mpl') looks up the target dimension of cx and toffoli with an absolute register index in a relative list: a cx whose lowest register is not 0 makes drawing raise IndexError; a toffoli with lowest register m and target t shows the dimension of register m + t, or raises IndexError if that lies above its highest register; when every lowest register is 0 the figure is right. A circuit without any gate layer cannot be drawn (IndexError).", "quantifier": "all layouts and gates", "why_tests_cant": "drawing is never tested", "anchors": ["src/qudiet/utility/circuit_draw.py: _draw_cnot_gate, _draw_toffoli_gate"]}
{"id": "C44", "title": "Tree decomposition computes the n-qubit Toffoli", "statement": "RUN_CIRC(n, bits) prints the outcome in which the last bit is flipped exactly when all other bits are 1 and every other register is back at its initial level, for every n >= 3; without bits the input is all ones. Missing bits count as 0; more than n bits raise IndexError.", "quantifier": "all n >= 3 and all bit strings of any length", "why_tests_cant": "the test samples random inputs for n up to 12", "anchors": ["test_circuit/circuit.py: Circuit.simulate, make_gates, get_reflection, inorder_traversal", "test_circuit/useQudiet.py: RUN_CIRC"]}
{"id": "C45", "title": "Tree decomposition uses every node once and maps nodes bijectively to wires", "statement": "The in-order mapping is a bijection from tree nodes 1..n to wires 0..n-1: a node comes after its left subtree and before its right one, and the target keeps the last wire. The sets of qubits, qutrits and ququads partition the nodes: two levels for the target and the left leaves, four for right children with children, three for the rest.", "quantifier": "all n >= 3", "why_tests_cant": "unbounded", "anchors": ["test_circuit/circuit.py: inorder_traversal, simulate"]}
{"id": "C46", "title": "Gate-count formulas", "statement": "The ternary and quaternary counters of the tree decomposition equal the closed formulas of mathematical_expectation for every n >= 3; the qubit and ququad formulas are right and the qutrit formula is right exactly when n is even (defect for odd n).", "quantifier": "all n >= 3", "why_tests_cant": "unbounded", "anchors": ["test_circuit/main.py: mathematical_expectation", "test_circuit/circuit.py: simulate"]}
{"id": "C47", "title": "weak_compare cannot tell equal-length circuits apart (defect)", "statement": "weak_compare returns None for any two circuits with the same number of layers, however different. For circuits of different length it never returns None if both are measured, and a returned layer number is that of the first layer created with different gate classes or matrix shapes (gates merged into a layer later are not looked at).", "quantifier": "all pairs of circuits", "why_tests_cant": "never tested", "anchors": ["src/qudiet/utils/debug.py: weak_compare"]}
{"id": "C48", "title": "Tuple circuits misreport their width (defect)", "statement": "For a circuit built from a tuple (n, d), get_circuit_config()['width'] is the tuple itself and get_circuit_info()['qudit'] is the length of the tuple, whatever n is; get_circuit_config()['depth'] is still the number of gate layers, and get_circuit_info()['depth'] counts the measurement layer too exactly when the tuple is longer than n (a single register).", "quantifier": "all tuple-form histories with at least one register", "why_tests_cant": "histories", "anchors": ["src/qudiet/core/quantum_circuit.py: get_circuit_config, get_circuit_info"]}
{"id": "C49", "title": "Gate labels of the tree decomposition disagree with its counters (defect)", "statement": "The numbers of gates labelled Ternary and Quaternary in the decomposition returned by Circuit.simulate equal its two counters unless n-1 >= 4 and (n-1) mod 4 < 2; in that case four gates counted as ternary carry the label Quaternary, because a bound method is passed where its result is meant.", "quantifier": "all n >= 3", "why_tests_cant": "labels are never compared with the counters", "anchors": ["test_circuit/circuit.py: simulate, make_gates, gpll_has_right_grandchild"]}
{"id": "C50", "title": "Tree decomposition of fewer than three lines raises", "statement": "RUN_CIRC(n, bits) raises ValueError for n <= 1 and IndexError for n = 2, whatever the bits.", "quantifier": "all n <= 2 and all inputs", "why_tests_cant": "the tests start at n = 3", "anchors": ["test_circuit/circuit.py: Circuit.__init__, simulate"]}
{"id": "C51", "title": "circuit_output keeps the last result", "statement": "After any mix of gate calls and runs, circuit_output is the value returned by the last run() that returned normally, and None if there was none; gate calls and failing runs do not change it.", "quantifier": "all circuits, all sequences of gate calls and runs with any backend", "why_tests_cant": "unbounded sequences", "anchors": ["src/qudiet/core/quantum_circuit.py: __init__, run"]}
{"id": "C52", "title": "Every QASM gate line makes one call, is skipped, or raises", "statement": "For any gate line that is not a Toffoli line, the first letters select x, h, z, cx or nothing; the registers are the first numbers in the second (and third) word, the increment of X is the third of exactly three words read as a Python integer, that of CX the first number in the fourth of exactly four words. A missing word or a word without digits raises IndexError, an increment of X that is not an integer raises ValueError (so a one-word trailing comment raises and a two-word one does not). circuit_from_qasm builds the circuit of the calls in line order and raises at the first line that raises.", "quantifier": "all line-structured texts, all gate lines other than Toffoli lines, Toffoli lines with two controls", "why_tests_cant": "unbounded texts; the tests use three fixed files", "anchors": ["src/qudiet/qasm/qasm_parser.py: circuit_from_qasm"]}
{"id": "C53", "title": "QASM Toffoli takes exactly two controls (defect)", "statement": "A text with a Toffoli line that lists any number of registers other than three, or that does not begin with two controls and a target written x<n>, raises ValueError, whatever its other gate lines are; the API's toffoli takes any number of controls.", "quantifier": "all line-structured texts, all register lists, all malformed Toffoli lines", "why_tests_cant": "unbounded texts; the tests only use three registers", "anchors": ["src/qudiet/qasm/qasm_parser.py: circuit_from_qasm"]}
{"id": "C54", "title": "QASM register count and register names are not checked (defect)", "statement": "Only the sequence of declared dimensions and the gate lines decide what circuit_from_qasm returns or raises: the header, the footer, the kind and count in the .qubit/.qutrit/.qudit line and the names of the declared registers make no difference, even if the count is wrong or a name is declared twice.", "quantifier": "all pairs of line-structured texts with the same dimensions and gate lines, including malformed gate lines", "why_tests_cant": "relates all pairs of texts", "anchors": ["src/qudiet/qasm/qasm_parser.py: circuit_from_qasm"]}
{"id": "C55", "title": "What the gates of the tree decomposition say about their registers", "statement": "Every gate in the levels returned by Circuit.simulate except the one on the main target goes from a left child to its right sibling or from a child to its parent, and occurs with sign + and with sign -. Its control state is the top level of the control's register and the target state of a sibling gate is the dimension of the target's register, except (defect) that both are one too large, i.e. name a level the register does not have, for node 2*((n-1)//4)+1 when that node has no children. A gate is labelled Quaternary exactly when its target state is 4 or its control state is 3.", "quantifier": "all n >= 3, all gates of the decomposition", "why_tests_cant": "unbounded n; the printed states are never compared with the registers", "anchors": ["test_circuit/circuit.py: make_gates, get_reflection, simulate", "test_circuit/useQudiet.py: RUN_CIRC"]}
{"id": "C56", "title": "Registers that are only controls keep their level", "statement": "In every outcome of run(), a register that no x, h or single-register matrix gate acts on and that is no cx or toffoli target has the level it was initialised with, whatever else the circuit does.", "quantifier": "all registers, initial levels, programs of valid calls, both backends, exact scalars", "why_tests_cant": "unbounded programs and dimensions", "anchors": ["src/qudiet/core/quantum_circuit.py: cx, toffoli, z, run", "src/qudiet/circuit_library/standard_gates/cx.py: CXGate", "src/qudiet/circuit_library/standard_gates/toffoli_utility.py: Toffoli"]}
{"id": "C57", "title": "Increments add up", "statement": "Two x calls in a row on one register, two cx calls with the same control and target, or two toffoli calls with the same controls and target, can be replaced by one call with an increment congruent to the sum modulo the dimension of the changed register, without changing what run() returns; as many copies in a row of one such call as that register has levels do nothing.", "quantifier": "all surrounding programs, dimensions, increments (negative ones too), both backends, exact scalars", "why_tests_cant": "unbounded programs, dimensions and increments", "anchors": ["src/qudiet/circuit_library/standard_gates/x.py: XGate", "src/qudiet/circuit_library/standard_gates/cx.py: CXGate", "src/qudiet/circuit_library/standard_gates/toffoli_utility.py: Toffoli"]}
{"id": "C58", "title": "Independent parts multiply", "statement": "If the gates of a circuit are an interleaving of gates on the first m registers and gates on the others, then run() returns every pair of outcomes of the two parts run on their own, in lexicographic order, with the product of their amplitudes, products that are zero left out.", "quantifier": "all pairs of programs and all interleavings of them, dimensions, initial levels, both backends, exact scalars", "why_tests_cant": "relates three runs for unbounded programs", "anchors": ["src/qudiet/core/quantum_circuit.py: run", "src/qudiet/core/moment.py: exec"]}
{"id": "C59", "title": "Depth of a program", "statement": "get_circuit_config reports for a circuit of valid calls the depth of greedy layering against the last layer only: an h, x or z joins the last layer exactly when its register is free in it and every other gate opens a layer, in which it takes all registers between its lowest and its highest one. measure_all and the calls after it do not change the depth.", "quantifier": "all dimensions, initial levels, programs of valid calls, optional measure_all and any later calls", "why_tests_cant": "unbounded programs; the depth is never tested", "anchors": ["src/qudiet/core/quantum_circuit.py: get_circuit_config, h, x, z, cx, toffoli", "src/qudiet/core/operator_flow.py: OperatorFlow"]}
{"id": "C60", "title": "The tree decomposition is shallow, the circuit built from it is not (defect)", "statement": "Circuit(n, ..).simulate returns 2*D+1 levels, D the floored logarithm of n-1, and gates of different pairs in one level share no node, so each level could run at once; but the 2n-3 cx calls RUN_CIRC makes of them give a circuit of depth 2n-3.", "quantifier": "all n >= 3, all initial bits", "why_tests_cant": "unbounded n; depth is never compared", "anchors": ["test_circuit/circuit.py: simulate", "test_circuit/useQudiet.py: RUN_CIRC", "src/qudiet/core/quantum_circuit.py: cx"]}
{"id": "C61", "title": "Which files the license check reports", "statement": "scripts/license-headers.py check reports exactly those visited files whose name ends in .py or .pyi, that lie in no directory starting with '.' or '__', and whose lines are not: preamble lines, then the whole header of this year or (at the end of the file) a non-empty beginning of it. The exit status is 1 if a file is reported and 0 otherwise.", "quantifier": "all years, command lines, and file contents", "why_tests_cant": "unbounded file contents and paths; the script has no tests", "anchors": ["scripts/license-headers.py: find_files_to_fix, does_file_need_fix"]}
{"id": "C62", "title": "After the license fix the check passes", "statement": "fix puts the header once, behind preamble lines, into exactly the files check reports, even if a file is named several times, and leaves all others alone; afterwards check reports nothing and exits with 0, and a second fix changes nothing. Every line of the header is a comment except the empty last one, and a fixed file names the package, the year and the license AGPL-3.0.", "quantifier": "all years, command lines, and file contents", "why_tests_cant": "unbounded file contents; the script has no tests", "anchors": ["scripts/license-headers.py: add_header_to_file, main"]}
{"id": "C63", "title": "License headers double each year (defect)", "statement": "In any other year fix puts a new header before the existing one instead of replacing it. A file of preamble lines only gets the header before the last of them, so that a lone interpreter line no longer comes first. Arguments that do not exist pass the check with status 0.", "quantifier": "all pairs of different years, command lines, and file contents", "why_tests_cant": "depends on the date; the script has no tests", "anchors": ["scripts/license-headers.py: license_header_lines, does_file_need_fix, add_header_to_file, main"]}
{"id": "C64", "title": "populate_opflow loses gates after a merge (defect)", "statement": "Given several moments without h, x, z and measurements, populate_opflow appends them all and returns True. But once the first h, x or z gate of a moment fits into the last layer, the other gates of its moment and all later moments are dropped, and True is returned. A new flow, and one filled with layers none of which measures, raises AssertionError when it is executed.", "quantifier": "all operator flows with an unmeasured register, all lists of moments", "why_tests_cant": "the library only ever passes moments with one such gate; unbounded lists", "anchors": ["src/qudiet/core/operator_flow.py: populate_opflow"]}
{"id": "C65", "title": "gate() on a list of at most one register", "statement": "gate(U, [r], dims) returns or raises what gate(U, r, dims) does, and every program that goes on from there has the same result. gate(U, [], dims) raises ValueError.", "quantifier": "all circuits reached by any calls, all matrices, registers, dimensions, later calls, and backends", "why_tests_cant": "unbounded histories", "anchors": ["src/qudiet/core/quantum_circuit.py: gate, __add_moment_to_opflow, __validate_gate_inputs"]}
{"id": "C66", "title": "Reversible gates move outcomes", "statement": "Appending x, cx (between two registers) and toffoli calls to a program moves every outcome to the place these gates send it to and keeps its amplitude; nothing is added or lost. In particular three cx calls between two qubits exchange the two.", "quantifier": "all dimensions, initial levels, programs with any gates, reversible continuations, outputs, both backends", "why_tests_cant": "unbounded programs and superpositions; the tests move single basis states", "anchors": ["src/qudiet/core/quantum_circuit.py: x, cx, toffoli, run", "src/qudiet/core/operator_flow.py: exec"]}
{"id": "C67", "title": "A spare level replaces an ancilla", "statement": "If no outcome of a program has register b at its top level, then cx(a,b) by 1, cx(b,t) by p, cx(a,b) by -1 (modulo the dimension of b) shifts t by p exactly in the outcomes with a at its top level and b one below its top level, and leaves everything else, b included, as it was.", "quantifier": "all dimensions, registers, programs, increments, both backends", "why_tests_cant": "unbounded programs; the tests use one input", "anchors": ["src/qudiet/core/quantum_circuit.py: cx", "test/test_backend.py"]}
{"id": "C68", "title": "A reversible start is an initial state", "statement": "A program that starts with x, cx and toffoli calls gives the same result as the rest of it on a circuit initialised with the levels these calls lead to.", "quantifier": "all dimensions, initial levels, programs, both backends", "why_tests_cant": "unbounded programs", "anchors": ["src/qudiet/core/quantum_circuit.py: __init__, x, cx, toffoli", "src/qudiet/core/init_states.py: InitState"]}
{"id": "C69", "title": "The controls of a Toffoli gate are a set", "statement": "Naming the controls of a toffoli call in another order or several times changes nothing, and a toffoli with one control at least two registers away is a cx.", "quantifier": "all dimensions, controls, targets, increments, surrounding programs, both backends", "why_tests_cant": "unbounded lists of controls", "anchors": ["src/qudiet/circuit_library/standard_gates/toffoli_utility.py: toffoli_dm", "src/qudiet/core/quantum_circuit.py: toffoli, cx"]}
{"id": "C70", "title": "Registers nobody changes keep their distribution", "statement": "Over the complex numbers, appending calls whose matrices are exactly unitary and which do not change the registers rs (they may use them as controls, and z may act on them) leaves the probability of every statement about the levels of rs as it was.", "quantifier": "all dimensions, initial levels, programs, sets of registers, statements about their levels, both backends", "why_tests_cant": "unbounded programs and superpositions; no test looks at probabilities of single registers", "anchors": ["src/qudiet/core/quantum_circuit.py: h, x, z, cx, toffoli, run", "src/qudiet/core/operator_flow.py: exec"]}
{"id": "C71", "title": "Runs keep their overlap", "statement": "Over the complex numbers, appending the same exactly unitary calls to two runs on one line of registers leaves their inner product as it was; in particular one program started in different levels gives orthogonal results.", "quantifier": "all dimensions, pairs of initial levels, programs, both backends", "why_tests_cant": "pairs of runs; no test compares two runs", "anchors": ["src/qudiet/core/quantum_circuit.py: run", "src/qudiet/core/operator_flow.py: exec"]}
{"id": "C72", "title": "Registers can be renamed", "statement": "A circuit with its registers in another order, and calls naming them accordingly, has the same outcomes with the levels in that order and the same amplitudes.", "quantifier": "all dimensions, initial levels, permutations of the registers, programs (an arbitrary gate on several registers must keep them together), both backends", "why_tests_cant": "all permutations; the tests never compare two orders", "anchors": ["src/qudiet/core/quantum_circuit.py: __init__, h, x, z, cx, toffoli, gate", "src/qudiet/core/moment.py: exec"]}
{"id": "C73", "title": "The generated tests of the tree decomposition pass", "statement": "For sizes from 3 on, generateTestCases returns one test per random draw and two fixed tests per size, and the assertion of generateTest holds for each of them, whatever was drawn; for a size below 3 both fixed tests fail. The outcomes listed in main.py, which it never compares, are right too.", "quantifier": "all random draws, all ranges of sizes, both backends", "why_tests_cant": "the tests draw a few random inputs; this covers all draws and all sizes", "anchors": ["test_circuit/test_useQudiet.py: generateTestCases, generateTest", "test_circuit/main.py: d"]}
{"id": "C74", "title": "The check of the gate and line counts never fires (defect)", "statement": "The runner of main.py reports a mismatch only if all five counts differ from the expected ones; the number of ternary gates always agrees, so nothing is ever reported, although for odd sizes the number of qutrits differs from the expected one.", "quantifier": "all sizes from 3 on", "why_tests_cant": "a check that never fires looks the same as one that passes", "anchors": ["test_circuit/main.py: runner, mathematical_expectation"]}
{"id": "C75", "title": "What a batch run leaves on disk", "statement": "After a batch run over the files with extension txt or qasm, every file that can be read and run has its outcomes and its configuration saved as NAME-SUFFIX.pkl; a file that raises leaves an older result in place; no other file, and no source, is changed; both backends save the same. Files a.txt and a.qasm share one result name, and any other mode, such as the documented json, writes nothing.", "quantifier": "all sets of files, contents of the disk, names, suffixes, both backends", "why_tests_cant": "the script is not tested; all contents and all orders of files", "anchors": ["experimental.py: main, routine"]}
{"id": "C76", "title": "Examples of the README do not do what they say (defect)", "statement": "The call cx([a, b], r), documented as a gate with controls a and b and target r, never changes register r: it adds r to b when a is at its top level; so whenever the documented gate would do anything, the outcome is a different one. A QASM text none of whose lines starts with a dot, like the indented text of the README, raises IndexError.", "quantifier": "all dimensions up to 10 (labels are ambiguous above), levels, distinct registers, both backends; all texts", "why_tests_cant": "the tests do not run the examples of the README", "anchors": ["README.md: A 3-Qudit Example, Run from QASM", "src/qudiet/core/quantum_circuit.py: cx", "src/qudiet/qasm/qasm_parser.py: circuit_from_qasm"]}
{"id": "C77", "title": "Compatible gates may be reordered", "statement": "If a program is obtained from another by exchanging neighbouring calls whose gates are compatible (neither touches a register the other changes, or both are increments of the same register), running the two gives the same answer, amplitudes and order of outcomes included.", "quantifier": "all dimensions, levels, programs, numbers of exchanges, output types, both backends", "why_tests_cant": "exchanging gates changes how they are packed into moments, so any program order exercises different layers", "anchors": ["src/qudiet/core/quantum_circuit.py: x, z, h, cx, toffoli", "src/qudiet/core/operator_flow.py: populate, opflow_list"]}
{"id": "C78", "title": "GHZ states", "statement": "On any number n of qubits started at level 0, h(0) followed by cx([i, i+1]) for i = 0, ..., n-2 gives exactly the two outcomes 0...0 and 1...1, in this order, each with amplitude 1/sqrt(2).", "quantifier": "all numbers of qubits, output types, ways to give the levels, both backends", "why_tests_cant": "entangled states on any number of qubits; tests compare a few circuits of fixed size", "anchors": ["src/qudiet/core/quantum_circuit.py: h, cx, run", "src/qudiet/core/operator_flow.py: populate, opflow_list", "src/qudiet/circuit_library/standard_gates/h.py", "src/qudiet/circuit_library/standard_gates/cx.py"]}
{"id": "C79", "title": "Hidden parities are found (Bernstein-Vazirani)", "statement": "On n+1 qubits: an x on the last one, an h on all of them, any list of cx gates from the first n qubits to the last, and again an h on all of them give a single outcome with amplitude 1, in which the level of each of the first n qubits is its start level plus the number of times it was a control, modulo 2.", "quantifier": "all numbers of qubits, lists of controls, start levels of the first n qubits, output types, both backends; root finder with the root 1 last in dimension 2", "why_tests_cant": "interference of 2^n amplitudes for every n and every list of controls", "anchors": ["src/qudiet/core/quantum_circuit.py: x, h, cx, run", "src/qudiet/core/operator_flow.py: populate, opflow_list", "src/qudiet/circuit_library/standard_gates/h.py", "src/qudiet/circuit_library/standard_gates/cx.py"]}
{"id": "C80", "title": "The recorded outcomes of the testbench are reproduced", "statement": "Reading any of the 21 texts of testbench/tof_qutrit that have a recorded result and running the circuit gives exactly the one outcome stored in the .pkl files next to it, with amplitude 1.", "quantifier": "all 21 recorded texts, both backends, any number type with the ring laws", "why_tests_cant": "the recorded files are compared by hand in notebooks; no test reads them", "anchors": ["testbench/tof_qutrit", "src/qudiet/core/quantum_circuit.py: run", "src/qudiet/qasm/qasm_parser.py: circuit_from_qasm"]}
{"id": "C81", "title": "Bernstein-Vazirani as written in the testbench", "statement": "On n+1 qubits: an h on the first n, an x and an h on the last, any list of cx gates from the first n qubits to the last, an h on the first n again. There are exactly two outcomes; in both, the first n levels are the start levels plus the number of times each qubit was a control, modulo 2. The last level is 0 with amplitude 1/sqrt(2) and 1 with amplitude -1/sqrt(2). In particular testbench/tof_large/bv_n14 gives thirteen ones.", "quantifier": "all n, lists of controls, start levels of the first n qubits, output types, both backends; root finder with the root 1 last in dimension 2", "why_tests_cant": "interference of 2^n amplitudes for every n; the 14-qubit file is too large for the test suite", "anchors": ["testbench/tof_large/bv_n14/bv_n14.qasm", "src/qudiet/core/quantum_circuit.py: run", "src/qudiet/qasm/qasm_parser.py: circuit_from_qasm", "src/qudiet/circuit_library/standard_gates/h.py", "src/qudiet/circuit_library/standard_gates/cx.py"]}
{"id": "C82", "title": "Grover search over four states", "statement": "On two qubits started at level 0: h on both; a flip of the sign of the state (x, y), made of x gates and h, cx, h; h on both; a flip of the sign of the state (0, 0); h on both. The single outcome is (x, y), with amplitude -1.", "quantifier": "all four marked states, output types, both backends; root finder with the root 1 last in dimension 2", "why_tests_cant": "exact interference, including the sign of the amplitude, which sampling never shows", "anchors": ["src/qudiet/core/quantum_circuit.py: run", "src/qudiet/qasm/qasm_parser.py: circuit_from_qasm", "src/qudiet/circuit_library/standard_gates/h.py", "src/qudiet/circuit_library/standard_gates/cx.py", "src/qudiet/circuit_library/standard_gates/x.py"]}
{"id": "C83", "title": "Two testbench files do something else than their names say", "statement": "testbench/tof_large/grover_n2, which marks the state 11, gives the single outcome 00 with amplitude 1, width 2 and depth 9, because lines that start with a small x are not read; with a capital X it gives 11 with amplitude -1. testbench/tof_qutrit/toffoli_2 does not restore its qutrit: from levels (x0, x1, x2) it ends at level (x2 + 2 x1) mod 3, and it flips x0 exactly when x2 = 2 - x1.", "quantifier": "both backends; for toffoli_2 all start levels, output types and number types", "why_tests_cant": "the recorded results agree with the code, so a regression test cannot see that the circuits are wrong", "anchors": ["testbench/tof_large/grover_n2/grover_n2.qasm", "testbench/tof_qutrit/toffoli_2/toffoli_2_tof.txt", "src/qudiet/core/quantum_circuit.py: run", "src/qudiet/qasm/qasm_parser.py: circuit_from_qasm"]}
{"id": "C84", "title": "The list and index utilities", "statement": "clip(l, a, b) is the part of l from position a to position b, both included; with b = -1 it is empty, a negative a counts from the end. Row r of ttg(qreg) holds the digits of r in the mixed base qreg; there are as many rows as the product of qreg. get_index gives the first row equal to the target and None if there is none; get_index and bin_to_Nbase give r for row r.", "quantifier": "all lists, positions, dimension lists (product at most 2^63 for bin_to_Nbase)", "why_tests_cant": "tests use one base; clip has no caller and no test", "anchors": ["src/qudiet/utils/linalg.py: clip, ttg", "src/qudiet/utils/numpy.py: get_index, bin_to_Nbase"]}
{"id": "C85", "title": "What a gate object says of itself", "statement": "After an accepted gate call that names a register of the line, the last layer holds the gate asked for. Its is_controlled is True and its is_single_qudit is False exactly if it is a cx; a toffoli and a gate on a list of registers say that they are single and not controlled. An initial state has neither attribute (AttributeError).", "quantifier": "all call histories, valid or not, all accepted gate calls", "why_tests_cant": "no test reads the two attributes", "anchors": ["src/qudiet/circuit_library/__init__.py: ArbitaryGate.is_controlled, is_single_qudit", "src/qudiet/circuit_library/standard_gates/cx.py: is_controlled, is_single_qudit", "src/qudiet/core/quantum_circuit.py: toffoli, gate"]}
{"id": "C86", "title": "Asking a layer for the gate on a register", "statement": "In every layer but the first, get_qreg_moment(r) is the gate that acts on r, except that a toffoli is found at its target only; for its controls and for registers between those of a gate it is None. replace_igate replaces the gate found if it is an identity, answers False for another gate and raises TypeError if none is found. In the layer of initial states both raise AttributeError. check_igate_at_qreg is right in layers whose gates occupy one register each; beside a gate over two or more registers it raises IndexError for the last register; for a cx it raises AttributeError and for a toffoli or a gate on a list TypeError.", "quantifier": "all call histories, valid or not, all layers, all registers of the line", "why_tests_cant": "depends on the other gates in the layer; check_igate_at_qreg has no caller and no test", "anchors": ["src/qudiet/core/moment.py: get_qreg_moment", "src/qudiet/core/moment.py: replace_igate", "src/qudiet/core/moment.py: check_igate_at_qreg"]}
{"id": "C87", "title": "h gates spread evenly", "statement": "One h on each of any distinct registers, from any initial levels and for any dimensions: run() reports exactly the states that agree with the start on the other registers, in the order of their indices, each with the probability 1 / (product of the dimensions of those registers).", "quantifier": "all dimensions >= 2, initial levels, sets of registers, orders of the roots, both CPU backends", "why_tests_cant": "a test reads a few amplitudes of one or two registers", "anchors": ["src/qudiet/circuit_library/standard_gates/h.py: HGate", "src/qudiet/core/quantum_circuit.py: h", "src/qudiet/core/quantum_circuit.py: run"]}
{"id": "C88", "title": "Deutsch-Jozsa", "statement": "On n + 1 qubits, the last starting at 1: h on all, any reversible calls that turn the last qubit over where f holds of the others, h on all. The amplitude of the start state is (2^n - 2k) / 2^n where k inputs satisfy f; it is not reported if that is 0. If f is constant the start state is the only outcome.", "quantifier": "all n, all functions f, all reversible oracles for f, both CPU backends", "why_tests_cant": "exponentially many inputs and doubly exponentially many functions", "anchors": ["src/qudiet/core/quantum_circuit.py: h", "src/qudiet/core/quantum_circuit.py: cx", "src/qudiet/core/quantum_circuit.py: toffoli", "src/qudiet/core/quantum_circuit.py: run"]}
{"id": "C89", "title": "The repository's own tests", "statement": "The tests in test/ that compare outcomes, configurations or digits hold, whatever CPU backend is used; the comments in test_parser_1 give its outcomes. test_qudit_toffoli fails: its second control is at level 2 of 4, so the toffoli does nothing and run() reports |12201> instead of |12211>.", "quantifier": "both CPU backends, all scalars with the laws (exact), all orders of the roots for the tests with h", "why_tests_cant": "the tests run one backend each, in floating point; one of them fails", "anchors": ["test/test_circuit.py", "test/test_backend.py", "test/test_qasm.py", "test/test_bin.py", "test.qasm"]}
{"id": "C90", "title": "Reversible circuits are exact in floating point", "statement": "A circuit of x, cx and toffoli gates, of any number of registers, dimensions and length, reports in IEEE double arithmetic exactly one outcome, the one that exact arithmetic gives, and its amplitude (or probability) is the number 1.0 itself: no rounding error ever appears. Only the sums, products, conjugates and comparisons of 0 and 1 are used, so this holds of every arithmetic in which those are right.", "quantifier": "all circuits of x, cx, toffoli; all dimensions, starting levels, output types and methods; both CPU backends; every scalar type with the fifteen laws of bits, binary64 in particular", "why_tests_cant": "tests in floating point compare a few circuits only; that no circuit, however long, ever rounds is a statement about all of them", "anchors": ["src/qudiet/core/backend/NumpyBackend.py:31-58", "src/qudiet/core/backend/SparseBackend.py:31-54", "src/qudiet/circuit_library/standard_gates/cx.py:128-160", "src/qudiet/circuit_library/standard_gates/x.py:71", "src/qudiet/core/init_states.py:50"]}
{"id": "C91", "title": "Exactly which matrices user gates accept", "statement": "In a valid program over the complex numbers, gate(G, r) on one register with matrix u lets run() return a result exactly if u is d x d and the inner product p of any two of its rows satisfies |delta - p| <= 1e-8 + 1e-5 |p|. If a pair of rows fails this run() raises Exception, whatever the shape; if the rows pass but the shape is not d x d (a matrix with fewer rows than columns can pass) it raises AssertionError.", "quantifier": "all programs around the gate, dimensions, levels, output types, matrices of every shape, both CPU backends, all orders of the roots", "why_tests_cant": "the boundary of the tolerance is a real inequality over all matrices", "anchors": ["src/qudiet/circuit_library/__init__.py:69-94", "src/qudiet/core/backend/NumpyBackend.py:56-58", "src/qudiet/core/backend/SparseBackend.py:52-54"]}
{"id": "C92", "title": "Accepted gates can raise the total probability without bound (defect)", "statement": "c times the identity is accepted as a unitary gate of a qubit for all c >= 1 with c * c <= 1.00001, and n such gates give |0> with amplitude c^n: for every number K there is a circuit of accepted gates whose squared moduli sum to more than K.", "quantifier": "all n, all admissible c, all K, both CPU backends", "why_tests_cant": "no finite number of runs shows that there is no bound", "anchors": ["src/qudiet/circuit_library/__init__.py:75-77", "src/qudiet/core/backend/NumpyBackend.py:56-58"]}
{"id": "C93", "title": "moment_to_repr describes the layer as it was created", "statement": "moment_to_repr gives for every operation the layer was created with its class name and the shape of its matrix: (d, 1) initial states, d x d one-register gates, square cx and toffoli matrices over the spanned registers; a layer with a measurement raises AttributeError.", "quantifier": "all layers of operations with well-formed arguments, all scalars with the laws", "why_tests_cant": "all layers", "anchors": ["src/qudiet/utils/debug.py:3-9"]}
{"id": "C94", "title": "The nodes of the tree decomposition are told apart by their grandchildren", "statement": "In the tree of Circuit(n) with nodes 1..n-1 (children of v are 2v and 2v+1): check_id(v) is true exactly if v has no grandchild, check_gpll(v) exactly if v is the last node that has one, check_sd(v) exactly if v and v+1 have one; gpll_has_right_grandchild() is true exactly if the right child of that last node has a child.", "quantifier": "all n >= 2, all nodes", "why_tests_cant": "unbounded", "anchors": ["test_circuit/circuit.py:115-156"]}
{"id": "C95", "title": "Editing the register list after the calls renames the outcomes (defect)", "statement": "The circuit keeps the caller's register list, not a copy. In a valid program with the default output, overwriting that list with another list of positive dimensions between measure_all() and run() leaves all amplitudes as they are, and reports each outcome under the name that the configuration at the same place has in the new line; if there is no such place run() raises IndexError.", "quantifier": "all programs, registers, levels, new lists, both CPU backends, all scalars with the laws", "why_tests_cant": "all programs and all edits", "anchors": ["src/qudiet/core/quantum_circuit.py:91", "src/qudiet/core/quantum_circuit.py:100", "src/qudiet/core/quantum_circuit.py:117-118", "src/qudiet/core/output.py:43-48", "src/qudiet/core/output.py:54-76"]}
{"id": "C96", "title": "Gates made from one shared list follow the list until run() (defect)", "statement": "cx keeps the caller's list. If the same list is passed to several cx and edited in between, then at run() every one of these cx, issued while the list showed [a, b], acts according to the final contents [x, y]: counted from the smaller of a and b, with control and target as far apart and in the order that x and y show. So reversing the list exchanges control and target of all earlier gates, and sliding it along the line is harmless. If x and y are further apart than a and b run() raises IndexError, and if the list is no pair any more ValueError.", "quantifier": "all sequences of calls, cx with the shared list and edits; all registers and levels; both CPU backends", "why_tests_cant": "all edits at all places", "anchors": ["src/qudiet/core/quantum_circuit.py:299-309", "src/qudiet/circuit_library/standard_gates/cx.py:59-64", "src/qudiet/circuit_library/standard_gates/cx.py:86-140"]}
{"id": "C97", "title": "Results do not depend on the backend", "statement": "run() and whole programs give the same result or the same exception on any two backends that compute kron, dot, eye, matrix and the transpose as the textbook says (entries read through toarray; dot of unequal inner sizes raises ValueError), for all circuits, valid or not. NumpyBackend and SparseBackend are such backends, and so is one that stores its matrices column by column.", "quantifier": "all backends with these operations, all circuits, all scalars", "why_tests_cant": "quantifies over backends that are not written yet", "anchors": ["src/qudiet/core/backend/core.py:27-52", "src/qudiet/core/backend/NumpyBackend.py:31-54", "src/qudiet/core/backend/SparseBackend.py:31-50", "src/qudiet/core/moment.py: exec", "src/qudiet/core/operator_flow.py: exec"]}
{"id": "C98", "title": "Exactly which circuits str() can draw", "statement": "For list-form registers str(circuit) returns a text exactly if every cx in the layers has two registers, each between -n and n - 1; otherwise it raises what the first other cx calls for, ValueError if it has not two registers, IndexError if a register is too far. Such a cx call is accepted if it touches the line, and then every later drawing raises.", "quantifier": "all histories, valid or not, all later calls", "why_tests_cant": "unbounded histories", "anchors": ["src/qudiet/core/quantum_circuit.py:449-509"]}
{"id": "C99", "title": "Rounding errors stay small", "statement": "Circuits with h, z, cx, x, toffoli and user gates, simulated in arithmetic where every addition and multiplication is off by a relative error u (and roots, 1/sqrt(d) and user matrices by e roundings): simulate reports the answer of a state whose distance from the exact final state is at most sqrt(N) c ((1 + sqrt(N) ((1+u)^k - 1))^(m+1) - 1), with N the number of basis states, m the number of gates, k = N + 1 + n(2e + 2) and c the product of the growth factors of the gates. Every reported number is within this bound of the exact one, and an outcome missing from the report has an exact amplitude within the bound. Exactly unitary gates have growth factor 1, matrices that pass numpy's unitarity test at most sqrt(1 + 2e-5 + 2e-8 d), a cx with control and target on one register at most sqrt(2). numpy with componentwise rounded complex arithmetic is such arithmetic; rounding to the nearest number with p binary digits the error is at most 4(m+1)Nk 3/2^p, so any accuracy is reached.", "quantifier": "all register layouts, programs, roundings, backends with the stated error per operation; all p", "why_tests_cant": "errors of unboundedly many operations, for every input; tests see single runs", "anchors": ["src/qudiet/core/backend/NumpyBackend.py:31-58", "src/qudiet/circuit_library/standard_gates/h.py:72-82", "src/qudiet/circuit_library/standard_gates/z.py:70-73", "src/qudiet/core/moment.py: exec", "src/qudiet/core/operator_flow.py: exec", "src/qudiet/core/output.py:50-80"]}
{"id": "C100", "title": "The default backend the way scipy multiplies", "statement": "Sparse matrices stored by rows, each column at most once, whose dot adds the products of a cell one by one inside the multiplication (scipy's csr_matmat), give the same result or the same exception as the numpy backend and as duplicates added at the end, for every circuit, in exact arithmetic. In rounded arithmetic the bound of C99 holds for them. Circuits of x, cx and toffoli gates are exact in IEEE doubles with them.", "quantifier": "all circuits; all exact scalars; all roundings; all reversible programs", "why_tests_cant": "the order of additions inside a sparse product cannot be varied by a test", "anchors": ["src/qudiet/core/backend/SparseBackend.py:31-50", "src/qudiet/core/backend/__init__.py:31"]}
{"id": "C101", "title": "What run() costs (defect)", "statement": "For every valid program of D layers on a register line with N basis states, run() with the numpy backend makes exactly (D-1)*N^3 + N^2 multiplications in its dot products (none when D = 0) and at most (4 D N^2 + 6 N)/3 in its kron products, because the layers are multiplied with each other from the last to the first before the initial state is reached. Applying the layers to the state instead gives the same result with D*N^2 multiplications. With sparse matrices the cost is never higher; for programs of x, cx and toffoli gates it is exactly (D-1)*N + 1 in the dots and at most 2 D N + n in the krons. Counting changes no result.", "quantifier": "all valid programs; all exact scalars; all circuits for the last sentence", "why_tests_cant": "a test measures time on one machine and one circuit; the exact count for all sizes is out of its reach", "anchors": ["src/qudiet/core/operator_flow.py:243-284", "src/qudiet/core/moment.py:199-213", "src/qudiet/core/backend/NumpyBackend.py:31-37", "src/qudiet/core/backend/SparseBackend.py:32-38"]}
{"id": "C102", "title": "Figures of the matplotlib drawing", "statement": "draw(style='mpl', compress=z) on n registers uses figures 15 + n*z inches wide. Whatever the widths of the rendered texts, every layer is drawn on exactly one figure, in order; figures are numbered 1, 2, ...; consecutive layers of a figure are one inch apart and do not overlap, a layer being as wide as the widest of its texts, cnot signs (1/6 inch) and boxes (1 inch); a figure is left exactly when the next position, rounded up, falls in its last inch. A larger compress never gives more figures, as documented. If no layer is wider than 2 inches (and the labels leave 2 inches and z is whole) nothing sticks out of a figure; a wider layer can. A full figure after the first holds more than (x-4)/(W+1) layers, W the widest. When the last layer fills its figure an empty one follows (defect). The drawing raises exactly when a mark does (C43).", "quantifier": "all circuits, all text widths, all values of compress", "why_tests_cant": "a test draws one circuit with one font; the page breaks depend on rendered text widths", "anchors": ["src/qudiet/utility/circuit_draw.py:125-171", "src/qudiet/utility/circuit_draw.py:210-281", "src/qudiet/core/quantum_circuit.py:396-421"]}
{"id": "C103", "title": "What every call answers", "statement": "On a circuit made from a non-empty list of registers, what a call of the circuit answers (the exception it raises, or the truth value it returns) is a function of the registers' dimensions, of the arguments and of whether measure_all() was called: h, x, z and one-register gate() raise ValueError for a register past the line, IndexError for one below -n, ValueError for a dimension larger than the register's; list gates check an empty list, then registers past the line, then indices (register by register when a dimension is given); cx raises IndexError for fewer than two registers and checks nothing else; toffoli raises IndexError when a register is not a Python index of the line; measure raises NotImplementedError; everything else returns True, or False after measure_all() (toffoli and measure_all keep returning True). The exceptions do not depend on earlier calls, so a script raises the exception of its first refused call and goes through exactly when no call is refused.", "quantifier": "all register lists, all initial states, all histories of calls, all calls", "why_tests_cant": "tests issue a handful of valid calls; the answer to each call after each history is not sampled", "anchors": ["src/qudiet/core/quantum_circuit.py:144-361", "src/qudiet/circuit_library/standard_gates/toffoli_utility.py:16-84", "src/qudiet/core/operator_flow.py: populate_opflow_test"]}
{"id": "C104", "title": "When run() succeeds", "statement": "Take a circuit on a list of registers and any calls on it before measure_all(): registers anywhere (negative, past the line), dims arguments that are absent, not positive or at least the register's dimension, any increments, cx on any number of registers, matrices that are not unitary or have the wrong size for one or two registers or are too large for more, toffolis that count from the end or stand next to their control. run() succeeds exactly when each call asks for a valid gate or is without effect (it raises or is dropped); a result that is returned is the specified one. A script succeeds exactly when moreover no call raises. Left out: matrices smaller than the registers they are placed on, matrices for three or more registers that are not square or that fit exactly on registers partly counted from the end, and toffolis with their target among the controls that move nothing; without these exclusions the statement is false, since a matrix that is too small and one that is too large can make up for each other (refuted).", "quantifier": "all dimensions, levels, outputs, both NumPy and sparse backends, all histories of such calls", "why_tests_cant": "a test shows that one wrong call fails; that nothing else fails and that no wrong call goes unnoticed needs all calls in all contexts", "anchors": ["src/qudiet/core/quantum_circuit.py:144-389", "src/qudiet/core/operator_flow.py: exec", "src/qudiet/core/moment.py: exec", "src/qudiet/circuit_library/standard_gates/toffoli_utility.py:16-84"]}
{"id": "C105", "title": "Line ends of QASM files do not matter, those of QASM texts do (defect)", "statement": "parse_qasm reads a file as the text it shows: whichever of LF, CR LF and CR ends each line, the circuit is that of circuit_from_qasm on the text with LF, and every file shows exactly one text. circuit_from_qasm itself does not normalise line ends: a text written with CR LF builds the same circuit as with LF as long as no line is an RX by 180 degrees; such a line is silently dropped when it ends with CR, so the statement without that condition is refuted; a text with CR alone always raises IndexError.", "quantifier": "all files, all texts, all well-formed QASM documents whose gate lines have an outcome (C52)", "why_tests_cant": "a test suite written on one platform only ever sees one line end, and a file with mixed ends is never written by hand", "anchors": ["src/qudiet/qasm/qasm_parser.py:35-38", "src/qudiet/qasm/qasm_parser.py:41-123"]}
{"id": "C106", "title": "h is unitary only on qubits and qutrits (defect)", "statement": "Let the root finder return conjugate roots side by side with the one above the real axis first, as LAPACK does for the real companion matrix that np.roots builds. Then the matrix of h on d levels has orthonormal rows exactly when d is 2 or 3 and the root 1 comes last. On any register of 4 or more levels, with 1 last, there is a starting level from which two h calls in a row report probabilities that add up to more than 1, whatever the other registers are. The order matters: with the roots of degree 5 in the order of the powers of 2, h would be unitary, so the statement without the order is refuted.", "quantifier": "all d >= 2, all root orders with conjugate pairs side by side, both backends, all register lists and starting levels of the other registers, all output settings", "why_tests_cant": "unitarity fails for every d >= 4 for a reason that needs the sum over all rows; a test of one dimension shows nothing about the others, and the order of the roots hides in LAPACK", "anchors": ["src/qudiet/circuit_library/standard_gates/h.py:66-84"]}
{"id": "C107", "title": "Which circuits draw(style='mpl') can draw", "statement": "Let a circuit be made by any calls. If it has no layer after the initial states, draw(style='mpl') raises IndexError. Otherwise it fails exactly if some operation has no mark: a cx whose registers are not two, a cx one of whose register numbers is no index of the list of dimensions between its registers, a toffoli whose target is no such index, or a toffoli without controls. The first such operation, layer by layer, decides between ValueError and IndexError. A cx call with three or more registers that touches the line is accepted, and every later drawing raises, whatever calls follow.", "quantifier": "all register lists, all starting states and output settings, all lists of calls, accepted or not", "why_tests_cant": "the drawing code indexes a list of the spanned dimensions with a global register number; whether that works depends on every call made before, and tests draw one or two circuits", "anchors": ["src/qudiet/utility/circuit_draw.py:172-186", "src/qudiet/utility/circuit_draw.py:197-229", "src/qudiet/utility/circuit_draw.py:231-281"]}
{"id": "C108", "title": "Which exception run() raises", "statement": "Take a circuit on a non-empty list of registers, any calls on it (accepted, rejected or failing), then measure_all() and run(), with the default output or one for the same registers. The operations in the layers tell the exception: an operation raises by itself (h, z with dims below -1 ValueError, with dims -1 IndexError; x with a negative dims ValueError, with an increment outside -d..d-1 IndexError; cx on other than two registers ValueError, with a register off the line IndexError; toffoli whose target is a control and is moved Exception, one spanning two registers AssertionError; a matrix with rows that are not orthonormal Exception, else one of the wrong shape for one register or any for two registers AssertionError) or has a size. Layers are looked at from the last to the first: the leftmost raising operation of a layer decides, and otherwise ValueError if the number of its rows is not the number of columns of the layer after it. If nothing is found run() returns a result, except that IndexError is possible if the last layer has more rows than there are outcomes. If all gates have the size of their registers, run() raises what the first raising gate raises, last layer first, and returns a result if there is none.", "quantifier": "all register lists, starting states, lists of calls, matrices, both backends, all arithmetics", "why_tests_cant": "the exception depends on how all calls of a program were put into layers and on several checks in different files; tests try single faults, never two at once", "anchors": ["src/qudiet/core/operator_flow.py:243-284", "src/qudiet/core/moment.py:199-213", "src/qudiet/circuit_library/standard_gates/h.py:66-84", "src/qudiet/circuit_library/standard_gates/z.py:64-77", "src/qudiet/circuit_library/standard_gates/x.py:65-75", "src/qudiet/circuit_library/standard_gates/cx.py:85-139", "src/qudiet/circuit_library/__init__.py:69-94"]}
{"id": "C109", "title": "h, x and z with a list of registers", "statement": "cx, toffoli and gate take lists of registers; h, x and z do not refuse them. On a circuit made from a list of registers: without dims (or with 0) the call raises ValueError if a listed register is past the end and TypeError otherwise. With dims it raises ValueError if a listed register is past the end or has a smaller dimension. Otherwise it raises TypeError if all listed registers are idle in the last layer; after measure_all() it returns False and changes nothing; and if one of the registers is busy it returns True and adds one layer with a single gate of size dims in the place of the registers from the lowest to the highest. For a list of one busy register that is the same as the call with the register itself. For two different registers measure_all() is still accepted, but run() always raises, whatever calls (with numbers or with lists) come before and after.", "quantifier": "all registers, dims arguments, lists, preceding calls, both backends, all arithmetics", "why_tests_cant": "whether the call is refused depends on the layer the preceding calls left; a test with a list of one register on a used register finds nothing wrong", "anchors": ["src/qudiet/core/quantum_circuit.py:145-245", "src/qudiet/core/operator_flow.py:150-229", "src/qudiet/core/moment.py:78-88", "src/qudiet/core/moment.py:135-149"]}
{"id": "C110", "title": "Tuple circuits are list circuits that cannot be printed (defect)", "statement": "If an Output is given and toffoli is not used, QuantumCircuit((n, d)) gives the same results as QuantumCircuit([d]*n), for any initial states and any calls; without an Output it gives what the list circuit gives with an Output of base (n, d). Every call except toffoli is answered in the same way, the layers are the same and so is run() at any time. But str() and draw() raise IndexError on every tuple circuit with more registers than the tuple has entries, whatever was called before; for two registers the text is that of the list circuit with the tuple as its width; and the matplotlib figure has two wires whatever n is, everything else in it being as for the list. toffoli with two different registers never works on such a circuit: the call raises IndexError, or it is accepted and run() raises whatever is called afterwards.", "quantifier": "all n, d, initial states, outputs and lists of calls", "why_tests_cant": "no test uses the tuple form", "anchors": ["src/qudiet/core/quantum_circuit.py:62-123", "src/qudiet/core/quantum_circuit.py:449-509", "src/qudiet/utility/circuit_draw.py:231-281"]}
{"id": "C111", "title": "gate() given one of the gate classes of the library", "statement": "gate(HGate, q, dims) is h(q, dims) and gate(ZGate, q, dims) is z(q, dims), exceptions included. gate(IGate, r) always adds a layer in which every register is idle, and calls of the methods mixed with it give the result of the program without it. XGate, CXGate, Toffoli, Measurement and InitState are never accepted: TypeError for a register of the line, ValueError past it, IndexError before the first. gate(IGate, r, d) with d below the dimension of r is accepted, and from then on run() raises as long as that identity is in a layer; an accepted h, x or z on r right after it takes its place, for good, and every later result is then as with the identity of the right size.", "quantifier": "all scalars satisfying the laws, supported backends, dimensions, initial states, outputs, lists of calls before and after", "why_tests_cant": "no test passes a class of the library to gate()", "anchors": ["src/qudiet/core/quantum_circuit.py:314-333", "src/qudiet/circuit_library/standard_gates/i.py:36", "src/qudiet/circuit_library/standard_gates/h.py:39", "src/qudiet/circuit_library/standard_gates/x.py:38", "src/qudiet/core/operator_flow.py:68-148"]}
{"id": "C112", "title": "Which reversible functions can be programmed", "statement": "For a line with two registers or more, one of them of even dimension, every permutation of the basis states is computed by some list of calls of x, cx and toffoli: for every initial state each supported backend gives one outcome, the image of that state. Without a register of even dimension the same holds of the permutations made of an even number of exchanges of two basis states, and of no others. Whatever the dimensions, any function of the levels of the other registers can be added to the level of a register. On a single register such calls only add a constant to the level.", "quantifier": "all scalars satisfying the laws, all dimensions of at least 2, all permutations and functions of basis states, all supported backends, initial states and outputs", "why_tests_cant": "existence of a circuit for each of infinitely many functions, and absence of any circuit for others; tests only run given circuits", "anchors": ["src/qudiet/core/quantum_circuit.py: QuantumCircuit.x, cx, toffoli, run", "src/qudiet/circuit_library/standard_gates/x.py: XGate", "src/qudiet/circuit_library/standard_gates/cx.py: CXGate", "src/qudiet/circuit_library/standard_gates/toffoli_utility.py: toffoli_dm, Toffoli"]}
{"id": "C113", "title": "On qubits x and cx compute the affine functions", "statement": "On a line of n qubits every list of x and cx calls computes an affine function of the basis state (one that keeps sums modulo 2 of three states), and nothing else; and every affine permutation of the basis states is computed by some list of x and cx calls, of length at most n + n*n. In particular no list of x and cx calls adds the conjunction of two qubits to a third, which one toffoli does.", "quantifier": "all scalars satisfying the laws, all numbers of qubits, all lists of x and cx calls on existing registers, all affine permutations, all supported backends, initial states and outputs", "why_tests_cant": "existence of a circuit of bounded length for every affine permutation, and absence of any circuit for the conjunction; tests only run given circuits", "anchors": ["src/qudiet/core/quantum_circuit.py: QuantumCircuit.x, cx, run", "src/qudiet/circuit_library/standard_gates/x.py: XGate", "src/qudiet/circuit_library/standard_gates/cx.py: CXGate"]}
{"id": "C114", "title": "Outcomes of circuits of h, x, z and cx on qubits", "statement": "On a line of qubits, a circuit of h, x, z and cx calls (cx on two different qubits) has exactly 2^k outcomes for some k not larger than the number of h calls and of qubits. They all have the same probability, the amplitudes are plus or minus 1/sqrt(2^k), and the sum modulo 2 of any three outcomes is an outcome.", "quantifier": "all numbers of qubits, initial states, lists of such calls of any length, supported backends and outputs; complex numbers without rounding, np.roots returning -1 before 1", "why_tests_cant": "a statement about every circuit in an infinite family; a test sees single circuits and cannot tell which outcome sets never occur", "anchors": ["src/qudiet/core/quantum_circuit.py: QuantumCircuit.h, x, z, cx, run", "src/qudiet/circuit_library/standard_gates/h.py: HGate", "src/qudiet/circuit_library/standard_gates/z.py: ZGate", "src/qudiet/circuit_library/standard_gates/cx.py: CXGate"]}
{"id": "C115", "title": "Backends that cannot be used", "statement": "QuantumCircuit built with backend=Backend (class or instance), or with an instance of a CUDA backend, raises TypeError as soon as the first register and its level are acceptable, whatever the other registers are; an unacceptable first register raises ValueError or IndexError as with any backend. A backend whose matrix operation returns has no influence on the constructor.", "quantifier": "all register lists with at least one register, tuples (n, d), initial states, outputs, and all objects whose matrix operation always raises (respectively never raises)", "why_tests_cant": "the set of register lists and of backend objects is infinite, and the order of the checks only shows in combinations of a faulty backend and faulty registers", "anchors": ["src/qudiet/core/backend/core.py: Backend", "src/qudiet/core/backend/CUDABackend.py: CUDABackend.__getattribute__", "src/qudiet/core/backend/CUDASparseBackend.py: CUDASparseBackend.__getattribute__", "src/qudiet/core/init_states.py: InitState.__init__", "src/qudiet/core/quantum_circuit.py: QuantumCircuit.__init__"]}
{"id": "C116", "title": "Circuits can be taken back with the calls of the library", "statement": "For every list of h, x, z, cx and toffoli calls (h on qubits and qutrits, cx on two different registers) there is a list of such calls that takes it back: inserted together anywhere in a circuit they change nothing. It needs at most max(3, largest dimension) calls for each one. Two h calls on a qutrit exchange its levels 1 and 2.", "quantifier": "all lines of registers, lists of such calls of any length, surrounding calls, initial states, supported backends and outputs; complex numbers without rounding, np.roots returning 1 last in dimensions 2 and 3", "why_tests_cant": "a statement about every circuit of an infinite family inside every other circuit; tests show single circuits", "anchors": ["src/qudiet/core/quantum_circuit.py: QuantumCircuit.h, x, z, cx, toffoli, run", "src/qudiet/circuit_library/standard_gates/h.py: HGate", "src/qudiet/circuit_library/standard_gates/z.py: ZGate", "src/qudiet/circuit_library/standard_gates/x.py: XGate"]}
{"id": "C117", "title": "The probabilities a circuit of the library's gates can have", "statement": "In a circuit with a calls of h on qubits and b calls of h on qutrits, and otherwise z on qubits and qutrits, x, toffoli, and cx on two different registers, every outcome has a probability that is a positive multiple of 1/(2^a 3^b). There are at most 2^a 3^b outcomes. Without h on a qutrit no probability has 3 in its denominator, without h on a qubit none has 2.", "quantifier": "all lines of registers, lists of such calls of any length, initial states, supported backends and output labels; complex numbers without rounding (for the number of outcomes: np.roots returning 1 last in dimensions 2 and 3)", "why_tests_cant": "an impossibility statement about every circuit of an infinite family; a test can only show which probabilities some circuits have", "anchors": ["src/qudiet/core/quantum_circuit.py: QuantumCircuit.h, x, z, cx, toffoli, run", "src/qudiet/circuit_library/standard_gates/h.py: HGate", "src/qudiet/circuit_library/standard_gates/z.py: ZGate"]}
{"id": "C118", "title": "Editing the register list between calls (defect)", "statement": "The circuit keeps the caller's register list. If the caller overwrites it between calls with another list of the same length (and the edit comes before the first call, or the first call after it is not h, x or z), the later gates use the new dimensions. When the product of the dimensions is unchanged, run() does not raise: it returns the state reached before the edit, each amplitude moved to the configuration of the new registers at the same place, followed by the later gates. When the product changes and any gate is called after the edit, run() raises ValueError. With an Output of the caller the outcomes are the same and get the names that its base has for their places, IndexError if it has none for one of them. Whatever the new list, h, x, z and gate() on a register that was not there at construction raise ValueError.", "quantifier": "all lines of registers, initial states, call lists before and after the edit, new register lists of the same length with dimensions from 2, and supported backends; default output, and Outputs with any base of positive dimensions", "why_tests_cant": "the edits, products and call lists are unbounded; that equal products go unnoticed is a statement about all amplitudes", "anchors": ["src/qudiet/core/quantum_circuit.py: QuantumCircuit.__init__, __add_moment_to_opflow", "src/qudiet/core/operator_flow.py: OperatorFlow.exec"]}
{"id": "C119", "title": "Outputs made for other registers (defect)", "statement": "An Output given to the constructor is not compared with the registers. With an Output for other registers run() names each outcome by the configuration of those registers at the same place, with its amplitude or probability, and raises IndexError if one of the outcomes has no such place. If the other registers have at least as many states together, every outcome gets a name and different outcomes get different configurations.", "quantifier": "all lines of registers, initial states, call lists, registers of positive dimension for the Output, label kinds and methods, and supported backends", "why_tests_cant": "needs all states of two mixed-radix systems of any size", "anchors": ["src/qudiet/core/output.py: Output.__call__", "src/qudiet/core/quantum_circuit.py: QuantumCircuit.__init__, run"]}
{"id": "C120", "title": "Grover's search", "statement": "On n + 1 qubits, the last starting at level 1: h on all, then k rounds (any reversible calls that turn the last qubit over where f holds of the others; h on the first n; any reversible calls that turn it over where the others are all 0; h on the first n), then h on the last. Every outcome ends in 1. With sin(th)^2 the share of inputs satisfying f, an input satisfying f has amplitude (-1)^k sin((2k+1) th) / sqrt(m), another one (-1)^k cos((2k+1) th) / sqrt(2^n - m), so success has probability sin((2k+1) th)^2. Some k of at most pi/4 sqrt(2^n/m) makes it at least 1 - m/2^n. With x gates around a toffoli on n controls as the calls, a pattern of n >= 2 bits is found with probability at least 1 - 1/2^n after at most pi/4 sqrt(2^n) rounds.", "quantifier": "all n, functions f satisfied by some but not all inputs, reversible call lists computing the two tests, numbers of rounds, label kinds and supported backends", "why_tests_cant": "the circuits grow with n and k without bound, and the amplitudes are irrational", "anchors": ["src/qudiet/core/quantum_circuit.py: h, x, toffoli, run", "src/qudiet/circuit_library/standard_gates/h.py: HGate", "src/qudiet/circuit_library/standard_gates/toffoli_utility.py: Toffoli"]}
{"id": "C121", "title": "A circuit on some of the registers acts as it does alone", "statement": "Take any circuit, and after it calls that touch only some registers of the line, listed in any order. The amplitude of an outcome is the sum, over the levels t of those registers, of two factors: the amplitude with which the calls alone, on a line made of just those registers and started in t, end in the outcome's levels there; and the amplitude the first circuit gives the outcome with those levels replaced by t.", "quantifier": "all lines of registers, lists of distinct registers on them, earlier circuits, programs on the listed registers, label kinds, supported backends and scalars", "why_tests_cant": "relates circuits of arbitrary size on two different lines of registers", "anchors": ["src/qudiet/core/quantum_circuit.py: run, h, x, z, cx, toffoli", "src/qudiet/core/operator_flow.py: OperatorFlow"]}
{"id": "C122", "title": "Teleportation", "statement": "On any line with distinct qubits a, b, c where the circuit so far leaves b and c at level 0: after h b; cx b c; cx a b; h a; cx b c; h c; cx a c; h c, the number listed for an outcome is half the number listed before for the outcome with c's level at a and 0 at b and c. So c carries what a carried, entangled as before with all other registers, whatever a and b read.", "quantifier": "all lines of registers, positions of the three qubits, earlier circuits that leave two of them at 0, label kinds and supported backends", "why_tests_cant": "any state of the other registers, any line, irrational amplitudes", "anchors": ["src/qudiet/core/quantum_circuit.py: run, h, x, z, cx, toffoli", "src/qudiet/core/operator_flow.py: OperatorFlow"]}
{"id": "C123", "title": "Superdense coding", "statement": "On any line with distinct qubits a, b left at level 0 so far: h a; cx a b; then x on a if k and z on a if m; then cx a b; h a. The result lists the numbers of the circuit before with a reading m and b reading k, all other outcomes 0, with the opposite sign when m holds (the library's z is diag(-1, 1)).", "quantifier": "all lines of registers, positions of the two qubits, bits sent, earlier circuits that leave both at 0, label kinds and supported backends", "why_tests_cant": "any state of the other registers, any line, irrational amplitudes", "anchors": ["src/qudiet/core/quantum_circuit.py: run, h, x, z, cx, toffoli", "src/qudiet/core/operator_flow.py: OperatorFlow"]}
{"id": "C124", "title": "The three-qubit repetition code", "statement": "On any line with distinct qubits a, b, c, with b and c left at level 0 so far: cx a b; cx a c; a user's gate with matrix [[p, q], [q, p]] on one of the three; cx a b; cx a c; toffoli of b and c on a. The qubit a and all other registers are as before: with factor p where b, c read 0, 0; with factor q where they read 11, 10 or 01, as the gate was on a, b or c; and 0 elsewhere.", "quantifier": "all lines of registers, positions of the three qubits, flips [[p, q], [q, p]] over any scalar, earlier circuits that leave two qubits at 0, label kinds and supported backends", "why_tests_cant": "any state of the other registers, any line, any amplitudes of the error", "anchors": ["src/qudiet/core/quantum_circuit.py: run, h, x, z, cx, toffoli", "src/qudiet/core/operator_flow.py: OperatorFlow", "src/qudiet/core/quantum_circuit.py: gate"]}
{"id": "C125", "title": "Register numbers that are numpy integers or bools are refused, never misread", "statement": "h, x or z with a numpy integer or a bool that names a register of the line raises TypeError (after measure_all it does nothing and returns False, as with an int); gate() raises UnboundLocalError. A number past the line is a ValueError; a negative one does what the int does. A script that goes through with such numbers gives exactly what it gives with ints, and a script of h, x, z calls stops with TypeError at the first number of this kind on the line.", "quantifier": "all circuits reached by calls on a list of registers, all numbers, gates, backends and scalars", "why_tests_cant": "any history and any script", "anchors": ["src/qudiet/core/quantum_circuit.py: h, x, z, gate, __add_moment_to_opflow", "src/qudiet/core/operator_flow.py: OperatorFlow.populate_opflow"]}
{"id": "C126", "title": "Registers given in a numpy array", "statement": "toffoli with its controls in a numpy array, where the controls include 0 and t-1 for the target t, the highest control is mx > t and t+mx is on the line, raises nothing but acts as toffoli with every control x < t replaced by x+mx+1. So when all the controls named are at their top levels and register mx+1 is not, the list adds to the target and the array does nothing. This holds with any calls before it, and after it as long as no h, x or z among the calls that come at once is on a register past t+mx; such a gate right after the array raises ValueError, where after a list it is accepted. cx with an array of two registers does what it does with a list if the two are the ends of the line and raises ValueError otherwise. Where the sum of the target and the highest control is past the last register, or the span of the controls is smaller than the target or than the lowest control, the call raises IndexError.", "quantifier": "all circuits reached by calls on a list of registers, all controls, targets, increments, backends and scalars", "why_tests_cant": "any line, any controls; the wrong gate is silent", "anchors": ["src/qudiet/core/quantum_circuit.py: toffoli, cx, __add_moment_to_opflow", "src/qudiet/core/moment.py: get_qreg_moment, replace_igate", "src/qudiet/core/operator_flow.py: populate_opflow_test", "src/qudiet/circuit_library/standard_gates/toffoli_utility.py"]}
{"id": "C127", "title": "Other kinds of arguments of the constructor", "statement": "init_states in a tuple works as a list does if it is empty or names the levels of all registers, and raises AttributeError otherwise. A numpy array of two or more entries is always a ValueError, even a correct one; one of a single entry works as a list if the entry is 0 or there is one register, and raises AttributeError otherwise. The int 0 counts as nothing given, any other int is a TypeError. Whatever is accepted gives the circuit for the list with the same levels. qregs that are neither list nor tuple raise ValueError, objects of a subclass (named tuples) AttributeError.", "quantifier": "all registers, levels, kinds of arguments and outputs", "why_tests_cant": "all lists of registers and levels", "anchors": ["src/qudiet/core/quantum_circuit.py: QuantumCircuit.__init__"]}
{"id": "C128", "title": "User gates whose matrix is not a numpy array", "statement": "gate() accepts a class whose _unitary is a Python list of rows, a scipy sparse matrix or a number (such as ArbitaryGate itself, which leaves 1 there). With such a gate in a layer run() never returns a result. If all gates have the size of their registers, the exception is that of the first failing gate, searched from the last layer to the first and from left to right in a layer, where a list counts as AttributeError and a sparse matrix or number as TypeError. Without such gates nothing changes.", "quantifier": "all registers, call histories, placements of such gates, and both backends", "why_tests_cant": "all histories and placements", "anchors": ["src/qudiet/circuit_library/__init__.py: ArbitaryGate.unitary", "src/qudiet/core/quantum_circuit.py: QuantumCircuit.gate", "src/qudiet/core/moment.py: Moment.exec", "src/qudiet/core/operator_flow.py: OperatorFlow.exec"]}
{"id": "C129", "title": "gate() with a library class and a list of registers", "statement": "With a dimension, gate(HGate, l, d) and gate(ZGate, l, d) do what h(l, d) and z(l, d) do, and gate(IGate, [r], d_r) changes no result; gate(IGate, l, d) on two different registers is accepted and run() raises from then on. Without a dimension HGate and ZGate raise TypeError if the last layer leaves all registers of the list idle; otherwise, and always for IGate, the call is accepted and run() never returns a result, whatever is called afterwards. XGate, CXGate, Measurement and InitState raise TypeError; Toffoli raises TypeError on two registers and ValueError on any other number.", "quantifier": "all registers, call histories, lists of registers and dims arguments", "why_tests_cant": "all histories and register lists", "anchors": ["src/qudiet/core/quantum_circuit.py: QuantumCircuit.gate", "src/qudiet/core/quantum_circuit.py: QuantumCircuit.__add_moment_to_opflow", "src/qudiet/circuit_library/standard_gates/h.py: HGate", "src/qudiet/circuit_library/standard_gates/i.py: IGate", "src/qudiet/circuit_library/standard_gates/toffoli_utility.py: toffoli_dm", "src/qudiet/core/operator_flow.py: OperatorFlow.populate_opflow_test"]}
{"id": "C130", "title": "The three-qubit code against phase errors", "statement": "On any line with distinct qubits a, b, c, with b and c left at level 0 so far: cx a b; cx a c; h on all three; a user's gate with the diagonal matrix (p, q) on one of the three; h on all three; cx a b; cx a c; toffoli of b and c on a. The qubit a and all other registers are as before: with factor (p + q) / 2 where b, c read 0, 0; with factor (p - q) / 2 where they read 11, 10 or 01, as the gate was on a, b or c; and 0 elsewhere. With z(r) of one of the three in place of the user's gate, b and c always name the register and the amplitudes only change their sign.", "quantifier": "all lines of registers, positions of the three qubits, accepted diagonal matrices, earlier circuits that leave two qubits at 0, label kinds and supported backends", "why_tests_cant": "any state of the other registers, any line, any phases of the error", "anchors": ["src/qudiet/core/quantum_circuit.py: run, h, z, cx, toffoli", "src/qudiet/core/operator_flow.py: OperatorFlow", "src/qudiet/core/quantum_circuit.py: gate"]}
{"id": "C131", "title": "A circuit on neighbouring registers can be handed over as one gate", "statement": "Take any valid calls on the registers r, ..., r+k-1 (k = 1 or at least 3) of a line, run them alone on a circuit of these registers from every starting configuration, and let M have as its column for a starting configuration the amplitudes of that run. If M passes the test for unitary matrices, gate(M, [r, ..., r+k-1]) in place of the calls gives the same result, whatever valid calls come before and after. For calls of x, cx with two registers and toffoli M always passes. Two user gates on one register give the same result as one gate with the matrix M2 M1 of their product, in this order, if all three matrices pass.", "quantifier": "all lines, starting levels, positions, circuits on the neighbouring registers, calls before and after, label kinds and supported backends", "why_tests_cant": "all circuits, and all circuits around them", "anchors": ["src/qudiet/core/quantum_circuit.py: gate, run", "src/qudiet/core/quantum_circuit.py: QuantumCircuit.__add_moment_to_opflow", "src/qudiet/core/operator_flow.py: OperatorFlow"]}
{"id": "C132", "title": "Dimensions that are numpy integers", "statement": "A circuit whose dimensions, or dims arguments of gate(), are numpy integers does what it does with ints, as long as the matrices given to gate() for one register, or for a list with a numpy dims other than 0, have the size of the dimension the gate gets; so valid programs have the same answer. gate() for one register that gets its dimension as a numpy integer does not check the shape: with any matrix it does what gate() with ints does on the list [r, r, r]. A square unitary matrix of another size than the register, smaller or larger, in an otherwise valid program is accepted and run() raises ValueError; it never yields an answer. On a list of registers l a numpy dims that is not 0 and not above any of their dimensions switches the check off too: the call does what gate() with ints does on l written three times, so a unitary matrix on the span of two registers acts as that matrix, where with ints the same call is an AssertionError. A square unitary matrix of another size than the span of the list is accepted and run() raises ValueError; with ints the same holds for lists of three or more registers. QuantumCircuit((n, d)) with a numpy integer d relates in the same way to the circuit with the int.", "quantifier": "all lines with any mix of ints and numpy integers, all scripts, matrices, backends and scalars; for the ValueError all valid programs around the gate and all starting levels", "why_tests_cant": "any mix of dimensions, any program around the gate", "anchors": ["src/qudiet/core/quantum_circuit.py: gate, __init__", "src/qudiet/circuit_library/__init__.py: ArbitaryGate.unitary", "src/qudiet/core/operator_flow.py: OperatorFlow"]}
