# Formal model of QuDiet

QuDiet is a simulator of quantum circuits over registers of mixed dimension.
This directory holds an executable model of it in Rocq (Coq 8.16.1), a list of
properties (`properties.jsonl`), and machine-checked theorems about the model.

## How the model is built

Every function of the modelled code is a total Gallina function; Python
exceptions are values (`res A := Ok a | Err e`).  Objects that Python mutates
are records returned as new values.  The model is parametric in

* a **scalar** structure (`Scalar.v`): exact numbers instead of IEEE doubles.
  The theorems assume only the laws in `scalar_laws` (commutative ring,
  decidable equality, 1 <> 0, conjugation and closeness behave at 0 and 1).
  Instances: the integers (used for executable examples) and the complex
  numbers over the standard library reals.  C90 asks only for the laws of 0
  and 1 in `BitSpec.v`, and has IEEE doubles (`Doubles.v`) as an instance;
* a **backend** record (`Mat.v`): dense matrices (NumpyBackend) and coordinate
  sparse matrices (SparseBackend).

| file | models |
|---|---|
| `Py.v` | the Python primitives used (indexing, slices, range, exceptions) |
| `Scalar.v` | numbers, `np.roots`, `1/math.sqrt`, `np.isclose` as oracles |
| `Mat.v` | numpy / scipy.sparse operations, `core/backend/NumpyBackend.py`, `SparseBackend.py` |
| `Utils.v` | `utils/linalg.py`, `utils/numpy.py` |
| `Gates.v` | `circuit_library/**`, `core/init_states.py` |
| `Circuit.v` | `core/moment.py`, `core/operator_flow.py`, `core/output.py`, `core/quantum_circuit.py` |
| `RawBackend.v` | `core/backend/core.py` and instances of the CUDA backends in the constructor of a circuit |
| `ListRegs.v` | `h`, `x` and `z` of `core/quantum_circuit.py` with a list of registers, and sequences of such calls and of all the others |
| `NumArgs.v` | `h`, `x`, `z`, `gate` of `core/quantum_circuit.py` with a bool or a numpy integer, `toffoli` and `cx` with a numpy array, and `get_qreg_moment` of `core/moment.py` in the layer of such a toffoli |
| `NumDims.v` | `gate` of `core/quantum_circuit.py` and the shape test of `circuit_library/__init__.py` with dimensions that are numpy integers |
| `ConsArgs.v` | `QuantumCircuit.__init__` with tuples, numpy arrays and ints as `init_states`, and other objects as `qregs` (an empty array, whose truth value depends on the version of numpy, is left out) |
| `UserMat.v` | `ArbitaryGate.unitary` and `run()` where `_unitary` is a list, a sparse matrix or a number |
| `LibList.v` | `gate()` given a class of the library and a list of registers |
| `Session.v` | the list objects a circuit shares with its operators, and `run()` interleaved with other calls |
| `Alias.v` | register lists and lists given to `cx` that the caller edits later (`toffoli` computes its matrix at once and `run()` does not read the list given to `gate`; one shared cx list per circuit) |
| `Info.v` | `get_circuit_config`, `get_circuit_info`, `utils/debug.py` |
| `Draw.v` | `QuantumCircuit.__str__`, `utility/circuit_draw.py` (texts, rows and errors) |
| `DrawPages.v` | positions of the layers and figures in `utility/circuit_draw.py`; widths of rendered texts are a parameter, positions are exact rationals instead of floats |
| `Qasm.v` | `qasm/qasm_parser.py`: `circuit_from_qasm`, with the `re` functions it uses (ASCII texts; reading the file is in `QasmFile.v`) |
| `QasmFile.v` | `qasm/qasm_parser.py`: `parse_qasm` (line ends; opening the file and decoding its bytes are left out) |
| `Tree.v` | `test_circuit/circuit.py`, `useQudiet.py` (`RUN_CIRC`), `mathematical_expectation` of `main.py` |
| `TreeTests.v` | `test_circuit/test_useQudiet.py`, the inputs and the check of `main.py`; random draws as parameters |
| `Batch.v` | `experimental.py`: `main`, `routine`; files by name, the found files as a parameter |
| `License.v` | `scripts/license-headers.py`: files as lists of lines, directories as what `os.walk` yields, the year as a parameter |
| `FlowMany.v` | `core/operator_flow.py`: `populate_opflow` on several moments |
| `Complex.v` | the complex numbers over the standard library reals as scalars; the order of the roots is a parameter |
| `Doubles.v` | IEEE binary64 numbers as scalars (`Coq.Floats.SpecFloat`); the roots are a parameter |
| `Cost.v` | the backends with counters for the multiplications in kron and dot; building a gate's matrix is not counted |
| `Csr.v` | sparse matrices stored by rows, added up inside dot: `SparseBackend.py` as scipy runs it |
| `RoundArith.v` | complex arithmetic with a rounding of the reals after every operation |
| `Sanity.v` | the repository's unit tests replayed on the model (tests, not proofs) |

Proofs are kept out of these files.  `Spec.v` is an independent specification:
configurations are lists of levels, states are functions from configurations to
scalars, gates are state transformers.  It does not mention matrices, layers,
Kronecker products or truth tables.  `Calls.v` relates API calls to spec gates,
`HistSpec.v` and `CallSpec.v` describe call histories and rejected calls,
`ShapeSpec.v` matrices that are no larger than their registers,
`PartsSpec.v` unchanged registers, sums of increments and circuits side by side, `OverlapSpec.v` inner products and marginals, `RenameSpec.v` renamed registers, `CommuteSpec.v` gates that may be exchanged, `DepthSpec.v` greedy layering,
`AliasSpec.v` edits of shared lists, `PermSpec.v` permutations of basis states and affine maps, `BackendSpec.v` the operations of a backend, `DrawFailSpec.v` and `FigSpec.v` operations without a drawing, `HadSpec.v` the order of roots, `RaiseSpec.v` the exception each operation calls for, `RoundSpec.v` errors of operations and states, `InfoSpec.v` depth and gate counts, `LicenseSpec.v` files with a license header, `DrawSpec.v` the two drawings,
`QasmSpec.v` and `QasmLineSpec.v` QASM texts and what they ask for, `TreeSpec.v` the Toffoli gate
the tree decomposition is for, and `ComplexSpec.v` the vocabulary over the complex numbers.  Theorems are collected in `Props_*.v`,
each with `Print Assumptions`.

## Plan per property

| id | property | modelled | proof |
|---|---|---|---|
| C01 | run() applies the gates in call order | spec: states as functions from configurations to scalars, one transformer per gate; refinement of `simulate` | induction over the call list with the layer invariant; Kronecker entries as products; associativity of the matrix product |
| C02 | x(plus) is the cyclic increment of one register | `x_unitary`, `circulant`, `unitary` | entry-wise computation of the circulant; corollary of C01; error branch by cases on `py_index` |
| C03 | cx adds to the target exactly when the control is at its top level | `cx_rows`, `cx_update`, `ttg`, `get_index` | `ttg` enumerates all configurations lexicographically; each row is a unit vector; embedding in the register line |
| C04 | toffoli fires exactly when all controls are at their top level | `toffoli_dm`, `mk_toffoli`, `arb_unitary` | same enumeration; the matrix is a permutation matrix, hence passes `is_unitary` |
| C05 | Reversible circuits give one outcome with amplitude exactly 1 | classical evaluator on configurations | invariant: state is a delta function |
| C06 | Placing a gate into an earlier idle slot never changes the result | `populate_opflow`, `replace_igate` | (A⊗G⊗B) = (I⊗G⊗I)(A⊗I⊗B); commuting transformers in the spec |
| C07 | Layers always tile the register line | all API calls | invariant over histories |
| C08 | measure_all is final | all API calls | case analysis on `populate_opflow` once all registers are measured |
| C09 | run() before measure_all() raises AssertionError | `flow_exec` | invariant: all measured iff measure_all was called |
| C10 | Dense and sparse backends agree | both backends as records of operations | `toarray` is a homomorphism from COO to dense; relational induction over gates, layers, flow |
| C11 | Basis-state labels and indices are inverse | `bin_to_Nbase`, `Nbase_to_bin` with int64 wrap | mixed radix induction |
| C12 | Every outcome label has one digit per register, below its dimension | `output_call`, `mk_label` | digit bounds; injectivity of concatenated one-character numerals |
| C13 | Printed labels are ambiguous above dimension 10 (defect) | `mk_label` | witness |
| C14 | Register index too large is rejected | validation in `api` | case analysis; lifting through later histories |
| C15 | Negative register indices are silently ignored (defect) | `add_moment`, `populate_opflow` | the new layer is all identities; refinement as in C01 |
| C16 | Wrong gate dimension never yields a wrong answer | `validate1`, `run` | sizes of gate matrices and layers over histories: under the guard `tame` every layer is square and at most as large as the line, so one that is smaller cannot meet the initial column; witnesses for the guard |
| C17 | Constructor validation | `mk_circuit`, `init_state` | case analysis / induction on the registers |
| C18 | Negative initial levels wrap around (defect) | `init_state` | case analysis |
| C19 | The constructor writes to the caller's init_states list (defect) | `init_arg_after` | direct |
| C20 | Tuple form of qregs is not equivalent to the list form (defect) | `mk_circuit` with `QTuple` | general statement for the empty circuit, plus witness |
| C21 | Depth bookkeeping | `get_circuit_config`, `get_circuit_info` | invariant over histories |
| C22 | Gate counts are exact | `get_circuit_info` | invariant over histories against a separate counter |
| C23 | h on level 0 gives the uniform superposition; h twice undoes it | `h_unitary` with the root oracle | sum of the roots is zero |
| C24 | h is unitary for qubits and qutrits | `h_unitary`, d = 2, 3 | entry-wise, over the complex instance |
| C25 | h is not unitary for ququarts (defect) | `h_unitary`, d = 4 | all orders of the roots, inner product of two columns |
| C26 | z multiplies each level by a d-th root of unity | `z_unitary` | entry-wise |
| C27 | Total probability is 1 | complex scalar instance | each spec transformer preserves the squared norm |
| C28 | Probability output is the square, not the squared modulus (defect) | `output_call` | direct; witness over the complex instance |
| C29 | Inverse gates cancel | spec programs | spec transformers compose to the identity, then C01 |
| C30 | Toffoli whose target is also a control is rejected at run | `toffoli_dm`, `is_unitary` | two equal rows make the product differ from the identity |
| C31 | cx with control = target is accepted and is not reversible (defect) | `cx_rows` | general matrix computation |
| C32 | Single-register arbitrary gates act as their matrix | `arb_unitary` | C01 for the positive part; failing layer for the negative part |
| C33 | Two-register arbitrary gates and one-control toffolis always fail (defect) | `arb_unitary` | failing layer makes `run` fail |
| C34 | Multi-register arbitrary gates ignore the order of their register list (defect) | `api` on `CGate` | the layers built are equal up to the stored register list |
| C35 | run() is repeatable | `run` reads only | histories with interleaved runs |
| C36 | Layer objects form a consistent doubly linked list | `append_moment` | invariant over histories |
| C37 | QASM text and API calls build the same circuit | `Qasm.v`: regular expressions as a small backtracking matcher | line-based grammar in `QasmSpec.v`; each substitution, split and search is computed on its lines |
| C38 | QASM ignores what it does not recognise | `Qasm.v` | case analysis on the line prefix |
| C39 | QASM Toffoli on qubits does not compute AND (defect) | `Qasm.v` | witness by computation and a general lemma on the raised dimensions |
| C40 | QASM increments are misread (defect) | `Qasm.v` | computation of the matched increment for every register and increment |
| C41 | QASM section markers must start a line | `Qasm.v` | count of the section matches |
| C42 | The text drawing shows each gate in its row and column | `Draw.v`: `__str__` | cell by cell from the layer invariant |
| C43 | The matplotlib drawing mislabels shifted gates (defect) | `Draw.v`: label computation of the two helper functions (no rendering) | case analysis |
| C44 | Tree decomposition computes the n-qubit Toffoli | `Tree.v`: executable version of the tree decomposition | induction over the heap-shaped tree; simulation of the emitted gate list on levels |
| C45 | Tree decomposition uses every node once and maps nodes bijectively to wires | `Tree.v` | in-order traversal is a permutation |
| C46 | Gate-count formulas | `Tree.v` | counting by induction |
| C47 | weak_compare cannot tell equal-length circuits apart (defect) | `Info.v`: `weak_compare` | direct; for different lengths the measurement layer is reached and raises |
| C48 | Tuple circuits misreport their width (defect) | `Info.v` | from the layer invariant of C21 |
| C49 | Gate labels of the tree decomposition disagree with its counters (defect) | `Tree.v`: `tree_body`, `make_gates` | both counts in closed form |
| C50 | Tree decomposition of fewer than three lines raises | `Tree.v`: `mk_tree`, `run_circ` | direct |
| C51 | circuit_output keeps the last result | `Session.v`: `do_run`, `do_call` | induction over the actions |
| C52 | Every QASM gate line makes one call, is skipped, or raises | `Qasm.v`: `gate_call`, `py_int`, `first_int` | words, integers and first numbers as inductive relations in `QasmLineSpec.v`, shown total and equal to the functions |
| C53 | QASM Toffoli takes exactly two controls (defect) | `Qasm.v`: `raise_dims` | what a match of the Toffoli pattern needs; the text that is left is not an integer |
| C54 | QASM register count and register names are not checked (defect) | `Qasm.v` | both texts reduce to the same dimensions and lines |
| C55 | What the gates of the tree decomposition say about their registers | `Tree.v`: `make_gates`, `get_reflection`, `tree_qregs` | list of all emitted gates from the closed form of the levels, case analysis on the node |
| C56 | Registers that are only controls keep their level | C01 | every transformer keeps the support of the state inside a fixed level of the register |
| C57 | Increments add up | C01, C29 | composition of the classical moves |
| C58 | Independent parts multiply | C01 | the amplitude of a configuration is the product of the amplitudes of its parts, kept by each gate of either part |
| C59 | Depth of a program | `get_circuit_config`, `populate_opflow` | the free registers of the last layer as an invariant over histories, compared with greedy layering |
| C60 | The tree decomposition is shallow, the circuit built from it is not (defect) | `Tree.v`; C59 | subtrees of different pairs are disjoint; every cx opens a layer |
| C61 | Which files the license check reports | `License.v` | the two loops decide the shape of the content; paths split at slashes |
| C62 | After the license fix the check passes | `License.v`: files visited in turn, contents changing | the content of one file follows from whether it is visited and reported |
| C63 | License headers double each year (defect) | `License.v` | decimal texts of different years differ |
| C64 | populate_opflow loses gates after a merge (defect) | `FlowMany.v`: the loop with its early returns | induction over the moments |
| C65 | gate() on a list of at most one register | `Circuit.v`: `CGate` | both calls add the same layer up to the written register; `Relate.v` |
| C66 | Reversible gates move outcomes | C01 | the final amplitude at the moved configuration is the one before; a bijection permutes the list of configurations |
| C67 | A spare level replaces an ancilla | C66 | the three moves in closed form |
| C68 | A reversible start is an initial state | C01, C05 | the state after the prefix is a basis state |
| C69 | The controls of a Toffoli gate are a set | C01, C04 | the two gates move every configuration alike |
| C70 | Registers nobody changes keep their distribution | C01, C27 | masking commutes with the gates, isometries keep the norm |
| C71 | Runs keep their overlap | C01, C27 | isometries keep inner products |
| C72 | Registers can be renamed | C01 | the amplitudes of renamed gates between rearranged configurations |
| C73 | The generated tests of the tree decomposition pass | `TreeTests.v`: random draws as parameters | C44 and C50 for every drawn case |
| C74 | The check of the gate and line counts never fires (defect) | `TreeTests.v`: `alarm` | C46 |
| C75 | What a batch run leaves on disk | `Batch.v`: files by name, one routine after another | split and join of the name at its dots; names of results are not names of sources |
| C76 | Examples of the README do not do what they say (defect) | the calls and texts of the README | C03, C12, C41 |
| C77 | Compatible gates may be reordered | `Flow.v`, `Circuit.v` | `CommuteSpec.v`; increments of one register commute, gates with disjoint effects commute as sums over configurations; then C01 |
| C78 | GHZ states | C01, over the complex numbers | the state after the h gate is spread over one register (C23); the cx chain moves its two outcomes (C66); sortedness of the answer fixes their order |
| C79 | Hidden parities are found | C01, over the complex numbers | `Product.v`: states in which every register has a state of its own; h acts on one factor, a cx onto a qubit that changes sign moves the sign to its control |
| C80 | Recorded testbench outcomes | `run_text` of C37; the texts and outcomes are data in `BenchTexts.v` | `BenchLib.v` reads a text into dimensions and gates without building the circuit; C05 then gives the outcome by moving one configuration |
| C81 | Bernstein-Vazirani of the testbench | C01, over the complex numbers | as C79; the last factor stays between its two levels |
| C82 | Grover over four states | C01, over the complex numbers | `Two.v`: states of two qubits as four amplitudes; one lemma per gate and per block |
| C83 | Two wrong testbench files | `run_text`, C59 | `BenchLib.v` reads the texts; C82 and C05 give the outcomes |
| C84 | Utilities | quotients and remainders; first match | `GateMat.v`, `Convert.v` already have the truth table and the index |
| C85 | `is_controlled`, `is_single_qudit` | `made_by`, `named` | C07 gives the gate in the last layer; cases |
| C86 | Asking a layer for a register | `covers`, `registers` | `AttrsLib.v`: a layer tiles the line (C07), so at most one gate covers a register |
| C87 | h from any levels | square modulus of a column of the h matrix | `Uniform.v`: one register at a time |
| C88 | Deutsch-Jozsa | counting the inputs that satisfy f | `Jozsa.v`: linearity of `final`, the states after h as products, C05 for the oracle |
| C89 | Tests of the repository | the expected values in the tests | C05, C32, C59, C82, C83, C87; texts parsed by computation |
| C90 | Reversible circuits are exact in floating point | `BitSpec.v`: the laws of 0 and 1; C05 in other respects | `Bits.v`: a matrix follows a map of indices; eye, kron, dot, transpose and the gates' matrices do, using only the laws of bits; `BitRun.v`: layers and runs; `Doubles.v`: binary64 of `Coq.Floats.SpecFloat` has the laws by computation |
| C91 | Matrices user gates accept | `AcceptSpec.v`: a real inequality for pairs of rows | `is_unitary` unfolded; C01 and C32 for the runs |
| C92 | Probability can grow (defect) | `nearly_orthonormal`, `prob_sum` | multiples of the identity; C01; Bernoulli's inequality |
| C93 | Descriptions of layers | class names and shapes by cases (`described`) | shapes of the gate matrices (`GateMat.v`), `BackendEq.v` |
| C94 | Kinds of nodes | `has_grandchild` in terms of children | linear arithmetic |
| C95 | Edited register list (defect) | `AliasSpec.v`: configurations at the same place of two enumerations | `all_configs` in the order of `lin`; the labelling part of C01 for arbitrary `o_base` |
| C96 | Shared cx list (defect) | `AliasSpec.v`: `amounts`, the gates that acts amount to for the final contents | layers as functions of the list (`AliasRun.v`); the layer invariant of C01; a layer with a cx that cannot be built raises |
| C97 | Any backend | `BackendSpec.v`: entries of the results of the operations | a relation between dense matrices and those of the backend, kept by `unitary`, `moment_exec` and `flow_exec` |
| C98 | Circuits with a drawing | `DrawFailSpec.v`: trouble by the registers of a cx | shape of the canvas as invariant; every gate of a layer comes from an accepted call; gates stay |
| C99 | Rounding errors stay small | `RoundSpec.v`: error per operation, growth of a row vector, distance of states; exact result from `Spec.v` | `ScalarMap.v`: building a circuit commutes with reading its numbers as complex numbers; `CNorm.v`, `RoundLib.v`: Frobenius norm and componentwise relative errors of kron and dot; `RoundOps.v`: the matrices of the gates; `RoundRun.v`: layers and their product by induction; `RoundThm.v`: growth factors along the calls; `RoundBound.v`: growth of unitary and of accepted matrices; `RoundInst.v`: rounding to p digits |
| C100 | The default backend the way scipy multiplies | `BackendSpec.v`, `RoundSpec.v`, `Bits.v: follows`: what a backend has to compute | `CsrLib.v`: stored entries of each operation; `CsrThm.v`: sums over stored entries against sums over all indices, exact, rounded, and on 0/1 matrices; then C97, C99 and `fsimulate` of C90 |
| C101 | What run() costs (defect) | `CostSpec.v`: the two counts as formulas in N and D, the run from the other end; `DepthSpec.v: layering` for D | `Cost.v` adds counters to any backend; `CostThm.v`: counting changes nothing, costs of blocks, layers and products from the shapes; `CostRun.v`: the layers of a program (C59), the same result from the other end; `CostBits.v`: one stored entry per column for reversible layers |
| C102 | Figures of the matplotlib drawing | `PagesSpec.v: laid_out` (all layers once, numbered, spaced, full figures) | `DrawPages.v` models the loop with text widths as a parameter and exact positions; `PagesThm.v`: induction over the moments with the figure being drawn; the comparison of two values of compress goes by comparing (figure, position) at every moment |
| C103 | What every call answers | `AnswerSpec.v: reply`, an independent table of answers | `Answers.v`: case analysis of every call on a circuit of a history; `toffoli_total`: the matrix construction of toffoli succeeds for every list of Python indices of the line |
| C104 | When run() succeeds | `SucceedSpec.v: plain` (the calls considered), `CallSpec.v: skipped`, `Calls.v: denotes`, `Spec.v: gate_ok` | `RunsIff.v`: every plain call asks for a valid gate, is skipped, or breaks the circuit; `Succeeds.v`: breaking by size, since no plain call issues a matrix with fewer rows than basis states, one with more makes a layer that cannot be multiplied |
| C105 | Line ends of QASM files do not matter, those of QASM texts do (defect) | `QasmFile.v`: `universal`, `parse_qasm`; the text a file shows is the relation `QasmFileSpec.v: shows` | `QasmFileLib.v`: `universal` computes the text shown; a document with CR LF is a document whose lines end with a blank, and each line keeps its outcome |
| C106 | h is unitary only on qubits and qutrits (defect) | `h_unitary`; the order of the roots is `HadSpec.v: paired` | `HadLib.v`: the products of rows are the cyclic autocorrelation of the roots, and the matrix is normal; `HadOrder.v`: for odd d the alternating sum of the roots would have squared modulus d but is too large, for even d the autocorrelation at distance 2 has a negative imaginary part; `HadRun.v`: since the matrix is normal, the probabilities after two h calls add up over all starting levels to more than d |
| C107 | Circuits with a figure | `FigSpec.v: unmarked` by the registers and spanned dimensions of one operation | each operation of a history is drawn or raises as told; the nested loops stop at the first one; gates stay |
| C108 | The exception of run() | `RaiseSpec.v: verdict_of, failing` by the arguments of each operation and the sizes | each operation of a history raises or has the size told (toffoli: reduced to the spanned registers); the kron and dot folds stop where told; labels exist below the number of outcomes |
| C109 | h, x, z with a list | `ListRegs.v: list_call`; the layer that is added, the exceptions | checks by cases; no Toffoli acting on idle registers can be in the last layer; the added layer has fewer rows than the initial state, so some product fails; for later calls a well-formed circuit with a stand-in for each such gate goes through the same steps (`ListAfter.v`) |
| C110 | Tuple circuits | `Circuit.v: mk_circuit`, `Draw.v`; the list circuit as the specification | the two circuits differ in one field, read by toffoli and the drawings only; the initial state of the first register without a row raises |
| C111 | gate() with classes of the library | `LibGates.v: lib_gate`; `LibSpec.v: mixes`, `holds_identity` | an identity of the right size is the step of a call that adds an idle layer, so the theory of histories applies; a smaller one is followed through later calls by the relation of `Relate.v` and found by the shape argument of `Shapes.v` |
| C112 | which permutations can be programmed | `PermSpec.v: swap`, `permutes`; the model through C05 | a controlled increment on all other registers between increments turns one line of basis states; the commutator of two crossing lines is a cycle of three, which links every pair of basis states, and an even dimension gives an odd cycle; for odd dimensions the sign of a permutation is a homomorphism and every call is a square (`Universal.v`, `Sign.v`) |
| C113 | x and cx on qubits | `PermSpec.v: xor`, `affine`, `permutes`; the model through C05 | each gate is affine level by level; conversely elimination: x calls move the image of the zero state to zero, then for each qubit in turn cx calls turn the image of its unit state into the unit state, and a permutation that fixes zero and all units is the identity (`Affine.v`) |
| C114 | circuits of h, x, z, cx on qubits | `PermSpec.v: clifford`, `xor`; the model through C01 | amplitudes are integers times a power of 1/sqrt 2; every gate permutes, up to sign and a common factor, the correlations sum_x (-1)^(v.x) a(x) a(x+u), so each is always 0 or plus or minus the norm; Fourier inversion of the squares then makes them equal on the support and closes the support under sums of three (`Stab.v`, `StabRun.v`) |
| C115 | backends that cannot be used | exceptions of the constructor of `RawBackend.v`, which calls `backend.matrix` where init_states.py:54 does | the first element of the initial states decides; if the call returns, the constructor is that of `Circuit.v` |
| C116 | circuits can be taken back with the calls of the library | `ComplexSpec.v: exact`; the model through C01 | h twice is x -> -x mod d in dimensions 2 and 3, so h four times is the identity; z repeated d times multiplies by d-th powers of roots; x, cx, toffoli by the opposite increment; induction over the calls, in reverse (`Undo.v`) |
| C117 | the probabilities a circuit of the library's gates can have | numbers of h calls; the model through C01 | amplitudes are x + y w with integers x, y and w a third root of unity, times a power of 1/sqrt 2 and one of 1/sqrt 3; x^2 - xy + y^2 is an integer; the bound with C27 (`Denoms.v`) |
| C118 | register list edited between calls (defect) | `AliasSpec.v`: `carried` moves amplitudes to the same place of another enumeration; `starts_layer` | circuits whose layers are an arbitrary prefix followed by layers for the new dimensions, after Refine.v; matrices of one size are matrices for either register list; a product with another size raises (`AliasMid.v`) |
| C119 | outputs made for other registers (defect) | `rename_all` as in C95 | the labelling part of C01 for arbitrary `o_base`; places below the product |
| C120 | Grover's search | C01, over the complex numbers; `turns_over` says what the calls of an oracle do to configurations | `Grover.v`: states of n qubits with any amplitudes times a qubit that changes sign; h twice is the identity, so a round subtracts twice the average; `GroverAngle.v`: the recursion of sines and cosines; `GroverRun.v`: x gates and a toffoli recognise a pattern |
| C121 | a circuit on some registers acts as it does alone | C01 on both lines; `part`, `there`, `puts` of `EmbedSpec.v` say what the smaller line and its levels are | `Embed.v`: `final_embed`, by induction on the program, one gate at a time |
| C122 | teleportation | C01, over the complex numbers; `listed` reads a result | `Protocols.v`: gates on qubits as functions of configurations, the eight gates computed at a configuration; `EmbedRun.v`: from results to final states |
| C123 | superdense coding | as C122 | `Protocols.v` (`dense`) |
| C124 | repetition code | as C122, for any scalar | `Protocols.v` (`repeated`, `restored`) |
| C125 | numpy integers and bools as register numbers | `NumArgs.v: num_api`, against `api` with the same ints | `NumThm.v`: the type tests of `populate_opflow` and `h`, `x`, `z` by cases; scripts by a relation between the two runs |
| C126 | registers in a numpy array | `NumArgs.v: toffoli_array`, `cx_array`; what is done is said by `api` with a list | `NumThm.v`: the column of wire indices computed with array addition instead of list concatenation is the column for other registers; the layer is searched as always up to the Toffoli, where the comparison with an array fails |
| C127 | other kinds of arguments of the constructor | `ConsArgs.v: construct`, against `mk_circuit` with a list | by cases on the argument and its length |
| C128 | user gates whose matrix is not a numpy array | `UserMat.v: run_of`, against `UserMatSpec.v: raises_of` (first failing gate) | layer by layer as for C108; where no gate fails the two runs are equal |
| C129 | `gate()` with a library class and a list of registers | `LibList.v: lib_list`, against `list_call` (C109), `final` of `Spec.v` and `run_of` (C128) | the moment differs from that of a user gate or of a list call only in the gate object; a gate without a matrix stays in the circuit; the identity on one register is `GU` with the unit matrix, on several its matrix is too small |
| C130 | three-qubit code against phase errors | as C122 | `PhaseThm.v`: h on three qubits, a diagonal matrix on one, h on three is a matrix of the kind [[x, y], [y, x]] on that one; then `restored` of C124 |
| C131 | a circuit on neighbouring registers is one gate | two runs compared; the matrix is read from runs of the circuit alone with `listed` and `holds_entries` | `Fuse.v`: the final state is a sum over starting configurations (`final_sum`), which is what `GSpan` on the whole of a line does; `final_embed` of C121 for both programs; rows of a permutation are orthonormal |
| C132 | dimensions that are numpy integers | `NumDims.v: dims_simulate, tuple_simulate`, against `simulate` with ints and, for the wrong size, `verdict` of C108 | `NumDimsThm.v`: a relation between the operations of the two circuits (`Relate.v`); `WrongSize.v`: the gate stays in its layer, whose size is then not that of the line, and all other layers are square. A list with a numpy `dims` has the same relation to the list written three times |

A property whose title ends in "(defect)" states behaviour that contradicts
the documentation or the obvious intention; the theorem proves that the code
behaves that way (a refutation of the intended property), in general form
where possible and with a concrete witness.

## Trusted base

* Coq's kernel (and its virtual machine for `vm_compute`).
* The reading of /repo recorded in the comments of the model.
* What `Print Assumptions` lists under each theorem: nothing for the
  scalar-parametric theorems; the axioms of the standard library reals for the
  theorems about complex amplitudes (see the list at the end of this file).
* Library behaviour assumed by the model: numpy before 2.0 (`np.product`
  exists); `scipy.linalg.circulant` accepts the `(d, 1)` column of `x.py` by
  flattening it (scipy before 1.17); `np.repeat` accepts the float 1.0 as a
  count; `assert` statements are enabled; `np.roots` returns d numbers.

## Not modelled

* Overflow, underflow, NaN and signed zeros in circuits with h, z or user gates,
  and the order in which LAPACK returns roots (oracle; C106 assumes what LAPACK documents
  about conjugate pairs).  Rounding itself is covered
  by C99 for any order of the additions in a dot product.  `SparseBackend` of the model adds up duplicates only
  at the end, scipy inside dot: C100 is about `Csr.v`, which does the same; the
  blocks of scipy's bsr format are not modelled.  For circuits of x, cx and toffoli gates
  C90 covers all of IEEE arithmetic; the order in which BLAS adds, and fused operations, do
  not matter there since every product and partial sum is 0 or 1.
* Memory and time limits, warnings, printing.
* The CUDA backends and the rendering done by matplotlib.  C97 applies to any
  backend with the stated operations; whether cupy has them is not claimed.
  Instances of the CUDA backends and the base class `Backend` cannot be used:
  `RawBackend.v` models the constructor up to the exception (C115).
* `cregs` (an integer), `name`, `debug`, which have no observable effect; a list of `cregs` with a tuple of registers makes `get_circuit_config` raise.
* The attribute `dims` of a CXGate (cx.py:62-64), which nothing reads.
* Dead code: the body of `populate_opflow` after its first return,
  `__placeholder_identity`, `__insert_placeholder_identity`.
* QASM texts with characters outside ASCII, numerals beyond Python's digit limit
  for `int()`, and opening and decoding the file.
* In `test_circuit`: the floating-point `floor(log(c, 2))` is a parameter, assumed
  only not to be below the exact value; loops and recursion carry a fuel that
  provably has no influence (`C45_fuel_is_enough`); printing, timing, plots and
  the random inputs of `main.py` are left out.
* In `Batch.v`: errors while writing, the times that are saved, the printed
  messages and the reading of the command line.
* In `License.v`: errors of the file system, and the translation of line ends.
* `BenchTexts.v` is data: texts of `testbench/` copied character by character
  and the outcomes found in the `.pkl` files next to them. The copy is by script
  and is trusted. Depths and times in those files are not used; for circuits
  with Toffoli lines the recorded depths come from an earlier version that wrote
  three cx gates for each of them.
* In `LibGates.v`: `gate()` given `ArbitaryGate` itself (see `UserMat.v`), or a class with a list of
  registers (see `LibList.v`), or a negative dimension for the identity (also not in `LibList.v`).
* Ill-typed arguments (floats, strings as registers), except where noted.  In `NumArgs.v` the
  `dims` argument is a Python int; in `NumDims.v` numpy integers are signed and wide enough
  not to overflow, and the number of registers of a tuple is an int.

## Axioms

Every theorem outside `Props_Complex.v`, `Props_Overlap.v`, `Props_Algo.v`, `Props_Bench.v`, `Props_Uniform.v`, `Props_Jozsa.v`, `Props_Grover.v`, `Props_Embed.v`, `Props_Phase.v`, `Props_Accept.v`, `Props_Round.v`, `Props_Had.v`, `Props_Csr.v`, `Props_Clifford.v`, `Props_Undo.v`, `Props_Denoms.v` and (C89, the tests with h) `Props_RepoTests.v` is closed under the global context.
The theorems of `Props_Complex.v` (C23 - C27 and
`C28_reported_number_need_not_be_real`), C70, C71 of `Props_Overlap.v`, C78, C79 of `Props_Algo.v`, C81, C82, C83 (grover) of `Props_Bench.v`, C87, C88, `C89_tests_with_h_hold`, C91, C92, C99, C106, C114, C116, C117, C120, C122, C123, C130 and `C100_rounding_errors_stay_small` use these axioms of the Coq standard
library, on which its real numbers are built:

* `ClassicalDedekindReals.sig_not_dec`
* `ClassicalDedekindReals.sig_forall_dec`
* `FunctionalExtensionality.functional_extensionality_dep`

`coqchk` additionally lists everything the loaded standard library files
contain, used or not: `Coq.Logic.Classical_Prop.classic`, and the fields of
sealed modules (`Coq.Reals.Rdefinitions.RbaseSymbolsImpl.*`, `RinvImpl.*`,
`Coq.ssr.ssrunder.Under_rel.*`).  No theorem depends on
`Under_rel` or `classic`.
