(** * RawBackend: the constructor of QuantumCircuit with a backend whose
    operations may raise.  Definitions only. *)
From Coq Require Import List ZArith.
From Verif Require Import Py Scalar Mat Gates Circuit.

Set Implicit Arguments.

Section RawBackend.
Variable S : scalar.

(** What the constructor needs of the object passed as [backend]: the call
    [backend.matrix(a)] of src/qudiet/core/init_states.py:54, which may raise. *)
Record raw : Type := { r_mat : Type; r_matrix : mat S -> res r_mat }.

(** A backend whose [matrix] returns: NumpyBackend (core/backend/NumpyBackend.py:44-50),
    SparseBackend (core/backend/SparseBackend.py:44-46), as classes or as instances (their
    operations are static methods). *)
Definition usable (B : backend S) : raw :=
  {| r_mat := bm B; r_matrix := fun a => Ok (b_matrix a) |}.

(** Models src/qudiet/core/backend/core.py:46-48: [matrix] is a static method
    with two parameters, called with one argument, on the class [Backend] or on
    an instance of it: TypeError. *)
Definition BaseBackend : raw :=
  {| r_mat := Empty_set; r_matrix := fun _ => Err TypeError |}.

(** Models an instance of one of the two CUDA backends with CUDA_HOME set,
    src/qudiet/core/backend/CUDABackend.py:41-44 and
    CUDASparseBackend.py:41-44: [__getattribute__] does not return what it
    finds, so [backend.matrix] is None and calling it raises TypeError. *)
Definition CUDAInstance : raw :=
  {| r_mat := Empty_set; r_matrix := fun _ => Err TypeError |}.

Variable R : raw.

(** Models src/qudiet/core/init_states.py:34-54 [InitState.__init__]: lines
    43-51 are [init_state], line 54 calls [backend.matrix].  The object keeps
    the dense column, as in Gates.v. *)
Definition init_state_on (dim state qreg : Z) : res (op S) :=
  o <- init_state S dim state qreg ;;
  match o with
  | OInit _ _ _ v => _ <- r_matrix R v ;; Ok o
  | _ => Ok o
  end.

(** Models src/qudiet/core/quantum_circuit.py:363-380 [__initialize_states]. *)
Definition initialize_states_on (dims init : list Z) : res (opflow S) :=
  gates <- mapM (fun '(i, e) =>
             d <- py_get dims (Z.of_nat i) ;; init_state_on d e (Z.of_nat i))
           (combine (seq 0 (length init)) init) ;;
  '(f, _) <- populate_opflow (opflow0 S) (mk_moment 0 gates) ;;
  Ok f.

(** Models src/qudiet/core/quantum_circuit.py:60-123 [__init__] with
    [backend] given. *)
Definition mk_circuit_on (q : qregs) (init : option (list Z)) (out : option output) : res (circuit S) :=
  '(len, dims) <- reg_layout q ;;
  let st := pad_init len (match init with Some l => l | None => [] end) in
  f <- initialize_states_on dims st ;;
  Ok {| c_qregs := q; c_init := st; c_len := len; c_dims := dims;
        c_out := match out with
                 | Some o => o
                 | None => {| o_base := qregs_list q; o_type := OutPrint;
                              o_method := OutAmplitude |}
                 end;
        c_flow := f |}.

End RawBackend.
