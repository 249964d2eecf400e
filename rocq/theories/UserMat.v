(** * UserMat: user gates whose matrix is not a numpy array
    (src/qudiet/circuit_library/__init__.py, src/qudiet/core/moment.py,
    src/qudiet/core/operator_flow.py, src/qudiet/core/quantum_circuit.py). *)
From Verif Require Import Py Scalar Mat Utils Gates Circuit.
Set Implicit Arguments.

(** What a subclass of ArbitaryGate may assign to [self._unitary]: a numpy
    array, a Python list of rows, a scipy sparse matrix, or a number such as the
    1 that ArbitaryGate itself leaves there (src/qudiet/circuit_library/__init__.py:51). *)
Inductive mat_object : Type := NdArray | PyRows | SparseMat | Number.

(** What [len(a)] and [a.dot] in [is_unitary] make of it: a list has no [dot],
    sparse matrices and numbers have no [len].
    Models src/qudiet/core/backend/NumpyBackend.py:56-58 and SparseBackend.py:52-54. *)
Definition misuse (k : mat_object) : option exn :=
  match k with
  | NdArray => None
  | PyRows => Some AttributeError
  | SparseMat | Number => Some TypeError
  end.

Section UserMat.
Variable S : scalar.
Notation op := (op S).
Notation mat := (mat S).
Notation circuit := (circuit S).
Notation opflow := (opflow S).

(** The objects behind the matrices given to gate().  [gate] and the layers
    do not look at them, so in Circuit.v any matrix can stand for an object that
    is not an array. *)
Variable object_of : mat -> mat_object.

(** [gate.unitary]: as [unitary] of Gates.v, but line 75 of
    src/qudiet/circuit_library/__init__.py fails for the other objects.  The
    matrix of a Toffoli is always an array (toffoli_utility.py:76). *)
Definition unitary_of (B : backend S) (o : op) : res B :=
  match o with
  | OArb _ _ u => match misuse (object_of u) with Some e => Err e | None => unitary B o end
  | _ => unitary B o
  end.

(** Models src/qudiet/core/moment.py:199-213 [Moment.exec]. *)
Definition exec_of (B : backend S) (l : list op) : res B :=
  match l with
  | [] => Err IndexError
  | g :: gs =>
      u <- unitary_of B g ;;
      fold_left (fun acc h => a <- acc ;; b <- unitary_of B h ;; Ok (b_kron a b)) gs (Ok u)
  end.

(** Models src/qudiet/core/operator_flow.py:243-284 [OperatorFlow.exec]. *)
Definition flow_of (B : backend S) (f : opflow) : res (option B) :=
  if forallb (fun b => b) (f_meas f)
  then
    match rev (f_list f) with
    | [] => Err IndexError
    | _ :: rest =>
        fold_left
          (fun acc m =>
             a <- acc ;;
             k <- exec_of B (m_list m) ;;
             match a with
             | None => Ok (Some k)
             | Some d => p <- b_dot d k ;; Ok (Some p)
             end) rest (Ok None)
    end
  else Err AssertionError.

(** Models src/qudiet/core/quantum_circuit.py:382-389 [run]. *)
Definition run_of (B : backend S) (c : circuit) : res (list (label * S)) :=
  r <- flow_of B (c_flow c) ;;
  match r with
  | None => Err AttributeError
  | Some m => output_call (c_out c) (b_toarray m)
  end.
End UserMat.
