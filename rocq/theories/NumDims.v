(** * NumDims: dimensions that are numpy integers
    (src/qudiet/core/quantum_circuit.py, src/qudiet/circuit_library/__init__.py). *)
From Verif Require Import Py Scalar Mat Utils Gates Circuit ListRegs NumArgs.
Set Implicit Arguments.

Section NumDims.
Variable S : scalar.
Notation mat := (mat S).
Notation circuit := (circuit S).
Notation call := (call S).

(** A call, or [gate(G, qreg, dims)] on one register or a list of registers
    with a [dims] that is no [int]. *)
Inductive dcall : Type :=
| DCall (k : call)
| DGate (u : mat) (qreg : Z) (dims : Z)
| DList (u : mat) (qregs : list Z) (dims : Z).

(** [self.dims] as the property [unitary] of an arbitrary gate looks at it: for
    a number that is neither [int] nor [list], lines 79 and 81 both fail and
    nothing is compared, as for a list of no entries.
    Models src/qudiet/circuit_library/__init__.py:78-90. *)
Definition checked (d : number) : regs :=
  match d with PyInt z => RInt z | NumInt _ => RList [] end.

(** [gate(G, qreg, dims)] for an [int] [qreg] on a circuit with the dimensions
    [ds]: [dims or self._reg_dims[qreg]] keeps the type of the number.
    Models src/qudiet/core/quantum_circuit.py:314-333. *)
Definition user_dims (ds : list number) (c : circuit) (u : mat) (q : Z) (dims : option number)
  : res (circuit * bool) :=
  _ <- validate1 c q (option_map value dims) ;;
  d <- match dims with
       | Some v => if (value v =? 0)%Z then py_get ds q else Ok v
       | None => py_get ds q
       end ;;
  add_moment c (RInt q) (OArb (RInt q) (checked d) u).

(** [gate(G, qregs, dims)] for a list of registers and a [dims] that is no
    [int]: zero is falsy, and then the list of the dimensions is used.
    Models src/qudiet/core/quantum_circuit.py:314-333. *)
Definition list_dims (c : circuit) (u : mat) (l : list Z) (d : Z) : res (circuit * bool) :=
  _ <- validate c (RList l) (Some d) ;;
  r <- (if (d =? 0)%Z then r <- mapM (py_get (c_dims c)) l ;; Ok (RList r)
        else Ok (checked (NumInt d))) ;;
  add_moment c (RList l) (OArb (RList l) r u).

(** One call.  The other methods use the dimensions by value: a numpy integer
    compares, multiplies and indexes like the number.
    Models src/qudiet/core/quantum_circuit.py:199-361. *)
Definition dims_api (ds : list number) (c : circuit) (k : dcall) : res (circuit * bool) :=
  match k with
  | DCall (CGate u (RInt q) dims) => user_dims ds c u q (option_map PyInt dims)
  | DCall k => api c k
  | DGate u q d => user_dims ds c u q (Some (NumInt d))
  | DList u l d => list_dims c u l d
  end.

Fixpoint dims_script (ds : list number) (c : circuit) (ks : list dcall) : res circuit :=
  match ks with
  | [] => Ok c
  | k :: ks' => '(c', _) <- dims_api ds c k ;; dims_script ds c' ks'
  end.

(** A whole user script on [QuantumCircuit(ds, ...)]: build, issue the calls,
    measure_all, run.  Models src/qudiet/core/quantum_circuit.py:60-143,363-418. *)
Definition dims_simulate (B : backend S) (ds : list number) (init : option (list Z)) (out : option output)
           (ks : list dcall) : res (list (label * S)) :=
  c <- mk_circuit S (QList (map value ds)) init out ;;
  c' <- dims_script ds c (ks ++ [DCall CMeasureAll]) ;;
  run B c'.

(** The same on [QuantumCircuit((n, d), ...)] with a [d] of either kind; the
    list of the dimensions holds the object [d] itself.  Simplification: [n] is
    an int.  Models src/qudiet/core/quantum_circuit.py:112-114,363-418. *)
Definition tuple_simulate (B : backend S) (n : Z) (d : number) (init : option (list Z)) (out : option output)
           (ks : list dcall) : res (list (label * S)) :=
  c <- mk_circuit S (QTuple [n; value d]) init out ;;
  c' <- dims_script (zrepeat n d) c (ks ++ [DCall CMeasureAll]) ;;
  run B c'.

End NumDims.

Arguments DCall {S}.
Arguments DGate {S}.
Arguments DList {S}.
