(** * LibGates: gate() given one of the gate classes of the library
    (src/qudiet/core/quantum_circuit.py, src/qudiet/circuit_library/standard_gates). *)
From Verif Require Import Py Scalar Mat Utils Gates Circuit.
Set Implicit Arguments.

(** The classes of src/qudiet/circuit_library/standard_gates and InitState. *)
Inductive gate_class : Type :=
| KlassH | KlassZ | KlassI | KlassX | KlassCX | KlassToffoli | KlassMeasurement | KlassInit.

Section LibGates.
Variable S : scalar.
Notation circuit := (circuit S).
Notation op := (op S).

(** The constructor called with the keywords [qreg], [dims] and [backend] and
    an integer register.  h.py:39, z.py:37 and i.py:36 take exactly these.
    x.py:38 and cx.py:40-46 want [plus] (and [acting_on]) as well,
    measurement.py:33 and init_states.py:34 have no [dims]: TypeError.
    toffoli_utility.py:80-81 unpacks the register number at line 21: TypeError. *)
Definition construct (k : gate_class) (q d : Z) : res op :=
  match k with
  | KlassH => Ok (OH q d)
  | KlassZ => Ok (OZ q d)
  | KlassI => Ok (OI q d)
  | KlassX | KlassCX | KlassToffoli | KlassMeasurement | KlassInit => Err TypeError
  end.

(** [c.gate(k, q, dims)] for an integer [q].  An identity of negative size
    ([dims] below 0), which numpy cannot build, is not modelled: [unitary] of
    Gates.v makes it an empty matrix.
    Models src/qudiet/core/quantum_circuit.py:314-333. *)
Definition lib_gate (c : circuit) (k : gate_class) (q : Z) (dims : option Z) : res (circuit * bool) :=
  _ <- validate1 c q dims ;;
  d <- dims_or c dims q ;;
  g <- construct k q d ;;
  add_moment c (RInt q) g.

(** A call of one of the methods, or of gate() with a class of the library. *)
Inductive mixed_call : Type :=
| Own (k : call S)
| Klass (k : gate_class) (q : Z) (dims : option Z).

Definition mixed_api (c : circuit) (k : mixed_call) : res (circuit * bool) :=
  match k with Own k => api c k | Klass k q dims => lib_gate c k q dims end.

(** An exception leaves the circuit as it was. *)
Definition mixed_step (c : circuit) (k : mixed_call) : circuit :=
  match mixed_api c k with Ok (c', _) => c' | Err _ => c end.

Definition after_mixed (c : circuit) (ks : list mixed_call) : circuit := fold_left mixed_step ks c.
End LibGates.
Arguments Own {S}.
Arguments Klass {S}.
