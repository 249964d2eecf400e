(** * Alias: list objects the caller shares with a circuit.

    The API keeps references to two kinds of caller lists.  The register list
    is stored three times by the constructor (src/qudiet/core/
    quantum_circuit.py:91,100,118), and the list of registers passed to [cx] is
    stored in the gate (quantum_circuit.py:306-308, src/qudiet/circuit_library/
    standard_gates/cx.py:59) and read again whenever the layers are looked
    through (moment.py:81) or the circuit runs (cx.py:92).  The [circuit] record
    holds plain values; here the caller's later edits of these lists are modelled
    as updates of every place that holds the reference. *)
From Coq Require Import String.
From Verif Require Import Py Scalar Mat Utils Gates Circuit.
Set Implicit Arguments.
Local Notation length := List.length.

Section Alias.
Variable S : scalar.
Notation op := (op S).
Notation circuit := (circuit S).
Notation moment := (moment S).

(** ** The register list *)

(** The circuit after the caller overwrote the list given as [qregs] with [l]
    ([regs[:] = l]): [self.qregs], [self._reg_dims] and, in the default Output,
    [base] are that list.  [_reg_length] is a number computed at construction.
    Models src/qudiet/core/quantum_circuit.py:91,100,117-118 and
    src/qudiet/core/output.py:43-48. *)
Definition edit_regs (l : list Z) (c : circuit) : circuit :=
  {| c_qregs := QList l; c_init := c_init c; c_len := c_len c; c_dims := l;
     c_out := {| o_base := l; o_type := o_type (c_out c); o_method := o_method (c_out c) |};
     c_flow := c_flow c |}.

(** Build with the default output, issue the calls, measure_all, overwrite the
    register list, run. *)
Definition simulate_edited (B : backend S) (regs : list Z) (init : option (list Z))
           (ks : list (call S)) (l : list Z) : res (list (label * S)) :=
  c <- mk_circuit S (QList regs) init None ;;
  c' <- script c (ks ++ [CMeasureAll]) ;;
  run B (edit_regs l c').

(** Build with the default output, issue some calls, overwrite the register
    list, issue more calls, measure_all, run: the layers of the first calls keep
    the dimensions they were made with, those of later calls read the list
    (src/qudiet/core/quantum_circuit.py:165-196). *)
Definition simulate_edited_between (B : backend S) (regs : list Z) (init : option (list Z))
           (ks : list (call S)) (l : list Z) (ks' : list (call S)) : res (list (label * S)) :=
  c <- mk_circuit S (QList regs) init None ;;
  c' <- script c ks ;;
  c'' <- script (edit_regs l c') (ks' ++ [CMeasureAll]) ;;
  run B c''.

(** The same with an Output of the caller, whose [base] is another list; [o] is
    the Output as [run()] finds it.  The edit reaches [self.qregs] and
    [self._reg_dims] only.
    Models src/qudiet/core/quantum_circuit.py:90-93,100,117-118,382-418. *)
Definition edit_dims (l : list Z) (c : circuit) : circuit :=
  {| c_qregs := QList l; c_init := c_init c; c_len := c_len c; c_dims := l; c_out := c_out c; c_flow := c_flow c |}.

Definition simulate_edited_output (B : backend S) (regs : list Z) (init : option (list Z)) (o : output)
           (ks : list (call S)) (l : list Z) (ks' : list (call S)) : res (list (label * S)) :=
  c <- mk_circuit S (QList regs) init (Some o) ;;
  c' <- script c ks ;;
  c'' <- script (edit_dims l c') (ks' ++ [CMeasureAll]) ;;
  run B c''.

(** ** The list given to cx *)

(** [gate.acting_on] of a cx made from the shared list, once the list is [l].
    Models src/qudiet/circuit_library/standard_gates/cx.py:59,161-168. *)
Definition retarget (l : list Z) (o : op) : op :=
  match o with OCX q _ p => OCX q l p | _ => o end.

Fixpoint mapi_from {A B} (f : nat -> A -> B) (k : nat) (l : list A) : list B :=
  match l with [] => [] | x :: xs => f k x :: mapi_from f (Datatypes.S k) xs end.

(** The gates that hold the shared list are given by the index of their layer
    and their index in the layer; neither changes later, because layers are only
    appended (operator_flow.py:215-219) and gates only replaced in place
    (moment.py:146). *)
Definition holds (marks : list (nat * nat)) (i j : nat) : bool :=
  existsb (fun m => Nat.eqb (fst m) i && Nat.eqb (snd m) j)%bool marks.
Definition retarget_ops (marks : list (nat * nat)) (l : list Z) (i : nat) (ops : list op) : list op :=
  mapi_from (fun j o => if holds marks i j then retarget l o else o) 0 ops.
Definition retarget_moment (marks : list (nat * nat)) (l : list Z) (i : nat) (m : moment) : moment :=
  {| m_name := m_name m; m_prev := m_prev m; m_next := m_next m;
     m_operations := retarget_ops marks l i (m_operations m);
     m_list := retarget_ops marks l i (m_list m) |}.
Definition retarget_flow (marks : list (nat * nat)) (l : list Z) (f : opflow S) : opflow S :=
  {| f_list := mapi_from (retarget_moment marks l) 0 (f_list f); f_meas := f_meas f |}.

(** What the caller does: an API call with arguments of its own, [cx(pair, plus)]
    with the shared list, or an edit of the shared list. *)
Inductive act : Type :=
| ACall (k : call S)
| AShared (plus : Z)
| AEdit (l : list Z).

Record shared : Type := { h_circuit : circuit; h_list : list Z; h_marks : list (nat * nat) }.

Definition is_cx (o : op) : bool := match o with OCX _ _ _ => true | _ => false end.
Fixpoint first_cx (ops : list op) : nat :=
  match ops with [] => 0 | o :: os => if is_cx o then 0 else Datatypes.S (first_cx os) end.

(** One step.  After [cx] the new gate is the only cx of the layer appended at
    the end (quantum_circuit.py:174-197), unless the circuit is already measured
    and nothing is appended (operator_flow.py:161-162). *)
Definition perform (st : shared) (a : act) : res shared :=
  match a with
  | ACall k =>
      '(c, _) <- api (h_circuit st) k ;;
      Ok {| h_circuit := c; h_list := h_list st; h_marks := h_marks st |}
  | AShared plus =>
      '(c, _) <- api (h_circuit st) (CCX (h_list st) plus) ;;
      let n := length (f_list (c_flow (h_circuit st))) in
      Ok {| h_circuit := c; h_list := h_list st;
            h_marks := match nth_error (f_list (c_flow c)) n with
                       | Some m => (n, first_cx (m_list m)) :: h_marks st
                       | None => h_marks st
                       end |}
  | AEdit l =>
      Ok {| h_circuit := set_flow (h_circuit st) (retarget_flow (h_marks st) l (c_flow (h_circuit st)));
            h_list := l; h_marks := h_marks st |}
  end.

Fixpoint perform_all (st : shared) (acts : list act) : res shared :=
  match acts with
  | [] => Ok st
  | a :: rest => st' <- perform st a ;; perform_all st' rest
  end.

(** Build, perform the acts starting with the list [pair], measure_all, run. *)
Definition simulate_shared (B : backend S) (q : qregs) (init : option (list Z)) (out : option output)
           (pair : list Z) (acts : list act) : res (list (label * S)) :=
  c <- mk_circuit S q init out ;;
  st <- perform_all {| h_circuit := c; h_list := pair; h_marks := [] |} acts ;;
  '(c', _) <- api (h_circuit st) CMeasureAll ;;
  run B c'.

End Alias.

Arguments ACall {S}.
Arguments AShared {S}.
Arguments AEdit {S}.
