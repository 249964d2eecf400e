(** * Draw: the text drawing and the matplotlib drawing
    (src/qudiet/core/quantum_circuit.py, src/qudiet/utility/circuit_draw.py). *)
From Coq Require Import String.
From Verif Require Import Py Scalar Mat Utils Gates Circuit Info.
Set Implicit Arguments.
Local Notation length := List.length.

Section Draw.
Variable S : scalar.
Notation op := (op S).
Notation moment := (moment S).
Notation circuit := (circuit S).
Local Open Scope string_scope.

(** ** QuantumCircuit.__str__ *)

(** [draw_matrix[i][j]]: a text or [None].
    Models src/qudiet/core/quantum_circuit.py:452. *)
Definition cell : Type := option string.
Definition canvas : Type := list (list cell).

(** [draw_matrix[i][j] = s]. *)
Definition set_cell (j : nat) (m : canvas) (i : Z) (s : string) : res canvas :=
  row <- py_get m i ;;
  row' <- py_set row (Z.of_nat j) (Some s) ;;
  py_set m i row'.

(** A sequence of such assignments, in order. *)
Definition set_cells (j : nat) (m : canvas) (l : list (Z * string)) : res canvas :=
  fold_left (fun acc '(i, s) => m <- acc ;; set_cell j m i s) l (Ok m).

Definition shift_text (p : Z) : string := "X(" ++ str_of_Z p ++ ")".

(** The assignments made for one operation.
    Models src/qudiet/core/quantum_circuit.py:460-488.  Line 471 unpacks the
    registers of a cx: ValueError unless there are two.  Identities and
    arbitrary gates other than Toffoli write nothing. *)
Definition op_cells (o : op) : res (list (Z * string)) :=
  match o with
  | OInit dim state q _ => Ok [(q, "(" ++ str_of_Z dim ++ ")|" ++ str_of_Z state ++ ">")]
  | OX q _ p => Ok [(q, shift_text p)]
  | OH q _ => Ok [(q, "H")]
  | OZ q _ => Ok [(q, "Z")]
  | OMeas q => Ok [(q, "M")]
  | OCX _ a p =>
      match a with
      | [control; target] =>
          let end_ := if (target <? control)%Z then control else target in
          let start := if (control <? target)%Z then control else target in
          Ok ((control, "*") :: (target, shift_text p) ::
              map (fun x => (x, "|")) (zrange (start + 1) end_))
      | _ => Err ValueError
      end
  | OTof controls target p _ acting _ =>
      Ok (map (fun dit => (dit, if zmem dit controls then "*"
                                else if (dit =? target)%Z then shift_text p else "|")) acting)
  | OI _ _ | OArb _ _ _ => Ok []
  end.

Definition draw_op (j : nat) (m : canvas) (o : op) : res canvas :=
  l <- op_cells o ;; set_cells j m l.

(** Models src/qudiet/core/quantum_circuit.py:455-488: the loop over the
    moments and their operations. *)
Definition draw_layers (m : canvas) (ms : list moment) : res canvas :=
  fold_left (fun acc '(j, mo) =>
               m <- acc ;;
               fold_left (fun acc o => m <- acc ;; draw_op j m o) (m_list mo) (Ok m))
            (combine (seq 0 (length ms)) ms) (Ok m).

(** The [while] loop of src/qudiet/core/quantum_circuit.py:497-503, which adds
    a dash on alternating sides, left first, [k] times. *)
Fixpoint pad (k : nat) (left : bool) (ch : string) : string :=
  match k with
  | O => ch
  | Datatypes.S k => if left then pad k false ("-" ++ ch) else pad k true (ch ++ "-")
  end.

(** Models src/qudiet/core/quantum_circuit.py:493-505. *)
Definition cell_text (ch : cell) : string :=
  match ch with
  | Some s => if (String.length s <? 5)%nat then pad (5 - String.length s) true s else s
  | None => "-----"
  end.

Definition nl : string := String (Ascii.ascii_of_nat 10) "".

(** [str] of the ["width"] entry. *)
Definition width_text (w : width) : string :=
  match w with
  | WInt n => str_of_Z n
  | WTuple l => "(" ++ String.concat ", " (map str_of_Z l) ++ ")"
  end.

(** Models src/qudiet/core/quantum_circuit.py:449-509 [__str__]. *)
Definition circuit_str (c : circuit) : res string :=
  let n_qudits := length (qregs_list (c_qregs c)) in
  '(w, depth) <- get_circuit_config c ;;
  m <- draw_layers (repeat (repeat None (Z.to_nat (depth + 2))) n_qudits) (f_list (c_flow c)) ;;
  let lines := fold_left (fun acc row => fold_left (fun acc ch => acc ++ cell_text ch) row acc ++ nl) m "" in
  Ok (lines ++ nl ++ "depth: " ++ str_of_Z depth ++ ", width: " ++ width_text w).

(** ** draw(style='mpl') *)

(** What is put on the figure for one operation: a text box, a control line,
    the qubit cnot sign, or the box of a multi-register gate.  Rows are
    register numbers; horizontal positions and sizes are left out. *)
Inductive mark : Type :=
| MText (row : Z) (txt : string)                        (* circuit_draw.py:21-25, 84-88 *)
| MLine (lo hi : Z) (dots : list Z)                     (* circuit_draw.py:33-48 *)
| MCnot (control target : Z)                            (* circuit_draw.py:51-63 *)
| MBox (lo hi : Z) (rows : list Z).                     (* circuit_draw.py:94-114 *)

(** Models src/qudiet/utility/circuit_draw.py:20,75,81. *)
Definition shifted_label (name : string) (plus dim : Z) : string :=
  "$" ++ name ++ "^{+" ++ str_of_Z plus ++ "}_{" ++ str_of_Z dim ++ "}$".
Definition plain_label (name : string) : string := "$" ++ name ++ "$".

(** Models src/qudiet/utility/circuit_draw.py:16-50 [_draw_cgate].  The dots
    are the rows of the line that are controls. *)
Definition draw_cgate (name : string) (controls : list Z) (target plus dim : Z) : res (list mark) :=
  mn <- py_min controls ;;
  mx <- py_max controls ;;
  let mn := if (target <? mn)%Z then target else mn in
  let mx := if (mx <? target)%Z then target else mx in
  Ok [MText target (shifted_label name plus dim);
      MLine mn mx (filter (fun y => zmem y controls) (zrange mn (mx + 1)))].

(** Models src/qudiet/utility/circuit_draw.py:172-177 [_draw_toffoli_gate]:
    [gate_.dims] lists the dimensions of the registers the gate spans. *)
Definition draw_toffoli_gate (controls : list Z) (target plus : Z) (dims : list Z) : res (list mark) :=
  dim <- py_get dims target ;;
  draw_cgate "X" controls target plus dim.

(** Models src/qudiet/utility/circuit_draw.py:179-186 [_draw_cnot_gate]:
    [gate._qreg] lists the dimensions of the registers the gate spans.  The
    test of line 184 looks at the target only if the control is a qubit. *)
Definition draw_cnot_gate (qreg acting_on : list Z) (plus : Z) : res (list mark) :=
  match acting_on with
  | [control; target] =>
      dim <- py_get qreg target ;;
      dc <- py_get qreg control ;;
      if ((dc =? 2) && (dim =? 2))%Z then Ok [MCnot control target]
      else draw_cgate "X" [control] target plus dim
  | _ => Err ValueError
  end.

(** Models src/qudiet/utility/circuit_draw.py:197-205 [_draw_arbitary_gate]
    and [_draw_custom_gate] (94-114); [max] of an empty list is a ValueError. *)
Definition draw_arbitrary_gate (qreg : regs) : res (list mark) :=
  match qreg with
  | RInt q => Ok [MText q (plain_label "G")]
  | RList [q] => Ok [MText q (plain_label "G")]
  | RList l => hi <- py_max l ;; lo <- py_min l ;; Ok [MBox lo hi l]
  end.

(** Models src/qudiet/utility/circuit_draw.py:187-196,206-229 [_draw_layer]. *)
Definition draw_gate (o : op) : res (list mark) :=
  match o with
  | OX q d p => Ok [MText q (shifted_label "X" p d)]
  | OH q _ => Ok [MText q (plain_label "H")]
  | OZ q _ => Ok [MText q (plain_label "Z")]
  | OCX qreg a p => draw_cnot_gate qreg a p
  | OTof cs t p ds _ _ => draw_toffoli_gate cs t p ds
  | OArb q _ _ => draw_arbitrary_gate q
  | OMeas q => Ok [MText q (plain_label "M")]
  | OInit _ _ _ _ | OI _ _ => Ok []
  end.

(** Models src/qudiet/utility/circuit_draw.py:142-143. *)
Definition state_label (i : nat) (dim state : Z) : string :=
  "$Q^{" ++ str_of_Z dim ++ "D}_{" ++ str_of_Z (Z.of_nat i) ++ "}|" ++ str_of_Z state ++ ">$".

(** Models src/qudiet/utility/circuit_draw.py:231-281 [draw_circuit_mpl]: the
    number of wires, the labels of the initial states, and the marks of every
    moment; [DrawPages.v] adds the paging.  An operation of the first moment that is not
    an initial state would have no [state]. *)
Definition draw_circuit_mpl (c : circuit) : res (nat * list string * list (list mark)) :=
  let moments := f_list (c_flow c) in
  _ <- py_get moments 1 ;;
  first <- py_get moments 0 ;;
  states <- mapM (fun '(i, o) => match o with
                                 | OInit d s _ _ => Ok (state_label i d s)
                                 | _ => Err AttributeError
                                 end)
                 (combine (seq 0 (length (m_list first))) (m_list first)) ;;
  marks <- mapM (fun m => l <- mapM draw_gate (m_list m) ;; Ok (concat l)) moments ;;
  Ok (length (qregs_list (c_qregs c)), states, marks).
End Draw.
