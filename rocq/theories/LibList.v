(** * LibList: gate() given a gate class of the library and a list of registers
    (src/qudiet/core/quantum_circuit.py, src/qudiet/core/operator_flow.py,
    src/qudiet/circuit_library/standard_gates). *)
From Verif Require Import Py Scalar Mat Utils Gates Circuit ListRegs LibGates.
Set Implicit Arguments.

Section LibList.
Variable S : scalar.
Notation op := (op S).
Notation moment := (moment S).
Notation circuit := (circuit S).
Notation opflow := (opflow S).

(** The keyword [dims] of the constructor: a number, or the list of the
    dimensions of the registers.
    Models src/qudiet/core/quantum_circuit.py:329-331. *)
Definition dims_arg (c : circuit) (dims : option Z) (l : list Z) : res regs :=
  match dims with
  | Some d => if (d =? 0)%Z then r <- mapM (py_get (c_dims c)) l ;; Ok (RList r) else Ok (RInt d)
  | None => r <- mapM (py_get (c_dims c)) l ;; Ok (RList r)
  end.

(** Stands for the matrix of a gate that has none, see UserMat.v. *)
Variable no_matrix : mat S.

(** The constructor called with the keywords [qreg] (the list [l]), [dims] and
    [backend], for src/qudiet/circuit_library/standard_gates:
    - h.py:39 and z.py:37 store them.  With a number as [dims] the object is the
      one of ListRegs.v.  With a list, the first line of [unitary] fails with a
      TypeError (h.py:72 and z.py:70 add 1 to the list): the object is a gate
      without a matrix.
    - i.py:36 stores them too, and i.py:68 asks the backend for an identity of
      size [dims].  A later call does not find the list among the registers of
      the idle gates (operator_flow.py:193-201 looks for numbers), so the object
      is like a user gate holding that identity.  With a list as [dims] the
      backend raises a TypeError.  An identity of negative size is not modelled.
    - toffoli_utility.py:21 unpacks the list into two: ValueError if there are
      not two; with two numbers line 24 adds a number and a list: TypeError.
    - the others do not have these keywords, see LibGates.v. *)
Definition construct_list (k : gate_class) (l : list Z) (ds : regs) : res op :=
  match k with
  | KlassH | KlassZ =>
      match ds with
      | RInt d => lo <- py_min l ;; Ok (gate_of S (match k with KlassZ => MZ | _ => MH end) lo d)
      | RList _ => Ok (OArb (RList l) ds no_matrix)
      end
  | KlassI =>
      match ds with
      | RInt d => Ok (OArb (RList l) ds (deye S (Z.to_nat d) (Z.to_nat d)))
      | RList _ => Ok (OArb (RList l) ds no_matrix)
      end
  | KlassToffoli => Err (if length l =? 2 then TypeError else ValueError)
  | KlassX | KlassCX | KlassMeasurement | KlassInit => Err TypeError
  end.

(** The search for a place in the last layer is for the classes H and Z. *)
Definition searched (k : gate_class) : bool := match k with KlassH | KlassZ => true | _ => false end.

(** Models src/qudiet/core/operator_flow.py:150-229 for a moment with one gate
    of the class [k] whose [acting_on] is the list [l]; the other gates of the
    moment are identities.  As in [populate_list] of ListRegs.v, the search ends
    in a TypeError or changes nothing. *)
Definition populate_class (k : gate_class) (f : opflow) (l : list Z) (m : moment) : res (opflow * bool) :=
  match rev (f_list f) with
  | [] =>
      meas <- detect_measurement 0 (m_list m) (repeat false (length (m_list m))) ;;
      Ok ({| f_list := [m]; f_meas := meas |}, true)
  | last :: _ =>
      if forallb (fun b => b) (f_meas f) then Ok (f, false)
      else
        _ <- (if searched k && existsb (fun o => negb (is_igate o)) (m_list m) then
                let i_gate_qreg_list := map (@qreg_of S) (filter (@is_igate S) (m_list last)) in
                if forallb (fun reg => zmem reg i_gate_qreg_list) l
                then g <- get_list l (m_list last) ;;
                     match g with None => Err TypeError | Some _ => Ok tt end
                else Ok tt
              else Ok tt) ;;
        meas <- detect_measurement 0 (m_list m) (f_meas f) ;;
        Ok ({| f_list := append_moment (f_list f) m; f_meas := meas |}, true)
  end.

(** [c.gate(k, l, dims)].
    Models src/qudiet/core/quantum_circuit.py:314-333 and 162-197. *)
Definition lib_list (c : circuit) (k : gate_class) (l : list Z) (dims : option Z) : res (circuit * bool) :=
  _ <- validate c (RList l) dims ;;
  ds <- dims_arg c dims l ;;
  g <- construct_list k l ds ;;
  data <- moment_data c (RList l) g ;;
  '(f, b) <- populate_class k (c_flow c) l (mk_moment (length (f_list (c_flow c))) data) ;;
  Ok (set_flow c f, b).
End LibList.
