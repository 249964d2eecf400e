(** * ListRegs: h, x and z called with a list of registers
    (src/qudiet/core/quantum_circuit.py, src/qudiet/core/operator_flow.py). *)
From Verif Require Import Py Scalar Mat Utils Gates Circuit.
Set Implicit Arguments.

Section ListRegs.
Variable S : scalar.
Notation op := (op S).
Notation moment := (moment S).
Notation circuit := (circuit S).
Notation opflow := (opflow S).

(** Which of the three methods is called. *)
Inductive method : Type := MH | MX (plus : Z) | MZ.

(** The gate object.  Its attribute [qreg] is a list in the code; the model has
    the lowest of the registers in its place.  [run] does not read it from the
    object: h.py:72-84, x.py:65-75 and z.py:70-77 use [dims] and [plus] only.
    A later call reads it at moment.py:82-85, in a layer that has an identity on
    the register (or on all the registers) asked for: such a register is not
    between the lowest and the highest of the list, so neither the list nor its
    lowest register is found. *)
Definition gate_of (m : method) (q d : Z) : op :=
  match m with MH => OH q d | MX p => OX q d p | MZ => OZ q d end.

(** [l in gate.acting_on] for a list [l] of integers.  Among the things a gate
    acts on there is a list only for Toffoli gates, whose [acting_on] is the
    pair [(controls, target)].  An InitState has no [acting_on].
    Models src/qudiet/core/moment.py:82-85. *)
Definition acts_on_list (l : list Z) (o : op) : res bool :=
  match o with
  | OInit _ _ _ _ => Err AttributeError
  | OTof cs _ _ _ _ _ => Ok (if list_eq_dec Z.eq_dec l cs then true else false)
  | _ => Ok false
  end.

(** Models src/qudiet/core/moment.py:78-88 [get_qreg_moment(l, True)]. *)
Fixpoint get_list (l : list Z) (gs : list op) : res (option op) :=
  match gs with
  | [] => Ok None
  | g :: gs' => b <- acts_on_list l g ;; if b : bool then Ok (Some g) else get_list l gs'
  end.

(** Models src/qudiet/core/operator_flow.py:150-229 for a moment whose h, x or
    z gate has the list [l] as [acting_on].  Only a Toffoli gate can be found
    at moment.py:143, which is no identity: [replace_igate] answers False.
    Unpacking [None] is a TypeError. *)
Definition populate_list (f : opflow) (l : list Z) (m : moment) : res (opflow * bool) :=
  match rev (f_list f) with
  | [] =>
      meas <- detect_measurement 0 (m_list m) (repeat false (length (m_list m))) ;;
      Ok ({| f_list := [m]; f_meas := meas |}, true)
  | last :: _ =>
      if forallb (fun b => b) (f_meas f) then Ok (f, false)
      else
        _ <- match find (@is_hxz S) (m_list m) with
             | None => Ok tt
             | Some _ =>
                 let i_gate_qreg_list := map (@qreg_of S) (filter (@is_igate S) (m_list last)) in
                 if forallb (fun reg => zmem reg i_gate_qreg_list) l
                 then g <- get_list l (m_list last) ;;
                      match g with None => Err TypeError | Some _ => Ok tt end
                 else Ok tt
             end ;;
        meas <- detect_measurement 0 (m_list m) (f_meas f) ;;
        Ok ({| f_list := append_moment (f_list f) m; f_meas := meas |}, true)
  end.

(** [c.h(l, dims)], [c.x(l, dims, plus)], [c.z(l, dims)].  Without [dims] (or
    with 0) [self._reg_dims[l]] is a TypeError: list indices must be integers.
    Models src/qudiet/core/quantum_circuit.py:145-245. *)
Definition list_call (c : circuit) (m : method) (l : list Z) (dims : option Z) : res (circuit * bool) :=
  _ <- validate c (RList l) dims ;;
  d <- match dims with
       | Some d => if (d =? 0)%Z then Err TypeError else Ok d
       | None => Err TypeError
       end ;;
  lo <- py_min l ;;
  data <- moment_data c (RList l) (gate_of m lo d) ;;
  '(f, b) <- populate_list (c_flow c) l (mk_moment (length (f_list (c_flow c))) data) ;;
  Ok (set_flow c f, b).

(** A call of the API with one register, or with a list. *)
Inductive request : Type :=
| Plain (k : call S)
| Many (m : method) (l : list Z) (dims : option Z).

(** The circuit after a request; one that raises leaves it as it was. *)
Definition perform (c : circuit) (q : request) : circuit :=
  match q with
  | Plain k => step c k
  | Many m l dims => match list_call c m l dims with Ok (c', _) => c' | Err _ => c end
  end.

Definition performed (c : circuit) (qs : list request) : circuit := fold_left perform qs c.
End ListRegs.
Arguments Plain {S}.
Arguments Many {S}.
