(** * Attrs: what the gate objects and the layers answer when asked directly. *)
From Verif Require Import Py Scalar Mat Utils Gates Circuit.
Set Implicit Arguments.

Section Attrs.
Variable S : scalar.
Notation op := (op S).

(** Models the property [is_controlled]: cx.py:67-73, h.py:49-55, i.py:46-52,
    x.py:49-55, z.py:47-53, measurement.py:36-42 and
    circuit_library/__init__.py:53-59 (also for Toffoli, which inherits it).
    An InitState has no such attribute (src/qudiet/core/init_states.py:33-66). *)
Definition is_controlled (o : op) : res bool :=
  match o with
  | OInit _ _ _ _ => Err AttributeError
  | OCX _ _ _ => Ok true
  | _ => Ok false
  end.

(** Models the property [is_single_qudit]: cx.py:75-82, h.py:57-64, i.py:54-60,
    x.py:57-63, z.py:55-62, measurement.py:44-50 and
    circuit_library/__init__.py:61-67. *)
Definition is_single_qudit (o : op) : res bool :=
  match o with
  | OInit _ _ _ _ => Err AttributeError
  | OCX _ _ _ => Ok false
  | _ => Ok true
  end.

(** Models src/qudiet/core/moment.py:78-88 [get_qreg_moment(qreg)] without the
    index: the object or None. *)
Definition get_qreg_moment (l : list op) (qreg : Z) : res (option op) :=
  r <- get_qreg_moment_from 0 l qreg ;;
  Ok (match r with Some (g, _) => Some g | None => None end).

(** The attribute [qreg] of a gate object used as an index of a list.  CXGate and
    Measurement have [_qreg] only (cx.py:56, measurement.py:34); the pair of a
    Toffoli (circuit_library/__init__.py:46) and a list of registers are not
    indices. *)
Definition qreg_index (o : op) : res Z :=
  match o with
  | OInit _ _ q _ | OI q _ | OH q _ | OX q _ _ | OZ q _ | OArb (RInt q) _ _ => Ok q
  | OCX _ _ _ | OMeas _ => Err AttributeError
  | OTof _ _ _ _ _ _ | OArb (RList _) _ _ => Err TypeError
  end.

(** Models src/qudiet/core/moment.py:122-133 [check_igate_at_qreg]. *)
Definition check_igate_at_qreg (l : list op) (gate_obj : op) : res bool :=
  q <- qreg_index gate_obj ;;
  g <- py_get l q ;;
  Ok (is_igate g).
End Attrs.
