(** * ConsArgs: other kinds of arguments of the constructor
    (src/qudiet/core/quantum_circuit.py). *)
From Verif Require Import Py Scalar Mat Utils Gates Circuit.
Set Implicit Arguments.

(** [qregs]: a list or a tuple; an object of a subclass of these, such as a
    named tuple; anything else, such as an int or a numpy array. *)
Inductive reg_arg : Type := Plain (q : qregs) | Subclass | Foreign.

(** [init_states]: None, a list, a tuple, a numpy array with at least one entry,
    or an int. *)
Inductive init_arg : Type :=
| INone
| IList (l : list Z)
| ITuple (l : list Z)
| IArray (x : Z) (l : list Z)
| IInt (z : Z).

(** What [self.init_states] is after line 102. *)
Inductive states : Type :=
| Extensible (l : list Z)
| Fixed (l : list Z)
| Sizeless.

(** Models src/qudiet/core/quantum_circuit.py:102 [init_states or []]: the truth
    value of an array of one entry is that of the entry, that of a longer array
    is a ValueError. *)
Definition states_of (a : init_arg) : res states :=
  match a with
  | INone | IList [] | ITuple [] => Ok (Extensible [])
  | IList l => Ok (Extensible l)
  | ITuple l => Ok (Fixed l)
  | IArray x [] => Ok (if (x =? 0)%Z then Extensible [] else Fixed [x])
  | IArray _ _ => Err ValueError
  | IInt z => Ok (if (z =? 0)%Z then Extensible [] else Sizeless)
  end.

(** Models src/qudiet/core/quantum_circuit.py:120-121: an int has no [len],
    tuples and arrays have no [extend]. *)
Definition filled (len : Z) (s : states) : res (list Z) :=
  match s with
  | Extensible l => Ok (pad_init len l)
  | Fixed l => if (Z.of_nat (length l) <? len)%Z then Err AttributeError else Ok l
  | Sizeless => Err TypeError
  end.

(** Models src/qudiet/core/quantum_circuit.py:60-123 [__init__], as [mk_circuit]
    of Circuit.v but for any kind of [qregs] and [init_states].  For a subclass
    neither line 112 nor line 116 applies, so [self._reg_length] does not exist
    at line 120. *)
Definition construct (S : scalar) (q : reg_arg) (a : init_arg) (out : option output) : res (circuit S) :=
  match q with
  | Foreign => Err ValueError
  | Subclass => _ <- states_of a ;; Err AttributeError
  | Plain q =>
      s <- states_of a ;;
      '(len, dims) <- reg_layout q ;;
      st <- filled len s ;;
      f <- initialize_states S dims st ;;
      Ok {| c_qregs := q; c_init := st; c_len := len; c_dims := dims;
            c_out := match out with
                     | Some o => o
                     | None => {| o_base := qregs_list q; o_type := OutPrint;
                                  o_method := OutAmplitude |}
                     end;
            c_flow := f |}
  end.
