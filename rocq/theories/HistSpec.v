(** * HistSpec: vocabulary for statements about arbitrary call histories.
    Definitions only; part of the specification. *)
From Verif Require Import Py Scalar Mat Utils Gates Circuit Spec.
Set Implicit Arguments.

Section HistSpec.
Variable S : scalar.
Notation op := (op S).
Notation moment := (moment S).
Notation circuit := (circuit S).
Notation call := (call S).

(** The circuit after the calls [ks], valid or not, on a newly constructed
    circuit; a call that raises leaves the circuit as it was. *)
Definition after (c : circuit) (ks : list call) : circuit := fold_left (@step S) ks c.
Definition history (q : qregs) (init : option (list Z)) (out : option output)
           (ks : list call) (c : circuit) : Prop :=
  exists c0, mk_circuit S q init out = Ok c0 /\ c = after c0 ks.

(** The registers an operation was issued for. *)
Definition registers (o : op) : list Z :=
  match o with
  | OInit _ _ q _ | OI q _ | OH q _ | OX q _ _ | OZ q _ | OMeas q => [q]
  | OCX _ a _ => a
  | OTof cs t _ _ _ _ => t :: cs
  | OArb (RInt q) _ _ => [q]
  | OArb (RList l) _ _ => l
  end.

(** The operation is the gate asked for by the call: same kind, registers,
    increment and matrix. *)
Definition made_by (k : call) (o : op) : Prop :=
  match k, o with
  | CH q _, OH q' _ => q' = q
  | CX q _ p, OX q' _ p' => q' = q /\ p' = p
  | CZ q _, OZ q' _ => q' = q
  | CCX a p, OCX _ a' p' => a' = a /\ p' = p
  | CTof cs t p, OTof cs' t' p' _ _ _ => cs' = cs /\ t' = t /\ p' = p
  | CGate u q _, OArb q' _ u' => q' = q /\ u' = u
  | _, _ => False
  end.

(** Register [r] lies between two registers of the operation. *)
Definition covers (o : op) (r : nat) : bool :=
  existsb (fun a => (a <=? Z.of_nat r)%Z) (registers o) &&
  existsb (fun b => (Z.of_nat r <=? b)%Z) (registers o).

(** The registers of a line of [n] registers that an operation occupies. *)
Definition occupies (n : nat) (o : op) : list nat := filter (covers o) (seq 0 n).

(** A list of operations occupies every register exactly once, in order, and
    no operation of the list is outside the line. *)
Definition tiles (n : nat) (l : list op) : Prop :=
  concat (map (occupies n) l) = seq 0 n /\ (forall o, In o l -> occupies n o <> []).

Definition is_init (o : op) : bool := match o with OInit _ _ _ _ => true | _ => false end.

(** The names and pointers of a doubly linked list of moments. *)
Definition linked (l : list moment) : Prop :=
  forall i m, nth_error l i = Some m ->
    m_name m = i /\
    m_prev m = (match i with O => None | Datatypes.S j => Some j end) /\
    m_next m = (if Nat.eqb (i + 1) (length l) then None else Some (i + 1)).

(** Number of registers of the layout given to the constructor. *)
Definition nregs (q : qregs) : nat :=
  match q with
  | QList l => length l
  | QTuple l => match l with n :: _ => Z.to_nat n | [] => 0 end
  end.

(** The layer a gate call builds: its gate object where it belongs and
    identities elsewhere (quantum_circuit.py:174-194); lemma [api_layer] of
    Merge.v shows that every gate call offers exactly this layer to the
    operator flow. *)
Definition gate_layer (c : circuit) (k : call) : res (list op) :=
  match k with
  | CH q dims =>
      _ <- validate1 c q dims ;; d <- dims_or c dims q ;; moment_data c (RInt q) (OH q d)
  | CX q dims plus =>
      _ <- validate1 c q dims ;; d <- dims_or c dims q ;; moment_data c (RInt q) (OX q d plus)
  | CZ q dims =>
      _ <- validate1 c q dims ;; d <- dims_or c dims q ;; moment_data c (RInt q) (OZ q d)
  | CCX a plus =>
      a0 <- py_get a 0 ;;
      a1 <- py_get a 1 ;;
      moment_data c (RList a)
        (OCX (if (a0 <? a1)%Z then py_slice (c_dims c) a0 (a1 + 1)
              else py_slice (c_dims c) a1 (a0 + 1)) a plus)
  | CTof cs t plus =>
      g <- mk_toffoli S cs t plus (qregs_list (c_qregs c)) ;;
      match g with
      | OTof _ _ _ _ acting _ => moment_data c (RList acting) g
      | _ => Err TypeError
      end
  | CGate u q dims =>
      _ <- validate c q dims ;;
      ds <- match q with
            | RInt z => d <- dims_or c dims z ;; Ok (RInt d)
            | RList l =>
                match dims with
                | Some d => if (d =? 0)%Z
                            then r <- mapM (py_get (c_dims c)) l ;; Ok (RList r)
                            else Ok (RInt d)
                | None => r <- mapM (py_get (c_dims c)) l ;; Ok (RList r)
                end
            end ;;
      moment_data c q (OArb q ds u)
  | CMeasure _ => Err NotImplementedError
  | CMeasureAll => Ok (map (fun i => OMeas i) (zrange 0 (c_len c)))
  end.

(** The circuit with a layer of its own for the given operations, nothing
    merged. *)
Definition with_layer (c : circuit) (l : list op) : circuit :=
  set_flow c {| f_list := append_moment (f_list (c_flow c)) (mk_moment (length (f_list (c_flow c))) l);
                f_meas := f_meas (c_flow c) |}.

Definition is_measure_all (k : call) : bool := match k with CMeasureAll => true | _ => false end.
Definition is_toffoli (k : call) : bool := match k with CTof _ _ _ => true | _ => false end.
Definition is_matrix_gate (k : call) : bool :=
  match k with CTof _ _ _ | CGate _ _ _ => true | _ => false end.
End HistSpec.
