(** * NumArgs: register numbers that are booleans or numpy integers, and
    controls given as a numpy array
    (src/qudiet/core/quantum_circuit.py, src/qudiet/core/operator_flow.py,
    src/qudiet/circuit_library/standard_gates/toffoli_utility.py). *)
From Verif Require Import Py Scalar Mat Utils Gates Circuit ListRegs.
Set Implicit Arguments.

(** A number given as an argument: an [int], or an object of another type that
    compares, adds and indexes like its value (a [bool] or a numpy integer).
    For the latter [type(q) is int] is False, and it cannot be iterated over. *)
Inductive number : Type := PyInt (z : Z) | NumInt (z : Z).
Definition value (q : number) : Z := match q with PyInt z | NumInt z => z end.

Section NumArgs.
Variable S : scalar.
Notation mat := (mat S).
Notation op := (op S).
Notation moment := (moment S).
Notation circuit := (circuit S).
Notation opflow := (opflow S).

(** Models src/qudiet/core/operator_flow.py:150-229 for a moment whose h, x or
    z gate has as [acting_on] a number that is no [int]: line 199 does not wrap
    it into a list, so the loop of line 201 is a TypeError.  A moment without
    such a gate is added as always. *)
Definition populate_num (f : opflow) (m : moment) : res (opflow * bool) :=
  match rev (f_list f) with
  | [] => populate_opflow f m
  | _ :: _ =>
      if forallb (fun b => b) (f_meas f) then Ok (f, false)
      else match find (@is_hxz S) (m_list m) with
           | Some _ => Err TypeError
           | None => populate_opflow f m
           end
  end.

(** [c.h(q, dims)], [c.x(q, dims, plus)], [c.z(q, dims)] for such a number.
    Models src/qudiet/core/quantum_circuit.py:145-245. *)
Definition single_num (c : circuit) (m : method) (q : Z) (dims : option Z) : res (circuit * bool) :=
  _ <- validate1 c q dims ;;
  d <- dims_or c dims q ;;
  data <- moment_data c (RInt q) (gate_of S m q d) ;;
  '(f, b) <- populate_num (c_flow c) (mk_moment (length (f_list (c_flow c))) data) ;;
  Ok (set_flow c f, b).

(** [c.gate(G, q, dims)] for such a number: neither line 324 nor line 328 of
    quantum_circuit.py applies, so [_gate] is unbound at line 332.
    Models src/qudiet/core/quantum_circuit.py:314-333. *)
Definition user_num (c : circuit) (q : Z) (dims : option Z) : res (circuit * bool) :=
  _ <- validate1 c q dims ;; Err UnboundLocalError.

(** An index into [n] elements, counted from the end if negative. *)
Definition column (n : nat) (i : Z) : res nat :=
  match py_index n i with Some k => Ok k | None => Err IndexError end.

(** Models src/qudiet/circuit_library/standard_gates/toffoli_utility.py:16-77
    [toffoli_dm] for a numpy array [c] of integers: [c + [t]] adds [t] to every
    entry.  The differences of line 50 may then be negative, and lines 51 and 60
    count them from the end.  Otherwise as [toffoli_dm] of Gates.v. *)
Definition toffoli_dm_array (c : list Z) (t plus : Z) (dims : list Z) : res (mat * Z * Z) :=
  lb <- py_min (map (fun x => x + t)%Z c) ;;
  ub <- py_max (map (fun x => x + t)%Z c) ;;
  span <- mapM (py_get dims) (zrange lb (ub + 1)) ;;
  let nspan := map Z.to_nat span in
  let max_cap := map (fun d => d - 1)%Z span in
  let size_exp := prodn nspan in
  let indexes := generate_combinations nspan in
  recalc_c <- mapM (fun _c => column (length span) (_c - lb)) c ;;
  ti <- column (length span) (t - lb) ;;
  dt <- py_get dims t ;;
  repl <- mapM (fun '(idx, x) =>
      if forallb (fun rc => (Z.of_nat (nth rc x 0%nat) =? nth rc max_cap 0)%Z) recalc_c
      then let tgt := upd x ti (Z.to_nat ((Z.of_nat (nth ti x 0%nat) + plus) mod dt)) in
           match get_index indexes tgt with
           | Some k => Ok k
           | None => Err ValueError
           end
      else Ok idx) (combine (seq 0 size_exp) indexes) ;;
  let create_identity :=
    mkmat size_exp size_exp
          (fun row_idx j => if Nat.eqb (nth row_idx repl row_idx) j then s1 else s0) in
  Ok (dtrans create_identity, lb, ub).

(** [c.toffoli((controls, target), plus)] for an array [controls].  The gate
    object remembers the array; [beside_array] below is where this matters.
    Models src/qudiet/circuit_library/standard_gates/toffoli_utility.py:79-84 and
     src/qudiet/core/quantum_circuit.py:247-285. *)
Definition toffoli_array (c : circuit) (controls : list Z) (target plus : Z) : res (circuit * bool) :=
  let dims := qregs_list (c_qregs c) in
  '(u, lb, ub) <- toffoli_dm_array controls target plus dims ;;
  let acting := zrange lb (ub + 1) in
  ds <- mapM (py_get dims) acting ;;
  '(c', _) <- add_moment c (RList acting) (OTof controls target plus ds acting u) ;;
  Ok (c', true).

(** The operations of the new Moment when [qreg] is an array of two numbers: as
    [moment_data] of Circuit.v, except that line 192 compares a register outside
    the action space with the array, whose truth value is a ValueError.
    Models src/qudiet/core/quantum_circuit.py:174-194. *)
Definition moment_data_array (c : circuit) (l : list Z) (gate_obj : op) : res (list op) :=
  lb <- py_min l ;; ub <- py_max l ;;
  '(data, _) <- fold_left (fun acc reg =>
      '(data, added) <- acc ;;
      if zmem reg (zrange lb (ub + 1)) then
        Ok (if (added : bool) then (data, added) else (data ++ [gate_obj], true))
      else _ <- py_get (c_dims c) reg ;; Err ValueError) (zrange 0 (c_len c)) (Ok ([], false)) ;;
  Ok data.

(** [c.cx(acting_on, plus)] for an array of two numbers.  Nothing else depends on
    its being an array.  Models src/qudiet/core/quantum_circuit.py:287-312. *)
Definition cx_array (c : circuit) (a0 a1 plus : Z) : res (circuit * bool) :=
  let active := if (a0 <? a1)%Z then py_slice (c_dims c) a0 (a1 + 1)
                else py_slice (c_dims c) a1 (a0 + 1) in
  data <- moment_data_array c [a0; a1] (OCX active [a0; a1] plus) ;;
  '(f, b) <- populate_opflow (c_flow c) (mk_moment (length (f_list (c_flow c))) data) ;;
  Ok (set_flow c f, b).

(** A call: h, x, z or gate() with one number, toffoli with an array of
    controls, or any other.  For numbers inside the list given to cx, the
    lists given to toffoli and gate(), and for [dims] and [plus], the type does
    not matter: they are only compared, added and used as indices. *)
Inductive num_call : Type :=
| Single (m : method) (q : number) (dims : option Z)
| User (u : mat) (q : number) (dims : option Z)
| TofArray (controls : list Z) (target plus : Z)
| Rest (k : call S).

(** The same call with [int]s and lists. *)
Definition plainly (k : num_call) : call S :=
  match k with
  | Single MH q dims => CH (value q) dims
  | Single (MX p) q dims => CX (value q) dims p
  | Single MZ q dims => CZ (value q) dims
  | User u q dims => CGate u (RInt (value q)) dims
  | TofArray cs t p => CTof cs t p
  | Rest k => k
  end.

(** A call on a circuit whose last layer holds no Toffoli with an array. *)
Definition num_api (c : circuit) (k : num_call) : res (circuit * bool) :=
  match k with
  | Single m (NumInt q) dims => single_num c m q dims
  | User _ (NumInt q) dims => user_num c q dims
  | TofArray cs t p => toffoli_array c cs t p
  | Single _ (PyInt _) _ | User _ (PyInt _) _ | Rest _ => api c (plainly k)
  end.

(** [qreg in gate.acting_on] in a layer with a Toffoli whose controls are an
    array: its [acting_on] is the pair of the array and the target, and [qreg]
    is compared with the array first.  The result is an array of booleans,
    whose truth value is a ValueError unless there is just one.
    Models src/qudiet/core/moment.py:82-85. *)
Definition array_members (o : op) : res (list Z) :=
  match o with
  | OTof [x] t _ _ _ _ => Ok [x; t]
  | OTof _ _ _ _ _ _ => Err ValueError
  | _ => acting_members o
  end.

(** Models src/qudiet/core/moment.py:78-88 [get_qreg_moment(qreg, True)] in such
    a layer. *)
Fixpoint get_qreg_array (k : nat) (l : list op) (qreg : Z) : res (option (op * nat)) :=
  match l with
  | [] => Ok None
  | g :: gs =>
      a <- array_members g ;;
      if zmem qreg a then Ok (Some (g, k)) else get_qreg_array (Datatypes.S k) gs qreg
  end.

(** Models src/qudiet/core/operator_flow.py:150-229 and
    src/qudiet/core/moment.py:135-149 when the last layer is such a layer: as
    [populate_opflow] of Circuit.v with this search. *)
Definition populate_array (f : opflow) (m : moment) : res (opflow * bool) :=
  match rev (f_list f), find (@is_hxz S) (m_list m) with
  | last :: before, Some g =>
      if forallb (fun b => b) (f_meas f) then Ok (f, false)
      else
        merged <-
          (if zmem (qreg_of g) (map (@qreg_of S) (filter (@is_igate S) (m_list last))) then
             r <- get_qreg_array 0 (m_list last) (qreg_of g) ;;
             match r with
             | None => Err TypeError
             | Some (o, index) => Ok (if is_igate o then Some (upd (m_list last) index g) else None)
             end
           else Ok None) ;;
        match merged with
        | Some l' => Ok ({| f_list := rev before ++ [set_list l' last]; f_meas := f_meas f |}, true)
        | None =>
            meas <- detect_measurement 0 (m_list m) (f_meas f) ;;
            Ok ({| f_list := append_moment (f_list f) m; f_meas := meas |}, true)
        end
  | _, _ => populate_opflow f m
  end.

(** [c.h(q, dims)], [c.x(q, dims, plus)], [c.z(q, dims)] for an [int] after it.
    Models src/qudiet/core/quantum_circuit.py:145-245. *)
Definition single_array (c : circuit) (m : method) (q : Z) (dims : option Z) : res (circuit * bool) :=
  _ <- validate1 c q dims ;;
  d <- dims_or c dims q ;;
  data <- moment_data c (RInt q) (gate_of S m q d) ;;
  '(f, b) <- populate_array (c_flow c) (mk_moment (length (f_list (c_flow c))) data) ;;
  Ok (set_flow c f, b).

(** A call on a circuit whose last layer holds a Toffoli with an array. *)
Definition beside_array (c : circuit) (k : num_call) : res (circuit * bool) :=
  match k with
  | Single m (PyInt q) dims => single_array c m q dims
  | Rest (CH q dims) => single_array c MH q dims
  | Rest (CX q dims p) => single_array c (MX p) q dims
  | Rest (CZ q dims) => single_array c MZ q dims
  | _ => num_api c k
  end.

Definition with_array (k : num_call) : bool := match k with TofArray _ _ _ => true | _ => false end.

(** A script: an exception ends it.  [arr] tells if the last layer holds a
    Toffoli with an array; a call that adds no layer leaves this as it is. *)
Fixpoint num_script (arr : bool) (c : circuit) (ks : list num_call) : res circuit :=
  match ks with
  | [] => Ok c
  | k :: ks' =>
      '(c', _) <- (if arr then beside_array c k else num_api c k) ;;
      num_script (if Nat.eqb (length (f_list (c_flow c'))) (length (f_list (c_flow c))) then arr else with_array k) c' ks'
  end.

Definition num_simulate (B : backend S) (q : qregs) (init : option (list Z)) (out : option output)
           (ks : list num_call) : res (list (label * S)) :=
  c <- mk_circuit S q init out ;;
  c' <- num_script false c (ks ++ [Rest CMeasureAll]) ;;
  run B c'.
End NumArgs.
Arguments Single {S}.
Arguments User {S}.
Arguments TofArray {S}.
Arguments Rest {S}.
