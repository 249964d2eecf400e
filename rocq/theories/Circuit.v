(** * Circuit: Moment, OperatorFlow, Output and QuantumCircuit
    (src/qudiet/core/{moment,operator_flow,output,quantum_circuit}.py). *)
From Coq Require Import String.
From Verif Require Import Py Scalar Mat Utils Gates.
Set Implicit Arguments.

Section Circuit.
Variable S : scalar.
Notation mat := (mat S).
Notation op := (op S).

(** ** Moment *)

(** Models src/qudiet/core/moment.py:39-64.  [m_name] is the number in
    "Moment{k}", which also identifies the object for the linked-list
    pointers; [m_operations] is [_operations] (the constructor arguments) and
    [m_list] is [_moment_list]. *)
Record moment : Type := {
  m_name : nat;
  m_prev : option nat;
  m_next : option nat;
  m_operations : list op;
  m_list : list op }.

(** Models src/qudiet/core/moment.py:40-62,94-120 [Moment.__init__]: every
    argument is pushed in order. *)
Definition mk_moment (name : nat) (ops : list op) : moment :=
  {| m_name := name; m_prev := None; m_next := None; m_operations := ops; m_list := ops |}.

(** [isinstance(g, IGate)] / [(HGate, XGate, ZGate)] / [Measurement]. *)
Definition is_igate (o : op) : bool := match o with OI _ _ => true | _ => false end.
Definition is_hxz (o : op) : bool :=
  match o with OH _ _ | OX _ _ _ | OZ _ _ => true | _ => false end.
Definition is_meas (o : op) : bool := match o with OMeas _ => true | _ => false end.

(** The integers [q] for which [q in gate.acting_on] holds, after the
    [int -> [int]] wrapping of moment.py:82-84.  An InitState has no
    [acting_on].  For a Toffoli, [acting_on] is the pair [(controls, target)]
    (circuit_library/__init__.py:96-102), so only the target can be found. *)
Definition acting_members (o : op) : res (list Z) :=
  match o with
  | OInit _ _ _ _ => Err AttributeError
  | OI q _ | OH q _ | OX q _ _ | OZ q _ | OMeas q => Ok [q]
  | OCX _ a _ => Ok a
  | OTof _ t _ _ _ _ => Ok [t]
  | OArb (RInt q) _ _ => Ok [q]
  | OArb (RList l) _ _ => Ok l
  end.

(** Models src/qudiet/core/moment.py:78-88 [get_qreg_moment(qreg, True)]. *)
Fixpoint get_qreg_moment_from (k : nat) (l : list op) (qreg : Z) : res (option (op * nat)) :=
  match l with
  | [] => Ok None
  | g :: gs =>
      a <- acting_members g ;;
      if zmem qreg a then Ok (Some (g, k)) else get_qreg_moment_from (Datatypes.S k) gs qreg
  end.

(** Models src/qudiet/core/moment.py:135-149 [replace_igate]: returns the new
    [_moment_list] and the flag.  Unpacking [None] is a TypeError. *)
Definition replace_igate (l : list op) (gate_obj : op) (qreg : Z) : res (list op * bool) :=
  r <- get_qreg_moment_from 0 l qreg ;;
  match r with
  | None => Err TypeError
  | Some (g, index) =>
      if is_igate g then Ok (upd l index gate_obj, true) else Ok (l, false)
  end.

(** Models src/qudiet/core/moment.py:199-213 [Moment.exec]. *)
Definition moment_exec (B : backend S) (l : list op) : res B :=
  match l with
  | [] => Err IndexError
  | g :: gs =>
      u <- unitary B g ;;
      fold_left (fun acc h => a <- acc ;; b <- unitary B h ;; Ok (b_kron a b)) gs (Ok u)
  end.

(** ** OperatorFlow *)

(** The state of an OperatorFlow: [_opflow_list] and [_measurement_count]
    (entries are 0 or 1, kept as booleans).
    Models src/qudiet/core/operator_flow.py:51-53. *)
Record opflow : Type := { f_list : list moment; f_meas : list bool }.
Definition opflow0 : opflow := {| f_list := []; f_meas := [false] |}.

(** The attribute [acting_on] of an H, X or Z gate (an integer). *)
Definition qreg_of (o : op) : Z :=
  match o with
  | OInit _ _ q _ | OI q _ | OH q _ | OX q _ _ | OZ q _ | OMeas q => q
  | _ => 0
  end.

(** Models src/qudiet/core/operator_flow.py:231-241. *)
Fixpoint detect_measurement (k : nat) (l : list op) (meas : list bool) : res (list bool) :=
  match l with
  | [] => Ok meas
  | g :: gs =>
      meas' <- (if is_meas g then py_set meas (Z.of_nat k) true else Ok meas) ;;
      detect_measurement (Datatypes.S k) gs meas'
  end.

Definition set_next (n : nat) (m : moment) : moment :=
  {| m_name := m_name m; m_prev := m_prev m; m_next := Some n;
     m_operations := m_operations m; m_list := m_list m |}.
Definition set_prev (n : nat) (m : moment) : moment :=
  {| m_name := m_name m; m_prev := Some n; m_next := m_next m;
     m_operations := m_operations m; m_list := m_list m |}.
Definition set_list (l : list op) (m : moment) : moment :=
  {| m_name := m_name m; m_prev := m_prev m; m_next := m_next m;
     m_operations := m_operations m; m_list := l |}.

(** Models src/qudiet/core/operator_flow.py:215-219: append, linking the
    previous last moment with the new one. *)
Definition append_moment (fl : list moment) (m : moment) : list moment :=
  match rev fl with
  | [] => [m]
  | p :: before => rev before ++ [set_next (m_name m) p; set_prev (m_name p) m]
  end.

(** Models src/qudiet/core/operator_flow.py:150-229 [populate_opflow_test]
    with one argument (every caller passes exactly one Moment), to which
    [populate_opflow] (68-74) delegates.  The [break] of line 207 leaves the
    [for] loop, so a merged gate skips lines 209-227 and returns True. *)
Definition populate_opflow (f : opflow) (m : moment) : res (opflow * bool) :=
  match rev (f_list f) with
  | [] =>
      (* lines 221-227: empty list *)
      meas <- detect_measurement 0 (m_list m) (repeat false (length (m_list m))) ;;
      Ok ({| f_list := [m]; f_meas := meas |}, true)
  | last :: before =>
      if forallb (fun b => b) (f_meas f) then Ok (f, false)       (* lines 161-162 *)
      else
        merged <-
          match find is_hxz (m_list m) with
          | None => Ok None
          | Some g =>
              let i_gate_qreg_list := map qreg_of (filter is_igate (m_list last)) in
              if zmem (qreg_of g) i_gate_qreg_list
              then
                '(l', b) <- replace_igate (m_list last) g (qreg_of g) ;;
                Ok (if b : bool then Some (rev before ++ [set_list l' last]) else None)
              else Ok None
          end ;;
        match merged with
        | Some fl => Ok ({| f_list := fl; f_meas := f_meas f |}, true)
        | None =>
            meas <- detect_measurement 0 (m_list m) (f_meas f) ;;
            Ok ({| f_list := append_moment (f_list f) m; f_meas := meas |}, true)
        end
  end.

(** Models src/qudiet/core/operator_flow.py:243-284 [OperatorFlow.exec]:
    [None] when there is nothing left after popping the last moment.  The
    moments are multiplied from the last to the first; preprocess and
    postprocess do nothing (moment.py:215-219). *)
Definition flow_exec (B : backend S) (f : opflow) : res (option B) :=
  if forallb (fun b => b) (f_meas f)
  then
    match rev (f_list f) with
    | [] => Err IndexError                                  (* pop from empty list *)
    | _ :: rest =>
        fold_left
          (fun acc m =>
             a <- acc ;;
             k <- moment_exec B (m_list m) ;;
             match a with
             | None => Ok (Some k)
             | Some d => p <- b_dot d k ;; Ok (Some p)
             end) rest (Ok None)
    end
  else Err AssertionError.

(** ** Output *)

(** Models src/qudiet/core/output.py:33-40. *)
Inductive output_type : Type := OutPrint | OutState.
Inductive output_method : Type := OutProbability | OutAmplitude.

(** Models src/qudiet/core/output.py:43-52. *)
Record output : Type := { o_base : list Z; o_type : output_type; o_method : output_method }.

(** The key of one output dictionary: a string or a tuple of integers. *)
Inductive label : Type := LStr (s : string) | LTup (l : list Z).

(** Models src/qudiet/core/output.py:69-73. *)
Definition mk_label (ty : output_type) (state : list Z) : label :=
  match ty with
  | OutPrint => LStr ("|" ++ String.concat "" (map str_of_Z state) ++ ">")%string
  | OutState => LTup state
  end.

(** Models src/qudiet/core/output.py:54-76 [Output.__call__]: [nonzero()[0]]
    lists the row of every nonzero entry in row-major order; the amplitude is
    read from column 0. *)
Definition output_call (o : output) (result : mat) : res (list (label * S)) :=
  let value := flat_map (fun i =>
                 flat_map (fun j => if seqb (mget result i j) s0 then [] else [i])
                          (seq 0 (mc result))) (seq 0 (mr result)) in
  mapM (fun v =>
          let d := mget result v 0 in
          state <- Nbase_to_bin (Z.of_nat v) (o_base o) ;;
          Ok (mk_label (o_type o) state,
              match o_method o with OutProbability => smul d d | OutAmplitude => d end))
       value.

(** ** QuantumCircuit *)

(** [qregs] is a tuple or a list of integers (quantum_circuit.py:62,95-98). *)
Inductive qregs : Type := QTuple (l : list Z) | QList (l : list Z).
Definition qregs_list (q : qregs) : list Z := match q with QTuple l | QList l => l end.

(** The state of a QuantumCircuit.
    Models src/qudiet/core/quantum_circuit.py:87-123. *)
Record circuit : Type := {
  c_qregs : qregs;
  c_init : list Z;
  c_len : Z;
  c_dims : list Z;
  c_out : output;
  c_flow : opflow }.

(** Models src/qudiet/core/quantum_circuit.py:109-118. *)
Definition reg_layout (q : qregs) : res (Z * list Z) :=
  match q with
  | QTuple l => n <- py_get l 0 ;; d <- py_get l 1 ;; Ok (n, zrepeat n d)
  | QList l => Ok (Z.of_nat (length l), l)
  end.

(** Models src/qudiet/core/quantum_circuit.py:102,120-121: the initial states
    padded with zeros up to the register length. *)
Definition pad_init (len : Z) (init : list Z) : list Z :=
  if (Z.of_nat (length init) <? len)%Z
  then init ++ zrepeat (len - Z.of_nat (length init)) 0%Z
  else init.

(** Models src/qudiet/core/quantum_circuit.py:363-380 [__initialize_states]. *)
Definition initialize_states (dims init : list Z) : res opflow :=
  gates <- mapM (fun '(i, e) =>
             d <- py_get dims (Z.of_nat i) ;; init_state S d e (Z.of_nat i))
           (combine (seq 0 (length init)) init) ;;
  '(f, _) <- populate_opflow opflow0 (mk_moment 0 gates) ;;
  Ok f.

(** Models src/qudiet/core/quantum_circuit.py:60-123 [__init__] for list and
    tuple [qregs]; [out = None] is the default Output of lines 90-91.  [cregs],
    [name] and [debug] have no observable effect and are left out, and the
    backend is a parameter of [run] (it is stored at line 87 and only used to
    build and multiply matrices). *)
Definition mk_circuit (q : qregs) (init : option (list Z)) (out : option output) : res circuit :=
  '(len, dims) <- reg_layout q ;;
  let st := pad_init len (match init with Some l => l | None => [] end) in
  f <- initialize_states dims st ;;
  Ok {| c_qregs := q; c_init := st; c_len := len; c_dims := dims;
        c_out := match out with
                 | Some o => o
                 | None => {| o_base := qregs_list q; o_type := OutPrint;
                              o_method := OutAmplitude |}
                 end;
        c_flow := f |}.

(** The list object passed as [init_states], after the constructor ran:
    [self.init_states = init_states or []] keeps a reference to a nonempty
    caller list and [extend] (line 121) modifies it in place; an empty list is
    falsy and is replaced by a fresh one.
    Models src/qudiet/core/quantum_circuit.py:102,120-121. *)
Definition init_arg_after (q : qregs) (init : list Z) : res (list Z) :=
  '(len, _) <- reg_layout q ;;
  Ok (match init with [] => [] | _ => pad_init len init end).

(** Models src/qudiet/core/quantum_circuit.py:145-160 [__validate_gate_inputs]
    for one register. *)
Definition validate1 (c : circuit) (qreg : Z) (dims : option Z) : res unit :=
  if (c_len c - 1 <? qreg)%Z then Err ValueError
  else match dims with
       | None => Ok tt
       | Some d =>
           if (d =? 0)%Z then Ok tt
           else r <- py_get (c_dims c) qreg ;;
                if (r <? d)%Z then Err ValueError else Ok tt
       end.

Definition validate (c : circuit) (qreg : regs) (dims : option Z) : res unit :=
  match qreg with
  | RInt z => validate1 c z dims
  | RList l => _ <- mapM (fun q => validate1 c q dims) l ;; Ok tt
  end.

(** Models src/qudiet/core/quantum_circuit.py:174-194: the list of operations
    of a new Moment holding [gate_obj] and identities elsewhere.  The loop
    state is [(_moment_data, gate_obj_added)]. *)
Definition moment_data (c : circuit) (qreg : regs) (gate_obj : op) : res (list op) :=
  space <- match qreg with
           | RList l => lb <- py_min l ;; ub <- py_max l ;; Ok (zrange lb (ub + 1))
           | RInt _ => Ok []
           end ;;
  '(data, _) <- fold_left (fun acc reg =>
      '(data, added) <- acc ;;
      if zmem reg space then
        Ok (if (added : bool) then (data, added) else (data ++ [gate_obj], true))
      else
        d <- py_get (c_dims c) reg ;;
        let data := data ++ [OI reg d] in
        match qreg with
        | RInt q => if (reg =? q)%Z
                    then data' <- py_set data reg gate_obj ;; Ok (data', added)
                    else Ok (data, added)
        | RList _ => Ok (data, added)
        end) (zrange 0 (c_len c)) (Ok ([], false)) ;;
  Ok data.

Definition set_flow (c : circuit) (f : opflow) : circuit :=
  {| c_qregs := c_qregs c; c_init := c_init c; c_len := c_len c; c_dims := c_dims c;
     c_out := c_out c; c_flow := f |}.

(** Models src/qudiet/core/quantum_circuit.py:162-197 [__add_moment_to_opflow]. *)
Definition add_moment (c : circuit) (qreg : regs) (gate_obj : op) : res (circuit * bool) :=
  data <- moment_data c qreg gate_obj ;;
  '(f, b) <- populate_opflow (c_flow c) (mk_moment (length (f_list (c_flow c))) data) ;;
  Ok (set_flow c f, b).

(** [dims or self._reg_dims[qreg]] (both [None] and [0] are falsy).
    Models src/qudiet/core/quantum_circuit.py:209,225,242,326. *)
Definition dims_or (c : circuit) (dims : option Z) (q : Z) : res Z :=
  match dims with
  | Some z => if (z =? 0)%Z then py_get (c_dims c) q else Ok z
  | None => py_get (c_dims c) q
  end.

(** The public gate methods.  [CTof controls target plus] is
    [toffoli((controls, target), plus)]; [CGate u qreg dims] is
    [gate(G, qreg, dims)] for a subclass [G] of ArbitaryGate whose constructor
    sets [_unitary] to the constant array [u]. *)
Inductive call : Type :=
| CH (qreg : Z) (dims : option Z)
| CX (qreg : Z) (dims : option Z) (plus : Z)
| CZ (qreg : Z) (dims : option Z)
| CCX (acting_on : list Z) (plus : Z)
| CTof (controls : list Z) (target : Z) (plus : Z)
| CGate (u : mat) (qreg : regs) (dims : option Z)
| CMeasure (qreg : Z)
| CMeasureAll.

(** Models src/qudiet/core/quantum_circuit.py:199-361 (h 199-212, x 214-230,
    z 232-245, toffoli 247-285, cx 287-312, gate 314-333, measure 335-343,
    measure_all 345-361).  [h], [x] and [z] are modelled for an integer
    register here and for a list in ListRegs.v.  The result is the new state and the returned boolean; an
    exception leaves the state unchanged, because every one of them is raised
    before [_opflow_list] is touched. *)
Definition api (c : circuit) (k : call) : res (circuit * bool) :=
  match k with
  | CH q dims =>
      _ <- validate1 c q dims ;;
      d <- dims_or c dims q ;;
      add_moment c (RInt q) (OH q d)
  | CX q dims plus =>
      _ <- validate1 c q dims ;;
      d <- dims_or c dims q ;;
      add_moment c (RInt q) (OX q d plus)
  | CZ q dims =>
      _ <- validate1 c q dims ;;
      d <- dims_or c dims q ;;
      add_moment c (RInt q) (OZ q d)
  | CCX acting plus =>
      a0 <- py_get acting 0 ;;
      a1 <- py_get acting 1 ;;
      let active := if (a0 <? a1)%Z then py_slice (c_dims c) a0 (a1 + 1)
                    else py_slice (c_dims c) a1 (a0 + 1) in
      add_moment c (RList acting) (OCX active acting plus)
  | CTof controls target plus =>
      g <- mk_toffoli S controls target plus (qregs_list (c_qregs c)) ;;
      match g with
      | OTof _ _ _ _ acting _ =>
          '(c', _) <- add_moment c (RList acting) g ;; Ok (c', true)
      | _ => Err TypeError                                    (* unreachable *)
      end
  | CGate u q dims =>
      _ <- validate c q dims ;;
      ds <- match q with
            | RInt z =>
                d <- dims_or c dims z ;; Ok (RInt d)
            | RList l =>
                match dims with
                | Some d => if (d =? 0)%Z
                            then r <- mapM (py_get (c_dims c)) l ;; Ok (RList r)
                            else Ok (RInt d)
                | None => r <- mapM (py_get (c_dims c)) l ;; Ok (RList r)
                end
            end ;;
      add_moment c q (OArb q ds u)
  | CMeasure _ => Err NotImplementedError
  | CMeasureAll =>
      let ms := map (fun i => OMeas i) (zrange 0 (c_len c)) in
      '(f, _) <- populate_opflow (c_flow c) (mk_moment (length (f_list (c_flow c))) ms) ;;
      Ok (set_flow c f, true)
  end.

(** One step of a history: an exception leaves the circuit as it was. *)
Definition step (c : circuit) (k : call) : circuit :=
  match api c k with Ok (c', _) => c' | Err _ => c end.

(** Models src/qudiet/core/quantum_circuit.py:382-389 [run].  The circuit is
    read, not written ([circuit_output] caches the returned value).  A [None]
    from exec fails in Output at [result.nonzero]. *)
Definition run (B : backend S) (c : circuit) : res (list (label * S)) :=
  r <- flow_exec B (c_flow c) ;;
  match r with
  | None => Err AttributeError
  | Some m => output_call (c_out c) (b_toarray m)
  end.

(** Sequential composition of calls where an exception aborts the script. *)
Fixpoint script (c : circuit) (ks : list call) : res circuit :=
  match ks with
  | [] => Ok c
  | k :: ks' => '(c', _) <- api c k ;; script c' ks'
  end.

(** A whole user script: build, issue the calls, measure_all, run. *)
Definition simulate (B : backend S) (q : qregs) (init : option (list Z)) (out : option output)
           (ks : list call) : res (list (label * S)) :=
  c <- mk_circuit q init out ;;
  c' <- script c (ks ++ [CMeasureAll]) ;;
  run B c'.

End Circuit.

Arguments CH {S}.
Arguments CX {S}.
Arguments CZ {S}.
Arguments CCX {S}.
Arguments CTof {S}.
Arguments CGate {S}.
Arguments CMeasure {S}.
Arguments CMeasureAll {S}.
