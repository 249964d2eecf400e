(** * Tree: the tree decomposition of the many-qubit Toffoli gate in
    /repo/test_circuit, and the script that runs it on the simulator. *)
From Verif Require Import Py Scalar Mat Utils Gates Circuit.
Set Implicit Arguments.
Open Scope Z_scope.

(** Models test_circuit/circuit.py:6-46 [Gate].  [inc_or_dec] is one of "+",
    "-" and "$"; [tq] is "Ternary" or "Quaternary". *)
Inductive sign : Type := Plus | Minus | Dollar.
Inductive arity : Type := Ternary | Quaternary.
Record tgate : Type := {
  g_target : Z; g_control : Z; g_tstate : Z; g_cstate : Z; g_sign : sign; g_tq : arity }.

(** Models test_circuit/circuit.py:34-40 [flip]. *)
Definition flip (g : tgate) : tgate :=
  {| g_target := g_target g; g_control := g_control g; g_tstate := g_tstate g;
     g_cstate := g_cstate g; g_sign := Minus; g_tq := g_tq g |}.

(** The pair of optional gates of one decomposition (circuit.py:81). *)
Definition decomp : Type := option tgate * option tgate.

(** Python sets of integers: lists without duplicates, in insertion order. *)
Definition set_add (x : Z) (s : list Z) : list Z := if zmem x s then s else s ++ [x].

(** Python dictionaries from integers to integers: the pairs in the order they
    were stored, the last one counts. *)
Definition dict_get (l : list (Z * Z)) (k : Z) : option Z :=
  fold_left (fun acc '(k', v) => if k' =? k then Some v else acc) l None.

(** Models test_circuit/circuit.py:72-92: the attributes of [Circuit], and the
    local variable [current_depth] of [simulate].  The queue is a list, its
    head the next element to leave. *)
Record tree : Type := {
  t_n : Z; t_c : Z; t_queue : list Z; t_depth : Z;
  t_levels : list (list decomp);
  t_quat : Z; t_tern : Z; t_gpll : Z;
  t_qubits : list Z; t_qutrits : list Z; t_ququads : list Z;
  t_mapping : list (Z * Z);
  t_current : Z }.

(** Models test_circuit/circuit.py:358-365 [generate_inorder].  The recursion
    at least doubles [parent], so it is less than [c + 1] deep; [fuel] bounds
    the depth (see [Props_Tree.C45_fuel_is_enough]). *)
Fixpoint generate_inorder (fuel : nat) (c parent : Z) : list Z :=
  match fuel with
  | O => []
  | S fuel' =>
      if parent >? c then []
      else
        let left := parent * 2 in
        let right := parent * 2 + 1 in
        generate_inorder fuel' c left ++ [parent] ++ generate_inorder fuel' c right
  end.

(** [enumerate(l)] from [k], as (element, index) pairs: circuit.py:369. *)
Fixpoint indexed (l : list Z) (k : Z) : list (Z * Z) :=
  match l with [] => [] | x :: xs => (x, k) :: indexed xs (k + 1) end.

(** Models test_circuit/circuit.py:357-374 [inorder_traversal]. *)
Definition inorder_traversal (fuel : nat) (n c : Z) : list (Z * Z) :=
  indexed (generate_inorder fuel c 1) 0 ++ [(n, n - 1)].

Section Tree.

(** [math.floor(math.log(c, 2))] in floating point, for [c > 0]. *)
Variable flog : Z -> Z.

(** Models test_circuit/circuit.py:94-113 [Circuit.__init__]; [math.log] of a
    number that is not positive raises ValueError. *)
Definition mk_tree (fuel : nat) (n : Z) : res tree :=
  let c := n - 1 in
  if c <=? 0 then Err ValueError
  else
    let depth := flog c in
    Ok {| t_n := n; t_c := c; t_queue := []; t_depth := depth;
          t_levels := map (fun _ => []) (zrange 0 depth);
          t_quat := 0; t_tern := 0; t_gpll := c / 4;
          t_qubits := []; t_qutrits := []; t_ququads := [];
          t_mapping := inorder_traversal fuel n c;
          t_current := -1 |}.

(** Models test_circuit/circuit.py:115-124, 126-135, 147-156. *)
Definition check_id (t : tree) (v : Z) : bool := v >? t_gpll t.
Definition check_gpll (t : tree) (v : Z) : bool := v =? t_gpll t.
Definition check_sd (t : tree) (v : Z) : bool := v <? t_gpll t.

(** Models test_circuit/circuit.py:137-145. *)
Definition gpll_has_right_grandchild (t : tree) : bool :=
  2 * (t_c t / 2) - 4 * (t_c t / 4) =? 2.

(** Models test_circuit/circuit.py:336-355 [make_gates]. *)
Inductive stage : Type := SId | SGpll | SSd.
Definition mk_gate (target control tstate cstate : Z) (tq : arity) : tgate :=
  {| g_target := target; g_control := control; g_tstate := tstate; g_cstate := cstate;
     g_sign := Plus; g_tq := tq |}.
Definition make_gates (left center right : Z) (condition : bool) (st : stage) : decomp :=
  match st with
  | SId =>
      if condition then (Some (mk_gate center left (2 + 1) (2 - 1) Ternary), None)
      else (Some (mk_gate right left (2 + 1) (2 - 1) Ternary),
            Some (mk_gate center right (2 + 1) 2 Ternary))
  | SGpll =>
      if condition
      then (Some (mk_gate right left (2 + 2) 2 Quaternary),
            Some (mk_gate center right (2 + 1) (2 + 1) Quaternary))
      else (Some (mk_gate right left (2 + 1) 2 Ternary),
            Some (mk_gate center right (2 + 1) 2 Ternary))
  | SSd =>
      (Some (mk_gate right left (2 + 2) 2 Quaternary),
       Some (mk_gate center right (2 + 1) (2 + 1) Quaternary))
  end.

(** [self.levels[index].append(decomposition)]: circuit.py:273. *)
Definition append_level (levels : list (list decomp)) (index : Z) (d : decomp) : res (list (list decomp)) :=
  l <- py_get levels index ;; py_set levels index (l ++ [d]).

(** Models test_circuit/circuit.py:187-273: the body of the loop, on a queue
    that is not empty ([q] is the queue after the [dequeue]).  At line 250 the
    condition is the bound method [self.gpll_has_right_grandchild] itself, not
    its result: it is always true. *)
Definition tree_body (t : tree) (v : Z) (q : list Z) : res tree :=
  let current := if v =? Z.shiftl 1 (t_current t + 1) then t_current t + 1 else t_current t in
  let left := v * 2 in
  let right := v * 2 + 1 in
  let index := t_depth t - 1 - current in
  let '(queue, quat, tern, qubits, qutrits, ququads, current', d) :=
    if check_id t v then
      if right >? t_c t
      then (q, t_quat t, t_tern t + (1 + 1), set_add left (t_qubits t), t_qutrits t, t_ququads t,
            current, make_gates left v right (right >? t_c t) SId)
      else (q, t_quat t, t_tern t + (2 + 2), set_add left (t_qubits t), set_add right (t_qutrits t), t_ququads t,
            current, make_gates left v right (right >? t_c t) SId)
    else if check_gpll t v then
      if gpll_has_right_grandchild t
      then (q ++ [left; right], t_quat t + (2 + 2), t_tern t, t_qubits t,
            set_add left (t_qutrits t), set_add right (t_ququads t),
            current + 1, make_gates left v right true SGpll)
      else (q ++ [left], t_quat t, t_tern t + (2 + 2), t_qubits t,
            set_add right (set_add left (t_qutrits t)), t_ququads t,
            current + 1, make_gates left v right true SGpll)
    else
      (q ++ [left; right], t_quat t + (2 + 2), t_tern t, t_qubits t,
       set_add left (t_qutrits t), set_add right (t_ququads t),
       current, make_gates left v right true SSd) in
  levels <- append_level (t_levels t) index d ;;
  Ok {| t_n := t_n t; t_c := t_c t; t_queue := queue; t_depth := t_depth t; t_levels := levels;
        t_quat := quat; t_tern := tern; t_gpll := t_gpll t;
        t_qubits := qubits; t_qutrits := qutrits; t_ququads := ququads;
        t_mapping := t_mapping t; t_current := current' |}.

(** Models the loop of test_circuit/circuit.py:167-273.  [fuel] bounds the
    number of rounds (see [Props_Tree.C45_fuel_is_enough]). *)
Fixpoint tree_loop (fuel : nat) (t : tree) : res tree :=
  match fuel, t_queue t with
  | _, [] => Ok t
  | O, _ :: _ => Ok t
  | S fuel', v :: q => t' <- tree_body t v q ;; tree_loop fuel' t'
  end.

(** Models test_circuit/circuit.py:309-334 [get_reflection]. *)
Definition reflect_decomp (d : decomp) : res decomp :=
  match d with
  | (Some l, r) => Ok (option_map flip r, Some (flip l))
  | (None, _) => Err AttributeError
  end.
Definition get_reflection (levels : list (list decomp)) : res (list (list decomp)) :=
  mapM (mapM reflect_decomp) (rev levels).

(** Models test_circuit/circuit.py:158-166: the setup of [simulate]. *)
Definition tree_start (t : tree) : tree :=
  {| t_n := t_n t; t_c := t_c t; t_queue := t_queue t ++ [1]; t_depth := t_depth t; t_levels := t_levels t;
     t_quat := t_quat t; t_tern := t_tern t; t_gpll := t_gpll t;
     t_qubits := set_add (t_n t) (t_qubits t); t_qutrits := set_add 1 (t_qutrits t); t_ququads := t_ququads t;
     t_mapping := t_mapping t; t_current := -1 |}.

(** Models test_circuit/circuit.py:275 [self.tern += 1]. *)
Definition count_target (t : tree) : tree :=
  {| t_n := t_n t; t_c := t_c t; t_queue := t_queue t; t_depth := t_depth t; t_levels := t_levels t;
     t_quat := t_quat t; t_tern := t_tern t + 1; t_gpll := t_gpll t;
     t_qubits := t_qubits t; t_qutrits := t_qutrits t; t_ququads := t_ququads t;
     t_mapping := t_mapping t; t_current := t_current t |}.

(** Models test_circuit/circuit.py:304: the gate on the main target. *)
Definition main_gate (n : Z) : tgate :=
  {| g_target := n; g_control := 1; g_tstate := 1; g_cstate := 2; g_sign := Dollar; g_tq := Ternary |}.

(** Models test_circuit/circuit.py:158-307 [simulate]: the circuit afterwards
    and its [final_levels]. *)
Definition tree_simulate (fuel : nat) (t : tree) : res (tree * list (list decomp)) :=
  t' <- tree_loop fuel (tree_start t) ;;
  let t' := count_target t' in
  r <- get_reflection (t_levels t') ;;
  Ok (t', t_levels t' ++ [[(Some (main_gate (t_n t')), None)]] ++ r).

(** [Circuit(n)] followed by [simulate()]. *)
Definition decompose (fuel : nat) (n : Z) : res (tree * list (list decomp)) :=
  t <- mk_tree fuel n ;; tree_simulate fuel t.

(** ** The script *)
Section Script.
Variable S : scalar.

(** Models test_circuit/useQudiet.py:66-73 [make_CNOT_gate] and the call of
    [qc.cx] at 49-50 and 53-54.  [mapping.get] gives None for an unknown node,
    on which [cx] raises TypeError when it compares registers. *)
Definition cnot_call (mapping : list (Z * Z)) (g : tgate) : res (call S) :=
  match dict_get mapping (g_control g), dict_get mapping (g_target g) with
  | Some c, Some t => Ok (CCX [c; t] (match g_sign g with Minus => -1 | _ => 1 end))
  | _, _ => Err TypeError
  end.

(** The gates in the order of the loops at test_circuit/useQudiet.py:44-54. *)
Definition opt_list {A} (o : option A) : list A := match o with Some x => [x] | None => [] end.
Definition decomp_gates (d : decomp) : list tgate := opt_list (fst d) ++ opt_list (snd d).
Definition all_gates (levels : list (list decomp)) : list tgate := flat_map (flat_map decomp_gates) levels.

(** Models test_circuit/useQudiet.py:9-11, 17 and 26-30: the dimensions. *)
Definition wires (mapping : list (Z * Z)) (nodes : list Z) : list (option Z) := map (dict_get mapping) nodes.
Definition has_wire (ws : list (option Z)) (i : Z) : bool :=
  existsb (fun w => match w with Some j => j =? i | None => false end) ws.
Definition tree_qregs (t : tree) (n : Z) : list Z :=
  map (fun i => if has_wire (wires (t_mapping t) (t_ququads t)) i then 4
                else if has_wire (wires (t_mapping t) (t_qutrits t)) i then 3 else 2)
      (zrange 0 n).

(** Models test_circuit/useQudiet.py:5-63 [RUN_CIRC]; the first key of the
    first outcome is returned.  The conversions of all gates come before the
    first [cx] call here, in the code they alternate with the calls. *)
Definition run_circ (fuel : nat) (B : backend S) (n : Z) (input : option (list Z)) : res label :=
  '(t, final) <- decompose fuel n ;;
  let init := match input with Some l => l | None => zrepeat n 1 end in
  ks <- mapM (cnot_call (t_mapping t)) (all_gates final) ;;
  out <- simulate B (QList (tree_qregs t n)) (Some init) None ks ;;
  match out with
  | (l, _) :: _ => Ok l
  | [] => Err IndexError
  end.
End Script.

(** ** The counts *)

(** Models test_circuit/main.py:10-25 [mathematical_expectation]. *)
Definition mathematical_expectation (n : Z) : Z * Z * Z * Z * Z :=
  let c := n - 1 in
  let tern := 4 * (c / 4) + 5 in
  let quat := 4 * (c / 2) - 4 * (c / 4) - 4 in
  let tern := if c mod 2 =? 0 then tern - 2 else tern in
  (tern, quat, c / 2 - c / 4 + 1, 2 * (c / 4) + 2, c / 2 - c / 4 - 1).

(** Models test_circuit/main.py:35-56: the counts of the gates by label. *)
Definition count_label (a : arity) (levels : list (list decomp)) : Z :=
  Z.of_nat (length (filter (fun g => match g_tq g, a with
                                     | Ternary, Ternary | Quaternary, Quaternary => true
                                     | _, _ => false end) (all_gates levels))).
End Tree.
