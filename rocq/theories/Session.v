(** * Session: gate calls and runs interleaved on one circuit object.
    Here the list object [_opflow_list] lives in a store of Python list
    objects, because run() copies that list and pops from the copy. *)
From Verif Require Import Py Scalar Mat Utils Gates Circuit.
Set Implicit Arguments.

Section Session.
Variable S : scalar.
Notation moment := (moment S).
Notation circuit := (circuit S).
Notation call := (call S).

(** The list objects by address, the address held by [op_flow._opflow_list],
    the other attributes of the circuit (the [f_list] inside [s_circ] is not
    used), and [circuit_output].
    Models src/qudiet/core/quantum_circuit.py:87-123 and
    src/qudiet/core/operator_flow.py:51-53. *)
Record session : Type := {
  s_heap : list (list moment);
  s_ref : nat;
  s_circ : circuit;
  s_output : option (list (label * S)) }.

(** The circuit as it is seen through the reference. *)
Definition load (s : session) : circuit :=
  set_flow (s_circ s) {| f_list := nth (s_ref s) (s_heap s) []; f_meas := f_meas (c_flow (s_circ s)) |}.

(** A new circuit: its list is the first list object. *)
Definition session_of (c : circuit) : session :=
  {| s_heap := [f_list (c_flow c)]; s_ref := 0; s_circ := c; s_output := None |}.

(** Models src/qudiet/core/quantum_circuit.py:199-361: the gate methods append
    to the list, or change its last moment, in place. *)
Definition do_call (s : session) (k : call) : session * res bool :=
  match api (load s) k with
  | Ok (c', b) =>
      ({| s_heap := upd (s_heap s) (s_ref s) (f_list (c_flow c')); s_ref := s_ref s;
          s_circ := c'; s_output := s_output s |}, Ok b)
  | Err e => (s, Err e)
  end.

(** Models src/qudiet/core/operator_flow.py:243-284 with its effect on the
    list objects: line 253 makes a new list object with the same moments (a
    shallow copy; the moments are only read), line 256 pops from the copy. *)
Definition do_exec (B : backend S) (heap : list (list moment)) (ref : nat) (meas : list bool)
    : list (list moment) * res (option B) :=
  let copy := length heap in
  let heap1 := heap ++ [nth ref heap []] in
  if forallb (fun b => b) meas
  then
    match nth copy heap1 [] with
    | [] => (heap1, Err IndexError)
    | _ :: _ =>
        let heap2 := upd heap1 copy (removelast (nth copy heap1 [])) in
        (heap2, fold_left
          (fun acc m =>
             a <- acc ;;
             k <- moment_exec B (m_list m) ;;
             match a with
             | None => Ok (Some k)
             | Some d => p <- b_dot d k ;; Ok (Some p)
             end) (rev (nth copy heap2 [])) (Ok None))
    end
  else (heap1, Err AssertionError).

(** Models src/qudiet/core/quantum_circuit.py:382-389: the result is also kept
    in [circuit_output], unless an exception is raised first. *)
Definition do_run (B : backend S) (s : session) : session * res (list (label * S)) :=
  let '(heap, r) := do_exec B (s_heap s) (s_ref s) (f_meas (c_flow (s_circ s))) in
  let out := m <- r ;;
             match m with None => Err AttributeError | Some x => output_call (c_out (s_circ s)) (b_toarray x) end in
  ({| s_heap := heap; s_ref := s_ref s; s_circ := s_circ s;
      s_output := match out with Ok l => Some l | Err _ => s_output s end |}, out).

(** What the user does, and what they get to see. *)
Inductive action : Type := ACall (k : call) | ARun (B : backend S).
Inductive event : Type := ECall (r : res bool) | ERun (r : res (list (label * S))).

Definition do_action (s : session) (a : action) : session * event :=
  match a with
  | ACall k => let '(s', r) := do_call s k in (s', ECall r)
  | ARun B => let '(s', r) := do_run B s in (s', ERun r)
  end.

Fixpoint do_all (s : session) (l : list action) : session * list event :=
  match l with
  | [] => (s, [])
  | a :: l' => let '(s1, e) := do_action s a in let '(s2, es) := do_all s1 l' in (s2, e :: es)
  end.

(** The calls of a list of actions, without the runs. *)
Definition calls_of (l : list action) : list call :=
  flat_map (fun a => match a with ACall k => [k] | ARun _ => [] end) l.
End Session.

Arguments ACall {S}.
Arguments ARun {S}.
Arguments ECall {S}.
Arguments ERun {S}.
