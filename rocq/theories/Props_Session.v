(** * Props_Session: gate calls and runs interleaved (C35, C51). *)
From Coq Require Import String.
From Verif Require Import Py Scalar Mat Utils Gates Circuit Session Spec HistSpec Repeat ExLib.
Local Notation length := List.length.

(** ** C35: whatever runs are mixed into the calls, each run returns what the
    circuit built by the calls so far computes, each call returns what it
    returns without the runs, and the final circuit is the one built by the
    calls alone. *)
Theorem C35_runs_leave_no_trace :
  forall S (c : circuit S) (l : list (action S)) s es, do_all (session_of c) l = (s, es) ->
  load s = after c (calls_of l) /\ length es = length l /\
  (forall n B, nth_error l n = Some (ARun B) ->
     nth_error es n = Some (ERun (run B (after c (calls_of (firstn n l)))))) /\
  (forall n k, nth_error l n = Some (ACall k) ->
     nth_error es n = Some (ECall (match api (after c (calls_of (firstn n l))) k with
                                   | Ok (_, b) => Ok b | Err e => Err e end))).
Proof.
  intros S c l s es H.
  destruct (@do_all_ok S l (session_of c) s es (Nat.lt_0_succ 0) H) as [_ [H2 [H3 H4]]].
  rewrite load_new in H2. split; [exact H2|]. split; [exact H3|].
  split; intros n x Hn; rewrite (H4 n _ Hn), load_new; reflexivity.
Qed.

(** Running twice in a row gives the same answer twice. *)
Theorem C35_run_is_repeatable :
  forall S (c : circuit S) (l1 l2 : list (action S)) B s es,
  do_all (session_of c) (l1 ++ ARun B :: ARun B :: l2) = (s, es) ->
  nth_error es (length l1) = nth_error es (length l1 + 1) /\
  nth_error es (length l1) = Some (ERun (run B (after c (calls_of l1)))).
Proof.
  intros S c l1 l2 B s es H. destruct (C35_runs_leave_no_trace S c _ s es H) as [_ [_ [H1 _]]].
  rewrite (H1 (length l1) B), (H1 (length l1 + 1) B).
  - rewrite !firstn_app, Nat.sub_diag, firstn_all. rewrite (firstn_all2 (n := length l1 + 1)) by lia.
    replace (length l1 + 1 - length l1) with 1 by lia. cbn [firstn]. rewrite !app_nil_r, calls_of_app.
    change (calls_of [ARun B]) with (@nil (call S)). rewrite !app_nil_r. split; reflexivity.
  - rewrite nth_error_app2 by lia. replace (length l1 + 1 - length l1) with 1 by lia. reflexivity.
  - rewrite nth_error_app2 by lia. rewrite Nat.sub_diag. reflexivity.
Qed.

(** ** C51: [circuit_output] is the result of the last run() that returned;
    failing runs and gate calls do not touch it. *)
Theorem C51_circuit_output_is_the_last_result :
  forall S (c : circuit S) (l : list (action S)) s es n r, do_all (session_of c) l = (s, es) ->
  nth_error es n = Some (ERun (Ok r)) -> (forall m r', n < m -> nth_error es m <> Some (ERun (Ok r'))) ->
  s_output s = Some r.
Proof. intros S c l s es n r H. exact (proj1 (output_kept _ _ H) n r). Qed.

Theorem C51_circuit_output_is_None_before_the_first_result :
  forall S (c : circuit S) (l : list (action S)) s es, do_all (session_of c) l = (s, es) ->
  (forall n r, nth_error es n <> Some (ERun (Ok r))) -> s_output s = None.
Proof. intros S c l s es H. exact (proj2 (output_kept _ _ H)). Qed.

Section Examples.
Open Scope Z_scope.
Let S := Zscalar.
Let NB := NumpyBackend S.
Let zero : list (label * car S) := [(LStr "|00>"%string, 1)].

(** A run too early, two runs in a row, a rejected call and a run in between. *)
Example ex_C35 :
  snd (do_all (session_of (forced (mk_circuit S (QList [2; 3]) (Some [1; 2]) None)))
    [ACall (CX 0 None 1); ARun NB; ACall (CX 1 None 1); ACall CMeasureAll; ARun NB; ARun NB;
     ACall (CX 5 None 1); ACall (CX 0 None 1); ARun (SparseBackend S)])
  = ([ECall (Ok true); ERun (Err AssertionError); ECall (Ok true); ECall (Ok true);
     ERun (Ok zero); ERun (Ok zero);
     ECall (Err ValueError); ECall (Ok false); ERun (Ok zero)] : list (event S)).
Proof. vm_compute. reflexivity. Qed.

(** Nothing is kept of a run that is too early; a result survives later calls. *)
Example ex_C51 :
  let start := session_of (forced (mk_circuit S (QList [2; 3]) (Some [1; 2]) None)) in
  let early := [ACall (CX 0 None 1); ARun NB; ACall (CX 1 None 1)] in
  s_output (fst (do_all start early)) = None /\
  s_output (fst (do_all start (early ++ [ACall CMeasureAll; ARun NB; ACall (CX 9 None 1); ACall (CX 0 None 1)]))) = Some zero.
Proof. vm_compute. auto. Qed.
End Examples.

Print Assumptions C35_runs_leave_no_trace.
Print Assumptions C35_run_is_repeatable.
Print Assumptions C51_circuit_output_is_the_last_result.
Print Assumptions C51_circuit_output_is_None_before_the_first_result.
