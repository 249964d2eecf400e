(** * Props_QasmLines: any gate line of a QASM text (C52-C54). *)
From Coq Require Import String Ascii.
From Verif Require Import Py Scalar Mat Utils Gates Circuit Spec Calls HistSpec CallSpec Lib Qasm QasmSpec QasmLib QasmMarks QasmRun QasmLineSpec QasmLines
  ExLib Props_Run Props_Qasm.
Local Notation length := List.length.
Local Notation text := (list ascii).
Local Notation T s := (list_ascii_of_string s%string).

(** A text whose declarations have the dimensions [dims] and whose gate lines
    have the outcomes [os]. *)
Definition reads_as {S} (d : doc) (dims : list nat) (os : list (res (option (call S)))) : Prop :=
  exists dss, well_formed d /\ Forall2 declares (d_decls d) dss /\ Forall2 (@outcome S) (d_gates d) os /\ dims = concat dss.

(** ** C52 *)
Theorem C52_every_line_has_an_outcome : forall S l, ~ begins (T "Toffoli") l -> exists o, @outcome S l o.
Proof. exact outcome_total. Qed.

Theorem C52_a_line_has_one_outcome : forall S l o o', @outcome S l o -> outcome l o' -> o = o'.
Proof. intros S l o o' H H'. rewrite <- (outcome_read H). exact (outcome_read H'). Qed.

Theorem C52_a_text_performs_its_lines_in_order :
  forall S d dims (os : list (res (option (call S)))), reads_as d dims os ->
  circuit_from_qasm S (text_of d) = performed (raised dims (wanted os)) os.
Proof. intros S d dims os [dss [W [D [G ->]]]]. exact (read_outcomes W D G). Qed.

(** The first malformed line decides the exception, when the calls before it
    are accepted. *)
Theorem C52_malformed_line_raises :
  forall S d dims (os1 os2 : list (res (option (call S)))) e c0 c, reads_as d dims (os1 ++ Err e :: os2) ->
  Forall (fun o => exists k, o = Ok k) os1 ->
  mk_circuit S (QList (map Z.of_nat (raised dims (wanted (os1 ++ Err e :: os2))))) None None = Ok c0 -> call_all c0 (wanted os1) = Ok c ->
  circuit_from_qasm S (text_of d) = Err e.
Proof.
  intros S d dims os1 os2 e c0 c H F E0 E. rewrite (C52_a_text_performs_its_lines_in_order _ _ _ _ H). unfold performed. rewrite E0. cbn [bind].
  eapply perform_error; eassumption.
Qed.

(** ** C53: whatever the other gate lines are. *)
Theorem C53_toffoli_without_two_controls_raises_ValueError :
  forall S d ns t, well_formed d -> operands ns t -> length ns <> 3 -> In (T "Toffoli " ++ t) (d_gates d) ->
  circuit_from_qasm S (text_of d) = Err ValueError.
Proof. intros S d ns t W O N H. eapply bad_doc; [exact W | exact H | eexists; reflexivity | exact (other_operands O N)]. Qed.

Theorem C53_other_toffoli_lines_raise_ValueError :
  forall S d l, well_formed d -> In l (d_gates d) -> begins (T "Toffoli") l -> ~ two_controls l ->
  circuit_from_qasm S (text_of d) = Err ValueError.
Proof. intros S d l W H B N. eapply bad_doc; [exact W | exact H | exact B | exact (not_two_controls B N)]. Qed.

(** ** C54: header, footer, register count and register names. *)
Theorem C54_only_dimensions_and_gate_lines_matter :
  forall S d d' dss dss', well_formed d -> well_formed d' -> Forall2 declares (d_decls d) dss -> Forall2 declares (d_decls d') dss' ->
  concat dss = concat dss' -> d_gates d = d_gates d' ->
  circuit_from_qasm S (text_of d) = circuit_from_qasm S (text_of d').
Proof. intros S d d' dss dss' W W' D D' E G. exact (same_dimensions S W W' D D' E G). Qed.

(** ** Concrete cases *)
Section Examples.
Notation S := Zscalar.
Let num1 d (H : d < 10) : numeral [digit d] d := num_one H.

Ltac whites := first [left; reflexivity | right; eexists _, _; split; [reflexivity | vm_compute; tauto]].
Ltac inks := repeat (apply Forall_cons; [vm_compute; intuition discriminate|]); apply Forall_nil.
Ltac nodigits := repeat (apply Forall_cons; [apply not_digital; reflexivity|]); apply Forall_nil.

(** A trailing comment of one word raises, of two words it does not; an
    underscore is allowed between digits and nowhere else. *)
Example ex_C52_lines :
  @outcome S (T "X x0 #flip") (Err ValueError) /\
  @outcome S (T "X x0 # flip") (Ok (Some (CX 0 None 1)))%Z /\
  @outcome S (T "X  x0 1_2") (Ok (Some (CX 0 None 12)))%Z /\
  @outcome S (T "Xx0") (Err IndexError) /\
  @outcome S (T "Hadamard of x2") (Err IndexError) /\
  @outcome S (T "CX x0 x1 a7b9") (Ok (Some (CCX [0; 1] 7)))%Z.
Proof.
  assert (N0 : first_number (T "x0") 0).
  { change (T "x0") with ((T "x" ++ [digit 0] ++ []) : text). constructor; [nodigits | exact (num1 0 ltac:(lia)) | left; reflexivity]. }
  assert (N1 : first_number (T "x1") 1).
  { change (T "x1") with ((T "x" ++ [digit 1] ++ []) : text). constructor; [nodigits | exact (num1 1 ltac:(lia)) | left; reflexivity]. }
  assert (N7 : first_number (T "a7b9") 7).
  { change (T "a7b9") with ((T "a" ++ [digit 7] ++ T "b9") : text). constructor; [nodigits | exact (num1 7 ltac:(lia)) |].
    right. exists "b"%char, (T "9"). split; [reflexivity | apply not_digital; reflexivity]. }
  split; [|split; [|split; [|split; [|split]]]].
  - assert (Ht : tokens (T "X x0 #flip") [T "X"; T "x0"; T "#flip"]).
    { apply (@tk_word (T "X") (T " x0 #flip")); [discriminate | inks | whites|]. apply tk_white; [vm_compute; tauto|].
      apply (@tk_word (T "x0") (T " #flip")); [discriminate | inks | whites|]. apply tk_white; [vm_compute; tauto|].
      apply (@tk_word (T "#flip") []); [discriminate | inks | whites | constructor]. }
    refine (@oc_x S _ _ (Err ValueError) (Ok 0%Z) _ Ht _ _); [left; exists (T " x0 #flip"); reflexivity | apply xi_bad; [reflexivity|] | apply op_number with (n := 0); [simpl; lia | exact N0]].
    cbn [nth]. intros v H. apply py_int_complete in H. vm_compute in H. discriminate H.
  - assert (Ht : tokens (T "X x0 # flip") [T "X"; T "x0"; T "#"; T "flip"]).
    { apply (@tk_word (T "X") (T " x0 # flip")); [discriminate | inks | whites|]. apply tk_white; [vm_compute; tauto|].
      apply (@tk_word (T "x0") (T " # flip")); [discriminate | inks | whites|]. apply tk_white; [vm_compute; tauto|].
      apply (@tk_word (T "#") (T " flip")); [discriminate | inks | whites|]. apply tk_white; [vm_compute; tauto|].
      apply (@tk_word (T "flip") []); [discriminate | inks | whites | constructor]. }
    refine (@oc_x S _ _ (Ok 1%Z) (Ok 0%Z) _ Ht _ _); [left; exists (T " x0 # flip"); reflexivity | apply xi_one; discriminate | apply op_number with (n := 0); [simpl; lia | exact N0]].
  - assert (Ht : tokens (T "X  x0 1_2") [T "X"; T "x0"; T "1_2"]).
    { apply (@tk_word (T "X") (T "  x0 1_2")); [discriminate | inks | whites|]. apply tk_white; [vm_compute; tauto|]. apply tk_white; [vm_compute; tauto|].
      apply (@tk_word (T "x0") (T " 1_2")); [discriminate | inks | whites|]. apply tk_white; [vm_compute; tauto|].
      apply (@tk_word (T "1_2") []); [discriminate | inks | whites | constructor]. }
    refine (@oc_x S _ _ (Ok 12%Z) (Ok 0%Z) _ Ht _ _); [left; exists (T "  x0 1_2"); reflexivity | apply xi_given; [reflexivity|] | apply op_number with (n := 0); [simpl; lia | exact N0]].
    exact (pi_plain (@pn_score _ _ 2 (@pn_one 1 ltac:(lia)) ltac:(lia))).
  - assert (Ht : tokens (T "Xx0") [T "Xx0"]) by (apply (@tk_word (T "Xx0") []); [discriminate | inks | whites | constructor]).
    refine (@oc_x S _ _ (Ok 1%Z) (Err IndexError) _ Ht _ _); [left; exists (T "x0"); reflexivity | apply xi_one; discriminate | apply op_absent; simpl; lia].
  - assert (Ht : tokens (T "Hadamard of x2") [T "Hadamard"; T "of"; T "x2"]).
    { apply (@tk_word (T "Hadamard") (T " of x2")); [discriminate | inks | whites|]. apply tk_white; [vm_compute; tauto|].
      apply (@tk_word (T "of") (T " x2")); [discriminate | inks | whites|]. apply tk_white; [vm_compute; tauto|].
      apply (@tk_word (T "x2") []); [discriminate | inks | whites | constructor]. }
    refine (@oc_h S _ _ (Err IndexError) _ Ht _); [exists (T "adamard of x2"); reflexivity | apply op_wordy; [simpl; lia | nodigits]].
  - assert (Ht : tokens (T "CX x0 x1 a7b9") [T "CX"; T "x0"; T "x1"; T "a7b9"]).
    { apply (@tk_word (T "CX") (T " x0 x1 a7b9")); [discriminate | inks | whites|]. apply tk_white; [vm_compute; tauto|].
      apply (@tk_word (T "x0") (T " x1 a7b9")); [discriminate | inks | whites|]. apply tk_white; [vm_compute; tauto|].
      apply (@tk_word (T "x1") (T " a7b9")); [discriminate | inks | whites|]. apply tk_white; [vm_compute; tauto|].
      apply (@tk_word (T "a7b9") []); [discriminate | inks | whites | constructor]. }
    refine (@oc_cx S _ _ (Ok 0%Z) (Ok 1%Z) (Ok 7%Z) _ Ht _ _ _); [left; exists (T " x0 x1 a7b9"); reflexivity | | |].
    + apply op_number with (n := 0); [simpl; lia | exact N0].
    + apply op_number with (n := 1); [simpl; lia | exact N1].
    + apply ci_given; [reflexivity|]. apply op_number with (n := 7); [simpl; lia | exact N7].
Qed.

(** A carriage return or a tab after the target does no harm. *)
Example ex_C52_toffoli : @outcome S (T "Toffoli x0, x1, x2" ++ [ascii_of_nat 13; ascii_of_nat 9]) (Ok (Some (CTof [0; 1] 2 1)))%Z.
Proof.
  refine (@oc_toffoli S [digit 0] 0 [digit 1] 1 [digit 2] 2 (T ", ") (T ", ") [ascii_of_nat 13; ascii_of_nat 9] _ _ _ _ _ _);
    try (apply num1; lia).
  - split; [discriminate | repeat constructor; vm_compute; tauto].
  - split; [discriminate | repeat constructor; vm_compute; tauto].
  - repeat constructor; vm_compute; tauto.
Qed.

Let bad_doc (l : text) : doc :=
  {| d_head := [T "# bad"]; d_kind := "qubit"; d_count := T "9"; d_blank := []; d_decls := [T "qubit x7"; T "qubit x7"; T "qutrit x3"];
     d_blank2 := []; d_gates := [T "X x0"; l; T "H x1"]; d_blank3 := []; d_foot := [] |}.
Ltac quiet_lines := repeat (apply Forall_cons; [apply inkless_quiet; split; apply absent; reflexivity|]); apply Forall_nil.
Lemma bad_wf : forall l, inkless l -> well_formed (bad_doc l).
Proof.
  intros l Hl. constructor; cbn [bad_doc d_head d_kind d_count d_blank d_decls d_blank2 d_gates d_blank3 d_foot]; try quiet_lines.
  - discriminate.
  - simpl; auto.
  - exists 9. exact (num1 9 ltac:(lia)).
  - apply Forall_cons; [apply inkless_quiet; split; apply absent; reflexivity|]. apply Forall_cons; [apply inkless_quiet; exact Hl | quiet_lines].
Qed.
Lemma bad_decls : forall l, Forall2 declares (d_decls (bad_doc l)) [[2]; [2]; [3]].
Proof.
  intro l. constructor; [exact (dc_qubit (num1 7 ltac:(lia)) (Forall_nil _))|]. constructor; [exact (dc_qubit (num1 7 ltac:(lia)) (Forall_nil _))|].
  constructor; [exact (dc_qutrit (num1 3 ltac:(lia)) (Forall_nil _)) | constructor].
Qed.

(** C52: the X before and the H after the malformed line are good. *)
Example ex_C52 :
  reads_as (S := S) (bad_doc (T "X x0 #flip")) [2; 2; 3] [Ok (Some (CX 0 None 1)); Err ValueError; Ok (Some (CH 1 None))]%Z /\
  (exists c0 c, mk_circuit S (QList [2; 2; 3]%Z) None None = Ok c0 /\ call_all c0 [CX 0 None 1]%Z = Ok c) /\
  circuit_from_qasm S (text_of (bad_doc (T "X x0 #flip"))) = Err ValueError /\
  circuit_from_qasm S (text_of (bad_doc (T "Xx0"))) = Err IndexError.
Proof.
  split; [|split; [eexists _, _; split; vm_compute; reflexivity | split; vm_compute; reflexivity]].
  assert (N : forall n, n < 10 -> first_number (T "x" ++ [digit n]) n).
  { intros n Hn. rewrite <- (app_nil_r [digit n]). constructor; [nodigits | exact (num1 n Hn) | left; reflexivity]. }
  exists [[2]; [2]; [3]]. split; [apply bad_wf; split; apply absent; reflexivity|]. split; [apply bad_decls|]. split; [|reflexivity].
  constructor; [|constructor; [apply ex_C52_lines | constructor; [|constructor]]].
  - assert (Ht : tokens (T "X x0") [T "X"; T "x0"]).
    { apply (@tk_word (T "X") (T " x0")); [discriminate | inks | whites|]. apply tk_white; [vm_compute; tauto|].
      apply (@tk_word (T "x0") []); [discriminate | inks | whites | constructor]. }
    refine (@oc_x S _ _ (Ok 1%Z) (Ok 0%Z) _ Ht _ _); [left; exists (T " x0"); reflexivity | apply xi_one; discriminate | apply op_number with (n := 0); [simpl; lia | exact (N 0 ltac:(lia))]].
  - assert (Ht : tokens (T "H x1") [T "H"; T "x1"]).
    { apply (@tk_word (T "H") (T " x1")); [discriminate | inks | whites|]. apply tk_white; [vm_compute; tauto|].
      apply (@tk_word (T "x1") []); [discriminate | inks | whites | constructor]. }
    refine (@oc_h S _ _ (Ok 1%Z) _ Ht _); [exists (T " x1"); reflexivity | apply op_number with (n := 1); [simpl; lia | exact (N 1 ltac:(lia))]].
Qed.

(** C53: three controls, one control, no x; the API takes three controls. *)
Example ex_C53 :
  operands [0; 1; 2; 3] (T "x0, x1, x2, x3") /\ operands [0; 1] (T "x0, x1") /\
  circuit_from_qasm S (text_of (bad_doc (T "Toffoli x0, x1, x2, x3"))) = Err ValueError /\
  circuit_from_qasm S (text_of (bad_doc (T "Toffoli x0, x1"))) = Err ValueError /\
  begins (T "Toffoli") (T "Toffoli 0 1 2") /\ ~ two_controls (T "Toffoli 0 1 2") /\
  circuit_from_qasm S (text_of (bad_doc (T "Toffoli 0 1 2"))) = Err ValueError /\
  well_formed (bad_doc (T "Toffoli x0, x1, x2, x3")).
Proof.
  assert (Hc : separator (T ", ")) by (split; [discriminate | constructor; [left; reflexivity | constructor; [right; reflexivity | constructor]]]).
  split; [|split; [|split; [vm_compute; reflexivity | split; [vm_compute; reflexivity | split; [|split; [|split; [vm_compute; reflexivity|]]]]]]].
  - exact (ol_more (num1 0 ltac:(lia)) Hc (ol_more (num1 1 ltac:(lia)) Hc (ol_more (num1 2 ltac:(lia)) Hc (ol_one (num1 3 ltac:(lia)))))).
  - exact (ol_more (num1 0 ltac:(lia)) Hc (ol_one (num1 1 ltac:(lia)))).
  - exists (T " 0 1 2"). reflexivity.
  - intros [a [n [b [m [c [k [s1 [s2 [t [_ [_ [_ [_ [_ E]]]]]]]]]]]]]]. discriminate E.
  - apply bad_wf. split; apply absent; reflexivity.
Qed.

(** C54: nine registers announced and all called x7 or x3, against three,
    called x0, x1, x2. *)
Let good_doc (l : text) : doc :=
  {| d_head := [T "# good"]; d_kind := "qudit"; d_count := T "3"; d_blank := []; d_decls := [T "qudit x0 (2)"; T "qubit x1"; T "qudit x2 (3)"];
     d_blank2 := []; d_gates := [T "X x0"; l; T "H x1"]; d_blank3 := []; d_foot := [T "end"] |}.
Example ex_C54 : Forall2 declares (d_decls (good_doc (T "X x2 2"))) [[2]; [2]; [3]] /\
  run_text (SparseBackend S) (text_of (bad_doc (T "X x2 2"))) = Ok [(LStr "|102>", 1%Z); (LStr "|112>", 1%Z)] /\
  run_text (SparseBackend S) (text_of (good_doc (T "X x2 2"))) = Ok [(LStr "|102>", 1%Z); (LStr "|112>", 1%Z)].
Proof.
  split; [|split; vm_compute; reflexivity].
  constructor; [exact (dc_qudit (num1 0 ltac:(lia)) (num1 2 ltac:(lia)) (Forall_nil _))|]. constructor; [exact (dc_qubit (num1 1 ltac:(lia)) (Forall_nil _))|].
  constructor; [exact (dc_qudit (num1 2 ltac:(lia)) (num1 3 ltac:(lia)) (Forall_nil _)) | constructor].
Qed.
End Examples.

Print Assumptions C52_every_line_has_an_outcome.
Print Assumptions C52_a_line_has_one_outcome.
Print Assumptions C52_a_text_performs_its_lines_in_order.
Print Assumptions C52_malformed_line_raises.
Print Assumptions C53_toffoli_without_two_controls_raises_ValueError.
Print Assumptions C53_other_toffoli_lines_raise_ValueError.
Print Assumptions C54_only_dimensions_and_gate_lines_matter.
