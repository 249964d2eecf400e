(** * Props_Qasm: circuits from QASM texts (C37-C41). *)
From Coq Require Import String Ascii.
From Verif Require Import Py Scalar Mat Utils Gates Circuit Spec Calls HistSpec CallSpec Lib Construct Reversible Qasm QasmSpec QasmLib QasmMarks QasmRun
  ExLib Props_Run Props_Errors.
Local Notation length := List.length.
Local Notation text := (list ascii).
Local Notation T s := (list_ascii_of_string s%string).

(** A text whose declarations have the dimensions [dims] and whose gate lines
    ask for the calls [ks]. *)
Definition says {S} (d : doc) (dims : list nat) (ks : list (call S)) : Prop :=
  exists dss os, well_formed d /\ Forall2 declares (d_decls d) dss /\ Forall2 (@line_call S) (d_gates d) os /\ dims = concat dss /\ ks = made os.

(** Building the circuit of a text and running it. *)
Definition run_text {S} (B : backend S) (t : text) : res (list (label * S)) := c <- circuit_from_qasm S t ;; run B c.

(** ** C37 *)
Theorem C37_a_text_builds_the_circuit_of_its_calls :
  forall S d dims (ks : list (call S)), says d dims ks ->
  circuit_from_qasm S (text_of d) = built (raised dims ks) ks.
Proof. intros S d dims ks [dss [os [W [D [G [-> ->]]]]]]. exact (read_text W D G). Qed.

Theorem C37_a_text_runs_as_its_program :
  forall S (L : scalar_laws S) (B : backend S) d dims (ks : list (call S)) prog, supported B -> says d dims ks ->
  line (raised dims ks) [] -> asks (raised dims ks) ks prog ->
  run_text B (text_of d)
  = Ok (report OutPrint OutAmplitude (answer (raised dims ks) (final (raised dims ks) prog (basis S (start (raised dims ks) []))))).
Proof.
  intros S L B d dims ks prog HB HS HL HA. unfold run_text. rewrite (C37_a_text_builds_the_circuit_of_its_calls _ _ _ _ HS), built_run.
  apply (C01_run_applies_gates_in_order S L B (raised dims ks) [] None OutPrint OutAmplitude ks prog HB HL); [right; auto | exact HA].
Qed.

(** Any dimensions and any calls of the documented gates have a text. *)
Theorem C37_every_program_has_a_text :
  forall S dims (ks : list (call S)), Forall (@writable S) ks -> exists d, says d dims ks.
Proof.
  intros S dims ks H. destruct (every_text dims H) as [d [W [D G]]]. exists d, (map (fun d => [d]) dims), (map Some ks).
  rewrite concat_single, made_some. auto.
Qed.

(** ** C38: whatever the other lines are. *)
Theorem C38_unknown_lines_are_ignored :
  forall S d before l after, well_formed (with_gates d (before ++ l :: after)) -> unknown l ->
  circuit_from_qasm S (text_of (with_gates d (before ++ l :: after))) = circuit_from_qasm S (text_of (with_gates d (before ++ after))).
Proof. intros S d a l b W U. apply unknown_line_ignored; assumption. Qed.

(** ** C39 *)
Theorem C39_second_toffoli_register_gains_a_level :
  forall S d dims (ks : list (call S)) c, says d dims ks -> circuit_from_qasm S (text_of d) = Ok c ->
  length (c_dims c) = length dims /\
  forall r, r < length dims ->
    ((exists a t, In (CTof [a; Z.of_nat r] t 1) ks) -> nth r (c_dims c) 0%Z = (Z.of_nat (nth r dims O) + 1)%Z) /\
    (~ (exists a t, In (CTof [a; Z.of_nat r] t 1) ks) -> nth r (c_dims c) 0%Z = Z.of_nat (nth r dims O)).
Proof. intros S d dims ks c [dss [os [W [D [G [-> ->]]]]]] E. exact (raised_dims W D G E). Qed.

(** Two qubits at level 1 are not enough: in a text on qubits, X on both
    controls and then Toffoli always leaves the target at 0. *)
Theorem C39_toffoli_on_qubits_does_not_compute_and :
  forall S (L : scalar_laws S) (B : backend S) d n a b t, supported B ->
  a < n -> b < n -> t < n -> a <> b -> a <> t -> b <> t ->
  says (S := S) d (repeat 2 n) [CX (Z.of_nat a) None 1; CX (Z.of_nat b) None 1; CTof [Z.of_nat a; Z.of_nat b] (Z.of_nat t) 1] ->
  run_text B (text_of d)
  = Ok [(shown OutPrint (map (fun r => if Nat.eqb r a || Nat.eqb r b then 1 else 0) (seq 0 n)), s1)].
Proof.
  intros S L B d n a b t HB Ha Hb Ht Hab Hat Hbt HS. unfold run_text. rewrite (C37_a_text_builds_the_circuit_of_its_calls _ _ _ _ HS), built_run.
  apply (and_of_qubits L); try assumption. intros q init out ks. exact (supported_sim S L B q init out ks HB).
Qed.

(** ** C40 *)
Theorem C40_rx_180_never_runs :
  forall S (B : backend S) d dims (ks : list (call S)) s r, says d dims ks -> In (T "RX x" ++ s ++ T " 180") (d_gates d) -> numeral s r ->
  r < length dims -> nth r (raised dims ks) 0 <= 180 ->
  exists e, run_text B (text_of d) = Err e.
Proof.
  intros S B d dims ks s r HS I Hs Hr Hd. unfold run_text. rewrite (C37_a_text_builds_the_circuit_of_its_calls _ _ _ _ HS).
  destruct HS as [dss [os [W [D [G [-> ->]]]]]]. destruct (@rx_call S _ _ _ _ G I Hs) as [ks1 [ks2 [E N]]]. set (dims := raised (concat dss) (made os)) in *. assert (Hl : length dims = length (concat dss)) by apply raised_length. clearbody dims. rewrite E.
  apply built_never. intros c H. eapply C02_x_out_of_range_never_runs; [exact H | exact N | rewrite Hl; exact Hr | left; reflexivity | lia].
Qed.

Theorem C40_rx_180_raises_IndexError :
  forall S (L : scalar_laws S) (B : backend S) d dims ks1 ks2 prog1 prog2 r, supported B ->
  let ks := ks1 ++ CX (S := S) (Z.of_nat r) None 180 :: ks2 in let dims' := raised dims ks in
  says d dims ks -> line dims' [] -> asks dims' ks1 prog1 -> asks dims' ks2 prog2 -> r < length dims -> nth r dims' 0 <= 180 ->
  run_text B (text_of d) = Err IndexError.
Proof.
  intros S L B d dims ks1 ks2 prog1 prog2 r HB ks dims' HS HL A1 A2 Hr Hd. unfold run_text.
  rewrite (C37_a_text_builds_the_circuit_of_its_calls _ _ _ _ HS), built_run.
  apply (C02_x_out_of_range_raises_IndexError S L B dims' [] None OutPrint OutAmplitude ks1 ks2 r None 180 prog1 prog2 HB HL); auto.
  - right; auto.
  - unfold dims'. rewrite raised_length. exact Hr.
  - left; reflexivity.
  - lia.
Qed.

(** The sign of a CX increment makes no difference, whatever the other lines
    are. *)
Theorem C40_sign_of_cx_increment_is_dropped :
  forall S d before after w a n b m p v p' v',
  let l x := T w ++ T " x" ++ a ++ T " x" ++ b ++ T " " ++ x in
  In w ["CX"; "CNOT"]%string -> numeral a n -> numeral b m -> integer p v -> integer p' v' -> Z.abs v = Z.abs v' ->
  well_formed (with_gates d (before ++ l p :: after)) -> well_formed (with_gates d (before ++ l p' :: after)) ->
  circuit_from_qasm S (text_of (with_gates d (before ++ l p :: after))) = circuit_from_qasm S (text_of (with_gates d (before ++ l p' :: after))).
Proof.
  intros S d before after w a n b m p v p' v' l Hw Ha Hb Hp Hp' E W W'.
  eapply same_call_same_text; [exact W | exact W' | eapply lc_cx_plus; eassumption | rewrite E; eapply lc_cx_plus; eassumption | reflexivity].
Qed.

(** ** C41 *)
Theorem C41_fewer_than_three_markers_raise_IndexError :
  forall S t k, markers t k -> k < 3 -> circuit_from_qasm S t = Err IndexError.
Proof. intros S t k H Hk. exact (too_few_markers S H Hk). Qed.

(** ** Concrete cases *)
Section Examples.
Notation S := Zscalar.
Let num1 d (H : d < 10) : numeral [digit d] d := num_one H.

(** Comments, blank lines, three kinds of declarations, signs, and a Toffoli
    whose second register is raised from 3 to 4 levels. *)
Let doc1 : doc :=
  {| d_head := [T "# header"; T ""]; d_kind := "qubit"; d_count := T "3"; d_blank := T " ";
     d_decls := [T "qudit x0 (5)"; T "qutrit x1"; T "# a note"; T "qubit x2 "; T ""];
     d_blank2 := T ""; d_gates := [T "# gates"; T "X x0 -1"; T "X x1 2"; T "measure x0"; T "CX x0 x1 -1"; T "Toffoli x0, x1, x2"; T "H x2"];
     d_blank3 := []; d_foot := [T "anything"; T ".begin"] |}.
Let calls1 : list (call S) := [CX 0 None (-1); CX 1 None 2; CCX [0; 1] 1; CTof [0; 1] 2 1; CH 2 None]%Z.

Lemma unknown_word : forall a l, ~ In a (T "XHZCTR") -> unknown (a :: l).
Proof.
  intros a l H. assert (N : forall x w, In x (T "XHZCTR") -> ~ begins (x :: w) (a :: l)).
  { intros x w I [b E]. cbn in E. injection E as -> _. exact (H I). }
  split; [|intros [B _]; revert B; apply N; simpl; tauto].
  intros w Hw. repeat (destruct Hw as [<-|Hw]; [apply N; simpl; tauto|]). destruct Hw.
Qed.

Lemma absent : forall c (l : text), existsb (Ascii.eqb c) l = false -> ~ In c l.
Proof.
  intros c l H I. assert (E : existsb (Ascii.eqb c) l = true) by (apply existsb_exists; exists c; split; [exact I | apply Ascii.eqb_refl]). congruence.
Qed.

Ltac quiet_lines := repeat (apply Forall_cons; [apply inkless_quiet; split; apply absent; reflexivity|]); apply Forall_nil.

Lemma one_space : spaces (T " ").
Proof. constructor; [vm_compute; tauto | constructor]. Qed.

Example says1 : says doc1 [5; 3; 2] calls1.
Proof.
  exists [[5]; [3]; []; [2]; []], [None; Some (CX 0 None (-1)); Some (CX 1 None 2); None; Some (CCX [0; 1] 1); Some (CTof [0; 1] 2 1); Some (CH 2 None)]%Z.
  split; [|split; [|split; [|split; reflexivity]]].
  - constructor; cbn [doc1 d_head d_kind d_count d_blank d_decls d_blank2 d_gates d_blank3 d_foot]; try quiet_lines.
    + discriminate.
    + simpl; auto.
    + exists 3. exact (num1 3 ltac:(lia)).
    + exact one_space.
    + repeat (apply Forall_cons; [apply absent; reflexivity|]). apply Forall_nil.
  - constructor; [exact (dc_qudit (num1 0 ltac:(lia)) (num1 5 ltac:(lia)) (Forall_nil _))|].
    constructor; [exact (dc_qutrit (num1 1 ltac:(lia)) (Forall_nil _))|].
    constructor; [apply dc_note; [apply absent; reflexivity | |];
      intros X; apply contains_b in X; discriminate X|].
    constructor; [exact (dc_qubit (num1 2 ltac:(lia)) one_space)|].
    constructor; [apply dc_note; [intros [] | |]; intros [a [b E]]; destruct a; discriminate E | constructor].
  - constructor; [apply lc_unknown, unknown_word; simpl; intuition discriminate|].
    constructor; [exact (lc_x_plus S (num1 0 ltac:(lia)) (int_minus (num1 1 ltac:(lia))))|].
    constructor; [exact (lc_x_plus S (num1 1 ltac:(lia)) (int_plain (num1 2 ltac:(lia))))|].
    constructor; [apply lc_unknown, unknown_word; simpl; intuition discriminate|].
    constructor; [exact (@lc_cx_plus S "CX"%string _ _ _ _ _ _ (or_introl eq_refl) (num1 0 ltac:(lia)) (num1 1 ltac:(lia)) (int_minus (num1 1 ltac:(lia))))|].
    constructor; [|constructor; [exact (lc_h S (num1 2 ltac:(lia))) | constructor]].
    assert (Hc : separator (T ", ")) by (split; [discriminate | constructor; [left; reflexivity | constructor; [right; reflexivity | constructor]]]).
    exact (lc_toffoli S (num1 0 ltac:(lia)) (num1 1 ltac:(lia)) (num1 2 ltac:(lia)) Hc Hc).
Qed.

(** C37: register 1 has 4 levels in the circuit; the program asked for. *)
Let prog1 : list (gate S) := [GX 0 (-1); GX 1 2; GCX 0 1 1; GTof [0; 1] 2 1; GH 2].
Example ex_C37 : raised [5; 3; 2] calls1 = [5; 4; 2] /\ line (raised [5; 3; 2] calls1) [] /\ asks (raised [5; 3; 2] calls1) calls1 prog1 /\
  run_text (SparseBackend S) (text_of doc1) = Ok [(LStr "|430>", 1%Z); (LStr "|431>", (-1)%Z)].
Proof.
  split; [reflexivity|]. change (raised [5; 3; 2] calls1) with [5; 4; 2]. split; [|split; [|vm_compute; reflexivity]].
  - split; [discriminate|]. split; [intros d [<-|[<-|[<-|[]]]]; lia|]. split; [simpl; lia|]. repeat constructor.
  - split.
    + constructor; [exact (@den_x S [5; 4; 2] 0 None (-1) (or_introl eq_refl))|]. constructor; [exact (@den_x S [5; 4; 2] 1 None 2 (or_introl eq_refl))|].
      constructor; [exact (@den_cx S [5; 4; 2] 0 1 1)|]. constructor; [exact (@den_tof S [5; 4; 2] [0; 1]%nat 2 1)|].
      constructor; [exact (@den_h S [5; 4; 2] 2 None (or_introl eq_refl)) | constructor].
    + repeat (apply Forall_cons; [cbn|]); try apply Forall_nil; try lia.
      split; [intros c [<-|[<-|[]]]; lia|]. split; [lia|]. split; [intros [E|[E|[]]]; discriminate E|].
      intros [lo [_ [_ F]]]. pose proof (F 0%nat ltac:(simpl; auto)). pose proof (F 1%nat ltac:(simpl; auto)). pose proof (F 2%nat ltac:(simpl; auto)). lia.
Qed.

(** C38: other lines may even be malformed. *)
Example ex_C38 : unknown (T "x x0") /\ unknown (T "RX x0 90") /\ unknown (T "# X x0") /\ unknown (T "measure x0").
Proof.
  repeat split; try (apply unknown_word; simpl; intuition discriminate).
  - intros w Hw [b E]. repeat (destruct Hw as [<-|Hw]; [discriminate E|]). destruct Hw.
  - intros [_ [a E]]. apply (f_equal (@rev ascii)) in E. rewrite rev_app_distr in E. discriminate E.
Qed.

(** C39: AND on three qubits, |110> instead of |111>. *)
Let and_doc : doc :=
  {| d_head := [T "# AND"]; d_kind := "qubit"; d_count := T "3"; d_blank := []; d_decls := [T "qubit x0"; T "qubit x1"; T "qubit x2"];
     d_blank2 := []; d_gates := [T "X x0"; T "X x1"; T "Toffoli x0, x1, x2"]; d_blank3 := []; d_foot := [] |}.
Example ex_C39 : says (S := S) and_doc (repeat 2 3) [CX 0 None 1; CX 1 None 1; CTof [0; 1] 2 1]%Z /\
  run_text (NumpyBackend S) (text_of and_doc) = Ok [(LStr "|110>", 1%Z)] /\
  run_text (SparseBackend S) (text_of and_doc) = Ok [(LStr "|110>", 1%Z)] /\
  simulate (SparseBackend S) (QList [2; 2; 2]%Z) None None [CX 0 None 1; CX 1 None 1; CTof [0; 1] 2 1]%Z = Ok [(LStr "|111>", 1%Z)].
Proof.
  split; [|repeat split; vm_compute; reflexivity].
  exists [[2]; [2]; [2]], [Some (CX 0 None 1); Some (CX 1 None 1); Some (CTof [0; 1] 2 1)]%Z.
  split; [|split; [|split; [|split; reflexivity]]].
  - constructor; cbn [and_doc d_head d_kind d_count d_blank d_decls d_blank2 d_gates d_blank3 d_foot]; try quiet_lines.
    + discriminate.
    + simpl; auto.
    + exists 3. exact (num1 3 ltac:(lia)).
  - constructor; [exact (dc_qubit (num1 0 ltac:(lia)) (Forall_nil _))|]. constructor; [exact (dc_qubit (num1 1 ltac:(lia)) (Forall_nil _))|].
    constructor; [exact (dc_qubit (num1 2 ltac:(lia)) (Forall_nil _)) | constructor].
  - constructor; [exact (lc_x S (num1 0 ltac:(lia)))|]. constructor; [exact (lc_x S (num1 1 ltac:(lia)))|]. constructor; [|constructor].
    assert (Hc : separator (T ", ")) by (split; [discriminate | constructor; [left; reflexivity | constructor; [right; reflexivity | constructor]]]).
    exact (lc_toffoli S (num1 0 ltac:(lia)) (num1 1 ltac:(lia)) (num1 2 ltac:(lia)) Hc Hc).
Qed.

(** C40: texts with an RX line, and with a CX line of either sign. *)
Let rx_text (dim : text) : text := text_of_lines [T "# rx"; T ".qudit 1"; T "qudit x0 (" ++ dim ++ T ")"; T ".begin"; T "RX x0 180"; T ".end"].
Let cx_text (p : text) : text := text_of_lines [T "# cx"; T ".qudit 2"; T "qudit x0 (2)"; T "qudit x1 (5)"; T ".begin"; T "X x0"; T "CX x0 x1 " ++ p; T ".end"].
Example ex_C40 : run_text (SparseBackend S) (rx_text (T "2")) = Err IndexError /\ run_text (SparseBackend S) (rx_text (T "7")) = Err IndexError /\
  run_text (SparseBackend S) (cx_text (T "1")) = Ok [(LStr "|11>", 1%Z)] /\ run_text (SparseBackend S) (cx_text (T "-1")) = Ok [(LStr "|11>", 1%Z)].
Proof. repeat split; vm_compute; reflexivity. Qed.
Example rx_numbers : numeral (T "0") 0 /\ integer (T "-1") (-1) /\ integer (T "+1") 1 /\ integer (T "1") 1 /\ numeral (T "181") 181.
Proof.
  split; [exact (num1 0 ltac:(lia))|]. split; [exact (int_minus (num1 1 ltac:(lia)))|]. split; [exact (int_plus (num1 1 ltac:(lia)))|].
  split; [exact (int_plain (num1 1 ltac:(lia)))|]. exact (num_more (num_more (num1 1 ltac:(lia)) (d := 8) ltac:(lia)) (d := 1) ltac:(lia)).
Qed.

(** C41: the two examples of README.md, lines 109-127 and 139-152. *)
Let readme : text := text_of_lines [T "# This is the File Header"; T "# The File Header section is compulsory"; T ""; T "# Defining a 3 Qudit circuit";
  T ".qubit 3"; T "qudit x0 (2)"; T "qudit x1 (3)"; T "qudit x2 (3)"; T ""; T "# The Gate composition will go in this";
  T "# section, between the .begin and the .end"; T ".begin"; T ""; T "# Your Gates Here ..."; T "Toffoli x0, x1, x2"; T ""; T ".end"].
Let readme_indented : text := text_of_lines [T ""; T "    # This is the File Header"; T "    "; T "    .qubit 3"; T "    qudit x0 (2)"; T "    qudit x1 (3)";
  T "    qudit x2 (3)"; T ""; T "    .begin"; T "    Toffoli x0, x1, x2"; T "    .end"; T "    "].
Example ex_C41 : markers readme 3 /\ markers readme_indented 0 /\ circuit_from_qasm S readme_indented = Err IndexError /\
  run_text (SparseBackend S) readme = Ok [(LStr "|000>", 1%Z)] /\
  markers (text_of doc1) 4.
Proof.
  split; [exact (count_markers readme)|]. split; [exact (count_markers readme_indented)|]. split; [vm_compute; reflexivity|].
  split; [vm_compute; reflexivity | exact (count_markers (text_of doc1))].
Qed.
End Examples.

Print Assumptions C37_a_text_builds_the_circuit_of_its_calls.
Print Assumptions C37_a_text_runs_as_its_program.
Print Assumptions C37_every_program_has_a_text.
Print Assumptions C38_unknown_lines_are_ignored.
Print Assumptions C39_second_toffoli_register_gains_a_level.
Print Assumptions C39_toffoli_on_qubits_does_not_compute_and.
Print Assumptions C40_rx_180_never_runs.
Print Assumptions C40_rx_180_raises_IndexError.
Print Assumptions C40_sign_of_cx_increment_is_dropped.
Print Assumptions C41_fewer_than_three_markers_raise_IndexError.
