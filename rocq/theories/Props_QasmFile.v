(** * Props_QasmFile: the line ends of QASM files and of QASM texts (C105). *)
From Coq Require Import String Ascii.
From Verif Require Import Py Scalar Mat Utils Gates Circuit Spec Calls HistSpec CallSpec Lib Qasm QasmSpec QasmLib QasmMarks QasmRun QasmLineSpec QasmLines
  QasmFile QasmFileSpec QasmFileLib ExLib Props_Run Props_Qasm Props_QasmLines.
Local Notation length := List.length.
Local Notation text := (list ascii).
Local Notation T s := (list_ascii_of_string s%string).

(** ** C105: files.  Any mixture of LF, CR LF and CR. *)
Theorem C105_line_ends_of_a_file_do_not_matter :
  forall S t file, shows t file -> parse_qasm S file = circuit_from_qasm S t.
Proof. intros S t file H. unfold parse_qasm. rewrite (shows_universal H). reflexivity. Qed.

Theorem C105_every_file_shows_one_text :
  forall file, exists t, shows t file /\ ~ In return_ t /\ forall t', shows t' file -> t' = t.
Proof.
  intro file. destruct (@shows_total (length file) file (le_n _)) as [t H]. exists t. split; [exact H|]. split; [exact (shows_clean H)|].
  intros t' H'. rewrite <- (shows_universal H), <- (shows_universal H'). reflexivity.
Qed.

Theorem C105_every_text_is_shown :
  forall t e, ~ In return_ t -> In e [[newline]; [return_; newline]; [return_]] -> shows t (with_line_end e t).
Proof. intros t e H He. apply shows_end; assumption. Qed.

(** ** C105: texts given to circuit_from_qasm.  CR LF does no harm unless a
    line is an RX by 180. *)
Theorem C105_crlf_texts_without_rx :
  forall S d dims (os : list (res (option (call S)))), reads_as d dims os ->
  Forall (fun l => ~ (begins (T "RX") l /\ ends (T "180") l)) (d_gates d) ->
  circuit_from_qasm S (crlf (text_of d)) = circuit_from_qasm S (text_of d).
Proof. intros S d dims os [dss [W [D [G _]]]] N. exact (crlf_text W D G N). Qed.

(** With RX the statement is false: the line is not recognised. *)
Theorem C105_crlf_texts_refuted :
  ~ (forall S d dims (os : list (res (option (call S)))), reads_as d dims os ->
     circuit_from_qasm S (crlf (text_of d)) = circuit_from_qasm S (text_of d)).
Proof.
  intro H. set (d := {| d_head := [T "# rx"]; d_kind := "qubit"; d_count := T "1"; d_blank := []; d_decls := [T "qubit x0"];
     d_blank2 := []; d_gates := [T "RX x0,180"]; d_blank3 := []; d_foot := [T ""] |}).
  assert (Q : forall l, inkless l -> Forall quiet [l]) by (intros l Hl; constructor; [apply inkless_quiet; exact Hl | constructor]).
  assert (N : forall n, n < 10 -> numeral [digit n] n) by (intros n Hn; constructor; exact Hn).
  assert (R : reads_as (S := Zscalar) d [2] [Ok (Some (CX 0 None 1))]%Z).
  { exists [[2]]. split; [|split; [|split; [|reflexivity]]].
    - constructor; cbn [d d_head d_kind d_count d_blank d_decls d_blank2 d_gates d_blank3 d_foot]; try (apply Q; split; apply absent; reflexivity); try apply Forall_nil.
      + discriminate.
      + simpl; auto.
      + exists 1. exact (N 1 ltac:(lia)).
      + constructor; [intros [] | constructor].
    - constructor; [exact (dc_qubit (N 0 ltac:(lia)) (Forall_nil _)) | constructor].
    - constructor; [|constructor]. refine (@oc_x Zscalar _ [T "RX"; T "x0,180"] (Ok 1%Z) (Ok 0%Z) _ _ _ _).
      + right. split; [exists (T " x0,180") | exists (T "RX x0,")]; reflexivity.
      + apply (@tk_word (T "RX") (T " x0,180")); [discriminate | repeat (apply Forall_cons; [vm_compute; intuition discriminate|]); apply Forall_nil | |].
        * right. eexists _, _. split; [reflexivity | vm_compute; tauto].
        * apply tk_white; [vm_compute; tauto|]. apply (@tk_word (T "x0,180") []); [discriminate | | left; reflexivity | constructor].
          repeat (apply Forall_cons; [vm_compute; intuition discriminate|]); apply Forall_nil.
      + apply xi_one. discriminate.
      + apply op_number with (n := 0); [simpl; lia|]. cbn [nth]. change (T "x0,180") with (T "x" ++ [digit 0] ++ T ",180").
        constructor; [constructor; [apply not_digital; reflexivity | constructor] | exact (N 0 ltac:(lia)) |].
        right. exists ","%char, (T "180"). split; [reflexivity | apply not_digital; reflexivity]. }
  specialize (H _ _ _ _ R). vm_compute in H. discriminate H.
Qed.

(** Whatever the other lines are, an RX line that ends with CR is dropped. *)
Theorem C105_rx_before_cr_is_dropped :
  forall S d before l after, well_formed (with_gates d (before ++ (l ++ [return_]) :: after)) -> begins (T "RX") l ->
  circuit_from_qasm S (text_of (with_gates d (before ++ (l ++ [return_]) :: after))) = circuit_from_qasm S (text_of (with_gates d (before ++ after))).
Proof.
  intros S d before l after W [b ->]. apply C38_unknown_lines_are_ignored; [exact W|]. apply unknown_cr.
  intros w Hw [b' E]. repeat (destruct Hw as [<-|Hw]; [discriminate E|]). destruct Hw.
Qed.

(** With CR alone, the text always raises. *)
Theorem C105_cr_texts_raise_IndexError :
  forall S t, circuit_from_qasm S (macos t) = Err IndexError.
Proof. intros S t. apply one_line, macos_one_line. Qed.

(** ** Concrete cases *)
Section Examples.
Notation S := Zscalar.
Notation nl := [newline] (only parsing).
Notation cr := [return_] (only parsing).
(** A file that mixes the three line ends, with an RX line. *)
Let mixed : text :=
  T "# mixed" ++ cr ++ nl ++ T ".qubit 2" ++ cr ++ T "qubit x0" ++ nl ++ T "qubit x1" ++ cr ++ nl ++ T ".begin" ++ cr ++ T "RX x1,180" ++ cr ++ nl ++
  T ".end" ++ cr.
Let clean : text :=
  T "# mixed" ++ nl ++ T ".qubit 2" ++ nl ++ T "qubit x0" ++ nl ++ T "qubit x1" ++ nl ++ T ".begin" ++ nl ++ T "RX x1,180" ++ nl ++ T ".end" ++ nl.
Example ex_C105_file : shows clean mixed /\ ~ In return_ clean /\
  (c <- parse_qasm S mixed ;; run (SparseBackend S) c) = Ok [(LStr "|01>", 1%Z)] /\
  (c <- parse_qasm S (macos clean) ;; run (SparseBackend S) c) = Ok [(LStr "|01>", 1%Z)] /\
  run_text (SparseBackend S) clean = Ok [(LStr "|01>", 1%Z)] /\
  run_text (SparseBackend S) (crlf clean) = Ok [(LStr "|00>", 1%Z)] /\
  run_text (SparseBackend S) mixed = Ok [(LStr "|00>", 1%Z)] /\ circuit_from_qasm S (macos clean) = Err IndexError.
Proof.
  split; [|split; [apply absent; reflexivity | split; [|split; [|split; [|split; [|split]]]]]]; try (vm_compute; reflexivity).
  destruct (C105_every_file_shows_one_text mixed) as [t [H _]]. rewrite <- (shows_universal H) in H. exact H.
Qed.

(** CR LF in a text with X, H and a declaration. *)
Let xdoc : doc :=
  {| d_head := [T "# xh"]; d_kind := "qudit"; d_count := T "2"; d_blank := []; d_decls := [T "qudit x0 (3)"; T "qubit x1"];
     d_blank2 := []; d_gates := [T "X x0 2"; T ""; T "H x1"]; d_blank3 := []; d_foot := [T "bye"; T ""] |}.
Example ex_C105_text : Forall (fun l => ~ (begins (T "RX") l /\ ends (T "180") l)) (d_gates xdoc) /\
  run_text (SparseBackend S) (text_of xdoc) = Ok [(LStr "|20>", 1%Z); (LStr "|21>", 1%Z)] /\
  run_text (SparseBackend S) (crlf (text_of xdoc)) = Ok [(LStr "|20>", 1%Z); (LStr "|21>", 1%Z)] /\
  crlf (text_of xdoc) <> text_of xdoc.
Proof.
  split; [|split; [|split]]; try (vm_compute; reflexivity); try (vm_compute; discriminate).
  repeat (apply Forall_cons; [intros [[b E] _]; discriminate E|]); apply Forall_nil.
Qed.
End Examples.

Print Assumptions C105_line_ends_of_a_file_do_not_matter.
Print Assumptions C105_every_file_shows_one_text.
Print Assumptions C105_every_text_is_shown.
Print Assumptions C105_crlf_texts_without_rx.
Print Assumptions C105_crlf_texts_refuted.
Print Assumptions C105_rx_before_cr_is_dropped.
Print Assumptions C105_cr_texts_raise_IndexError.
