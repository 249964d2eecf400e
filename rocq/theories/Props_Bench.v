(** * Props_Bench: circuits of the testbench directory (C80 to C83).
    Statements only. *)
From Coq Require Import String Ascii Reals Lra.
From Verif Require Import Py Scalar Mat Utils Gates Circuit Info Spec Calls Complex ComplexSpec ComplexLib HistSpec DepthSpec Lib Refine Run Reversible Local Unitary
  ComplexGates ComplexRun Product Algo Two Qasm QasmSpec QasmRun Props_Run Props_Complex Props_Qasm BenchLib BenchTexts.
Local Notation length := List.length.
Open Scope list_scope.
Open Scope nat_scope.

(** ** C80: every text of testbench/tof_qutrit runs to the outcome recorded for it. *)
Lemma recorded_one : forall S (L : scalar_laws S) (B : backend S) t out, supported B ->
  (exists dims prog, program_of S t = Some (dims, prog) /\ forallb (@is_classical S) prog = true /\
     shown OutPrint (moves dims prog (start dims [])) = LStr out) ->
  run_text B t = Ok [(LStr out, s1)].
Proof. intros S L B t out HB [dims [prog [H1 [H2 <-]]]]. exact (text_moves L t HB H1 H2). Qed.

Theorem C80_recorded_outcomes_are_reproduced :
  forall S (L : scalar_laws S) (B : backend S), supported B ->
  forall t out, In (t, out) recorded -> run_text B t = Ok [(LStr out, s1)].
Proof.
  intros S L B HB t out Hin.
  assert (F : Forall (fun '(t, out) => run_text B t = Ok [(LStr out, s1)]) recorded).
  { unfold recorded.
    repeat (apply Forall_cons; [apply recorded_one; [exact L | exact HB | do 2 eexists; split; [vm_compute; reflexivity | split; vm_compute; reflexivity]]|]).
    apply Forall_nil. }
  rewrite Forall_forall in F. exact (F (t, out) Hin).
Qed.

(** ** C81: the circuit of C79 without the last h on the last qubit leaves that
    qubit between its two levels; the others still show the parities. *)
Theorem C81_parities_without_the_last_h :
  forall ord, orders ord -> one_last ord 2 -> forall (B : backend (Cscalar ord)) n (cs : list nat) levels out ty,
  let dims := repeat 2 (n + 1) in
  let s := start dims levels in
  supported B -> Props_Run.line dims levels -> wants dims out ty OutAmplitude -> level s n = 0 -> (forall c, In c cs -> c < n) ->
  let hs := map (fun r => CH (Z.of_nat r) None) (seq 0 n) in
  let found := map (fun r => (level s r + count_occ Nat.eq_dec cs r) mod 2) (seq 0 n) in
  simulate B (QList (map Z.of_nat dims)) (Some (map Z.of_nat levels)) out
    (hs ++ [CX (Z.of_nat n) None 1%Z; CH (Z.of_nat n) None] ++ map (fun c => CCX [Z.of_nat c; Z.of_nat n] 1%Z) cs ++ hs)
  = Ok [(shown ty (found ++ [0]), (/ sqrt 2, 0)%R); (shown ty (found ++ [1]), (- / sqrt 2, 0)%R)].
Proof.
  intros ord Hord H1 B n cs levels out ty dims s HB Hl Hw H0 Hc hs found.
  set (gs := map (fun r => GH r) (seq 0 n) : list (gate (Cscalar ord))).
  set (orc := map (fun c => GCX c n 1) cs : list (gate (Cscalar ord))).
  assert (Ld : length dims = n + 1) by apply repeat_length.
  assert (Dn : nth n dims 0 = 2) by (apply nth_qubits; lia).
  assert (Ah : asks (S := Cscalar ord) dims hs gs).
  { split.
    - unfold hs, gs. induction (seq 0 n) as [|i l IH]; simpl; constructor; [apply (@den_h _ dims i None); left; reflexivity | exact IH].
    - apply Forall_forall. intros g Hg. apply in_map_iff in Hg as [i [<- Hi]]. apply in_seq in Hi. simpl. lia. }
  assert (Ao : asks (S := Cscalar ord) dims (map (fun c => CCX [Z.of_nat c; Z.of_nat n] 1%Z) cs) orc).
  { split.
    - unfold orc. clear. induction cs as [|i l IH]; simpl; constructor; [apply (@den_cx _ dims i n) | exact IH].
    - apply Forall_forall. intros g Hg. apply in_map_iff in Hg as [i [<- Hi]]. specialize (Hc i Hi). simpl. lia. }
  assert (Ax : asks (S := Cscalar ord) dims [CX (Z.of_nat n) None 1%Z; CH (Z.of_nat n) None] [GX n 1; GH n]).
  { split; (constructor; [|constructor; [|constructor]]); [apply den_x | apply (@den_h _ dims n None) | simpl | simpl]; try (left; reflexivity); rewrite ?Dn, Ld; lia. }
  assert (A : asks (S := Cscalar ord) dims (hs ++ [CX (Z.of_nat n) None 1%Z; CH (Z.of_nat n) None] ++ map (fun c => CCX [Z.of_nat c; Z.of_nat n] 1%Z) cs ++ hs)
    (gs ++ [GX n 1; GH n] ++ orc ++ gs))
    by (apply asks_app; [exact Ah | apply asks_app; [exact Ax | apply asks_app; [exact Ao | exact Ah]]]).
  etransitivity; [exact (C01_run_applies_gates_in_order _ (Cscalar_laws Hord) B dims levels out ty OutAmplitude _ _ HB Hl Hw A)|].
  destruct Hl as [_ [_ [_ Hv]]]. fold s in Hv |- *.
  assert (Lf : length found = n) by (unfold found; rewrite map_length, seq_length; reflexivity).
  assert (Vf : forall x, x < 2 -> valid dims (found ++ [x])).
  { intros x Hx. unfold valid, dims, found. replace (n + 1) with (length (seq 0 n) + 1) by (rewrite seq_length; reflexivity).
    rewrite repeat_app. apply Forall2_app; [|constructor; [exact Hx | constructor]].
    clear. induction (seq 0 n) as [|i l IH]; cbn [map length repeat]; constructor; [apply Nat.mod_upper_bound; lia | exact IH]. }
  assert (P : forall x y, put (found ++ [x]) n y = found ++ [y]) by (intros x y; rewrite put_upd, <- Lf; apply upd_split).
  assert (Q1 : (smul (sisqrt 2) (sign (Cscalar ord) 1) : Cscalar ord) = (- / sqrt 2, 0)%R) by (change (Cmul (/ sqrt 2, 0)%R (Copp C1) = (- / sqrt 2, 0)%R); apply C_ext; simpl; ring).
  assert (Q0 : (smul (sisqrt 2) (sign (Cscalar ord) 0) : Cscalar ord) = (/ sqrt 2, 0)%R) by (change (Cmul (/ sqrt 2, 0)%R C1 = (/ sqrt 2, 0)%R); apply C_ext; simpl; ring).
  assert (Q : (/ sqrt 2 <> 0)%R) by (apply Rinv_neq_0_compat; intros X; apply sqrt_eq_0 in X; lra).
  f_equal. transitivity (report ty OutAmplitude [(found ++ [0], (/ sqrt 2, 0)%R : Cscalar ord); (found ++ [1], (- / sqrt 2, 0)%R : Cscalar ord)]); [|reflexivity]. f_equal.
  transitivity (answer dims (spread (Cscalar ord) (found ++ [0]) n (fun x => smul (sisqrt 2) (sign (Cscalar ord) x)))).
  - apply answer_ext. intros t Ht. apply (@open_parity _ (Cscalar_laws Hord)); try assumption.
    + unfold Cscalar. cbn [sroots s0 s1 sopp]. rewrite (ord_2 Hord H1). cbn [map nth]. rewrite root_2_1. apply C_ext; simpl; ring.
    + pose proof (@scale_sq ord 2 ltac:(lia)) as E. etransitivity; [exact (f_equal2 Cadd E E)|]. apply C_ext; simpl; lra.
  - rewrite (answer_spread (Cscalar_laws Hord)); [| apply Vf; lia | lia |].
    + rewrite Dn. cbn [seq map]. rewrite !P, Q0, Q1. reflexivity.
    + rewrite Dn. intros j Hj. assert (D : j = 0 \/ j = 1) by lia. destruct D as [-> | ->]; rewrite ?Q0, ?Q1; intros X; injection X; lra.
Qed.

(** testbench/tof_large/bv_n14: the hidden string of thirteen ones is found. *)
Theorem C81_testbench_bv :
  forall ord, orders ord -> one_last ord 2 -> forall (B : backend (Cscalar ord)), supported B ->
  run_text B tb_bv_n14 = Ok [(LStr "|11111111111110>", (/ sqrt 2, 0)%R); (LStr "|11111111111111>", (- / sqrt 2, 0)%R)]%string.
Proof.
  intros ord Hord H1 B HB.
  rewrite (@parse_run _ B tb_bv_n14 (repeat 2 14) (map (fun r => CH (Z.of_nat r) None) (seq 0 13) ++ [CX 13 None 1%Z; CH 13 None]
    ++ map (fun c => CCX [Z.of_nat c; 13%Z] 1%Z) (seq 0 13) ++ map (fun r => CH (Z.of_nat r) None) (seq 0 13))) by (vm_compute; reflexivity).
  refine (C81_parities_without_the_last_h ord Hord H1 B 13 (seq 0 13) [] None OutPrint HB _ _ _ _).
  - apply line_ok_line. reflexivity.
  - right; auto.
  - reflexivity.
  - intros c Hin. apply in_seq in Hin. lia.
Qed.

(** ** C82: Grover's search over the four states of two qubits.  The marked state
    is the one whose sign the oracle changes; it is the only outcome. *)
Lemma root_fact : forall ord, orders ord -> one_last ord 2 -> nth 0 (sroots 2) s0 = sopp s1 :> Cscalar ord.
Proof. intros ord Hord H1. unfold Cscalar. cbn [sroots s0 s1 sopp]. rewrite (ord_2 Hord H1). cbn [map nth]. rewrite root_2_1. apply C_ext; simpl; ring. Qed.
Lemma scale_fact : forall ord, sadd (smul (sisqrt 2) (sisqrt 2)) (smul (sisqrt 2) (sisqrt 2)) = s1 :> Cscalar ord.
Proof. intros ord. pose proof (@scale_sq ord 2 ltac:(lia)) as E. etransitivity; [exact (f_equal2 Cadd E E)|]. apply C_ext; simpl; lra. Qed.
Lemma answer_minus : forall ord, orders ord -> forall dims e (psi : config -> Cscalar ord), valid dims e ->
  (forall s, valid dims s -> psi s = Copp (basis (Cscalar ord) e s)) -> answer dims psi = [(e, (-1, 0)%R : Cscalar ord)].
Proof.
  intros ord Hord dims e psi He H.
  rewrite (@answer_phase ord Hord dims (fun _ => (-1, 0)%R) (basis (Cscalar ord) e) psi).
  - rewrite (answer_basis (Cscalar_laws Hord)) by exact He. cbn [map]. do 2 f_equal. apply C_ext; simpl; ring.
  - intros _ X. injection X. lra.
  - intros s Hs. rewrite H by exact Hs. apply C_ext; simpl; ring.
Qed.

Theorem C82_grover_finds_the_marked_state :
  forall ord, orders ord -> one_last ord 2 -> forall (B : backend (Cscalar ord)) x y out ty,
  supported B -> wants [2; 2] out ty OutAmplitude -> x < 2 -> y < 2 ->
  let around x y : list (call (Cscalar ord)) := (if x =? 1 then [] else [CX 0 None 1]) ++ (if y =? 1 then [] else [CX 1 None 1]) in
  let mark x y := around x y ++ [CH 1 None; CCX [0; 1] 1; CH 1 None]%Z ++ around x y in
  let hs := [CH 0 None; CH 1 None] : list (call (Cscalar ord)) in
  simulate B (QList [2; 2]%Z) (Some []) out (hs ++ mark x y ++ hs ++ mark 0 0 ++ hs)
  = Ok [(shown ty [x; y], (-1, 0)%R)].
Proof.
  intros ord Hord H1 B x y out ty HB Hw Hx Hy around mark hs.
  assert (HL : Props_Run.line [2; 2] []) by (apply line_ok_line; reflexivity).
  etransitivity; [apply (C01_run_applies_gates_in_order _ (Cscalar_laws Hord) B [2; 2] [] out ty OutAmplitude _ (grover (Cscalar ord) (x, y)) HB HL Hw)|].
  - assert (D : x = 0 \/ x = 1) by lia. assert (E : y = 0 \/ y = 1) by lia.
    apply gates_of_asks. destruct D as [-> | ->], E as [-> | ->]; reflexivity.
  - assert (V : valid [2; 2] [x; y]) by (apply two_valid; assumption).
    rewrite (@answer_minus ord Hord [2; 2] [x; y] _ V); [reflexivity|].
    intros s Hs. apply (@grover_state _ (Cscalar_laws Hord) (root_fact ord Hord H1) (scale_fact ord)); assumption.
Qed.

(** ** C83: two files of the testbench do not do what their names say. *)

(** testbench/tof_large/grover_n2 marks the state 11 and finds 00: its lines with a
    small x are not read.  With capital letters it finds 11. *)
Theorem C83_testbench_grover_misses :
  forall ord, orders ord -> one_last ord 2 -> forall (B : backend (Cscalar ord)), supported B ->
  run_text B tb_grover_n2 = Ok [(LStr "|00>", C1)]%string /\
  run_text B tb_grover_n2_capital = Ok [(LStr "|11>", (-1, 0)%R)]%string /\
  (forall c, circuit_from_qasm (Cscalar ord) tb_grover_n2 = Ok c -> get_circuit_config c = Ok (WInt 2, 9%Z)).
Proof.
  intros ord Hord H1 B HB. split; [|split].
  - rewrite (text_run (Cscalar_laws Hord) tb_grover_n2 (dims := [2; 2])
      (prog := [GH 0; GH 1; GH 1; GCX 0 1 1; GH 1; GH 0; GH 1; GH 1; GCX 0 1 1; GH 1; GH 0; GH 1]) HB) by (vm_compute; reflexivity).
    assert (V : valid [2; 2] [0; 0]) by (apply two_valid; lia).
    f_equal. transitivity (report OutPrint OutAmplitude [([0; 0], s1 : Cscalar ord)]); [|reflexivity]. f_equal.
    etransitivity; [|exact (answer_basis (Cscalar_laws Hord) V)]. apply answer_ext. intros s Hs.
    exact (@plain_state _ (Cscalar_laws Hord) (root_fact ord Hord H1) (scale_fact ord) s Hs).
  - rewrite (@parse_run _ B tb_grover_n2_capital [2; 2]
      [CH 0 None; CH 1 None; CH 1 None; CCX [0; 1] 1; CH 1 None; CH 0 None; CH 1 None; CX 0 None 1; CX 1 None 1; CH 1 None; CCX [0; 1] 1; CH 1 None;
       CX 0 None 1; CX 1 None 1; CH 0 None; CH 1 None]%Z) by (vm_compute; reflexivity).
    exact (C82_grover_finds_the_marked_state ord Hord H1 B 1 1 None OutPrint HB (or_intror (conj eq_refl (conj eq_refl eq_refl))) ltac:(lia) ltac:(lia)).
  - intros c Hc.
    rewrite (text_config (Cscalar_laws Hord) tb_grover_n2 (dims := [2; 2])
      (prog := [GH 0; GH 1; GH 1; GCX 0 1 1; GH 1; GH 0; GH 1; GH 1; GCX 0 1 1; GH 1; GH 0; GH 1])) by (try exact Hc; vm_compute; reflexivity).
    reflexivity.
Qed.

(** testbench/tof_qutrit/toffoli_2: the third cx moves the middle qutrit on instead
    of back. *)
Theorem C83_testbench_toffoli_keeps_its_scratch_level :
  forall S (L : scalar_laws S) (B : backend S) x0 x1 x2 out ty me,
  supported B -> wants [2; 2; 3] out ty me -> x0 < 2 -> x1 < 2 -> x2 < 3 ->
  let calls := [CCX [1; 2] 1; CCX [2; 0] 1; CCX [1; 2] 1]%Z in
  circuit_from_qasm S tb_toffoli_2 = built [2; 2; 3] calls /\
  simulate B (QList [2; 2; 3]%Z) (Some (map Z.of_nat [x0; x1; x2])) out calls
  = Ok [(shown ty [if x2 =? 2 - x1 then 1 - x0 else x0; x1; (x2 + 2 * x1) mod 3], s1)].
Proof.
  intros S L B x0 x1 x2 out ty me HB Hw H0 H1 H2 calls. split.
  - apply parse_built. vm_compute. reflexivity.
  - assert (V : valid [2; 2; 3] [x0; x1; x2]) by (repeat (constructor; [assumption|]); constructor).
    assert (HL : Props_Run.line [2; 2; 3] [x0; x1; x2]).
    { split; [discriminate|]. split; [simpl; intros; lia|]. split; [simpl; lia | exact V]. }
    etransitivity; [apply (C05_reversible_circuits_give_one_outcome S L B [2; 2; 3] [x0; x1; x2] out ty me calls [GCX 1 2 1; GCX 2 0 1; GCX 1 2 1] HB HL Hw)|].
    + apply gates_of_asks. reflexivity.
    + reflexivity.
    + do 4 f_equal. assert (D : x0 = 0 \/ x0 = 1) by lia. assert (E : x1 = 0 \/ x1 = 1) by lia. assert (F : x2 = 0 \/ x2 = 1 \/ x2 = 2) by lia.
      destruct D as [-> | ->], E as [-> | ->], F as [-> | [-> | ->]]; reflexivity.
Qed.

(** ** Non-trivial instances *)
Example ex_C80 : length recorded = 21 /\ In (tb_toffoli_2, "|000>"%string) recorded /\
  exists t out, In (t, out) recorded /\ out <> "|000>"%string /\ run_text (SparseBackend Zscalar) t = Ok [(LStr out, 1%Z)].
Proof.
  split; [reflexivity|]. split; [left; reflexivity|].
  exists (fst (nth 20 recorded ([], ""%string))), (snd (nth 20 recorded ([], ""%string))).
  assert (H : In (fst (nth 20 recorded ([], ""%string)), snd (nth 20 recorded ([], ""%string))) recorded)
    by (rewrite <- surjective_pairing; apply nth_In; cbn; lia).
  split; [exact H|]. split; [cbn; discriminate|].
  exact (C80_recorded_outcomes_are_reproduced Zscalar Zscalar_laws (SparseBackend Zscalar) (or_intror eq_refl) _ _ H).
Qed.

(** Two of three parities, with a control used twice. *)
Example ex_C81 :
  simulate (NumpyBackend (Cscalar np_ord)) (QList [2; 2; 2]%Z) (Some []) None
    [CH 0 None; CH 1 None; CX 2 None 1; CH 2 None; CCX [1; 2] 1; CCX [0; 2] 1; CCX [1; 2] 1; CH 0 None; CH 1 None]%Z
  = Ok [(LStr "|100>", (/ sqrt 2, 0)%R); (LStr "|101>", (- / sqrt 2, 0)%R)]%string /\
  run_text (SparseBackend (Cscalar np_ord)) tb_bv_n14
  = Ok [(LStr "|11111111111110>", (/ sqrt 2, 0)%R); (LStr "|11111111111111>", (- / sqrt 2, 0)%R)]%string.
Proof.
  split.
  - refine (C81_parities_without_the_last_h np_ord np_ord_orders (np_ord_last 2 ltac:(lia)) (NumpyBackend (Cscalar np_ord)) 2 [1; 0; 1] [] None OutPrint _ _ _ _ _);
      [left; reflexivity | apply line_ok_line; reflexivity | right; auto | reflexivity | simpl; intros; lia].
  - apply (C81_testbench_bv np_ord np_ord_orders (np_ord_last 2 ltac:(lia))). right; reflexivity.
Qed.

Example ex_C82 :
  simulate (SparseBackend (Cscalar np_ord)) (QList [2; 2]%Z) (Some []) None
    [CH 0 None; CH 1 None; CX 1 None 1; CH 1 None; CCX [0; 1] 1; CH 1 None; CX 1 None 1; CH 0 None; CH 1 None;
     CX 0 None 1; CX 1 None 1; CH 1 None; CCX [0; 1] 1; CH 1 None; CX 0 None 1; CX 1 None 1; CH 0 None; CH 1 None]%Z
  = Ok [(LStr "|10>", (-1, 0)%R)]%string.
Proof.
  exact (C82_grover_finds_the_marked_state np_ord np_ord_orders (np_ord_last 2 ltac:(lia)) (SparseBackend (Cscalar np_ord)) 1 0 None OutPrint
    (or_intror eq_refl) (or_intror (conj eq_refl (conj eq_refl eq_refl))) ltac:(lia) ltac:(lia)).
Qed.

Lemma run_text_reads : forall S (B : backend S) t l, run_text B t = Ok l -> exists c, circuit_from_qasm S t = Ok c.
Proof. intros S B t l H. unfold run_text in H. apply bind_ok in H as [c [E _]]. exists c. exact E. Qed.
Example ex_C83 :
  run_text (NumpyBackend (Cscalar np_ord)) tb_grover_n2 = Ok [(LStr "|00>", C1)]%string /\
  (exists c, circuit_from_qasm (Cscalar np_ord) tb_grover_n2 = Ok c /\ get_circuit_config c = Ok (WInt 2, 9%Z)) /\
  simulate (NumpyBackend Zscalar) (QList [2; 2; 3]%Z) (Some [0; 1; 1]%Z) None [CCX [1; 2] 1; CCX [2; 0] 1; CCX [1; 2] 1]%Z
  = Ok [(LStr "|110>"%string, 1%Z)].
Proof.
  destruct (C83_testbench_grover_misses np_ord np_ord_orders (np_ord_last 2 ltac:(lia)) (NumpyBackend (Cscalar np_ord)) (or_introl eq_refl)) as [A [_ C]].
  split; [exact A|]. split.
  - destruct (run_text_reads _ _ _ _ A) as [c E]. exists c. split; [exact E | apply C; exact E].
  - exact (proj2 (C83_testbench_toffoli_keeps_its_scratch_level Zscalar Zscalar_laws (NumpyBackend Zscalar) 0 1 1 None OutPrint OutAmplitude
      (or_introl eq_refl) (or_intror (conj eq_refl (conj eq_refl eq_refl))) ltac:(lia) ltac:(lia) ltac:(lia))).
Qed.

Print Assumptions C80_recorded_outcomes_are_reproduced.
Print Assumptions C81_parities_without_the_last_h.
Print Assumptions C81_testbench_bv.
Print Assumptions C82_grover_finds_the_marked_state.
Print Assumptions C83_testbench_grover_misses.
Print Assumptions C83_testbench_toffoli_keeps_its_scratch_level.
