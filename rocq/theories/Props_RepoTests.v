(** * Props_RepoTests: the tests in /repo/test, run in the model (C89). *)
From Coq Require Import String Ascii Reals Lra.
From Verif Require Import Py Scalar Mat Utils Gates Circuit Info Spec Calls Complex ComplexSpec ComplexLib HistSpec DepthSpec Lib Refine Run Reversible Local Unitary Exact
  ComplexGates ComplexRun Product Algo Two Qasm QasmSpec QasmRun Props_Run Props_Complex Props_Errors Props_Qasm Props_Depth BenchLib Uniform Props_Uniform Props_Bench.
Local Notation length := List.length.
Local Notation T s := (list_ascii_of_string s%string).
Open Scope list_scope.
Open Scope nat_scope.

(** test.qasm:1-16. *)
Definition test_qasm : text := T "# rev_tof_1 for two 3 qudit registers
# developed by Amit Saha
.qudit 3 


qudit x0 (2)
qudit x1 (3)
qudit x2 (2)


.begin
X x0
CX x0 x1
CX x1 x2
CX x0 x1
.end
".

(** test/test_qasm.py:40-70 (joined with newlines, no newline at the end). *)
Definition grover_qasm : text := T "# Created by Arnav Das
# Grover's with 2 qubits.

.qubit 2

qubit x0
qubit x1

.begin
H x0
H x1

H x1
CNOT x0 x1
H x1

H x0
H x1
x x0
x x1
H x1
CNOT x0 x1
H x1
x x0
x x1

H x0
H x1
.end".

(** test/test_qasm.py:105-124. *)
Definition toffoli_qasm : text := T "# Toffoli test circuit
.qubit 11

qudit x0 (2)
qudit x1 (3)
qudit x2 (3)
qudit x3 (3)
qudit x4 (2)

.begin
# Marking with oracle evaluation
X x0
X x1 2
X x2 2
X x4

Toffoli x1, x2, x3
.end".

Section Runs.
Variable S : scalar.
Variable L : scalar_laws S.
Variable B : backend S.
Hypothesis HB : supported B.

(** test_circuit.py:141: the matrix of the gate. *)
Definition identity3 : mat S := mkmat 3 3 (fun i j => if i =? j then s1 else s0).

(** A circuit of x, cx and toffoli calls, by computation on levels. *)
Lemma by_levels : forall dims levels (ks : list (call S)) prog out,
  line dims levels -> gates_of dims ks = Some prog -> forallb (@is_classical S) prog = true ->
  shown OutPrint (moves dims prog (start dims levels)) = LStr out ->
  simulate B (QList (map Z.of_nat dims)) (Some (map Z.of_nat levels)) None ks = Ok [(LStr out, s1)].
Proof.
  intros dims levels ks prog out HL Hg Hc <-.
  apply (C05_reversible_circuits_give_one_outcome S L B dims levels None OutPrint OutAmplitude ks prog HB HL); [right; auto | apply gates_of_asks; exact Hg | exact Hc].
Qed.
End Runs.

Ltac a_line := split; [discriminate|]; split; [simpl; intros; lia|]; split; [simpl; lia|]; repeat (constructor; [simpl; lia|]); constructor.

(** ** C89: the tests that compare outcomes hold, on both backends ... *)
Theorem C89_own_tests_hold :
  forall S (L : scalar_laws S) (B : backend S), supported B ->
  let run dims levels ks := simulate B (QList dims) (Some levels) None ks in
  (* test_circuit.py:36-44, 58-67, 70-79, 122-133 *)
  run [2; 2; 3; 3; 3; 2; 2; 2; 2; 2; 2; 2; 2]%Z [1; 1; 1; 0; 1; 0; 0; 0; 0; 0; 0; 0; 0]%Z [] = Ok [(LStr "|1110100000000>", s1)]%string /\
  run [2; 3; 3; 3; 2]%Z [1; 1; 1; 2; 1]%Z [CCX [0; 3] 1]%Z = Ok [(LStr "|11101>", s1)]%string /\
  run [2; 3; 3; 3; 2]%Z [1; 1; 1; 2; 1]%Z [CCX [3; 1] 1]%Z = Ok [(LStr "|12121>", s1)]%string /\
  run [2; 3; 4; 3; 2]%Z [1; 2; 3; 0; 1]%Z [CTof [0; 1; 2] 3 1]%Z = Ok [(LStr "|12311>", s1)]%string /\
  (* test_circuit.py:136-152 *)
  run [2; 3; 4; 3; 2]%Z [1; 2; 2; 0; 1]%Z [CGate (identity3 S) (RInt 3) None]%Z = Ok [(LStr "|12201>", s1)]%string /\
  (* test_backend.py:34-146, with a level less than registers; both backends agree *)
  run [2; 2; 3; 3; 3; 2; 2; 2; 2; 2]%Z [1; 1; 1; 0; 1; 0; 0; 0; 0]%Z [CCX [0; 2] 1; CCX [2; 5] 1; CCX [0; 2] 2]%Z = Ok [(LStr "|1110110000>", s1)]%string /\
  (* test_qasm.py:31-36, 104-139 *)
  run_text B test_qasm = Ok [(LStr "|120>", s1)]%string /\
  run_text B toffoli_qasm = run [2; 3; 4; 3; 2]%Z [1; 2; 2; 0; 1]%Z [CTof [1; 2] 3 1]%Z.
Proof.
  intros S L B HB run. unfold run. repeat match goal with |- _ /\ _ => split end.
  - refine (by_levels S L B HB [2; 2; 3; 3; 3; 2; 2; 2; 2; 2; 2; 2; 2] [1; 1; 1; 0; 1; 0; 0; 0; 0; 0; 0; 0; 0] [] [] _ _ eq_refl eq_refl eq_refl). a_line.
  - refine (by_levels S L B HB [2; 3; 3; 3; 2] [1; 1; 1; 2; 1] [CCX [0; 3] 1]%Z _ _ _ eq_refl eq_refl eq_refl). a_line.
  - refine (by_levels S L B HB [2; 3; 3; 3; 2] [1; 1; 1; 2; 1] [CCX [3; 1] 1]%Z _ _ _ eq_refl eq_refl eq_refl). a_line.
  - refine (by_levels S L B HB [2; 3; 4; 3; 2] [1; 2; 3; 0; 1] [CTof [0; 1; 2] 3 1]%Z _ _ _ eq_refl eq_refl eq_refl). a_line.
  - pose proof (C32_single_register_gate_acts_as_its_matrix S L B [2; 3; 4; 3; 2] [1; 2; 2; 0; 1] 3 None (identity3 S)
      HB ltac:(a_line) eq_refl ltac:(simpl; lia) (or_introl eq_refl) eq_refl eq_refl) as E.
    etransitivity; [apply E|].
    + intros i j Hi Hj. pose proof (identity_rows L 3 i j Hi Hj) as X. simpl in Hi, Hj.
      destruct Hi as [<- | [<- | [<- | []]]], Hj as [<- | [<- | [<- | []]]]; exact X.
    + transitivity (Ok (report OutPrint OutAmplitude [([1; 2; 2; 0; 1], s1 : S)])); [|reflexivity]. do 2 f_equal.
      etransitivity; [|apply (@answer_basis S L [2; 3; 4; 3; 2] [1; 2; 2; 0; 1]); repeat constructor].
      apply answer_ext. intros t Ht. unfold basis. assert (Hl : level t 3 < 3) by exact (valid_level Ht (r := 3) ltac:(simpl; lia)). destruct (config_eqb (put [1; 2; 2; 0; 1] 3 (level t 3)) t) eqn:E1.
      * apply config_eqb_eq in E1. destruct (level t 3) as [|[|[|v]]]; [| | | lia]; rewrite <- E1; reflexivity.
      * destruct (config_eqb [1; 2; 2; 0; 1] t) eqn:E2; [|reflexivity]. apply config_eqb_eq in E2. subst t. discriminate E1.
  - refine (by_levels S L B HB [2; 2; 3; 3; 3; 2; 2; 2; 2; 2] [1; 1; 1; 0; 1; 0; 0; 0; 0] [CCX [0; 2] 1; CCX [2; 5] 1; CCX [0; 2] 2]%Z _ _ _ eq_refl eq_refl eq_refl). a_line.
  - eapply recorded_one; [exact L | exact HB |]. do 2 eexists. split; [vm_compute; reflexivity | split; vm_compute; reflexivity].
  - transitivity (Ok [(LStr "|12201>"%string, s1 : S)]).
    + eapply recorded_one; [exact L | exact HB |]. do 2 eexists. split; [vm_compute; reflexivity | split; vm_compute; reflexivity].
    + symmetry. refine (by_levels S L B HB [2; 3; 4; 3; 2] [1; 2; 2; 0; 1] [CTof [1; 2] 3 1]%Z _ _ _ eq_refl eq_refl eq_refl). a_line.
Qed.

(** ... so does the one on the configuration (test_circuit.py:82-94) ... *)
Theorem C89_configuration_test_holds :
  forall S (L : scalar_laws S) (c : circuit S),
  history (QList [2; 3; 3; 3; 2]%Z) (Some [1; 1; 1; 2; 1]%Z) None [CCX [3; 1] 1; CH 0 None; CCX [1; 2] 1; CMeasureAll]%Z c ->
  get_circuit_config c = Ok (WInt 5, 2%Z).
Proof.
  intros S L c H.
  rewrite (C59_depth_of_a_program S L [2; 3; 3; 3; 2] [1; 1; 1; 2; 1] None [CCX [3; 1] 1; CH 0 None; CCX [1; 2] 1]%Z [GCX 3 1 1; GH 0; GCX 1 2 1] [CMeasureAll] c);
    [reflexivity | a_line | apply gates_of_asks; vm_compute; reflexivity | right; exists []; reflexivity | exact H].
Qed.

(** ... and the ones with h gates (test_circuit.py:47-56, 97-107; test_qasm.py:38-102,
    where the outcomes are in the comments of lines 96-100). *)
Theorem C89_tests_with_h_hold :
  forall ord, orders ord -> one_last ord 2 -> forall (B : backend (Cscalar ord)), supported B ->
  (exists l, simulate B (QList [4]%Z) (Some [3]%Z) None [CH 0 None]%Z = Ok l /\ l <> []) /\
  simulate B (QList [2; 3]%Z) (Some [0; 0]%Z) None [CH 0 None; CCX [0; 1] 1]%Z
  = Ok [(LStr "|00>", (/ sqrt 2, 0)%R); (LStr "|11>", (/ sqrt 2, 0)%R)]%string /\
  run_text B grover_qasm = Ok [(LStr "|00>", C1)]%string /\
  simulate B (QList [2; 2]%Z) (Some []) None
    [CH 0 None; CH 1 None; CH 1 None; CCX [0; 1] 1; CH 1 None; CH 0 None; CH 1 None; CX 0 None 1; CX 1 None 1; CH 1 None; CCX [0; 1] 1; CH 1 None;
     CX 0 None 1; CX 1 None 1; CH 0 None; CH 1 None]%Z = Ok [(LStr "|11>", (-1, 0)%R)]%string.
Proof.
  intros ord Hord H1 B HB. pose proof (Cscalar_laws Hord) as CL. repeat match goal with |- _ /\ _ => split end.
  - destruct (C87_h_gates_spread_evenly ord Hord B [4] [3] None OutPrint [0] HB ltac:(a_line) (or_intror (conj eq_refl (conj eq_refl eq_refl)))
      ltac:(repeat constructor; simpl; tauto) ltac:(simpl; intros; lia)) as [l [E [F _]]].
    exists l. split; [exact E|]. intros ->. discriminate F.
  - etransitivity; [apply (C01_run_applies_gates_in_order _ CL B [2; 3] [0; 0] None OutPrint OutAmplitude [CH 0 None; CCX [0; 1] 1]%Z [GH 0; GCX 0 1 1] HB);
      [a_line | right; auto | apply gates_of_asks; vm_compute; reflexivity]|].
    set (h := (/ sqrt 2, 0)%R : Cscalar ord).
    assert (Eh : had (Cscalar ord) 2 0 0 = h /\ had (Cscalar ord) 2 1 0 = h) by (split; apply C_ext; unfold had, h; simpl; replace (1 + 1)%R with 2%R by ring; ring).
    set (psi := fun t : config => if config_eqb t [0; 0] || config_eqb t [1; 1] then h else s0 : Cscalar ord).
    rewrite (@answer_ext _ [2; 3] _ psi).
    + assert (Nh : Ceqb h C0 = false).
      { destruct (Ceqb h C0) eqn:E; [|reflexivity]. apply Ceqb_eq in E. injection E as E. exfalso. revert E. apply Rinv_neq_0_compat.
        apply Rgt_not_eq. apply sqrt_lt_R0. lra. }
      assert (N : negb (seqb h s0) = true) by (change (negb (Ceqb h C0) = true); rewrite Nh; reflexivity).
      assert (Z : negb (seqb (s0 : Cscalar ord) s0) = false) by (change (negb (Ceqb C0 C0) = false); rewrite (proj2 (Ceqb_eq C0 C0) eq_refl); reflexivity).
      unfold answer. change (all_configs [2; 3]) with [[0; 0]; [0; 1]; [0; 2]; [1; 0]; [1; 1]; [1; 2]]. cbn [filter].
      change (psi [0; 0]) with h. change (psi [1; 1]) with h. change (psi [0; 1]) with (s0 : Cscalar ord). change (psi [0; 2]) with (s0 : Cscalar ord).
      change (psi [1; 0]) with (s0 : Cscalar ord). change (psi [1; 2]) with (s0 : Cscalar ord). rewrite N, Z. reflexivity.
    + intros t Ht.
      assert (M : forall u, valid [2; 3] u -> final [2; 3] [GH 0; GCX 0 1 1] (basis (Cscalar ord) [0; 0]) (move [2; 3] (GCX (S := Cscalar ord) 0 1 1) u) = amp [2; 3] (GH 0) u [0; 0]).
      { intros u Hu. change [GH 0; GCX 0 1 1] with ([GH 0] ++ [GCX 0 1 1] : list (gate (Cscalar ord))). rewrite ComplexRun.final_app.
        etransitivity; [apply (@Moved.final_moved _ CL [2; 3] [GCX 0 1 1]); [repeat constructor; simpl; lia | intros g [<- | []]; simpl; lia | exact Hu]|].
        cbn [final]. apply (apply_basis_any CL). repeat constructor. }
      apply in_all_configs in Ht. change (all_configs [2; 3]) with [[0; 0]; [0; 1]; [0; 2]; [1; 0]; [1; 1]; [1; 2]] in Ht. destruct Eh as [E0 E1].
      destruct Ht as [<- | [<- | [<- | [<- | [<- | [<- | []]]]]]].
      * etransitivity; [apply (M [0; 0]); repeat constructor | exact E0].
      * etransitivity; [apply (M [0; 1]); repeat constructor | reflexivity].
      * etransitivity; [apply (M [0; 2]); repeat constructor | reflexivity].
      * etransitivity; [apply (M [1; 2]); repeat constructor | reflexivity].
      * etransitivity; [apply (M [1; 0]); repeat constructor | exact E1].
      * etransitivity; [apply (M [1; 1]); repeat constructor | reflexivity].
  - rewrite (text_run CL grover_qasm (dims := [2; 2])
      (prog := [GH 0; GH 1; GH 1; GCX 0 1 1; GH 1; GH 0; GH 1; GH 1; GCX 0 1 1; GH 1; GH 0; GH 1]) HB) by (vm_compute; reflexivity).
    rewrite <- (proj1 (C83_testbench_grover_misses ord Hord H1 B HB)). symmetry.
    apply (text_run CL BenchTexts.tb_grover_n2 (dims := [2; 2])); [exact HB | vm_compute; reflexivity].
  - exact (C82_grover_finds_the_marked_state ord Hord H1 B 1 1 None OutPrint HB (or_intror (conj eq_refl (conj eq_refl eq_refl))) ltac:(lia) ltac:(lia)).
Qed.

(** test_circuit.py:110-119 expects the toffoli to act.  The second control is at
    level 2 of 4, so it does not: the test fails. *)
Theorem C89_test_qudit_toffoli_refuted :
  forall S (L : scalar_laws S) (B : backend S), supported B ->
  let result := simulate B (QList [2; 3; 4; 3; 2]%Z) (Some [1; 2; 2; 0; 1]%Z) None [CTof [1; 2] 3 1]%Z in
  result = Ok [(LStr "|12201>", s1)]%string /\ result <> Ok [(LStr "|12211>", s1)]%string.
Proof.
  intros S L B HB result.
  assert (E : result = Ok [(LStr "|12201>", s1)]%string)
    by (refine (by_levels S L B HB [2; 3; 4; 3; 2] [1; 2; 2; 0; 1] [CTof [1; 2] 3 1]%Z _ _ _ eq_refl eq_refl eq_refl); a_line).
  split; [exact E|]. rewrite E. intros X. discriminate X.
Qed.

(** test_bin.py:29-61. *)
Theorem C89_digit_tests_hold :
  (bin_to_Nbase [1; 1; 1; 0; 1; 0; 0; 0; 0; 0; 0; 0; 0] [2; 2; 3; 3; 3; 2; 2; 2; 2; 2; 2; 2; 2] = Ok 23296 /\
  bin_to_Nbase [1; 0; 0; 1] [2; 3; 2; 2] = Ok 13 /\
  bin_to_Nbase [1; 1; 1; 2; 0; 0; 0; 0; 0; 0; 0; 0; 0] [2; 2; 3; 3; 3; 2; 2; 2; 2; 2; 2; 2; 2] = Ok 24576 /\
  Nbase_to_bin 65 [2; 2; 2; 3; 2; 2] = Ok [1; 0; 1; 1; 0; 1] /\
  Nbase_to_bin 64 [2; 2; 2; 3; 2; 2] = Ok [1; 0; 1; 1; 0; 0] /\
  Nbase_to_bin 187 [4; 3; 2; 2; 4] = Ok [3; 2; 1; 0; 3] /\
  Nbase_to_bin 140 (rev [3; 2; 2; 3; 4]) = Ok [3; 2; 1; 0; 2] /\
  Nbase_to_bin 689 [3; 2; 5; 4; 2; 3] = Ok [2; 1; 3; 2; 1; 2] /\
  Nbase_to_bin 23296 [2; 2; 3; 3; 3; 2; 2; 2; 2; 2; 2; 2; 2] = Ok [1; 1; 1; 0; 1; 0; 0; 0; 0; 0; 0; 0; 0])%Z.
Proof. repeat split; vm_compute; reflexivity. Qed.

(** ** Instances *)
Example ex_C89 :
  run_text (SparseBackend Zscalar) test_qasm = Ok [(LStr "|120>", 1%Z)]%string /\
  (exists c, history (S := Zscalar) (QList [2; 3; 3; 3; 2]%Z) (Some [1; 1; 1; 2; 1]%Z) None [CCX [3; 1] 1; CH 0 None; CCX [1; 2] 1; CMeasureAll]%Z c) /\
  simulate (NumpyBackend Zscalar) (QList [2; 3; 4; 3; 2]%Z) (Some [1; 2; 2; 0; 1]%Z) None [CTof [1; 2] 3 1]%Z = Ok [(LStr "|12201>", 1%Z)]%string /\
  run_text (NumpyBackend (Cscalar np_ord)) grover_qasm = Ok [(LStr "|00>", C1)]%string.
Proof.
  split; [destruct (C89_own_tests_hold Zscalar Zscalar_laws (SparseBackend _) (or_intror eq_refl)) as [_ [_ [_ [_ [_ [_ [X _]]]]]]]; exact X|].
  split; [eexists; eexists; split; reflexivity|].
  split; [exact (proj1 (C89_test_qudit_toffoli_refuted Zscalar Zscalar_laws (NumpyBackend _) (or_introl eq_refl)))|].
  exact (proj1 (proj2 (proj2 (C89_tests_with_h_hold np_ord np_ord_orders (np_ord_last 2 ltac:(lia)) (NumpyBackend _) (or_introl eq_refl))))).
Qed.

Print Assumptions C89_own_tests_hold.
Print Assumptions C89_configuration_test_holds.
Print Assumptions C89_tests_with_h_hold.
Print Assumptions C89_test_qudit_toffoli_refuted.
Print Assumptions C89_digit_tests_hold.
