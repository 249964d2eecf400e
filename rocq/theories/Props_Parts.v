(** * Props_Parts: registers nothing changes, increments that add up, circuits
    side by side (C56-C58).  Statements only; the words are in PartsSpec.v. *)
From Coq Require Import String.
From Verif Require Import Py Scalar Mat Utils Gates Circuit Spec Calls Run Lib Reversible Merge PartsSpec Parts Props_Run.
Local Notation length := List.length.

(** ** C56: controls and z gates do not change levels *)
Theorem C56_unchanged_registers_keep_their_level :
  forall S (L : scalar_laws S) (B : backend S) dims levels out ty me ks prog r,
  supported B -> line dims levels -> wants dims out ty me -> asks dims ks prog ->
  (forall g, In g prog -> ~ In r (changes g)) ->
  exists l, simulate B (QList (map Z.of_nat dims)) (Some (map Z.of_nat levels)) out ks = Ok (report ty me l) /\
    forall s a, In (s, a) l -> valid dims s /\ level s r = level (start dims levels) r.
Proof.
  intros S L B dims levels out ty me ks prog r HB HL Hw Ha Hr. eexists. split.
  - exact (C01_run_applies_gates_in_order S L B dims levels out ty me ks prog HB HL Hw Ha).
  - intros s a Hin. refine (@answer_holds S L dims r _ _ s a _ Hin).
    apply final_holds; [exact L | exact (proj2 Ha) | exact Hr |].
    intros t _ Hne. unfold basis. rewrite (proj2 (config_eqb_neq _ _)); [reflexivity | congruence].
Qed.

(** ** C57: increments add up *)
Theorem C57_increments_add :
  forall S (L : scalar_laws S) (B : backend S) dims levels out ty me ks1 ks2 k k' k'' prog1 prog2 g g' h,
  supported B -> line dims levels -> wants dims out ty me ->
  asks dims ks1 prog1 -> asks dims ks2 prog2 -> asks dims [k; k'; k''] [g; g'; h] -> adds dims g g' h ->
  simulate B (QList (map Z.of_nat dims)) (Some (map Z.of_nat levels)) out (ks1 ++ k :: k' :: ks2)
  = simulate B (QList (map Z.of_nat dims)) (Some (map Z.of_nat levels)) out (ks1 ++ k'' :: ks2).
Proof.
  intros S L B dims levels out ty me ks1 ks2 k k' k'' prog1 prog2 g g' h HB [H1 [H2 [H3 H4]]] Hw [F1 O1] [F2 O2] [F O] Ha.
  rewrite (supported_sim S L B _ _ _ (ks1 ++ k :: k' :: ks2) HB), (supported_sim S L B _ _ _ (ks1 ++ k'' :: ks2) HB).
  inversion F as [|? ? ? ? Fk F']; subst. inversion F' as [|? ? ? ? Fk' F'']; subst. inversion F'' as [|? ? ? ? Fk'' _]; subst.
  inversion O as [|? ? Ok1 O']; subst. inversion O' as [|? ? Ok2 O'']; subst. inversion O'' as [|? ? Ok3 _]; subst.
  exact (@increments_add S L dims levels out ty me ks1 ks2 k k' k'' prog1 prog2 g g' h
           H1 H2 H3 H4 Hw F1 O1 F2 O2 Ha Ok1 Ok2 Ok3 Fk Fk' Fk'').
Qed.

(** A reversible gate called as often as its target has levels does nothing. *)
Theorem C57_a_full_round_does_nothing :
  forall S (L : scalar_laws S) (B : backend S) dims levels out ty me ks1 ks2 k prog1 prog2 g,
  supported B -> line dims levels -> wants dims out ty me ->
  asks dims ks1 prog1 -> asks dims ks2 prog2 -> asks dims [k] [g] -> reversible g ->
  simulate B (QList (map Z.of_nat dims)) (Some (map Z.of_nat levels)) out (ks1 ++ repeat k (period dims g) ++ ks2)
  = simulate B (QList (map Z.of_nat dims)) (Some (map Z.of_nat levels)) out (ks1 ++ ks2).
Proof.
  intros S L B dims levels out ty me ks1 ks2 k prog1 prog2 g HB [H1 [H2 [H3 H4]]] Hw [F1 O1] [F2 O2] [F O] Hr.
  rewrite (supported_sim S L B _ _ _ (ks1 ++ repeat k (period dims g) ++ ks2) HB), (supported_sim S L B _ _ _ (ks1 ++ ks2) HB).
  inversion F; subst. inversion O; subst.
  apply (@period_cancels S L dims levels out ty me ks1 ks2 k prog1 prog2 g); assumption.
Qed.

(** ** C58: circuits side by side *)
Theorem C58_independent_parts_multiply :
  forall S (L : scalar_laws S) (B : backend S) d1 d2 s1 s2 out1 out2 out ty me ks1 ks2 ks prog1 prog2 prog,
  supported B -> line d1 s1 -> length s1 = length d1 -> line d2 s2 -> length s2 = length d2 ->
  wants d1 out1 ty me -> wants d2 out2 ty me -> wants (d1 ++ d2) out ty me ->
  asks d1 ks1 prog1 -> asks d2 ks2 prog2 -> asks (d1 ++ d2) ks prog ->
  interleaves prog1 (map (lifted (length d1)) prog2) prog ->
  exists l1 l2,
    simulate B (QList (map Z.of_nat d1)) (Some (map Z.of_nat s1)) out1 ks1 = Ok (report ty me l1) /\
    simulate B (QList (map Z.of_nat d2)) (Some (map Z.of_nat s2)) out2 ks2 = Ok (report ty me l2) /\
    simulate B (QList (map Z.of_nat (d1 ++ d2))) (Some (map Z.of_nat (s1 ++ s2))) out ks
    = Ok (report ty me (pairs l1 l2)).
Proof.
  intros S L B d1 d2 s1 s2 out1 out2 out ty me ks1 ks2 ks prog1 prog2 prog HB L1 E1 L2 E2 W1 W2 W A1 A2 A Hi.
  assert (Es1 : start d1 s1 = s1) by (unfold start; rewrite E1, Nat.sub_diag; apply app_nil_r).
  assert (Es2 : start d2 s2 = s2) by (unfold start; rewrite E2, Nat.sub_diag; apply app_nil_r).
  assert (Es : start (d1 ++ d2) (s1 ++ s2) = s1 ++ s2).
  { unfold start. rewrite !app_length, E1, E2, Nat.sub_diag. apply app_nil_r. }
  assert (HL : line (d1 ++ d2) (s1 ++ s2)).
  { destruct L1 as [N1 [D1 [_ V1]]], L2 as [N2 [D2 [_ V2]]]. rewrite Es1 in V1. rewrite Es2 in V2.
    split; [destruct d1; [contradiction | discriminate]|].
    split; [intros d Hd; apply in_app_iff in Hd as [Hd|Hd]; auto|].
    split; [rewrite !app_length; lia|]. rewrite Es. apply valid_app; assumption. }
  do 2 eexists. split; [|split].
  - exact (C01_run_applies_gates_in_order S L B d1 s1 out1 ty me ks1 prog1 HB L1 W1 A1).
  - exact (C01_run_applies_gates_in_order S L B d2 s2 out2 ty me ks2 prog2 HB L2 W2 A2).
  - rewrite (C01_run_applies_gates_in_order S L B _ _ out ty me ks prog HB HL W A).
    do 2 f_equal. apply (answer_pair L). rewrite Es1, Es2, Es.
    apply (final_pair L Hi); [reflexivity | exact (proj2 A1) | exact (proj2 A2) |].
    apply basis_pair; [exact L | exact E1].
Qed.

(** ** The hypotheses are met by non-trivial circuits *)
Section Examples.
Open Scope Z_scope.
Let S := Zscalar.
Let dims := [2; 3; 2]%nat.
Let levels := [1; 2]%nat.

(** Register 1 is a control twice and gets a z; only registers 0 and 2 move. *)
Let calls56 : list (call S) := [CH 0 None; CCX [1; 2] 1; CTof [1; 0] 2 1; CZ 2 None; CX 0 None 1].
Let prog56 : list (gate S) := [GH 0; GCX 1 2 1; GTof [1; 0]%nat 2 1; GZ 2; GX 0 1].
Example ex_C56 :
  line dims levels /\ asks dims calls56 prog56 /\ (forall g, In g prog56 -> ~ In 1%nat (changes g)) /\
  simulate (NumpyBackend S) (QList (map Z.of_nat dims)) (Some (map Z.of_nat levels)) None calls56
  = Ok [(LStr "|020>"%string, 1); (LStr "|121>"%string, 1)].
Proof.
  split; [exact ex_line|]. split; [split|split; [|vm_compute; reflexivity]].
  - constructor; [apply (@den_h S dims 0 None); left; reflexivity|].
    constructor; [apply (@den_cx S dims 1 2)|].
    constructor; [apply (@den_tof S dims [1; 0]%nat 2)|].
    constructor; [apply (@den_z S dims 2 None); left; reflexivity|].
    constructor; [apply (@den_x S dims 0 None); left; reflexivity | constructor].
  - repeat (apply Forall_cons || apply Forall_nil); simpl; try lia.
    split; [|split; [lia|split]].
    + intros c [<-|[<-|[]]]; lia.
    + intros [H|[H|[]]]; lia.
    + intros [lo [_ [_ H]]]. assert (A := H 0%nat). assert (B := H 2%nat). simpl in *. lia.
  - intros g Hg. simpl in Hg. decompose [or] Hg; subst; simpl; lia.
Qed.

(** x(2) then x(2) on a three-level register is x(1); cx likewise. *)
Example ex_C57 :
  adds (S := S) dims (GX 1 2) (GX 1 2) (GX 1 1) /\ adds (S := S) dims (GCX 0 1 2) (GCX 0 1 5) (GCX 0 1 1) /\
  asks (S := S) dims [CX 1 None 2; CX 1 (Some 3) 2; CX 1 None 1] [GX 1 2; GX 1 2; GX 1 1] /\
  simulate (NumpyBackend S) (QList [2; 3; 2]) (Some [1; 2]) None [CCX [0; 1] 2; CCX [0; 1] 5]
  = Ok [(LStr "|100>"%string, 1)] /\
  simulate (NumpyBackend S) (QList [2; 3; 2]) (Some [1; 2]) None [CCX [0; 1] 1]
  = Ok [(LStr "|100>"%string, 1)].
Proof.
  split; [constructor; exists 1; reflexivity|]. split; [constructor; [discriminate | exists 2; reflexivity]|].
  split; [|split; vm_compute; reflexivity]. split.
  - constructor; [apply (@den_x S dims 1); left; reflexivity|].
    constructor; [apply (@den_x S dims 1); right; right; reflexivity|].
    constructor; [apply (@den_x S dims 1); left; reflexivity | constructor].
  - repeat constructor; simpl; lia.
Qed.
Example ex_C57_round : period (S := S) dims (GTof [0; 2]%nat 1 2) = 3%nat /\
  simulate (NumpyBackend S) (QList [2; 3; 2]) (Some [1; 2; 1]) None
    ([CH 0 None] ++ repeat (CTof [0; 2] 1 2) 3 ++ [CX 2 None 1])
  = simulate (NumpyBackend S) (QList [2; 3; 2]) (Some [1; 2; 1]) None ([CH 0 None] ++ [CX 2 None 1]) /\
  simulate (NumpyBackend S) (QList [2; 3; 2]) (Some [1; 2; 1]) None
    ([CH 0 None] ++ repeat (CTof [0; 2] 1 2) 2 ++ [CX 2 None 1])
  <> simulate (NumpyBackend S) (QList [2; 3; 2]) (Some [1; 2; 1]) None ([CH 0 None] ++ [CX 2 None 1]).
Proof. split; [reflexivity|]. split; [vm_compute; reflexivity | vm_compute; discriminate]. Qed.

(** A Hadamard and a cx on two registers, an x and a cx on two others, called
    alternately. *)
Let dA := [2; 3]%nat.
Let dB := [3; 2]%nat.
Let callsA : list (call S) := [CH 0 None; CCX [0; 1] 2].
Let progA : list (gate S) := [GH 0; GCX 0 1 2].
Let callsB : list (call S) := [CX 0 None 2; CCX [0; 1] 1].
Let progB : list (gate S) := [GX 0 2; GCX 0 1 1].
Let callsAB : list (call S) := [CH 0 None; CX 2 None 2; CCX [0; 1] 2; CCX [2; 3] 1].
Let progAB : list (gate S) := [GH 0; GX 2 2; GCX 0 1 2; GCX 2 3 1].
Example ex_C58 :
  line dA [1; 2]%nat /\ line dB [0; 1]%nat /\
  asks dA callsA progA /\ asks dB callsB progB /\ asks (dA ++ dB) callsAB progAB /\
  interleaves progA (map (lifted (length dA)) progB) progAB /\
  simulate (NumpyBackend S) (QList (map Z.of_nat dA)) (Some [1; 2]) None callsA
  = Ok [(LStr "|02>"%string, 1); (LStr "|11>"%string, -1)] /\
  simulate (NumpyBackend S) (QList (map Z.of_nat dB)) (Some [0; 1]) None callsB = Ok [(LStr "|20>"%string, 1)] /\
  simulate (NumpyBackend S) (QList (map Z.of_nat (dA ++ dB))) (Some [1; 2; 0; 1]) None callsAB
  = Ok [(LStr "|0220>"%string, 1); (LStr "|1120>"%string, -1)].
Proof.
  split; [|split; [|split; [|split; [|split; [|split; [|split; [|split; vm_compute; reflexivity]]]]]]].
  - split; [discriminate|]. split; [|split; [simpl; lia | repeat constructor]]. intros d H. simpl in H. lia.
  - split; [discriminate|]. split; [|split; [simpl; lia | repeat constructor]]. intros d H. simpl in H. lia.
  - split; [|repeat constructor; simpl; lia].
    constructor; [apply (@den_h S dA 0); left; reflexivity|]. constructor; [apply (@den_cx S dA 0 1) | constructor].
  - split; [|repeat constructor; simpl; lia].
    constructor; [apply (@den_x S dB 0); left; reflexivity|]. constructor; [apply (@den_cx S dB 0 1) | constructor].
  - split; [|repeat constructor; simpl; lia].
    constructor; [apply (@den_h S (dA ++ dB) 0); left; reflexivity|].
    constructor; [apply (@den_x S (dA ++ dB) 2); left; reflexivity|].
    constructor; [apply (@den_cx S (dA ++ dB) 0 1)|]. constructor; [apply (@den_cx S (dA ++ dB) 2 3) | constructor].
  - apply int_left, int_right, int_left, int_right, int_nil.
  - vm_compute. reflexivity.
Qed.
End Examples.

Print Assumptions C56_unchanged_registers_keep_their_level.
Print Assumptions C57_increments_add.
Print Assumptions C57_a_full_round_does_nothing.
Print Assumptions C58_independent_parts_multiply.
