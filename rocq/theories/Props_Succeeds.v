(** * Props_Succeeds: when run() succeeds (C104). *)
From Coq Require Import String.
From Verif Require Import Py Scalar Mat Utils Gates Circuit Spec Calls HistSpec CallSpec ShapeSpec SucceedSpec AnswerSpec
  History Run Ignored Construct Succeeds RunsIff ExLib Props_Run Props_Answers.
Local Notation length := List.length.

(** The call asks for a gate of the specification that can be executed. *)
Definition valid_request {S} (dims : list nat) (k : call S) : Prop := exists g, denotes dims k g /\ gate_ok dims g.

Lemma reads_each : forall S dims (ks : list (call S)),
  (exists prog, reads dims ks prog) <-> forall k, In k ks -> valid_request dims k \/ skipped dims k.
Proof.
  intros S dims ks. split.
  - intros [prog R]. induction R as [|k ks g prog D G R IH|k ks prog Sk R IH]; intros k' I; [contradiction | |].
    + destruct I as [<-|I]; [left; exists g; auto | auto].
    + destruct I as [<-|I]; [right; exact Sk | auto].
  - induction ks as [|k ks IH]; intros A; [exists []; constructor|].
    destruct IH as [prog R]; [intros k' I; apply A; right; exact I|].
    destruct (A k (or_introl eq_refl)) as [[g [D G]]|Sk]; [exists (g :: prog); apply reads_gate; assumption | exists prog; apply reads_skip; assumption].
Qed.

(** Whatever was called before measure_all() -- registers anywhere, dimensions
    negative or too large, any increments, matrices that are not unitary or
    have the wrong size -- run() succeeds exactly when every call asked for a
    valid gate or did nothing. *)
Theorem C104_when_run_succeeds :
  forall S (L : scalar_laws S) (B : backend S) dims levels out ty me ks c,
  supported B -> line dims levels -> wants dims out ty me -> Forall (plain dims) ks ->
  history (QList (map Z.of_nat dims)) (Some (map Z.of_nat levels)) out ks c ->
  (exists v, run B (after c [CMeasureAll]) = Ok v) <-> forall k, In k ks -> valid_request dims k \/ skipped dims k.
Proof.
  intros S L B dims levels out ty me ks c HB [H1 [H2 [H3 H4]]] Hw HP Hc.
  rewrite (supported_run S L) by exact HB. rewrite <- reads_each. split.
  - intros [v E]. destruct (reads_or_breaks L Hc H1 HP) as [R|[e X]]; [exact R | congruence].
  - intros [prog R]. eexists. eapply history_run; eassumption.
Qed.

(** A result that is returned is the specified one. *)
Theorem C104_results_are_right :
  forall S (L : scalar_laws S) (B : backend S) dims levels out ty me ks c v,
  supported B -> line dims levels -> wants dims out ty me -> Forall (plain dims) ks ->
  history (QList (map Z.of_nat dims)) (Some (map Z.of_nat levels)) out ks c ->
  run B (after c [CMeasureAll]) = Ok v ->
  exists prog, reads dims ks prog /\ v = report ty me (answer dims (final dims prog (basis S (start dims levels)))).
Proof.
  intros S L B dims levels out ty me ks c v HB [H1 [H2 [H3 H4]]] Hw HP Hc E.
  rewrite (supported_run S L) in E by exact HB. destruct (reads_or_breaks L Hc H1 HP) as [[prog R]|[e X]]; [|congruence].
  exists prog. split; [exact R|]. rewrite (@history_run S L dims levels out ty me ks prog c H1 H2 H3 H4 Hw R Hc) in E. injection E as <-. reflexivity.
Qed.

(** The same for a script, where a call that raises ends it. *)
Theorem C104_when_a_script_succeeds :
  forall S (L : scalar_laws S) (B : backend S) dims levels out ty me ks,
  supported B -> line dims levels -> wants dims out ty me -> Forall (plain dims) ks ->
  (exists v, simulate B (QList (map Z.of_nat dims)) (Some (map Z.of_nat levels)) out ks = Ok v) <->
  forall k, In k ks -> (exists b, reply dims false k = Ok b) /\ (valid_request dims k \/ skipped dims k).
Proof.
  intros S L B dims levels out ty me ks HB HL Hw HP. pose proof HL as [H1 [H2 [H3 H4]]].
  destruct (@mk_circuit_good S dims levels out H2 H3 H4) as [c0 [E0 _]].
  assert (Sc : forall (c : circuit S) l c', script c l = Ok c' -> c' = after c l).
  { intros c l; revert c; induction l as [|k l IH]; intros c c' E; cbn [script] in E; [injection E as <-; reflexivity|].
    unfold after. cbn [fold_left]. unfold step at 2. destruct (api c k) as [[c1 b]|e]; [|discriminate]. cbn [bind] in E. apply IH; exact E. }
  assert (Hh : history (QList (map Z.of_nat dims)) (Some (map Z.of_nat levels)) out ks (after c0 ks)) by (exists c0; auto).
  pose proof (C104_when_run_succeeds S L B dims levels out ty me ks _ HB HL Hw HP Hh) as W.
  pose proof (@C103_scripts_go_through S dims _ out c0 E0 H1 (ks ++ [CMeasureAll])) as T.
  unfold simulate. rewrite E0. cbn [bind].
  assert (A : after c0 (ks ++ [CMeasureAll]) = after (after c0 ks) [CMeasureAll]) by (unfold after; apply fold_left_app).
  split.
  - intros [v E] k I. destruct (script c0 (ks ++ [CMeasureAll])) as [c'|e] eqn:Es; [|discriminate]. cbn [bind] in E.
    rewrite (Sc _ _ _ Es), A in E. split.
    + apply (proj1 T); [eauto | apply in_or_app; left; exact I].
    + apply (proj1 W); eauto.
  - intros X. destruct (proj2 T) as [c' Es].
    { intros k I. apply in_app_or in I as [I|[<-|[]]]; [apply X; exact I | exists true; reflexivity]. }
    rewrite Es. cbn [bind]. rewrite (Sc _ _ _ Es), A. apply W. intros k I. apply X; exact I.
Qed.

(** ** Concrete cases *)
Section Examples.
Open Scope Z_scope.
Let S := Zscalar.
Let dims : list nat := [2; 3; 2]%nat.
Let c0 : circuit S := forced (mk_circuit S (QList [2; 3; 2]) (Some []) None).
Let good : list (call S) :=
  [CX 1 None 2; CX (-1) (Some 7) 9; CH 0 (Some 9); CCX [-1; -2] 1; CTof [0; 1] 3 1; CTof [-9] 0 1; CCX [1; 2] 1; CGate (deye S 3 3) (RList [1]) None].
Let ruined (k : call S) : bool := negb (is_ok (run (NumpyBackend S) (after c0 (good ++ [k; CMeasureAll])))).
(** Each of these spoils the circuit: wrong increments, registers partly off
    the line, cx on three registers, a negative dimension, a toffoli next to its
    control, one counting from the end, one with its target among the controls,
    matrices of the wrong size, not unitary, for two registers, too large for
    three. *)
Let bad : list (call S) :=
  [CX 1 None 3; CCX [-1; 0] 1; CCX [2; 3] 1; CCX [-4; 9] 1; CCX [0; 1; 2] 1; CZ 0 (Some (-1)); CTof [0] 1 1; CTof [-1] 1 1; CTof [-1; 1] 0 1;
   CTof [0; 2] 2 1; CGate (deye S 2 2) (RInt 1) None; CGate (deye S 3 2) (RInt 0) None;
   CGate (mkmat 3 3 (fun _ _ => s0) : mat S) (RList [1]) None; CGate (deye S 4 4) (RList [0; 2]) None; CGate (deye S 2 2) (RList [-1; 0]) None;
   CGate (deye S 24 24) (RList [2; 0; 1]) None; CGate (deye S 9 9) (RList [-1; 0; 1]) None].

Ltac plain_tac :=
  first [ exact I
        | split; [left; reflexivity | cbn; lia]
        | intros d E H; (discriminate E || (injection E as <-; cbn in *; lia))
        | intros r E Hr X; cbn in *; (lia || (assert (r = 2)%nat as -> by lia; cbn; discriminate)) ].
Example good_plain : Forall (plain dims) good.
Proof. unfold good. repeat (apply Forall_cons; [plain_tac|]). apply Forall_nil. Qed.
Example bad_plain : Forall (plain dims) bad.
Proof. unfold bad. repeat (apply Forall_cons; [plain_tac|]). apply Forall_nil. Qed.
Example good_runs : run (SparseBackend S) (after c0 (good ++ [CMeasureAll])) = Ok [(LStr "|021>"%string, 1)].
Proof. vm_compute. reflexivity. Qed.
Example bad_ruins : forallb ruined bad = true.
Proof. vm_compute. reflexivity. Qed.
Example history_ex : history (QList (map Z.of_nat dims)) (Some (map Z.of_nat [])) None good (after c0 good) /\ line dims [].
Proof.
  split; [exists c0; split; [apply forced_ok; vm_compute; reflexivity | reflexivity]|].
  split; [discriminate|]. split; [intros d [<-|[<-|[<-|[]]]]; lia|]. split; [simpl; lia | repeat constructor].
Qed.

(** Without [plain] two wrong gates can make up for each other: the toffoli on
    registers -1, 0, 1 is four times too large, the dims argument of x four
    times too small, and run() returns a result. *)
Theorem C104_when_run_succeeds_unguarded_refuted :
  ~ (forall S (L : scalar_laws S) (B : backend S) dims levels out ty me ks c,
     supported B -> line dims levels -> wants dims out ty me -> ~ In CMeasureAll ks ->
     history (QList (map Z.of_nat dims)) (Some (map Z.of_nat levels)) out ks c ->
     (exists v, run B (after c [CMeasureAll]) = Ok v) -> forall k, In k ks -> valid_request dims k \/ skipped dims k).
Proof.
  intros A. set (ks := [CTof [-1] 1 1; CX 2 (Some 1) 0] : list (call S)).
  set (c1 := forced (mk_circuit S (QList [2; 2; 4]) (Some []) None)).
  destruct (A S Zscalar_laws (NumpyBackend S) [2; 2; 4]%nat [] None OutPrint OutAmplitude ks (after c1 ks)) with (k := CX 2 (Some 1) 0 : call S)
    as [[g [D _]]|X].
  - left; reflexivity.
  - split; [discriminate|]. split; [intros d [<-|[<-|[<-|[]]]]; lia|]. split; [simpl; lia | repeat constructor].
  - right. auto.
  - intros [X|[X|[]]]; discriminate.
  - exists c1. split; [apply forced_ok; vm_compute; reflexivity | reflexivity].
  - destruct (run (NumpyBackend S) (after (after c1 ks) [CMeasureAll])) as [v|e] eqn:E; [eauto|]. exfalso.
    assert (W : is_ok (Err (A := list (label * S)) e) = true) by (rewrite <- E; vm_compute; reflexivity). discriminate.
  - right; left; reflexivity.
  - inversion D as [r dm p Hd E| | | | | |]; subst. assert (r = 2)%nat as -> by lia. destruct Hd as [X|[X|X]]; discriminate.
  - inversion X as [k' r dm Ha Ho|k' r d Ha Hr Hd| | | |]; subst; destruct Ha as [E1 E2]; [destruct Ho; simpl in *; lia|].
    injection E2 as <-. assert (r = 2)%nat as -> by lia. simpl in Hd. lia.
Qed.
End Examples.

Print Assumptions C104_when_run_succeeds.
Print Assumptions C104_results_are_right.
Print Assumptions C104_when_a_script_succeeds.
Print Assumptions C104_when_run_succeeds_unguarded_refuted.
