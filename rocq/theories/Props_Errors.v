(** * Props_Errors: rejected, ignored and failing calls (C02, C14, C15, C30,
    C32-C34, and C01 for histories with such calls). *)
From Coq Require Import String.
From Verif Require Import Py Scalar Mat Utils Gates Circuit Spec Calls HistSpec CallSpec
  History Run Errors Construct Ignored BadGates Exact Reject ExLib Props_Run.
Local Notation length := List.length.

(** Like C01, for histories that also contain calls that raise or are dropped:
    they have no effect on the result. *)
Theorem C01_rejected_and_ignored_calls_leave_no_trace :
  forall S (L : scalar_laws S) (B : backend S) dims levels out ty me ks prog c,
  supported B -> line dims levels -> wants dims out ty me -> reads dims ks prog ->
  history (QList (map Z.of_nat dims)) (Some (map Z.of_nat levels)) out ks c ->
  run B (after c [CMeasureAll]) = Ok (report ty me (answer dims (final dims prog (basis S (start dims levels))))).
Proof.
  intros S L B dims levels out ty me ks prog c HB [H1 [H2 [H3 H4]]] Hw HF Hc.
  rewrite (supported_run S L) by exact HB. eapply history_run; eassumption.
Qed.

(** ** C02, increments outside -d .. d-1: IndexError in an otherwise valid
    program, and no result in any program. *)
Theorem C02_x_out_of_range_raises_IndexError :
  forall S (L : scalar_laws S) (B : backend S) dims levels out ty me ks1 ks2 r dm p prog1 prog2,
  supported B -> line dims levels -> wants dims out ty me -> asks dims ks1 prog1 -> asks dims ks2 prog2 ->
  r < length dims -> dflt dims r dm -> (p < - Z.of_nat (nth r dims O) \/ Z.of_nat (nth r dims O) <= p)%Z ->
  simulate B (QList (map Z.of_nat dims)) (Some (map Z.of_nat levels)) out (ks1 ++ CX (Z.of_nat r) dm p :: ks2)
  = Err IndexError.
Proof.
  intros S L B dims levels out ty me ks1 ks2 r dm p prog1 prog2 HB [H1 [H2 [H3 H4]]] Hw [A1 A2] [A3 A4] Hr Hdm Hp.
  rewrite (supported_sim S L) by exact HB.
  eapply exact_x; eassumption.
Qed.

Theorem C02_x_out_of_range_never_runs :
  forall S dims init out ks (c : circuit S) r dm p,
  history (QList (map Z.of_nat dims)) init out ks c -> ~ In CMeasureAll ks ->
  r < length dims -> dflt dims r dm -> (p < - Z.of_nat (nth r dims O) \/ Z.of_nat (nth r dims O) <= p)%Z ->
  accepted_but_never_runs c (CX (Z.of_nat r) dm p).
Proof. intros S dims init out ks c r dm p H Hm Hr Hdm Hp. exact (@bad_x S dims init out ks c H Hm r dm p Hr Hdm Hp). Qed.

(** ** C14 *)
Theorem C14_single_register_too_large :
  forall S dims init out ks (c : circuit S) k r dm,
  history (QList (map Z.of_nat dims)) init out ks c ->
  asks_one k r dm -> (Z.of_nat (length dims) <= r)%Z ->
  api c k = Err ValueError /\ step c k = c.
Proof.
  intros S dims init out ks c k r dm H Ha Hr. assert (E : api c k = Err ValueError) by (eapply one_big; eassumption).
  split; [exact E | unfold step; rewrite E; reflexivity].
Qed.

Theorem C14_register_list_too_large :
  forall S dims init out ks (c : circuit S) u l dm,
  history (QList (map Z.of_nat dims)) init out ks c -> dm = None \/ dm = Some 0%Z ->
  (exists r, In r l /\ (Z.of_nat (length dims) <= r)%Z) ->
  api c (CGate u (RList l) dm) = Err ValueError.
Proof. intros S dims init out ks c u l dm H Hd Hr. eapply many_big; eassumption. Qed.

Theorem C14_toffoli_register_too_large :
  forall S dims init out ks (c : circuit S) cs t p,
  history (QList (map Z.of_nat dims)) init out ks c ->
  (exists r, In r (t :: cs) /\ (Z.of_nat (length dims) <= r)%Z) ->
  api c (CTof cs t p) = Err IndexError /\ step c (CTof cs t p) = c.
Proof.
  intros S dims init out ks c cs t p H Hr. assert (E : api c (CTof cs t p) = Err IndexError) by (eapply tof_big; eassumption).
  split; [exact E | unfold step; rewrite E; reflexivity].
Qed.

(** cx with one register on the line and one too large *)
Theorem C14_cx_register_too_large_never_runs :
  forall S dims init out ks (c : circuit S) s t p,
  history (QList (map Z.of_nat dims)) init out ks c -> ~ In CMeasureAll ks ->
  (0 <= Z.min s t < Z.of_nat (length dims))%Z -> (Z.of_nat (length dims) <= Z.max s t)%Z ->
  accepted_but_never_runs c (CCX [s; t] p).
Proof.
  intros S dims init out ks c s t p H Hm Hs Ht. apply (@bad_cx S dims init out ks c H Hm s t p).
  - intros ->. simpl in *. lia.
  - exists (Z.to_nat (Z.min s t)). lia.
  - unfold outside. lia.
Qed.

(** ** C15: calls on negative registers return True and do nothing; so does cx
    on two registers beyond the end. *)
Theorem C15_dropped_calls_return_True :
  forall S dims init out ks (c : circuit S) k, dims <> [] ->
  history (QList (map Z.of_nat dims)) init out ks c -> ~ In CMeasureAll ks ->
  dropped (length dims) k -> exists c', api c k = Ok (c', true).
Proof. intros S dims init out ks c k Hne H Hm Hk. eapply dropped_accepted; eassumption. Qed.

Theorem C15_dropped_calls_have_no_effect :
  forall S (L : scalar_laws S) (B : backend S) dims levels out ty me ks1 ks2 prog1 prog2 k c,
  supported B -> line dims levels -> wants dims out ty me -> reads dims ks1 prog1 -> reads dims ks2 prog2 ->
  dropped (length dims) k ->
  history (QList (map Z.of_nat dims)) (Some (map Z.of_nat levels)) out ks1 c ->
  run B (after c (k :: ks2 ++ [CMeasureAll])) = run B (after c (ks2 ++ [CMeasureAll])).
Proof.
  intros S L B dims levels out ty me ks1 ks2 prog1 prog2 k c HB HL Hw H1 H2 Hk [c0 [E ->]].
  assert (Hs : skipped dims k) by (apply dropped_skipped; exact Hk).
  transitivity (Ok (report ty me (answer dims (final dims (prog1 ++ prog2) (basis S (start dims levels)))))).
  - rewrite <- (C01_rejected_and_ignored_calls_leave_no_trace S L B dims levels out ty me (ks1 ++ k :: ks2) (prog1 ++ prog2)
      (after c0 (ks1 ++ k :: ks2)) HB HL Hw).
    + rewrite <- !after_app, <- !app_assoc. reflexivity.
    + apply reads_app; [exact H1 | apply reads_skip; assumption].
    + exists c0. auto.
  - rewrite <- (C01_rejected_and_ignored_calls_leave_no_trace S L B dims levels out ty me (ks1 ++ ks2) (prog1 ++ prog2)
      (after c0 (ks1 ++ ks2)) HB HL Hw).
    + rewrite <- !after_app, <- !app_assoc. reflexivity.
    + apply reads_app; assumption.
    + exists c0. auto.
Qed.

(** ** C30 *)
Theorem C30_target_among_controls_never_runs :
  forall S dims init out ks (c : circuit S) cs t p,
  history (QList (map Z.of_nat dims)) init out ks c -> ~ In CMeasureAll ks ->
  (forall x, In x (t :: cs) -> x < length dims) -> In t cs -> (p mod Z.of_nat (nth t dims O) <> 0)%Z ->
  scalar_laws S -> accepted_but_never_runs c (CTof (map Z.of_nat cs) (Z.of_nat t) p).
Proof.
  intros S dims init out ks c cs t p H Hm Hx Ht Hp L. eapply bad_tof_target; eassumption.
Qed.

(** ** C32 *)
Theorem C32_single_register_gate_acts_as_its_matrix :
  forall S (L : scalar_laws S) (B : backend S) dims s r dm (M : mat S),
  supported B -> line dims s -> length s = length dims -> r < length dims -> dflt dims r dm ->
  mr M = nth r dims 0 -> mc M = nth r dims 0 ->
  orthonormal_rows S Nat.eqb (seq 0 (nth r dims 0)) (mget M) ->
  simulate B (QList (map Z.of_nat dims)) (Some (map Z.of_nat s)) None [CGate M (RInt (Z.of_nat r)) dm]
  = Ok (report OutPrint OutAmplitude
         (answer dims (fun t => if config_eqb (put s r (level t r)) t then mget M (level t r) (level s r) else s0))).
Proof.
  intros S L B dims s r dm M HB HL Hs Hr Hdm H1 H2 Hu.
  rewrite (C01_run_applies_gates_in_order S L B dims s None OutPrint OutAmplitude
    [CGate M (RInt (Z.of_nat r)) dm] [GU r (mget M)] HB HL); [|right; auto|].
  - do 2 f_equal. apply single_gate_answer; [exact L|]. destruct HL as [_ [_ [_ HL]]].
    unfold start in *. rewrite Hs, Nat.sub_diag, app_nil_r in *. split; [exact HL | reflexivity].
  - split; constructor; try constructor; auto; intros; reflexivity.
Qed.

Theorem C32_bad_matrix_raises :
  forall S (L : scalar_laws S) (B : backend S) dims levels out ty me ks1 ks2 r dm u e prog1 prog2,
  supported B -> line dims levels -> wants dims out ty me -> asks dims ks1 prog1 -> asks dims ks2 prog2 ->
  r < length dims -> dflt dims r dm ->
  (is_unitary u = false /\ e = PlainException \/
   is_unitary u = true /\ (mr u <> nth r dims 0 \/ mc u <> nth r dims 0) /\ e = AssertionError) ->
  simulate B (QList (map Z.of_nat dims)) (Some (map Z.of_nat levels)) out
           (ks1 ++ CGate u (RInt (Z.of_nat r)) dm :: ks2) = Err e.
Proof.
  intros S L B dims levels out ty me ks1 ks2 r dm u e prog1 prog2 HB [H1 [H2 [H3 H4]]] Hw [A1 A2] [A3 A4] Hr Hdm Hu.
  rewrite (supported_sim S L) by exact HB.
  eapply exact_arb1; eassumption.
Qed.

Theorem C32_bad_matrix_never_runs :
  forall S dims init out ks (c : circuit S) r dm u,
  history (QList (map Z.of_nat dims)) init out ks c -> ~ In CMeasureAll ks ->
  r < length dims -> dflt dims r dm -> is_unitary u = false \/ mr u <> nth r dims 0 \/ mc u <> nth r dims 0 ->
  accepted_but_never_runs c (CGate u (RInt (Z.of_nat r)) dm).
Proof. intros S dims init out ks c r dm u H Hm Hr Hdm Hu. exact (@bad_arb1 S dims init out ks c H Hm r dm u Hr Hdm Hu). Qed.

(** ** C33 *)
Theorem C33_two_register_gate_never_runs :
  forall S dims init out ks (c : circuit S) a b dm u,
  history (QList (map Z.of_nat dims)) init out ks c -> ~ In CMeasureAll ks ->
  dm = None \/ dm = Some 0%Z -> a < length dims -> b < length dims ->
  accepted_but_never_runs c (CGate u (RList [Z.of_nat a; Z.of_nat b]) dm).
Proof. intros S dims init out ks c a b dm u H Hm Hdm Ha Hb. exact (@bad_arb2 S dims init out ks c H Hm a b dm u Hdm Ha Hb). Qed.

Theorem C33_two_register_gate_raises :
  forall S (L : scalar_laws S) (B : backend S) dims levels out ty me ks1 ks2 a b dm u prog1 prog2,
  supported B -> line dims levels -> wants dims out ty me -> asks dims ks1 prog1 -> asks dims ks2 prog2 ->
  a < length dims -> b < length dims -> dm = None \/ dm = Some 0%Z ->
  simulate B (QList (map Z.of_nat dims)) (Some (map Z.of_nat levels)) out
           (ks1 ++ CGate u (RList [Z.of_nat a; Z.of_nat b]) dm :: ks2)
  = Err (if is_unitary u then AssertionError else PlainException).
Proof.
  intros S L B dims levels out ty me ks1 ks2 a b dm u prog1 prog2 HB [H1 [H2 [H3 H4]]] Hw [A1 A2] [A3 A4] Ha Hb Hdm.
  rewrite (supported_sim S L) by exact HB.
  eapply exact_arb2; eauto.
Qed.

Theorem C33_two_register_toffoli_never_runs :
  forall S dims init out ks (c : circuit S) cs t p,
  history (QList (map Z.of_nat dims)) init out ks c -> ~ In CMeasureAll ks ->
  (forall x, In x (t :: cs) -> x < length dims) -> spans_two (t :: cs) ->
  accepted_but_never_runs c (CTof (map Z.of_nat cs) (Z.of_nat t) p).
Proof. intros S dims init out ks c cs t p H Hm Hx Hs. exact (@bad_tof2 S dims init out ks c H Hm cs t p Hx Hs). Qed.

(** ** C34 *)
Theorem C34_register_order_is_ignored :
  forall S (B : backend S) dims init out ks (c : circuit S) u l l' ks',
  history (QList (map Z.of_nat dims)) init out ks c ->
  3 <= length l -> 3 <= length l' -> (forall x, In x l <-> In x l') -> (forall x, In x l -> x < length dims) ->
  run B (after c (CGate u (RList (map Z.of_nat l)) None :: ks'))
  = run B (after c (CGate u (RList (map Z.of_nat l')) None :: ks')).
Proof. intros S B dims init out ks c u l l' ks' H H1 H2 H3 H4. eapply span_order; eassumption. Qed.

(** ** Concrete cases *)
Section Examples.
Open Scope Z_scope.
Let S := Zscalar.
Let dims : list nat := [2; 3; 2]%nat.
Let q := QList [2; 3; 2].
Let c0 : circuit S := forced (mk_circuit S q (Some [1]) None).
Let calls : list (call S) :=
  [CX 1 None 2; CX 7 None 1; CX (-1) None 1; CH 0 (Some 9); CCX [-1; -2] 1; CMeasure 0; CTof [0; 1] 3 1;
   CCX [3; 4] 1; CCX [1; 2] 1].
Let c : circuit S := after c0 calls.

Example ex_history : history q (Some [1]) None calls c /\ ~ In CMeasureAll calls.
Proof.
  split; [exists c0; split; [apply forced_ok; vm_compute; reflexivity | reflexivity]|].
  intros H. simpl in H. repeat (destruct H as [H|H]; [discriminate|]). contradiction.
Qed.

Example ex_line : line dims [1]%nat.
Proof.
  split; [discriminate|]. split; [intros d [<-|[<-|[<-|[]]]]; lia|]. split; [simpl; lia|].
  repeat constructor.
Qed.

(** Seven of the nine calls are rejected or dropped. *)
Example ex_reads : reads dims calls [GX 1 2; GCX 1 2 1].
Proof.
  unfold calls. apply reads_gate; [apply (@den_x S dims 1); left; reflexivity | simpl; lia |].
  apply reads_skip; [apply (@sk_one S dims _ 7 None); [split; reflexivity | right; simpl; lia]|].
  apply reads_skip; [apply (@sk_one S dims _ (-1) None); [split; reflexivity | left; lia]|].
  apply reads_skip; [apply (@sk_dim S dims _ 0 9); [split; reflexivity | simpl; lia | simpl; lia]|].
  apply reads_skip; [apply sk_cx; right; left; intros r [<-|[<-|[]]]; lia|].
  apply reads_skip; [apply sk_measure|].
  apply reads_skip; [apply sk_tof; left; exists 3; split; [left; reflexivity | simpl; lia]|].
  apply reads_skip; [apply sk_cx; right; right; intros r [<-|[<-|[]]]; simpl; lia|].
  apply reads_gate; [apply (@den_cx S dims 1 2) | simpl; lia | apply reads_nil].
Qed.

Example ex_C01_history : run (NumpyBackend S) (after c [CMeasureAll]) = Ok [(LStr "|121>"%string, 1)].
Proof. vm_compute. reflexivity. Qed.

Example ex_C02_range : dflt dims 1 (Some 3) /\ (Z.of_nat (nth 1 dims O) <= 3) /\
  simulate (SparseBackend S) q (Some [1]) None [CX 0 None 1; CX 1 (Some 3) 3; CX 2 None 1] = Err IndexError /\
  simulate (SparseBackend S) q (Some [1]) None [CX 0 None 1; CX 1 (Some 3) (-4); CX 2 None 1] = Err IndexError.
Proof. split; [right; right; reflexivity|]. split; [simpl; lia|]. split; vm_compute; reflexivity. Qed.

Example ex_C14 :
  flag (api c (CH 3 None)) = Err ValueError /\ flag (api c (CGate (deye S 2 2) (RList [0; 5]) None)) = Err ValueError /\
  flag (api c (CTof [0; 1] 3 1)) = Err IndexError /\
  flag (api c (CCX [1; 3] 1)) = Ok true /\
  run (NumpyBackend S) (after c [CCX [1; 3] 1; CMeasureAll]) = Err IndexError.
Proof. repeat split; vm_compute; reflexivity. Qed.

Example ex_C15 : dropped (S := S) (length dims) (CX (-2) None 1) /\ dropped (S := S) (length dims) (CCX [-1; -7] 1) /\
  dropped (S := S) (length dims) (CCX [3; 8] 1) /\ flag (api c (CX (-2) None 1)) = Ok true /\
  run (NumpyBackend S) (after c [CX (-2) None 1; CCX [-1; -7] 1; CCX [3; 8] 1; CMeasureAll])
  = run (NumpyBackend S) (after c [CMeasureAll]).
Proof.
  split; [left; exists (-2), None; simpl; repeat split; auto; lia|].
  split; [right; exists (-1), (-7), 1; split; [reflexivity | lia]|].
  split; [right; exists 3, 8, 1; split; [reflexivity | simpl; lia]|].
  split; vm_compute; reflexivity.
Qed.

Example ex_C30 : (1 mod Z.of_nat (nth 1 dims O) <> 0) /\ flag (api c (CTof [0; 1; 2] 1 1)) = Ok true /\
  run (NumpyBackend S) (after c [CTof [0; 1; 2] 1 1; CX 0 None 1; CMeasureAll]) = Err PlainException.
Proof. split; [discriminate|]. split; vm_compute; reflexivity. Qed.

Let swap : mat S := {| mr := 2; mc := 2; md := ([[0; 1]; [1; 0]] : list (list (car S))) |}.
Let shear : mat S := {| mr := 2; mc := 2; md := ([[1; 1]; [0; 1]] : list (list (car S))) |}.

Example ex_C32 : orthonormal_rows S Nat.eqb (seq 0 2) (mget swap) /\ is_unitary shear = false /\ is_unitary swap = true /\
  simulate (NumpyBackend S) q (Some [1]) None [CGate swap (RInt 2) None] = Ok [(LStr "|101>"%string, 1)] /\
  simulate (NumpyBackend S) q (Some [1]) None [CX 0 None 1; CGate shear (RInt 2) None] = Err PlainException /\
  simulate (NumpyBackend S) q (Some [1]) None [CX 0 None 1; CGate swap (RInt 1) None] = Err AssertionError.
Proof.
  split; [|repeat split; vm_compute; reflexivity].
  intros i j Hi Hj. simpl in Hi, Hj. destruct i as [|[|i]]; [| |lia]; destruct j as [|[|j]]; try lia; reflexivity.
Qed.

Example ex_C33 : spans_two [1; 0]%nat /\
  run (NumpyBackend S) (after c [CGate (deye S 4 4) (RList [0; 2]) None; CMeasureAll]) = Err AssertionError /\
  run (NumpyBackend S) (after c [CTof [0] 1 1; CMeasureAll]) = Err AssertionError.
Proof.
  split; [|split; vm_compute; reflexivity].
  exists 0%nat. split; [right; left; reflexivity|]. split; [left; reflexivity|]. intros x [<-|[<-|[]]]; auto.
Qed.

(** The cyclic shift of the twelve basis states, on the registers in three orders. *)
Let cyc : mat S := mkmat 12 12 (fun i j : nat => if Nat.eqb i (Nat.modulo (j + 1) 12) then (1 : car S) else (0 : car S)).
Example ex_C34 :
  run (NumpyBackend S) (after c [CGate cyc (RList [0; 1; 2]) None; CMeasureAll]) = Ok [(LStr "|000>"%string, 1)] /\
  run (NumpyBackend S) (after c [CGate cyc (RList [2; 0; 1]) None; CMeasureAll]) = Ok [(LStr "|000>"%string, 1)].
Proof. split; vm_compute; reflexivity. Qed.
End Examples.

Print Assumptions C01_rejected_and_ignored_calls_leave_no_trace.
Print Assumptions C02_x_out_of_range_raises_IndexError.
Print Assumptions C02_x_out_of_range_never_runs.
Print Assumptions C14_single_register_too_large.
Print Assumptions C14_register_list_too_large.
Print Assumptions C14_toffoli_register_too_large.
Print Assumptions C14_cx_register_too_large_never_runs.
Print Assumptions C15_dropped_calls_return_True.
Print Assumptions C15_dropped_calls_have_no_effect.
Print Assumptions C30_target_among_controls_never_runs.
Print Assumptions C32_single_register_gate_acts_as_its_matrix.
Print Assumptions C32_bad_matrix_raises.
Print Assumptions C32_bad_matrix_never_runs.
Print Assumptions C33_two_register_gate_never_runs.
Print Assumptions C33_two_register_gate_raises.
Print Assumptions C33_two_register_toffoli_never_runs.
Print Assumptions C34_register_order_is_ignored.
