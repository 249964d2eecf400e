(** * Props_Moved: what reversible gates do to the outcomes of the calls before
    them (C66, C67), reversible calls at the start (C68), and the controls of a
    Toffoli gate (C69).  Statements only. *)
From Coq Require Import String Permutation.
From Verif Require Import Py Scalar Mat Utils Gates Circuit Spec Calls Run Lib Refine Reversible Merge PartsSpec Parts Moved Props_Run.
Local Notation length := List.length.

(** ** C66 *)

(** After further reversible calls every outcome is reported at the place the
    gates move it to, with the amplitude it had. *)
Theorem C66_reversible_calls_move_the_outcomes :
  forall S (L : scalar_laws S) (B : backend S) dims levels out ty me ks1 ks2 prog1 prog2,
  supported B -> line dims levels -> wants dims out ty me -> asks dims ks1 prog1 -> asks dims ks2 prog2 ->
  (forall g, In g prog2 -> reversible g) ->
  let go := simulate B (QList (map Z.of_nat dims)) (Some (map Z.of_nat levels)) out in
  exists l1 l2, go ks1 = Ok (report ty me l1) /\ go (ks1 ++ ks2) = Ok (report ty me l2) /\
    (forall s a, In (s, a) l1 -> valid dims s) /\
    Permutation l2 (map (fun '(s, a) => (moves dims prog2 s, a)) l1).
Proof.
  intros S L B dims levels out ty me ks1 ks2 prog1 prog2 HB HL Hw [F1 O1] [F2 O2] Hr go.
  do 2 eexists. split; [|split; [|split]].
  - exact (C01_run_applies_gates_in_order S L B dims levels out ty me ks1 prog1 HB HL Hw (conj F1 O1)).
  - apply (C01_run_applies_gates_in_order S L B dims levels out ty me _ (prog1 ++ prog2) HB HL Hw).
    split; [apply Forall2_app; assumption | apply Forall_app; auto].
  - intros s a. apply (answer_valid S).
  - rewrite final_app. apply (answer_moves L); assumption.
Qed.

(** Three cx calls between two qubits exchange them. *)
Theorem C66_three_cx_swap_two_qubits :
  forall S (L : scalar_laws S) (B : backend S) dims levels out ty me ks prog a b,
  supported B -> line dims levels -> wants dims out ty me -> asks dims ks prog ->
  a < length dims -> b < length dims -> a <> b -> nth a dims 0 = 2 -> nth b dims 0 = 2 ->
  let go := simulate B (QList (map Z.of_nat dims)) (Some (map Z.of_nat levels)) out in
  let za := Z.of_nat a in let zb := Z.of_nat b in
  exists l1 l2, go ks = Ok (report ty me l1) /\
    go (ks ++ [CCX [za; zb] 1; CCX [zb; za] 1; CCX [za; zb] 1])%Z = Ok (report ty me l2) /\
    Permutation l2 (map (fun '(s, x) => (put (put s a (level s b)) b (level s a), x)) l1).
Proof.
  intros S L B dims levels out ty me ks prog a b HB HL Hw Ha H1 H2 Hn D1 D2 go za zb.
  destruct (C66_reversible_calls_move_the_outcomes S L B dims levels out ty me ks [CCX [za; zb] 1; CCX [zb; za] 1; CCX [za; zb] 1]%Z prog
    [GCX a b 1; GCX b a 1; GCX a b 1] HB HL Hw Ha) as [l1 [l2 [E1 [E2 [V P]]]]].
  - split; repeat constructor; assumption.
  - intros g [<-|[<-|[<-|[]]]]; simpl; congruence.
  - exists l1, l2. split; [exact E1|]. split; [exact E2|].
    erewrite map_ext_in; [exact P|]. intros [s x] Hin. rewrite swap_moves by (try assumption; exact (V s x Hin)). reflexivity.
Qed.

(** ** C67 *)

(** As long as register [b] is never at its top level, three cx calls through
    [b] act as one gate with the controls [a] (at its top level) and [b] (one
    below its top level), and [b] is back where it was. *)
Theorem C67_a_spare_level_replaces_an_ancilla :
  forall S (L : scalar_laws S) (B : backend S) dims levels out ty me ks prog a b t p q,
  supported B -> line dims levels -> wants dims out ty me -> asks dims ks prog ->
  a < length dims -> b < length dims -> t < length dims -> a <> b -> b <> t -> a <> t ->
  sums_to (nth b dims 0) 1 q 0 ->
  let go := simulate B (QList (map Z.of_nat dims)) (Some (map Z.of_nat levels)) out in
  let za := Z.of_nat a in let zb := Z.of_nat b in let zt := Z.of_nat t in
  exists l1 l2, go ks = Ok (report ty me l1) /\
    go (ks ++ [CCX [za; zb] 1; CCX [zb; zt] p; CCX [za; zb] q])%Z = Ok (report ty me l2) /\
    ((forall s x, In (s, x) l1 -> level s b + 1 < nth b dims 0) ->
     Permutation l2 (map (fun '(s, x) =>
       (if Nat.eqb (level s a + 1) (nth a dims 0) && Nat.eqb (level s b + 2) (nth b dims 0)
        then put s t (shift (nth t dims 0) (level s t) p) else s, x)) l1)).
Proof.
  intros S L B dims levels out ty me ks prog a b t p q HB HL Hw Ha H1 H2 H3 N1 N2 N3 Hq go za zb zt.
  destruct (C66_reversible_calls_move_the_outcomes S L B dims levels out ty me ks [CCX [za; zb] 1; CCX [zb; zt] p; CCX [za; zb] q]%Z prog
    [GCX a b 1; GCX b t p; GCX a b q] HB HL Hw Ha) as [l1 [l2 [E1 [E2 [V P]]]]].
  - split; repeat constructor; assumption.
  - intros g [<-|[<-|[<-|[]]]]; simpl; congruence.
  - exists l1, l2. split; [exact E1|]. split; [exact E2|]. intros Hb.
    erewrite map_ext_in; [exact P|]. intros [s x] Hin.
    rewrite (@raised_moves S dims a b t p q s H1 H2 H3 N1 N2 N3 (V s x Hin) Hq (Hb s x Hin)). reflexivity.
Qed.

(** ** C68 *)

(** Starting with x, cx and toffoli calls is the same as starting in the
    levels they lead to. *)
Theorem C68_reversible_start_is_an_initial_state :
  forall S (L : scalar_laws S) (B : backend S) dims levels out ty me ks1 ks2 prog1 prog2,
  supported B -> line dims levels -> wants dims out ty me -> asks dims ks1 prog1 -> asks dims ks2 prog2 ->
  forallb (@is_classical S) prog1 = true ->
  simulate B (QList (map Z.of_nat dims)) (Some (map Z.of_nat levels)) out (ks1 ++ ks2)
  = simulate B (QList (map Z.of_nat dims)) (Some (map Z.of_nat (moves dims prog1 (start dims levels)))) out ks2.
Proof.
  intros S L B dims levels out ty me ks1 ks2 prog1 prog2 HB HL Hw [F1 O1] [F2 O2] Hc.
  assert (Hv : valid dims (start dims levels)) by apply HL.
  destruct (final_reversible L Hc O1 Hv) as [E V].
  assert (Es : start dims (moves dims prog1 (start dims levels)) = moves dims prog1 (start dims levels)).
  { unfold start at 1. rewrite (valid_length V), Nat.sub_diag. apply app_nil_r. }
  assert (HL' : line dims (moves dims prog1 (start dims levels))).
  { destruct HL as [A1 [A2 _]]. split; [exact A1|]. split; [exact A2|]. rewrite Es. split; [rewrite (valid_length V); lia | exact V]. }
  rewrite (C01_run_applies_gates_in_order S L B dims levels out ty me (ks1 ++ ks2) (prog1 ++ prog2) HB HL Hw)
    by (split; [apply Forall2_app; assumption | apply Forall_app; auto]).
  rewrite (C01_run_applies_gates_in_order S L B dims _ out ty me ks2 prog2 HB HL' Hw (conj F2 O2)).
  do 2 f_equal. apply answer_ext. intros s Hs. rewrite Es, final_app. apply final_ext; [|exact Hs]. exact E.
Qed.

(** ** C69 *)

(** The order and number of times controls are named do not matter. *)
Theorem C69_toffoli_controls_are_a_set :
  forall S (L : scalar_laws S) (B : backend S) dims levels out ty me ks1 ks2 prog1 prog2 cs cs' t p,
  supported B -> line dims levels -> wants dims out ty me -> asks dims ks1 prog1 -> asks dims ks2 prog2 ->
  gate_ok (S := S) dims (GTof cs t p) -> (forall c, In c cs <-> In c cs') ->
  simulate B (QList (map Z.of_nat dims)) (Some (map Z.of_nat levels)) out (ks1 ++ CTof (map Z.of_nat cs) (Z.of_nat t) p :: ks2)
  = simulate B (QList (map Z.of_nat dims)) (Some (map Z.of_nat levels)) out (ks1 ++ CTof (map Z.of_nat cs') (Z.of_nat t) p :: ks2).
Proof.
  intros S L B dims levels out ty me ks1 ks2 prog1 prog2 cs cs' t p HB HL Hw A1 A2 Ho He.
  assert (Ho' : gate_ok (S := S) dims (GTof cs' t p)).
  { destruct Ho as [O1 [O2 [O3 O4]]]. split; [|split; [exact O2|split]].
    - intros c Hc. apply O1, He, Hc.
    - intros H. apply O3, He, H.
    - intros [lo [I1 [I2 I3]]]. apply O4. exists lo.
      assert (X : forall x, In x (t :: cs) <-> In x (t :: cs')) by (intros x; simpl; rewrite He; tauto).
      split; [apply X; exact I1|]. split; [apply X; exact I2|]. intros x Hx. apply I3, X, Hx. }
  destruct HL as [H1 [H2 [H3 H4]]], A1 as [F1 O1], A2 as [F2 O2].
  rewrite (supported_sim S L B _ _ _ (ks1 ++ CTof (map Z.of_nat cs) (Z.of_nat t) p :: ks2) HB).
  rewrite (supported_sim S L B _ _ _ (ks1 ++ CTof (map Z.of_nat cs') (Z.of_nat t) p :: ks2) HB).
  apply (@alike_simulate S L dims levels out ty me ks1 ks2 _ _ prog1 prog2 (GTof cs t p) (GTof cs' t p)); try assumption; try constructor; try reflexivity.
  intros u. cbn [move]. unfold move_tof. replace (forallb (top dims u) cs') with (forallb (top dims u) cs); [reflexivity|].
  apply Bool.eq_iff_eq_true. rewrite !forallb_forall. split; intros H x Hx; apply H, He, Hx.
Qed.

(** A Toffoli gate with one control is a cx, wherever both can be used. *)
Theorem C69_one_control_is_cx :
  forall S (L : scalar_laws S) (B : backend S) dims levels out ty me ks1 ks2 prog1 prog2 c t p,
  supported B -> line dims levels -> wants dims out ty me -> asks dims ks1 prog1 -> asks dims ks2 prog2 ->
  c < length dims -> t < length dims -> c + 1 < t \/ t + 1 < c ->
  simulate B (QList (map Z.of_nat dims)) (Some (map Z.of_nat levels)) out (ks1 ++ CTof [Z.of_nat c] (Z.of_nat t) p :: ks2)
  = simulate B (QList (map Z.of_nat dims)) (Some (map Z.of_nat levels)) out (ks1 ++ CCX [Z.of_nat c; Z.of_nat t] p :: ks2).
Proof.
  intros S L B dims levels out ty me ks1 ks2 prog1 prog2 c t p HB HL Hw A1 A2 Hc Ht Hf.
  destruct HL as [H1 [H2 [H3 H4]]], A1 as [F1 O1], A2 as [F2 O2].
  rewrite (supported_sim S L B _ _ _ (ks1 ++ CTof [Z.of_nat c] (Z.of_nat t) p :: ks2) HB).
  rewrite (supported_sim S L B _ _ _ (ks1 ++ CCX [Z.of_nat c; Z.of_nat t] p :: ks2) HB).
  apply (@alike_simulate S L dims levels out ty me ks1 ks2 _ _ prog1 prog2 (GTof [c] t p) (GCX c t p)); try assumption; try reflexivity.
  - apply (@den_tof S dims [c] t p).
  - constructor.
  - split; [intros x [<-|[]]; exact Hc|]. split; [exact Ht|]. split; [intros [E|[]]; lia|].
    intros [lo [I1 [I2 I3]]]. simpl in I1, I2. lia.
  - split; assumption.
  - intros u. cbn [move]. unfold move_tof, move_cx. cbn [forallb]. rewrite Bool.andb_true_r. reflexivity.
Qed.

(** ** Non-trivial instances *)
Section Examples.
Open Scope Z_scope.
Let S := Zscalar.
Let dims := [2; 3; 2]%nat.
Let levels := [1; 2]%nat.
Let go := simulate (NumpyBackend S) (QList (map Z.of_nat dims)) (Some (map Z.of_nat levels)) None.
Let h : call S := CH 0 None.
Let fork : list (call S) := [CCX [0; 1] 1; CX 2 None 1].
Let pfork : list (gate S) := [GCX 0 1 1; GX 2 1].

Lemma asks_fork : asks dims fork pfork.
Proof.
  split; [constructor; [apply (@den_cx S dims 0 1)|]; constructor; [apply (@den_x S dims 2); left; reflexivity | constructor]|].
  repeat constructor; simpl; lia.
Qed.
Lemma asks_h0 : asks dims [h] [GH (S := S) 0].
Proof. split; [constructor; [apply (@den_h S dims 0); left; reflexivity | constructor] | repeat constructor; simpl; lia]. Qed.

(** Both outcomes of the h are moved, the second by the cx as well. *)
Example ex_C66 :
  asks dims [h] [GH (S := S) 0] /\ asks dims fork pfork /\ (forall g, In g pfork -> reversible g) /\
  go [h] = Ok [(LStr "|020>"%string, 1); (LStr "|120>"%string, -1)] /\
  go ([h] ++ fork) = Ok [(LStr "|021>"%string, 1); (LStr "|101>"%string, -1)] /\
  map (fun s => moves dims pfork s) [[0; 2; 0]; [1; 2; 0]]%nat = [[0; 2; 1]; [1; 0; 1]]%nat /\
  (nth 0 dims 0 = 2 /\ nth 2 dims 0 = 2)%nat /\
  go [h; CCX [0; 2] 1; CCX [2; 0] 1; CCX [0; 2] 1] = Ok [(LStr "|020>"%string, 1); (LStr "|021>"%string, -1)].
Proof.
  split; [exact asks_h0|]. split; [exact asks_fork|]. split; [intros g [<-|[<-|[]]]; simpl; lia|].
  repeat split; vm_compute; reflexivity.
Qed.

(** A qutrit used as a second control: the target moves in the outcome with
    both levels 1 only, and the qutrit is left as it was. *)
Example ex_C67 :
  sums_to (nth 1 dims 0%nat) 1 2 0 /\
  simulate (NumpyBackend S) (QList [2; 3; 2]) (Some [1; 1; 0]) None [h]
  = Ok [(LStr "|010>"%string, 1); (LStr "|110>"%string, -1)] /\
  simulate (NumpyBackend S) (QList [2; 3; 2]) (Some [1; 1; 0]) None [h; CCX [0; 1] 1; CCX [1; 2] 1; CCX [0; 1] 2]
  = Ok [(LStr "|010>"%string, 1); (LStr "|111>"%string, -1)].
Proof. split; [exists 1; reflexivity|]. split; vm_compute; reflexivity. Qed.

Example ex_C68 :
  forallb (@is_classical S) pfork = true /\
  go (fork ++ [h]) = simulate (NumpyBackend S) (QList [2; 3; 2]) (Some [1; 0; 1]) None [h] /\
  go (fork ++ [h]) = Ok [(LStr "|001>"%string, 1); (LStr "|101>"%string, -1)].
Proof. repeat split; vm_compute; reflexivity. Qed.

Example ex_C69 :
  gate_ok (S := S) dims (GTof [1; 2]%nat 0 1) /\
  go [CX 2 None 1; CTof [1; 2] 0 1] = go [CX 2 None 1; CTof [2; 1; 2] 0 1] /\
  go [CX 2 None 1; CTof [1; 2] 0 1] = Ok [(LStr "|021>"%string, 1)] /\
  go [CTof [0] 2 1] = go [CCX [0; 2] 1] /\ go [CTof [0] 2 1] = Ok [(LStr "|121>"%string, 1)].
Proof.
  split; [|repeat split; vm_compute; reflexivity]. split; [intros c [<-|[<-|[]]]; simpl; lia|]. split; [simpl; lia|].
  split; [intros [H|[H|[]]]; lia|]. intros [lo [_ [_ H]]].
  assert (A := H 0%nat). assert (B := H 1%nat). assert (C := H 2%nat). simpl in *. lia.
Qed.
End Examples.

Print Assumptions C66_reversible_calls_move_the_outcomes.
Print Assumptions C66_three_cx_swap_two_qubits.
Print Assumptions C67_a_spare_level_replaces_an_ancilla.
Print Assumptions C68_reversible_start_is_an_initial_state.
Print Assumptions C69_toffoli_controls_are_a_set.
Print Assumptions C69_one_control_is_cx.
