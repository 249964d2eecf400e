(** * Props_Fuse: a circuit on neighbouring registers can be handed over as one
    gate (C131). *)
From Coq Require Import String.
From Verif Require Import Py Scalar Mat Utils Gates Circuit Spec Calls Lib Run Refine Reversible PartsSpec Moved Product Jozsa RenameSpec EmbedSpec Embed EmbedRun Fuse Props_Run.
Set Implicit Arguments.
Local Open Scope nat_scope.

Section OneGate.
Variables (S : scalar) (L : scalar_laws S) (B : backend S) (dims levels : list nat) (out : option output) (ty : output_type) (me : output_method).
Variables (r k : nat) (ks1 ks ks' ks2 : list (call S)) (prog1 prog prog2 : list (gate S)).
Hypothesis HB : supported B.
Hypothesis HL : line dims levels.
Hypothesis Hw : wants dims out ty me.
Hypothesis Hk : k = 1 \/ 3 <= k.
Hypothesis Hr : r + k <= length dims.
Notation sub := (part (seq r k) dims).
Hypothesis A1 : asks dims ks1 prog1.
Hypothesis A2 : asks dims ks2 prog2.
Hypothesis A : asks sub ks prog.
Hypothesis A' : asks dims ks' (map (rename (fun i => r + i)) prog).
Let go := simulate B (QList (map Z.of_nat dims)) (Some (map Z.of_nat levels)) out.

Lemma renamed : map (rename (fun i => r + i)) prog = map (rename (fun i => nth i (seq r k) 0)) prog.
Proof.
  apply map_ext_in. intros g Hg. pose proof (proj2 A) as Ag. rewrite Forall_forall in Ag. apply Ag in Hg.
  assert (N : forall i, i < k -> r + i = nth i (seq r k) 0) by (intros i Hi; symmetry; apply seq_nth; exact Hi).
  destruct g as [q p|q|q|c t p|cs t p|q u|q n u]; cbn [gate_ok rename] in *; rewrite ?(sub_len dims r k) in Hg.
  - rewrite N by tauto. reflexivity.
  - rewrite N by tauto. reflexivity.
  - rewrite N by tauto. reflexivity.
  - rewrite !N by tauto. reflexivity.
  - rewrite N by tauto. f_equal. apply map_ext_in. intros c Hc. apply N. apply Hg, Hc.
  - rewrite N by tauto. reflexivity.
  - rewrite N by lia. reflexivity.
Qed.

Lemma alone : forall t, valid sub t ->
  simulate B (QList (map Z.of_nat sub)) (Some (map Z.of_nat t)) None ks = Ok (report OutPrint OutAmplitude (answer sub (final sub prog (basis S t)))).
Proof.
  intros t Ht. pose proof (valid_length Ht) as Lt.
  assert (Es : start sub t = t) by (unfold start; rewrite Lt, Nat.sub_diag; apply app_nil_r).
  etransitivity; [apply (C01_run_applies_gates_in_order S L B sub t None OutPrint OutAmplitude ks prog HB)|].
  - split; [unfold part; destruct k; [lia | discriminate]|]. split; [|split; [lia | rewrite Es; exact Ht]].
    intros d Hd. apply in_map_iff in Hd as [q [<- Hq]]. apply HL, nth_In. apply in_seq in Hq. lia.
  - right. auto.
  - exact A.
  - rewrite Es. reflexivity.
Qed.

Lemma one_gate : forall u M dm, (forall i j, valid sub i -> valid sub j -> u i j = final sub prog (basis S j) i) ->
  orthonormal_rows S config_eqb (all_configs sub) u -> holds_entries sub M u -> dm = None \/ dm = Some 0%Z ->
  go (ks1 ++ ks' ++ ks2) = go (ks1 ++ CGate M (RList (map Z.of_nat (seq r k))) dm :: ks2).
Proof.
  intros u M dm Hu Ho HM Hdm.
  assert (Ag : asks dims [CGate M (RList (map Z.of_nat (seq r k))) dm] [GSpan r k u]).
  { split; constructor; [|constructor| |constructor].
    - apply den_span; [exact Hdm | apply in_seq; lia | apply in_seq; lia | intros x Hx; apply in_seq in Hx; lia | rewrite seq_length; exact Hk|].
      rewrite <- part_span by exact Hr. exact HM.
    - cbn [gate_ok]. split; [lia|]. split; [exact Hr|]. rewrite <- part_span by exact Hr. exact Ho. }
  unfold go. rewrite (C01_run_applies_gates_in_order S L B dims levels out ty me _ _ HB HL Hw (asks_both A1 (asks_both A' A2))).
  change (CGate M (RList (map Z.of_nat (seq r k))) dm :: ks2) with ([CGate M (RList (map Z.of_nat (seq r k))) dm] ++ ks2).
  rewrite (C01_run_applies_gates_in_order S L B dims levels out ty me _ _ HB HL Hw (asks_both A1 (asks_both Ag A2))).
  do 2 f_equal. apply answer_ext. intros s Hs. rewrite !final_app. apply final_ext; [|exact Hs]. intros x Hx.
  rewrite renamed. apply (fused L); try assumption; try lia.
  - apply A.
  - rewrite <- renamed. apply A'.
  - intros g Hg. pose proof (proj2 A) as Ag'. rewrite Forall_forall in Ag'. apply Ag' in Hg. destruct g as [q p|q|q|c t p|cs t p|q v|q n v]; try exact I.
    cbn [gate_ok together] in *. rewrite (sub_len dims r k) in Hg. intros i Hi. rewrite !seq_nth by lia. lia.
Qed.
End OneGate.

(** ** C131 *)
Theorem C131_a_circuit_is_one_gate :
  forall S (L : scalar_laws S) (B : backend S) dims levels out ty me r k ks1 prog1 ks ks' prog ks2 prog2,
  let sub := part (seq r k) dims in
  supported B -> line dims levels -> wants dims out ty me -> k = 1 \/ 3 <= k -> r + k <= length dims ->
  asks dims ks1 prog1 -> asks dims ks2 prog2 ->
  asks sub ks prog -> asks dims ks' (map (rename (fun i => r + i)) prog) ->
  let go := simulate B (QList (map Z.of_nat dims)) (Some (map Z.of_nat levels)) out in
  exists l : config -> list (config * S),
    (forall t, valid sub t ->
       simulate B (QList (map Z.of_nat sub)) (Some (map Z.of_nat t)) None ks = Ok (report OutPrint OutAmplitude (l t)) /\
       forall s a, In (s, a) (l t) -> valid sub s) /\
    (orthonormal_rows S config_eqb (all_configs sub) (fun i j => listed (l j) i) ->
     forall M dm, holds_entries sub M (fun i j => listed (l j) i) -> dm = None \/ dm = Some 0%Z ->
       go (ks1 ++ ks' ++ ks2) = go (ks1 ++ CGate M (RList (map Z.of_nat (seq r k))) dm :: ks2)).
Proof.
  intros S L B dims levels out ty me r k ks1 prog1 ks ks' prog ks2 prog2 sub HB HL Hw Hk Hr A1 A2 A A' go.
  exists (fun t => answer sub (final sub prog (basis S t))). split.
  - intros t Ht. split; [exact (@alone S L B dims levels r k ks prog HB HL Hk Hr A t Ht) | intros s a; apply answer_valid].
  - intros Ho M dm HM Hdm. eapply one_gate; try eassumption. intros i j Hi Hj. apply (listed_answer L). exact Hi.
Qed.

(** A reversible circuit needs no test: its matrix is always accepted. *)
Theorem C131_reversible_circuits_are_one_gate :
  forall S (L : scalar_laws S) (B : backend S) dims levels out ty me r k ks1 prog1 ks ks' prog ks2 prog2,
  let sub := part (seq r k) dims in
  supported B -> line dims levels -> wants dims out ty me -> k = 1 \/ 3 <= k -> r + k <= length dims ->
  asks dims ks1 prog1 -> asks dims ks2 prog2 ->
  asks sub ks prog -> asks dims ks' (map (rename (fun i => r + i)) prog) -> (forall g, In g prog -> reversible g) ->
  let go := simulate B (QList (map Z.of_nat dims)) (Some (map Z.of_nat levels)) out in
  exists f : config -> config,
    (forall t, valid sub t -> valid sub (f t) /\
       simulate B (QList (map Z.of_nat sub)) (Some (map Z.of_nat t)) None ks = Ok (report OutPrint OutAmplitude [(f t, s1)])) /\
    forall M dm, holds_entries sub M (fun i j => if config_eqb (f j) i then s1 else s0) -> dm = None \/ dm = Some 0%Z ->
      go (ks1 ++ ks' ++ ks2) = go (ks1 ++ CGate M (RList (map Z.of_nat (seq r k))) dm :: ks2).
Proof.
  intros S L B dims levels out ty me r k ks1 prog1 ks ks' prog ks2 prog2 sub HB HL Hw Hk Hr A1 A2 A A' Hv go.
  assert (Hc : forallb (@is_classical S) prog = true).
  { apply forallb_forall. intros g Hg. apply Hv in Hg. destruct g; try contradiction; reflexivity. }
  exists (moves sub prog). split.
  - intros t Ht. destruct (final_reversible L Hc (proj2 A) Ht) as [E V]. split; [exact V|].
    etransitivity; [exact (@alone S L B dims levels r k ks prog HB HL Hk Hr A t Ht)|]. do 2 f_equal.
    etransitivity; [apply answer_ext; exact E | apply (answer_basis L V)].
  - intros M dm HM Hdm. eapply one_gate; try eassumption.
    + intros i j Hi Hj. destruct (final_reversible L Hc (proj2 A) Hj) as [E _]. rewrite E by exact Hi. reflexivity.
    + eapply (permuting L); [exact Hv | apply A | reflexivity].
Qed.

(** Two user gates on one register are the gate with the product of their matrices. *)
Theorem C131_matrices_multiply :
  forall S (L : scalar_laws S) (B : backend S) dims levels out ty me r ks1 prog1 ks2 prog2 (M1 M2 M : mat S) dm1 dm2 dm,
  supported B -> line dims levels -> wants dims out ty me -> asks dims ks1 prog1 -> asks dims ks2 prog2 ->
  dflt dims r dm1 -> dflt dims r dm2 -> dflt dims r dm ->
  (forall m, In m [M1; M2; M] -> mr m = nth r dims 0 /\ mc m = nth r dims 0 /\ gate_ok dims (GU r (mget m))) ->
  (forall i j, i < nth r dims 0 -> j < nth r dims 0 ->
     mget M i j = total S (fun x => smul (mget M2 i x) (mget M1 x j)) (seq 0 (nth r dims 0))) ->
  let go := simulate B (QList (map Z.of_nat dims)) (Some (map Z.of_nat levels)) out in
  let gate m d := CGate m (RInt (Z.of_nat r)) d in
  go (ks1 ++ gate M1 dm1 :: gate M2 dm2 :: ks2) = go (ks1 ++ gate M dm :: ks2).
Proof.
  intros S L B dims levels out ty me r ks1 prog1 ks2 prog2 M1 M2 M dm1 dm2 dm HB HL Hw A1 A2 D1 D2 D H E go gate.
  assert (G : forall m d, In m [M1; M2; M] -> dflt dims r d -> asks dims [gate m d] [GU r (mget m)]).
  { intros m d Hm Hd. destruct (H m Hm) as [Hm1 [Hm2 Hm3]]. split; constructor; [|constructor|exact Hm3|constructor].
    apply den_u; [exact Hd | exact Hm1 | exact Hm2 | reflexivity]. }
  assert (G1 : asks dims [gate M1 dm1] [GU r (mget M1)]) by (apply G; [simpl; auto | exact D1]).
  assert (G2 : asks dims [gate M2 dm2] [GU r (mget M2)]) by (apply G; [simpl; auto | exact D2]).
  assert (G3 : asks dims [gate M dm] [GU r (mget M)]) by (apply G; [simpl; auto | exact D]).
  unfold go. change (gate M1 dm1 :: gate M2 dm2 :: ks2) with (([gate M1 dm1] ++ [gate M2 dm2]) ++ ks2). change (gate M dm :: ks2) with ([gate M dm] ++ ks2).
  rewrite (C01_run_applies_gates_in_order S L B dims levels out ty me _ _ HB HL Hw (asks_both A1 (asks_both (asks_both G1 G2) A2))).
  rewrite (C01_run_applies_gates_in_order S L B dims levels out ty me _ _ HB HL Hw (asks_both A1 (asks_both G3 A2))).
  do 2 f_equal. apply answer_ext. intros s Hs. rewrite !final_app. apply final_ext; [|exact Hs]. intros t Ht. cbn [final].
  assert (Lr : r < length dims) by (apply (H M1); simpl; auto). apply (product_of_two L); [exact Lr | exact E | exact Ht].
Qed.

(** ** Concrete cases *)
Section Examples.
Let S := Zscalar.
Let go (ks : list (call S)) := simulate (NumpyBackend S) (QList [2; 2; 3; 2; 2]%Z) (Some [1; 1; 2; 1; 0]%Z) None ks.

(** A cx and an x on the registers 1, 2, 3 of a line of five. *)
Let prog : list (gate S) := [GCX 0 2 1; GX 1 2].
Let u (i j : config) : S := if config_eqb (moves [2; 3; 2] prog j) i then 1%Z else 0%Z.
Let M : mat S := mkmat 12 12 (fun i j => u (nth i (all_configs [2; 3; 2]) []) (nth j (all_configs [2; 3; 2]) [])).
Example ex_C131 :
  part (seq 1 3) [2; 2; 3; 2; 2] = [2; 3; 2] /\
  asks [2; 3; 2] [CCX [0; 2] 1; CX 1 None 2]%Z prog /\ (forall g, In g prog -> reversible g) /\
  asks [2; 2; 3; 2; 2] [CCX [1; 3] 1; CX 2 None 2]%Z (map (rename (fun i => 1 + i)) prog) /\
  holds_entries [2; 3; 2] M u /\
  go [CCX [1; 3] 1; CX 2 None 2; CCX [0; 4] 1]%Z = Ok [(LStr "|11101>", 1%Z)]%string /\
  go [CGate M (RList [1; 2; 3]) None; CCX [0; 4] 1]%Z = Ok [(LStr "|11101>", 1%Z)]%string.
Proof.
  split; [reflexivity|]. split; [|split; [|split; [|split; [|split; vm_compute; reflexivity]]]].
  - split.
    + constructor; [exact (@den_cx S [2; 3; 2] 0 2 1%Z)|]. constructor; [exact (@den_x S [2; 3; 2] 1 None 2%Z (or_introl eq_refl)) | constructor].
    + repeat (constructor; [cbn; lia|]). constructor.
  - intros g [<-|[<-|[]]]; simpl; auto.
  - split.
    + constructor; [exact (@den_cx S [2; 2; 3; 2; 2] 1 3 1%Z)|]. constructor; [exact (@den_x S [2; 2; 3; 2; 2] 2 None 2%Z (or_introl eq_refl)) | constructor].
    + repeat (constructor; [cbn; lia|]). constructor.
  - split; [reflexivity|]. split; [reflexivity|]. intros i j Hi Hj. unfold M. rewrite mget_mkmat by assumption. reflexivity.
Qed.

(** x(1), then an exchange of the levels 0 and 1 of a qutrit. *)
Example ex_C131_product :
  let A := mkmat (S := S) 3 3 (fun i j => if Nat.eqb i ((j + 1) mod 3) then 1%Z else 0%Z) in
  let E := mkmat (S := S) 3 3 (fun i j => if Nat.eqb i (nth j [1; 0; 2] 0) then 1%Z else 0%Z) in
  let P := mkmat (S := S) 3 3 (fun i j => if Nat.eqb i (nth j [0; 2; 1] 0) then 1%Z else 0%Z) in
  (forall i j, i < 3 -> j < 3 -> mget P i j = total S (fun x => smul (mget E i x) (mget A x j)) (seq 0 3)) /\
  (forall m, In m [A; E; P] -> gate_ok [2; 2; 3; 2; 2] (GU 2 (mget m))) /\
  go [CGate A (RInt 2) None; CGate E (RInt 2) None]%Z = Ok [(LStr "|11110>", 1%Z)]%string /\
  go [CGate P (RInt 2) None]%Z = Ok [(LStr "|11110>", 1%Z)]%string.
Proof.
  intros A E P. split; [|split; [|split; vm_compute; reflexivity]].
  - intros i j Hi Hj. destruct i as [|[|[|i]]]; try lia; destruct j as [|[|[|j]]]; try lia; reflexivity.
  - intros m Hm. split; [simpl; lia|]. intros i j Hi Hj. apply in_seq in Hi, Hj. simpl in Hi, Hj.
    destruct Hm as [<-|[<-|[<-|[]]]]; destruct i as [|[|[|i]]]; try lia; destruct j as [|[|[|j]]]; try lia; vm_compute; reflexivity.
Qed.
End Examples.

Print Assumptions C131_a_circuit_is_one_gate.
Print Assumptions C131_reversible_circuits_are_one_gate.
Print Assumptions C131_matrices_multiply.
