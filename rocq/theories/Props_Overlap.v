(** * Props_Overlap: probabilities of registers that no gate changes (C70), the
    overlap of two runs (C71), and renamed registers (C72).  Statements only. *)
From Coq Require Import Reals Lra Permutation String.
From Verif Require Import Py Scalar Mat Utils Gates Circuit Spec RenameSpec Calls Complex ComplexSpec ComplexLib OverlapSpec Lib Kern GateMat Layers Refine
  Run Reversible Outcome Local Unitary ComplexGates ComplexRun PartsSpec Parts Moved Overlap Rename Props_Run Props_Complex.
Local Notation length := List.length.

(** ** C70 *)

(** What is known about the levels of the registers [rs] is not affected by
    further calls whose gates change other registers only, used as controls or
    not. *)
Theorem C70_marginals_of_unchanged_registers :
  forall ord, orders ord -> one_last ord 2 -> one_last ord 3 ->
  forall (B : backend (Cscalar ord)) dims levels out ty ks1 ks2 prog1 prog2 rs P,
  supported B -> line dims levels -> wants dims out ty OutAmplitude -> asks dims ks1 prog1 -> asks dims ks2 prog2 ->
  (forall g, In g prog2 -> exact dims g) ->
  (forall g r, In g prog2 -> In r rs -> ~ In r (changes g)) -> reads rs P ->
  let go := simulate B (QList (map Z.of_nat dims)) (Some (map Z.of_nat levels)) out in
  exists l1 l2 : list (config * Cscalar ord),
    go ks1 = Ok (report ty OutAmplitude l1) /\ go (ks1 ++ ks2) = Ok (report ty OutAmplitude l2) /\
    (forall s a, In (s, a) (l1 ++ l2) -> valid dims s) /\ weight P l1 = weight P l2.
Proof.
  intros ord Hord H2 H3 B dims levels out ty ks1 ks2 prog1 prog2 rs P HB Hl Hw A1 A2 He Hc HP go.
  exists (answer dims (final dims prog1 (basis (Cscalar ord) (start dims levels)))).
  exists (answer dims (final dims (prog1 ++ prog2) (basis (Cscalar ord) (start dims levels)))).
  split; [exact (C01_run_applies_gates_in_order _ (Cscalar_laws Hord) B dims levels out ty OutAmplitude ks1 prog1 HB Hl Hw A1)|].
  split; [exact (C01_run_applies_gates_in_order _ (Cscalar_laws Hord) B dims levels out ty OutAmplitude _ _ HB Hl Hw (asks_app ord dims ks1 ks2 prog1 prog2 A1 A2))|].
  split; [intros s a Hin; apply in_app_iff in Hin as [Hin|Hin]; revert Hin; apply answer_valid|].
  rewrite !(weight_norm Hord), final_app. destruct A2 as [_ A2]. symmetry. f_equal.
  apply (mask_norm (Cscalar_laws Hord)) with (rs := rs); try assumption; [apply Cconj_add | apply Cconj_mul |].
  intros g Hg. apply (exact_isometry ord Hord); [exact H2 | exact H3 | apply Hl | | apply He; exact Hg].
  rewrite Forall_forall in A2. apply A2. exact Hg.
Qed.

(** ** C71 *)

(** The overlap of two runs on one line does not change if the same exact gates
    are appended to both. *)
Theorem C71_exact_gates_keep_overlaps :
  forall ord, orders ord -> one_last ord 2 -> one_last ord 3 ->
  forall (B : backend (Cscalar ord)) dims levels levels' out ty ks1 ks1' ks2 prog1 prog1' prog2,
  supported B -> line dims levels -> line dims levels' -> wants dims out ty OutAmplitude ->
  asks dims ks1 prog1 -> asks dims ks1' prog1' -> asks dims ks2 prog2 -> (forall g, In g prog2 -> exact dims g) ->
  let go lv := simulate B (QList (map Z.of_nat dims)) (Some (map Z.of_nat lv)) out in
  exists l1 l1' l2 l2' : list (config * Cscalar ord),
    go levels ks1 = Ok (report ty OutAmplitude l1) /\ go levels' ks1' = Ok (report ty OutAmplitude l1') /\
    go levels (ks1 ++ ks2) = Ok (report ty OutAmplitude l2) /\ go levels' (ks1' ++ ks2) = Ok (report ty OutAmplitude l2') /\
    (forall s a, In (s, a) (l1 ++ l1' ++ l2 ++ l2') -> valid dims s) /\
    overlap (Cscalar ord) l2 l2' = overlap (Cscalar ord) l1 l1'.
Proof.
  intros ord Hord H2 H3 B dims levels levels' out ty ks1 ks1' ks2 prog1 prog1' prog2 HB Hl Hl' Hw A1 A1' A2 He go.
  exists (answer dims (final dims prog1 (basis (Cscalar ord) (start dims levels)))).
  exists (answer dims (final dims prog1' (basis (Cscalar ord) (start dims levels')))).
  exists (answer dims (final dims (prog1 ++ prog2) (basis (Cscalar ord) (start dims levels)))).
  exists (answer dims (final dims (prog1' ++ prog2) (basis (Cscalar ord) (start dims levels')))).
  split; [exact (C01_run_applies_gates_in_order _ (Cscalar_laws Hord) B dims levels out ty OutAmplitude ks1 prog1 HB Hl Hw A1)|].
  split; [exact (C01_run_applies_gates_in_order _ (Cscalar_laws Hord) B dims levels' out ty OutAmplitude ks1' prog1' HB Hl' Hw A1')|].
  split; [exact (C01_run_applies_gates_in_order _ (Cscalar_laws Hord) B dims levels out ty OutAmplitude _ _ HB Hl Hw (asks_app ord dims ks1 ks2 prog1 prog2 A1 A2))|].
  split; [exact (C01_run_applies_gates_in_order _ (Cscalar_laws Hord) B dims levels' out ty OutAmplitude _ _ HB Hl' Hw (asks_app ord dims ks1' ks2 prog1' prog2 A1' A2))|].
  split; [intros s a Hin; rewrite !in_app_iff in Hin; destruct Hin as [Hin|[Hin|[Hin|Hin]]]; revert Hin; apply answer_valid|].
  rewrite !(overlap_inner (Cscalar_laws Hord)), !final_app. apply (final_inner (Cscalar_laws Hord)); [apply Cconj_add | apply Cconj_mul |].
  destruct A2 as [_ A2]. intros g Hg. apply (exact_isometry ord Hord); [exact H2 | exact H3 | apply Hl | | apply He; exact Hg].
  rewrite Forall_forall in A2. apply A2. exact Hg.
Qed.

(** Different initial levels lead to orthogonal results. *)
Theorem C71_different_starts_stay_orthogonal :
  forall ord, orders ord -> one_last ord 2 -> one_last ord 3 ->
  forall (B : backend (Cscalar ord)) dims levels levels' out ty ks prog,
  supported B -> line dims levels -> line dims levels' -> wants dims out ty OutAmplitude ->
  asks dims ks prog -> (forall g, In g prog -> exact dims g) ->
  start dims levels <> start dims levels' ->
  let go lv := simulate B (QList (map Z.of_nat dims)) (Some (map Z.of_nat lv)) out ks in
  exists l l' : list (config * Cscalar ord),
    go levels = Ok (report ty OutAmplitude l) /\ go levels' = Ok (report ty OutAmplitude l') /\
    (forall s a, In (s, a) (l ++ l') -> valid dims s) /\ overlap (Cscalar ord) l l' = C0.
Proof.
  intros ord Hord H2 H3 B dims levels levels' out ty ks prog HB Hl Hl' Hw A He Hne go.
  exists (answer dims (final dims prog (basis (Cscalar ord) (start dims levels)))).
  exists (answer dims (final dims prog (basis (Cscalar ord) (start dims levels')))).
  split; [exact (C01_run_applies_gates_in_order _ (Cscalar_laws Hord) B dims levels out ty OutAmplitude ks prog HB Hl Hw A)|].
  split; [exact (C01_run_applies_gates_in_order _ (Cscalar_laws Hord) B dims levels' out ty OutAmplitude ks prog HB Hl' Hw A)|].
  split; [intros s a Hin; apply in_app_iff in Hin as [Hin|Hin]; revert Hin; apply answer_valid|].
  rewrite (overlap_inner (Cscalar_laws Hord)), (final_inner (Cscalar_laws Hord)); [| apply Cconj_add | apply Cconj_mul |].
  - rewrite (inner_basis (Cscalar_laws Hord)) by apply Hl. apply config_eqb_neq in Hne. rewrite Hne. reflexivity.
  - destruct A as [_ A]. intros g Hg. apply (exact_isometry ord Hord); [exact H2 | exact H3 | apply Hl | | apply He; exact Hg].
    rewrite Forall_forall in A. apply A. exact Hg.
Qed.

(** ** C72 *)

(** A circuit with its registers in another order, and calls naming them
    accordingly, has the same outcomes with their levels in that order. *)
Theorem C72_registers_can_be_renamed :
  forall S (L : scalar_laws S) (B : backend S) dims levels out out' ty me ks ks' prog f h,
  supported B -> line dims levels -> renaming (length dims) f h ->
  wants dims out ty me -> wants (rearrange h dims) out' ty me ->
  asks dims ks prog -> asks (rearrange h dims) ks' (map (rename f) prog) -> (forall g, In g prog -> together f g) ->
  exists l l',
    simulate B (QList (map Z.of_nat dims)) (Some (map Z.of_nat levels)) out ks = Ok (report ty me l) /\
    simulate B (QList (map Z.of_nat (rearrange h dims))) (Some (map Z.of_nat (rearrange h (start dims levels)))) out' ks' = Ok (report ty me l') /\
    (forall s a, In (s, a) l -> valid dims s) /\ Permutation l' (map (fun '(s, a) => (rearrange h s, a)) l).
Proof.
  intros S L B dims levels out out' ty me ks ks' prog f h HB HL R Hw Hw' A A' Ht.
  assert (Hs : valid dims (start dims levels)) by apply HL.
  pose proof (@re_valid _ _ _ R dims eq_refl (start dims levels) Hs) as Hs'.
  assert (Es : start (rearrange h dims) (rearrange h (start dims levels)) = rearrange h (start dims levels)).
  { unfold start at 1. rewrite (valid_length Hs'), Nat.sub_diag. apply app_nil_r. }
  assert (HL' : line (rearrange h dims) (rearrange h (start dims levels))).
  { destruct HL as [H1 [H2 _]]. split; [|split; [|split]].
    - intros E. apply H1. apply (f_equal (@length nat)) in E. rewrite re_length in E. destruct dims; [reflexivity | discriminate].
    - intros d Hd. unfold rearrange in Hd. apply in_map_iff in Hd as [q [<- Hq]]. apply in_seq in Hq. apply H2, nth_In. apply (proj2 R). lia.
    - rewrite (valid_length Hs'). lia.
    - rewrite Es. exact Hs'. }
  do 2 eexists. split; [exact (C01_run_applies_gates_in_order S L B dims levels out ty me ks prog HB HL Hw A)|].
  split; [exact (C01_run_applies_gates_in_order S L B _ _ out' ty me ks' _ HB HL' Hw' A')|].
  split; [intros s a; apply answer_valid|]. rewrite Es.
  apply (@re_answer S (length dims) f h R dims eq_refl). intros u Hu. destruct A as [_ A].
  apply (@re_final S L (length dims) f h R dims eq_refl); try assumption.
  intros v Hv. apply (@re_basis S (length dims) f h R); rewrite ?(valid_length Hs), ?(valid_length Hv); reflexivity.
Qed.

(** ** Non-trivial instances *)

(** A qubit in superposition controls a cx: each of its levels keeps the
    probability 1/2, and an h on the other qubit does not change that. *)
Example ex_C70 :
  let S := Cscalar np_ord in
  exists l, simulate (SparseBackend S) (QList [2; 2]%Z) (Some [0; 0]%Z) None [CH 0 None; CCX [0; 1]%Z 1; CH 1 None] = Ok (report OutPrint OutAmplitude l) /\
    weight (fun s => Nat.eqb (level s 0) 0) l = (1 / 2)%R.
Proof.
  intros S.
  assert (Hl : line [2; 2] [0; 0]).
  { split; [discriminate|]. split; [intros d [<-|[<-|[]]]; lia|]. split; [simpl; lia | repeat constructor]. }
  assert (Hw : wants [2; 2] None OutPrint OutAmplitude) by (right; repeat split).
  pose proof (C23_h_on_level_zero_is_uniform np_ord np_ord_orders (SparseBackend S) [2; 2] [0; 0] None OutPrint 0 (or_intror eq_refl) Hl Hw
    ltac:(simpl; lia) eq_refl) as E.
  destruct (C70_marginals_of_unchanged_registers np_ord np_ord_orders (np_ord_last 2 ltac:(lia)) (np_ord_last 3 ltac:(lia)) (SparseBackend S)
    [2; 2] [0; 0] None OutPrint [CH 0 None] [CCX [0; 1]%Z 1; CH 1 None] [GH 0] [GCX 0 1 1; GH 1] [0] (fun s => Nat.eqb (level s 0) 0))
    as [l1 [l2 [E1 [E2 [V W]]]]]; try assumption.
  - right. reflexivity.
  - split; [constructor; [apply (@den_h _ [2; 2] 0); left; reflexivity | constructor] | repeat constructor; simpl; lia].
  - split; [constructor; [apply (@den_cx _ [2; 2] 0 1)|]; constructor; [apply (@den_h _ [2; 2] 1); left; reflexivity | constructor] | repeat constructor; simpl; lia].
  - intros g [<-|[<-|[]]]; simpl; auto.
  - intros g r [<-|[<-|[]]] [<-|[]]; simpl; lia.
  - intros s t H. rewrite H; [reflexivity | left; reflexivity].
  - exists l2. split; [exact E2|]. rewrite <- W.
    assert (X : Ok (report OutPrint OutAmplitude l1) = Ok (map (fun j => (shown OutPrint [j; 0], (/ sqrt (INR 2), 0)%R)) (seq 0 2))) by (etransitivity; [symmetry; exact E1 | exact E]).
    injection X as E1'. clear E E1. rename E1' into E1.
    destruct l1 as [|[s a] [|[t b] [|x l1]]]; try discriminate E1. cbn [report map reported] in E1. injection E1 as Ea Ep Eb Eq.
    assert (Vs : valid [2; 2] s) by (apply (V s a); left; reflexivity).
    assert (Vt : valid [2; 2] t) by (apply (V t b); right; left; reflexivity).
    apply in_all_configs in Vs, Vt. cbn in Vs, Vt.
    destruct Vs as [<-|[<-|[<-|[<-|[]]]]]; try (vm_compute in Ea; discriminate Ea);
    destruct Vt as [<-|[<-|[<-|[<-|[]]]]]; try (vm_compute in Eb; discriminate Eb).
    subst a b. unfold weight, prob. cbn. unfold Cre, Cim. cbn.
    assert (Q : (sqrt (1 + 1) * sqrt (1 + 1) = 2)%R) by (rewrite sqrt_sqrt; lra).
    assert (N : (sqrt (1 + 1) <> 0)%R) by (intros Z; rewrite Z in Q; lra).
    field_simplify; [|exact N]. replace (sqrt (1 + 1) ^ 2)%R with 2%R by (rewrite <- Q; ring). lra.
Qed.

(** Two runs of h, cx and z from neighbouring levels of a qutrit. *)
Example ex_C71 :
  let S := Cscalar np_ord in
  exists l l', simulate (SparseBackend S) (QList [3; 2]%Z) (Some [1; 1]%Z) None [CH 0 None; CCX [0; 1]%Z 1; CZ 0 None] = Ok (report OutPrint OutAmplitude l) /\
    simulate (SparseBackend S) (QList [3; 2]%Z) (Some [2; 1]%Z) None [CH 0 None; CCX [0; 1]%Z 1; CZ 0 None] = Ok (report OutPrint OutAmplitude l') /\
    (forall s a, In (s, a) (l ++ l') -> valid [3; 2] s) /\ overlap S l l' = C0.
Proof.
  intros S.
  assert (Hl : forall x, x < 3 -> line [3; 2] [x; 1]).
  { intros x Hx. split; [discriminate|]. split; [intros d [<-|[<-|[]]]; lia|]. split; [simpl; lia|]. change (valid [3; 2] [x; 1]). constructor; [exact Hx | repeat constructor]. }
  apply (C71_different_starts_stay_orthogonal np_ord np_ord_orders (np_ord_last 2 ltac:(lia)) (np_ord_last 3 ltac:(lia)) (SparseBackend S)
    [3; 2] [1; 1] [2; 1] None OutPrint _ [GH 0; GCX 0 1 1; GZ 0] (or_intror eq_refl)); try (apply Hl; lia).
  - right. repeat split.
  - split; [|repeat constructor; simpl; lia].
    constructor; [apply (@den_h _ [3; 2] 0); left; reflexivity|]. constructor; [apply (@den_cx _ [3; 2] 0 1)|].
    constructor; [apply (@den_z _ [3; 2] 0); left; reflexivity | constructor].
  - intros g [<-|[<-|[<-|[]]]]; simpl; auto.
  - discriminate.
Qed.

Section Example_C72.
Open Scope Z_scope.
Let S := Zscalar.
(** Three registers turned round: register 0 becomes 2, 1 becomes 0, 2 becomes 1. *)
Let f (r : nat) : nat := match r with O => 2 | 1 => 0 | _ => 1 end%nat.
Let h (q : nat) : nat := match q with O => 1 | 1 => 2 | _ => 0 end%nat.
Let dims := [2; 3; 2]%nat.
Let prog : list (gate S) := [GH 0; GCX 0 1 2; GTof [0; 1] 2 1]%nat.

Example ex_C72 :
  renaming 3 f h /\ rearrange h dims = [3; 2; 2]%nat /\ Forall (gate_ok dims) prog /\
  map (rename f) prog = [GH 2; GCX 2 0 2; GTof [2; 0] 1 1]%nat /\ Forall (gate_ok (rearrange h dims)) (map (rename f) prog) /\
  simulate (NumpyBackend S) (QList [2; 3; 2]) (Some [1; 0; 0]) None [CH 0 None; CCX [0; 1] 2; CTof [0; 1] 2 1]
  = Ok [(LStr "|000>"%string, 1); (LStr "|121>"%string, -1)] /\
  simulate (NumpyBackend S) (QList [3; 2; 2]) (Some [0; 0; 1]) None [CH 2 None; CCX [2; 0] 2; CTof [2; 0] 1 1]
  = Ok [(LStr "|000>"%string, 1); (LStr "|211>"%string, -1)].
Proof.
  split; [split; intros [|[|[|r]]] Hr; simpl; lia|]. split; [reflexivity|].
  assert (G : forall ds a b c, List.length ds = 3%nat -> (a < 3 /\ b < 3 /\ c < 3 /\ a <> b /\ a <> c /\ b <> c)%nat -> gate_ok (S := S) ds (GTof [a; b]%nat c 1)).
  { intros ds a b c E [A1 [A2 [A3 [A4 [A5 A6]]]]]. cbn [gate_ok]. rewrite E. split; [intros x [<-|[<-|[]]]; assumption|]. split; [exact A3|].
    split; [intros [X|[X|[]]]; congruence|]. intros [lo [_ [_ X]]].
    assert (B1 := X a). assert (B2 := X b). assert (B3 := X c). simpl in B1, B2, B3. lia. }
  split; [constructor; [simpl; lia|]; constructor; [simpl; lia|]; constructor; [apply G; [reflexivity | lia] | constructor]|].
  split; [reflexivity|].
  split; [constructor; [simpl; lia|]; constructor; [simpl; lia|]; constructor; [apply (G _ 2 0 1)%nat; [reflexivity | lia] | constructor]|].
  split; vm_compute; reflexivity.
Qed.
End Example_C72.

Print Assumptions C70_marginals_of_unchanged_registers.
Print Assumptions C71_exact_gates_keep_overlaps.
Print Assumptions C71_different_starts_stay_orthogonal.
Print Assumptions C72_registers_can_be_renamed.
