(** * Props_Undo: circuits can be taken back with the gates of the library
    (C116).  [ord] is the order in which the root finder returns the roots of
    unity; [exact] excludes h on registers with more than 3 levels. *)
From Coq Require Import String Reals Lra.
From Verif Require Import Py Scalar Mat Utils Gates Circuit Spec Calls Complex ComplexSpec ComplexLib Lib Kern GateMat Layers Refine Run Reversible Outcome Local Unitary ComplexGates ComplexRun Undo Props_Run.
Local Notation length := List.length.

(** h, x, z, cx and toffoli calls; no matrices given to gate(). *)
Definition built_in {S} (g : gate S) : Prop :=
  match g with GX _ _ | GH _ | GZ _ | GCX _ _ _ | GTof _ _ _ => True | GU _ _ | GSpan _ _ _ => False end.

Lemma built_plain : forall ord (g : gate (Cscalar ord)), built_in g -> plain ord g.
Proof. intros ord g H. destruct g; try contradiction; exact I. Qed.

Lemma plain_built : forall ord (g : gate (Cscalar ord)), plain ord g -> built_in g.
Proof. intros ord g H. destruct g; try contradiction; exact I. Qed.

Lemma F2_length : forall A B (R : A -> B -> Prop) l m, Forall2 R l m -> length l = length m.
Proof. intros A B R l m H. induction H; simpl; congruence. Qed.

(** ** C116: for every list of such calls there is another one that takes it
    back, wherever in a circuit the two stand.  It needs at most as many calls
    for each one as the largest register has levels, or 3. *)
Theorem C116_every_circuit_can_be_taken_back :
  forall ord, orders ord -> one_last ord 2 -> one_last ord 3 ->
  forall dims ks prog, (forall d, In d dims -> 2 <= d) -> asks dims ks prog ->
  (forall g, In g prog -> exact dims g /\ built_in g) ->
  exists ks' prog', asks dims ks' prog' /\ (forall g, In g prog' -> exact dims g /\ built_in g) /\
  (forall m, 3 <= m -> (forall d, In d dims -> d <= m) -> length ks' <= m * length ks) /\
  forall (B : backend (Cscalar ord)) levels out ty me ks1 ks2 prog1 prog2,
  supported B -> line dims levels -> wants dims out ty me -> asks dims ks1 prog1 -> asks dims ks2 prog2 ->
  simulate B (QList (map Z.of_nat dims)) (Some (map Z.of_nat levels)) out (ks1 ++ ks ++ ks' ++ ks2)
  = simulate B (QList (map Z.of_nat dims)) (Some (map Z.of_nat levels)) out (ks1 ++ ks2).
Proof.
  intros ord Hord H2 H3 dims ks prog Hd [HF Hok] Hp.
  assert (G : Forall (fun g => gate_ok dims g /\ exact dims g /\ plain ord g) prog).
  { rewrite Forall_forall in Hok |- *. intros g Hg. split; [apply Hok, Hg|]. split; [apply Hp, Hg | apply built_plain, Hp, Hg]. }
  pose proof (backs_good ord dims prog Hd G) as G'.
  destruct (has_calls ord dims (backs ord dims prog)) as [ks' HF'].
  { eapply Forall_impl; [|exact G']. intros g [_ [_ X]]. exact X. }
  assert (Hok' : Forall (gate_ok dims) (backs ord dims prog)).
  { eapply Forall_impl; [|exact G']. intros g [X _]. exact X. }
  exists ks', (backs ord dims prog). split; [split; assumption|]. split; [|split].
  - rewrite Forall_forall in G'. intros g Hg. destruct (G' g Hg) as [_ [X Y]]. split; [exact X | apply (plain_built ord), Y].
  - intros m Hm Hdm. rewrite (F2_length _ _ _ _ _ HF'), (F2_length _ _ _ _ _ HF). apply backs_short; assumption.
  - intros B levels out ty me ks1 ks2 prog1 prog2 HB [L1 [L2 [L3 L4]]] Hw [A1 A2] [A3 A4].
    rewrite !(supported_sim _ (Cscalar_laws Hord) B) by exact HB.
    apply (@simulate_same _ (Cscalar_laws Hord) dims levels out ty me _ _ (prog1 ++ prog ++ backs ord dims prog ++ prog2) (prog1 ++ prog2));
      try assumption; try (repeat apply Forall2_app; assumption); try (repeat (apply Forall_app; split); assumption).
    intros psi s Hs. rewrite (app_assoc prog), !(@ComplexRun.final_app ord). apply final_ext; [|exact Hs].
    intros t Ht. rewrite <- (@ComplexRun.final_app ord). apply (backs_undo ord Hord H2 H3); assumption.
Qed.

(** In particular the circuit ends in the basis state it started from. *)
Theorem C116_back_to_the_start :
  forall ord, orders ord -> one_last ord 2 -> one_last ord 3 ->
  forall dims ks prog, (forall d, In d dims -> 2 <= d) -> asks dims ks prog ->
  (forall g, In g prog -> exact dims g /\ built_in g) ->
  exists ks', forall (B : backend (Cscalar ord)) levels out ty me,
  supported B -> line dims levels -> wants dims out ty me ->
  simulate B (QList (map Z.of_nat dims)) (Some (map Z.of_nat levels)) out (ks ++ ks')
  = Ok [(shown ty (start dims levels), s1)].
Proof.
  intros ord Hord H2 H3 dims ks prog Hd Ha Hp.
  destruct (C116_every_circuit_can_be_taken_back ord Hord H2 H3 dims ks prog Hd Ha Hp) as [ks' [prog' [_ [_ [_ E]]]]].
  exists ks'. intros B levels out ty me HB HL Hw.
  assert (N : asks (S := Cscalar ord) dims [] []) by (split; constructor).
  specialize (E B levels out ty me [] [] [] [] HB HL Hw N N). rewrite app_nil_r in E. etransitivity; [exact E|].
  etransitivity; [exact (C01_run_applies_gates_in_order _ (Cscalar_laws Hord) B dims levels out ty me [] [] HB HL Hw N)|].
  cbn [final]. rewrite (answer_basis (Cscalar_laws Hord)) by apply HL. cbn [report map]. do 3 f_equal.
  destruct me; [apply C_ext; simpl; ring | reflexivity].
Qed.

(** Two h calls on a qubit cancel, on a qutrit they exchange the levels 1 and
    2; four cancel. *)
Theorem C116_two_h_calls_negate_the_level :
  forall ord, orders ord -> forall (B : backend (Cscalar ord)) dims levels out ty me r,
  supported B -> line dims levels -> wants dims out ty me -> r < length dims ->
  let d := nth r dims 0 in let s := start dims levels in
  d = 2 \/ d = 3 -> one_last ord d ->
  simulate B (QList (map Z.of_nat dims)) (Some (map Z.of_nat levels)) out [CH (Z.of_nat r) None; CH (Z.of_nat r) None]
  = Ok [(shown ty (put s r ((d - level s r) mod d)), s1)].
Proof.
  intros ord Hord B dims levels out ty me r HB HL Hw Hr d s Hd H1.
  assert (Ha : asks (S := Cscalar ord) dims [CH (Z.of_nat r) None; CH (Z.of_nat r) None] [GH r; GH r]).
  { split; [repeat (constructor; [apply den_h; left; reflexivity|]); constructor | repeat (constructor; [exact Hr|]); constructor]. }
  etransitivity; [exact (C01_run_applies_gates_in_order _ (Cscalar_laws Hord) B dims levels out ty me _ _ HB HL Hw Ha)|].
  destruct HL as [_ [_ [_ Hv]]]. fold s in Hv. pose proof (valid_level Hv Hr) as Hl. fold d in Hl. pose proof (valid_length Hv) as Ln.
  assert (M : (d - level s r) mod d < d) by (apply Nat.mod_upper_bound; lia).
  assert (V : valid dims (put s r ((d - level s r) mod d))) by (apply valid_put; assumption).
  fold s. rewrite (@answer_ext _ dims _ (basis (Cscalar ord) (put s r ((d - level s r) mod d)))).
  - rewrite (answer_basis (Cscalar_laws Hord)) by exact V. cbn [report map]. do 3 f_equal.
    destruct me; [apply C_ext; simpl; ring | reflexivity].
  - intros t Ht. cbn [final]. rewrite (h_twice ord Hord) by assumption. fold d. unfold basis.
    pose proof (valid_level Ht Hr) as Lt. fold d in Lt. pose proof (valid_length Ht) as Lnt.
    assert (Q : config_eqb s (put t r (minus d (level t r))) = config_eqb (put s r (minus d (level s r))) t).
    { apply eq_true_iff_eq. rewrite !config_eqb_eq. split.
      - intros E. rewrite E at 1. rewrite put_put. rewrite E at 1. rewrite level_put, Nat.eqb_refl, minus_minus, put_level by lia. reflexivity.
      - intros E. rewrite <- E at 1. rewrite put_put. rewrite <- E at 1. rewrite level_put, Nat.eqb_refl, minus_minus, put_level by lia. reflexivity. }
    change ((d - level s r) mod d) with (minus d (level s r)). rewrite Q. reflexivity.
Qed.

(** ** Concrete cases *)
Example ex_C116 : forall ord,
  let dims := [3; 2; 4] in
  let ks := [CH 0 None; CCX [0; 1] 1; CH 1 None; CTof [0; 1] 2 3; CZ 2 None; CX 2 None (-4)]%Z : list (call (Cscalar ord)) in
  let prog := [GH 0; GCX 0 1 1; GH 1; GTof [0; 1] 2 3; GZ 2; GX 2 (-4)] : list (gate (Cscalar ord)) in
  asks dims ks prog /\ (forall g, In g prog -> exact dims g /\ built_in g) /\ line dims [2] /\ (forall d, In d dims -> 2 <= d).
Proof.
  intros ord dims ks prog. split; [split|split; [|split]].
  - constructor; [exact (@den_h _ dims 0 None (or_introl eq_refl))|]. constructor; [exact (@den_cx _ dims 0 1 1%Z)|].
    constructor; [exact (@den_h _ dims 1 None (or_introl eq_refl))|]. constructor; [exact (@den_tof _ dims [0; 1] 2 3%Z)|].
    constructor; [exact (@den_z _ dims 2 None (or_introl eq_refl))|].
    constructor; [exact (@den_x _ dims 2 None (-4)%Z (or_introl eq_refl)) | constructor].
  - constructor; [cbn; lia|]. constructor; [cbn; lia|]. constructor; [cbn; lia|]. constructor.
    { split; [intros c [<-|[<-|[]]]; cbn; lia|]. split; [cbn; lia|]. split; [intros [X|[X|[]]]; discriminate|].
      intros [lo [A [Bx C]]]. pose proof (C 0 (or_intror (or_introl eq_refl))). pose proof (C 1 (or_intror (or_intror (or_introl eq_refl)))).
      pose proof (C 2 (or_introl eq_refl)). lia. }
    constructor; [cbn; lia|]. constructor; [cbn; lia | constructor].
  - intros g [<-|[<-|[<-|[<-|[<-|[<-|[]]]]]]]; cbn; auto.
  - split; [discriminate|]. split; [intros d [<-|[<-|[<-|[]]]]; lia|]. split; [cbn; lia | repeat constructor].
  - intros d [<-|[<-|[<-|[]]]]; lia.
Qed.

(** With integers for amplitudes (h is not scaled) on a qubit: h is taken back
    by three more h, each pair multiplying by 2. *)
Example ex_C116_run :
  simulate (NumpyBackend Zscalar) (QList [2; 2]%Z) (Some [1]%Z) None
    ([CH 0 None; CCX [0; 1] 1; CZ 1 None] ++ [CZ 1 None; CCX [0; 1] (-1); CH 0 None; CH 0 None; CH 0 None])%Z
  = Ok [(LStr "|10>"%string, 4%Z)].
Proof. vm_compute. reflexivity. Qed.

(** h twice from level 1 of a qutrit ends in level 2. *)
Example ex_C116_qutrit : let s := start [3] [1] in put s 0 ((3 - level s 0) mod 3) = [2].
Proof. reflexivity. Qed.

Print Assumptions C116_every_circuit_can_be_taken_back.
Print Assumptions C116_back_to_the_start.
Print Assumptions C116_two_h_calls_negate_the_level.
