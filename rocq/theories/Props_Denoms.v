(** * Props_Denoms: the probabilities circuits of the library's gates can have
    (C117).  [ord] is the order in which the root finder returns the roots of
    unity; [prob] is the squared modulus of an amplitude. *)
From Coq Require Import String Reals Lra Znumtheory Zpow_facts.
From Verif Require Import Py Scalar Mat Utils Gates Circuit Spec Calls Complex ComplexSpec ComplexLib Lib Denoms Props_Run Props_Complex.
Local Notation length := List.length.
Local Open Scope nat_scope.

(** h and z on registers with 2 or 3 levels, x and toffoli anywhere, cx on two
    different registers. *)
Definition on_small {S} (dims : list nat) (g : gate S) : Prop :=
  match g with
  | GX _ _ | GTof _ _ _ => True
  | GCX c t _ => c <> t
  | GH r | GZ r => nth r dims 0 = 2 \/ nth r dims 0 = 3
  | GU _ _ | GSpan _ _ _ => False
  end.

(** The number of h calls on registers with [d] levels. *)
Definition h_calls {S} (dims : list nat) (d : nat) (prog : list (gate S)) : nat :=
  length (filter (fun g => match g with GH r => Nat.eqb (nth r dims 0) d | _ => false end) prog).

(** ** C117: every probability is a positive multiple of 1/(2^a 3^b), for a h
    calls on qubits and b on qutrits. *)
Theorem C117_denominators_of_probabilities :
  forall ord, orders ord -> forall (B : backend (Cscalar ord)) dims levels out ty ks prog ans,
  supported B -> line dims levels -> wants dims out ty OutAmplitude -> asks dims ks prog ->
  (forall g, In g prog -> on_small dims g) ->
  simulate B (QList (map Z.of_nat dims)) (Some (map Z.of_nat levels)) out ks = Ok ans ->
  forall lab a, In (lab, a) ans ->
  exists m, (0 < m)%Z /\ prob a = (IZR m / (2 ^ h_calls dims 2 prog * 3 ^ h_calls dims 3 prog))%R.
Proof.
  intros ord Hord B dims levels out ty ks prog ans HB HL Hw Ha Hg E lab a Hin.
  rewrite (C01_run_applies_gates_in_order _ (Cscalar_laws Hord) B dims levels out ty OutAmplitude ks prog HB HL Hw Ha) in E.
  injection E as <-. apply in_map_iff in Hin as [[t b] [Et Hin]]. injection Et as <- <-.
  unfold answer in Hin. apply in_map_iff in Hin as [t' [Et Hin]]. injection Et as -> <-.
  apply filter_In in Hin as [Hin Hz]. apply in_all_configs in Hin.
  destruct (@final_prob ord Hord dims prog (start dims levels) t (proj2 Ha)) as [m [Hm Hp]].
  - apply Forall_forall. intros g Hi. pose proof (Hg g Hi) as X. destruct g; exact X.
  - exact Hin.
  - cbn [reported]. exists m. split; [|exact Hp].
    destruct (Z.eq_dec m 0) as [->|Hn]; [exfalso|lia].
    assert (Z0 : prob (final dims prog (basis (Cscalar ord) (start dims levels)) t) = 0%R) by (rewrite Hp; unfold Rdiv; ring).
    unfold prob in Z0. assert (V : final dims prog (basis (Cscalar ord) (start dims levels)) t = C0).
    { unfold Cre, Cim in Z0. apply C_ext; cbn [C0 fst snd]; nra. }
    rewrite V in Hz. change (negb (seqb (s := Cscalar ord) C0 s0) = true) in Hz.
    assert (T : seqb (s := Cscalar ord) C0 s0 = true) by (apply (sl_eqb (Cscalar_laws Hord)); reflexivity).
    rewrite T in Hz. discriminate.
Qed.

(** There are at most 2^a 3^b outcomes. *)
Theorem C117_number_of_outcomes :
  forall ord, orders ord -> one_last ord 2 -> one_last ord 3 ->
  forall (B : backend (Cscalar ord)) dims levels out ty ks prog ans,
  supported B -> line dims levels -> wants dims out ty OutAmplitude -> asks dims ks prog ->
  (forall g, In g prog -> on_small dims g) ->
  simulate B (QList (map Z.of_nat dims)) (Some (map Z.of_nat levels)) out ks = Ok ans ->
  length ans <= 2 ^ h_calls dims 2 prog * 3 ^ h_calls dims 3 prog.
Proof.
  intros ord Hord H2 H3 B dims levels out ty ks prog ans HB HL Hw Ha Hg E.
  destruct (C27_total_probability_is_one ord Hord H2 H3 B dims levels out ty ks prog HB HL Hw Ha) as [ans' [E' P]].
  { intros g Hi. pose proof (Hg g Hi) as X. destruct g; try exact X; try exact I; contradiction. }
  rewrite E in E'. injection E' as <-.
  pose proof (C117_denominators_of_probabilities ord Hord B dims levels out ty ks prog ans HB HL Hw Ha Hg E) as D.
  set (a := h_calls dims 2 prog) in *. set (b := h_calls dims 3 prog) in *.
  assert (Q : (0 < 2 ^ a * 3 ^ b)%R) by (apply Rmult_lt_0_compat; apply pow_lt; lra).
  assert (G : forall l : list (label * C), (forall lab z, In (lab, z) l -> (/ (2 ^ a * 3 ^ b) <= prob z)%R) ->
    (INR (length l) * / (2 ^ a * 3 ^ b) <= prob_sum l)%R).
  { induction l as [|[lab z] l IH]; intros H; [unfold prob_sum; simpl; lra|].
    assert (X : (INR (length l) * / (2 ^ a * 3 ^ b) <= prob_sum l)%R) by (apply IH; intros lab' z' Hz; apply (H lab'); right; exact Hz).
    pose proof (H lab z (or_introl eq_refl)) as Y. cbn [Datatypes.length]. rewrite S_INR.
    change (prob_sum ((lab, z) :: l)) with (prob z + prob_sum l)%R. lra. }
  assert (X : (INR (length ans) * / (2 ^ a * 3 ^ b) <= 1)%R).
  { rewrite <- P. apply G. intros lab z Hz. destruct (D lab z Hz) as [m [Hm ->]].
    assert (1 <= IZR m)%R by (apply IZR_le; lia). unfold Rdiv. pose proof (Rinv_0_lt_compat _ Q). nra. }
  apply INR_le. rewrite mult_INR, !pow_INR. replace (INR 2) with 2%R by (simpl; ring). replace (INR 3) with 3%R by (simpl; ring).
  apply (Rmult_le_reg_r (/ (2 ^ a * 3 ^ b))); [apply Rinv_0_lt_compat; exact Q|]. rewrite Rinv_r by lra. exact X.
Qed.

(** Without h on a qutrit no outcome has probability 1/3 (or any other with 3
    in the denominator), and without h on a qubit none has probability 1/2. *)
Theorem C117_thirds_need_qutrits_halves_need_qubits :
  forall ord, orders ord -> forall (B : backend (Cscalar ord)) dims levels out ty ks prog ans,
  supported B -> line dims levels -> wants dims out ty OutAmplitude -> asks dims ks prog ->
  (forall g, In g prog -> on_small dims g) ->
  simulate B (QList (map Z.of_nat dims)) (Some (map Z.of_nat levels)) out ks = Ok ans ->
  forall lab a, In (lab, a) ans ->
  (h_calls dims 3 prog = 0 -> forall m n, (n mod 3 <> 0)%Z -> prob a <> (IZR n / (3 * IZR m))%R) /\
  (h_calls dims 2 prog = 0 -> forall m n, (n mod 2 <> 0)%Z -> prob a <> (IZR n / (2 * IZR m))%R).
Proof.
  intros ord Hord B dims levels out ty ks prog ans HB HL Hw Ha Hg E lab a Hin.
  destruct (C117_denominators_of_probabilities ord Hord B dims levels out ty ks prog ans HB HL Hw Ha Hg E lab a Hin) as [k [Hk ->]].
  assert (Q : forall c d, (0 < c)%Z -> (0 < d)%Z -> forall m n : Z, (IZR k / IZR d = IZR n / (IZR c * IZR m))%R -> (n <> 0)%Z -> (n * d = c * (k * m))%Z).
  { intros c d Hc Hd m n Eq Hn. assert (C' : (0 < IZR c)%R) by (apply IZR_lt; lia). assert (D' : (0 < IZR d)%R) by (apply IZR_lt; lia).
    destruct (Z.eq_dec m 0) as [->|Hm].
    - exfalso. replace (IZR c * 0)%R with 0%R in Eq by ring. unfold Rdiv in Eq. rewrite Rinv_0 in Eq.
      assert (0 < IZR k * / IZR d)%R by (apply Rmult_lt_0_compat; [apply IZR_lt; lia | apply Rinv_0_lt_compat; exact D']). lra.
    - assert (M' : IZR m <> 0%R) by (intros X; apply Hm, eq_IZR; exact X).
      apply eq_IZR. rewrite !mult_IZR. apply (f_equal (fun x => x * (IZR d * (IZR c * IZR m)))%R) in Eq.
      replace (IZR k / IZR d * (IZR d * (IZR c * IZR m)))%R with (IZR c * (IZR k * IZR m))%R in Eq by (field; lra).
      replace (IZR n / (IZR c * IZR m) * (IZR d * (IZR c * IZR m)))%R with (IZR n * IZR d)%R in Eq by (field; lra). lra. }
  assert (N : forall n c, (n mod c <> 0)%Z -> (n <> 0)%Z) by (intros n c X ->; apply X; apply Zmod_0_l).
  split; intros H0 m n Hn Eq; rewrite H0 in Eq; cbn [pow] in Eq.
  - rewrite Rmult_1_r, pow_IZR in Eq. specialize (Q 3%Z (2 ^ Z.of_nat (h_calls dims 2 prog))%Z ltac:(lia) ltac:(lia) m n Eq (N _ _ Hn)).
    assert (D : (3 | n)%Z).
    { apply (Gauss 3 (2 ^ Z.of_nat (h_calls dims 2 prog))); [exists (k * m)%Z; lia|].
      apply rel_prime_Zpower_r; [lia|]. apply bezout_rel_prime. apply (Bezout_intro 3 2 1 1 (-1)); reflexivity. }
    apply Hn. apply Zdivide_mod. exact D.
  - rewrite Rmult_1_l, pow_IZR in Eq. specialize (Q 2%Z (3 ^ Z.of_nat (h_calls dims 3 prog))%Z ltac:(lia) ltac:(lia) m n Eq (N _ _ Hn)).
    assert (D : (2 | n)%Z).
    { apply (Gauss 2 (3 ^ Z.of_nat (h_calls dims 3 prog))); [exists (k * m)%Z; lia|].
      apply rel_prime_Zpower_r; [lia|]. apply bezout_rel_prime. apply (Bezout_intro 2 3 1 (-1) 1); reflexivity. }
    apply Hn. apply Zdivide_mod. exact D.
Qed.

(** ** Concrete cases *)
Example ex_C117 : forall ord,
  let dims := [2; 3; 5] in
  let ks := [CH 0 None; CH 1 None; CCX [1; 0] 1; CZ 1 None; CX 2 None 4; CH 0 None]%Z : list (call (Cscalar ord)) in
  let prog := [GH 0; GH 1; GCX 1 0 1; GZ 1; GX 2 4; GH 0] : list (gate (Cscalar ord)) in
  asks dims ks prog /\ (forall g, In g prog -> on_small dims g) /\ line dims [1] /\ h_calls dims 2 prog = 2 /\ h_calls dims 3 prog = 1.
Proof.
  intros ord dims ks prog. split; [split|split; [|split; [|split; reflexivity]]].
  - constructor; [exact (@den_h _ dims 0 None (or_introl eq_refl))|]. constructor; [exact (@den_h _ dims 1 None (or_introl eq_refl))|].
    constructor; [exact (@den_cx _ dims 1 0 1%Z)|]. constructor; [exact (@den_z _ dims 1 None (or_introl eq_refl))|].
    constructor; [exact (@den_x _ dims 2 None 4%Z (or_introl eq_refl))|]. constructor; [exact (@den_h _ dims 0 None (or_introl eq_refl)) | constructor].
  - repeat (constructor; [cbn; lia|]). constructor.
  - intros g [<-|[<-|[<-|[<-|[<-|[<-|[]]]]]]]; cbn; auto.
  - split; [discriminate|]. split; [intros d [<-|[<-|[<-|[]]]]; lia|]. split; [cbn; lia | repeat constructor].
Qed.

(** With integers for amplitudes (h is not scaled): three h calls, the
    probabilities are 4/8, 1/8, 1/8, 1/8, 1/8. *)
Example ex_C117_run :
  simulate (NumpyBackend Zscalar) (QList [2; 2; 2]%Z) (Some []) None [CH 0 None; CH 1 None; CTof [0; 1] 2 1; CH 0 None]%Z
  = Ok [(LStr "|000>", 2%Z); (LStr "|010>", 1%Z); (LStr "|011>", 1%Z); (LStr "|110>", 1%Z); (LStr "|111>", (-1)%Z)]%string.
Proof. vm_compute. reflexivity. Qed.

(** The bound on the number of outcomes is reached. *)
Example ex_C117_all :
  simulate (NumpyBackend Zscalar) (QList [2; 2]%Z) (Some []) None [CH 0 None; CH 1 None]%Z
  = Ok (map (fun t => (LStr t, 1%Z)) ["|00>"; "|01>"; "|10>"; "|11>"]%string).
Proof. vm_compute. reflexivity. Qed.

Print Assumptions C117_denominators_of_probabilities.
Print Assumptions C117_number_of_outcomes.
Print Assumptions C117_thirds_need_qutrits_halves_need_qubits.
