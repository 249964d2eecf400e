(** * Props_Had: the dimensions in which h is unitary (C106).  np.roots takes the
    eigenvalues of a real matrix, which LAPACK returns with conjugate pairs side
    by side, the one above the real axis first ([paired]). *)
From Coq Require Import Reals Lra Lia Permutation.
From Verif Require Import Py Scalar Mat Utils Gates Circuit Spec Calls Complex ComplexSpec RoundSpec HadSpec Lib Kern GateMat
  Layers Refine Run Local Unitary ComplexLib ComplexGates ComplexRun CNorm HadLib HadOrder HadRun Props_Run.
Local Notation length := List.length.

(** ** C106 *)
Theorem C106_h_is_unitary_only_on_qubits_and_qutrits :
  forall ord, orders ord -> forall d, 2 <= d -> paired d (ord d) ->
  exists M : mat (Cscalar ord), h_unitary (Cscalar ord) (Z.of_nat d) = Ok M /\ mr M = d /\ mc M = d /\
  ((forall i j, i < d -> j < d ->
     total (Cscalar ord) (fun k => Cmul (mget M i k) (Cconj (mget M j k))) (seq 0 d) = (if Nat.eqb i j then C1 else C0))
   <-> one_last ord d /\ d <= 3).
Proof.
  intros ord Hord d Hd Hp. destruct (@h_unitary_spec _ (Cscalar_laws Hord) d ltac:(lia)) as [M [H2 [H3 [H4 H5]]]].
  exists M. repeat (split; [assumption|]).
  assert (R : forall i j, i < d -> j < d -> total (Cscalar ord) (fun k => Cmul (mget M i k) (Cconj (mget M j k))) (seq 0 d)
              = ctotal (fun k => Cmul (had (Cscalar ord) d i k) (Cconj (had (Cscalar ord) d j k))) (seq 0 d)).
  { intros i j Hi Hj. rewrite total_ctotal. apply ctotal_ext. intros k Hk. apply in_seq in Hk. rewrite !H5 by lia. reflexivity. }
  split.
  - intros U.
    assert (G : forall i j, i < d -> j < d -> i <> j -> gram (cyc d (ord d)) (d - 1) i j = C0).
    { intros i j Hi Hj Hn. specialize (U i j Hi Hj). rewrite R, rows_gram in U by assumption.
      apply Nat.eqb_neq in Hn. rewrite Hn in U. apply Cmul_eq_0 in U as [U|U]; [|exact U]. exfalso.
      apply (f_equal fst) in U. apply (Rinv_neq_0_compat (INR d)); [apply not_0_INR; lia | exact U]. }
    assert (H1 : one_last ord d) by (apply (orthogonal_one_last Hord Hd), G; lia).
    split; [exact H1|]. destruct (Nat.le_gt_cases d 3) as [H|H]; [exact H|]. exfalso.
    destruct (two_rows Hord H H1 Hp) as [i [j [Hi [Hj [Hn He]]]]]. apply He, G; assumption.
  - intros [H1 H] i j Hi Hj. rewrite R by assumption. rewrite <- (bsum_ctotal (ord := ord)).
    exact (proj2 (@had_unitary ord Hord d ltac:(lia) H1 i j Hi Hj)).
Qed.

Theorem C106_two_h_calls_can_gain_probability :
  forall ord, orders ord -> forall (B : backend (Cscalar ord)) dims levels out ty r,
  supported B -> line dims levels -> wants dims out ty OutAmplitude -> r < length dims ->
  let d := nth r dims 0 in
  4 <= d -> one_last ord d -> paired d (ord d) ->
  exists x l, x < d /\
    simulate B (QList (map Z.of_nat dims)) (Some (map Z.of_nat (put (start dims levels) r x))) out
      [CH (Z.of_nat r) None; CH (Z.of_nat r) None] = Ok l /\ (1 < prob_sum l)%R.
Proof.
  intros ord Hord B dims levels out ty r HB [Hne [Hd [Hlen Hv]]] Hw Hr d H4 H1 Hp.
  destruct (again_gains Hord H4 H1 Hp) as [x [Hx Hg]].
  pose proof (valid_length Hv) as Lv.
  set (s := put (start dims levels) r x) in *.
  assert (Hs : valid dims s) by (apply valid_put; assumption).
  assert (Es : start dims s = s).
  { unfold start. rewrite (valid_length Hs), Nat.sub_diag. apply app_nil_r. }
  assert (Hl : line dims s).
  { split; [exact Hne|]. split; [exact Hd|]. split; [rewrite (valid_length Hs); lia | rewrite Es; exact Hs]. }
  exists x. eexists. split; [exact Hx|]. split.
  - exact (C01_run_applies_gates_in_order _ (Cscalar_laws Hord) B dims s out ty OutAmplitude _ _ HB Hl Hw (asks_h ord dims r 2 Hr)).
  - rewrite (@prob_norm ord Hord), Es, (two_h_norm Hord) by assumption. unfold s. rewrite level_put, Nat.eqb_refl by lia. exact Hg.
Qed.

(** The order matters: with the roots of degree 5 in the order of the powers
    2^0, 2^1, 2^2, 2^3 (modulo 5) h would be unitary. *)
Definition power_ord (d : nat) : list nat :=
  match d with 5 => [1; 2; 4; 3; 0] | _ => seq 0 d end.

Theorem C106_pairing_is_needed :
  orders power_ord /\ one_last power_ord 5 /\ ~ paired 5 (power_ord 5) /\
  exists M : mat (Cscalar power_ord), h_unitary (Cscalar power_ord) 5 = Ok M /\
  forall i j, i < 5 -> j < 5 ->
    total (Cscalar power_ord) (fun k => Cmul (mget M i k) (Cconj (mget M j k))) (seq 0 5) = (if Nat.eqb i j then C1 else C0).
Proof.
  assert (Hord : orders power_ord).
  { intros d. destruct d as [|[|[|[|[|[|d]]]]]]; try apply Permutation_refl.
    apply NoDup_Permutation; [repeat constructor; simpl; intuition discriminate | apply seq_NoDup|]. intros x. simpl. tauto. }
  split; [exact Hord|]. split; [exists [1; 2; 4; 3]; reflexivity|]. split.
  { intros H. inversion H; subst; simpl in *; try discriminate; lia. }
  destruct (@h_unitary_spec _ (Cscalar_laws Hord) 5 ltac:(lia)) as [M [H2 [H3 [H4 H5]]]].
  exists M. split; [exact H2|]. intros i j Hi Hj.
  transitivity (ctotal (fun k => Cmul (had (Cscalar power_ord) 5 i k) (Cconj (had (Cscalar power_ord) 5 j k))) (seq 0 5)).
  { rewrite total_ctotal. apply ctotal_ext. intros k Hk. apply in_seq in Hk. rewrite !H5 by lia. reflexivity. }
  rewrite (rows_gram Hord) by lia.
  assert (D : INR 5 <> 0%R) by (apply not_0_INR; lia).
  destruct (Nat.eqb_spec i j) as [->|Hn].
  { rewrite (gram_diag power_ord) by lia. apply C_ext; cbn [Cmul fst snd C1]; field; exact D. }
  assert (G : gram (cyc 5 (power_ord 5)) (5 - 1) i j = C0).
  { pose proof (@roots_sum 5 ltac:(lia)) as S5. cbn [seq map Csum] in S5. rewrite root_0 in S5.
    assert (W : forall a b, b < 5 -> Cmul (root 5 a) (Cconj (root 5 b)) = root 5 ((a + (5 - b)) mod 5)).
    { intros a b Hb. rewrite <- root_conj by exact Hb. rewrite <- root_add.
      rewrite (Nat.div_mod_eq (a + (5 - b)) 5) at 1. rewrite root_add.
      replace (root 5 (5 * ((a + (5 - b)) / 5))) with C1; [apply C_ext; simpl; ring|].
      rewrite Nat.mul_comm, root_Cpow, root_full by lia. induction ((a + (5 - b)) / 5) as [|n IH]; [reflexivity|].
      simpl. rewrite <- IH. apply C_ext; simpl; ring. }
    pose proof (f_equal fst S5) as S1. pose proof (f_equal snd S5) as S2. cbn [Cadd C0 C1 fst snd] in S1, S2.
    assert (Q1 : forall a, Cmul C1 (Cconj (root 5 a)) = Cconj (root 5 a)) by (intros a; apply C_ext; simpl; ring).
    assert (Q2 : forall a, Cmul (root 5 a) (Cconj C1) = root 5 a) by (intros a; apply C_ext; simpl; ring).
    assert (Q3 : Cmul C1 (Cconj C1) = C1) by (apply C_ext; simpl; ring).
    unfold gram, ent, cyc, power_ord.
    destruct i as [|[|[|[|[|i]]]]]; try lia; destruct j as [|[|[|[|[|j]]]]]; try lia; try (exfalso; apply Hn; reflexivity);
      cbn [Nat.sub seq ctotal Nat.eqb orb Nat.add Nat.modulo Nat.divmod fst snd nth];
      rewrite ?Q1, ?Q2, ?Q3; rewrite ?W by lia; cbn [Nat.add Nat.sub Nat.modulo Nat.divmod fst snd];
      apply C_ext; cbn [Cadd Cconj C0 C1 fst snd]; lra. }
  rewrite G. apply C_ext; cbn [Cmul C0 fst snd]; ring.
Qed.

(** ** Concrete cases: orders of the roots up to degree 6 in which the
    conjugate pairs are side by side. *)
Definition lapack_ord (d : nat) : list nat :=
  match d with
  | 2 => [1; 0]
  | 3 => [1; 2; 0]
  | 4 => [2; 1; 3; 0]
  | 5 => [2; 3; 1; 4; 0]
  | 6 => [3; 2; 4; 1; 5; 0]
  | _ => seq 0 d
  end.

Lemma lapack_ord_orders : orders lapack_ord.
Proof.
  intros d. destruct d as [|[|[|[|[|[|[|d]]]]]]]; try apply Permutation_refl;
    (apply NoDup_Permutation; [repeat constructor; simpl; intuition discriminate | apply seq_NoDup|]; intros x; simpl; tauto).
Qed.
Lemma lapack_ord_ok : forall d, 2 <= d <= 6 -> one_last lapack_ord d /\ paired d (lapack_ord d).
Proof.
  intros d Hd. destruct d as [|[|[|[|[|[|[|d]]]]]]]; try lia; split;
    first [exists [1]; reflexivity | exists [1; 2]; reflexivity | exists [2; 1; 3]; reflexivity
          | exists [2; 3; 1; 4]; reflexivity | exists [3; 2; 4; 1; 5]; reflexivity | idtac]; simpl.
  - apply pd_real; [reflexivity|]. apply pd_real; [reflexivity | constructor].
  - apply (@pd_pair 3 1); [lia | lia|]. apply pd_real; [reflexivity | constructor].
  - apply pd_real; [reflexivity|]. apply (@pd_pair 4 1); [lia | lia|]. apply pd_real; [reflexivity | constructor].
  - apply (@pd_pair 5 2); [lia | lia|]. apply (@pd_pair 5 1); [lia | lia|]. apply pd_real; [reflexivity | constructor].
  - apply pd_real; [reflexivity|]. apply (@pd_pair 6 2); [lia | lia|]. apply (@pd_pair 6 1); [lia | lia|].
    apply pd_real; [reflexivity | constructor].
Qed.

(** Two registers of 5 and 6 levels: two h calls on the second one, from some
    level of it, report probabilities that add up to more than 1. *)
Example C106_case :
  exists x l, x < 6 /\
    simulate (SparseBackend (Cscalar lapack_ord)) (QList [5; 6]%Z) (Some [3; Z.of_nat x]%Z) None [CH 1 None; CH 1 None] = Ok l /\
    (1 < prob_sum l)%R.
Proof.
  assert (Hl : line [5; 6] [3]).
  { split; [discriminate|]. split; [intros d [<-|[<-|[]]]; lia|]. split; [simpl; lia | repeat constructor]. }
  destruct (lapack_ord_ok 6 ltac:(lia)) as [H1 H2].
  exact (C106_two_h_calls_can_gain_probability lapack_ord lapack_ord_orders _ [5; 6] [3] None OutPrint 1 (or_intror eq_refl) Hl
           (or_intror (conj eq_refl (conj eq_refl eq_refl))) ltac:(simpl; lia) ltac:(simpl; lia) H1 H2).
Qed.

(** On a qutrit the matrix is unitary, on five levels it is not. *)
Example C106_case_unitary :
  (exists M : mat (Cscalar lapack_ord), h_unitary (Cscalar lapack_ord) 3 = Ok M /\
     forall i j, i < 3 -> j < 3 ->
       total (Cscalar lapack_ord) (fun k => Cmul (mget M i k) (Cconj (mget M j k))) (seq 0 3) = (if Nat.eqb i j then C1 else C0)) /\
  (exists M : mat (Cscalar lapack_ord), h_unitary (Cscalar lapack_ord) 5 = Ok M /\
     ~ forall i j, i < 5 -> j < 5 ->
       total (Cscalar lapack_ord) (fun k => Cmul (mget M i k) (Cconj (mget M j k))) (seq 0 5) = (if Nat.eqb i j then C1 else C0)).
Proof.
  split.
  - destruct (lapack_ord_ok 3 ltac:(lia)) as [H1 H2].
    destruct (C106_h_is_unitary_only_on_qubits_and_qutrits lapack_ord lapack_ord_orders 3 ltac:(lia) H2) as [M [E [_ [_ H]]]].
    exists M. split; [exact E|]. apply H. split; [exact H1 | lia].
  - destruct (lapack_ord_ok 5 ltac:(lia)) as [H1 H2].
    destruct (C106_h_is_unitary_only_on_qubits_and_qutrits lapack_ord lapack_ord_orders 5 ltac:(lia) H2) as [M [E [_ [_ H]]]].
    exists M. split; [exact E|]. intros U. apply H in U. lia.
Qed.

Print Assumptions C106_h_is_unitary_only_on_qubits_and_qutrits.
Print Assumptions C106_two_h_calls_can_gain_probability.
Print Assumptions C106_pairing_is_needed.
