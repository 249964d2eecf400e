(** * ComplexRun: runs with complex amplitudes. *)
From Coq Require Import Reals Lra Permutation.
From Verif Require Import Py Scalar Mat Utils Gates Circuit Spec Calls Complex ComplexSpec ComplexLib Lib Kern GateMat Layers Refine Run Reversible
  Outcome Local Unitary ComplexGates Props_Run.
Local Notation length := List.length.

Section Complex.
Variable ord : nat -> list nat.
Hypothesis Hord : orders ord.
Let CS := Cscalar ord.
Let LC : scalar_laws CS := Cscalar_laws Hord.

(** The answer for a state that is spread over the levels of one register. *)
Lemma spread_answer : forall dims s ty r (q : nat -> CS) psi, valid dims s -> r < length dims ->
  (forall t, valid dims t -> psi t = spread CS s r q t) ->
  (forall j, j < nth r dims 0 -> q j <> s0) ->
  report ty OutAmplitude (answer dims psi) = map (fun j => (shown ty (put s r j), q j)) (seq 0 (nth r dims 0)).
Proof.
  intros dims s ty r q psi Hs Hr Hf Hq. rewrite (@answer_ext CS dims psi _ Hf).
  rewrite (answer_spread LC q Hs Hr Hq). unfold report. rewrite map_map. reflexivity.
Qed.

Lemma prob_norm : forall dims ty (psi : config -> CS), prob_sum (report ty OutAmplitude (answer dims psi)) = Cre (norm CS dims psi).
Proof.
  intros dims ty psi. rewrite <- (norm_answer LC).
  induction (answer dims psi) as [|[s a] l IH]; [reflexivity|].
  transitivity (prob a + prob_sum (report ty OutAmplitude l))%R; [reflexivity|]. rewrite IH. unfold prob, Cre, Cim. simpl. ring.
Qed.

Lemma exact_isometry : forall dims g, one_last ord 2 -> one_last ord 3 -> (forall d, In d dims -> 2 <= d) ->
  gate_ok dims g -> exact dims g -> isometry CS dims (amp dims g).
Proof.
  intros dims g H2 H3 Hd Hg He.
  assert (Cl : reversible g -> isometry CS dims (classical CS (move dims g))).
  { intros Hr. apply (classical_isometry LC).
    - intros s Hs. destruct g; try contradiction; simpl in Hg |- *;
      [apply move_x_valid | apply move_cx_valid | apply move_tof_valid]; tauto.
    - intros s t Hs Ht E. rewrite <- (move_undo (S := CS) g Hr Hg Hs), <- (move_undo (S := CS) g Hr Hg Ht), E. reflexivity. }
  destruct g as [r p|r|r|c t p|cs t p|r u|r k u].
  - apply Cl. exact I.
  - apply (local_isometry LC); [exact Hg|]. intros i j Hi Hj. apply in_seq in Hi, Hj. rewrite <- bsum_total. simpl in He.
    refine (proj1 (@had_unitary ord Hord (nth r dims 0) He _ i j _ _)); [destruct He as [-> | ->]; assumption | lia | lia].
  - apply (local_isometry LC); [exact Hg|]. intros i j Hi Hj. apply in_seq in Hi, Hj. rewrite <- bsum_total.
    rewrite (@bsum_single CS LC _ _ _ i); [| apply seq_NoDup | apply in_seq; lia |].
    + rewrite Nat.eqb_refl. destruct (Nat.eqb_spec i j) as [<-|Hn].
      * cbn [sconj smul s1 CS Cscalar sroots]. unfold CS, Cscalar. cbn [sconj smul s1 s0 sroots].
        rewrite nth_indep with (d' := root (nth r dims 0) 0) by (rewrite map_length, (ord_length Hord); lia).
        rewrite map_nth. rewrite <- (root_norm (nth r dims 0) (nth i (ord (nth r dims 0)) 0)). apply C_ext; simpl; ring.
      * apply C_ext; simpl; ring.
    + intros k Hk Hn. rewrite (proj2 (Nat.eqb_neq k i)) by exact Hn. apply C_ext; simpl; ring.
  - apply Cl. exact He.
  - apply Cl. exact I.
  - apply (local_isometry LC); [apply Hg | exact He].
  - apply (span_isometry LC); [simpl in Hg; lia | exact He].
Qed.

(** ** The Z gate *)
Definition phase (d i : nat) : C := root d (nth i (ord d) 0).

Lemma roots_nth : forall d i, i < d -> nth i (sroots (s := CS) d) s0 = phase d i.
Proof.
  intros d i Hi. unfold CS, Cscalar, phase. cbn [sroots s0].
  rewrite nth_indep with (d' := root d 0) by (rewrite map_length, (ord_length Hord); exact Hi). apply map_nth.
Qed.

Lemma apply_z : forall dims r (psi : config -> CS) s, valid dims s -> r < length dims ->
  apply dims (GZ r) psi s = Cmul (phase (nth r dims 0) (level s r)) (psi s).
Proof.
  intros dims r psi s Hs Hr. pose proof (valid_level Hs Hr) as Hl. rewrite apply_kapply. unfold kapply. cbn [amp].
  rewrite (local_apply LC) by assumption.
  rewrite (@bsum_single CS LC _ _ _ (level s r)); [| apply seq_NoDup | apply in_seq; lia |].
  - rewrite Nat.eqb_refl, put_level, roots_nth by exact Hl. reflexivity.
  - intros j Hj Hn. rewrite (proj2 (Nat.eqb_neq _ _)) by congruence. apply C_ext; simpl; ring.
Qed.

Lemma root_neq_0 : forall d k, root d k <> C0.
Proof.
  intros d k E. pose proof (root_norm d k) as H. rewrite E in H. apply (f_equal fst) in H. simpl in H. lra.
Qed.

Lemma answer_phase : forall dims (f : config -> C) (psi psi' : config -> CS), (forall s, f s <> C0) ->
  (forall s, valid dims s -> psi' s = Cmul (f s) (psi s)) ->
  answer dims psi' = map (fun '(s, a) => (s, Cmul (f s) a)) (answer dims psi).
Proof.
  intros dims f psi psi' Hf H. unfold answer.
  assert (H' : forall s, In s (all_configs dims) -> psi' s = Cmul (f s) (psi s)) by (intros s Hs; apply H, in_all_configs; exact Hs).
  induction (all_configs dims) as [|s l IH]; [reflexivity|]. cbn [filter].
  rewrite (H' s (or_introl eq_refl)).
  replace (seqb (s := CS) (Cmul (f s) (psi s)) s0) with (seqb (psi s) s0).
  - destruct (seqb (psi s) s0); cbn [negb map]; rewrite IH by (intros; apply H'; right; assumption); [reflexivity|].
    rewrite (H' s (or_introl eq_refl)). reflexivity.
  - destruct (seqb (psi s) s0) eqn:E; symmetry.
    + apply (sl_eqb LC) in E. rewrite E. apply (sl_eqb LC). apply C_ext; simpl; ring.
    + destruct (seqb (s := CS) (Cmul (f s) (psi s)) s0) eqn:E'; [|reflexivity]. apply (sl_eqb LC) in E'.
      apply Cmul_eq_0 in E' as [E'|E']; [exfalso; exact (Hf s E')|]. rewrite <- E. symmetry. apply (sl_eqb LC). exact E'.
Qed.

Lemma z_repeat : forall dims r n (psi : config -> CS) s, valid dims s -> r < length dims ->
  final dims (repeat (GZ r) n) psi s = Cmul (Cpow (phase (nth r dims 0) (level s r)) n) (psi s).
Proof.
  intros dims r n; induction n as [|n IH]; intros psi s Hs Hr; cbn [repeat final Cpow].
  - apply C_ext; simpl; ring.
  - rewrite IH by assumption. rewrite apply_z by assumption. apply C_ext; simpl; ring.
Qed.

Lemma final_app : forall dims p1 p2 (psi : config -> CS), final dims (p1 ++ p2) psi = final dims p2 (final dims p1 psi).
Proof. intros dims p1; induction p1 as [|g p1 IH]; intros p2 psi; simpl; [reflexivity | apply IH]. Qed.

Lemma asks_app : forall dims ks1 ks2 p1 p2, asks (S := CS) dims ks1 p1 -> asks dims ks2 p2 -> asks dims (ks1 ++ ks2) (p1 ++ p2).
Proof. intros dims ks1 ks2 p1 p2 [H1 H2] [H3 H4]. split; [apply Forall2_app; assumption | apply Forall_app; split; assumption]. Qed.

Lemma asks_z : forall dims r n, r < length dims -> asks (S := CS) dims (repeat (CZ (Z.of_nat r) None) n) (repeat (GZ r) n).
Proof.
  intros dims r n Hr. split.
  - induction n; simpl; constructor; [apply den_z; left; reflexivity | assumption].
  - apply Forall_forall. intros g Hg. apply repeat_spec in Hg. subst. exact Hr.
Qed.

Lemma asks_h : forall dims r n, r < length dims -> asks (S := CS) dims (repeat (CH (Z.of_nat r) None) n) (repeat (GH r) n).
Proof.
  intros dims r n Hr. split.
  - induction n; simpl; constructor; [apply den_h; left; reflexivity | assumption].
  - apply Forall_forall. intros g Hg. apply repeat_spec in Hg. subst. exact Hr.
Qed.

End Complex.
