(** * TreeDepth: levels of the tree decomposition and the depth of the circuit
    built from it. *)
From Verif Require Import Py Scalar Mat Utils Gates Circuit Spec Calls HistSpec Lib Run Info InfoSpec DepthSpec InfoDepth
  Tree TreeSpec TreeLib TreeMap TreeRun TreeEnd TreeCount TreeGates.
Open Scope Z_scope.
Ltac Zify.zify_post_hook ::= Z.div_mod_to_equations.

Section Levels.
Variables c D : Z.
Hypothesis Hc : 2 <= c.
Hypothesis HD : Z.log2 c <= D.

Lemma zrange_length : forall a b, length (zrange a b) = Z.to_nat (b - a).
Proof. intros a b. unfold zrange. rewrite map_length, seq_length. reflexivity. Qed.

Lemma final_length : Z.of_nat (length (final_levels c D)) = 2 * D + 1.
Proof.
  assert (0 <= Z.log2 c) by apply Z.log2_nonneg.
  unfold final_levels, the_levels, the_reflection. rewrite !app_length, !map_length, rev_length, zrange_length. simpl length. lia.
Qed.

Lemma dec_nodes : forall v g, In g (decomp_gates (dec c v)) \/ In g (decomp_gates (rdec c v)) ->
  (g_control g = v * 2 \/ g_control g = v * 2 + 1) /\ (g_target g = v \/ g_target g = v * 2 + 1).
Proof.
  assert (K : forall v g, In g (decomp_gates (dec c v)) ->
    (g_control g = v * 2 \/ g_control g = v * 2 + 1) /\ (g_target g = v \/ g_target g = v * 2 + 1)).
  { intros v g Hg. unfold dec in Hg.
    destruct (v >? gp c); [destruct (v * 2 + 1 >? c) | destruct (v =? gp c)];
      unfold make_gates, mk_gate, decomp_gates in Hg; cbn [fst snd opt_list app] in Hg;
      repeat (destruct Hg as [<-|Hg]); try contradiction; cbn [g_control g_target]; auto. }
  intros v g [Hg|Hg]; [exact (K v g Hg)|]. apply rdec_flip in Hg as [h [Hh ->]]. exact (K v h Hh).
Qed.

Lemma same_level_apart : forall v w x, 1 <= v -> 1 <= w -> int c v = true -> int c w = true ->
  idx c D v = idx c D w -> v <> w ->
  (x = v \/ x = v * 2 \/ x = v * 2 + 1) -> (x = w \/ x = w * 2 \/ x = w * 2 + 1) -> False.
Proof.
  intros v w x Hv Hw Iv Iw E Hne X1 X2.
  assert (C : forall a b, 1 <= a -> int c b = true -> b = a * 2 \/ b = a * 2 + 1 -> idx c D b < idx c D a).
  { intros a b Ha Hb Hab. apply (@child_first c (fun _ => 0%nat)); [intros; lia | exact Ha | exact Hab | exact Hb]. }
  destruct X1 as [->|X1].
  - destruct X2 as [->|X2]; [contradiction|]. specialize (C w v Hw Iv X2). lia.
  - destruct X2 as [->|X2]; [specialize (C v w Hv Iw X1); lia|]. lia.
Qed.

Lemma nth_map : forall A B (f : A -> B) l i y, nth_error (map f l) i = Some y -> exists x, nth_error l i = Some x /\ y = f x.
Proof.
  intros A B f l; induction l as [|a l IH]; intros [|i] y H; simpl in *; try discriminate; [injection H as <-; eauto | apply IH; exact H].
Qed.

Lemma level_apart : forall level i j di dj g h x, In level (final_levels c D) ->
  nth_error level i = Some di -> nth_error level j = Some dj -> i <> j ->
  In g (decomp_gates di) -> In h (decomp_gates dj) ->
  (x = g_control g \/ x = g_target g) -> (x = g_control h \/ x = g_target h) -> False.
Proof.
  intros level i j di dj g h x Hl Hi Hj Hij Hg Hh X1 X2.
  assert (K : forall (f : Z -> decomp) k, (forall v o, In o (decomp_gates (f v)) ->
      In o (decomp_gates (dec c v)) \/ In o (decomp_gates (rdec c v))) -> level = map f (lev c D k) -> False).
  { intros f k Hf ->. apply nth_map in Hi as [v [Hi ->]]. apply nth_map in Hj as [w [Hj ->]].
    assert (Hv := nth_error_In _ _ Hi). assert (Hw := nth_error_In _ _ Hj).
    apply in_lev in Hv as [V1 [V2 V3]]. apply in_lev in Hw as [W1 [W2 W3]].
    assert (Hne : v <> w).
    { intros ->. apply Hij. apply (proj1 (NoDup_nth_error (lev c D k)) (NoDup_lev c D k)).
      - apply nth_error_Some. rewrite Hi. discriminate.
      - rewrite Hi, Hj. reflexivity. }
    destruct (dec_nodes v g (Hf v g Hg)) as [G1 G2]. destruct (dec_nodes w h (Hf w h Hh)) as [H1 H2].
    apply (same_level_apart v w x V1 W1 V2 W2); [lia | exact Hne | |].
    - destruct X1 as [->| ->]; [destruct G1; auto | destruct G2; auto].
    - destruct X2 as [->| ->]; [destruct H1; auto | destruct H2; auto]. }
  unfold final_levels in Hl. rewrite !in_app_iff in Hl. destruct Hl as [Hl|[[<-|[]]|Hl]].
  - apply in_map_iff in Hl as [k [E _]]. exact (K (dec c) k (fun _ _ H => or_introl H) (eq_sym E)).
  - destruct i as [|[|i]], j as [|[|j]]; simpl in *; try discriminate. contradiction.
  - apply in_map_iff in Hl as [k [E _]]. exact (K (rdec c) k (fun _ _ H => or_intror H) (eq_sym E)).
Qed.

(** ** The number of gates *)
Lemma count_all : forall levels, Z.of_nat (length (all_gates levels)) = count_label Ternary levels + count_label Quaternary levels.
Proof.
  intros levels. unfold count_label. induction (all_gates levels) as [|g gs IH]; [reflexivity|].
  cbn [filter]. destruct (g_tq g); cbn [length]; lia.
Qed.
End Levels.

Section Built.
Variable flog : Z -> Z.
Variable c : Z.
Variable fuel : nat.
Hypothesis Hc : 2 <= c.
Hypothesis HD : Z.log2 c <= flog c.
Hypothesis Hf : c <= Z.of_nat fuel.

Lemma gates_number : Z.of_nat (length (all_gates (final_levels c (flog c)))) = 2 * c - 1.
Proof.
  rewrite count_all. destruct (@label_counts flog c Hc HD) as [-> ->].
  destruct (Z.leb_spec 4 c); destruct (Z.eqb_spec (c mod 2) 0); lia.
Qed.

Variable S : scalar.
Hypothesis L : scalar_laws S.

Lemma layering_cx : forall gs, layering (fun _ => true) (map (gcx c fuel S) gs) = length gs.
Proof.
  intros gs. assert (K : forall b, layering b (map (gcx c fuel S) gs) = length gs); [|apply K].
  induction gs as [|g gs IH]; intros b; [reflexivity|]. cbn [map layering length]. unfold gcx at 1. rewrite IH. reflexivity.
Qed.

Lemma built_depth : forall bits out ks ci, Z.of_nat (length bits) = c + 1 -> (forall x, In x bits -> (x < 2)%nat) ->
  mapM (cnot_call S (mp c fuel)) (all_gates (final_levels c (flog c))) = Ok ks ->
  history (QList (tree_qregs (finished flog c fuel) (c + 1))) (Some (map Z.of_nat bits)) out ks ci ->
  get_circuit_config ci = Ok (WInt (c + 1), 2 * c - 1).
Proof.
  intros bits out ks ci Hlen Hbits Hks H.
  pose proof (@gates_on_nodes flog c fuel Hc) as HG.
  rewrite (@calls_ok c fuel Hc Hf S _ HG) in Hks. injection Hks as <-.
  rewrite (@qregs_dims flog c fuel Hc Hf) in H. set (ds := dims c fuel) in *.
  assert (HL : length bits = length ds) by (unfold ds; rewrite dims_length; lia).
  assert (H2 : forall d, In d ds -> (2 <= d)%nat).
  { intros y Hy. unfold ds, dims in Hy. apply in_map_iff in Hy as [i [<- _]]. exact (nd_ge2 c fuel _). }
  assert (Hv : valid ds bits).
  { assert (K : forall d s, length s = length d -> (forall x, In x s -> (x < 2)%nat) -> (forall y, In y d -> (2 <= y)%nat) -> valid d s).
    { induction d as [|y d IH]; intros [|x s] Hl H3 H4; try discriminate; constructor.
      - specialize (H3 x (or_introl eq_refl)). specialize (H4 y (or_introl eq_refl)). lia.
      - apply IH; [simpl in Hl; lia | intros z Hz; apply H3; right; exact Hz | intros z Hz; apply H4; right; exact Hz]. }
    apply K; auto. }
  assert (Es : start ds bits = bits) by (unfold start; rewrite HL, Nat.sub_diag; apply app_nil_r).
  rewrite <- (app_nil_r (map _ (all_gates _))) in H.
  refine (eq_trans (@asks_depth_reported S L ds bits out _ (map (gcx c fuel S) (all_gates (final_levels c (flog c)))) [] ci
    _ H2 _ _ _ _ _ H) _).
  - intros E. apply (f_equal (@length nat)) in E. unfold ds in E. rewrite dims_length in E. simpl in E. lia.
  - lia.
  - rewrite Es. exact Hv.
  - clear H. induction (all_gates (final_levels c (flog c))) as [|g gs IH]; constructor; [|apply IH; inversion HG; assumption].
    apply den_cx.
  - clear H. induction HG as [|g gs [H3 H4] HG IH]; constructor; [|exact IH].
    simpl. unfold ds. rewrite dims_length. split; apply wire_lt; assumption || lia.
  - left. reflexivity.
  - rewrite layering_cx, gates_number. unfold ds. rewrite dims_length. do 3 f_equal. lia.
Qed.
End Built.
