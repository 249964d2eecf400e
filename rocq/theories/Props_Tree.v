(** * Props_Tree: the tree decomposition of the Toffoli gate (C44-C46, C49, C50, C55).
    Statements only.  [flog] is the floating-point [floor(log(c, 2))]; all that
    is assumed of it is that it is not below the exact value.  [fuel] bounds
    loops and recursion; by [C45_fuel_is_enough] it has no influence. *)
From Coq Require Import String.
From Verif Require Import Py Scalar Mat Utils Gates Circuit Spec Calls Lib Run BackendEq NewCircuit
  Tree TreeSpec TreeLib TreeMap TreeRun TreeEnd TreeCount TreeGates Props_Run.
Local Notation length := List.length.
Open Scope Z_scope.
Ltac Zify.zify_post_hook ::= Z.div_mod_to_equations.

(** At least three lines, a logarithm that is not too small, and enough fuel. *)
Definition large (flog : Z -> Z) (fuel : nat) (n : Z) : Prop :=
  3 <= n /\ Z.log2 (n - 1) <= flog (n - 1) /\ n <= Z.of_nat fuel.

Lemma large_decompose : forall flog fuel n, large flog fuel n ->
  decompose flog fuel n = Ok (finished flog (n - 1) fuel, final_levels (n - 1) (flog (n - 1))).
Proof.
  intros flog fuel n [H1 [H2 H3]]. rewrite <- decompose_ok by lia. f_equal. lia.
Qed.

(** ** C44 *)
Theorem C44_tree_computes_the_toffoli :
  forall S (L : scalar_laws S) (B : backend S) flog fuel n bits,
  supported B -> large flog fuel n -> Z.of_nat (length bits) = n -> (forall x, In x bits -> (x < 2)%nat) ->
  run_circ flog fuel B n (Some (map Z.of_nat bits)) = Ok (shown OutPrint (toffoli_of bits)).
Proof.
  intros S L B flog fuel n bits HB HL Hlen Hbits. unfold run_circ. rewrite (large_decompose _ _ _ HL). cbn [bind].
  destruct HL as [H1 [H2 H3]]. set (c := n - 1) in *. assert (En : n = c + 1) by lia. clearbody c.
  rewrite En in Hlen, H1, H3 |- *.
  change (t_mapping (finished flog c fuel)) with (mp c fuel).
  assert (Hc : 2 <= c) by lia. assert (Hf : c <= Z.of_nat fuel) by lia.
  rewrite (@calls_ok c fuel Hc Hf S _ (gates_on_nodes flog fuel Hc)). cbn [bind].
  rewrite (supported_sim S L) by exact HB. rewrite run_ok by (assumption || lia). reflexivity.
Qed.

Theorem C44_default_input_is_all_ones :
  forall S (L : scalar_laws S) (B : backend S) flog fuel n, supported B -> large flog fuel n ->
  run_circ flog fuel B n None = Ok (shown OutPrint (repeat 1%nat (Z.to_nat n - 1) ++ [0%nat])).
Proof.
  intros S L B flog fuel n HB HL.
  replace (run_circ flog fuel B n None) with (run_circ flog fuel B n (Some (map Z.of_nat (repeat 1%nat (Z.to_nat n)))))
    by (unfold run_circ, zrepeat; rewrite map_repeat; reflexivity).
  assert (Hn : Z.of_nat (length (repeat 1%nat (Z.to_nat n))) = n) by (rewrite repeat_length; destruct HL; lia).
  assert (Hb : forall x, In x (repeat 1%nat (Z.to_nat n)) -> (x < 2)%nat) by (intros x Hx; apply repeat_spec in Hx; lia).
  rewrite (C44_tree_computes_the_toffoli S L B flog fuel n _ HB HL Hn Hb).
  do 2 f_equal. destruct HL as [H1 _]. unfold toffoli_of.
  replace (Z.to_nat n) with (Z.to_nat n - 1 + 1)%nat by lia. rewrite repeat_app. cbn [repeat].
  rewrite removelast_last, last_last. replace (Z.to_nat n - 1 + 1 - 1)%nat with (Z.to_nat n - 1)%nat by lia.
  f_equal. rewrite (proj2 (forallb_forall _ _)); [reflexivity|]. intros x Hx. apply repeat_spec in Hx. subst. reflexivity.
Qed.

(** Missing inputs are 0, further ones raise. *)
Theorem C44_missing_inputs_are_zero :
  forall S (L : scalar_laws S) (B : backend S) flog fuel n bits k,
  supported B -> large flog fuel n -> Z.of_nat (length bits + k) = n -> (forall x, In x bits -> (x < 2)%nat) ->
  run_circ flog fuel B n (Some (map Z.of_nat bits)) = Ok (shown OutPrint (toffoli_of (bits ++ repeat 0%nat k))).
Proof.
  intros S L B flog fuel n bits k HB HL Hlen Hbits.
  rewrite <- (C44_tree_computes_the_toffoli S L B flog fuel n (bits ++ repeat 0%nat k) HB HL).
  - unfold run_circ. rewrite (large_decompose _ _ _ HL). cbn [bind]. destruct (mapM _ _) as [ks|e]; [|reflexivity]. cbn [bind].
    unfold simulate. rewrite map_app, map_repeat. change (Z.of_nat 0) with 0.
    assert (X : (length (map Z.of_nat bits) + k <= length (tree_qregs (finished flog (n - 1) fuel) n))%nat)
      by (unfold tree_qregs; rewrite !map_length, zrange_length; destruct HL; lia).
    rewrite (proj1 (@new_missing S _ (map Z.of_nat bits) None k X)). reflexivity.
  - rewrite app_length, repeat_length. exact Hlen.
  - intros x Hx. apply in_app_iff in Hx as [Hx|Hx]; [exact (Hbits x Hx)|]. apply repeat_spec in Hx. lia.
Qed.

Theorem C44_too_many_inputs_raise :
  forall S (B : backend S) flog fuel n bits,
  large flog fuel n -> n < Z.of_nat (length bits) -> (forall x, In x bits -> (x < 2)%nat) ->
  run_circ flog fuel B n (Some (map Z.of_nat bits)) = Err IndexError.
Proof.
  intros S B flog fuel n bits HL Hlen Hbits.
  unfold run_circ. rewrite (large_decompose _ _ _ HL). cbn [bind].
  destruct HL as [H1 [H2 H3]]. set (c := n - 1) in *. assert (En : n = c + 1) by lia. clearbody c.
  rewrite En in Hlen, H1, H3 |- *.
  change (t_mapping (finished flog c fuel)) with (mp c fuel).
  assert (Hc : 2 <= c) by lia. assert (Hf : c <= Z.of_nat fuel) by lia.
  rewrite (@calls_ok c fuel Hc Hf S _ (gates_on_nodes flog fuel Hc)). cbn [bind].
  unfold simulate. destruct (mk_circuit S _ _ None) as [ci|e] eqn:E.
  - exfalso. destruct (proj1 (@new_iff S _ _ _) (ex_intro _ ci E)) as [X _].
    unfold tree_qregs in X. rewrite !map_length, zrange_length in X. lia.
  - cbn [bind]. f_equal. rewrite (@qregs_dims flog c fuel Hc Hf) in E.
    destruct (@new_first_error _ _ _ _ _ E) as [i [_ [[_ [_ X]]|[d [Hd [[X _]|[_ X]]]]]]]; [exact X | | exact X].
    exfalso. rewrite nth_error_map in Hd. destruct (nth_error (dims c fuel) i) as [d'|] eqn:Hd'; [|discriminate]. injection Hd as <-.
    apply nth_error_In in Hd'. unfold dims in Hd'. apply in_map_iff in Hd' as [j [<- _]].
    pose proof (nd_ge2 c fuel (node c fuel j)) as Hge. destruct X as [X|X]; [lia|].
    destruct (Nat.lt_ge_cases i (length bits)) as [Hi|Hi].
    + rewrite (nth_indep _ 0 (Z.of_nat 0)), map_nth in X by (rewrite map_length; exact Hi).
      specialize (Hbits _ (nth_In bits 0%nat Hi)). lia.
    + rewrite nth_overflow in X by (rewrite map_length; exact Hi). lia.
Qed.

(** ** C45 *)
Theorem C45_mapping_is_a_bijection : forall flog fuel n t final, large flog fuel n -> decompose flog fuel n = Ok (t, final) ->
  (forall v, 1 <= v <= n -> exists w, 0 <= w < n /\ dict_get (t_mapping t) v = Some w) /\
  (forall w, 0 <= w < n -> exists v, 1 <= v <= n /\ dict_get (t_mapping t) v = Some w) /\
  (forall u v w, 1 <= u <= n -> 1 <= v <= n ->
     dict_get (t_mapping t) u = Some w -> dict_get (t_mapping t) v = Some w -> u = v) /\
  dict_get (t_mapping t) n = Some (n - 1).
Proof.
  intros flog fuel n t final HL E. rewrite (large_decompose _ _ _ HL) in E. injection E as <- <-. destruct HL as [H1 [H2 H3]].
  set (c := n - 1) in *. assert (En : n = c + 1) by lia. clearbody c. subst n.
  change (t_mapping (finished flog c fuel)) with (mp c fuel). repeat split.
  - intros v Hv. exists (Z.of_nat (wire c fuel v)). rewrite (@get_wire c fuel) by lia.
    pose proof (@wire_lt c fuel ltac:(lia) ltac:(lia) v Hv). split; [lia | reflexivity].
  - intros w Hw. exists (node c fuel (Z.to_nat w)). rewrite (@get_node c fuel) by lia.
    split; [apply node_range; lia | f_equal; lia].
  - intros u v w Hu Hv. rewrite !(@get_wire c fuel) by lia. intros E1 E2. apply (@wire_inj c fuel); try lia. injection E1 as E1. injection E2 as E2. lia.
  - rewrite (@get_wire c fuel), wire_last by lia. f_equal. lia.
Qed.

Theorem C45_mapping_is_in_order : forall flog fuel n t final u v wu wv, large flog fuel n -> decompose flog fuel n = Ok (t, final) ->
  1 <= v < n -> 1 <= u < n -> dict_get (t_mapping t) u = Some wu -> dict_get (t_mapping t) v = Some wv ->
  (in_subtree (2 * v) u -> wu < wv) /\ (in_subtree (2 * v + 1) u -> wv < wu).
Proof.
  intros flog fuel n t final u v wu wv HL E Hv Hu. rewrite (large_decompose _ _ _ HL) in E. injection E as <- <-. destruct HL as [H1 [H2 H3]].
  set (c := n - 1) in *. assert (En : n = c + 1) by lia. clearbody c. subst n.
  change (t_mapping (finished flog c fuel)) with (mp c fuel). rewrite !(@get_wire c fuel) by lia.
  intros E1 E2. injection E1 as <-. injection E2 as <-. rewrite (Z.mul_comm 2 v).
  destruct (@wire_in_order c fuel ltac:(lia) ltac:(lia) u v ltac:(lia) ltac:(lia)) as [I1 I2].
  split; intros H; [apply I1 in H | apply I2 in H]; lia.
Qed.

(** The three sets partition the nodes (each is listed without duplicates, so
    its length is what Python's [len] returns). *)
Theorem C45_kinds_partition_the_nodes : forall flog fuel n t final, large flog fuel n -> decompose flog fuel n = Ok (t, final) ->
  NoDup (t_qubits t ++ t_qutrits t ++ t_ququads t) /\
  forall v, In v (t_qubits t ++ t_qutrits t ++ t_ququads t) <-> 1 <= v <= n.
Proof.
  intros flog fuel n t final HL E. rewrite (large_decompose _ _ _ HL) in E. injection E as <- <-. destruct HL as [H1 [H2 H3]].
  set (c := n - 1) in *. assert (En : n = c + 1) by lia. clearbody c. subst n.
  split.
  - exact (@kinds_NoDup flog c fuel ltac:(lia)).
  - intros v. rewrite !in_app_iff, in_qubits, in_qutrits, in_ququads by lia.
    destruct (Z.odd v) eqn:Eo; [|intuition (try discriminate; lia)].
    split; [intuition (try discriminate; lia)|]. intros Hv.
    destruct (Z.eq_dec v (c + 1)); [left; left; assumption|]. right.
    destruct (Z.eq_dec v 1); [left; split; [lia | left; assumption]|].
    destruct (Z.le_gt_cases (2 * v) c); [right; repeat split; auto; lia | left; split; [lia | right; left; split; auto; lia]].
Qed.

(** Which node is of which kind: two levels for the target and for left
    leaves, four for right children that have children, three for the rest. *)
Theorem C45_kind_of_each_node : forall flog fuel n t final v, large flog fuel n -> decompose flog fuel n = Ok (t, final) ->
  1 <= v <= n ->
  (In v (t_qubits t) <-> v = n \/ Z.odd v = false /\ n <= 2 * v) /\
  (In v (t_ququads t) <-> v <> n /\ v <> 1 /\ Z.odd v = true /\ 2 * v < n).
Proof.
  intros flog fuel n t final v HL E Hv. rewrite (large_decompose _ _ _ HL) in E. injection E as <- <-. destruct HL as [H1 [H2 H3]].
  set (c := n - 1) in *. assert (En : n = c + 1) by lia. clearbody c. subst n.
  rewrite in_qubits, in_ququads by lia. destruct (Z.eq_dec v (c + 1)); split; intuition (auto; lia).
Qed.

Theorem C45_fuel_is_enough : forall flog fuel fuel' n t final, large flog fuel n -> n <= Z.of_nat fuel' ->
  decompose flog fuel n = Ok (t, final) -> decompose flog fuel' n = Ok (t, final) /\ t_queue t = [].
Proof.
  intros flog fuel fuel' n t final HL Hf E.
  assert (HL' : large flog fuel' n) by (destruct HL as [H1 [H2 _]]; repeat split; assumption).
  rewrite (large_decompose _ _ _ HL) in E. rewrite (large_decompose _ _ _ HL'). injection E as <- <-. destruct HL as [H1 [H2 H3]].
  split.
  - unfold finished, mp, inorder_traversal. rewrite (@gi_fuel (n - 1) fuel' fuel 1) by lia. reflexivity.
  - cbn [finished count_target tstate t_queue]. apply zrange_nil. lia.
Qed.

(** ** C46 *)
Theorem C46_gate_counters : forall flog fuel n t final, large flog fuel n -> decompose flog fuel n = Ok (t, final) ->
  let '(tern, quat, qubits, qutrits, ququads) := mathematical_expectation n in
  t_tern t = tern /\ t_quat t = quat /\
  Z.of_nat (length (t_qubits t)) = qubits /\ Z.of_nat (length (t_ququads t)) = ququads /\
  (Z.even n = true -> Z.of_nat (length (t_qutrits t)) = qutrits) /\
  (Z.even n = false -> Z.of_nat (length (t_qutrits t)) = qutrits - 1).
Proof.
  intros flog fuel n t final HL E. rewrite (large_decompose _ _ _ HL) in E. injection E as <- <-. destruct HL as [H1 [H2 H3]].
  set (c := n - 1) in *. assert (En : n = c + 1) by lia. clearbody c. subst n.
  destruct (@counters flog c fuel ltac:(lia)) as [C1 [C2 [C3 [C4 C5]]]]. unfold zlen in *.
  unfold mathematical_expectation. replace (c + 1 - 1) with c by lia.
  rewrite C1, C2, C3, C4, C5. assert (Ev : Z.even (c + 1) = negb (c mod 2 =? 0)).
  { rewrite Z.even_add. rewrite Zmod_odd, <- Z.negb_odd. destruct (Z.odd c); reflexivity. }
  rewrite Ev. destruct (c mod 2 =? 0); cbn [negb]; repeat split; intros; try discriminate; lia.
Qed.

(** ** C49 *)
Theorem C49_labels_disagree_with_counters : forall flog fuel n t final, large flog fuel n -> decompose flog fuel n = Ok (t, final) ->
  let off := if (4 <=? n - 1) && ((n - 1) mod 4 <? 2) then 4 else 0 in
  count_label Ternary final = t_tern t - off /\ count_label Quaternary final = t_quat t + off.
Proof.
  intros flog fuel n t final HL E. rewrite (large_decompose _ _ _ HL) in E. injection E as <- <-. destruct HL as [H1 [H2 H3]].
  set (c := n - 1) in *. destruct (@counters flog c fuel ltac:(lia)) as [C1 [C2 _]].
  destruct (@label_counts flog c ltac:(lia) H2) as [C3 C4]. rewrite C1, C2, C3, C4.
  destruct (Z.leb_spec 4 c); destruct (Z.ltb_spec (c mod 4) 2); cbn [andb]; destruct (Z.eqb_spec (c mod 2) 0); lia.
Qed.

(** ** C50 *)
Theorem C50_fewer_than_three_lines_raise : forall S (B : backend S) flog fuel n input, (1 <= fuel)%nat ->
  (n <= 1 -> run_circ flog fuel B n input = Err ValueError) /\
  (flog 1 = 0 -> run_circ flog fuel B 2 input = Err IndexError).
Proof.
  intros S B flog fuel n input Hf. split.
  - intros H. unfold run_circ, decompose, mk_tree. rewrite (proj2 (Z.leb_le (n - 1) 0)) by lia. reflexivity.
  - intros H. unfold run_circ, decompose, mk_tree. change (2 - 1) with 1. change (1 <=? 0) with false. cbv iota. rewrite H.
    destruct fuel as [|fuel]; [lia|]. reflexivity.
Qed.

(** ** C55 *)

(** The gate [g] is the first or second of some pair in some level. *)
Definition emitted (levels : list (list decomp)) (g : tgate) : Prop :=
  exists level l r, In level levels /\ In (l, r) level /\ (l = Some g \/ r = Some g).

(** Every gate but the one on the main target goes from a left child to its
    right sibling or from a child to its parent.  Its control state is the top
    level of the control's register and the target state of the first kind is
    the dimension of the target's register, except that both are one too large
    for node [2 * (c / 4) + 1] when that node has no children; the target state
    of the second kind is always 3. *)
Theorem C55_what_each_gate_says : forall flog fuel n t final g wc wt, large flog fuel n -> decompose flog fuel n = Ok (t, final) ->
  emitted final g -> dict_get (t_mapping t) (g_control g) = Some wc -> dict_get (t_mapping t) (g_target g) = Some wt ->
  let c := n - 1 in
  let dim w := nth (Z.to_nat w) (tree_qregs t n) 0 in
  let off v := if (4 <=? c) && (c mod 4 <? 2) && (v =? 2 * (c / 4) + 1) then 1 else 0 in
  g_cstate g = dim wc - 1 + off (g_control g) /\
  (g_sign g = Dollar /\ g_control g = 1 /\ g_target g = n /\ g_tstate g = 1 /\ g_tq g = Ternary \/
   g_sign g <> Dollar /\ 2 <= g_control g <= c /\ (g_tq g = Quaternary <-> g_tstate g = 4 \/ g_cstate g = 3) /\
   (g_target g = g_control g + 1 /\ Z.even (g_control g) = true /\ g_tstate g = dim wt + off (g_target g) \/
    g_target g = g_control g / 2 /\ g_tstate g = 3)).
Proof.
  intros flog fuel n t final g wc wt HL E Hg Ewc Ewt. rewrite (large_decompose _ _ _ HL) in E. injection E as <- <-. destruct HL as [H1 [H2 H3]].
  set (c := n - 1) in *. assert (En : n = c + 1) by lia. clearbody c. subst n. cbv zeta.
  assert (Hc : 2 <= c) by lia. assert (Hf : c <= Z.of_nat fuel) by lia.
  apply in_all_gates in Hg. pose proof (@gates_on_nodes flog c fuel Hc) as N. rewrite Forall_forall in N.
  destruct (N g Hg) as [N1 N2]. clear N.
  change (t_mapping (finished flog c fuel)) with (mp c fuel) in Ewc, Ewt.
  rewrite (@get_wire c fuel) in Ewc, Ewt by lia. injection Ewc as <-. injection Ewt as <-. rewrite !Nat2Z.id.
  assert (Q : forall v, 1 <= v <= c + 1 -> nth (wire c fuel v) (tree_qregs (finished flog c fuel) (c + 1)) 0 = Z.of_nat (nd c v)).
  { intros v Hv. rewrite (@qregs_dims flog c fuel Hc Hf). change 0 with (Z.of_nat 0). rewrite map_nth.
    rewrite (@dims_wire c fuel Hc Hf v Hv). reflexivity. }
  rewrite !Q by assumption. clear Q. fold (off c).
  apply (in_final c (flog c) Hc H2) in Hg as [->|[v [V1 [V2 Hg]]]].
  - cbn [main_gate g_control g_target g_cstate g_tstate g_sign g_tq]. split; [|left; auto].
    unfold nd, int, rgt, off. rewrite (proj2 (Z.eqb_neq 1 (c + 1))), (proj2 (Z.leb_le (2 * 1) c)) by lia.
    destruct (Z.leb_spec 4 c); [|reflexivity]. rewrite (proj2 (Z.eqb_neq 1 (2 * (c / 4) + 1))) by lia. destruct (c mod 4 <? 2); reflexivity.
  - assert (K : labelled_well c g /\ g_sign g <> Dollar).
    { destruct Hg as [Hg|Hg].
      - destruct (@dec_labels c Hc v g V1 V2 Hg) as [K1 K2]. split; [exact K1 | congruence].
      - apply rdec_flip in Hg as [h [Hh ->]]. destruct (@dec_labels c Hc v h V1 V2 Hh) as [K1 K2]. split; [exact K1 | discriminate]. }
    destruct K as [[K1 [K2 K3]] K4]. split; [exact K1|]. right. split; [exact K4|].
    destruct K2 as [[K5 [K6 K7]]|[K5 [K6 K7]]].
    + split; [|auto]. destruct (Z.eq_dec (g_control g) 1) as [X|X]; [rewrite X in K6; discriminate | lia].
    + split; [exact K6 | auto].
Qed.

(** The part after the main gate undoes the part before it gate by gate. *)
Theorem C55_gates_come_in_pairs : forall flog fuel n t final g, large flog fuel n -> decompose flog fuel n = Ok (t, final) ->
  emitted final g -> g_sign g <> Dollar ->
  exists h, emitted final h /\ g_control h = g_control g /\ g_target h = g_target g /\
    g_cstate h = g_cstate g /\ g_tstate h = g_tstate g /\ g_tq h = g_tq g /\
    (g_sign g = Plus /\ g_sign h = Minus \/ g_sign g = Minus /\ g_sign h = Plus).
Proof.
  intros flog fuel n t final g HL E Hg Hs. rewrite (large_decompose _ _ _ HL) in E. injection E as <- <-. destruct HL as [H1 [H2 H3]].
  set (c := n - 1) in *. assert (Hc : 2 <= c) by lia. apply in_all_gates in Hg.
  apply (in_final c (flog c) Hc H2) in Hg as [->|[v [V1 [V2 Hg]]]]; [elim Hs; reflexivity|].
  destruct Hg as [Hg|Hg].
  - exists (flip g). destruct (@dec_labels c Hc v g V1 V2 Hg) as [_ K]. split; [|repeat (split; [reflexivity|]); auto].
    apply in_all_gates, (in_final c (flog c) Hc H2). right. exists v. split; [exact V1|]. split; [exact V2|]. right. apply rdec_flip. eauto.
  - apply rdec_flip in Hg as [h [Hh ->]]. exists h. destruct (@dec_labels c Hc v h V1 V2 Hh) as [_ K].
    split; [|repeat (split; [reflexivity|]); auto].
    apply in_all_gates, (in_final c (flog c) Hc H2). right. exists v. auto.
Qed.

(** ** Non-trivial instances *)
Section Examples.

Example ex_large : large Z.log2 9 9.
Proof. unfold large. change (9 - 1) with 8. lia. Qed.

(** A logarithm that rounds up is covered as well. *)
Example ex_large_up : large (fun c => Z.log2 c + 1) 9 9.
Proof. unfold large. change (9 - 1) with 8. lia. Qed.

(** The circuit of circuit.py:90-91. *)
Example ex_C45 : exists t final, decompose Z.log2 9 9 = Ok (t, final) /\
  t_mapping t = [(8, 0); (4, 1); (2, 2); (5, 3); (1, 4); (6, 5); (3, 6); (7, 7); (9, 8)] /\
  (t_qubits t, t_qutrits t, t_ququads t) = ([9; 6; 8], [1; 2; 4; 5; 7], [3]) /\
  in_subtree (2 * 2) 8 /\
  (t_tern t, t_quat t, count_label Ternary final, count_label Quaternary final) = (11, 4, 7, 8) /\
  mathematical_expectation 9 = (11, 4, 3, 6, 1).
Proof.
  do 2 eexists. split; [vm_compute; reflexivity|]. repeat split; try reflexivity. exists 1. split; [lia | reflexivity].
Qed.

Example ex_C44 :
  run_circ Z.log2 5 (SparseBackend Zscalar) 4 (Some [1; 1; 1; 0]) = Ok (LStr "|1111>"%string) /\
  run_circ Z.log2 5 (NumpyBackend Zscalar) 4 (Some [1; 0; 1; 1]) = Ok (LStr "|1011>"%string) /\
  run_circ Z.log2 5 (NumpyBackend Zscalar) 4 (Some [1; 0]) = Ok (LStr "|1000>"%string) /\
  run_circ Z.log2 5 (NumpyBackend Zscalar) 4 (Some [1; 0; 0; 1; 1]) = Err IndexError /\
  toffoli_of [1; 1; 1; 0]%nat = [1; 1; 1; 1]%nat /\ toffoli_of [1; 0; 1; 1]%nat = [1; 0; 1; 1]%nat.
Proof. repeat split; vm_compute; reflexivity. Qed.

(** With nine lines the gates of node 5 say 3 and 4 where the register has
    dimension 3 (compare [ex_C45]). *)
Example ex_C55 : exists t final, decompose Z.log2 9 9 = Ok (t, final) /\
  emitted final {| g_target := 2; g_control := 5; g_tstate := 3; g_cstate := 3; g_sign := Plus; g_tq := Quaternary |} /\
  emitted final {| g_target := 5; g_control := 4; g_tstate := 4; g_cstate := 2; g_sign := Minus; g_tq := Quaternary |} /\
  dict_get (t_mapping t) 5 = Some 3 /\ nth 3 (tree_qregs t 9) 0 = 3.
Proof.
  do 2 eexists. split; [vm_compute; reflexivity|]. split; [|split; [|split; reflexivity]].
  - do 3 eexists. split; [right; left; reflexivity|]. split; [left; reflexivity | right; reflexivity].
  - do 3 eexists. split; [do 5 right; left; reflexivity|]. split; [left; reflexivity | right; reflexivity].
Qed.

Example ex_C50 : run_circ Z.log2 5 (SparseBackend Zscalar) 2 (Some [1; 1]) = Err IndexError.
Proof. vm_compute. reflexivity. Qed.
End Examples.

Print Assumptions C44_tree_computes_the_toffoli.
Print Assumptions C44_default_input_is_all_ones.
Print Assumptions C44_missing_inputs_are_zero.
Print Assumptions C44_too_many_inputs_raise.
Print Assumptions C45_mapping_is_a_bijection.
Print Assumptions C45_mapping_is_in_order.
Print Assumptions C45_kinds_partition_the_nodes.
Print Assumptions C45_kind_of_each_node.
Print Assumptions C45_fuel_is_enough.
Print Assumptions C46_gate_counters.
Print Assumptions C49_labels_disagree_with_counters.
Print Assumptions C55_what_each_gate_says.
Print Assumptions C55_gates_come_in_pairs.
Print Assumptions C50_fewer_than_three_lines_raise.
