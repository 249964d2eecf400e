(** * TreeEnd: the tree decomposition on the simulator, and its counts. *)
From Coq Require Import String Permutation.
From Verif Require Import Py Scalar Mat Utils Gates Circuit Spec Calls HistSpec Lib Run BackendEq Reversible
  Tree TreeSpec TreeLib TreeMap TreeRun.
Set Implicit Arguments.
Local Notation length := List.length.
Open Scope Z_scope.
Ltac Zify.zify_post_hook ::= Z.div_mod_to_equations.

Section End.
Variable flog : Z -> Z.
Variable c : Z.
Variable fuel : nat.
Hypothesis Hc : 2 <= c.
Hypothesis HD : Z.log2 c <= flog c.
Hypothesis Hf : c <= Z.of_nat fuel.
Notation D := (flog c).
Lemma Hc1 : 1 <= c.
Proof. lia. Qed.

(** ** The finished circuit *)
Definition finished : tree := count_target (tstate c D (mp c fuel) (hb c + 1)).

Lemma decompose_ok : decompose flog fuel (c + 1) = Ok (finished, final_levels c D).
Proof.
  unfold decompose, mk_tree. replace (c + 1 - 1) with c by lia. rewrite (proj2 (Z.leb_gt c 0)) by lia. cbn [bind].
  unfold tree_simulate.
  match goal with |- context [tree_start ?t] => assert (E : tree_start t = tstate c D (mp c fuel) 1) end.
  { unfold tree_start, tstate. cbn [t_n t_c t_queue t_depth t_levels t_quat t_tern t_gpll t_qubits t_qutrits t_ququads t_mapping].
    rewrite (zrange_nil (a := 1) (b := 1)) by lia. cbn [map flat_map filter app zsum]. unfold mp, gp. f_equal.
    assert (1 <= hb c) by (apply hb_pos; exact Hc). replace (Z.min (2 * 1 - 1) (hb c) + 1) with 2 by lia. reflexivity. }
  rewrite E. rewrite loop_all by assumption. cbn [bind]. fold finished.
  change (t_levels finished) with (the_levels c D). rewrite reflection_ok. reflexivity.
Qed.

(** ** The kinds of nodes *)
Lemma in_ququads : forall v, In v (t_ququads finished) <-> 1 < v /\ Z.odd v = true /\ 2 * v <= c.
Proof.
  intros v. cbn [finished count_target tstate t_ququads]. rewrite in_flat_map. rewrite Zodd_bool_iff. split.
  - intros [u [Hu Hv]]. apply in_zrange in Hu. unfold qq in Hv. pose proof (hasr_spec c) as HR.
    rewrite Z.gtb_ltb in Hv. destruct (Z.ltb_spec (gp c) u); [destruct Hv|].
    destruct (Z.eqb_spec u (gp c)); [destruct (hasr c) eqn:E|]; simpl in Hv; try tauto; destruct Hv as [<-|[]];
      unfold hb, gp in *; (split; [lia | split; [|lia]]); apply Zodd_ex_iff; exists u; lia.
  - intros [H1 [H2 H3]]. apply Zodd_ex_iff in H2 as [u Hu]. exists u. unfold qq. pose proof (hasr_spec c) as HR.
    split; [apply in_zrange; unfold hb; lia|].
    rewrite Z.gtb_ltb. destruct (Z.ltb_spec (gp c) u); [unfold gp in *; lia|].
    destruct (Z.eqb_spec u (gp c)); [destruct (hasr c) eqn:E|]; simpl; unfold hb, gp in *; lia.
Qed.

Lemma in_qubits : forall v, In v (t_qubits finished) <-> v = c + 1 \/ 1 <= v <= c /\ Z.odd v = false /\ c < 2 * v.
Proof.
  intros v. cbn [finished count_target tstate t_qubits]. rewrite in_app_iff, in_flat_map.
  assert (Ev : Z.odd v = false <-> exists u, v = 2 * u).
  { rewrite <- Z.negb_even, negb_false_iff, Zeven_bool_iff. apply Zeven_ex_iff. }
  rewrite Ev. split.
  - intros [[H|[]]|[u [Hu Hv]]]; [left; lia|]. right. apply in_zrange in Hu. unfold qb in Hv. rewrite Z.gtb_ltb in Hv.
    destruct (Z.ltb_spec (gp c) u); [|destruct Hv]. destruct Hv as [<-|[]]. unfold hb, gp in *. split; [lia|]. split; [exists u; lia | lia].
  - intros [->|[H1 [[u Hu] H3]]]; [left; left; reflexivity|]. right. exists u. unfold qb. split; [apply in_zrange; unfold hb; lia|].
    rewrite Z.gtb_ltb. destruct (Z.ltb_spec (gp c) u); [simpl; lia | unfold gp in *; lia].
Qed.

Lemma in_qutrits : forall v, In v (t_qutrits finished) <->
  1 <= v <= c /\ (v = 1 \/ Z.odd v = true /\ c < 2 * v \/ Z.odd v = false /\ 2 * v <= c).
Proof.
  intros v. cbn [finished count_target tstate t_qutrits]. rewrite in_app_iff, in_flat_map. pose proof (hasr_spec c) as HR.
  assert (Ev : Z.odd v = false <-> exists u, v = 2 * u).
  { rewrite <- Z.negb_even, negb_false_iff, Zeven_bool_iff. apply Zeven_ex_iff. }
  assert (Ov : Z.odd v = true <-> exists u, v = 2 * u + 1) by (rewrite Zodd_bool_iff; apply Zodd_ex_iff).
  rewrite Ev, Ov. split.
  - intros [[H|[]]|[u [Hu Hv]]]; [lia|]. apply in_zrange in Hu. unfold qt in Hv. rewrite !Z.gtb_ltb in Hv.
    destruct (Z.ltb_spec (gp c) u).
    + destruct (Z.ltb_spec c (u * 2 + 1)); [destruct Hv|]. destruct Hv as [<-|[]]. unfold hb, gp in *.
      split; [lia|]. right. left. split; [exists u; lia | lia].
    + destruct (Z.eqb_spec u (gp c)); [destruct (hasr c) eqn:E|].
      * destruct Hv as [<-|[]]. unfold hb, gp in *. split; [lia|]. right. right. split; [exists u; lia | lia].
      * destruct Hv as [<-|[<-|[]]]; unfold hb, gp in *; (split; [lia|]); right; [right; split; [exists u; lia | lia] | left; split; [exists u; lia | lia]].
      * destruct Hv as [<-|[]]. unfold hb, gp in *. split; [lia|]. right. right. split; [exists u; lia | lia].
  - intros [H0 [->|[[[u Hu] H]|[[u Hu] H]]]]; [left; left; reflexivity | |].
    + destruct (Z.eq_dec v 1) as [->|Hn]; [left; left; reflexivity|]. right. exists u. split; [apply in_zrange; unfold hb; lia|].
      unfold qt. rewrite !Z.gtb_ltb. destruct (Z.ltb_spec (gp c) u).
      * destruct (Z.ltb_spec c (u * 2 + 1)); simpl; lia.
      * destruct (Z.eqb_spec u (gp c)); [destruct (hasr c) eqn:E|]; simpl; unfold hb, gp in *; lia.
    + right. exists u. split; [apply in_zrange; unfold hb; lia|].
      unfold qt. rewrite !Z.gtb_ltb. destruct (Z.ltb_spec (gp c) u); [unfold gp in *; lia|].
      destruct (Z.eqb_spec u (gp c)); [destruct (hasr c) eqn:E|]; simpl; lia.
Qed.

Lemma NoDup_join : forall A (l m : list A), NoDup l -> NoDup m -> (forall x, In x l -> In x m -> False) -> NoDup (l ++ m).
Proof.
  intros A l m Hl Hm H. induction Hl as [|x l Hx Hl IH]; [exact Hm|]. simpl. constructor.
  - rewrite in_app_iff. intros [K|K]; [exact (Hx K) | exact (H x (or_introl eq_refl) K)].
  - apply IH. intros y Hy. apply H. right. exact Hy.
Qed.

Lemma NoDup_nodes : forall (f : Z -> list Z) k, (forall v y, In y (f v) -> y = v * 2 \/ y = v * 2 + 1) ->
  (forall v, NoDup (f v)) -> NoDup (flat_map f (zrange 1 (Z.of_nat k + 1))).
Proof.
  intros f k Hf1 Hf2. induction k as [|k IH].
  - rewrite zrange_nil by lia. constructor.
  - replace (Z.of_nat (S k) + 1) with (Z.of_nat k + 1 + 1) by lia. rewrite flat_map_last by lia.
    apply NoDup_join; [exact IH | apply Hf2 |]. intros x H1 H2. revert H1. apply fresh; [exact Hf1|].
    apply Hf1 in H2. lia.
Qed.

Lemma kinds_NoDup : NoDup (t_qubits finished ++ t_qutrits finished ++ t_ququads finished).
Proof.
  assert (E : hb c = Z.of_nat (Z.to_nat (hb c))) by (unfold hb; lia).
  assert (NB : NoDup (t_qubits finished)).
  { cbn [finished count_target tstate t_qubits]. rewrite E. apply NoDup_join.
    - repeat constructor. intros [].
    - apply NoDup_nodes; [intros v y Hy; left; apply (in_qb c v y Hy)|]. intros v. unfold qb. destruct (v >? gp c); repeat constructor. intros [].
    - intros x [<-|[]] H. apply in_flat_map in H as [v [Hv H]]. apply in_zrange in Hv. apply in_qb in H. unfold hb in Hv. lia. }
  assert (NT : NoDup (t_qutrits finished)).
  { cbn [finished count_target tstate t_qutrits]. rewrite E. apply NoDup_join.
    - repeat constructor. intros [].
    - apply NoDup_nodes; [apply in_qt|]. intros v. unfold qt.
      destruct (v >? gp c), (v * 2 + 1 >? c), (v =? gp c), (hasr c); repeat constructor; simpl; lia.
    - intros x [<-|[]] H. apply in_flat_map in H as [v [Hv H]]. apply in_zrange in Hv. apply in_qt in H. lia. }
  assert (NQ : NoDup (t_ququads finished)).
  { cbn [finished count_target tstate t_ququads]. rewrite E.
    apply NoDup_nodes; [intros v y Hy; right; apply (in_qq c v y Hy)|]. intros v. unfold qq.
    destruct (v >? gp c), (v =? gp c), (hasr c); repeat constructor; simpl; tauto. }
  apply NoDup_join; [exact NB | apply NoDup_join; [exact NT | exact NQ |] |].
  - intros x H1 H2. apply in_qutrits in H1. apply in_ququads in H2 as [H2 [H3 H4]]. rewrite H3 in H1. intuition (discriminate || lia).
  - intros x H1 H2. apply in_qubits in H1. apply in_app_iff in H2 as [H2|H2]; [apply in_qutrits in H2 | apply in_ququads in H2].
    + destruct (Z.odd x); intuition (discriminate || lia).
    + destruct (Z.odd x); intuition (discriminate || lia).
Qed.

(** ** Dimensions *)
Notation wire := (wire c fuel).
Notation node := (node c fuel).
Definition dims : list nat := map (fun i => nd c (node i)) (seq 0 (Z.to_nat (c + 1))).

Lemma has_wire_spec : forall nodes i, (i <= Z.to_nat c)%nat -> (forall v, In v nodes -> 1 <= v <= c + 1) ->
  has_wire (wires (mp c fuel) nodes) (Z.of_nat i) = zmem (node i) nodes.
Proof.
  intros nodes i Hi Hn. unfold has_wire, wires. induction nodes as [|v nodes IH]; [reflexivity|].
  cbn [map existsb]. unfold zmem. cbn [existsb]. fold (zmem (node i) nodes). rewrite IH by (intros u Hu; apply Hn; right; exact Hu).
  f_equal. pose proof (Hn v (or_introl eq_refl)) as Hv. rewrite (@get_wire c fuel Hc1 Hf _ Hv).
  destruct (Z.eqb_spec (Z.of_nat (wire v)) (Z.of_nat i)) as [E|E]; symmetry.
  - apply Z.eqb_eq. assert (wire v = i) by lia. subst i. apply node_wire; [lia | exact Hf | exact Hv].
  - apply Z.eqb_neq. intros <-. apply E. rewrite (@wire_node c fuel) by (assumption || lia). reflexivity.
Qed.

Lemma zmem_false : forall x l, ~ In x l -> zmem x l = false.
Proof. intros x l H. destruct (zmem x l) eqn:E; [|reflexivity]. apply zmem_in in E. contradiction. Qed.

Lemma node_qregs : forall v, 1 <= v <= c + 1 ->
  (if zmem v (t_ququads finished) then 4 else if zmem v (t_qutrits finished) then 3 else 2) = Z.of_nat (nd c v).
Proof.
  intros v Hv. pose proof (in_ququads v) as Q4. pose proof (in_qutrits v) as Q3.
  unfold nd, int, rgt. destruct (Z.eqb_spec v (c + 1)) as [->|Hn].
  - rewrite !zmem_false; [reflexivity | rewrite Q3; lia | rewrite Q4; lia].
  - destruct (zmem v (t_ququads finished)) eqn:E4.
    + apply zmem_in in E4. apply Q4 in E4 as [H1 [H2 H3]]. rewrite H2, (proj2 (Z.leb_le (2 * v) c)) by lia.
      rewrite (proj2 (Z.eqb_neq v 1)) by lia. reflexivity.
    + assert (N4 : ~ In v (t_ququads finished)) by (intros K; apply zmem_in in K; congruence).
      destruct (zmem v (t_qutrits finished)) eqn:E3.
      * apply zmem_in in E3. apply Q3 in E3 as [_ H]. destruct (Z.leb_spec (2 * v) c); destruct (Z.odd v); destruct (Z.eqb_spec v 1);
          simpl; try reflexivity; try lia; exfalso; try (apply N4; apply Q4; repeat split; auto; lia);
          destruct H as [H|[[H H']|[H H']]]; try discriminate; lia.
      * assert (N3 : ~ In v (t_qutrits finished)) by (intros K; apply zmem_in in K; congruence).
        destruct (Z.leb_spec (2 * v) c); destruct (Z.odd v) eqn:Eo; destruct (Z.eqb_spec v 1);
          simpl; try reflexivity; try lia; exfalso; try (apply N4; apply Q4; repeat split; auto; lia);
          apply N3, Q3; split; try lia; auto.
Qed.

Lemma qregs_dims : tree_qregs finished (c + 1) = map Z.of_nat dims.
Proof.
  unfold tree_qregs, dims, zrange. rewrite !map_map. replace (c + 1 - 0) with (c + 1) by lia.
  apply map_ext_in. intros i Hi. apply in_seq in Hi. change (0 + Z.of_nat i) with (Z.of_nat i).
  change (t_mapping finished) with (mp c fuel). rewrite !has_wire_spec.
  - apply node_qregs. apply node_range; [lia | exact Hf | lia].
  - lia.
  - intros v Hv. apply in_qutrits in Hv. lia.
  - lia.
  - intros v Hv. apply in_ququads in Hv. lia.
Qed.

Lemma dims_length : length dims = Z.to_nat (c + 1).
Proof. unfold dims. rewrite map_length, seq_length. reflexivity. Qed.

Lemma dims_wire : forall v, 1 <= v <= c + 1 -> nth (wire v) dims 0%nat = nd c v.
Proof.
  intros v Hv. unfold dims. rewrite nth_map_seq by (apply wire_lt; lia || assumption).
  rewrite (@node_wire c fuel) by (assumption || lia). reflexivity.
Qed.

(** ** From wires to nodes *)
Definition rel (f : Z -> nat) (s : config) : Prop :=
  length s = Z.to_nat (c + 1) /\ forall v, 1 <= v <= c + 1 -> level s (wire v) = f v.

Definition on_nodes (g : tgate) : Prop := 1 <= g_control g <= c + 1 /\ 1 <= g_target g <= c + 1.
Definition gcx (S : scalar) (g : tgate) : gate S := GCX (wire (g_control g)) (wire (g_target g)) (sgn g).

Lemma rel_move : forall ct tg p f s, 1 <= ct <= c + 1 -> 1 <= tg <= c + 1 -> rel f s ->
  rel (nmove c ct tg p f) (move_cx dims (wire ct) (wire tg) p s).
Proof.
  intros ct tg p f s Hct Htg [Hl Hs]. unfold move_cx, top, nmove. rewrite (Hs ct Hct), (dims_wire Hct).
  destruct (Nat.eqb (f ct + 1) (nd c ct)); [|split; assumption].
  unfold move_x. split; [rewrite put_length; exact Hl|]. intros v Hv.
  rewrite level_put by (rewrite Hl; apply wire_lt; lia || assumption).
  rewrite (Hs tg Htg), (dims_wire Htg). destruct (Nat.eqb_spec (wire v) (wire tg)) as [E|E].
  - apply (@wire_inj c fuel Hc1 Hf _ _ Hv Htg) in E. subst. rewrite Z.eqb_refl. reflexivity.
  - rewrite (proj2 (Z.eqb_neq v tg)) by congruence. apply Hs. exact Hv.
Qed.

Lemma rel_moves : forall S gs f s, Forall on_nodes gs -> rel f s ->
  rel (nrun c gs f) (moves dims (map (gcx S) gs) s).
Proof.
  intros S. induction gs as [|g gs IH]; intros f s Hg Hs; [exact Hs|]. inversion Hg as [|? ? [H1 H2] H3]; subst.
  unfold nrun. cbn [map moves fold_left]. apply IH; [exact H3|]. unfold gcx, move. apply rel_move; assumption.
Qed.

Lemma rel_unique : forall f s t, rel f s -> rel f t -> s = t.
Proof.
  intros f s t [L1 H1] [L2 H2]. apply nth_ext with (d := 0%nat) (d' := 0%nat); [congruence|].
  intros i Hi. rewrite L1 in Hi. specialize (H1 (node i)). specialize (H2 (node i)).
  rewrite (@wire_node c fuel) in H1, H2 by (assumption || lia). unfold level in H1, H2.
  assert (1 <= node i <= c + 1) by (apply node_range; assumption || lia). rewrite H1, H2 by assumption. reflexivity.
Qed.

Lemma gates_on_nodes : Forall on_nodes (all_gates (final_levels c D)).
Proof.
  assert (G : forall v, 1 <= v -> int c v = true -> Forall on_nodes (decomp_gates (dec c v)) /\ Forall on_nodes (decomp_gates (rdec c v))).
  { intros v H1 H2. apply (int_le c v) in H2. unfold rdec, dec. rewrite !Z.gtb_ltb.
    destruct (Z.ltb_spec (gp c) v).
    - destruct (Z.ltb_spec c (v * 2 + 1)); split; unfold decomp_gates; cbn; repeat constructor; cbn; lia.
    - unfold gp in *. destruct (v =? c / 4); split; unfold decomp_gates; cbn; repeat constructor; cbn; lia. }
  unfold final_levels. rewrite !all_gates_app. apply Forall_app. split; [|apply Forall_app; split].
  - unfold the_levels. rewrite all_gates_levels. apply Forall_flat_map. apply Forall_forall. intros i _.
    apply Forall_flat_map. apply Forall_forall. intros v Hv. apply in_lev in Hv as [H1 [H2 _]]. apply G; assumption.
  - repeat constructor; cbn; lia.
  - unfold the_reflection. rewrite all_gates_levels. apply Forall_flat_map. apply Forall_forall. intros i _.
    apply Forall_flat_map. apply Forall_forall. intros v Hv. apply in_lev in Hv as [H1 [H2 _]]. apply G; assumption.
Qed.

Lemma calls_ok : forall S gs, Forall on_nodes gs ->
  mapM (cnot_call S (mp c fuel)) gs
  = Ok (map (fun g => CCX [Z.of_nat (wire (g_control g)); Z.of_nat (wire (g_target g))] (sgn g)) gs).
Proof.
  intros S gs H. apply mapM_ok. intros g Hg. rewrite Forall_forall in H. destruct (H g Hg) as [H1 H2].
  unfold cnot_call. rewrite (@get_wire c fuel Hc1 Hf _ H1), (@get_wire c fuel Hc1 Hf _ H2). reflexivity.
Qed.

Lemma nd_ge2 : forall v, (2 <= nd c v)%nat.
Proof. intros v. unfold nd. destruct (v =? c + 1); lia. Qed.

(** The bits seen from the nodes. *)
Variable bits : list nat.
Hypothesis Hlen : Z.of_nat (length bits) = c + 1.
Hypothesis Hbits : forall x, In x bits -> (x < 2)%nat.

Definition bt (v : Z) : nat := level bits (wire v).

Lemma bt_lt : forall v, 1 <= v <= c -> (bt v < 2)%nat.
Proof.
  intros v Hv. apply Hbits. unfold bt, level. apply nth_In.
  pose proof (@wire_lt c fuel Hc1 Hf (v) ltac:(lia)). lia.
Qed.

Lemma all_ones : A c bt 1 = forallb (Nat.eqb 1) (removelast bits).
Proof.
  assert (Hn : bits <> []) by (intros ->; simpl in Hlen; lia).
  assert (R : length (removelast bits) = Z.to_nat c).
  { pose proof (app_removelast_last 0%nat Hn) as E. apply (f_equal (@length nat)) in E. rewrite app_length in E. simpl in E. lia. }
  assert (N : forall i, (i < Z.to_nat c)%nat -> nth i (removelast bits) 0%nat = nth i bits 0%nat).
  { intros i Hi. pose proof (app_removelast_last 0%nat Hn) as E. rewrite E at 2. rewrite app_nth1 by lia. reflexivity. }
  apply eq_true_iff_eq. unfold A. rewrite !forallb_forall. split; intros H x Hx.
  - apply In_nth with (d := 0%nat) in Hx as [i [Hi <-]]. rewrite R in Hi. rewrite N by exact Hi.
    assert (K : In (node i) (generate_inorder (F c) c 1)).
    { apply (@order_in c (F c)); [unfold F; lia|].
      assert (Hr := @node_range c fuel Hc1 Hf (i) ltac:(lia)).
      assert (node i <> c + 1); [|lia]. intros E.
      assert (W := @wire_node c fuel Hc1 Hf (i) ltac:(lia)).
      rewrite E, wire_last in W by (assumption || lia). lia. }
    apply H in K. unfold bt, level in K. rewrite (@wire_node c fuel) in K by (assumption || lia).
    apply Nat.eqb_eq in K. rewrite K. reflexivity.
  - apply (@order_in c (F c)) in Hx; [|unfold F; lia]. unfold bt, level.
    assert (Hw : (wire x < Z.to_nat c)%nat).
    { pose proof (@wire_lt c fuel Hc1 Hf (x) ltac:(lia)).
      assert (wire x <> Z.to_nat c); [|lia]. intros E. rewrite <- (@wire_last c fuel) in E by (assumption || lia).
      apply (@wire_inj c fuel) in E; lia || assumption. }
    rewrite <- N by exact Hw. rewrite Nat.eqb_sym. apply H. apply nth_In. lia.
Qed.

Lemma rel_end : rel (fun v => if v =? c + 1 then (if A c bt 1 then 1 - bt (c + 1) else bt (c + 1))%nat else bt v) (toffoli_of bits).
Proof.
  assert (Hn : bits <> []) by (intros ->; simpl in Hlen; lia).
  pose proof (app_removelast_last 0%nat Hn) as E.
  assert (R : length (removelast bits) = Z.to_nat c).
  { apply (f_equal (@length nat)) in E. rewrite app_length in E. simpl in E. lia. }
  assert (L : level bits (Z.to_nat c) = last bits 0%nat).
  { unfold level. rewrite E at 1. rewrite app_nth2 by lia. rewrite R, Nat.sub_diag. reflexivity. }
  split; [unfold toffoli_of; rewrite app_length; simpl; lia|]. intros v Hv. rewrite all_ones. unfold toffoli_of, level.
  destruct (Z.eqb_spec v (c + 1)) as [->|Hne].
  - unfold bt. rewrite wire_last by (assumption || lia). rewrite L. rewrite app_nth2 by lia. rewrite R, Nat.sub_diag. reflexivity.
  - assert (Hw : (wire v < Z.to_nat c)%nat).
    { pose proof (@wire_lt c fuel Hc1 Hf (v) ltac:(lia)).
      assert (wire v <> Z.to_nat c); [|lia]. intros K. rewrite <- (@wire_last c fuel) in K by (assumption || lia).
      apply (@wire_inj c fuel) in K; lia || assumption. }
    rewrite app_nth1 by lia. unfold bt, level. rewrite E at 2. rewrite app_nth1 by lia. reflexivity.
Qed.

Lemma run_ok : forall S (L : scalar_laws S),
  simulate (NumpyBackend S) (QList (tree_qregs finished (c + 1))) (Some (map Z.of_nat bits)) None
    (map (fun g => CCX [Z.of_nat (wire (g_control g)); Z.of_nat (wire (g_target g))] (sgn g)) (all_gates (final_levels c D)))
  = Ok [(shown OutPrint (toffoli_of bits), s1)].
Proof.
  intros S L. rewrite qregs_dims.
  assert (HL : length bits = length dims) by (rewrite dims_length; lia).
  assert (Hv : valid dims bits).
  { assert (K : forall d s, length s = length d -> (forall x, In x s -> (x < 2)%nat) -> (forall y, In y d -> (2 <= y)%nat) -> valid d s).
    { induction d as [|y d IH]; intros [|x s] Hl H1 H2; try discriminate; constructor.
      - specialize (H1 x (or_introl eq_refl)). specialize (H2 y (or_introl eq_refl)). lia.
      - apply IH; [simpl in Hl; lia | intros z Hz; apply H1; right; exact Hz | intros z Hz; apply H2; right; exact Hz]. }
    apply K; auto. intros y Hy. unfold dims in Hy. apply in_map_iff in Hy as [i [<- _]]. apply nd_ge2. }
  assert (Es : start dims bits = bits) by (unfold start; rewrite HL, Nat.sub_diag; apply app_nil_r).
  pose proof gates_on_nodes as HG.
  rewrite (@simulate_reversible S L dims bits None OutPrint OutAmplitude _ (map (gcx S) (all_gates (final_levels c D)))).
  - rewrite Es. do 4 f_equal.
    apply rel_unique with (f := nrun c (all_gates (final_levels c D)) bt).
    + apply rel_moves; [exact HG|]. split; [lia|]. intros v Hv'. reflexivity.
    + destruct rel_end as [R1 R2]. split; [exact R1|]. intros v Hv'. rewrite R2 by exact Hv'.
      assert (Hx : (bt (c + 1) < 2)%nat).
      { apply Hbits. unfold bt, level. apply nth_In. pose proof (@wire_lt c fuel Hc1 Hf (c + 1) ltac:(lia)). lia. }
      pose proof (@whole c bt Hc bt_lt D HD (bt (c + 1)) Hx v) as W. cbv beta in W. rewrite <- W.
      apply (nrun_feq c (all_gates (final_levels c D))).
      intros u. destruct (Z.eqb_spec u (c + 1)); congruence.
  - intros E. apply (f_equal (@length nat)) in E. rewrite dims_length in E. simpl in E. lia.
  - intros y Hy. unfold dims in Hy. apply in_map_iff in Hy as [i [<- _]]. apply nd_ge2.
  - lia.
  - rewrite Es. exact Hv.
  - right. auto.
  - induction (all_gates (final_levels c D)) as [|g gs IH]; constructor; [|apply IH; inversion HG; assumption].
    apply den_cx.
  - induction HG as [|g gs [H1 H2] HG IH]; constructor; [|exact IH].
    simpl. rewrite dims_length. split; apply wire_lt; assumption || lia.
  - clear HG. induction (all_gates (final_levels c D)); [reflexivity | assumption].
Qed.
End End.
