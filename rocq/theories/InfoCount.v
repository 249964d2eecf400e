(** * InfoCount: gate counts of histories of valid calls and calls without effect. *)
From Verif Require Import Py Scalar Mat Utils Gates Circuit Spec Calls HistSpec CallSpec Lib Kern GateMat GateTof Flow Layers Blocks Refine Run History Merge Ignored Info InfoSpec InfoLib.
Set Implicit Arguments.

Section InfoCount.
Variable S : scalar.
Hypothesis L : scalar_laws S.
Notation op := (op S).
Notation circuit := (circuit S).
Notation call := (call S).

Lemma on_line_in : forall n (k : call) r, In (Z.of_nat r) (named k) -> r < n -> on_line n k = true.
Proof.
  intros n k r Hi Hr. unfold on_line. apply existsb_exists. exists r. split; [apply in_seq; lia|].
  apply andb_true_iff. split; apply existsb_exists; exists (Z.of_nat r); split; try exact Hi; apply Z.leb_refl.
Qed.

Lemma denotes_on_line : forall dims (k : call) g, denotes dims k g -> gate_ok dims g -> on_line (length dims) k = true.
Proof.
  intros dims k g H Hok. destruct H; cbn [gate_ok] in Hok.
  - eapply on_line_in; [left; reflexivity | apply Hok].
  - eapply on_line_in; [left; reflexivity | apply Hok].
  - eapply on_line_in; [left; reflexivity | apply Hok].
  - eapply on_line_in; [left; reflexivity | apply Hok].
  - eapply on_line_in; [left; reflexivity | apply Hok].
  - eapply on_line_in; [left; reflexivity | apply Hok].
  - eapply on_line_in; [cbn [named]; apply in_map; eassumption | lia].
Qed.

Lemma denotes_kind : forall dims (k : call) g x, denotes dims k g -> asks_kind x k = kind_eqb x (gate_kind g).
Proof. intros dims k g x H; destruct H, x; reflexivity. Qed.

Lemma idle_count : forall x dims, kcount x (idle S dims) = 0%Z.
Proof.
  intros x dims. apply kcount_none. intros o Ho. unfold idle, idblocks in Ho. rewrite map_map in Ho.
  apply in_map_iff in Ho as [i [<- _]]. reflexivity.
Qed.

Lemma with_layer_layers : forall (c : circuit) l, f_list (c_flow c) <> [] -> layers (with_layer c l) = layers c ++ [l].
Proof.
  intros c l Hne. unfold layers, with_layer, append_moment. cbn [c_flow set_flow f_list].
  destruct (exists_last Hne) as [b [p E]]. rewrite E, rev_app_distr. cbn [rev app].
  rewrite rev_involutive. rewrite !map_app. cbn [map]. rewrite <- app_assoc. reflexivity.
Qed.

Lemma reads_count : forall dims x ks prog, dims <> [] -> (forall d, In d dims -> 0 < d) -> reads dims ks prog ->
  forall init bss (c : circuit) l0 ls, good dims init bss c -> minv (length dims) c false l0 ls ->
  lcount x (layers (after c ks)) = (lcount x (layers c) + how_many x prog)%Z.
Proof.
  intros dims x ks prog Hne Hpos H; induction H as [|k ks g prog Hk Hok H IH|k ks prog Hk H IH]; intros init bss c l0 ls Hg I.
  - unfold after, how_many. simpl. lia.
  - destruct (script_good L Hne Hpos (Forall2_cons k g Hk (Forall2_nil _)) (Forall_cons _ Hok (Forall_nil _)) Hg)
      as [c1 [bss1 [E1 [Hg1 _]]]]. cbn [script] in E1.
    destruct (api c k) as [[c' b]|e] eqn:Ea; cbn [bind] in E1; [|discriminate]. injection E1 as ->.
    assert (Hn : 0 < length dims) by (destruct dims; [congruence|simpl; lia]).
    assert (Hm : k <> CMeasureAll) by (intros ->; inversion Hk).
    destruct (gate_call I Hn Hm Ea) as [g' [lo [hi [ls1 [Hi [Hr [I1 [_ [Had _]]]]]]]]].
    change (after c (k :: ks)) with (after (step c k) ks). unfold step. rewrite Ea.
    rewrite (IH _ _ _ _ _ Hg1 I1), (minv_lcount x I), (minv_lcount x I1), (added_count x Hi Hr Had).
    rewrite (denotes_on_line Hk Hok), andb_true_r, (denotes_kind x Hk).
    unfold how_many. cbn [filter]. destruct (kind_eqb x (gate_kind g)); cbn [length]; lia.
  - change (after c (k :: ks)) with (after (step c k) ks).
    assert (Hm : is_measure_all k = false) by (inversion Hk as [k' r dm Ha| k' r d Ha| | | | ]; subst; try reflexivity; destruct k; try reflexivity; contradiction).
    destruct (step_minv k I) as [ls1 I1]. rewrite Hm, andb_false_r in I1. cbn [orb] in I1.
    destruct (skip_step Hne Hg Hk) as [Es|Es]; rewrite Es in *.
    + exact (IH _ _ _ _ _ Hg I).
    + assert (Hg' : good dims init (bss ++ [idblocks S dims 0 (length dims)]) (with_layer c (idle S dims))).
      { apply with_layer_good; [exact Hg|]. apply idblocks_seg. apply Nat.le_refl. }
      rewrite (IH _ _ _ _ _ Hg' I1), with_layer_layers.
      * rewrite lcount_app, lcount_one, idle_count. lia.
      * intros X. pose proof (i_list (proj1 I)) as E. unfold layers in E. rewrite X in E. discriminate.
Qed.

Theorem reads_reported : forall dims levels out ks prog tail (c : circuit),
  dims <> [] -> (forall d, In d dims -> 2 <= d) ->
  length levels <= length dims -> valid dims (start dims levels) -> reads dims ks prog ->
  tail = [] \/ (exists rest, tail = CMeasureAll :: rest) ->
  history (QList (map Z.of_nat dims)) (Some (map Z.of_nat levels)) out (ks ++ tail) c ->
  holds_counts (i_details (get_circuit_info c)) (fun x => how_many x prog) /\
  i_gate_count (get_circuit_info c) = Z.of_nat (length prog).
Proof.
  intros dims levels out ks prog tail c Hne Hd Hlen Hv HR Ht [c0 [E0 ->]].
  assert (Hpos : forall d, In d dims -> 0 < d) by (intros d H; specialize (Hd d H); lia).
  destruct (@mk_circuit_good S dims levels out Hd Hlen Hv) as [c0' [E0' [Hg0 _]]]. rewrite E0 in E0'. injection E0' as <-.
  destruct (new_minv _ _ _ E0) as [l0 I0]. cbn [nregs] in I0. rewrite map_length in I0.
  assert (E : forall x, lcount x (layers (after c0 (ks ++ tail))) = how_many x prog).
  { intros x. unfold after. rewrite fold_left_app. fold (after c0 ks).
    assert (A : lcount x (layers (after c0 ks)) = how_many x prog).
    { rewrite (@reads_count dims x ks prog Hne Hpos HR _ _ _ _ _ Hg0 I0), (minv_lcount x I0). change (lcount x []) with 0%Z. lia. }
    destruct Ht as [->|[rest ->]]; [exact A|]. cbn [fold_left].
    destruct (after_minv ks I0) as [ls I]. fold (after (step (after c0 ks) CMeasureAll) rest).
    assert (Hn : 0 < length dims) by (destruct dims; [congruence|simpl; lia]).
    destruct (step_minv CMeasureAll I) as [ls' I']. cbn [is_measure_all] in I'.
    rewrite (proj2 (Nat.ltb_lt 0 _) Hn), orb_true_r in I'.
    rewrite (after_measured rest I'). rewrite <- A.
    destruct (inv_measure (proj1 I)) as [c2 [E2 X]]. unfold step. rewrite E2.
    destruct X as [[_ ->]|[_ [_ [X _]]]]; [reflexivity|].
    rewrite (minv_lcount x I), (minv_lcount x (conj X (proj2 I))). reflexivity. }
  rewrite info_value. cbn [i_details i_gate_count]. rewrite (det_ext _ _ E).
  split; [apply filter_det_counts|]. rewrite filter_det_sum. unfold how_many. clear. induction prog as [|g prog IH]; [reflexivity|].
  cbn [filter]. destruct g; cbn [gate_kind kind_eqb length] in *; lia.
Qed.
End InfoCount.
