(** * Ignored: calls without effect. *)
From Verif Require Import Py Scalar Mat Utils Gates Circuit Spec Calls HistSpec CallSpec Lib Kern GateMat GateTof Flow Layers Blocks Refine Run History Merge.
Set Implicit Arguments.

Section Ignored.
Variable S : scalar.
Hypothesis L : scalar_laws S.
Notation op := (op S).
Notation circuit := (circuit S).
Notation call := (call S).
Notation NB := (NumpyBackend S).

Definition idle (dims : list nat) : list op := map (@bo S) (idblocks S dims 0 (length dims)).

Lemma layer_outside : forall dims lo hi (g : op), (hi < 0 \/ Z.of_nat (length dims) <= lo)%Z ->
  layer_list (map Z.of_nat dims) lo hi g (length (map Z.of_nat dims)) = idle dims.
Proof.
  intros dims lo hi g H. rewrite map_length. unfold layer_list, idle, idblocks. rewrite map_map.
  rewrite <- (flat_map_singleton (fun i => bo (idblk S dims i))).
  assert (G : forall l, (forall i, In i l -> i < length dims) ->
    flat_map (fun i => if ((lo <=? Z.of_nat i) && (Z.of_nat i <=? hi))%Z
                     then (if (Z.of_nat i =? Z.max 0 lo)%Z then [g] else [])
                     else [idop S (map Z.of_nat dims) i]) l
    = flat_map (fun i => [bo (idblk S dims i)]) l).
  { induction l as [|i l IH]; intros Hl; [reflexivity|]. cbn [flat_map]. rewrite IH by (intros; apply Hl; right; assumption).
    f_equal. pose proof (Hl i (or_introl eq_refl)).
    replace ((lo <=? Z.of_nat i) && (Z.of_nat i <=? hi))%Z with false.
    - unfold idop. change 0%Z with (Z.of_nat 0). rewrite map_nth. reflexivity.
    - symmetry. apply andb_false_iff. rewrite !Z.leb_gt. lia. }
  apply G. intros i Hi. apply in_seq in Hi. lia.
Qed.

Lemma skip_append : forall dims init bss (c : circuit) k, dims <> [] -> good dims init bss c ->
  k <> CMeasureAll -> gate_layer c k = Ok (idle dims) -> api c k = Ok (with_layer c (idle dims), true).
Proof.
  intros dims init bss c k Hne Hg Hk E. rewrite api_layer, E. cbn [bind].
  destruct Hg as [Hsh Hm [m0 [ms [El _]]]].
  unfold populate_opflow. destruct (rev (f_list (c_flow c))) as [|last before] eqn:Er.
  { apply (f_equal (@rev _)) in Er. rewrite rev_involutive, El in Er. discriminate. }
  rewrite Hm. replace (forallb (fun b => b) (repeat false (length dims))) with false
    by (destruct dims; [congruence | reflexivity]).
  cbn [mk_moment m_list]. unfold idle. rewrite find_idblocks. cbn [bind].
  rewrite detect_none by (eapply seg_no_meas; apply idblocks_seg; rewrite Nat.add_0_l; apply Nat.le_refl).
  cbn [bind]. unfold with_layer. rewrite Hm.
  replace (is_toffoli k || is_measure_all k || true) with true by (destruct k; reflexivity). reflexivity.
Qed.

Lemma py_min_in : forall l m, py_min l = Ok m -> In m l /\ forall x, In x l -> (m <= x)%Z.
Proof.
  intros [|x l] m H; [discriminate|]. destruct (py_min_ex x l) as [m' [E [I B]]]. rewrite H in E. injection E as ->. auto.
Qed.
Lemma py_max_in : forall l m, py_max l = Ok m -> In m l /\ forall x, In x l -> (x <= m)%Z.
Proof.
  intros [|x l] m H; [discriminate|]. destruct (py_max_ex x l) as [m' [E [I B]]]. rewrite H in E. injection E as ->. auto.
Qed.

Lemma py_get_big : forall A (l : list A) r, (Z.of_nat (length l) <= r)%Z -> py_get l r = Err IndexError.
Proof.
  intros A l r H. unfold py_get, py_index.
  replace (r <? Z.of_nat (length l))%Z with false by (symmetry; apply Z.ltb_ge; lia). rewrite andb_false_r.
  replace (r <? 0)%Z with false by (symmetry; apply Z.ltb_ge; lia). rewrite andb_false_r. reflexivity.
Qed.

Lemma py_get_low : forall A (l : list A) r, (r < - Z.of_nat (length l))%Z -> py_get l r = Err IndexError.
Proof.
  intros A l r H. unfold py_get, py_index.
  replace (0 <=? r)%Z with false by (symmetry; apply Z.leb_gt; lia).
  replace (- Z.of_nat (length l) <=? r)%Z with false by (symmetry; apply Z.leb_gt; lia). reflexivity.
Qed.

Lemma mapM_bad : forall A B (f : A -> res B) l x e, In x l -> f x = Err e ->
  exists e', mapM f l = Err e'.
Proof.
  intros A B f l; induction l as [|y l IH]; intros x e Hin He; [contradiction|]. simpl.
  destruct (f y) as [b|e'] eqn:E; [|eexists; reflexivity]. cbn [bind].
  destruct Hin as [->|Hin]; [congruence|]. destruct (IH x e Hin He) as [e' ->]. eexists; reflexivity.
Qed.

(** What a skipped call does. *)
Lemma skip_layer : forall dims (c : circuit) k, shaped dims c -> skipped dims k ->
  (exists e, gate_layer c k = Err e) \/ gate_layer c k = Ok (idle dims).
Proof.
  intros dims c k Hs Hk.
  assert (Hlen : len_ok c) by (apply (shaped_len_ok Hs)).
  assert (Ed := sh_dims Hs).
  assert (Eq := sh_qregs Hs).
  assert (En := sh_len Hs).
  assert (One : forall r (g : op), outside (length dims) r -> moment_data c (RInt r) g = Ok (idle dims)).
  { intros r g Hr. rewrite moment_data_int by exact Hlen. rewrite layer_int_list, Ed. f_equal. apply layer_outside. unfold outside in Hr. lia. }
  assert (Many : forall l (g : op), (forall r, In r l -> (r < 0)%Z) \/ (forall r, In r l -> (Z.of_nat (length dims) <= r)%Z) ->
     (exists e, moment_data c (RList l) g = Err e) \/ moment_data c (RList l) g = Ok (idle dims)).
  { intros l g H. destruct l as [|x l]; [left; eexists; reflexivity|]. right.
    destruct (py_min_ex x l) as [lo [Elo [Ilo _]]]. destruct (py_max_ex x l) as [hi [Ehi [Ihi _]]].
    rewrite (@moment_data_list S c (x :: l) g lo hi Hlen Elo Ehi), Ed. f_equal. apply layer_outside.
    destruct H as [H|H]; [left | right]; auto. }
  assert (V : forall r d, r < length dims -> (Z.of_nat (nth r dims 0%nat) < d)%Z -> validate1 c (Z.of_nat r) (Some d) = Err ValueError).
  { intros r d Hr Hd. unfold validate1. rewrite En. destruct (Z.ltb_spec (Z.of_nat (length dims) - 1) (Z.of_nat r)); [lia|].
    destruct (Z.eqb_spec d 0); [lia|]. rewrite Ed. rewrite (@py_get_nat Z _ _ 0%Z) by (rewrite map_length; exact Hr). cbn [bind].
    change 0%Z with (Z.of_nat 0). rewrite map_nth. destruct (Z.ltb_spec (Z.of_nat (nth r dims 0)) d); [reflexivity | lia]. }
  destruct Hk as [k r dm Ha Hr|k r d Ha Hr Hd|a p Ha|cs t p H|u l dm H|r].
  - destruct k as [q d|q d p|q d| | |u [q|l] d| |]; simpl in Ha; try contradiction; destruct Ha as [-> ->]; cbn [gate_layer validate].
    1-3: destruct (validate1 c r dm); cbn [bind]; [|left; eexists; reflexivity];
         destruct (dims_or c dm r); cbn [bind]; [|left; eexists; reflexivity]; right; apply One; exact Hr.
    destruct (validate1 c r dm); cbn [bind]; [|left; eexists; reflexivity];
         destruct (dims_or c dm r); cbn [bind]; [|left; eexists; reflexivity]; right; apply One; exact Hr.
  - left. destruct k as [q d'|q d' p|q d'| | |u [q|l] d'| |]; simpl in Ha; try contradiction; destruct Ha as [-> ->]; cbn [gate_layer validate];
      rewrite (V r d Hr Hd); eexists; reflexivity.
  - cbn [gate_layer]. destruct (py_get a 0) as [a0|e0] eqn:E0; cbn [bind]; [|left; eexists; reflexivity].
    destruct (py_get a 1) as [a1|e1] eqn:E1; cbn [bind]; [|left; eexists; reflexivity].
    destruct Ha as [Ha|Ha]; [|apply Many; tauto].
    exfalso. unfold py_get, py_index in E1. destruct a as [|x [|y a]]; simpl in *; try discriminate; lia.
  - cbn [gate_layer]. rewrite Eq. cbn [qregs_list]. destruct H as [[r [Hin Hr]]|H].
    + left. unfold mk_toffoli, toffoli_dm.
      assert (Hin' : In r (cs ++ [t])) by (apply in_or_app; destruct Hin as [->|Hin]; [right; left; reflexivity | left; exact Hin]).
      destruct (py_min (cs ++ [t])) as [lb|e] eqn:Elb; cbn [bind]; [|eexists; reflexivity].
      destruct (py_max (cs ++ [t])) as [ub|e] eqn:Eub; cbn [bind]; [|eexists; reflexivity].
      apply py_min_in in Elb as [Il Bl]. apply py_max_in in Eub as [Iu Bu]. specialize (Bl _ Hin'). specialize (Bu _ Hin').
      destruct (@mapM_bad _ _ (py_get (map Z.of_nat dims)) (zrange lb (ub + 1)) r IndexError) as [e ->].
      * apply in_zrange. lia.
      * destruct Hr as [Hr|Hr]; [apply py_get_low | apply py_get_big]; rewrite map_length; exact Hr.
      * eexists; reflexivity.
    + destruct (mk_toffoli S cs t p (map Z.of_nat dims)) as [g|e] eqn:E; cbn [bind]; [|left; eexists; reflexivity].
      pose proof (mk_toffoli_shape _ _ _ _ E) as [lb [ub [ds [u [Hlb [Hub ->]]]]]].
      apply Many. left. intros r Hr. apply in_zrange in Hr.
      apply py_max_in in Hub as [Iu _]. assert (ub < 0)%Z; [|lia]. apply H.
      apply in_app_or in Iu as [Iu|[->|[]]]; [right; exact Iu | left; reflexivity].
  - cbn [gate_layer]. destruct H as [[r [Hin Hr]]|H].
    + left. destruct Hr as [Hr|Hr].
      * assert (El : py_get (c_dims c) r = Err IndexError) by (apply py_get_low; rewrite Ed, map_length; exact Hr).
        destruct (validate c (RList l) dm) as [[]|e] eqn:Ev; cbn [bind]; [|eexists; reflexivity].
        destruct (@mapM_bad _ _ (py_get (c_dims c)) l r IndexError Hin El) as [e He].
        destruct dm as [d|]; [|rewrite He; eexists; reflexivity].
        destruct (Z.eqb_spec d 0) as [->|Hd]; [rewrite He; eexists; reflexivity|]. exfalso. cbn [validate] in Ev.
        destruct (@mapM_bad _ _ (fun q => validate1 c q (Some d)) l r IndexError Hin) as [e' He'].
        { unfold validate1. rewrite En, El. destruct (Z.ltb_spec (Z.of_nat (length dims) - 1) r); [lia|].
          destruct (Z.eqb_spec d 0); [contradiction | reflexivity]. }
        rewrite He' in Ev. discriminate.
      * cbn [validate]. destruct (@mapM_bad _ _ (fun q => validate1 c q dm) l r ValueError Hin) as [e ->].
        { unfold validate1. rewrite En. destruct (Z.ltb_spec (Z.of_nat (length dims) - 1) r); [reflexivity | lia]. }
        eexists; reflexivity.
    + destruct (validate c (RList l) dm); cbn [bind]; [|left; eexists; reflexivity].
      match goal with |- context [bind ?x _] => destruct x end; cbn [bind]; [|left; eexists; reflexivity].
      apply Many. left; exact H.
  - left. eexists; reflexivity.
Qed.

Lemma skip_step : forall dims init bss (c : circuit) k, dims <> [] -> good dims init bss c -> skipped dims k ->
  step c k = c \/ step c k = with_layer c (idle dims).
Proof.
  intros dims init bss c k Hne Hg Hk.
  assert (Hm : k <> CMeasureAll) by (intros ->; inversion Hk as [k' r dm Ha| k' r d Ha| | | | ]; subst; contradiction).
  unfold step. destruct (skip_layer (g_shaped Hg) Hk) as [[e E]|E].
  - left. rewrite api_layer, E. reflexivity.
  - right. rewrite (skip_append Hne Hg Hm E). reflexivity.
Qed.

Lemma after_good : forall dims ks prog, dims <> [] -> (forall d, In d dims -> 0 < d) -> reads dims ks prog ->
  forall init bss (c : circuit), good dims init bss c ->
  exists bss', good dims init bss' (after c ks) /\ c_out (after c ks) = c_out c /\
    forall psi s, valid dims s -> vec dims psi bss' s = final dims prog (vec dims psi bss) s.
Proof.
  intros dims ks prog Hne Hpos H; induction H as [|k ks g prog Hk Hok H IH|k ks prog Hk H IH]; intros init bss c Hg.
  - exists bss. auto.
  - destruct (script_good L Hne Hpos (Forall2_cons k g Hk (Forall2_nil _)) (Forall_cons _ Hok (Forall_nil _)) Hg)
      as [c1 [bss1 [E1 [Hg1 [Eo1 Ev1]]]]].
    cbn [script] in E1. unfold after. cbn [fold_left].
    assert (Es : step c k = c1). { unfold step. destruct (api c k) as [[c' b]|e]; cbn [bind] in E1; [congruence | discriminate]. }
    rewrite Es. destruct (IH init bss1 c1 Hg1) as [bss2 [Hg2 [Eo2 Ev2]]]. exists bss2. split; [exact Hg2|].
    unfold after in *. split; [congruence|]. intros psi s Hs. rewrite Ev2 by exact Hs. simpl.
    apply final_ext; [|exact Hs]. intros t Ht. apply (Ev1 psi t Ht).
  - destruct (skip_step Hne Hg Hk) as [Es|Es]; unfold after; cbn [fold_left]; rewrite Es.
    + apply IH; exact Hg.
    + assert (Hg' : good dims init (bss ++ [idblocks S dims 0 (length dims)]) (with_layer c (idle dims))).
      { apply with_layer_good; [exact Hg|]. apply idblocks_seg. apply Nat.le_refl. }
      destruct (IH init _ _ Hg') as [bss2 [Hg2 [Eo2 Ev2]]]. exists bss2. split; [exact Hg2|].
      unfold after in *. split; [rewrite Eo2; reflexivity|].
      intros psi s Hs. rewrite Ev2 by exact Hs. apply final_ext; [|exact Hs]. intros t Ht. rewrite vec_snoc.
      rewrite <- (bsum_delta_l L (vec dims psi bss) Ht). apply kapply_ext; [exact Ht | | auto].
      intros u Hu. apply idblocks_kern; [exact L | apply (valid_length Ht) | apply (valid_length Hu)].
Qed.

(** The result of a circuit whose history mixes valid calls and calls without
    effect. *)
Theorem history_run : forall dims levels out ty me ks prog c,
  dims <> [] -> (forall d, In d dims -> 2 <= d) ->
  length levels <= length dims -> valid dims (start dims levels) -> wants dims out ty me -> reads dims ks prog ->
  history (QList (map Z.of_nat dims)) (Some (map Z.of_nat levels)) out ks c ->
  run NB (after c [CMeasureAll]) = Ok (report ty me (answer dims (final dims prog (basis S (start dims levels))))).
Proof.
  intros dims levels out ty me ks prog c Hne Hd Hlen Hv Hw HF [c0 [E0 ->]].
  assert (Hpos : forall d, In d dims -> 0 < d) by (intros d H; specialize (Hd d H); lia).
  destruct (@mk_circuit_good S dims levels out Hd Hlen Hv) as [c0' [E0' [Hg0 Eo0]]]. rewrite E0 in E0'. injection E0' as <-.
  destruct (after_good Hne Hpos HF Hg0) as [bss1 [Hg1 [Eo1 Ev1]]].
  destruct (@run_good S L dims _ bss1 (after c0 ks) ty me Hne Hpos Hv Hg1) as [c2 [E2 Er]].
  { rewrite Eo1, Eo0. destruct Hw as [->|[-> [-> ->]]]; reflexivity. }
  assert (Em : after (after c0 ks) [CMeasureAll] = c2) by (unfold after at 1; cbn [fold_left]; unfold step; rewrite E2; reflexivity).
  rewrite Em, Er. do 2 f_equal. apply answer_ext. intros s Hs. rewrite Ev1 by exact Hs. reflexivity.
Qed.

End Ignored.
