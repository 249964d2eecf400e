(** * TreeCount: closed forms of the counters of the tree decomposition. *)
From Verif Require Import Py Scalar Mat Utils Gates Circuit Spec Lib Tree TreeLib TreeMap TreeRun TreeEnd.
Set Implicit Arguments.
Open Scope Z_scope.
Ltac Zify.zify_post_hook ::= Z.div_mod_to_equations.

Definition zlen (l : list Z) : Z := Z.of_nat (length l).

Section Counts.
Variable c : Z.
Hypothesis Hc : 2 <= c.
Notation gp := (gp c).
Notation hb := (hb c).

(** 1 when the grandparent of the last leaf exists and has been passed but has
    no right grandchild; 1 when the last inner node has one child and has been
    passed. *)
Definition bare (a : Z) : Z := if (1 <=? gp) && (gp <=? a) && negb (hasr c) then 1 else 0.
Definition single (a : Z) : Z := if (a =? hb) && (c mod 2 =? 0) then 1 else 0.

Lemma sums : forall k, Z.of_nat k <= hb ->
  zsum (map (qcount c) (zrange 1 (Z.of_nat k + 1))) = 4 * Z.min (Z.of_nat k) gp - 4 * bare (Z.of_nat k) /\
  zsum (map (tcount c) (zrange 1 (Z.of_nat k + 1))) = 4 * bare (Z.of_nat k) + 4 * Z.max 0 (Z.of_nat k - gp) - 2 * single (Z.of_nat k) /\
  zlen (flat_map (qb c) (zrange 1 (Z.of_nat k + 1))) = Z.max 0 (Z.of_nat k - gp) /\
  zlen (flat_map (qt c) (zrange 1 (Z.of_nat k + 1))) = Z.min (Z.of_nat k) gp + bare (Z.of_nat k) + Z.max 0 (Z.of_nat k - gp) - single (Z.of_nat k) /\
  zlen (flat_map (qq c) (zrange 1 (Z.of_nat k + 1))) = Z.min (Z.of_nat k) gp - bare (Z.of_nat k).
Proof.
  assert (G0 : 0 <= gp) by (unfold TreeLib.gp; lia). assert (HH : 1 <= hb) by (unfold TreeLib.hb; lia).
  induction k as [|k IH]; intros Hk.
  - rewrite zrange_nil by lia. cbn [map flat_map zsum]. unfold zlen. simpl length. unfold bare, single. simpl Z.of_nat.
    rewrite (proj2 (Z.eqb_neq 0 hb)) by lia.
    destruct (Z.leb_spec 1 gp); destruct (Z.leb_spec gp 0); cbn [andb]; lia.
  - destruct (IH ltac:(lia)) as [I1 [I2 [I3 [I4 I5]]]]. clear IH.
    replace (Z.of_nat (S k) + 1) with (Z.of_nat k + 1 + 1) by lia.
    rewrite (@zsum_last (qcount c) (Z.of_nat k + 1)), (@zsum_last (tcount c) (Z.of_nat k + 1)), (@flat_map_last (qb c) (Z.of_nat k + 1)),
      (@flat_map_last (qt c) (Z.of_nat k + 1)), (@flat_map_last (qq c) (Z.of_nat k + 1)) by lia.
    unfold zlen in *. rewrite !app_length, !Nat2Z.inj_add.
    rewrite I1, I2, I3, I4, I5. clear I1 I2 I3 I4 I5.
    replace (Z.of_nat (S k)) with (Z.of_nat k + 1) in * by lia. set (a := Z.of_nat k) in *. assert (Ha : 0 <= a) by lia. clearbody a.
    unfold qcount, tcount, qb, qt, qq, bare, single. pose proof (hasr_spec c) as HR.
    rewrite !Z.gtb_ltb.
    assert (S1 : (a =? hb) = false) by (apply Z.eqb_neq; lia). rewrite S1. simpl andb.
    assert (S2 : (c <? (a + 1) * 2 + 1) = (a + 1 =? hb) && (c mod 2 =? 0)).
    { destruct (Z.ltb_spec c ((a + 1) * 2 + 1)); destruct (Z.eqb_spec (a + 1) hb); destruct (Z.eqb_spec (c mod 2) 0);
        simpl; try reflexivity; unfold TreeLib.hb in *; lia. }
    rewrite S2. clear S1 S2.
    destruct (Z.ltb_spec gp (a + 1)).
    + destruct (Z.leb_spec gp a); [|lia]. destruct (Z.leb_spec gp (a + 1)); [|lia].
      destruct ((a + 1 =? hb) && (c mod 2 =? 0)); destruct ((1 <=? gp) && true && negb (hasr c)); simpl length; lia.
    + destruct (Z.leb_spec gp a); [lia|].
      assert (K : (a + 1 =? hb) = false) by (apply Z.eqb_neq; lia). rewrite K.
      destruct (Z.leb_spec 1 gp); [|lia].
      destruct (Z.eqb_spec (a + 1) gp) as [E|E].
      * destruct (Z.leb_spec gp (a + 1)); [|lia]. destruct (hasr c); cbn [andb negb length]; lia.
      * destruct (Z.leb_spec gp (a + 1)); [lia|]. cbn [andb negb length]. lia.
Qed.

(** ** Labels *)
Definition labelled (a : arity) (g : tgate) : bool :=
  match g_tq g, a with Ternary, Ternary | Quaternary, Quaternary => true | _, _ => false end.
Definition cnt (a : arity) (gs : list tgate) : Z := Z.of_nat (length (filter (labelled a) gs)).

Lemma cnt_app : forall a l m, cnt a (l ++ m) = cnt a l + cnt a m.
Proof. intros a l m. unfold cnt. rewrite filter_app, app_length. lia. Qed.

Lemma cnt_flat_map : forall A a (f : A -> list tgate) l, cnt a (flat_map f l) = zsum (map (fun x => cnt a (f x)) l).
Proof. intros A a f. induction l as [|x l IH]; [reflexivity|]. cbn [flat_map map zsum]. rewrite cnt_app, IH. reflexivity. Qed.

Lemma zsum_ext : forall A (f g : A -> Z) l, (forall x, In x l -> f x = g x) -> zsum (map f l) = zsum (map g l).
Proof. intros A f g l H. f_equal. apply map_ext_in. exact H. Qed.

Lemma zsum_zero : forall A (f : A -> Z) l, (forall x, In x l -> f x = 0) -> zsum (map f l) = 0.
Proof.
  intros A f. induction l as [|x l IH]; intros H; [reflexivity|]. cbn [map zsum].
  rewrite (H x (or_introl eq_refl)), IH; [reflexivity|]. intros y Hy. apply H. right. exact Hy.
Qed.

Lemma zsum_pick : forall (x : Z) y l, NoDup l -> In x l -> zsum (map (fun i => if x =? i then y else 0) l) = y.
Proof.
  intros x y. induction l as [|z l IH]; intros Hn Hx; [destruct Hx|]. inversion Hn; subst. cbn [map zsum].
  destruct Hx as [->|Hx].
  - rewrite Z.eqb_refl. rewrite zsum_zero; [lia|]. intros w Hw. rewrite (proj2 (Z.eqb_neq x w)); [reflexivity|]. congruence.
  - rewrite (proj2 (Z.eqb_neq x z)) by congruence. rewrite IH by assumption. lia.
Qed.

(** Summing level by level is summing over the nodes. *)
Lemma zsum_add : forall A (f g : A -> Z) l, zsum (map (fun x => f x + g x) l) = zsum (map f l) + zsum (map g l).
Proof. intros A f g. induction l as [|x l IH]; [reflexivity|]. cbn [map zsum]. rewrite IH. lia. Qed.

Lemma zsum_fibers : forall (key f : Z -> Z) is l, NoDup is -> (forall v, In v l -> In (key v) is) ->
  zsum (map (fun i => zsum (map f (filter (fun v => key v =? i) l))) is) = zsum (map f l).
Proof.
  intros key f is l Hn. induction l as [|v l IH]; intros H.
  - apply zsum_zero. reflexivity.
  - cbn [map zsum]. rewrite <- IH by (intros w Hw; apply H; right; exact Hw).
    rewrite <- (@zsum_pick (key v) (f v) is Hn (H v (or_introl eq_refl))) at 1. rewrite <- zsum_add. apply zsum_ext. intros i _.
    cbn [filter]. destruct (key v =? i); cbn [map zsum]; lia.
Qed.

Lemma zsum_rev : forall l, zsum (rev l) = zsum l.
Proof. induction l as [|x l IH]; [reflexivity|]. cbn [rev zsum]. rewrite zsum_app, IH. simpl. lia. Qed.

Variable D : Z.
Hypothesis HD : Z.log2 c <= D.

Lemma cnt_levels : forall a (f : Z -> decomp) (l : list Z), l = zrange 0 D \/ l = rev (zrange 0 D) ->
  cnt a (all_gates (map (fun i => map f (lev c D i)) l)) = zsum (map (fun v => cnt a (decomp_gates (f v))) (zrange 1 (hb + 1))).
Proof.
  intros a f l Hl. rewrite all_gates_levels, cnt_flat_map.
  rewrite (zsum_ext _ (fun i => zsum (map (fun v => cnt a (decomp_gates (f v))) (lev c D i)))) by (intros i _; apply cnt_flat_map).
  assert (E : zsum (map (fun i => zsum (map (fun v => cnt a (decomp_gates (f v))) (lev c D i))) (zrange 0 D))
              = zsum (map (fun v => cnt a (decomp_gates (f v))) (zrange 1 (hb + 1)))).
  { unfold lev. apply zsum_fibers; [apply NoDup_zrange|]. intros v Hv. apply in_zrange in Hv. apply in_zrange.
    apply idx_range; assumption || lia. }
  destruct Hl as [-> | ->]; [exact E|]. rewrite map_rev, zsum_rev. exact E.
Qed.

Lemma cnt_dec : forall a v, cnt a (decomp_gates (rdec c v)) = cnt a (decomp_gates (dec c v)) /\
  cnt Ternary (decomp_gates (dec c v)) = (if v >? gp then (if v * 2 + 1 >? c then 1 else 2) else 0) /\
  cnt Quaternary (decomp_gates (dec c v)) = (if v >? gp then 0 else 2).
Proof.
  intros a v. unfold rdec, dec. destruct (v >? gp); [destruct (v * 2 + 1 >? c) | destruct (v =? gp)]; destruct a; repeat split; reflexivity.
Qed.

Lemma label_sums : forall k, Z.of_nat k <= hb ->
  zsum (map (fun v => cnt Ternary (decomp_gates (dec c v))) (zrange 1 (Z.of_nat k + 1)))
    = 2 * Z.max 0 (Z.of_nat k - gp) - single (Z.of_nat k) /\
  zsum (map (fun v => cnt Quaternary (decomp_gates (dec c v))) (zrange 1 (Z.of_nat k + 1))) = 2 * Z.min (Z.of_nat k) gp.
Proof.
  assert (G0 : 0 <= gp) by (unfold TreeLib.gp; lia). assert (HH : 1 <= hb) by (unfold TreeLib.hb; lia).
  induction k as [|k IH]; intros Hk.
  - rewrite zrange_nil by lia. cbn [map zsum]. unfold single. simpl Z.of_nat. rewrite (proj2 (Z.eqb_neq 0 hb)) by lia. cbn [andb]. lia.
  - destruct (IH ltac:(lia)) as [I1 I2]. clear IH. replace (Z.of_nat (S k) + 1) with (Z.of_nat k + 1 + 1) by lia.
    rewrite (@zsum_last (fun v => cnt Ternary (decomp_gates (dec c v))) (Z.of_nat k + 1)),
      (@zsum_last (fun v => cnt Quaternary (decomp_gates (dec c v))) (Z.of_nat k + 1)) by lia. rewrite I1, I2. clear I1 I2.
    destruct (cnt_dec Ternary (Z.of_nat k + 1)) as [_ [-> ->]].
    replace (Z.of_nat (S k)) with (Z.of_nat k + 1) in * by lia. set (a := Z.of_nat k) in *. assert (Ha : 0 <= a) by lia. clearbody a.
    unfold single. rewrite !Z.gtb_ltb.
    assert (S1 : (a =? hb) = false) by (apply Z.eqb_neq; lia). rewrite S1. simpl andb.
    assert (S2 : (c <? (a + 1) * 2 + 1) = (a + 1 =? hb) && (c mod 2 =? 0)).
    { destruct (Z.ltb_spec c ((a + 1) * 2 + 1)); destruct (Z.eqb_spec (a + 1) hb); destruct (Z.eqb_spec (c mod 2) 0);
        simpl; try reflexivity; unfold TreeLib.hb in *; lia. }
    rewrite S2. destruct (Z.ltb_spec gp (a + 1)).
    + destruct ((a + 1 =? hb) && (c mod 2 =? 0)); lia.
    + pose proof (hb_gp c). assert (K : (a + 1 =? hb) = false) by (apply Z.eqb_neq; lia). rewrite K. cbn [andb]. lia.
Qed.
End Counts.

Section Finished.
Variable flog : Z -> Z.
Variable c : Z.
Variable fuel : nat.
Hypothesis Hc : 2 <= c.
Hypothesis HD : Z.log2 c <= flog c.

Lemma hb_nat : exists k, hb c = Z.of_nat k.
Proof. exists (Z.to_nat (hb c)). unfold hb. lia. Qed.

Lemma counters :
  t_tern (finished flog c fuel) = (if c mod 2 =? 0 then 4 * (c / 4) + 3 else 4 * (c / 4) + 5) /\
  t_quat (finished flog c fuel) = 4 * (c / 2) - 4 * (c / 4) - 4 /\
  zlen (t_qubits (finished flog c fuel)) = c / 2 - c / 4 + 1 /\
  zlen (t_qutrits (finished flog c fuel)) = (if c mod 2 =? 0 then 2 * (c / 4) + 1 else 2 * (c / 4) + 2) /\
  zlen (t_ququads (finished flog c fuel)) = c / 2 - c / 4 - 1.
Proof.
  destruct hb_nat as [k Hk]. destruct (sums Hc k) as [S1 [S2 [S3 [S4 S5]]]]; [lia|].
  cbn [finished count_target tstate t_tern t_quat t_qubits t_qutrits t_ququads]. rewrite Hk.
  rewrite S1, S2. unfold zlen in *. rewrite !app_length, !Nat2Z.inj_add. rewrite S3, S4, S5. rewrite <- Hk. simpl length.
  unfold single, bare. rewrite Z.eqb_refl. simpl andb. pose proof (hasr_spec c) as HR. unfold gp, hb in *.
  destruct (Z.eqb_spec (c mod 2) 0); destruct (Z.leb_spec 1 (c / 4)); destruct (Z.leb_spec (c / 4) (c / 2)); destruct (hasr c);
    cbn [andb negb]; repeat split; try lia; destruct HR as [[HR1 HR2]|[HR1 HR2]]; try discriminate; lia.
Qed.

Lemma label_counts :
  count_label Ternary (final_levels c (flog c)) = (if c mod 2 =? 0 then 4 * (c / 2 - c / 4) - 1 else 4 * (c / 2 - c / 4) + 1) /\
  count_label Quaternary (final_levels c (flog c)) = 4 * (c / 4).
Proof.
  destruct hb_nat as [k Hk]. destruct (label_sums Hc k) as [S1 S2]; [lia|].
  assert (E : forall a, count_label a (final_levels c (flog c)) =
    2 * zsum (map (fun v => cnt a (decomp_gates (dec c v))) (zrange 1 (hb c + 1))) + match a with Ternary => 1 | Quaternary => 0 end).
  { intros a. change (count_label a (final_levels c (flog c))) with (cnt a (all_gates (final_levels c (flog c)))).
    unfold final_levels. rewrite !all_gates_app, !cnt_app. unfold the_levels, the_reflection.
    rewrite (@cnt_levels c Hc (flog c) HD a (dec c)) by auto. rewrite (@cnt_levels c Hc (flog c) HD a (rdec c)) by auto.
    rewrite (zsum_ext (fun v => cnt a (decomp_gates (rdec c v))) (fun v => cnt a (decomp_gates (dec c v))))
      by (intros v _; apply (cnt_dec c a v)).
    assert (M : cnt a (all_gates [[(Some (main_gate (c + 1)), None)]]) = match a with Ternary => 1 | Quaternary => 0 end)
      by (destruct a; reflexivity).
    rewrite M. lia. }
  rewrite !E, Hk, S1, S2. rewrite <- Hk. unfold single. rewrite Z.eqb_refl. unfold gp, hb. simpl andb.
  destruct (Z.eqb_spec (c mod 2) 0); split; lia.
Qed.
End Finished.
