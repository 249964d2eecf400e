(** * TreeLib: the loop of the tree decomposition in closed form. *)
From Coq Require FinFun.
From Verif Require Import Py Scalar Mat Utils Gates Circuit Spec Lib Tree.
Set Implicit Arguments.
Open Scope Z_scope.
Ltac Zify.zify_post_hook ::= Z.div_mod_to_equations.

(** ** Ranges *)
Lemma zrange_nil : forall a b, b <= a -> zrange a b = [].
Proof. intros a b H. unfold zrange. replace (Z.to_nat (b - a)) with 0%nat by lia. reflexivity. Qed.

Lemma zrange_last : forall a b, a <= b -> zrange a (b + 1) = zrange a b ++ [b].
Proof.
  intros a b H. unfold zrange. replace (Z.to_nat (b + 1 - a)) with (S (Z.to_nat (b - a))) by lia.
  rewrite seq_S, map_app. simpl. do 2 f_equal. lia.
Qed.

Lemma zrange_first : forall a b, a < b -> zrange a b = a :: zrange (a + 1) b.
Proof.
  intros a b H. unfold zrange. replace (Z.to_nat (b - a)) with (S (Z.to_nat (b - (a + 1)))) by lia.
  simpl. f_equal; [lia|]. rewrite <- seq_shift, map_map. apply map_ext. intros k. lia.
Qed.

Lemma in_zrange : forall a b x, In x (zrange a b) <-> a <= x < b.
Proof.
  intros a b x. unfold zrange. rewrite in_map_iff. split.
  - intros [k [<- H]]. apply in_seq in H. lia.
  - intros H. exists (Z.to_nat (x - a)). split; [lia|]. apply in_seq. lia.
Qed.

Lemma zrange_length : forall a b, length (zrange a b) = Z.to_nat (b - a).
Proof. intros a b. unfold zrange. rewrite map_length, seq_length. reflexivity. Qed.

Lemma NoDup_zrange : forall a b, NoDup (zrange a b).
Proof.
  intros a b. unfold zrange. apply FinFun.Injective_map_NoDup; [|apply seq_NoDup].
  intros x y H. lia.
Qed.

Lemma nth_error_zrange : forall a b k, (k < Z.to_nat (b - a))%nat -> nth_error (zrange a b) k = Some (a + Z.of_nat k).
Proof.
  intros a b k H. unfold zrange. rewrite nth_error_map, (nth_error_nth' _ 0%nat) by (rewrite seq_length; exact H).
  rewrite seq_nth by exact H. reflexivity.
Qed.

Lemma py_get_zrange : forall A (F : Z -> A) D i, 0 <= i < D -> py_get (map F (zrange 0 D)) i = Ok (F i).
Proof.
  intros A F D i H. unfold py_get, py_index. rewrite map_length, zrange_length.
  rewrite (proj2 (Z.leb_le 0 i)) by lia. rewrite (proj2 (Z.ltb_lt i _)) by lia. simpl.
  rewrite nth_error_map, nth_error_zrange by lia. simpl. do 2 f_equal. lia.
Qed.

Lemma py_set_zrange : forall A (F : Z -> A) D i v, 0 <= i < D ->
  py_set (map F (zrange 0 D)) i v = Ok (map (fun j => if j =? i then v else F j) (zrange 0 D)).
Proof.
  intros A F D i v H. unfold py_set, py_index. rewrite map_length, zrange_length.
  rewrite (proj2 (Z.leb_le 0 i)) by lia. rewrite (proj2 (Z.ltb_lt i _)) by lia. simpl. f_equal.
  apply nth_ext with (d := v) (d' := v); [rewrite upd_length, !map_length; reflexivity|].
  intros k Hk. rewrite upd_length, map_length, zrange_length in Hk.
  assert (E : forall G : Z -> A, nth_error (map G (zrange 0 D)) k = Some (G (Z.of_nat k))).
  { intros G. rewrite nth_error_map, nth_error_zrange by lia. reflexivity. }
  rewrite nth_upd, map_length, zrange_length.
  rewrite (proj2 (Nat.ltb_lt k _)) by exact Hk. rewrite andb_true_r.
  rewrite (nth_error_nth _ _ _ (E _)).
  rewrite (nth_error_nth _ _ _ (E _)). destruct (Nat.eqb_spec k (Z.to_nat i)); destruct (Z.eqb_spec (Z.of_nat k) i); try reflexivity; lia.
Qed.

Fixpoint zsum (l : list Z) : Z := match l with [] => 0 | x :: xs => x + zsum xs end.
Lemma zsum_app : forall l m, zsum (l ++ m) = zsum l + zsum m.
Proof. induction l as [|x l IH]; intros m; simpl; [reflexivity | rewrite IH; lia]. Qed.

Lemma set_add_new : forall x s, ~ In x s -> set_add x s = s ++ [x].
Proof.
  intros x s H. unfold set_add. destruct (zmem x s) eqn:E; [|reflexivity]. exfalso. apply H.
  unfold zmem in E. apply existsb_exists in E as [y [Hy E]]. apply Z.eqb_eq in E. congruence.
Qed.

(** ** The loop *)
Section Loop.
Variables c D : Z.
Hypothesis Hc : 2 <= c.
Hypothesis HD : Z.log2 c <= D.

Definition gp : Z := c / 4.
Definition hb : Z := c / 2.
Definition hasr : bool := 2 * (c / 2) - 4 * (c / 4) =? 2.
Definition cdn (v : Z) : Z := if v <=? gp then Z.log2 v else if gp =? 0 then 0 else Z.log2 gp + 1.
Definition idx (v : Z) : Z := D - 1 - cdn v.

Definition dec (v : Z) : decomp :=
  if v >? gp then make_gates (v * 2) v (v * 2 + 1) (v * 2 + 1 >? c) SId
  else if v =? gp then make_gates (v * 2) v (v * 2 + 1) true SGpll
  else make_gates (v * 2) v (v * 2 + 1) true SSd.
Definition tcount (v : Z) : Z :=
  if v >? gp then (if v * 2 + 1 >? c then 2 else 4) else if v =? gp then (if hasr then 0 else 4) else 0.
Definition qcount (v : Z) : Z :=
  if v >? gp then 0 else if v =? gp then (if hasr then 4 else 0) else 4.
Definition qb (v : Z) : list Z := if v >? gp then [v * 2] else [].
Definition qt (v : Z) : list Z :=
  if v >? gp then (if v * 2 + 1 >? c then [] else [v * 2 + 1])
  else if v =? gp then (if hasr then [v * 2] else [v * 2; v * 2 + 1]) else [v * 2].
Definition qq (v : Z) : list Z :=
  if v >? gp then [] else if v =? gp then (if hasr then [v * 2 + 1] else []) else [v * 2 + 1].
Definition cur (a : Z) : Z :=
  if a =? 1 then -1 else if a - 1 <? gp then Z.log2 (a - 1) else if gp =? 0 then 0 else Z.log2 gp + 1.

Definition tstate (m : list (Z * Z)) (a : Z) : tree :=
  {| t_n := c + 1; t_c := c; t_queue := zrange a (Z.min (2 * a - 1) hb + 1); t_depth := D;
     t_levels := map (fun i => map dec (filter (fun v => idx v =? i) (zrange 1 a))) (zrange 0 D);
     t_quat := zsum (map qcount (zrange 1 a)); t_tern := zsum (map tcount (zrange 1 a)); t_gpll := gp;
     t_qubits := [c + 1] ++ flat_map qb (zrange 1 a);
     t_qutrits := [1] ++ flat_map qt (zrange 1 a);
     t_ququads := flat_map qq (zrange 1 a);
     t_mapping := m; t_current := cur a |}.

Lemma hb_gp : hb = 2 * gp \/ hb = 2 * gp + 1.
Proof. unfold hb, gp. lia. Qed.

Lemma hasr_spec : hasr = true /\ hb = 2 * gp + 1 \/ hasr = false /\ hb = 2 * gp.
Proof. unfold hasr, hb, gp. destruct (Z.eqb_spec (2 * (c / 2) - 4 * (c / 4)) 2); lia. Qed.

Lemma hb_pos : 1 <= hb.
Proof. unfold hb. lia. Qed.

Lemma log_gp : 1 <= gp -> Z.log2 gp + 2 <= D.
Proof.
  intros H. assert (Z.log2 (gp * 2 ^ 2) = 2 + Z.log2 gp) by (apply Z.log2_mul_pow2; lia).
  assert (Z.log2 (gp * 2 ^ 2) <= Z.log2 c) by (apply Z.log2_le_mono; unfold gp; lia). lia.
Qed.

Lemma D_pos : 1 <= D.
Proof. assert (Z.log2 2 <= Z.log2 c) by (apply Z.log2_le_mono; lia). change (Z.log2 2) with 1 in H. lia. Qed.

Lemma cdn_range : forall v, 1 <= v -> 0 <= cdn v < D.
Proof.
  intros v Hv. unfold cdn. pose proof D_pos. pose proof (Z.log2_nonneg gp).
  destruct (Z.leb_spec v gp); [|destruct (Z.eqb_spec gp 0); [lia|]].
  - pose proof (Z.log2_nonneg v). assert (Z.log2 v <= Z.log2 gp) by (apply Z.log2_le_mono; lia).
    pose proof (log_gp ltac:(lia)). lia.
  - assert (0 <= gp) by (unfold gp; lia). pose proof (log_gp ltac:(lia)). lia.
Qed.

Lemma idx_range : forall v, 1 <= v -> 0 <= idx v < D.
Proof. intros v Hv. unfold idx. pose proof (cdn_range Hv). lia. Qed.

(** The depth counter at the moment the level of [a] is chosen. *)
Lemma depth_step : forall a, 1 <= a <= hb ->
  (if a =? Z.shiftl 1 (cur a + 1) then cur a + 1 else cur a) = cdn a.
Proof.
  intros a Ha. unfold cur. destruct (Z.eqb_spec a 1) as [->|H1].
  - change (Z.shiftl 1 (-1 + 1)) with 1. rewrite Z.eqb_refl. unfold cdn.
    destruct (Z.leb_spec 1 gp); [reflexivity|]. destruct (Z.eqb_spec gp 0); [reflexivity|].
    assert (0 <= gp) by (unfold gp; lia). lia.
  - destruct (Z.ltb_spec (a - 1) gp) as [H2|H2].
    + rewrite Z.shiftl_1_l. pose proof (Z.log2_nonneg (a - 1)).
      unfold cdn. rewrite (proj2 (Z.leb_le a gp)) by lia.
      destruct (Z.log2_spec (a - 1)) as [L1 L2]; [lia|]. rewrite <- Z.add_1_r in L2.
      destruct (Z.eqb_spec a (2 ^ (Z.log2 (a - 1) + 1))) as [E|E].
      * symmetry. apply Z.log2_unique; [lia|]. rewrite <- E. rewrite Z.pow_succ_r by lia. rewrite <- E. lia.
      * symmetry. apply Z.log2_unique; [lia|]. split; [lia|]. rewrite <- Z.add_1_r. lia.
    + assert (0 <= gp) by (unfold gp; lia). pose proof hb_gp.
      unfold cdn. rewrite (proj2 (Z.leb_gt a gp)) by lia. destruct (Z.eqb_spec gp 0) as [E|E].
      * lia.
      * rewrite Z.shiftl_1_l. pose proof (Z.log2_nonneg gp).
        destruct (Z.log2_spec gp) as [L1 L2]; [lia|]. rewrite <- Z.add_1_r in L2.
        destruct (Z.eqb_spec a (2 ^ (Z.log2 gp + 1 + 1))) as [F|F]; [|reflexivity].
        rewrite (Z.pow_add_r 2 (Z.log2 gp + 1) 1) in F by lia. change (2 ^ 1) with 2 in F. lia.
Qed.

Lemma cur_next : forall a, 1 <= a <= hb ->
  cur (a + 1) = if a =? gp then cdn a + 1 else cdn a.
Proof.
  intros a Ha. unfold cur, cdn. rewrite (proj2 (Z.eqb_neq (a + 1) 1)) by lia.
  replace (a + 1 - 1) with a by lia.
  destruct (Z.ltb_spec a gp); destruct (Z.leb_spec a gp); destruct (Z.eqb_spec a gp); destruct (Z.eqb_spec gp 0);
    subst; try lia.
Qed.

Lemma append_step : forall a, 1 <= a ->
  append_level (map (fun i => map dec (filter (fun v => idx v =? i) (zrange 1 a))) (zrange 0 D)) (idx a) (dec a)
  = Ok (map (fun i => map dec (filter (fun v => idx v =? i) (zrange 1 (a + 1)))) (zrange 0 D)).
Proof.
  intros a Ha. unfold append_level. pose proof (idx_range Ha).
  rewrite py_get_zrange by assumption. cbn [bind]. rewrite py_set_zrange by assumption. f_equal.
  apply map_ext. intros i. rewrite zrange_last by lia. rewrite filter_app, map_app. cbn [filter].
  destruct (Z.eqb_spec i (idx a)) as [->|Hn].
  - rewrite Z.eqb_refl. reflexivity.
  - rewrite (proj2 (Z.eqb_neq (idx a) i)) by congruence. rewrite app_nil_r. reflexivity.
Qed.

Lemma in_qb : forall v x, In x (qb v) -> x = v * 2.
Proof. intros v x. unfold qb. destruct (v >? gp); simpl; intuition. Qed.
Lemma in_qt : forall v x, In x (qt v) -> x = v * 2 \/ x = v * 2 + 1.
Proof. intros v x. unfold qt. destruct (v >? gp), (v * 2 + 1 >? c), (v =? gp), hasr; simpl; intuition. Qed.
Lemma in_qq : forall v x, In x (qq v) -> x = v * 2 + 1.
Proof. intros v x. unfold qq. destruct (v >? gp), (v =? gp), hasr; simpl; intuition. Qed.

Lemma fresh : forall (f : Z -> list Z) a x, (forall v y, In y (f v) -> y = v * 2 \/ y = v * 2 + 1) ->
  a * 2 <= x -> ~ In x (flat_map f (zrange 1 a)).
Proof.
  intros f a x Hf Hx H. apply in_flat_map in H as [v [Hv Hy]]. apply in_zrange in Hv. specialize (Hf v x Hy). lia.
Qed.

Lemma flat_map_last : forall (f : Z -> list Z) a, 1 <= a ->
  flat_map f (zrange 1 (a + 1)) = flat_map f (zrange 1 a) ++ f a.
Proof. intros f a Ha. rewrite zrange_last by lia. rewrite flat_map_app. simpl. rewrite app_nil_r. reflexivity. Qed.

Lemma zsum_last : forall (f : Z -> Z) a, 1 <= a ->
  zsum (map f (zrange 1 (a + 1))) = zsum (map f (zrange 1 a)) + f a.
Proof. intros f a Ha. rewrite zrange_last by lia. rewrite map_app, zsum_app. simpl. lia. Qed.

Lemma body_step : forall m a, 1 <= a <= hb ->
  tree_body (tstate m a) a (zrange (a + 1) (Z.min (2 * a - 1) hb + 1)) = Ok (tstate m (a + 1)).
Proof.
  intros m a Ha. unfold tree_body, check_id, check_gpll, gpll_has_right_grandchild. cbn [tstate t_n t_c t_queue t_depth t_levels t_quat t_tern t_gpll
    t_qubits t_qutrits t_ququads t_mapping t_current].
  rewrite depth_step by exact Ha. fold hasr.
  change (D - 1 - cdn a) with (idx a). pose proof hb_gp as HB. pose proof hasr_spec as HR.
  assert (F1 : set_add (a * 2) ([c + 1] ++ flat_map qb (zrange 1 a)) = [c + 1] ++ flat_map qb (zrange 1 a) ++ [a * 2]).
  { rewrite set_add_new; [rewrite <- app_assoc; reflexivity|]. intros H; apply in_app_or in H as [[H|[]]|H]; [unfold hb in Ha; lia|].
    revert H. apply fresh; [|lia]. intros v y Hy. left. apply in_qb; exact Hy. }
  assert (F2 : forall x, a * 2 <= x -> set_add x ([1] ++ flat_map qt (zrange 1 a)) = [1] ++ flat_map qt (zrange 1 a) ++ [x]).
  { intros x Hx. rewrite set_add_new; [rewrite <- app_assoc; reflexivity|]. intros H; apply in_app_or in H as [[H|[]]|H]; [lia|].
    revert H. apply fresh; [|lia]. exact in_qt. }
  assert (F3 : set_add (a * 2 + 1) (flat_map qq (zrange 1 a)) = flat_map qq (zrange 1 a) ++ [a * 2 + 1]).
  { apply set_add_new. apply fresh; [|lia]. intros v y Hy. right. apply in_qq; exact Hy. }
  assert (F4 : set_add (a * 2 + 1) ([1] ++ flat_map qt (zrange 1 a) ++ [a * 2]) = [1] ++ flat_map qt (zrange 1 a) ++ [a * 2; a * 2 + 1]).
  { rewrite set_add_new; [rewrite <- !app_assoc; reflexivity|]. intros H; apply in_app_or in H as [[H|[]]|H]; [lia|]. apply in_app_or in H as [H|[H|[]]]; [|lia].
    revert H. apply fresh; [|lia]. exact in_qt. }
  assert (Hnext : forall l1 l2 l3 k1 k2 q cu, q = zrange (a + 1) (Z.min (2 * (a + 1) - 1) hb + 1) -> cu = cur (a + 1) ->
    k1 = qcount a -> k2 = tcount a -> l1 = qb a -> l2 = qt a -> l3 = qq a ->
    Ok {| t_n := c + 1; t_c := c; t_queue := q; t_depth := D;
          t_levels := map (fun i => map dec (filter (fun v => idx v =? i) (zrange 1 (a + 1)))) (zrange 0 D);
          t_quat := zsum (map qcount (zrange 1 a)) + k1; t_tern := zsum (map tcount (zrange 1 a)) + k2; t_gpll := gp;
          t_qubits := [c + 1] ++ flat_map qb (zrange 1 a) ++ l1;
          t_qutrits := [1] ++ flat_map qt (zrange 1 a) ++ l2;
          t_ququads := flat_map qq (zrange 1 a) ++ l3;
          t_mapping := m; t_current := cu |} = Ok (tstate m (a + 1))).
  { intros l1 l2 l3 k1 k2 q cu -> -> -> -> -> -> ->. unfold tstate. rewrite !flat_map_last, !zsum_last by lia. reflexivity. }
  assert (Hl : forall d (k : list (list decomp) -> res tree), d = dec a ->
    (levels <- append_level (map (fun i => map dec (filter (fun v => idx v =? i) (zrange 1 a))) (zrange 0 D)) (idx a) d ;; k levels)
    = k (map (fun i => map dec (filter (fun v => idx v =? i) (zrange 1 (a + 1)))) (zrange 0 D))).
  { intros d k ->. rewrite append_step by lia. reflexivity. }
  assert (Hz : forall l : list Z, l = l ++ []) by (intros l; symmetry; apply app_nil_r).
  rewrite Z.gtb_ltb. destruct (Z.ltb_spec gp a) as [G|G].
  - assert (E1 : (a >? gp) = true) by (rewrite Z.gtb_ltb; apply Z.ltb_lt; exact G).
    assert (Eq : zrange (a + 1) (Z.min (2 * a - 1) hb + 1) = zrange (a + 1) (Z.min (2 * (a + 1) - 1) hb + 1)).
    { f_equal. unfold hb in *. unfold gp in *. lia. }
    assert (Ec : cdn a = cur (a + 1)) by (rewrite cur_next by exact Ha; rewrite (proj2 (Z.eqb_neq a gp)) by lia; reflexivity).
    destruct (a * 2 + 1 >? c) eqn:E2.
    + rewrite Hl by (unfold dec; rewrite E1, E2; reflexivity). rewrite F1.
      rewrite (Hz (flat_map qt (zrange 1 a))), (Hz (flat_map qq (zrange 1 a))), <- (Z.add_0_r (zsum (map qcount (zrange 1 a)))).
      apply Hnext; unfold qcount, tcount, qb, qt, qq; rewrite ?E1, ?E2; auto.
    + rewrite Hl by (unfold dec; rewrite E1, E2; reflexivity). rewrite F1, F2 by lia.
      rewrite (Hz (flat_map qq (zrange 1 a))), <- (Z.add_0_r (zsum (map qcount (zrange 1 a)))).
      apply Hnext; unfold qcount, tcount, qb, qt, qq; rewrite ?E1, ?E2; auto.
  - assert (E1 : (a >? gp) = false) by (rewrite Z.gtb_ltb; apply Z.ltb_ge; exact G).
    assert (E0 : Z.min (2 * a - 1) hb = 2 * a - 1) by lia. rewrite E0.
    destruct (a =? gp) eqn:E2.
    + assert (Ea : a = gp) by (apply Z.eqb_eq; exact E2).
      assert (Ec : cdn a + 1 = cur (a + 1)) by (rewrite cur_next by exact Ha; rewrite E2; reflexivity).
      destruct hasr eqn:E3; destruct HR as [[HR1 HR2]|[HR1 HR2]]; try discriminate.
      * rewrite Hl by (unfold dec; rewrite E1, E2; reflexivity). rewrite F2, F3 by lia.
        rewrite (Hz (flat_map qb (zrange 1 a))), <- (Z.add_0_r (zsum (map tcount (zrange 1 a)))).
        apply Hnext; unfold qcount, tcount, qb, qt, qq; rewrite ?E1, ?E2, ?E3; auto.
        replace (Z.min (2 * (a + 1) - 1) hb + 1) with (2 * a - 1 + 1 + 1 + 1) by lia.
        rewrite (@zrange_last (a + 1) (2 * a - 1 + 1 + 1)), (@zrange_last (a + 1) (2 * a - 1 + 1)) by lia. rewrite <- app_assoc. cbn [app]. replace (2 * a - 1 + 1) with (a * 2) by lia. reflexivity.
      * rewrite Hl by (unfold dec; rewrite E1, E2; reflexivity). rewrite F2, F4 by lia.
        rewrite (Hz (flat_map qb (zrange 1 a))), (Hz (flat_map qq (zrange 1 a))), <- (Z.add_0_r (zsum (map qcount (zrange 1 a)))).
        apply Hnext; unfold qcount, tcount, qb, qt, qq; rewrite ?E1, ?E2, ?E3; auto.
        replace (Z.min (2 * (a + 1) - 1) hb + 1) with (2 * a - 1 + 1 + 1) by lia.
        rewrite (@zrange_last (a + 1) (2 * a - 1 + 1)) by lia. do 2 f_equal. lia.
    + assert (Ea : a <> gp) by (apply Z.eqb_neq; exact E2).
      assert (Ec : cdn a = cur (a + 1)) by (rewrite cur_next by exact Ha; rewrite E2; reflexivity).
      rewrite Hl by (unfold dec; rewrite E1, E2; reflexivity). rewrite F2, F3 by lia.
      rewrite (Hz (flat_map qb (zrange 1 a))), <- (Z.add_0_r (zsum (map tcount (zrange 1 a)))).
      apply Hnext; unfold qcount, tcount, qb, qt, qq; rewrite ?E1, ?E2; auto.
      replace (Z.min (2 * (a + 1) - 1) hb + 1) with (2 * a - 1 + 1 + 1 + 1) by lia.
      rewrite (@zrange_last (a + 1) (2 * a - 1 + 1 + 1)), (@zrange_last (a + 1) (2 * a - 1 + 1)) by lia. rewrite <- app_assoc. cbn [app]. replace (2 * a - 1 + 1) with (a * 2) by lia. reflexivity.
Qed.

Lemma loop_from : forall m k fuel a, Z.of_nat k = hb + 1 - a -> 1 <= a -> (k <= fuel)%nat ->
  tree_loop fuel (tstate m a) = Ok (tstate m (hb + 1)).
Proof.
  intros m. induction k as [|k IH]; intros fuel a Hk Ha Hf.
  - assert (Ea : a = hb + 1) by lia. subst a.
    assert (E : t_queue (tstate m (hb + 1)) = []) by (cbn [tstate t_queue]; apply zrange_nil; lia).
    destruct fuel; cbn [tree_loop]; rewrite E; reflexivity.
  - destruct fuel as [|fuel]; [lia|].
    assert (E : t_queue (tstate m a) = a :: zrange (a + 1) (Z.min (2 * a - 1) hb + 1))
      by (cbn [tstate t_queue]; apply zrange_first; lia).
    cbn [tree_loop]. rewrite E. rewrite body_step by lia. cbn [bind]. apply IH; lia.
Qed.

Lemma loop_all : forall m fuel, c <= Z.of_nat fuel ->
  tree_loop fuel (tstate m 1) = Ok (tstate m (hb + 1)).
Proof. intros m fuel Hf. apply (@loop_from m (Z.to_nat hb)); unfold hb in *; lia. Qed.
End Loop.
