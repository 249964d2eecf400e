(** * Flow: how layers are built, merged and appended (all inputs). *)
From Verif Require Import Py Scalar Mat Utils Gates Circuit Spec Lib GateTof.
Set Implicit Arguments.

Section Flow.
Variable S : scalar.
Notation op := (op S).
Notation circuit := (circuit S).
Notation moment := (moment S).
Notation opflow := (opflow S).

(** The register length agrees with the list of dimensions (true of every
    circuit the constructor returns). *)
Definition len_ok (c : circuit) : Prop :=
  zrange 0 (c_len c) = map Z.of_nat (seq 0 (length (c_dims c))).

Definition idop (dims : list Z) (i : nat) : op := OI (Z.of_nat i) (nth i dims 0%Z).

(** The operations of the moment built for a gate on register [q]. *)
Definition layer_int (dims : list Z) (q : Z) (g : op) (k : nat) : list op :=
  map (fun i => if (Z.of_nat i =? q)%Z then g else idop dims i) (seq 0 k).

(** The operations of the moment built for a gate on registers [lo..hi]. *)
Definition layer_list (dims : list Z) (lo hi : Z) (g : op) (k : nat) : list op :=
  flat_map (fun i => if ((lo <=? Z.of_nat i) && (Z.of_nat i <=? hi))%Z
                     then (if (Z.of_nat i =? Z.max 0 lo)%Z then [g] else [])
                     else [idop dims i]) (seq 0 k).

Lemma seq_S' : forall a k, seq a (Datatypes.S k) = seq a k ++ [a + k].
Proof. intros a k. rewrite <- Nat.add_1_r, seq_app. reflexivity. Qed.

Lemma layer_int_S : forall dims q g k,
  layer_int dims q g (Datatypes.S k) = layer_int dims q g k ++ [if (Z.of_nat k =? q)%Z then g else idop dims k].
Proof. intros. unfold layer_int. rewrite seq_S', map_app. reflexivity. Qed.

Lemma layer_list_S : forall dims lo hi g k,
  layer_list dims lo hi g (Datatypes.S k) = layer_list dims lo hi g k ++
    (if ((lo <=? Z.of_nat k) && (Z.of_nat k <=? hi))%Z
     then (if (Z.of_nat k =? Z.max 0 lo)%Z then [g] else [])
     else [idop dims k]).
Proof.
  intros. unfold layer_list. rewrite seq_S', flat_map_app. cbn [flat_map].
  rewrite app_nil_r, Nat.add_0_l. reflexivity.
Qed.

Lemma zmem_spec : forall x l, zmem x l = true <-> In x l.
Proof.
  intros x l. unfold zmem. rewrite existsb_exists. split.
  - intros [y [Hy E]]. apply Z.eqb_eq in E. subst. exact Hy.
  - intros H. exists x. split; [exact H | apply Z.eqb_refl].
Qed.

Lemma in_zrange : forall lo hi x, In x (zrange lo hi) <-> (lo <= x < hi)%Z.
Proof.
  intros lo hi x. unfold zrange. rewrite in_map_iff. split.
  - intros [k [<- Hk]]. apply in_seq in Hk. lia.
  - intros H. exists (Z.to_nat (x - lo)). split; [lia|]. apply in_seq. lia.
Qed.

Lemma moment_data_int : forall c q g, len_ok c ->
  moment_data c (RInt q) g = Ok (layer_int (c_dims c) q g (length (c_dims c))).
Proof.
  intros c q g Hc. unfold moment_data. cbn [bind]. rewrite Hc.
  match goal with |- bind (fold_left ?f _ _) _ = _ => set (F := f) end.
  assert (G : forall k, k <= length (c_dims c) ->
    fold_left F (map Z.of_nat (seq 0 k)) (Ok ([], false)) = Ok (layer_int (c_dims c) q g k, false)).
  { induction k as [|k IH]; intros Hk; [reflexivity|].
    rewrite seq_S', map_app, fold_left_app, IH by lia. cbn [map fold_left]. unfold F at 1. cbn [bind]. rewrite ?Nat.add_0_l.
    change (zmem (Z.of_nat k) []) with false. cbv iota.
    rewrite (@py_get_nat Z _ _ 0%Z) by lia. cbn [bind].
    rewrite layer_int_S. fold (idop (c_dims c) k).
    destruct (Z.of_nat k =? q)%Z; [|reflexivity].
    unfold py_set. rewrite app_length.
    assert (El : length (layer_int (c_dims c) q g k) = k) by (unfold layer_int; rewrite map_length, seq_length; reflexivity).
    rewrite El. simpl length. rewrite py_index_nat by lia. cbn [bind].
    rewrite upd_app2 by lia. rewrite El, Nat.sub_diag. reflexivity. }
  rewrite G by lia. reflexivity.
Qed.

Lemma moment_data_list : forall c l g lo hi, len_ok c ->
  py_min l = Ok lo -> py_max l = Ok hi ->
  moment_data c (RList l) g = Ok (layer_list (c_dims c) lo hi g (length (c_dims c))).
Proof.
  intros c l g lo hi Hc Hlo Hhi. unfold moment_data. rewrite Hlo, Hhi. cbn [bind]. rewrite Hc.
  match goal with |- bind (fold_left ?f _ _) _ = _ => set (F := f) end.
  assert (G : forall k, k <= length (c_dims c) ->
    fold_left F (map Z.of_nat (seq 0 k)) (Ok ([], false))
    = Ok (layer_list (c_dims c) lo hi g k,
          ((Z.max 0 lo <=? Z.of_nat k - 1) && (Z.max 0 lo <=? hi))%Z)).
  { induction k as [|k IH]; intros Hk.
    - simpl. f_equal. f_equal. symmetry. apply andb_false_iff. left. apply Z.leb_gt. lia.
    - rewrite seq_S', map_app, fold_left_app, IH by lia. cbn [map fold_left]. unfold F at 1. cbn [bind]. rewrite ?Nat.add_0_l.
      rewrite layer_list_S.
      replace (zmem (Z.of_nat k) (zrange lo (hi + 1)))
        with ((lo <=? Z.of_nat k) && (Z.of_nat k <=? hi))%Z
        by (apply eq_true_iff_eq; rewrite zmem_spec, in_zrange, andb_true_iff, !Z.leb_le; lia).
      destruct ((lo <=? Z.of_nat k) && (Z.of_nat k <=? hi))%Z eqn:E.
      + apply andb_true_iff in E as [E1 E2]. apply Z.leb_le in E1, E2.
        destruct ((Z.max 0 lo <=? Z.of_nat k - 1) && (Z.max 0 lo <=? hi))%Z eqn:E3.
        * apply andb_true_iff in E3 as [E3 E4]. apply Z.leb_le in E3, E4.
          replace (Z.of_nat k =? Z.max 0 lo)%Z with false by (symmetry; apply Z.eqb_neq; lia).
          rewrite app_nil_r. f_equal. f_equal. symmetry. apply andb_true_iff. rewrite !Z.leb_le. lia.
        * apply andb_false_iff in E3. rewrite !Z.leb_gt in E3.
          replace (Z.of_nat k =? Z.max 0 lo)%Z with true by (symmetry; apply Z.eqb_eq; lia).
          f_equal. f_equal. symmetry. apply andb_true_iff. rewrite !Z.leb_le. lia.
      + rewrite (@py_get_nat Z _ _ 0%Z) by lia. cbn [bind]. fold (idop (c_dims c) k).
        f_equal. f_equal. apply eq_true_iff_eq. apply andb_false_iff in E. rewrite !Z.leb_gt in E.
        rewrite !andb_true_iff, !Z.leb_le. lia. }
  rewrite G by lia. reflexivity.
Qed.

(** ** populate_opflow *)

Lemma append_moment_snoc : forall (fl : list moment) last m,
  append_moment (fl ++ [last]) m = fl ++ [set_next (m_name m) last; set_prev (m_name last) m].
Proof. intros. unfold append_moment. rewrite rev_unit, rev_involutive. reflexivity. Qed.

Lemma detect_none : forall l k meas, forallb (fun o => negb (is_meas o)) l = true ->
  @detect_measurement S k l meas = Ok meas.
Proof.
  induction l as [|g l IH]; intros k meas H; simpl in *; [reflexivity|].
  apply andb_true_iff in H as [H1 H2]. apply negb_true_iff in H1. rewrite H1. cbn [bind]. apply IH; exact H2.
Qed.

End Flow.
