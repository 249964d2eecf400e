(** * Bits: circuits of x, cx and Toffoli gates need only the zeros and ones
    of the arithmetic.  No law of the ring is used here: the scalars may round. *)
From Coq Require Import Permutation.
From Verif Require Import Py Scalar Mat Utils Gates Circuit Spec Calls BitSpec Lib Kern GateMat GateTof Flow Layers Blocks Refine Run Reversible.
Set Implicit Arguments.

(** ** Lists *)
Lemma perm_flat_map_app : forall A B (f g : A -> list B) l,
  Permutation (flat_map (fun x => f x ++ g x) l) (flat_map f l ++ flat_map g l).
Proof.
  intros A B f g l; induction l as [|x l IH]; cbn [flat_map]; [constructor|].
  rewrite IH, !app_assoc. apply Permutation_app_tail. rewrite <- !app_assoc.
  apply Permutation_app_head. apply Permutation_app_comm.
Qed.

Lemma flat_map_nil : forall A B (l : list A), flat_map (fun _ => @nil B) l = [].
Proof. intros A B l; induction l; simpl; auto. Qed.

Lemma perm_flat_map_swap : forall A B C (h : A -> B -> list C) la lb,
  Permutation (flat_map (fun a => flat_map (h a) lb) la) (flat_map (fun b => flat_map (fun a => h a b) la) lb).
Proof.
  intros A B C h la; induction la as [|a la IH]; intros lb; cbn [flat_map].
  - rewrite flat_map_nil. constructor.
  - rewrite IH. symmetry. apply perm_flat_map_app.
Qed.

Lemma perm_flat_map_ext : forall A B (f g : A -> list B) l,
  (forall x, In x l -> Permutation (f x) (g x)) -> Permutation (flat_map f l) (flat_map g l).
Proof.
  intros A B f g l; induction l as [|x l IH]; intros H; cbn [flat_map]; [constructor|].
  apply Permutation_app; [apply H; left; reflexivity|]. apply IH. intros y Hy; apply H; right; exact Hy.
Qed.

(** A sum over a range with one hit. *)
Lemma flat_map_hit : forall A n k (x : nat -> A), k < n ->
  flat_map (fun i => if k =? i then [x i] else []) (seq 0 n) = [x k].
Proof.
  intros A n k x Hk.
  assert (G : forall a m, flat_map (fun i => if k =? i then [x i] else []) (seq a m)
                          = if (a <=? k) && (k <? a + m) then [x k] else []).
  { intros a m; revert a; induction m as [|m IH]; intros a; cbn [seq flat_map].
    - replace ((a <=? k) && (k <? a + 0)) with false; [reflexivity|].
      symmetry. apply andb_false_iff. rewrite Nat.leb_gt, Nat.ltb_ge. lia.
    - rewrite IH. destruct (Nat.eqb_spec k a) as [->|Hne].
      + replace (Datatypes.S a <=? a) with false by (symmetry; apply Nat.leb_gt; lia). cbn [andb app].
        replace ((a <=? a) && (a <? a + Datatypes.S m)) with true; [reflexivity|].
        symmetry. apply andb_true_iff. rewrite Nat.leb_le, Nat.ltb_lt. lia.
      + cbn [app]. replace ((Datatypes.S a <=? k) && (k <? Datatypes.S a + m))
          with ((a <=? k) && (k <? a + Datatypes.S m)); [reflexivity|].
        apply eq_true_iff_eq. rewrite !andb_true_iff, !Nat.leb_le, !Nat.ltb_lt. lia. }
  rewrite G. replace ((0 <=? k) && (k <? 0 + n)) with true; [reflexivity|].
  symmetry. apply andb_true_iff. rewrite Nat.leb_le, Nat.ltb_lt. lia.
Qed.

Section Bits.
Variable S : scalar.
Hypothesis BL : bit_laws S.
Notation mat := (mat S).
Notation coo := (coo S).
Notation op := (op S).
Notation NB := (NumpyBackend S).
Notation SB := (SparseBackend S).
Notation block := (block S).
Notation circuit := (circuit S).
Notation moment := (moment S).
Notation call := (call S).
Infix "*s" := (@smul S) (at level 40, left associativity).

Definition bit (b : bool) : S := if b then s1 else s0.

Lemma bit_mul : forall a b, bit a *s bit b = bit (a && b).
Proof. intros [|] [|]; simpl; [apply (bl_mul11 BL) | apply (bl_mul10 BL) | apply (bl_mul01 BL) | apply (bl_mul00 BL)]. Qed.

Lemma bit_eqb0 : forall b, seqb (bit b) s0 = negb b.
Proof. intros [|]; simpl; [apply (bl_eqb10 BL) | apply (bl_eqb00 BL)]. Qed.

Lemma bit_conj : forall b, sconj (bit b) = bit b.
Proof. intros [|]; simpl; [apply (bl_conj1 BL) | apply (bl_conj0 BL)]. Qed.

Lemma bsum_none : forall A (f : A -> S) l, (forall x, In x l -> f x = s0) -> bsum f l = s0.
Proof.
  intros A f l; induction l as [|x l IH]; intros H; simpl; [reflexivity|].
  rewrite IH by (intros y Hy; apply H; right; exact Hy). rewrite (H x (or_introl eq_refl)). apply (bl_add00 BL).
Qed.

Lemma bsum_one : forall A (f : A -> S) l1 x l2 b, (forall y, In y (l1 ++ l2) -> f y = s0) -> f x = bit b ->
  bsum f (l1 ++ x :: l2) = bit b.
Proof.
  intros A f l1 x l2 b; induction l1 as [|y l1 IH]; intros H Hx; simpl.
  - rewrite (@bsum_none _ f l2) by exact H. rewrite Hx. destruct b; simpl; [apply (bl_add10 BL) | apply (bl_add00 BL)].
  - change (sadd (f y) (bsum f (l1 ++ x :: l2)) = bit b).
    rewrite IH; [|intros z Hz; apply H; right; exact Hz | exact Hx].
    rewrite (H y (or_introl eq_refl)). destruct b; simpl; [apply (bl_add01 BL) | apply (bl_add00 BL)].
Qed.

Lemma bsum_pick : forall A (f : A -> S) l a b, NoDup l -> In a l -> f a = bit b ->
  (forall x, In x l -> x <> a -> f x = s0) -> bsum f l = bit b.
Proof.
  intros A f l a b Hn Ha Hf H. apply in_split in Ha as [l1 [l2 ->]]. apply bsum_one; [|exact Hf].
  intros y Hy. apply H; [apply in_or_app; apply in_app_or in Hy; simpl; tauto|].
  intros ->. apply NoDup_remove_2 in Hn. contradiction.
Qed.

(** ** Matrices with one 1 per column, at the row given by a function *)
Record fmat (r c : nat) (f : nat -> nat) (M : mat) : Prop := {
  fm_r : mr M = r;
  fm_c : mc M = c;
  fm_f : forall j, j < c -> f j < r;
  fm_get : forall i j, i < r -> j < c -> mget M i j = bit (f j =? i) }.

Record fcoo (r c : nat) (f : nat -> nat) (A : coo) : Prop := {
  fc_r : cr A = r;
  fc_c : cc A = c;
  fc_f : forall j, j < c -> f j < r;
  fc_e : Permutation (ce A) (map (fun j => (f j, j, s1)) (seq 0 c)) }.

(** What a backend has to do with such matrices. *)
Record follows (B : backend S) (R : nat -> nat -> (nat -> nat) -> B -> Prop) : Prop := {
  fo_ext : forall r c f g A, (forall j, j < c -> f j = g j) -> R r c f A -> R r c g A;
  fo_f : forall r c f A, R r c f A -> forall j, j < c -> f j < r;
  fo_mat : forall r c f M, fmat r c f M -> R r c f (b_matrix M);
  fo_trans : forall r c f M, mr M = c -> mc M = r -> fmat r c f (dtrans M) -> R r c f (b_trans (b_matrix M));
  fo_eye : forall n, R n n (fun j => j) (b_eye n n);
  fo_kron : forall r c f A r' c' f' A', R r c f A -> R r' c' f' A' ->
            R (r * r') (c * c') (fun j => f (j / c') * r' + f' (j mod c')) (b_kron A A');
  fo_dot : forall r m c f g A A', R r m f A -> R m c g A' ->
           exists P, b_dot A A' = Ok P /\ R r c (fun j => f (g j)) P;
  fo_arr : forall r c f A, R r c f A -> fmat r c f (b_toarray A) }.

Lemma divmod_eqb : forall x p r n, r < n -> (p * n + r =? x) = (p =? x / n) && (r =? x mod n).
Proof.
  intros x p r n Hr. apply eq_true_iff_eq. rewrite andb_true_iff, !Nat.eqb_eq. split.
  - intros <-. rewrite Nat.div_add_l, Nat.div_small by lia.
    rewrite (Nat.add_comm (p * n) r), Nat.mod_add, Nat.mod_small by lia. lia.
  - intros [-> ->]. rewrite (Nat.mul_comm (x / n) n). symmetry. apply Nat.div_mod. lia.
Qed.

Lemma kron_bound : forall r c r' c' f f', (forall j, j < c -> f j < r) -> (forall j, j < c' -> f' j < r') ->
  forall j, j < c * c' -> f (j / c') < r /\ f' (j mod c') < r' /\ f (j / c') * r' + f' (j mod c') < r * r'.
Proof.
  intros r c r' c' f f' Hf Hf' j Hj. assert (0 < c') by nia.
  assert (j / c' < c) by (apply Nat.div_lt_upper_bound; lia).
  assert (j mod c' < c') by (apply Nat.mod_upper_bound; lia).
  assert (f (j / c') < r) by auto. assert (f' (j mod c') < r') by auto. repeat split; try assumption. nia.
Qed.

Lemma dense_follows : follows NB fmat.
Proof.
  constructor.
  - intros r c f g A E [H1 H2 H3 H4]. constructor; auto.
    + intros j Hj. rewrite <- E by exact Hj. auto.
    + intros i j Hi Hj. rewrite <- E by exact Hj. auto.
  - intros r c f A H. exact (fm_f H).
  - intros r c f M H. exact H.
  - intros r c f M _ _ H. exact H.
  - intros n. constructor; simpl; auto. intros i j Hi Hj. unfold deye; rewrite mget_mkmat by assumption.
    rewrite (Nat.eqb_sym i j). reflexivity.
  - intros r c f A r' c' f' A' [H1 H2 H3 H4] [G1 G2 G3 G4]. constructor; simpl.
    + congruence.
    + congruence.
    + intros j Hj. apply (kron_bound _ _ H3 G3 Hj).
    + intros i j Hi Hj. unfold dkron. rewrite mget_mkmat by congruence. rewrite G1, G2.
      destruct (kron_bound _ _ H3 G3 Hj) as [K1 [K2 K3]].
      assert (0 < r') by nia. assert (0 < c') by nia.
      rewrite H4, G4.
      2,3: apply Nat.mod_upper_bound; lia.
      2,3: apply Nat.div_lt_upper_bound; lia.
      rewrite bit_mul, divmod_eqb by exact K2. reflexivity.
  - intros r m c f g A A' [H1 H2 H3 H4] [G1 G2 G3 G4]. simpl. unfold ddot. rewrite H2, G1, Nat.eqb_refl.
    eexists. split; [reflexivity|]. constructor; simpl; auto.
    intros i j Hi Hj. rewrite mget_mkmat by congruence.
    apply bsum_pick with (a := g j).
    + apply seq_NoDup.
    + apply in_seq. specialize (G3 j Hj). lia.
    + rewrite H4, G4 by auto. rewrite bit_mul, Nat.eqb_refl, andb_true_r. reflexivity.
    + intros k Hk Hne. apply in_seq in Hk. rewrite H4, G4 by (auto; lia). rewrite bit_mul.
      rewrite (proj2 (Nat.eqb_neq (g j) k)) by congruence. rewrite andb_false_r. reflexivity.
  - intros r c f A H. exact H.
Qed.

(** *** Sparse *)

Lemma seq_shift_map : forall n b, seq b n = map (fun i => b + i) (seq 0 n).
Proof.
  induction n as [|n IH]; intros b; [reflexivity|]. rewrite !seq_S', map_app, <- IH. reflexivity.
Qed.

Lemma seq_mul : forall c' c, seq 0 (c * c') = flat_map (fun q => map (fun q' => q * c' + q') (seq 0 c')) (seq 0 c).
Proof.
  intros c' c. induction c as [|c IH]; [reflexivity|].
  rewrite (seq_S' 0 c), flat_map_app, <- IH. simpl. rewrite app_nil_r, Nat.add_comm, seq_app. f_equal.
  apply seq_shift_map.
Qed.

Lemma coo_of_fmat : forall r c f M, fmat r c f M -> fcoo r c f (coo_of_mat M).
Proof.
  intros r c f M [H1 H2 H3 H4]. constructor; simpl; auto. rewrite H1, H2.
  rewrite perm_flat_map_swap.
  rewrite flat_map_ext_in with (g := fun j => [(f j, j, s1)]).
  - rewrite flat_map_single. reflexivity.
  - intros j Hj. apply in_seq in Hj. destruct Hj as [_ Hj]. simpl in Hj.
    rewrite flat_map_ext_in with (g := fun i => if f j =? i then [(i, j, @s1 S)] else []).
    + rewrite (@flat_map_hit _ r (f j) (fun i => (i, j, s1))) by auto. reflexivity.
    + intros i Hi. apply in_seq in Hi. rewrite H4 by lia. rewrite bit_eqb0.
      destruct (f j =? i) eqn:E; reflexivity.
Qed.

Lemma sparse_follows : follows SB fcoo.
Proof.
  constructor.
  - intros r c f g A E [H1 H2 H3 H4]. constructor; auto.
    + intros j Hj. rewrite <- E by exact Hj. auto.
    + rewrite H4. erewrite map_ext_in; [reflexivity|]. intros j Hj. apply in_seq in Hj. rewrite E by lia. reflexivity.
  - intros r c f A H. exact (fc_f H).
  - intros r c f M H. apply coo_of_fmat, H.
  - intros r c f M Hr Hc [H1 H2 H3 H4]. constructor; simpl; auto. rewrite Hr, Hc.
    rewrite map_flat_map.
    rewrite flat_map_ext_in with (g := fun j => [(f j, j, s1)]).
    + rewrite flat_map_single. reflexivity.
    + intros j Hj. apply in_seq in Hj. destruct Hj as [_ Hj]. simpl in Hj. rewrite map_flat_map.
      rewrite flat_map_ext_in with (g := fun i => if f j =? i then [(i, j, @s1 S)] else []).
      * rewrite (@flat_map_hit _ r (f j) (fun i => (i, j, s1))) by auto. reflexivity.
      * intros i Hi. apply in_seq in Hi. specialize (H4 i j ltac:(lia) Hj).
        unfold dtrans in H4. rewrite mget_mkmat in H4 by lia. rewrite H4, bit_eqb0.
        destruct (f j =? i) eqn:E; reflexivity.
  - intros n. constructor; simpl; auto. rewrite Nat.min_id. reflexivity.
  - intros r c f A r' c' f' A' [H1 H2 H3 H4] [G1 G2 G3 G4]. constructor; simpl.
    + congruence.
    + congruence.
    + intros j Hj. apply (kron_bound _ _ H3 G3 Hj).
    + rewrite (Permutation_flat_map _ H4), flat_map_map, seq_mul, map_flat_map.
      apply perm_flat_map_ext. intros q Hq. apply in_seq in Hq.
      rewrite (Permutation_map _ G4), !map_map, G1, G2.
      erewrite map_ext_in; [reflexivity|]. intros q' Hq'. apply in_seq in Hq'. simpl.
      rewrite (bl_mul11 BL), Nat.div_add_l, Nat.div_small, Nat.add_0_r by lia.
      rewrite (Nat.add_comm (q * c')), Nat.mod_add, Nat.mod_small by lia. reflexivity.
  - intros r m c f g A A' [H1 H2 H3 H4] [G1 G2 G3 G4]. simpl. unfold coo_dot. rewrite H2, G1, Nat.eqb_refl.
    eexists. split; [reflexivity|]. constructor; simpl; auto.
    rewrite (Permutation_flat_map _ H4), flat_map_map.
    transitivity (flat_map (fun q => flat_map (fun j => if g j =? q then [(f q, j, @s1 S)] else []) (seq 0 c)) (seq 0 m)).
    + apply perm_flat_map_ext. intros q Hq. rewrite (Permutation_flat_map _ G4), flat_map_map.
      erewrite flat_map_ext; [reflexivity|]. intros j. simpl. rewrite (Nat.eqb_sym q), (bl_mul11 BL). reflexivity.
    + rewrite perm_flat_map_swap. rewrite flat_map_ext_in with (g := fun j => [(f (g j), j, s1)]).
      * rewrite flat_map_single. reflexivity.
      * intros j Hj. apply in_seq in Hj. apply (@flat_map_hit _ m (g j) (fun q => (f q, j, s1))). apply G3. lia.
  - intros r c f A [H1 H2 H3 H4]. constructor; simpl; auto.
    intros i j Hi Hj. unfold coo_toarray. rewrite mget_mkmat by congruence.
    assert (Hn : NoDup (ce A)).
    { apply (Permutation_NoDup (Permutation_sym H4)). apply FinFun.Injective_map_NoDup; [|apply seq_NoDup].
      intros a b E. congruence. }
    assert (Hin : forall p q v, In (p, q, v) (ce A) -> p = f q /\ v = s1).
    { intros p q v H. apply (Permutation_in _ H4) in H. apply in_map_iff in H as [x [E _]]. split; congruence. }
    apply bsum_pick with (a := (f j, j, s1)).
    + exact Hn.
    + apply (Permutation_in _ (Permutation_sym H4)). apply in_map_iff. exists j. split; [reflexivity | apply in_seq; lia].
    + simpl. rewrite Nat.eqb_refl, andb_true_r. reflexivity.
    + intros [[p q] v] Hx Hne. destruct (Hin _ _ _ Hx) as [-> ->].
      destruct (q =? j) eqn:E; [|rewrite andb_false_r; reflexivity].
      apply Nat.eqb_eq in E. subst q. contradiction.
Qed.

(** ** The same through configurations *)
Section Backend.
Variable B : backend S.
Variable R : nat -> nat -> (nat -> nat) -> B -> Prop.
Hypothesis FB : follows B R.

Definition brep (rd cd : list nat) (f : config -> config) (A : B) : Prop :=
  (forall s, valid cd s -> valid rd (f s)) /\
  R (prodn rd) (prodn cd) (fun j => lin rd (f (unlin cd j))) A.

Lemma brep_ext : forall rd cd f g A, (forall s, valid cd s -> f s = g s) -> brep rd cd f A -> brep rd cd g A.
Proof.
  intros rd cd f g A E [H1 H2]. split.
  - intros s Hs. rewrite <- E by exact Hs. auto.
  - eapply (fo_ext FB); [|exact H2]. intros j Hj. simpl. rewrite E; [reflexivity | apply unlin_valid; exact Hj].
Qed.

Lemma brep_kron : forall rd1 cd1 rd2 cd2 f1 f2 A1 A2,
  brep rd1 cd1 f1 A1 -> brep rd2 cd2 f2 A2 ->
  brep (rd1 ++ rd2) (cd1 ++ cd2) (fun s => f1 (firstn (length cd1) s) ++ f2 (skipn (length cd1) s)) (b_kron A1 A2).
Proof.
  intros rd1 cd1 rd2 cd2 f1 f2 A1 A2 [V1 R1] [V2 R2]. split.
  - intros s Hs. apply valid_app; [apply V1, (valid_app_l _ _ Hs) | apply V2, (valid_app_r _ _ Hs)].
  - rewrite !prodn_app. eapply (fo_ext FB); [|exact (fo_kron FB _ _ _ _ _ _ _ _ R1 R2)]. intros j Hj. cbv beta.
    assert (Hj' : j < prodn (cd1 ++ cd2)) by (rewrite prodn_app; exact Hj).
    pose proof (unlin_valid _ Hj') as Hs. set (s := unlin (cd1 ++ cd2) j) in *.
    assert (Ej : j = lin (cd1 ++ cd2) s) by (unfold s; rewrite lin_unlin by exact Hj'; reflexivity).
    rewrite (lin_split _ _ Hs) in Ej.
    pose proof (valid_app_l _ _ Hs) as Va. pose proof (valid_app_r _ _ Hs) as Vb.
    pose proof (lin_lt Vb) as Lb.
    rewrite lin_app by (rewrite (valid_length (V1 _ Va)); reflexivity).
    rewrite Ej, Nat.div_add_l, Nat.div_small, Nat.add_0_r by lia.
    rewrite (Nat.add_comm (_ * prodn cd2)), Nat.mod_add, Nat.mod_small by lia.
    rewrite !unlin_lin by assumption. reflexivity.
Qed.

Lemma brep_dot : forall rd md cd f g A A', brep rd md f A -> brep md cd g A' ->
  exists P, b_dot A A' = Ok P /\ brep rd cd (fun s => f (g s)) P.
Proof.
  intros rd md cd f g A A' [V1 R1] [V2 R2]. destruct (fo_dot FB _ _ _ _ _ _ _ R1 R2) as [P [E RP]].
  exists P. split; [exact E|]. split; [auto|].
  eapply (fo_ext FB); [|exact RP]. intros j Hj. cbv beta. rewrite unlin_lin; [reflexivity|].
  apply V2, unlin_valid, Hj.
Qed.

Lemma brep_eye : forall ds, brep ds ds (fun s => s) (b_eye (prodn ds) (prodn ds)).
Proof.
  intros ds. split; [auto|]. eapply (fo_ext FB); [|apply (fo_eye FB)].
  intros j Hj. simpl. rewrite lin_unlin by exact Hj. reflexivity.
Qed.

(** A dense matrix given by its entries. *)
Lemma brep_entries : forall ds f (M : mat), (forall s, valid ds s -> valid ds (f s)) ->
  repr ds ds M (classical S f) -> brep ds ds f (b_matrix M).
Proof.
  intros ds f M Hf [H1 H2 H3]. split; [exact Hf|]. apply (fo_mat FB). constructor; auto.
  - intros j Hj. apply lin_lt, Hf, unlin_valid, Hj.
  - intros i j Hi Hj. pose proof (unlin_valid _ Hi) as Vi. pose proof (unlin_valid _ Hj) as Vj.
    pose proof (H3 _ _ Vi Vj) as E. rewrite !lin_unlin in E by assumption. rewrite E. unfold classical, bit.
    destruct (config_eqb (f (unlin ds j)) (unlin ds i)) eqn:Ec.
    + apply config_eqb_eq in Ec. rewrite Ec, lin_unlin, Nat.eqb_refl by exact Hi. reflexivity.
    + apply config_eqb_neq in Ec. destruct (Nat.eqb_spec (lin ds (f (unlin ds j))) i) as [F|F]; [|reflexivity].
      exfalso. apply Ec. apply lin_inj with (dims := ds); [apply Hf, Vj | exact Vi|]. rewrite lin_unlin by exact Hi. exact F.
Qed.

(** ** The unitaries of the classical gates *)
Lemma x_repr : forall d p, (- Z.of_nat d <= p < Z.of_nat d)%Z ->
  exists M, x_unitary S (Z.of_nat d) p = Ok M /\ repr [d] [d] M (classical S (move_x [d] 0 p)).
Proof.
  intros d p Hp. destruct (x_unitary_spec S d Hp) as [M [E [E1 [E2 E3]]]]. exists M. split; [exact E|].
  eapply repr_ext; [|apply (@repr_single S d M (fun i j => if shift d j p =? i then s1 else s0)); auto].
  intros s t Hs Ht. apply valid_single in Hs as [x [-> Hx]]. apply valid_single in Ht as [y [-> Hy]].
  simpl. unfold classical, move_x, level. simpl.
  destruct (shift d y p =? x) eqn:Ex.
  - apply Nat.eqb_eq in Ex. rewrite Ex, config_eqb_refl. reflexivity.
  - apply Nat.eqb_neq in Ex. rewrite (proj2 (config_eqb_neq _ _)) by congruence. reflexivity.
Qed.

Lemma x_brep : forall q d p, (- Z.of_nat d <= p < Z.of_nat d)%Z ->
  exists M, unitary B (OX q (Z.of_nat d) p) = Ok M /\ brep [d] [d] (move_x [d] 0 p) M.
Proof.
  intros q d p Hp. destruct (x_repr d Hp) as [M [E RM]]. cbn [unitary]. rewrite E. cbn [bind].
  eexists. split; [reflexivity|]. apply brep_entries; [|exact RM].
  intros s Hs. apply move_x_valid; [exact Hs | simpl; lia].
Qed.

Lemma cx_brep : forall ds a b plus si ti,
  (forall d, In d ds -> 0 < d) -> si < length ds -> ti < length ds ->
  (Z.of_nat si = if (a <? b)%Z then 0 else a - b)%Z ->
  (Z.of_nat ti = if (a <? b)%Z then b - a else 0)%Z ->
  exists M, unitary B (OCX (map Z.of_nat ds) [a; b] plus) = Ok M /\ brep ds ds (move_cx ds si ti plus) M.
Proof.
  intros ds a b plus si ti Hpos Hsi Hti Esi Eti.
  destruct (@cx_rows_spec S (bl_eqb11 BL) (bl_eqb01 BL) ds a b plus si ti Hpos Hsi Hti Esi Eti) as [M [E [H1 [H2 H3]]]].
  cbn [unitary]. rewrite E. cbn [bind]. eexists. split; [reflexivity|].
  assert (Hv : forall s, valid ds s -> valid ds (move_cx ds si ti plus s)) by (intros s Hs; apply move_cx_valid; assumption).
  split; [exact Hv|]. apply (fo_trans FB); auto. constructor; simpl; auto.
  - intros j Hj. apply lin_lt, Hv, unlin_valid, Hj.
  - intros i j Hi Hj. unfold dtrans. rewrite mget_mkmat by lia. rewrite H3 by assumption. reflexivity.
Qed.

Lemma classical_is_unitary : forall ds (M : mat) (f g : config -> config),
  repr ds ds M (classical S f) ->
  (forall s, valid ds s -> valid ds (g s)) ->
  (forall s, valid ds s -> f (g s) = s) -> (forall s, valid ds s -> g (f s) = s) ->
  is_unitary M = true.
Proof.
  intros ds M f g HR Hg Hfg Hgf. apply (is_unitary_iff HR). intros s t Hs Ht.
  assert (E : bsum (fun u => classical S f s u *s sconj (classical S f t u)) (all_configs ds)
              = bit (config_eqb s t)).
  { apply bsum_pick with (a := g s).
    - apply all_configs_NoDup.
    - apply in_all_configs, Hg, Hs.
    - unfold classical. rewrite Hfg by exact Hs. rewrite config_eqb_refl.
      change (@s1 S) with (bit true) at 1.
      change (if config_eqb s t then s1 else s0) with (bit (config_eqb s t)). rewrite bit_conj, bit_mul. reflexivity.
    - intros u Hu Hne. apply in_all_configs in Hu. unfold classical at 1.
      destruct (config_eqb (f u) s) eqn:E.
      + apply config_eqb_eq in E. exfalso. apply Hne. rewrite <- E. symmetry. apply Hgf, Hu.
      + unfold classical. change (@s0 S) with (bit false) at 1.
        change (if config_eqb (f u) t then s1 else s0) with (bit (config_eqb (f u) t)).
        rewrite bit_conj, bit_mul. reflexivity. }
  rewrite E. unfold delta, bit. destruct (config_eqb s t); [apply (bl_close11 BL) | apply (bl_close00 BL)].
Qed.

Lemma tof_brep : forall dims cs t p lo hi,
  (forall x, In x (cs ++ [t]) -> lo <= x <= hi) ->
  hi < length dims -> ~ In t cs -> hi - lo + 1 <> 2 ->
  let ds := sub dims lo (hi - lo + 1) in
  forall a u, mr u = prodn ds -> mc u = prodn ds ->
  repr ds ds u (classical S (move_tof ds (map (fun c => c - lo) cs) (t - lo) p)) ->
  exists M, unitary B (OTof (map Z.of_nat cs) (Z.of_nat t) p (map Z.of_nat ds) a u) = Ok M /\
    brep ds ds (move_tof ds (map (fun c => c - lo) cs) (t - lo) p) M.
Proof.
  intros dims cs t p lo hi Hb Hn Hnin H2 ds a u Hr Hc HR.
  cbn [unitary]. unfold arb_unitary.
  assert (Ht : lo <= t <= hi) by (apply Hb; apply in_or_app; right; left; reflexivity).
  assert (Hlen : length ds = hi - lo + 1) by (apply sub_length; lia).
  assert (Hnin' : ~ In (t - lo) (map (fun c => c - lo) cs)).
  { intros Hin. apply in_map_iff in Hin as [c [E Hc']]. apply Hnin.
    assert (lo <= c <= hi) by (apply Hb; apply in_or_app; left; exact Hc').
    replace t with c by lia. exact Hc'. }
  assert (HU : is_unitary u = true).
  { apply (@classical_is_unitary ds u (move_tof ds (map (fun c => c - lo) cs) (t - lo) p)
              (move_tof ds (map (fun c => c - lo) cs) (t - lo) (- p))); [exact HR| | |].
    - intros s Hs. apply move_tof_valid; [exact Hs | lia].
    - intros s Hs. rewrite <- (Z.opp_involutive p) at 1. apply move_tof_inv; [exact Hs | lia | exact Hnin'].
    - intros s Hs. apply move_tof_inv; [exact Hs | lia | exact Hnin']. }
  rewrite HU.
  assert (HB : brep ds ds (move_tof ds (map (fun c => c - lo) cs) (t - lo) p) (b_matrix u)).
  { apply brep_entries; [|exact HR]. intros s Hs. apply move_tof_valid; [exact Hs | lia]. }
  exists (b_matrix u). split; [|exact HB]. clear HB HR.
  destruct ds as [|d1 [|d2 [|d3 ds']]]; cbn [length] in Hlen; try (exfalso; lia).
  - cbn [map]. change (prodn [d1]) with (d1 * 1) in Hr, Hc.
    replace (Z.of_nat (mr u) =? Z.of_nat d1)%Z with true by (symmetry; apply Z.eqb_eq; lia).
    replace (Z.of_nat (mc u) =? Z.of_nat d1)%Z with true by (symmetry; apply Z.eqb_eq; lia).
    reflexivity.
  - reflexivity.
Qed.

End Backend.

End Bits.
