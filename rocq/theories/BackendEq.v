(** * BackendEq: the dense and the sparse backend agree on every circuit. *)
From Verif Require Import Py Scalar Mat Utils Gates Circuit Spec Lib.
Set Implicit Arguments.

Section BackendEq.
Variable S : scalar.
Hypothesis L : scalar_laws S.
Add Ring Sring : (sl_ring L).
Notation mat := (mat S).
Notation coo := (coo S).
Notation NB := (NumpyBackend S).
Notation SB := (SparseBackend S).
Infix "*s" := (@smul S) (at level 40, left associativity).

(** The value a sparse matrix holds at a position. *)
Definition cval (i j : nat) (e : nat * nat * S) : S :=
  let '(p, q, v) := e in if Nat.eqb p i && Nat.eqb q j then v else s0.
Definition cget (a : coo) (i j : nat) : S := bsum (cval i j) (ce a).

Record same (a : mat) (b : coo) : Prop := {
  sm_r : mr a = cr b;
  sm_c : mc a = cc b;
  sm_in : forall p q v, In (p, q, v) (ce b) -> p < cr b /\ q < cc b;
  sm_get : forall i j, i < cr b -> j < cc b -> mget a i j = cget b i j }.

Inductive same_res (A B : Type) (R : A -> B -> Prop) : res A -> res B -> Prop :=
| sr_ok : forall a b, R a b -> same_res R (Ok a) (Ok b)
| sr_err : forall e, same_res R (Err e) (Err e).

Lemma same_matrix : forall m, same m (coo_of_mat m).
Proof.
  intros m. constructor; simpl; try reflexivity.
  - intros p q v H. apply in_flat_map in H as [i [Hi H]]. apply in_flat_map in H as [j [Hj H]].
    apply in_seq in Hi, Hj. destruct (seqb (mget m i j) s0); simpl in H; [contradiction|].
    destruct H as [H|[]]. injection H as <- <- _. lia.
  - intros i j Hi Hj. unfold cget. simpl. rewrite (bsum_flat_map L).
    rewrite (@bsum_single S L _ _ (seq 0 (mr m)) i).
    + rewrite (bsum_flat_map L). rewrite (@bsum_single S L _ _ (seq 0 (mc m)) j).
      * destruct (seqb (mget m i j) s0) eqn:E; simpl.
        -- apply (sl_eqb L) in E. exact E.
        -- rewrite !Nat.eqb_refl. simpl. ring.
      * apply seq_NoDup.
      * apply in_seq; lia.
      * intros j' Hj' Hne. destruct (seqb (mget m i j') s0); simpl; [reflexivity|].
        rewrite (proj2 (Nat.eqb_neq j' j)) by exact Hne. rewrite andb_false_r. ring.
    + apply seq_NoDup.
    + apply in_seq; lia.
    + intros i' Hi' Hne. rewrite (bsum_flat_map L). apply (bsum_zero L). intros j' _.
      destruct (seqb (mget m i' j') s0); simpl; [reflexivity|].
      rewrite (proj2 (Nat.eqb_neq i' i)) by exact Hne. simpl. ring.
Qed.

Lemma same_eye : forall n m, same (deye S n m) (coo_eye S n m).
Proof.
  intros n m. constructor; simpl; try reflexivity.
  - intros p q v H. apply in_map_iff in H as [i [E Hi]]. injection E as <- <- _. apply in_seq in Hi. lia.
  - intros i j Hi Hj. unfold deye. rewrite mget_mkmat by assumption. unfold cget. simpl.
    rewrite bsum_map. destruct (Nat.eqb i j) eqn:E.
    + apply Nat.eqb_eq in E. subst j. rewrite (@bsum_single S L _ _ _ i).
      * simpl. rewrite !Nat.eqb_refl. reflexivity.
      * apply seq_NoDup.
      * apply in_seq. lia.
      * intros k _ Hne. simpl. rewrite (proj2 (Nat.eqb_neq k i)) by exact Hne. reflexivity.
    + apply Nat.eqb_neq in E. symmetry. apply (bsum_zero L). intros k _. simpl.
      destruct (Nat.eqb k i) eqn:E1; [|reflexivity]. apply Nat.eqb_eq in E1. subst k.
      rewrite (proj2 (Nat.eqb_neq i j)) by exact E. reflexivity.
Qed.

Lemma same_trans : forall a b, same a b -> same (dtrans a) (coo_trans b).
Proof.
  intros a b [H1 H2 H3 H4]. constructor; simpl; auto.
  - intros p q v H. apply in_map_iff in H as [[[p' q'] v'] [E Hin]]. injection E as <- <- <-.
    apply H3 in Hin. lia.
  - intros i j Hi Hj. unfold dtrans. rewrite mget_mkmat by lia. rewrite H4 by lia.
    unfold cget. simpl. rewrite bsum_map. apply bsum_ext. intros [[p q] v] _. simpl. rewrite andb_comm. reflexivity.
Qed.

Lemma bsum_if_mul : forall A (l : list A) (f : A -> S) (c : bool) x,
  bsum (fun y => if c then x *s f y else s0) l = (if c then x else s0) *s bsum f l.
Proof.
  intros A l f c x. destruct c.
  - apply (bsum_mul_l L).
  - rewrite (bsum_zero L) by reflexivity. ring.
Qed.

Lemma same_kron : forall a b a' b', same a b -> same a' b' -> same (dkron a a') (coo_kron b b').
Proof.
  intros a b a' b' [H1 H2 H3 H4] [G1 G2 G3 G4]. constructor; simpl; try congruence.
  - intros p q v H. apply in_flat_map in H as [[[p1 q1] v1] [Hin1 H]].
    apply in_map_iff in H as [[[p2 q2] v2] [E Hin2]]. injection E as <- <- <-.
    apply H3 in Hin1. apply G3 in Hin2. nia.
  - intros i j Hi Hj. unfold dkron. rewrite mget_mkmat by (rewrite ?H1, ?H2, ?G1, ?G2; assumption).
    rewrite G1, G2.
    assert (0 < cr b') by nia. assert (0 < cc b') by nia.
    rewrite H4, G4.
    2,3: apply Nat.mod_upper_bound; lia.
    2,3: apply Nat.div_lt_upper_bound; lia.
    unfold cget. simpl. rewrite (bsum_flat_map L). rewrite <- (bsum_mul_r L).
    apply bsum_ext. intros [[p1 q1] v1] Hin1. rewrite bsum_map, <- (bsum_mul_l L).
    apply bsum_ext. intros [[p2 q2] v2] Hin2. simpl. apply G3 in Hin2 as [Hp Hq].
    assert (E : forall x p r n, r < n -> Nat.eqb (p * n + r) x = Nat.eqb p (x / n) && Nat.eqb r (x mod n)).
    { intros x p r n Hr. apply eq_true_iff_eq. rewrite andb_true_iff, !Nat.eqb_eq. split.
      - intros <-. rewrite Nat.div_add_l, Nat.div_small by lia.
        rewrite (Nat.add_comm (p * n) r), Nat.mod_add, Nat.mod_small by lia. lia.
      - intros [-> ->]. rewrite (Nat.mul_comm (x / n) n). symmetry. apply Nat.div_mod. lia. }
    rewrite (E i), (E j) by assumption.
    destruct (p1 =? i / cr b'), (p2 =? i mod cr b'), (q1 =? j / cc b'), (q2 =? j mod cc b'); simpl; ring.
Qed.

Lemma same_dot : forall a b a' b', same a b -> same a' b' ->
  same_res same (ddot a a') (coo_dot b b').
Proof.
  intros a b a' b' [H1 H2 H3 H4] [G1 G2 G3 G4]. unfold ddot, coo_dot. rewrite H2, G1.
  destruct (Nat.eqb (cc b) (cr b')) eqn:E; [|constructor]. apply Nat.eqb_eq in E.
  constructor. constructor; simpl; try congruence.
  - intros p q v H. apply in_flat_map in H as [[[p1 q1] v1] [Hin1 H]].
    apply in_flat_map in H as [[[p2 q2] v2] [Hin2 H]].
    destruct (Nat.eqb q1 p2); simpl in H; [|contradiction]. destruct H as [H|[]]. injection H as <- <- <-.
    apply H3 in Hin1. apply G3 in Hin2. lia.
  - intros i j Hi Hj. rewrite mget_mkmat by congruence.
    rewrite bsum_ext with (g := fun k => bsum (cval i k) (ce b) *s bsum (cval k j) (ce b')).
    2: { intros k Hk. apply in_seq in Hk. rewrite H4, G4 by lia. reflexivity. }
    unfold cget. simpl. rewrite (bsum_flat_map L).
    rewrite bsum_ext with (g := fun k => bsum (fun e => cval i k e *s bsum (cval k j) (ce b')) (ce b))
      by (intros k _; symmetry; apply (bsum_mul_r L)).
    rewrite (bsum_swap L). apply bsum_ext. intros [[p1 q1] v1] Hin1. apply H3 in Hin1 as [Hp1 Hq1].
    rewrite (bsum_flat_map L).
    rewrite (@bsum_single S L _ _ _ q1).
    + simpl. rewrite Nat.eqb_refl, andb_true_r. rewrite <- (bsum_mul_l L). apply bsum_ext.
      intros [[p2 q2] v2] Hin2. simpl. rewrite (Nat.eqb_sym p2 q1).
      destruct (p1 =? i) eqn:Ep, (q1 =? p2) eqn:Eq, (q2 =? j) eqn:Ej; simpl; rewrite ?Ep, ?Ej; simpl; ring.
    + apply seq_NoDup.
    + apply in_seq. lia.
    + intros k _ Hne. simpl. rewrite (proj2 (Nat.eqb_neq q1 k)) by congruence. rewrite andb_false_r. ring.
Qed.

Lemma same_unitary : forall o, same_res same (unitary NB o) (unitary SB o).
Proof.
  intros o. destruct o; cbn [unitary].
  - constructor. apply same_matrix.
  - constructor. apply same_eye.
  - destruct (h_unitary S dims); constructor. apply same_matrix.
  - destruct (x_unitary S dims plus); constructor. apply same_matrix.
  - destruct (z_unitary S dims); constructor. apply same_matrix.
  - destruct (cx_rows S qreg acting_on plus); constructor. cbn. apply same_trans, same_matrix.
  - destruct (arb_unitary (RList dims) u); constructor. apply same_matrix.
  - destruct (arb_unitary dims u); constructor. apply same_matrix.
  - constructor.
Qed.

Lemma same_moment : forall l, same_res same (moment_exec NB l) (moment_exec SB l).
Proof.
  intros [|g gs]; [constructor|]. cbn [moment_exec].
  destruct (same_unitary g) as [a b Hab|e]; [|constructor]. cbn [bind].
  assert (G : forall (x : res mat) (y : res coo), same_res same x y ->
    same_res same
      (fold_left (fun (acc : res NB) h => a <- acc ;; b <- unitary NB h ;; Ok (b_kron (b := NB) a b)) gs x)
      (fold_left (fun (acc : res SB) h => a <- acc ;; b <- unitary SB h ;; Ok (b_kron (b := SB) a b)) gs y)).
  { induction gs as [|h gs IH]; intros x y Hxy; cbn [fold_left]; [exact Hxy|].
    apply IH. destruct Hxy as [a1 b1 H1|e]; [|constructor]. cbn [bind].
    destruct (same_unitary h) as [a2 b2 H2|e]; [|constructor]. cbn [bind]. constructor.
    apply same_kron; assumption. }
  apply G. constructor. exact Hab.
Qed.

Inductive same_opt : option mat -> option coo -> Prop :=
| so_none : same_opt None None
| so_some : forall a b, same a b -> same_opt (Some a) (Some b).

Lemma same_flow : forall f, same_res same_opt (flow_exec NB f) (flow_exec SB f).
Proof.
  intros f. unfold flow_exec. destruct (forallb _ _); [|constructor].
  destruct (rev (f_list f)) as [|m rest]; [constructor|].
  assert (G : forall x y, same_res same_opt x y ->
    same_res same_opt
     (fold_left (fun (acc : res (option NB)) m =>
             a <- acc ;; k <- moment_exec NB (m_list m) ;;
             match a with None => Ok (Some k) | Some d => p <- b_dot (b := NB) d k ;; Ok (Some p) end) rest x)
     (fold_left (fun (acc : res (option SB)) m =>
             a <- acc ;; k <- moment_exec SB (m_list m) ;;
             match a with None => Ok (Some k) | Some d => p <- b_dot (b := SB) d k ;; Ok (Some p) end) rest y)).
  { induction rest as [|h rest IH]; intros x y Hxy; cbn [fold_left]; [exact Hxy|].
    apply IH. destruct Hxy as [a1 b1 H1|e]; [|constructor]. cbn [bind].
    destruct (same_moment (m_list h)) as [a2 b2 H2|e]; [|constructor]. cbn [bind].
    destruct H1 as [|a1 b1 H1].
    - constructor. constructor. exact H2.
    - cbn [b_dot NumpyBackend SparseBackend]. destruct (same_dot H1 H2) as [a3 b3 H3|e]; constructor. constructor. exact H3. }
  apply G. constructor. constructor.
Qed.

(** The report reads only entries inside the shape. *)
Lemma output_ext : forall o (a b : mat), mr a = mr b -> mc a = mc b ->
  (forall i j, i < mr a -> j < mc a -> mget a i j = mget b i j) ->
  output_call o a = output_call o b.
Proof.
  intros o a b Hr Hc Hg. unfold output_call.
  set (va := flat_map _ (seq 0 (mr a))). set (vb := flat_map _ (seq 0 (mr b))).
  assert (E : va = vb).
  { unfold va, vb. rewrite <- Hr, <- Hc.
    assert (Hin : forall i, In i (seq 0 (mr a)) -> i < mr a) by (intros i Hi; apply in_seq in Hi; lia).
    induction (seq 0 (mr a)) as [|i l IH]; simpl; [reflexivity|]. f_equal.
    - assert (Hj : forall j, In j (seq 0 (mc a)) -> j < mc a) by (intros j Hj; apply in_seq in Hj; lia).
      pose proof (Hin i (or_introl eq_refl)) as Hi.
      clear IH. induction (seq 0 (mc a)) as [|j l' IH]; simpl; [reflexivity|].
      rewrite Hg by (auto; apply Hj; left; reflexivity). rewrite IH by (intros; apply Hj; right; assumption). reflexivity.
    - apply IH. intros; apply Hin; right; assumption. }
  rewrite <- E. apply mapM_ext. intros v Hv.
  assert (v < mr a /\ 0 < mc a) as [Hv1 Hv2].
  { unfold va in Hv. apply in_flat_map in Hv as [i [Hi Hv]]. apply in_flat_map in Hv as [j [Hj Hv]].
    apply in_seq in Hi, Hj. destruct (seqb _ _); simpl in Hv; [contradiction|]. destruct Hv as [<-|[]]. lia. }
  rewrite Hg by assumption. reflexivity.
Qed.

Theorem run_backends : forall c : circuit S, run NB c = run SB c.
Proof.
  intros c. unfold run. destruct (same_flow (c_flow c)) as [a b Hab|e]; [|reflexivity]. cbn [bind].
  destruct Hab as [|a b Hab]; [reflexivity|]. cbn [b_toarray NumpyBackend SparseBackend].
  destruct Hab as [H1 H2 H3 H4]. apply output_ext; simpl; auto.
  intros i j Hi Hj. unfold coo_toarray. rewrite mget_mkmat by congruence.
  rewrite H4 by congruence. reflexivity.
Qed.

Corollary simulate_backends : forall q init out ks,
  simulate NB q init out ks = simulate SB q init out ks.
Proof.
  intros q init out ks. unfold simulate.
  destruct (mk_circuit S q init out) as [c|e]; [|reflexivity]. cbn [bind].
  destruct (script c (ks ++ [CMeasureAll])) as [c'|e]; [|reflexivity]. cbn [bind]. apply run_backends.
Qed.

End BackendEq.
