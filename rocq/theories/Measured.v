(** * Measured: the exceptions of run() after measure_all(). *)
From Verif Require Import Py Scalar Mat Utils Gates Circuit Spec Calls HistSpec Lib Flow History Errors.
Set Implicit Arguments.

Section Measured.
Variable S : scalar.
Notation op := (op S).
Notation circuit := (circuit S).
Notation call := (call S).
Notation NB := (NumpyBackend S).
Notation SB := (SparseBackend S).

Definition usual (e : exn) : Prop := e = ValueError \/ e = IndexError \/ e = AttributeError.

Lemma unitary_plain : forall (B : backend S) (o : op) e, unitary B o = Err e ->
  match o with OTof _ _ _ _ _ _ | OArb _ _ _ | OMeas _ => True | _ => usual e end.
Proof.
  intros B o e H. unfold usual. destruct o; simpl in H; try discriminate; try exact I.
  - unfold h_unitary in H. destruct (dims + 1 <? 0)%Z; [injection H as <-; auto|].
    destruct (dims <=? 0)%Z; simpl in H; [injection H as <-; auto | discriminate].
  - unfold x_unitary in H. destruct (dims <? 0)%Z; simpl in H; [injection H as <-; auto|].
    destruct py_index; simpl in H; [discriminate | injection H as <-; auto].
  - unfold z_unitary in H. destruct (dims + 1 <? 0)%Z; [injection H as <-; auto|].
    destruct (dims + 1 =? 0)%Z; simpl in H; [injection H as <-; auto | discriminate].
  - unfold cx_rows in H. destruct acting_on as [|s [|t [|]]]; simpl in H; try (injection H as <-; auto; fail).
    assert (G : forall A (l : list A) i e, py_get l i = Err e -> e = IndexError).
    { intros A l i e0 He. unfold py_get in He. destruct py_index; [|congruence]. destruct nth_error; congruence. }
    destruct (py_get qreg (if (s <? t)%Z then 0%Z else (s - t)%Z)) as [src|e1] eqn:E1; simpl in H; [|injection H as <-; apply G in E1; auto].
    destruct (py_get qreg (if (s <? t)%Z then (t - s)%Z else 0%Z)) as [tgt|e1] eqn:E2; simpl in H; [|injection H as <-; apply G in E2; auto].
    match type of H with bind (bind ?x _) _ = _ => destruct x as [rows|e1] eqn:E3 end; simpl in H; [discriminate|].
    injection H as <-. apply mapM_err in E3 as [[i x] [_ E3]]. destruct (_ =? _)%Z in E3; [|discriminate].
    unfold cx_update in E3. destruct (filter _ _); [injection E3 as <-; auto|]. destruct get_index; discriminate.
Qed.

Lemma dot_value : forall B : backend S, B = NB \/ B = SB -> forall a b e, b_dot (b := B) a b = Err e -> e = ValueError.
Proof.
  intros B [->| ->] a b e H; simpl in H.
  - unfold ddot in H. destruct (_ =? _); congruence.
  - unfold coo_dot in H. destruct (_ =? _); congruence.
Qed.

Theorem run_measured : forall (B : backend S) q init out ks (c : circuit) e, B = NB \/ B = SB ->
  history q init out ks c -> 0 < nregs q -> In CMeasureAll ks ->
  (forall k, In k ks -> is_matrix_gate k = false) -> run B c = Err e -> usual e.
Proof.
  intros B q init out ks c e HB H Hn Hm Hg Hr.
  destruct (@history_full S (fun k => is_matrix_gate k = false) q init out ks c H) as [l0 [ls [I HF]]].
  { apply Forall_forall. exact Hg. }
  rewrite (proj2 (measured_in ks) Hm), (proj2 (Nat.ltb_lt _ _) Hn) in I. simpl in I.
  revert Hr. apply run_errors; unfold usual; auto.
  - exact (dot_value HB).
  - intros m o e0 Hin Ho He. apply unitary_plain in He.
    assert (El := i_list I). unfold layers in El. rewrite app_comm_cons in El.
    apply map_eq_app in El as [fl1 [fl2 [Ef [E1 E2]]]]. destruct fl2 as [|last [|? ?]]; try discriminate.
    rewrite Ef, tl_rev_snoc, <- in_rev in Hin. apply (in_map (@m_list S)) in Hin. rewrite E1 in Hin.
    destruct Hin as [Hin|Hin].
    + rewrite <- Hin in Ho. pose proof (proj1 (i_m0 I)) as F. rewrite forallb_forall in F. specialize (F o Ho).
      destruct o; try discriminate. exact He.
    + assert (Ho' : In o (gate_ops ls)) by (apply in_concat; eauto).
      destruct (HF o Ho') as [[i [_ ->]]|[k [Hk Hi]]]; [exact He|].
      apply issues_made_by in Hi. destruct k; try discriminate; destruct o; try contradiction; exact He.
  - rewrite (i_meas I), forallb_repeat. apply orb_true_r.
Qed.
End Measured.
