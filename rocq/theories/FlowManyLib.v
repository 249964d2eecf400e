(** * FlowManyLib: lemmas about populate_all. *)
From Verif Require Import Py Scalar Mat Utils Gates Circuit HistSpec Lib FlowMany.
Set Implicit Arguments.

Section FlowManyLib.
Variable S : scalar.
Notation op := (op S).

Lemma not_all : forall l : list bool, In false l -> forallb (fun b => b) l = false.
Proof. intros l H. destruct (forallb _ l) eqn:E; [|reflexivity]. rewrite forallb_forall in E. discriminate (E _ H). Qed.

Lemma no_meas : forall (l : list op) k ms, (forall o, In o l -> is_meas o = false) -> detect_measurement k l ms = Ok ms.
Proof.
  induction l as [|o l IH]; intros k ms H; [reflexivity|]. cbn [detect_measurement]. rewrite (H o (or_introl eq_refl)). cbn [bind].
  apply IH. intros x Hx. apply H. right. exact Hx.
Qed.

Lemma append_lists : forall (fl : list (moment S)) m,
  map (@m_list S) (append_moment fl m) = map (@m_list S) fl ++ [m_list m] /\ length (append_moment fl m) = length fl + 1.
Proof.
  intros fl m. unfold append_moment. destruct (rev fl) as [|p before] eqn:E.
  - assert (fl = []) as -> by (rewrite <- (rev_involutive fl), E; reflexivity). split; reflexivity.
  - assert (fl = rev before ++ [p]) as -> by (rewrite <- (rev_involutive fl), E; reflexivity).
    rewrite !map_app, !app_length. cbn [map length m_list set_next set_prev]. rewrite <- app_assoc. split; [reflexivity | lia].
Qed.

Lemma append_wide : forall (f : opflow S) m, f_list f <> [] -> In false (f_meas f) ->
  (forall o, In o (m_list m) -> is_hxz o = false /\ is_meas o = false) ->
  populate_opflow f m = Ok ({| f_list := append_moment (f_list f) m; f_meas := f_meas f |}, true).
Proof.
  intros f m Hne Hm H. unfold populate_opflow. destruct (rev (f_list f)) as [|p before] eqn:E.
  - destruct Hne. rewrite <- (rev_involutive (f_list f)), E. reflexivity.
  - rewrite (not_all _ Hm). replace (find (@is_hxz S) (m_list m)) with (@None op).
    + cbn [bind]. rewrite no_meas by (intros o Ho; apply H, Ho). reflexivity.
    + symmetry. destruct (find _ _) eqn:F; [|reflexivity]. apply find_some in F as [F1 F2]. destruct (H _ F1). congruence.
Qed.

Lemma all_added : forall ms (f : opflow S), f_list f <> [] -> In false (f_meas f) ->
  (forall m o, In m ms -> In o (m_list m) -> is_hxz o = false /\ is_meas o = false) ->
  exists f', populate_all f ms = Ok (f', true) /\ f_meas f' = f_meas f /\
    map (@m_list S) (f_list f') = map (@m_list S) (f_list f) ++ map (@m_list S) ms.
Proof.
  induction ms as [|m ms IH]; intros f Hne Hm H.
  - exists f. repeat split. rewrite app_nil_r. reflexivity.
  - destruct (append_lists (f_list f) m) as [E1 E2].
    cbn [populate_all]. rewrite (append_wide f m Hne Hm (fun o Ho => H m o (or_introl eq_refl) Ho)).
    cbn [bind]. cbn [f_list]. rewrite E2. rewrite (proj2 (Nat.eqb_neq _ _)) by lia.
    destruct (IH {| f_list := append_moment (f_list f) m; f_meas := f_meas f |}) as [f' [P1 [P2 P3]]].
    + intros E. cbn [f_list] in E. rewrite E in E2. simpl in E2. lia.
    + exact Hm.
    + intros x o Hx. apply H. right. exact Hx.
    + exists f'. split; [exact P1|]. split; [exact P2|]. rewrite P3. cbn [f_list map]. rewrite E1, <- app_assoc. reflexivity.
Qed.

Lemma find_first : forall (a b : list op) g, (forall o, In o a -> is_hxz o = false) -> is_hxz g = true ->
  find (@is_hxz S) (a ++ g :: b) = Some g.
Proof.
  induction a as [|o a IH]; intros b g H Hg; cbn [find app]; [rewrite Hg; reflexivity|].
  rewrite (H o (or_introl eq_refl)). apply IH; [intros x Hx; apply H; right; exact Hx | exact Hg].
Qed.

Lemma members_in : forall o : op, is_init o = false -> exists a, acting_members o = Ok a /\ forall r, In r a -> In r (registers o).
Proof.
  intros [] H; try discriminate; simpl; try (eexists; split; [reflexivity | auto]; fail).
  - eexists. split; [reflexivity|]. intros r [<-|[]]. left. reflexivity.
  - destruct qreg; eexists; (split; [reflexivity|]); auto.
Qed.

Lemma slot_found : forall (l1 l2 : list op) r d k, (forall o, In o l1 -> is_init o = false /\ ~ In r (registers o)) ->
  get_qreg_moment_from k (l1 ++ OI r d :: l2) r = Ok (Some (OI r d, k + length l1)).
Proof.
  induction l1 as [|o l1 IH]; intros l2 r d k H; cbn [app get_qreg_moment_from].
  - cbn [acting_members bind zmem existsb]. rewrite Z.eqb_refl. rewrite Nat.add_0_r. reflexivity.
  - destruct (H o (or_introl eq_refl)) as [H1 H2]. destruct (members_in o H1) as [a [Ea Ha]]. rewrite Ea. cbn [bind].
    replace (zmem r a) with false.
    + rewrite IH by (intros x Hx; apply H; right; exact Hx). cbn [length]. do 3 f_equal. lia.
    + symmetry. unfold zmem. destruct (existsb (Z.eqb r) a) eqn:E; [|reflexivity]. apply existsb_exists in E as [x [Hx E]].
      apply Z.eqb_eq in E. subst x. destruct (H2 (Ha _ Hx)).
Qed.

Lemma upd_middle : forall A (l1 l2 : list A) x y, upd (l1 ++ x :: l2) (length l1) y = l1 ++ y :: l2.
Proof. induction l1 as [|a l1 IH]; intros; simpl; [reflexivity | rewrite IH; reflexivity]. Qed.

Lemma merge_loses : forall (f : opflow S) before last l1 r d l2 m g a b ms,
  f_list f = before ++ [last] -> In false (f_meas f) ->
  m_list last = l1 ++ OI r d :: l2 ->
  (forall o, In o l1 -> is_init o = false /\ ~ In r (registers o)) ->
  m_list m = a ++ g :: b -> (forall o, In o a -> is_hxz o = false) -> is_hxz g = true -> registers g = [r] ->
  exists f', populate_all f (m :: ms) = Ok (f', true) /\ f_meas f' = f_meas f /\
    map (@m_list S) (f_list f') = map (@m_list S) before ++ [l1 ++ g :: l2].
Proof.
  intros f before last l1 r d l2 m g a b ms Ef Hm El Hl1 Em Ha Hg Hr.
  assert (Eq : qreg_of g = r).
  { destruct g; try discriminate; simpl in *; congruence. }
  assert (P : populate_opflow f m = Ok ({| f_list := before ++ [set_list (l1 ++ g :: l2) last]; f_meas := f_meas f |}, true)).
  { unfold populate_opflow. rewrite Ef, rev_unit, (not_all _ Hm), Em, (find_first a b g Ha Hg), Eq, El.
    replace (zmem r (map (@qreg_of S) (filter (@is_igate S) (l1 ++ OI r d :: l2)))) with true.
    - unfold replace_igate. rewrite (slot_found l1 l2 r d 0 Hl1). cbn [bind is_igate Nat.add].
      rewrite upd_middle, rev_involutive. reflexivity.
    - symmetry. unfold zmem. apply existsb_exists. exists r. split; [|apply Z.eqb_refl].
      apply in_map_iff. exists (OI r d). split; [reflexivity|]. apply filter_In. split; [|reflexivity].
      apply in_app_iff. right. left. reflexivity. }
  cbn [populate_all]. rewrite P. cbn [bind]. cbn [f_list]. rewrite Ef, !app_length. cbn [length]. rewrite Nat.eqb_refl.
  eexists. split; [reflexivity|]. split; [reflexivity|]. cbn [f_list]. rewrite map_app. reflexivity.
Qed.
Lemma populate_unmeasured : forall (f f' : opflow S) m b, populate_opflow f m = Ok (f', b) ->
  (forall o, In o (m_list m) -> is_meas o = false) -> (f_list f = [] -> m_list m <> []) -> In false (f_meas f) -> In false (f_meas f').
Proof.
  intros f f' m b H Hm Hn Hf. unfold populate_opflow in H. destruct (rev (f_list f)) as [|last before] eqn:E.
  - rewrite no_meas in H by exact Hm. cbn [bind] in H. injection H as <- _. cbn [f_meas].
    assert (N : m_list m <> []) by (apply Hn; rewrite <- (rev_involutive (f_list f)), E; reflexivity).
    destruct (m_list m); [contradiction | left; reflexivity].
  - rewrite (not_all _ Hf) in H. apply bind_ok in H as [[fl|] [_ H]]; [injection H as <- _; exact Hf|].
    rewrite no_meas in H by exact Hm. cbn [bind] in H. injection H as <- _. exact Hf.
Qed.
Lemma populate_grows : forall (f f' : opflow S) m b, populate_opflow f m = Ok (f', b) -> f_list f' = [] -> f_list f = [] /\ b = false.
Proof.
  intros f f' m b H E. unfold populate_opflow in H. destruct (rev (f_list f)) as [|last before] eqn:R.
  - apply bind_ok in H as [me [_ H]]. injection H as <- _. discriminate E.
  - destruct (forallb _ (f_meas f)); [injection H as <- <-; split; [exact E | reflexivity]|].
    apply bind_ok in H as [[fl|] [M H]].
    + exfalso. injection H as <- _. cbn [f_list] in E. subst fl. destruct (find _ _) as [g|]; [|discriminate M].
      destruct (zmem _ _); [|discriminate M]. apply bind_ok in M as [[l' c] [_ M]]. destruct c; [|discriminate M]. injection M as M. destruct (rev before); discriminate M.
    + exfalso. apply bind_ok in H as [me [_ H]]. injection H as <- _. cbn [f_list] in E. unfold append_moment in E. rewrite R in E.
      destruct (rev before); discriminate E.
Qed.
Lemma fill_unmeasured : forall ms (f f' : opflow S) b, populate_all f ms = Ok (f', b) ->
  (forall m o, In m ms -> In o (m_list m) -> is_meas o = false) -> (forall m rest, ms = m :: rest -> f_list f = [] -> m_list m <> []) ->
  In false (f_meas f) -> In false (f_meas f').
Proof.
  induction ms as [|m ms IH]; intros f f' b H Hm Hn Hf; cbn [populate_all] in H; [injection H as <- _; exact Hf|].
  apply bind_ok in H as [[f1 b1] [E H]].
  assert (H1 : In false (f_meas f1)) by (eapply populate_unmeasured; [exact E | intros o Ho; apply (Hm m o); [left; reflexivity | exact Ho] | apply (Hn m ms eq_refl) | exact Hf]).
  destruct b1; [|injection H as <- _; exact H1]. destruct (Nat.eqb _ _); [injection H as <- _; exact H1|].
  apply (IH f1 f' b H); [intros x o Hx; apply Hm; right; exact Hx | | exact H1].
  intros x rest _ X. destruct (populate_grows _ _ E X) as [_ Y]. discriminate Y.
Qed.
End FlowManyLib.
