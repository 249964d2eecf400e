(** * Errors: gates that make every later run fail, and gates without effect. *)
From Verif Require Import Py Scalar Mat Utils Gates Circuit Spec Calls HistSpec Lib Flow History.
Set Implicit Arguments.

Section Errors.
Variable S : scalar.
Notation op := (op S).
Notation circuit := (circuit S).
Notation call := (call S).
Notation NB := (NumpyBackend S).

(** ** Failing layers *)

(** Errors of gate matrices do not depend on the backend. *)
Lemma unitary_err : forall (B : backend S) (o : op) e, unitary NB o = Err e -> unitary B o = Err e.
Proof.
  intros B o e H. destruct o; simpl in *; try discriminate; try (injection H as <-; reflexivity);
    match type of H with context [bind ?x _] => destruct x end; simpl in *; congruence.
Qed.

Lemma fold_bind_stuck : forall A X (f : A -> X -> res A) l x, In x l ->
  (forall a, exists e, f a x = Err e) ->
  forall acc, exists e, fold_left (fun acc x => a <- acc ;; f a x) l acc = Err e.
Proof.
  intros A X f l; induction l as [|y l IH]; intros x Hin Hx acc; [contradiction|].
  destruct Hin as [->|Hin].
  - simpl. destruct acc as [a|e]; simpl.
    + destruct (Hx a) as [e ->]. exists e. apply fold_bind_err.
    + exists e. apply fold_bind_err.
  - simpl. apply (IH x Hin Hx).
Qed.

Lemma moment_exec_bad : forall (B : backend S) (l : list op) o e, In o l -> unitary NB o = Err e ->
  exists e', moment_exec B l = Err e'.
Proof.
  intros B l o e Hin He. destruct l as [|g gs]; [contradiction|]. unfold moment_exec.
  destruct Hin as [->|Hin].
  - rewrite (unitary_err B _ He). exists e; reflexivity.
  - destruct (unitary B g) as [u|e'] eqn:Eu; [|exists e'; reflexivity]. cbn [bind].
    apply (@fold_bind_stuck _ _ (fun a h => b <- unitary B h ;; Ok (b_kron a b)) gs o Hin).
    intros a. rewrite (unitary_err B _ He). exists e; reflexivity.
Qed.

Lemma flow_bad : forall (B : backend S) (f : opflow S) m e, In m (tl (rev (f_list f))) ->
  moment_exec B (m_list m) = Err e -> exists e', flow_exec B f = Err e'.
Proof.
  intros B f m e Hin He. unfold flow_exec. destruct (forallb _ _); [|eexists; reflexivity].
  destruct (rev (f_list f)) as [|last rest]; [contradiction|]. simpl in Hin.
  apply (@fold_bind_stuck _ _ (fun a m => k <- moment_exec B (m_list m) ;;
             match a with None => Ok (Some k) | Some d => p <- b_dot d k ;; Ok (Some p) end) rest m Hin).
  intros a. rewrite He. eexists; reflexivity.
Qed.

Lemma tl_rev_snoc : forall A (l : list A) x, tl (rev (l ++ [x])) = rev l.
Proof. intros A l x. rewrite rev_app_distr. reflexivity. Qed.

(** A run of a circuit whose gate layers contain a failing gate fails. *)
Lemma run_bad : forall (B : backend S) n (c : circuit) m l0 ls o e, inv n c m l0 ls ->
  In o (gate_ops ls) -> unitary NB o = Err e -> exists e', run B c = Err e'.
Proof.
  intros B n c m l0 ls o e I Hin He. unfold run.
  assert (Hn : 0 < n).
  { destruct n as [|n]; [|lia]. rewrite (i_zero I eq_refl) in Hin. contradiction. }
  destruct m.
  - unfold gate_ops in Hin. apply in_concat in Hin as [l [Hl Ho]].
    assert (El := i_list I). unfold layers in El. rewrite app_comm_cons in El.
    apply map_eq_app in El as [fl1 [fl2 [Ef [E1 E2]]]].
    destruct fl2 as [|last [|? ?]]; try discriminate.
    assert (Hl' : In l (l0 :: ls)) by (right; exact Hl). rewrite <- E1 in Hl'. apply in_map_iff in Hl' as [mm [Em Hmm]].
    destruct (@moment_exec_bad B l o e Ho He) as [e1 Ee1].
    destruct (@flow_bad B (c_flow c) mm e1) as [e2 Ee2].
    + rewrite Ef, tl_rev_snoc. apply in_rev in Hmm. exact Hmm.
    + rewrite Em. exact Ee1.
    + rewrite Ee2. eexists; reflexivity.
  - unfold flow_exec. rewrite (i_meas I). destruct n; [lia|]. eexists; reflexivity.
Qed.

(** ** Gates stay *)
Lemma step_keep : forall n (c : circuit) m l0 ls k, inv n c m l0 ls ->
  exists ls', inv n (step c k) (m || (0 <? n) && is_measure_all k) l0 ls' /\
    (forall o, In o (gate_ops ls) -> is_igate o = false -> In o (gate_ops ls')).
Proof.
  intros n c m l0 ls k I. destruct (is_measure_all k) eqn:Ek.
  - unfold step. destruct k; try discriminate. destruct (inv_measure I) as [c' [E' H]]. rewrite E'.
    destruct H as [[Hm ->]|[-> [Hn [I' [f ->]]]]].
    + exists ls. split; [|auto]. destruct Hm as [->| ->]; [auto|]. simpl. rewrite orb_false_r. auto.
    + exists ls. rewrite (proj2 (Nat.ltb_lt 0 n) Hn). split; [exact I'|]. auto.
  - rewrite andb_false_r, orb_false_r. unfold step.
    destruct (api c k) as [[c' b]|e] eqn:E; [|exists ls; auto].
    assert (Hk : k <> CMeasureAll) by (intros ->; discriminate).
    destruct (inv_gate I Hk E) as [[_ [-> _]]|[-> [_ [_ [g [lo [hi [ls' [Hi [_ [Had [I' [f ->]]]]]]]]]]]]]; [exists ls; auto|].
    exists ls'. split; [exact I'|]. apply (added_ops Had).
Qed.

Lemma after_keep : forall n ks (c : circuit) m l0 ls, inv n c m l0 ls ->
  exists m' ls', inv n (after c ks) m' l0 ls' /\
    (forall o, In o (gate_ops ls) -> is_igate o = false -> In o (gate_ops ls')).
Proof.
  intros n ks; induction ks as [|k ks IH]; intros c m l0 ls I; [exists m, ls; auto|].
  destruct (step_keep k I) as [ls' [I' H]]. destruct (IH _ _ _ _ I') as [m2 [ls2 [I2 H2]]].
  exists m2, ls2. split; [exact I2|]. auto.
Qed.

Lemma issues_not_igate : forall (c : circuit) k g, issues c k g -> is_igate g = false.
Proof. intros c k g H; destruct H; reflexivity. Qed.

(** [c] never runs again, whatever is called on it. *)
Definition never_runs (c : circuit) : Prop :=
  forall (B : backend S) ks, exists e, run B (after c ks) = Err e.

Lemma bad_inside : forall n (c : circuit) m l0 ls o e, inv n c m l0 ls ->
  In o (gate_ops ls) -> is_igate o = false -> unitary NB o = Err e -> never_runs c.
Proof.
  intros n c m l0 ls o e I Ho Hi He B ks. destruct (after_keep ks I) as [m' [ls' [I' H]]].
  eapply run_bad; eauto.
Qed.

Theorem bad_gate : forall q init out ks (c : circuit) k c' b, history q init out ks c ->
  0 < nregs q -> ~ In CMeasureAll ks -> k <> CMeasureAll -> api c k = Ok (c', b) ->
  (forall g, issues c k g -> occupies (nregs q) g <> [] /\ exists e, unitary NB g = Err e) ->
  never_runs c'.
Proof.
  intros q init out ks c k c' b H Hn Hm Hk Ha Hg. destruct (history_inv H) as [l0 [ls I]].
  assert (Em : (0 <? nregs q) && existsb (@is_measure_all S) ks = false).
  { destruct (existsb _ ks) eqn:E; [|apply andb_false_r]. apply measured_in in E. contradiction. }
  rewrite Em in I.
  destruct (inv_gate I Hk Ha) as [[[X|X] _]|[_ [_ [_ [g [lo [hi [ls' [Hi [Hr [Had [I' _]]]]]]]]]]]];
    [discriminate | lia |].
  destruct (Hg g Hi) as [Ho [e He]].
  apply (@bad_inside _ c' _ l0 ls' g e I').
  - apply (added_ops Had). rewrite (occupies_ranges _ Hr) in Ho.
    destruct (Nat.ltb_spec (lowr (nregs q) lo) (highr (nregs q) lo hi)) as [Hlt|Hge]; [exact Hlt|].
    exfalso. apply Ho. replace (_ - _) with 0 by lia. reflexivity.
  - eapply issues_not_igate; eauto.
  - exact He.
Qed.

End Errors.
