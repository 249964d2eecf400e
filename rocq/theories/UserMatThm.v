(** * UserMatThm: user gates whose matrix is not a numpy array (C128). *)
From Verif Require Import Py Scalar Mat Utils Gates Circuit Spec Calls HistSpec InfoSpec CallSpec ShapeSpec RaiseSpec DrawFailSpec UserMat UserMatSpec Lib Kern GateMat GateTof Flow Layers Blocks Refine Run History Merge Errors Construct Ignored BadGates Reject Shapes Succeeds Labels BackendEq RaiseLib.
Set Implicit Arguments.

Section UserMatThm.
Variable S : scalar.
Variable L : scalar_laws S.
Notation op := (op S).
Notation mat := (mat S).
Notation circuit := (circuit S).
Notation NB := (NumpyBackend S).
Notation SB := (SparseBackend S).
Variable object_of : mat -> mat_object.
Notation unitary_of := (unitary_of object_of).
Notation exec_of := (exec_of object_of).
Notation flow_of := (flow_of object_of).
Notation run_of := (run_of object_of).

Notation fails := (fails object_of).
Notation raises_of := (raises_of object_of).

Lemma unitary_fails : forall (B : backend S) o, unitary_of B o = match fails o with Some e => Err e | None => unitary B o end.
Proof. intros B o. destruct o; reflexivity. Qed.

Lemma exec_arrays : forall (B : backend S) l, (forall o, In o l -> fails o = None) -> exec_of B l = moment_exec B l.
Proof.
  intros B l H. destruct l as [|g gs]; [reflexivity|]. cbn [UserMat.exec_of moment_exec]. rewrite unitary_fails, (H g (or_introl eq_refl)).
  destruct (unitary B g) as [u|e]; [|reflexivity]. cbn [bind].
  assert (Hg : forall o, In o gs -> fails o = None) by (intros; apply H; right; assumption). clear H.
  generalize (Ok u : res B) as acc. induction gs as [|h gs IH]; intros acc; [reflexivity|]. cbn [fold_left].
  rewrite IH by (intros; apply Hg; right; assumption). f_equal. destruct acc; [|reflexivity]. cbn [bind].
  rewrite unitary_fails, (Hg h (or_introl eq_refl)). reflexivity.
Qed.

(** ** Backends *)
Lemma same_unitary_of : forall o, same_res (@same S) (unitary_of NB o) (unitary_of SB o).
Proof. intros o. rewrite !unitary_fails. destruct (fails o); [constructor | apply (same_unitary L)]. Qed.

Lemma same_exec_of : forall l, same_res (@same S) (exec_of NB l) (exec_of SB l).
Proof.
  intros [|g gs]; [constructor|]. cbn [UserMat.exec_of].
  destruct (same_unitary_of g) as [a b Hab|e]; [|constructor]. cbn [bind].
  assert (G : forall (x : res mat) (y : res (coo S)), same_res (@same S) x y ->
    same_res (@same S)
      (fold_left (fun (acc : res NB) h => a <- acc ;; b <- unitary_of NB h ;; Ok (b_kron (b := NB) a b)) gs x)
      (fold_left (fun (acc : res SB) h => a <- acc ;; b <- unitary_of SB h ;; Ok (b_kron (b := SB) a b)) gs y)).
  { induction gs as [|h gs IH]; intros x y Hxy; cbn [fold_left]; [exact Hxy|].
    apply IH. destruct Hxy as [a1 b1 H1|e]; [|constructor]. cbn [bind].
    destruct (same_unitary_of h) as [a2 b2 H2|e]; [|constructor]. cbn [bind]. constructor.
    apply (same_kron L); assumption. }
  apply G. constructor. exact Hab.
Qed.

Lemma same_flow_of : forall f, same_res (@same_opt S) (flow_of NB f) (flow_of SB f).
Proof.
  intros f. unfold UserMat.flow_of. destruct (forallb _ _); [|constructor].
  destruct (rev (f_list f)) as [|m rest]; [constructor|].
  assert (G : forall x y, same_res (@same_opt S) x y ->
    same_res (@same_opt S)
     (fold_left (fun (acc : res (option NB)) m =>
             a <- acc ;; k <- exec_of NB (m_list m) ;;
             match a with None => Ok (Some k) | Some d => p <- b_dot (b := NB) d k ;; Ok (Some p) end) rest x)
     (fold_left (fun (acc : res (option SB)) m =>
             a <- acc ;; k <- exec_of SB (m_list m) ;;
             match a with None => Ok (Some k) | Some d => p <- b_dot (b := SB) d k ;; Ok (Some p) end) rest y)).
  { induction rest as [|h rest IH]; intros x y Hxy; cbn [fold_left]; [exact Hxy|].
    apply IH. destruct Hxy as [a1 b1 H1|e]; [|constructor]. cbn [bind].
    destruct (same_exec_of (m_list h)) as [a2 b2 H2|e]; [|constructor]. cbn [bind].
    destruct H1 as [|a1 b1 H1].
    - constructor. constructor. exact H2.
    - cbn [b_dot NumpyBackend SparseBackend]. destruct (same_dot L H1 H2) as [a3 b3 H3|e]; constructor. constructor. exact H3. }
  apply G. constructor. constructor.
Qed.

Theorem run_of_backends : forall c : circuit, run_of NB c = run_of SB c.
Proof.
  intros c. unfold UserMat.run_of. destruct (same_flow_of (c_flow c)) as [a b Hab|e]; [|reflexivity]. cbn [bind].
  destruct Hab as [|a b Hab]; [reflexivity|]. cbn [b_toarray NumpyBackend SparseBackend].
  destruct Hab as [H1 H2 H3 H4]. apply output_ext; simpl; auto.
  intros i j Hi Hj. unfold coo_toarray. rewrite mget_mkmat by congruence.
  rewrite H4 by congruence. reflexivity.
Qed.

(** ** One layer, all layers *)
Definition mult_of (acc : res (option NB)) (m : moment S) : res (option NB) :=
  a <- acc ;; k <- exec_of NB (m_list m) ;;
  match a with None => Ok (Some k) | Some d => p <- b_dot d k ;; Ok (Some p) end.

Lemma exec_first : forall l e, Forall (@agrees S) l -> first_some raises_of l = Some e -> exec_of NB l = Err e.
Proof.
  intros l e HA H. destruct l as [|g gs]; [discriminate|]. cbn [UserMat.exec_of]. inversion HA as [|? ? Ag Ags]; subst. cbn [first_some] in H.
  assert (U : forall o, agrees o -> (raises_of o = None -> exists m : mat, unitary_of NB o = Ok m) /\ (forall e, raises_of o = Some e -> unitary_of NB o = Err e)).
  { intros o Ao. rewrite unitary_fails. unfold UserMatSpec.raises_of, raises. unfold agrees in Ao. destruct (fails o) as [e0|].
    - split; [discriminate|]. congruence.
    - destruct (verdict_of o) as [e0|r c].
      + split; [discriminate|]. congruence.
      + split; [|discriminate]. intros _. destruct Ao as [m [E _]]. eauto. }
  destruct (raises_of g) as [e0|] eqn:Eg.
  - rewrite (proj2 (U g Ag) _ Eg). cbn [bind]. congruence.
  - destruct (proj1 (U g Ag) Eg) as [m E]. rewrite E. cbn [bind]. clear E Eg Ag HA g. revert m.
    induction gs as [|h gs IH]; intros m; [discriminate|]. cbn [fold_left first_some] in *. inversion Ags as [|? ? Ah At]; subst.
    cbn [bind]. destruct (raises_of h) as [e0|] eqn:Eh.
    + rewrite (proj2 (U h Ah) _ Eh). cbn [bind]. injection H as ->. apply fold_bind_err.
    + destruct (proj1 (U h Ah) Eh) as [m' E]. rewrite E. cbn [bind]. apply IH; assumption.
Qed.

Lemma first_none : forall l, first_some raises_of l = None -> forall o, In o l -> fails o = None /\ raises o = None.
Proof.
  induction l as [|x l IH]; intros H o Ho; [contradiction|]. cbn [first_some] in H. unfold UserMatSpec.raises_of in H at 1.
  destruct (fails x) as [e|] eqn:Ef; [discriminate|]. destruct (raises x) as [e|] eqn:Er; [discriminate|].
  destruct Ho as [<-|Ho]; [auto | apply IH; assumption].
Qed.

Lemma first_app : forall A B (f : A -> option B) a b, first_some f (a ++ b) = match first_some f a with Some y => Some y | None => first_some f b end.
Proof. intros A B f a b. induction a as [|x a IH]; [reflexivity|]. cbn [app first_some]. destruct (f x); [reflexivity | exact IH]. Qed.

Lemma exec_ok : forall l, l <> [] -> Forall (@agrees S) l -> (forall o, In o l -> raises o = None) -> exists M : mat, moment_exec NB l = Ok M.
Proof.
  intros l Hne HA Hr. pose proof (agrees_layer Hne HA) as X.
  assert (E : exists r c, layer_verdict l = Sized r c).
  { clear X Hne HA. unfold layer_verdict. induction l as [|x l IH]; [cbn; eauto|]. cbn [map in_order].
    pose proof (Hr x (or_introl eq_refl)) as Hx. unfold raises in Hx. destruct (verdict_of x) as [e|r c]; [discriminate|].
    destruct IH as [r' [c' ->]]; [intros; apply Hr; right; assumption|]. eauto. }
  destruct E as [r [c E]]. rewrite E in X. destruct X as [M [X _]]. eauto.
Qed.

Lemma flow_first : forall ms acc, (forall m, In m ms -> m_list m <> [] /\ Forall (@agrees S) (m_list m)) ->
  match first_some raises_of (concat (map (@m_list S) ms)) with
  | None => fold_left mult_of ms (Ok acc) = fold_left (@mult S) ms (Ok acc)
  | Some e => fold_left mult_of ms (Ok acc) = Err e \/
              fold_left mult_of ms (Ok acc) = Err ValueError /\ fold_left (@mult S) ms (Ok acc) = Err ValueError
  end.
Proof.
  induction ms as [|m ms IH]; intros acc HA; [reflexivity|]. destruct (HA m (or_introl eq_refl)) as [Hne Am].
  assert (Ams : forall m, In m ms -> m_list m <> [] /\ Forall (@agrees S) (m_list m)) by (intros; apply HA; right; assumption). cbn [map concat fold_left].
  assert (Err1 : forall e, fold_left mult_of ms (Err e) = Err e).
  { intros e. unfold mult_of. apply (@fold_bind_err _ _ (fun a m => k <- exec_of NB (m_list m) ;;
            match a with None => Ok (Some k) | Some d => p <- b_dot d k ;; Ok (Some p) end)). }
  assert (Err2 : forall e, fold_left (@mult S) ms (Err e) = Err e).
  { intros e. unfold mult. apply (@fold_bind_err _ _ (fun a m => k <- moment_exec NB (m_list m) ;;
            match a with None => Ok (Some k) | Some d => p <- b_dot d k ;; Ok (Some p) end)). }
  rewrite first_app. destruct (first_some raises_of (m_list m)) as [e|] eqn:E.
  - left. unfold mult_of at 2. cbn [bind]. rewrite (exec_first Am E). cbn [bind]. apply Err1.
  - pose proof (first_none _ E) as Hn.
    assert (Em : mult_of (Ok acc) m = mult (Ok acc) m).
    { unfold mult_of, mult. cbn [bind]. rewrite exec_arrays; [reflexivity|]. intros o Ho. apply (Hn o Ho). }
    rewrite Em. destruct (exec_ok Hne Am) as [k Ek]; [intros o Ho; apply (Hn o Ho)|].
    assert (Ek' : mult (Ok acc) m = match acc with None => Ok (Some k) | Some d => p <- b_dot (b := NB) d k ;; Ok (Some p) end) by (unfold mult; cbn [bind]; rewrite Ek; reflexivity).
    rewrite Ek'. destruct acc as [d|]; [|apply IH; exact Ams].
    cbn [b_dot NumpyBackend]. unfold ddot. destruct (mc d =? mr k); cbn [bind]; [apply IH; exact Ams|].
    rewrite Err1, Err2. destruct (first_some _ _); auto.
Qed.

(** ** Histories *)
Lemma measured_layers : forall dims init out ks (c : circuit),
  history (QList (map Z.of_nat dims)) init out ks c -> dims <> [] -> ~ In CMeasureAll ks ->
  exists fl lst, rev (f_list (c_flow (after c [CMeasureAll]))) = lst :: rev fl /\ layers_of c = map (@m_list S) fl /\
    forallb (fun b => b) (f_meas (c_flow (after c [CMeasureAll]))) = true /\
    forall m, In m (rev fl) -> m_list m <> [] /\ Forall (@agrees S) (m_list m).
Proof.
  intros dims init out ks c H Hne Hm.
  assert (Hdims : forall d, In d dims -> 2 <= d).
  { intros x Hx. assert (2 <= Z.of_nat x)%Z; [|lia]. apply (history_dims2 H). apply in_map. exact Hx. }
  pose proof (hl_shaped dims H) as Hs.
  destruct (@history_full S (fun _ => True) _ _ _ _ _ H) as [l0 [ls [I HF]]]; [apply Forall_forall; auto|].
  rewrite (hl_nregs dims) in I.
  replace ((0 <? length dims) && existsb (@is_measure_all S) ks) with false in I.
  2:{ symmetry. destruct (existsb _ ks) eqn:E; [|apply andb_false_r]. apply measured_in in E. contradiction. }
  assert (Hn : 0 < length dims) by (destruct dims; [congruence | simpl; lia]).
  destruct (inv_measure I) as [c' [Ea [[[X|X] _]|[_ [_ [I' [f Ec']]]]]]]; [discriminate | lia |].
  assert (Ec : after c [CMeasureAll] = c') by (unfold after; cbn [fold_left]; unfold step; rewrite Ea; reflexivity).
  rewrite Ec. clear Ea Ec.
  pose proof (i_list I) as E1. pose proof (i_list I') as E2. unfold layers in E1, E2. fold (layers_of c) in E1. rewrite app_nil_r in E1.
  rewrite app_comm_cons in E2. apply map_eq_app in E2 as [fl1 [fl2 [Ef [M1 M2]]]]. destruct fl2 as [|lst [|? ?]]; try discriminate.
  exists fl1, lst. split; [rewrite Ef, rev_app_distr; reflexivity|]. split; [congruence|].
  split; [rewrite (i_meas I'), forallb_repeat, orb_true_r; reflexivity|].
  intros m Hin. apply in_rev in Hin. assert (Hl : In (m_list m) (l0 :: ls)) by (rewrite <- M1; apply in_map; exact Hin). split.
  - destruct Hl as [<-|Hl].
    + intros E. pose proof (proj2 (i_m0 I)) as X. rewrite E in X. destruct (length dims); [lia | discriminate].
    + intros E. pose proof (proj1 (proj1 (Forall_forall _ _) (i_tile I) _ Hl)) as X. rewrite E in X. cbn in X. destruct (length dims); [lia | discriminate].
  - eapply (agrees_ops L); [exact Hdims | exact I | exact Hs | exact HF | exact Hl].
Qed.

(** A matrix that stands for another object is not unitary. *)
Hypothesis stand_in : forall u, object_of u <> NdArray -> orthonormal u = false.

Lemma fails_raises : forall o e, fails o = Some e -> raises o = Some PlainException.
Proof.
  intros o e H. destruct o; try discriminate. cbn in H. unfold raises. cbn [verdict_of]. rewrite stand_in; [reflexivity|].
  intros E. rewrite E in H. discriminate.
Qed.

Lemma first_both : forall l,
  match first_some raises_of l with
  | None => first_some (@raises S) l = None
  | Some e => first_some (@raises S) l = Some e \/ first_some (@raises S) l = Some PlainException
  end.
Proof.
  induction l as [|x l IH]; [reflexivity|]. cbn [first_some]. unfold UserMatSpec.raises_of at 1. destruct (fails x) as [e|] eqn:E.
  - rewrite (fails_raises _ E). auto.
  - destruct (raises x); [left; reflexivity | exact IH].
Qed.

Theorem run_objects : forall dims init out ty me ks (c : circuit),
  history (QList (map Z.of_nat dims)) init out ks c -> dims <> [] -> Forall (right_size dims) ks -> wants dims out ty me ->
  match first_some raises_of (concat (rev (layers_of c))) with
  | Some e => run_of NB (after c [CMeasureAll]) = Err e
  | None => exists l, run NB (after c [CMeasureAll]) = Ok l /\ run_of NB (after c [CMeasureAll]) = Ok l
  end.
Proof.
  intros dims init out ty me ks c H Hne Hk Hw.
  assert (Hm : ~ In CMeasureAll ks) by (intros Hin; rewrite Forall_forall in Hk; exact (Hk _ Hin)).
  pose proof (run_right L H Hne Hk Hw) as R.
  destruct (measured_layers H Hne Hm) as [fl [lst [E1 [E2 [E3 E4]]]]].
  pose proof (flow_first _ None E4) as F. pose proof (first_both (concat (rev (layers_of c)))) as B.
  rewrite E2, <- map_rev in *.
  assert (Ef : flow_exec NB (c_flow (after c [CMeasureAll])) = fold_left (@mult S) (rev fl) (Ok None)) by (unfold flow_exec; rewrite E3, E1; reflexivity).
  assert (Eo : flow_of NB (c_flow (after c [CMeasureAll])) = fold_left mult_of (rev fl) (Ok None)) by (unfold UserMat.flow_of; rewrite E3, E1; reflexivity).
  unfold run in R |- *. unfold UserMat.run_of. rewrite Ef in *. rewrite Eo.
  destruct (first_some raises_of (concat (map (@m_list S) (rev fl)))) as [e|].
  - destruct F as [F|[F1 F2]]; [rewrite F; reflexivity|]. rewrite F1. rewrite F2 in R. cbn [bind] in *.
    destruct B as [B|B]; rewrite B in R; congruence.
  - rewrite B in R. destruct R as [l R]. exists l. rewrite F. auto.
Qed.
End UserMatThm.

(** Without the hypotheses: such a gate in a layer never gives a result. *)
Section Never.
Variable S : scalar.
Variable object_of : mat S -> mat_object.

Lemma exec_never : forall (B : backend S) l o, In o l -> fails object_of o <> None -> exists e, exec_of object_of B l = Err e.
Proof.
  intros B l o Ho Hf. destruct l as [|g gs]; [contradiction|]. cbn [exec_of].
  assert (U : exists e, unitary_of object_of B o = Err e) by (rewrite unitary_fails; destruct (fails object_of o); [eauto | congruence]).
  destruct Ho as [->|Ho]; [destruct U as [e ->]; exists e; reflexivity|].
  destruct (unitary_of object_of B g) as [u|e]; [|exists e; reflexivity]. cbn [bind]. revert u.
  induction gs as [|h gs IH]; intros u; [contradiction|]. cbn [fold_left bind]. destruct Ho as [->|Ho].
  - destruct U as [e ->]. cbn [bind]. exists e. apply fold_bind_err.
  - destruct (unitary_of object_of B h) as [v|e]; cbn [bind]; [apply IH; exact Ho | exists e; apply fold_bind_err].
Qed.

Theorem run_never : forall (B : backend S) (c : circuit S) before l o, map (@m_list S) (f_list (c_flow c)) = before ++ [l] ->
  In o (concat before) -> fails object_of o <> None -> exists e, run_of object_of B c = Err e.
Proof.
  intros B c before l o E Ho Hf. unfold run_of, flow_of. destruct (forallb _ _); [|eexists; reflexivity].
  destruct (map_eq_app _ _ _ _ E) as [fl [x [Ef [E1 E2]]]]. destruct x as [|lst [|? ?]]; try discriminate.
  rewrite Ef, rev_app_distr. cbn [rev app].
  assert (G : exists m, In m (rev fl) /\ In o (m_list m)).
  { apply in_concat in Ho as [k [Hk Ho]]. rewrite <- E1 in Hk. apply in_map_iff in Hk as [m [<- Hm]]. exists m. split; [apply -> in_rev; exact Hm | exact Ho]. }
  destruct G as [m [Hm Hom]]. destruct (exec_never B (m_list m) o Hom Hf) as [e0 Ee].
  match goal with |- context[fold_left ?f (rev fl) _] => set (F := f) end.
  assert (X : forall ms acc, In m ms -> exists e, fold_left F ms (Ok acc) = Err e).
  { induction ms as [|k ms IH]; intros acc Hk; [contradiction|]. cbn [fold_left].
    assert (Er : forall e, fold_left F ms (Err e) = Err e).
    { intros e. apply (@fold_bind_err _ _ (fun a m => k <- exec_of object_of B (m_list m) ;;
            match a with None => Ok (Some k) | Some d => p <- b_dot d k ;; Ok (Some p) end)). }
    destruct Hk as [->|Hk].
    - unfold F at 2. cbn [bind]. rewrite Ee. cbn [bind]. rewrite Er. eauto.
    - destruct (F (Ok acc) k) as [a|e]; [apply IH; exact Hk | rewrite Er; eauto]. }
  destruct (X (rev fl) None Hm) as [e ->]. exists e. reflexivity.
Qed.

Theorem run_arrays : forall (B : backend S) (c : circuit S),
  (forall o, In o (concat (layers_of c)) -> fails object_of o = None) -> run_of object_of B c = run B c.
Proof.
  intros B c H. unfold run_of, run. f_equal. unfold flow_of, flow_exec. destruct (forallb _ _); [|reflexivity].
  destruct (rev (f_list (c_flow c))) as [|x rest] eqn:E; [reflexivity|].
  assert (Hr : forall m, In m rest -> exec_of object_of B (m_list m) = moment_exec B (m_list m)).
  { intros m Hm. apply exec_arrays. intros o Ho. apply H. apply in_concat. exists (m_list m). split; [|exact Ho].
    apply in_map. apply in_rev. rewrite E. right. exact Hm. }
  clear E H. generalize (Ok None : res (option B)) as acc. induction rest as [|m rest IH]; intros acc; [reflexivity|]. cbn [fold_left].
  rewrite IH by (intros; apply Hr; right; assumption). f_equal. destruct acc; [|reflexivity]. cbn [bind]. rewrite Hr by (left; reflexivity). reflexivity.
Qed.
End Never.
