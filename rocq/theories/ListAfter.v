(** * ListAfter: calls after one of h, x, z with a list of registers. *)
From Verif Require Import Py Scalar Mat Utils Gates Circuit Spec Calls HistSpec CallSpec ShapeSpec InfoSpec Lib Kern GateMat GateTof Flow Layers Blocks Refine History Merge Errors Construct Ignored BadGates Reject Shapes Relate OneList ListRegs ListThm.
Set Implicit Arguments.

Section ListAfter.
Variable S : scalar.
Notation op := (op S).
Notation mat := (mat S).
Notation moment := (moment S).
Notation circuit := (circuit S).
Notation call := (call S).
Notation NB := (NumpyBackend S).

(** ** The same calls on circuits that differ in operations already placed *)
Section Placed.
Variable R : op -> op -> Prop.
Hypothesis R_refl : forall o, R o o.
Hypothesis R_igate : forall o o', R o o' -> is_igate o = is_igate o'.
Hypothesis R_qreg : forall o o', R o o' -> is_igate o = true -> qreg_of o = qreg_of o'.
Hypothesis R_acts : forall o o', R o o' -> acting_members o = acting_members o'.
Notation mrel := (mrel R).
Notation crel := (crel R).

Lemma placed_igates : forall l l', Forall2 R l l' ->
  map (@qreg_of S) (filter (@is_igate S) l) = map (@qreg_of S) (filter (@is_igate S) l').
Proof.
  intros l l' H; induction H as [|x y l l' Hxy H IH]; [reflexivity|]. cbn [filter]. pose proof (R_igate Hxy) as E. pose proof (R_qreg Hxy) as Q.
  rewrite <- E. destruct (is_igate x); [|exact IH]. cbn [map]. rewrite Q, IH by reflexivity. reflexivity.
Qed.

Lemma placed_get : forall l l' q k, Forall2 R l l' ->
  res_rel (fun a a' => match a, a' with
    | Some (g, i), Some (g', i') => i = i' /\ is_igate g = is_igate g' | None, None => True | _, _ => False end)
    (get_qreg_moment_from k l q) (get_qreg_moment_from k l' q).
Proof.
  intros l l' q k H. revert k. induction H as [|x y l l' Hxy H IH]; intros k; cbn [get_qreg_moment_from].
  - constructor. exact I.
  - rewrite (R_acts Hxy). destruct (acting_members y) as [a|e]; [|constructor]. cbn [bind].
    destruct (zmem q a); [constructor; split; [reflexivity | apply R_igate, Hxy] | apply IH].
Qed.

Lemma placed_replace : forall l l' g q, Forall2 R l l' ->
  res_rel (fun a a' => Forall2 R (fst a) (fst a') /\ snd a = snd a') (replace_igate l g q) (replace_igate l' g q).
Proof.
  intros l l' g q H. unfold replace_igate. eapply rr_bind; [apply (placed_get q 0 H)|].
  intros [[a i]|] [[a' i']|] X; try contradiction; [|constructor].
  destruct X as [<- E]. rewrite <- E. destruct (is_igate a); constructor; cbn [fst snd]; split; try reflexivity; [|exact H].
  apply upd_rel; [exact H | apply R_refl].
Qed.

Lemma placed_populate : forall f f' m, frel R f f' ->
  res_rel (fun a a' => frel R (fst a) (fst a') /\ snd a = snd a') (populate_opflow f m) (populate_opflow f' m).
Proof.
  intros f f' m [Hm Hl]. unfold populate_opflow. pose proof (Forall2_rev' Hl) as Hr. pose proof (mrel_refl R R_refl m) as Rm.
  destruct Hr as [|p p' b b' Hp Hb].
  - destruct (detect_measurement 0 (m_list m) _); cbn [bind]; constructor. cbn [fst snd].
    split; [|reflexivity]. split; [reflexivity|]. cbn. constructor; [exact Rm | constructor].
  - rewrite <- Hm. destruct (forallb _ (f_meas f)); [constructor; cbn [fst snd]; split; [split; assumption | reflexivity]|].
    destruct Hp as [P1 [P2 [P3 P4]]].
    eapply (rr_bind (P := fun a a' => match a, a' with Some l, Some l' => Forall2 mrel l l' | None, None => True | _, _ => False end)).
    + destruct (find (@is_hxz S) (m_list m)) as [g|]; [|constructor; exact I].
      rewrite <- (placed_igates P4). destruct (zmem _ _); [|constructor; exact I].
      eapply rr_bind; [apply (placed_replace g (qreg_of g) P4)|].
      intros [l b0] [l' b0'] [X1 X2]. cbn [fst snd] in X1, X2. subst b0'. constructor. destruct b0; [|exact I].
      apply Forall2_app; [apply Forall2_rev'; exact Hb|]. constructor; [|constructor].
      unfold Relate.mrel, set_list; cbn. auto.
    + intros [l|] [l'|] X; try contradiction.
      * constructor. cbn [fst snd]. split; [split; auto | reflexivity].
      * destruct (detect_measurement 0 (m_list m) (f_meas f)); cbn [bind]; constructor.
        cbn [fst snd]. split; [|reflexivity]. split; [reflexivity|]. apply append_rel; [exact Hl | exact Rm].
Qed.

Lemma placed_add : forall c c' q g, crel c c' -> res_rel (arel R) (add_moment c q g) (add_moment c' q g).
Proof.
  intros c c' q g Hc. unfold add_moment.
  assert (Ed : moment_data c' q g = moment_data c q g) by (unfold moment_data; rewrite (cr_len Hc), (cr_dims Hc); reflexivity).
  rewrite Ed. destruct (moment_data c q g) as [data|e]; [|constructor]. cbn [bind].
  assert (El : length (f_list (c_flow c)) = length (f_list (c_flow c'))).
  { pose proof (cr_list Hc) as H. clear - H. induction H; simpl; auto. }
  rewrite <- El. eapply rr_bind; [apply placed_populate, crel_flow; exact Hc|].
  intros [f b] [f' b'] [X1 X2]. cbn [fst snd] in X1, X2. subst b'. constructor. split; [|reflexivity].
  apply crel_set; assumption.
Qed.

Lemma placed_api : forall c c' k, crel c c' -> res_rel (arel R) (api c k) (api c' k).
Proof.
  intros c c' k Hc.
  assert (V : forall q dm, validate1 c' q dm = validate1 c q dm).
  { intros q dm. unfold validate1. rewrite (cr_len Hc), (cr_dims Hc). reflexivity. }
  assert (D : forall q dm, dims_or c' q dm = dims_or c q dm).
  { intros q dm. unfold dims_or. rewrite (cr_dims Hc). reflexivity. }
  destruct k; cbn [api].
  - rewrite V, D. eapply rr_bind; [apply rr_eq|]. intros u ? _. eapply rr_bind; [apply rr_eq|]. intros d ? <-. apply placed_add, Hc.
  - rewrite V, D. eapply rr_bind; [apply rr_eq|]. intros u ? _. eapply rr_bind; [apply rr_eq|]. intros d ? <-. apply placed_add, Hc.
  - rewrite V, D. eapply rr_bind; [apply rr_eq|]. intros u ? _. eapply rr_bind; [apply rr_eq|]. intros d ? <-. apply placed_add, Hc.
  - rewrite <- (cr_dims Hc). eapply rr_bind; [apply rr_eq|]. intros u ? <-. eapply rr_bind; [apply rr_eq|]. intros d ? <-. apply placed_add, Hc.
  - rewrite <- (cr_qregs Hc). eapply rr_bind; [apply rr_eq|]. intros g ? <-. destruct g; try constructor.
    eapply rr_bind; [apply placed_add, Hc|]. intros [x b] [x' b'] [X1 _]. constructor. split; [exact X1 | reflexivity].
  - assert (V' : validate c' qreg dims = validate c qreg dims).
    { unfold validate. destruct qreg; [apply V|]. f_equal. clear - V. induction l; simpl; [reflexivity|]. rewrite V, IHl. reflexivity. }
    rewrite V', D || rewrite V'. rewrite <- (cr_dims Hc).
    eapply rr_bind; [apply rr_eq|]. intros u0 ? _.
    eapply (rr_bind (P := eq)); [destruct qreg; rewrite ?D; apply rr_eq|]. intros ds ? <-. apply placed_add, Hc.
  - constructor.
  - rewrite <- (cr_len Hc).
    assert (El : length (f_list (c_flow c)) = length (f_list (c_flow c'))).
    { pose proof (cr_list Hc) as H. clear - H. induction H; simpl; auto. }
    rewrite <- El. eapply rr_bind; [apply placed_populate, crel_flow; exact Hc|].
    intros [f b] [f' b'] [X1 _]. constructor. split; [apply crel_set; assumption | reflexivity].
Qed.

Lemma placed_after : forall ks c c', crel c c' -> crel (after c ks) (after c' ks).
Proof.
  intros ks; induction ks as [|k ks IH]; intros c c' Hc; [exact Hc|]. unfold after; cbn [fold_left]. apply IH.
  unfold step. destruct (placed_api k Hc) as [[x b] [x' b'] [X _]|e]; assumption.
Qed.
End Placed.

(** ** Operations of calls and others *)
Lemma step_ops : forall (P : call -> Prop) (X : op -> Prop) n (c : circuit) m l0 ls k, inv n c m l0 ls -> P k ->
  (forall o, In o (gate_ops ls) -> from_calls c P o \/ X o) ->
  exists ls', inv n (step c k) (m || (0 <? n) && is_measure_all k) l0 ls' /\
    same_layout c (step c k) /\
    (forall o, In o (gate_ops ls') -> from_calls (step c k) P o \/ X o) /\
    (forall o, In o (gate_ops ls) -> is_igate o = false -> In o (gate_ops ls')).
Proof.
  intros P X n c m l0 ls k I HP HF.
  assert (Lay : forall (c1 c2 : circuit) o, same_layout c1 c2 -> from_calls c1 P o \/ X o -> from_calls c2 P o \/ X o).
  { intros c1 c2 o E [H|H]; [left; eapply from_layout; eassumption | right; exact H]. }
  destruct (is_measure_all k) eqn:Ek.
  - unfold step. destruct k; try discriminate. destruct (inv_measure I) as [c' [E' H]]. rewrite E'.
    destruct H as [[Hm ->]|[-> [Hn [I' [f ->]]]]].
    + exists ls. split; [|repeat split; auto]. destruct Hm as [->| ->]; [auto|]. simpl. rewrite orb_false_r. auto.
    + exists ls. rewrite (proj2 (Nat.ltb_lt 0 n) Hn). split; [exact I'|]. split; [apply set_flow_layout|].
      split; [|auto]. intros o Ho. eapply Lay; [apply set_flow_layout | auto].
  - rewrite andb_false_r, orb_false_r. unfold step.
    assert (Same : exists ls', inv n c m l0 ls' /\ same_layout c c /\
      (forall o, In o (gate_ops ls') -> from_calls c P o \/ X o) /\
      (forall o, In o (gate_ops ls) -> is_igate o = false -> In o (gate_ops ls'))).
    { exists ls. split; [exact I|]. split; [repeat split|]. auto. }
    destruct (api c k) as [[c' b]|e] eqn:E; [|exact Same].
    assert (Hk : k <> CMeasureAll) by (intros ->; discriminate).
    destruct (inv_gate I Hk E) as [[_ [-> _]]|[-> [_ [_ [g [lo [hi [ls' [Hi [_ [Had [I' [f ->]]]]]]]]]]]]]; [exact Same|].
    exists ls'. split; [exact I'|]. split; [apply set_flow_layout|].
    destruct (added_ops Had) as [A1 [A2 _]]. split; [|exact A2].
    intros o Ho. eapply Lay; [apply set_flow_layout|].
    destruct (A1 o Ho) as [Ho'|[->|[i [Hin ->]]]]; [auto | left; right; eauto|].
    left; left. exists i. rewrite (i_dims I). auto.
Qed.

Lemma after_ops : forall (P : call -> Prop) (X : op -> Prop) n ks (c : circuit) m l0 ls, inv n c m l0 ls -> Forall P ks ->
  (forall o, In o (gate_ops ls) -> from_calls c P o \/ X o) ->
  exists m' ls', inv n (after c ks) m' l0 ls' /\ same_layout c (after c ks) /\
    (forall o, In o (gate_ops ls') -> from_calls (after c ks) P o \/ X o) /\
    (forall o, In o (gate_ops ls) -> is_igate o = false -> In o (gate_ops ls')).
Proof.
  intros P X n ks; induction ks as [|k ks IH]; intros c m l0 ls I HP HF.
  - exists m, ls. split; [exact I|]. split; [repeat split|]. auto.
  - inversion HP as [|? ? HP1 HP2]; subst.
    destruct (@step_ops P X n c m l0 ls k I HP1 HF) as [ls' [I' [SL [HF' HK]]]].
    destruct (IH _ _ _ _ I' HP2 HF') as [m2 [ls2 [I2 [SL2 [HF2 HK2]]]]]. exists m2, ls2. split; [exact I2|].
    split; [eapply same_layout_trans; eauto|]. auto.
Qed.

(** ** Sizes *)
Section Sizes.
Variable L : scalar_laws S.
Variable dims : list nat.
Hypothesis Hdims : forall d, In d dims -> 2 <= d.
Notation n := (length dims).
Variable R : op -> op -> Prop.

Definition fits2 (o o' : op) : Prop := forall m, unitary NB o = Ok m -> mr m = mc m /\ mr m <= csize dims o'.
Definition small2 (o o' : op) : Prop := forall m, unitary NB o = Ok m -> mr m < csize dims o'.

Lemma prod_le2 : forall l ms, Forall2 (fun o m => unitary NB o = Ok m) l ms -> forall l', Forall2 fits2 l l' ->
  prodn (map (@mr S) ms) = prodn (map (@mc S) ms) /\ prodn (map (@mr S) ms) <= prodn (map (csize dims) l') /\
  ((exists a o b a' o' b', l = a ++ o :: b /\ l' = a' ++ o' :: b' /\ length a = length a' /\ small2 o o') ->
   prodn (map (@mr S) ms) < prodn (map (csize dims) l')).
Proof.
  intros l ms H. induction H as [|o m l ms Ho Hl IH]; intros l' HF; inversion HF as [|? o' ? l2 F1 F2]; subst.
  - split; [reflexivity|]. split; [apply le_n|]. intros [[|x a] [y [b [a' [o' [b' [E _]]]]]]]; discriminate.
  - destruct (IH _ F2) as [I1 [I2 I3]]. destruct (F1 m Ho) as [S1 S2].
    assert (P : 0 < prodn (map (csize dims) l2)).
    { apply prodn_pos, Forall_forall. intros x Hx. apply in_map_iff in Hx as [y [<- _]]. apply csize_pos. exact Hdims. }
    pose proof (csize_pos dims Hdims o') as P1. cbn [map]. rewrite !prodn_cons. split; [congruence|]. split; [apply Nat.mul_le_mono; assumption|].
    intros [a [x [b [a' [x' [b' [E [E' [El Hx]]]]]]]]]. destruct a as [|y a]; destruct a' as [|y' a']; try discriminate.
    + injection E as <- _. injection E' as <- _. specialize (Hx m Ho).
      apply Nat.le_lt_trans with (mr m * prodn (map (csize dims) l2)); [apply Nat.mul_le_mono_l; assumption | apply Nat.mul_lt_mono_pos_r; assumption].
    + injection E as _ E. injection E' as _ E'. injection El as El. assert (X : prodn (map (@mr S) ms) < prodn (map (csize dims) l2)).
      { apply I3. exists a, x, b, a', x', b'. auto. }
      apply Nat.le_lt_trans with (csize dims o' * prodn (map (@mr S) ms)); [apply Nat.mul_le_mono_r; assumption | apply Nat.mul_lt_mono_pos_l; assumption].
Qed.

Lemma layer_shape2 : forall l l' (M : mat), tiles n l' -> Forall2 fits2 l l' -> moment_exec NB l = Ok M ->
  mr M = mc M /\ ((exists a o b a' o' b', l = a ++ o :: b /\ l' = a' ++ o' :: b' /\ length a = length a' /\ small2 o o') -> mr M < prodn dims).
Proof.
  intros l l' M Ht HF H. apply exec_shapes in H as [ms [Hm [E1 E2]]]. destruct (prod_le2 Hm HF) as [I1 [_ I3]].
  rewrite (csize_layer dims Ht) in I3. rewrite E1, E2. split; [exact I1 | exact I3].
Qed.

(** A circuit whose layers have the sizes of those of a well-formed one, one of them too small. *)
Lemma run_small2 : forall (c c' : circuit) m l0 ls, crel R c c' -> inv n c' m l0 ls ->
  (forall o o', R o o' -> is_init o' = true -> o = o') -> Forall (init_rows dims) l0 ->
  (forall o o', In o' (gate_ops ls) -> R o o' -> fits2 o o') ->
  (exists o', In o' (gate_ops ls) /\ forall o, R o o' -> In o (concat (layers_of c)) -> small2 o o') ->
  exists e, flow_exec NB (c_flow c) = Err e.
Proof.
  intros c c' m l0 ls Hc I Hinit H0 HF [os [Hos Hsm]].
  assert (Hn : 0 < n).
  { destruct dims as [|d ds]; [|simpl; lia]. rewrite (i_zero I eq_refl) in Hos. contradiction. }
  destruct m; [|unfold flow_exec; rewrite (cr_meas Hc), (i_meas I); destruct n; [lia|]; eexists; reflexivity].
  destruct (flow_exec NB (c_flow c)) as [r|e] eqn:E; [|exists e; reflexivity]. exfalso.
  unfold flow_exec in E. destruct (forallb _ _); [|discriminate].
  assert (El := i_list I). unfold layers in El.
  assert (Fl : Forall2 (Forall2 R) (layers_of c) (map (@m_list S) (f_list (c_flow c')))).
  { pose proof (cr_list Hc) as X. unfold layers_of. clear - X. induction X as [|a b x y Hab X IH]; constructor; [apply Hab | exact IH]. }
  rewrite El in Fl. inversion Fl as [|a0 ? lsx ? F0 Fx Ea]; subst. apply Forall2_app_inv_r in Fx as [lsc [lsm [Fc [Fm ->]]]].
  inversion Fm as [|ml ? ? ? Fm1 Fm2]; subst. inversion Fm2; subst.
  assert (a0 = l0) as ->.
  { destruct (i_m0 I) as [Hi _]. clear - F0 Hinit Hi. revert Hi. induction F0 as [|x y l l' Hxy F IH]; intros Hi; [reflexivity|].
    cbn [forallb] in Hi. apply andb_true_iff in Hi as [Hy Hi]. rewrite (Hinit _ _ Hxy Hy), (IH Hi). reflexivity. }
  symmetry in Ea. unfold layers_of in Ea. rewrite app_comm_cons in Ea.
  apply map_eq_app in Ea as [fl1 [fl2 [Ef [E1 E2]]]]. destruct fl2 as [|last [|? ?]]; try discriminate.
  rewrite Ef, rev_app_distr in E. cbn [rev app] in E.
  destruct fl1 as [|m0 fl1]; [discriminate|]. cbn [map] in E1. injection E1 as E1 E3. cbn [rev] in E.
  assert (T : forall mm, In mm fl1 -> exists l', In l' ls /\ tiles n l' /\ Forall2 R (m_list mm) l' /\ Forall2 fits2 (m_list mm) l').
  { intros mm Hin. assert (Hl : In (m_list mm) lsc) by (rewrite <- E3; apply in_map; exact Hin).
    assert (X : exists l', In l' ls /\ Forall2 R (m_list mm) l').
    { clear - Fc Hl. induction Fc as [|x y l l' Hxy F IH]; [contradiction|]. destruct Hl as [<-|Hl]; [exists y; split; [left; reflexivity | exact Hxy]|].
      destruct (IH Hl) as [l2 [X1 X2]]. exists l2. split; [right; exact X1 | exact X2]. }
    destruct X as [l' [X1 X2]]. exists l'. split; [exact X1|]. split; [exact (proj1 (Forall_forall _ _) (i_tile I) _ X1)|]. split; [exact X2|].
    assert (Y : forall o', In o' l' -> In o' (gate_ops ls)) by (intros o' Ho'; apply in_concat; eauto).
    clear - X2 HF Y. induction X2 as [|x y l l' Hxy F IH]; constructor; [apply HF; [apply Y; left; reflexivity | exact Hxy]|].
    apply IH. intros o' Ho'. apply Y. right; exact Ho'. }
  destruct (@chain S (prodn dims) m0 (rev fl1) None r) as [_ C].
  - intros M HM. rewrite E1 in HM. eapply init_shape; [exact H0 | apply (i_m0 I) | exact HM].
  - intros mm M Hin HM. apply in_rev in Hin. destruct (T mm Hin) as [l' [_ [T1 [_ T2]]]]. apply (layer_shape2 T1 T2 HM).
  - exact E.
  - apply in_concat in Hos as [l [Hl Ho]].
    assert (X : exists mm, In mm fl1 /\ Forall2 R (m_list mm) l).
    { rewrite <- E3 in Fc. clear - Fc Hl. revert Fc Hl. generalize ls as q. intros q. revert q. induction fl1 as [|x fl IH]; intros q Fc Hl; inversion Fc; subst; [contradiction|].
      destruct Hl as [<-|Hl]; [exists x; split; [left; reflexivity | assumption]|].
      edestruct IH as [mm [X1 X2]]; [eassumption | exact Hl|]. exists mm. split; [right; exact X1 | exact X2]. }
    destruct X as [mm [Hin X]]. destruct (C mm ltac:(apply -> in_rev; exact Hin)) as [M [HM HP]].
    assert (Tl : tiles n l) by exact (proj1 (Forall_forall _ _) (i_tile I) _ Hl).
    assert (Fl2 : Forall2 fits2 (m_list mm) l).
    { assert (Y : forall o', In o' l -> In o' (gate_ops ls)) by (intros o' Ho'; apply in_concat; eauto).
      clear - X HF Y. induction X as [|x y l0 l' Hxy F IH]; constructor; [apply HF; [apply Y; left; reflexivity | exact Hxy]|].
      apply IH. intros o' Ho'. apply Y. right; exact Ho'. }
    destruct (layer_shape2 Tl Fl2 HM) as [_ Y].
    assert (mr M < prodn dims); [|lia]. apply Y.
    apply in_split in Ho as [a' [b' ->]]. apply Forall2_app_inv_r in X as [a [xb [Xa [Xb Em]]]]. inversion Xb as [|o ? b ? Xo Xb' Eb]; subst.
    exists a, o, b, a', os, b'. split; [exact Em|]. split; [reflexivity|]. split; [clear - Xa; induction Xa; simpl; congruence|].
    apply Hsm; [exact Xo|]. unfold layers_of. rewrite Ef, map_app, concat_app. apply in_or_app. left. cbn [map concat]. apply in_or_app. right.
    apply in_concat. exists (m_list mm). split; [apply in_map; exact Hin|]. rewrite Em. apply in_or_app. right. left. reflexivity.
Qed.
End Sizes.


(** ** Stand-ins for gates called with a list *)
Section Stand.
Variable L : scalar_laws S.
Variable dims : list nat.
Hypothesis Hdims : forall d, In d dims -> 2 <= d.
Notation n := (length dims).

(** Occupies the registers from [lo] to [hi], acts on [lo], has no matrix. *)
Definition stand (lo hi : nat) : op := OTof [Z.of_nat hi] (Z.of_nat lo) 0 [0%Z; 0%Z] [] (Build_mat S 0 0 []).

Definition wide_gate (o : op) (lo hi : nat) : Prop :=
  exists m d, lo < hi /\ hi < n /\ d <> 0%Z /\ (d <= Z.of_nat (nth lo dims 0%nat))%Z /\ o = gate_of S m (Z.of_nat lo) d.
Definition sub_for (o o' : op) : Prop := o = o' \/ exists lo hi, wide_gate o lo hi /\ o' = stand lo hi.

Lemma sub_refl : forall o, sub_for o o.
Proof. left; reflexivity. Qed.
Lemma sub_igate : forall o o', sub_for o o' -> is_igate o = is_igate o'.
Proof. intros o o' [->|[lo [hi [[m [d [_ [_ [_ [_ ->]]]]]] ->]]]]; [reflexivity|]. destruct m; reflexivity. Qed.
Lemma sub_qreg : forall o o', sub_for o o' -> is_igate o = true -> qreg_of o = qreg_of o'.
Proof. intros o o' [->|[lo [hi [[m [d [_ [_ [_ [_ ->]]]]]] ->]]]] H; [reflexivity|]. destruct m; discriminate. Qed.
Lemma sub_acts : forall o o', sub_for o o' -> acting_members o = acting_members o'.
Proof. intros o o' [->|[lo [hi [[m [d [_ [_ [_ [_ ->]]]]]] ->]]]]; [reflexivity|]. destruct m; reflexivity. Qed.
Lemma sub_init : forall o o', sub_for o o' -> is_init o' = true -> o = o'.
Proof. intros o o' [->|[lo [hi [_ ->]]]] H; [reflexivity | discriminate]. Qed.

Lemma stand_no_matrix : forall lo hi m, unitary NB (stand lo hi) = Ok m -> False.
Proof. intros lo hi m H. cbn [unitary stand] in H. unfold arb_unitary in H. destruct (is_unitary _); discriminate. Qed.

Lemma stand_ranges : forall lo hi, lo < hi -> ranges (stand lo hi) (Z.of_nat lo) (Z.of_nat hi).
Proof.
  intros lo hi H r. unfold covers, stand. cbn [registers existsb]. rewrite !orb_false_r. apply eq_true_iff_eq.
  rewrite !andb_true_iff, !orb_true_iff, !Z.leb_le. lia.
Qed.

Lemma wide_size : forall o lo hi M, wide_gate o lo hi -> unitary NB o = Ok M -> mr M = mc M /\ mr M < csize dims (stand lo hi).
Proof.
  intros o lo hi M [m [d [Hlt [Hhi [Hd [Hle ->]]]]]] HM.
  assert (One : one_reg (gate_of S m (Z.of_nat lo) d) (Z.of_nat lo) d) by (unfold one_reg; destruct m; cbn; eauto).
  destruct (one_size L One Hd HM) as [D0 [U1 U2]]. split; [congruence|]. rewrite U1.
  rewrite (csize_range dims (stand_ranges Hlt)) by lia. rewrite <- sub_map by lia.
  replace (hi - lo + 1) with (Datatypes.S (Datatypes.S (hi - lo - 1))) by lia. cbn [seq map]. rewrite !prodn_cons.
  pose proof (Hdims _ (nth_In dims 0 (n := lo) ltac:(lia))) as K1. pose proof (Hdims _ (nth_In dims 0 (n := Datatypes.S lo) ltac:(lia))) as K2.
  assert (K3 : 1 <= prodn (map (fun r => nth r dims 0) (seq (Datatypes.S (Datatypes.S lo)) (hi - lo - 1)))).
  { apply prodn_pos, Forall_forall. intros x Hx. apply in_map_iff in Hx as [y [<- Hy]]. apply in_seq in Hy.
    pose proof (Hdims _ (nth_In dims 0 (n := y) ltac:(lia))). lia. }
  assert (K4 : Z.to_nat d <= nth lo dims 0) by lia. revert K1 K2 K3 K4. clear.
  generalize (nth lo dims 0), (nth (Datatypes.S lo) dims 0), (prodn (map (fun r => nth r dims 0) (seq (Datatypes.S (Datatypes.S lo)) (hi - lo - 1)))), (Z.to_nat d).
  intros a b p x K1 K2 K3 K4. assert (2 <= b * p) by nia. nia.
Qed.

(** Operations that no call of the API issues. *)
Definition other (o : op) : Prop := (exists lo hi, lo < hi /\ o = stand lo hi) \/ fits dims o.

(** [c] is followed by a well-formed circuit with stand-ins. *)
Definition followed (c : circuit) (wide : Prop) : Prop :=
  exists c' m l0 ls, crel sub_for c c' /\ inv n c' m l0 ls /\ shaped dims c' /\ Forall (init_rows dims) l0 /\
    (forall o, In o (gate_ops ls) -> from_calls c' (tame dims) o \/ other o) /\
    (wide -> exists lo hi, In (stand lo hi) (gate_ops ls)).

Lemma followed_new : forall init out c, mk_circuit S (QList (map Z.of_nat dims)) init out = Ok c -> followed c False.
Proof.
  intros init out c E. destruct (inv_new _ _ _ E) as [l0 I]. rewrite (hl_nregs dims) in I.
  exists c, false, l0, []. split; [apply crel_refl; apply sub_refl|]. split; [exact I|].
  split; [apply (@hl_shaped S dims init out [] c); exists c; auto|].
  split; [eapply first_rows; [exact E | exact I]|]. split; [intros o []|]. intros [].
Qed.

Lemma followed_step : forall c w k, followed c w -> tame dims k -> followed (step c k) w.
Proof.
  intros c w k [c' [m [l0 [ls [Hc [I [Hs [H0 [HF HW]]]]]]]]] Hk.
  destruct (@step_ops (tame dims) other n c' m l0 ls k I Hk HF) as [ls' [I' [SL [HF' HK]]]].
  exists (step c' k), (m || (0 <? n) && is_measure_all k), l0, ls'.
  split; [apply (@placed_after sub_for sub_refl sub_igate sub_qreg sub_acts [k] c c' Hc)|]. split; [exact I'|].
  split; [destruct SL as [L1 [L2 [L3 _]]]; destruct Hs as [S1 S2 S3]; constructor; congruence|].
  split; [exact H0|]. split; [exact HF'|]. intros W. destruct (HW W) as [lo [hi H]]. exists lo, hi. apply HK; [exact H | reflexivity].
Qed.

Lemma followed_never_runs : forall c (w : Prop), followed c w -> w -> exists e, run NB c = Err e.
Proof.
  intros c w [c' [m [l0 [ls [Hc [I [Hs [H0 [HF HW]]]]]]]]] W. destruct (HW W) as [lo [hi Hst]].
  destruct (@run_small2 dims Hdims sub_for c c' m l0 ls Hc I sub_init H0) as [e E].
  - intros o o' Ho [->|[a [b [Hw ->]]]] M HM; [|destruct (wide_size Hw HM); split; [assumption | lia]].
    assert (Ft : fits dims o' \/ exists lo hi, o' = stand lo hi).
    { assert (Hocc : occupies n o' <> []).
      { apply in_concat in Ho as [l [Hl Ho]]. exact (proj2 (proj1 (Forall_forall _ _) (i_tile I) l Hl) o' Ho). }
      destruct (HF o' Ho) as [[[i [Hi ->]]|[k [Hk Hi]]]|[[a [b [_ ->]]]|X]]; [left | left | right | left; exact X].
      - apply id_fits with (c := c'); [exact Hs|]. rewrite (i_dims I) in Hi. exact Hi.
      - eapply issue_fits; eassumption.
      - eauto. }
    destruct Ft as [X|[a [b ->]]]; [apply X; exact HM | exfalso; eapply stand_no_matrix; exact HM].
  - exists (stand lo hi). split; [exact Hst|]. intros o Ho _ M HM. destruct Ho as [->|[a [b [Hw Eq]]]].
    + exfalso; eapply stand_no_matrix; exact HM.
    + unfold stand in Eq. injection Eq as E1 E2. apply Nat2Z.inj in E1, E2. subst a b. apply (wide_size Hw HM).
  - exists e. unfold run. rewrite E. reflexivity.
Qed.

Lemma inv_with_layer : forall (c : circuit) l0 ls l, inv n c false l0 ls -> 0 < n -> tiles n l -> not_init_layer l ->
  inv n (with_layer c l) false l0 (ls ++ [l]).
Proof.
  intros c l0 ls l I Hn Ht Hl. unfold with_layer. constructor; cbn [set_flow c_flow c_len c_dims f_meas f_list].
  - apply (i_len I).
  - apply (i_dims I).
  - apply (i_meas I).
  - unfold layers. cbn [set_flow c_flow f_list]. rewrite layers_append. pose proof (i_list I) as El. unfold layers in El. rewrite El, !app_nil_r. reflexivity.
  - discriminate.
  - apply (i_m0 I).
  - apply Forall_app. split; [apply (i_tile I) | constructor; [exact Ht | constructor]].
  - apply Forall_app. split; [apply (i_gates I) | constructor; [exact Hl | constructor]].
  - intros; lia.
  - apply linked_append; [apply (i_link I) | | reflexivity | reflexivity].
    intros E. pose proof (i_list I) as El. unfold layers in El. rewrite E in El. discriminate.
Qed.

Lemma with_layer_rel : forall c c' l l', crel sub_for c c' -> Forall2 sub_for l l' -> crel sub_for (with_layer c l) (with_layer c' l').
Proof.
  intros c c' l l' Hc Hl. unfold with_layer. apply crel_set; [exact Hc|]. split; [apply (cr_meas Hc)|]. cbn [f_list].
  apply append_rel; [apply (cr_list Hc)|].
  assert (El : length (f_list (c_flow c)) = length (f_list (c_flow c'))).
  { pose proof (cr_list Hc) as H. clear - H. induction H; simpl; auto. }
  unfold mrel, mk_moment; cbn. rewrite El. auto.
Qed.

Lemma layer_list_rel : forall ds lo hi g g', sub_for g g' -> Forall2 sub_for (layer_list ds lo hi g n) (layer_list ds lo hi g' n).
Proof.
  intros ds lo hi g g' H. rewrite !layer_list_split. apply Forall2_app; [apply Forall2_refl', sub_refl|].
  apply Forall2_app; [|apply Forall2_refl', sub_refl]. destruct (_ <? _); constructor; [exact H | constructor].
Qed.

(** What a list call does. *)
Lemma list_result : forall c w m l dm c' b, followed c w -> (forall q, In q l -> (0 <= q)%Z) -> list_call c m l dm = Ok (c', b) ->
  b = false /\ c' = c \/
  b = true /\ forallb (fun b => b) (f_meas (c_flow c)) = false /\
  exists lo hi d, py_min l = Ok (Z.of_nat lo) /\ py_max l = Ok (Z.of_nat hi) /\ lo <= hi /\ hi < n /\ d <> 0%Z /\ (d <= Z.of_nat (nth lo dims 0%nat))%Z /\
    (forall q, In q l -> (Z.of_nat lo <= q <= Z.of_nat hi)%Z) /\
    c' = with_layer c (layer_list (map Z.of_nat dims) (Z.of_nat lo) (Z.of_nat hi) (gate_of S m (Z.of_nat lo) d) n).
Proof.
  intros c w m l dm c' b [c1 [mm [l0 [ls [Hc [I [Hs _]]]]]]] Hp H.
  assert (Hs' : shaped dims c).
  { destruct Hs as [S1 S2 S3]. constructor; [rewrite (cr_dims Hc) | rewrite (cr_qregs Hc) | rewrite (cr_len Hc)]; assumption. }
  unfold list_call in H. apply bind_ok in H as [u [V H]].
  destruct dm as [d|]; [|discriminate]. destruct (Z.eqb_spec d 0) as [|Hd]; [discriminate|]. cbn [bind] in H.
  destruct l as [|x l]; [discriminate|]. destruct (py_min_ex x l) as [a [A1 [A2 A3]]]. destruct (py_max_ex x l) as [b0 [B1 [B2 B3]]].
  rewrite A1 in H. cbn [bind] in H. rewrite (@moment_data_list S c _ _ _ _ (shaped_len_ok Hs') A1 B1) in H. cbn [bind] in H.
  rewrite (sh_dims Hs'), map_length in H.
  assert (Vq : forall q, In q (x :: l) -> validate1 c q (Some d) = Ok tt).
  { intros q Hq. unfold validate in V. apply bind_ok in V as [us [V _]]. destruct (mapM_in _ _ _ V Hq) as [[] E]. exact E. }
  assert (Rg : forall q, In q (x :: l) -> exists r, q = Z.of_nat r /\ r < n /\ (d <= Z.of_nat (nth r dims 0%nat))%Z).
  { intros q Hq. pose proof (Hp q Hq) as P. specialize (Vq q Hq). unfold validate1 in Vq. rewrite (sh_len Hs') in Vq.
    destruct (Z.ltb_spec (Z.of_nat n - 1) q); [discriminate|]. destruct (Z.eqb_spec d 0); [contradiction|].
    exists (Z.to_nat q). rewrite Z2Nat.id by lia. split; [reflexivity|]. split; [lia|].
    rewrite <- (Z2Nat.id q) in Vq by lia. rewrite (sh_get Hs') in Vq by lia. cbn [bind] in Vq.
    destruct (Z.ltb_spec (Z.of_nat (nth (Z.to_nat q) dims 0)) d); [discriminate | lia]. }
  destruct (Rg _ A2) as [lo [-> [Hlo Hle]]]. destruct (Rg _ B2) as [hi [-> [Hhi _]]].
  assert (Hlh : lo <= hi) by (pose proof (A3 _ B2); lia).
  unfold populate_list in H. destruct (rev (f_list (c_flow c))) as [|last before] eqn:Er.
  { exfalso. apply (f_equal (@rev _)) in Er. rewrite rev_involutive in Er. cbn [rev] in Er. pose proof (cr_list Hc) as X. rewrite Er in X. pose proof (i_list I) as El. unfold layers in El.
    revert X El. generalize (f_list (c_flow c1)). intros fl X El. inversion X; subst. discriminate. }
  destruct (forallb (fun b => b) (f_meas (c_flow c))) eqn:Em.
  { cbn [bind] in H. injection H as <- <-. left. split; [reflexivity|]. destruct c; reflexivity. }
  right. apply bind_ok in H as [[f bb] [H X]]. injection X as <- <-. apply bind_ok in H as [u1 [_ H]]. apply bind_ok in H as [me [D H]].
  injection H as <- <-. split; [reflexivity|]. split; [reflexivity|]. exists lo, hi, d.
  repeat (split; [assumption|]). split; [intros q Hq; split; [apply A3 | apply B3]; exact Hq|].
  unfold with_layer. do 2 f_equal. cbn [mk_moment m_list] in D. rewrite detect_none in D; [injection D as <-; reflexivity|].
  apply forallb_forall. apply layer_forall; [reflexivity|]. rewrite gate_of_meas. reflexivity.
Qed.

Lemma followed_many : forall c w m l dm c' b, followed c w -> (forall q, In q l -> (0 <= q)%Z) -> list_call c m l dm = Ok (c', b) ->
  followed c' (w \/ b = true /\ exists q q', In q l /\ In q' l /\ q <> q').
Proof.
  intros c w m l dm c' b Fw Hp H. pose proof Fw as Fw'.
  destruct (list_result m l dm Fw Hp H) as [[-> ->]|[-> [Em [lo [hi [d [A1 [B1 [Hlh [Hhi [Hd [Hle [Hsp ->]]]]]]]]]]]]].
  - destruct Fw as [c1 [mm [l0 [ls [Hc [I [Hs [H0 [HF HW]]]]]]]]]. exists c1, mm, l0, ls. repeat (split; [assumption|]).
    intros [W|[X _]]; [apply HW; exact W | discriminate].
  - destruct Fw as [c1 [mm [l0 [ls [Hc [I [Hs [H0 [HF HW]]]]]]]]].
    assert (mm = false) as ->.
    { rewrite (cr_meas Hc), (i_meas I), forallb_repeat in Em. apply orb_false_iff in Em. apply Em. }
    set (g := gate_of S m (Z.of_nat lo) d).
    set (g' := if lo <? hi then stand lo hi else g).
    assert (Rg : ranges g' (Z.of_nat lo) (Z.of_nat hi)).
    { unfold g'. destruct (Nat.ltb_spec lo hi); [apply stand_ranges; assumption|]. replace hi with lo by lia. apply ranges_single. apply gate_of_regs. }
    assert (Sg : sub_for g g').
    { unfold g'. destruct (Nat.ltb_spec lo hi); [|apply sub_refl]. right. exists lo, hi. split; [|reflexivity]. exists m, d. auto. }
    assert (Og : other g').
    { unfold g'. destruct (Nat.ltb_spec lo hi); [left; eauto|]. right. assert (hi = lo) as -> by lia.
      assert (One : one_reg g (Z.of_nat lo) d) by (unfold one_reg, g; destruct m; cbn; eauto).
      apply (one_fits L dims One Hd).
      - rewrite (@occupies_single S n g lo) by (try apply gate_of_regs; lia). discriminate.
      - intros r E _. apply Nat2Z.inj in E. subst r. exact Hle. }
    set (l' := layer_list (map Z.of_nat dims) (Z.of_nat lo) (Z.of_nat hi) g' n).
    assert (SL : same_layout c1 (with_layer c1 l')) by (apply set_flow_layout).
    exists (with_layer c1 l'), false, l0, (ls ++ [l']).
    split; [apply with_layer_rel; [exact Hc | apply layer_list_rel; exact Sg]|].
    split.
    { apply inv_with_layer; [exact I | lia | apply layer_tiles; exact Rg|].
      intros o Ho. revert o Ho. apply layer_forall; [reflexivity|]. unfold g', g. destruct (lo <? hi); [reflexivity | destruct m; reflexivity]. }
    split; [destruct Hs as [S1 S2 S3]; constructor; assumption|]. split; [exact H0|].
    assert (Ops : gate_ops (ls ++ [l']) = gate_ops ls ++ l') by (unfold gate_ops; rewrite concat_app; cbn [concat]; rewrite app_nil_r; reflexivity).
    rewrite Ops. split.
    + intros o Ho. apply in_app_or in Ho as [Ho|Ho].
      * destruct (HF o Ho) as [X|X]; [left; eapply from_layout; eassumption | right; exact X].
      * revert o Ho. apply layer_forall_lt; [|right; exact Og]. intros i Hi. left. left. exists i.
        cbn [with_layer set_flow c_dims]. rewrite (sh_dims Hs), map_length. auto.
    + intros [W|[_ [q [q' [Hq [Hq' Hne]]]]]].
      * destruct (HW W) as [a [b Ha]]. exists a, b. apply in_or_app. left; exact Ha.
      * assert (Hlt : lo < hi) by (pose proof (Hsp q Hq); pose proof (Hsp q' Hq'); lia).
        exists lo, hi. apply in_or_app. right. unfold l'. rewrite layer_list_split. apply in_or_app. right. apply in_or_app. left.
        destruct (Nat.ltb_spec (lowr n (Z.of_nat lo)) (highr n (Z.of_nat lo) (Z.of_nat hi))) as [_|X]; [|unfold highr, lowr in X; lia].
        left. unfold g'. rewrite (proj2 (Nat.ltb_lt lo hi) Hlt). reflexivity.
Qed.

(** Requests with numbers for registers that are not negative. *)
Definition plainly (q : request S) : Prop :=
  match q with Plain k => tame dims k | Many _ l _ => forall r, In r l -> (0 <= r)%Z end.

Lemma followed_weaken : forall c (w w' : Prop), (w' -> w) -> followed c w -> followed c w'.
Proof.
  intros c w w' H [c' [m [l0 [ls [Hc [I [Hs [H0 [HF HW]]]]]]]]]. exists c', m, l0, ls. repeat (split; [assumption|]). auto.
Qed.

Lemma followed_perform : forall qs c w, followed c w -> Forall plainly qs -> followed (performed c qs) w.
Proof.
  intros qs; induction qs as [|q qs IH]; intros c w F H; [exact F|]. inversion H as [|? ? H1 H2]; subst.
  unfold performed; cbn [fold_left]. apply IH; [|exact H2]. destruct q as [k|m l dm]; cbn [perform plainly] in *.
  - apply followed_step; assumption.
  - destruct (list_call c m l dm) as [[c' b]|e] eqn:E; [|exact F].
    eapply followed_weaken; [|eapply followed_many; eassumption]. intros W; left; exact W.
Qed.

Theorem several_never_run : forall init out c0 qs m l dm c1 q q' qs',
  mk_circuit S (QList (map Z.of_nat dims)) init out = Ok c0 ->
  Forall plainly qs -> Forall plainly qs' -> (forall r, In r l -> (0 <= r)%Z) ->
  list_call (performed c0 qs) m l dm = Ok (c1, true) -> In q l -> In q' l -> q <> q' ->
  exists e, run NB (performed c1 qs') = Err e.
Proof.
  intros init out c0 qs m l dm c1 q q' qs' E Hqs Hqs' Hl Hc Hq Hq' Hne.
  pose proof (followed_many m l dm (followed_perform (followed_new _ _ E) Hqs) Hl Hc) as F.
  eapply followed_never_runs; [eapply followed_perform; [exact F | exact Hqs'] | right; eauto 8].
Qed.
End Stand.
End ListAfter.
