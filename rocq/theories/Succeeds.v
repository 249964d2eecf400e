(** * Succeeds: when run() succeeds. *)
From Verif Require Import Py Scalar Mat Utils Gates Circuit Spec Calls HistSpec CallSpec ShapeSpec SucceedSpec AnswerSpec Lib Kern GateMat GateTof Flow Layers Blocks Refine History Merge Errors Construct Ignored BadGates Reject Shapes Answers.
Set Implicit Arguments.

Section Succeeds.
Variable S : scalar.
Variable L : scalar_laws S.
Notation op := (op S).
Notation mat := (mat S).
Notation circuit := (circuit S).
Notation call := (call S).
Notation NB := (NumpyBackend S).

Section Line.
Variable dims : list nat.
Hypothesis Hdims : forall d, In d dims -> 2 <= d.
Notation n := (length dims).
Notation csize := (@csize S dims).

Definition fills (o : op) : Prop := forall m, unitary NB o = Ok m -> mr m = mc m /\ csize o <= mr m.
Definition large (o : op) : Prop := forall m, unitary NB o = Ok m -> csize o < mr m.

Lemma prod_ge : forall (l : list op) ms, Forall2 (fun o m => unitary NB o = Ok m) l ms -> Forall fills l ->
  prodn (map (@mr S) ms) = prodn (map (@mc S) ms) /\ prodn (map csize l) <= prodn (map (@mr S) ms) /\
  (Exists large l -> prodn (map csize l) < prodn (map (@mr S) ms)).
Proof.
  intros l ms H. induction H as [|o m l ms Ho Hl IH]; intros HF.
  - split; [reflexivity|]. split; [apply le_n|]. intros E; inversion E.
  - inversion HF as [|? ? F1 F2]; subst. destruct (IH F2) as [I1 [I2 I3]]. destruct (F1 m Ho) as [S1 S2].
    assert (P : 0 < prodn (map csize l)).
    { apply prodn_pos, Forall_forall. intros x Hx. apply in_map_iff in Hx as [y [<- _]]. apply csize_pos. exact Hdims. }
    pose proof (@csize_pos S dims Hdims o) as P1. cbn [map]. rewrite !prodn_cons. split; [congruence|]. split; [apply Nat.mul_le_mono; assumption|].
    intros E. inversion E as [? ? E1|? ? E1]; subst.
    + specialize (E1 m Ho). nia.
    + specialize (I3 E1). nia.
Qed.

Lemma layer_shape_ge : forall l (M : mat), tiles n l -> Forall fills l -> moment_exec NB l = Ok M ->
  mr M = mc M /\ (Exists large l -> prodn dims < mr M).
Proof.
  intros l M Ht HF H. apply exec_shapes in H as [ms [Hm [E1 E2]]]. destruct (prod_ge Hm HF) as [I1 [I2 I3]].
  rewrite (@csize_layer S dims l Ht) in I3. rewrite E1, E2. split; [exact I1 | exact I3].
Qed.

Lemma run_large : forall (c : circuit) m l0 ls, inv n c m l0 ls -> Forall (@init_rows S dims) l0 ->
  Forall fills (gate_ops ls) -> Exists large (gate_ops ls) -> exists e, flow_exec NB (c_flow c) = Err e.
Proof.
  intros c m l0 ls I H0 HF HE.
  assert (Hn : 0 < n).
  { destruct dims as [|d ds]; [|simpl; lia]. rewrite (i_zero I eq_refl) in HE. inversion HE. }
  destruct m; [|unfold flow_exec; rewrite (i_meas I); destruct n; [lia|]; eexists; reflexivity].
  destruct (flow_exec NB (c_flow c)) as [r|e] eqn:E; [|exists e; reflexivity]. exfalso.
  unfold flow_exec in E. destruct (forallb _ _); [|discriminate].
  assert (El := i_list I). unfold layers in El. rewrite app_comm_cons in El.
  apply map_eq_app in El as [fl1 [fl2 [Ef [E1 E2]]]]. destruct fl2 as [|last [|? ?]]; try discriminate.
  rewrite Ef, rev_app_distr in E. cbn [rev app] in E.
  destruct fl1 as [|m0 fl1]; [discriminate|]. cbn [map] in E1. injection E1 as E1 E3. cbn [rev] in E.
  assert (T : forall mm, In mm fl1 -> tiles n (m_list mm) /\ Forall fills (m_list mm)).
  { intros mm Hin. assert (Hl : In (m_list mm) ls) by (rewrite <- E3; apply in_map; exact Hin). split.
    - exact (proj1 (Forall_forall _ _) (i_tile I) _ Hl).
    - apply Forall_forall. intros o Ho. apply (proj1 (Forall_forall _ _) HF). apply in_concat. eauto. }
  assert (C := @chain S (prodn dims) m0 (rev fl1) None r).
  destruct C as [_ C].
  - intros M HM. rewrite E1 in HM. eapply init_shape; [exact H0 | apply (i_m0 I) | exact HM].
  - intros mm M Hin HM. apply in_rev in Hin. destruct (T mm Hin) as [T1 T2]. apply (layer_shape_ge T1 T2 HM).
  - exact E.
  - apply Exists_exists in HE as [o [Ho Hs]]. apply in_concat in Ho as [l [Hl Ho]]. rewrite <- E3 in Hl.
    apply in_map_iff in Hl as [mm [<- Hin]]. destruct (C mm ltac:(apply -> in_rev; exact Hin)) as [M [HM HP]].
    destruct (T mm Hin) as [T1 T2]. destruct (layer_shape_ge T1 T2 HM) as [_ X].
    assert (prodn dims < mr M) by (apply X, Exists_exists; eauto). lia.
Qed.

Section Issued.
Variable c : circuit.
Hypothesis Hs : shaped dims c.

(** ** No plain call issues a matrix that is too small *)
Lemma one_fills : forall g q dm d, one_reg g q d ->
  (forall d, dm = Some d -> (0 <= q < Z.of_nat n)%Z -> (d <= 0 \/ Z.of_nat (nth (Z.to_nat q) dims O) <= d)%Z) ->
  validate1 c q dm = Ok tt -> dims_or c dm q = Ok d ->
  occupies n g <> [] -> fills g.
Proof.
  intros g q dm d Hg Hp V D Ho m Hm. destruct (@placed_single S dims g q (@one_regs S g q d Hg) Ho) as [r [Hr [-> Ec]]].
  pose proof (@dim_nonzero S dims Hdims c Hs r dm d Hr D) as H0. destruct (@one_size S L g _ d m Hg H0 Hm) as [H1 [H2 H3]].
  split; [congruence|]. rewrite Ec, H2. unfold dims_or in D. rewrite (@sh_get S dims c Hs r Hr) in D.
  destruct dm as [z|]; [|injection D as <-; lia].
  destruct (Z.eqb_spec z 0); [injection D as <-; lia|]. injection D as ->.
  destruct (Hp d eq_refl ltac:(lia)) as [X|X]; [lia|]. rewrite Nat2Z.id in X. lia.
Qed.

Lemma list_fills : forall l dm ds u, validate c (RList l) dm = Ok tt ->
  match dm with
  | Some d => if (d =? 0)%Z then r <- mapM (py_get (c_dims c)) l ;; Ok (RList r) else Ok (RInt d)
  | None => r <- mapM (py_get (c_dims c)) l ;; Ok (RList r)
  end = Ok ds -> dm = None \/ dm = Some 0%Z ->
  (3 <= length l -> mr u = mc u /\ room dims l <= mr u) ->
  occupies n (OArb (RList l) ds u : op) <> [] -> fills (OArb (RList l) ds u).
Proof.
  intros l dm ds u V D Hdm Ht Ho m Hm. cbn [validate] in V. apply bind_ok in V as [us [V _]].
  assert (Hb : forall q, In q l -> validate1 c q dm = Ok tt).
  { intros q Hq. destruct (mapM_in _ _ _ V Hq) as [[] E]. exact E. }
  destruct (@list_top S dims l ds u Ho) as [r [Hr [Hin Hocc]]].
  { intros q Hq. specialize (Hb q Hq). unfold validate1 in Hb. rewrite (sh_len Hs) in Hb.
    destruct (Z.ltb_spec (Z.of_nat n - 1) q); [discriminate | lia]. }
  assert (D' : (r <- mapM (py_get (c_dims c)) l ;; Ok (RList r)) = Ok ds) by (destruct Hdm as [->| ->]; exact D).
  clear D. apply bind_ok in D' as [rr [Hd X]]. injection X as <-. pose proof (Forall2_len (mapM_forall2 _ _ Hd)) as Hl.
  cbn [unitary] in Hm. apply bind_ok in Hm as [v [Hm X]]. injection X as <-. cbn.
  unfold arb_unitary in Hm. destruct (is_unitary u); [|discriminate].
  destruct rr as [|a [|b [|x rr]]].
  - destruct l; [contradiction | discriminate].
  - destruct l as [|q [|]]; try discriminate. destruct Hin as [->|[]]. cbn [mapM] in Hd. rewrite (@sh_get S dims c Hs r Hr) in Hd. injection Hd as <-.
    destruct ((Z.of_nat (mr u) =? _) && (Z.of_nat (mc u) =? _))%Z eqn:E; [|discriminate]. injection Hm as <-.
    apply andb_true_iff in E as [E1 E2]. apply Z.eqb_eq in E1. apply Z.eqb_eq in E2. split; [lia|].
    unfold Shapes.csize. rewrite (@occupies_single S n _ r); [|reflexivity | exact Hr]. cbn [map]. rewrite prodn_cons. unfold prodn; simpl. lia.
  - discriminate.
  - injection Hm as <-. destruct Ht as [T1 T2]; [rewrite Hl; simpl; lia|]. split; [exact T1 | exact T2].
Qed.

Lemma span_ge : forall l, (forall r, In r l -> indexable n r = true) -> l <> [] ->
  2 <= prodn (map (fun r => Z.to_nat (dim_at dims r)) l).
Proof.
  assert (D : forall r, indexable n r = true -> 2 <= Z.to_nat (dim_at dims r)).
  { intros r Hr. destruct (dim_at_in dims r Hr) as [d [Id ->]]. rewrite Nat2Z.id. apply Hdims. exact Id. }
  intros l H Hne. destruct l as [|x l]; [congruence|]. cbn [map]. rewrite prodn_cons.
  assert (1 <= prodn (map (fun r => Z.to_nat (dim_at dims r)) l)).
  { apply prodn_pos, Forall_forall. intros y Hy. apply in_map_iff in Hy as [z [<- Hz]].
    specialize (D z (H z (or_intror Hz))). lia. }
  specialize (D x (H x (or_introl eq_refl))). nia.
Qed.

(** A toffoli that mixes negative registers with others is larger than the
    registers it is placed on. *)
Lemma tof_mixed : forall cs t p ds acting u, mk_toffoli S cs t p (qregs_list (c_qregs c)) = Ok (OTof cs t p ds acting u) ->
  (exists r, In r (t :: cs) /\ (r < 0)%Z) -> (exists r, In r (t :: cs) /\ (0 <= r)%Z) ->
  occupies n (OTof cs t p ds acting u : op) <> [] /\
  forall m, unitary NB (OTof cs t p ds acting u) = Ok m -> mr m = mc m /\ csize (OTof cs t p ds acting u) < mr m.
Proof.
  intros cs t p ds acting u Hm [a [Ia Ha]] [b [Ib Hb]]. rewrite (sh_qregs Hs) in Hm. cbn [qregs_list] in Hm.
  pose proof (mk_toffoli_shape _ _ _ _ Hm) as [lb [ub [ds' [u' [Elb [Eub X]]]]]]. injection X as -> -> ->.
  pose proof (py_min_in _ Elb) as [Il Bl]. pose proof (py_max_in _ Eub) as [Iu Bu].
  assert (Sn : forall x, In x (cs ++ [t]) <-> In x (t :: cs)).
  { intros x. rewrite in_app_iff. simpl. tauto. }
  assert (Hlb : (lb < 0)%Z) by (specialize (Bl a (proj2 (Sn a) Ia)); lia).
  assert (Hub : (0 <= ub)%Z) by (specialize (Bu b (proj2 (Sn b) Ib)); lia).
  assert (Hix : forallb (indexable n) (zrange lb (ub + 1)) = true).
  { unfold mk_toffoli, toffoli_dm in Hm. rewrite Elb, Eub in Hm. cbn [bind] in Hm. rewrite mapM_indexable in Hm.
    match type of Hm with context [if ?x then _ else _] => destruct x end; [reflexivity | discriminate]. }
  assert (Hpos' : forall d, In d dims -> 0 < d) by (intros d Hd; specialize (Hdims d Hd); lia).
  destruct (@toffoli_total S dims cs t p lb ub Hpos' Elb Eub Hix) as [v [E [V1 V2]]].
  rewrite E in Hm. injection Hm as <- <-.
  assert (Hix' : forall r, (lb <= r <= ub)%Z -> indexable n r = true).
  { intros r Hr. rewrite forallb_forall in Hix. apply Hix, in_zrange. lia. }
  assert (Hn : (ub < Z.of_nat n)%Z) by (specialize (Hix' ub ltac:(lia)); apply indexable_spec in Hix'; lia).
  assert (Cv : forall ds u, ranges (OTof cs t p ds (zrange lb (ub + 1)) u : op) lb ub).
  { intros ds u r. unfold covers. cbn [registers]. apply eq_true_iff_eq. rewrite !andb_true_iff, !existsb_exists, !Z.leb_le. split.
    - intros [[x [Hx Lx]] [y [Hy Ly]]]. apply Z.leb_le in Lx. apply Z.leb_le in Ly.
      specialize (Bl x (proj2 (Sn x) Hx)). specialize (Bu y (proj2 (Sn y) Hy)). lia.
    - intros [Lx Ly]. split; [exists lb | exists ub]; (split; [apply Sn; assumption | apply Z.leb_le; lia]). }
  assert (Oc : forall ds u, occupies n (OTof cs t p ds (zrange lb (ub + 1)) u : op) = seq 0 (Z.to_nat ub + 1)).
  { intros ds0 u0. rewrite (occupies_ranges n (Cv ds0 u0)). unfold highr, lowr. f_equal; lia. }
  split; [rewrite Oc, Nat.add_comm; discriminate|].
  intros m H. cbn [unitary] in H. apply bind_ok in H as [w [H X]]. injection X as <-.
  assert (w = v) as ->.
  { unfold arb_unitary in H. destruct (is_unitary v); [|discriminate].
    destruct (map (dim_at dims) (zrange lb (ub + 1))) as [|x1 [|x2 [|x3 l]]]; try congruence; try discriminate.
    destruct (_ && _)%bool; congruence. }
  cbn. rewrite V1, V2. split; [reflexivity|]. unfold Shapes.csize. rewrite Oc.
  unfold span_of.
  assert (Ez : zrange lb (ub + 1) = zrange lb 0 ++ map Z.of_nat (seq 0 (Z.to_nat ub + 1))).
  { unfold zrange. replace (Z.to_nat (ub + 1 - lb)) with (Z.to_nat (0 - lb) + (Z.to_nat ub + 1)) by lia.
    rewrite seq_app, map_app. f_equal. rewrite Nat.add_0_l.
    generalize (Z.to_nat ub + 1). intros k. 
    assert (G : forall k a b, (lb + Z.of_nat a = Z.of_nat b)%Z -> map (fun i => (lb + Z.of_nat i)%Z) (seq a k) = map Z.of_nat (seq b k)).
    { clear. induction k as [|k IH]; intros a b H; [reflexivity|]. cbn [seq map]. rewrite H. f_equal. apply IH. lia. }
    apply G. lia. }
  rewrite Ez, map_app, prodn_app, map_map.
  replace (map (fun x => Z.to_nat (dim_at dims (Z.of_nat x))) (seq 0 (Z.to_nat ub + 1)))
     with (map (fun r => nth r dims 0) (seq 0 (Z.to_nat ub + 1))).
  2:{ apply map_ext. intros x. unfold dim_at. destruct (Z.ltb_spec (Z.of_nat x) 0); [lia|]. rewrite !Nat2Z.id. reflexivity. }
  assert (2 <= prodn (map (fun r => Z.to_nat (dim_at dims r)) (zrange lb 0))).
  { apply span_ge.
    - intros r Hr. apply in_zrange in Hr. apply Hix'. lia.
    - unfold zrange. destruct (Z.to_nat (0 - lb)) eqn:E0; [lia|]. discriminate. }
  assert (0 < prodn (map (fun r => nth r dims 0) (seq 0 (Z.to_nat ub + 1)))).
  { apply prodn_pos, Forall_forall. intros x Hx. apply in_map_iff in Hx as [r [<- Hr]]. apply in_seq in Hr.
    apply Hpos', nth_In. lia. }
  nia.
Qed.

Lemma issue_fills : forall k g, issues c k g -> plain dims k -> occupies n g <> [] -> fills g.
Proof.
  intros k g Hi Ht Ho. destruct Hi as [q dm d V D|q dm p d V D|q dm d V D|a p a0 a1 A0 A1|cs t p ds acting u Hm|q dm d u V D|l dm ds u V D].
  - eapply one_fills; [left; reflexivity | exact Ht | exact V | exact D | exact Ho].
  - eapply one_fills; [right; left; eauto | exact Ht | exact V | exact D | exact Ho].
  - eapply one_fills; [right; right; left; eauto | exact Ht | exact V | exact D | exact Ho].
  - intros m Hm. destruct (@cx_exact S L dims Hdims c Hs a p a0 a1 _ A0 A1 eq_refl Ho m Hm) as [E1 E2]. split; [exact E1 | rewrite E2; apply le_n].
  - destruct (forallb (fun r => (0 <=? r)%Z) (t :: cs)) eqn:En.
    + rewrite forallb_forall in En.
      assert (P : forall r, In r (t :: cs) -> (0 <= r)%Z) by (intros r Hr; apply Z.leb_le, En; exact Hr).
      intros m Hu. destruct (@tof_exact S dims Hdims c Hs cs t p ds acting u Hm P m Hu) as [E1 E2]. split; [exact E1 | rewrite E2; apply le_n].
    + apply Bool.not_true_iff_false in En. rewrite forallb_forall in En.
      assert (N : exists r, In r (t :: cs) /\ (r < 0)%Z).
      { destruct (existsb (fun r => (r <? 0)%Z) (t :: cs)) eqn:Ex.
        - apply existsb_exists in Ex as [r [I R]]. exists r. split; [exact I | apply Z.ltb_lt; exact R].
        - exfalso. apply En. intros r Hr. destruct (Z.leb_spec 0 r); [reflexivity|].
          assert (existsb (fun r => (r <? 0)%Z) (t :: cs) = true); [|congruence]. apply existsb_exists. exists r. split; [exact Hr | apply Z.ltb_lt; assumption]. }
      assert (P : exists r, In r (t :: cs) /\ (0 <= r)%Z).
      { destruct (occupies n _) as [|r rs] eqn:Eo in Ho; [congruence|]. clear Ho.
        assert (Hr : In r (r :: rs)) by (left; reflexivity). rewrite <- Eo in Hr. apply filter_In in Hr as [_ Hc].
        unfold covers in Hc. cbn [registers] in Hc. apply andb_true_iff in Hc as [_ Hc].
        apply existsb_exists in Hc as [b [Ib Lb]]. apply Z.leb_le in Lb. exists b. split; [exact Ib | lia]. }
      intros m Hu. destruct (tof_mixed Hm N P) as [_ X]. destruct (X m Hu). split; [assumption | lia].
  - eapply one_fills; [right; right; right; eauto | exact Ht | exact V | exact D | exact Ho].
  - destruct Ht as [Hdm Ht]. eapply list_fills; [exact V | exact D | exact Hdm | | exact Ho]. intros H3. destruct (Ht H3) as [T1 [T2 _]]. auto.
Qed.

Lemma id_fills : forall i, i < n -> fills (idop S (c_dims c) i).
Proof.
  intros i Hi m Hm. cbn [unitary idop] in Hm. injection Hm as <-. cbn. split; [reflexivity|].
  unfold Shapes.csize. rewrite (@occupies_single S n _ i); [|reflexivity | exact Hi].
  cbn [map]. rewrite prodn_cons. rewrite (sh_dims Hs), GateTof.nth_map_Z, Nat2Z.id. unfold prodn; simpl. lia.
Qed.
End Issued.

Lemma ops_fill : forall (c : circuit) m l0 ls, inv n c m l0 ls -> shaped dims c ->
  (forall o, In o (gate_ops ls) -> from_calls c (fun k => plain dims k \/ k = CMeasureAll) o) -> Forall fills (gate_ops ls).
Proof.
  intros c m l0 ls I Hs HF. apply Forall_forall. intros o Ho.
  assert (Hocc : occupies n o <> []).
  { apply in_concat in Ho as [l [Hl Ho]]. exact (proj2 (proj1 (Forall_forall _ _) (i_tile I) l Hl) o Ho). }
  destruct (HF o Ho) as [[i [Hi ->]]|[k [Hk Hi]]].
  - apply id_fills; [exact Hs|]. rewrite (i_dims I) in Hi. exact Hi.
  - destruct Hk as [Hk| ->]; [eapply issue_fills; eassumption | inversion Hi].
Qed.
End Line.

(** ** A gate that is too large *)
Notation P := (fun dims (k : call) => plain dims k \/ k = CMeasureAll).

Theorem too_large_flow : forall dims init out ks (c : circuit) k g ks',
  history (QList (map Z.of_nat dims)) init out ks c -> ~ In CMeasureAll ks ->
  issues c k g -> occupies (length dims) g <> [] -> large dims g -> plain dims k ->
  Forall (P dims) ks -> Forall (P dims) ks' ->
  exists c', api c k = Ok (c', true) /\ exists e, flow_exec NB (c_flow (after c' ks')) = Err e.
Proof.
  intros dims init out ks c k g ks' H Hm Hi Ho Hlg Pk T1 T2.
  pose proof (hl_shaped dims H) as Hs. pose proof H as H'. destruct H' as [c0 [E0 Ec]].
  assert (Hdims : forall x, In x dims -> 2 <= x).
  { intros x Hx. assert (2 <= Z.of_nat x)%Z; [|lia]. apply (history_dims2 H). apply in_map. exact Hx. }
  assert (Hn0 : 0 < length dims) by (destruct dims; [exfalso; apply Ho; reflexivity | simpl; lia]).
  destruct (inv_new _ _ _ E0) as [l0 I0]. rewrite (hl_nregs dims) in I0.
  destruct (@after_full S (P dims) _ ks _ _ _ _ I0 T1 ltac:(simpl; tauto)) as [ls [I1 [_ [F1 _]]]].
  assert (Em : false || (0 <? length dims) && existsb (@is_measure_all S) ks = false).
  { destruct (existsb _ ks) eqn:E; [|apply andb_false_r]. apply measured_in in E. contradiction. }
  rewrite Em, <- Ec in I1. rewrite <- Ec in F1.
  assert (Hn : 0 < nregs (QList (map Z.of_nat dims))) by (rewrite (hl_nregs dims); lia).
  destruct (accepts H Hn Hm Hi (occupies_regs _ _ Ho)) as [c' Eapi].
  exists c'. split; [exact Eapi|].
  assert (Hk : k <> CMeasureAll) by (intros ->; contradiction).
  destruct (inv_gate I1 Hk Eapi) as [[[X|X] _]|[_ [_ [_ [g' [lo [hi [ls' [Hi' [Hrg [Had [I2 [f ->]]]]]]]]]]]]];
    [discriminate | lia |].
  rewrite <- (issues_fun Hi Hi') in *. clear g' Hi'.
  assert (Hs' : shaped dims (set_flow c f)) by (destruct Hs as [S1 S2 S3]; constructor; assumption).
  destruct (added_ops Had) as [A1 [_ A3]].
  assert (F2 : forall o, In o (gate_ops ls') -> from_calls (set_flow c f) (P dims) o).
  { intros o Ho'. eapply from_layout; [apply set_flow_layout|]. destruct (A1 o Ho') as [Ho2|[->|[i [Hin ->]]]]; [auto | right; exists k; auto|].
    left. exists i. rewrite (i_dims I1). auto. }
  assert (Hin : In g (gate_ops ls')).
  { apply A3. rewrite (occupies_ranges _ Hrg) in Ho.
    destruct (Nat.lt_ge_cases (lowr (length dims) lo) (highr (length dims) lo hi)) as [Hl|Hge]; [exact Hl|].
    replace (highr (length dims) lo hi - lowr (length dims) lo) with 0 in Ho by lia. exfalso; apply Ho; reflexivity. }
  destruct (@after_full S (P dims) _ ks' _ _ _ _ I2 T2 F2) as [ls2 [I3 [SL [F3 K3]]]].
  assert (Hs3 : shaped dims (after (set_flow c f) ks')).
  { destruct SL as [L1 [L2 [L3 _]]]. destruct Hs' as [S1 S2 S3]. constructor; congruence. }
  eapply run_large; [exact Hdims | exact I3 | eapply first_rows; [exact E0 | exact I0] | | ].
  - eapply ops_fill; eassumption.
  - apply Exists_exists. exists g. split; [apply K3; [exact Hin | eapply issues_not_igate; exact Hi] | exact Hlg].
Qed.
End Succeeds.
