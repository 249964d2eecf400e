(** * InfoLib: proofs about depth, gate counts and weak_compare. *)
From Coq Require Import String.
From Verif Require Import Py Scalar Mat Utils Gates Circuit Spec Calls HistSpec CallSpec Lib Flow Layers History Info InfoSpec.
Set Implicit Arguments.
Local Notation length := List.length.

Section InfoLib.
Variable S : scalar.
Notation op := (op S).
Notation moment := (moment S).
Notation circuit := (circuit S).
Notation call := (call S).
Open Scope Z_scope.

(** ** The scan of get_circuit_info *)
Definition has_kind (x : kind) (o : op) : bool :=
  match kind_of o with Some y => kind_eqb x y | None => false end.
Definition kcount (x : kind) (l : list op) : Z := Z.of_nat (length (filter (has_kind x) l)).
Definition mcount (l : list op) : Z := Z.of_nat (length (filter (@is_meas S) l)).

Lemma kind_eqb_eq : forall a b, kind_eqb a b = true <-> a = b.
Proof. intros [] []; split; intros H; try reflexivity; discriminate. Qed.
Lemma kind_eqb_sym : forall a b, kind_eqb a b = kind_eqb b a.
Proof. intros [] []; reflexivity. Qed.

Lemma kcount_app : forall x l1 l2, kcount x (l1 ++ l2) = kcount x l1 + kcount x l2.
Proof. intros. unfold kcount. rewrite filter_app, app_length. lia. Qed.
Lemma kcount_cons : forall x o l, kcount x (o :: l) = (if has_kind x o then 1 else 0) + kcount x l.
Proof. intros. unfold kcount. simpl. destruct (has_kind x o); simpl length; lia. Qed.
Lemma kcount_nil : forall x, kcount x [] = 0. Proof. reflexivity. Qed.
Lemma kcount_none : forall x l, (forall o, In o l -> kind_of o = None) -> kcount x l = 0.
Proof.
  intros x l; induction l as [|o l IH]; intros H; [reflexivity|]. rewrite kcount_cons, IH by (intros; apply H; right; assumption).
  unfold has_kind. rewrite (H o) by (left; reflexivity). reflexivity.
Qed.
Lemma mcount_cons : forall o l, mcount (o :: l) = (if is_meas o then 1 else 0) + mcount l.
Proof. intros. unfold mcount. simpl. destruct (is_meas o); simpl length; lia. Qed.
Lemma mcount_pos : forall l, 0 <= mcount l. Proof. intros. unfold mcount. lia. Qed.

Definition det (f : kind -> Z) : list (kind * Z) := map (fun k => (k, f k)) kinds.

Lemma bump_det : forall y f, bump y (det f) = det (fun x => f x + (if kind_eqb x y then 1 else 0)).
Proof. intros [] f; unfold bump, det, kinds; cbn; repeat f_equal; lia. Qed.

Lemma det_ext : forall f g, (forall x, f x = g x) -> det f = det g.
Proof. intros f g H. unfold det. apply map_ext. intros x. rewrite H. reflexivity. Qed.

Lemma fold_info_gate : forall q l flag depth f,
  fold_left (info_gate q) l (flag, depth, det f)
  = (flag + mcount l, depth - (if (flag <? q) && (q <=? flag + mcount l) then 1 else 0), det (fun x => f x + kcount x l)).
Proof.
  intros q l; induction l as [|o l IH]; intros flag depth f.
  - cbn [fold_left]. change (mcount []) with 0. rewrite Z.add_0_r.
    replace ((flag <? q) && (q <=? flag)) with false; [f_equal; [f_equal; lia|]|].
    + apply det_ext. intros x. rewrite kcount_nil. lia.
    + destruct (Z.ltb_spec flag q), (Z.leb_spec q flag); try reflexivity; lia.
  - cbn [fold_left]. unfold info_gate at 2. rewrite mcount_cons.
    assert (Hp := mcount_pos l).
    destruct (kind_of o) as [y|] eqn:E.
    + rewrite bump_det, IH.
      assert (is_meas o = false) as -> by (destruct o; try reflexivity; discriminate).
      rewrite Z.add_0_l. f_equal. apply det_ext. intros x. rewrite kcount_cons. unfold has_kind. rewrite E. lia.
    + destruct (is_meas o) eqn:Em; rewrite IH.
      * f_equal; [f_equal; [lia|]|].
        -- destruct (Z.eqb_spec (flag + 1) q), (Z.ltb_spec (flag + 1) q), (Z.leb_spec q (flag + 1 + mcount l)),
             (Z.ltb_spec flag q), (Z.leb_spec q (flag + (1 + mcount l))); cbn [andb]; lia.
        -- apply det_ext. intros x. rewrite kcount_cons. unfold has_kind. rewrite E. lia.
      * rewrite Z.add_0_l. f_equal. apply det_ext. intros x. rewrite kcount_cons. unfold has_kind. rewrite E. lia.
Qed.

Definition full_moment (q : Z) (l : list op) : bool := (0 <? q) && (q <=? mcount l).
Definition fulls (q : Z) (ls : list (list op)) : Z := Z.of_nat (length (filter (full_moment q) ls)).
Definition lcount (x : kind) (ls : list (list op)) : Z := kcount x (concat ls).

Lemma fold_info_moment : forall q (ms : list moment) depth f,
  fold_left (info_moment q) ms (depth, det f)
  = (depth - fulls q (map (@m_list S) ms), det (fun x => f x + lcount x (map (@m_list S) ms))).
Proof.
  intros q ms; induction ms as [|m ms IH]; intros depth f.
  - cbn [fold_left map]. change (fulls q []) with 0. f_equal; [lia|]. apply det_ext. intros x. unfold lcount. rewrite kcount_nil. lia.
  - cbn [fold_left]. unfold info_moment at 2. rewrite fold_info_gate, IH. cbn [map].
    unfold fulls, lcount. cbn [filter concat]. unfold full_moment at 2. rewrite Z.add_0_l. f_equal.
    + destruct ((0 <? q) && (q <=? mcount (m_list m))); simpl length; lia.
    + apply det_ext. intros x. rewrite kcount_app. lia.
Qed.

Lemma info_value : forall c : circuit,
  let q := Z.of_nat (length (qregs_list (c_qregs c))) in
  get_circuit_info c =
  {| i_depth := Z.of_nat (length (layers c)) - 1 - fulls q (layers c);
     i_gate_count := fold_left Z.add (map snd (filter (fun '(_, n) => negb (n =? 0)) (det (fun x => lcount x (layers c))))) 0;
     i_details := filter (fun '(_, n) => negb (n =? 0)) (det (fun x => lcount x (layers c)));
     i_qudit := q |}.
Proof.
  intros c q. unfold get_circuit_info. fold q.
  change (map (fun k => (k, 0)) kinds) with (det (fun _ => 0)). rewrite fold_info_moment.
  unfold layers. rewrite map_length. reflexivity.
Qed.

Lemma filter_det_counts : forall f, holds_counts (filter (fun '(_, n) => negb (n =? 0)) (det f)) f.
Proof.
  intros f. split.
  - unfold det, kinds. cbn [map filter].
    destruct (f KH =? 0), (f KX =? 0), (f KZ =? 0), (f KCX =? 0), (f KToffoli =? 0), (f KArbitrary =? 0); cbn;
      repeat (constructor; [cbn; intuition discriminate|]); constructor.
  - intros x n. rewrite filter_In. unfold det. rewrite in_map_iff. split.
    + intros [[y [E _]] H]. injection E as -> <-. apply negb_true_iff, Z.eqb_neq in H. auto.
    + intros [-> H]. split; [|apply negb_true_iff, Z.eqb_neq; exact H]. exists x. split; [reflexivity|].
      destruct x; cbn; auto 10.
Qed.

Lemma filter_det_sum : forall f,
  fold_left Z.add (map snd (filter (fun '(_, n) => negb (n =? 0)) (det f))) 0
  = f KH + f KX + f KZ + f KCX + f KToffoli + f KArbitrary.
Proof.
  intros f. unfold det, kinds. cbn [map filter].
  destruct (Z.eqb_spec (f KH) 0), (Z.eqb_spec (f KX) 0), (Z.eqb_spec (f KZ) 0), (Z.eqb_spec (f KCX) 0),
    (Z.eqb_spec (f KToffoli) 0), (Z.eqb_spec (f KArbitrary) 0); cbn [negb map filter snd fold_left]; lia.
Qed.

(** ** Layers of a history *)
Definition no_meas (l : list op) : Prop := forall o, In o l -> is_meas o = false.

(** [inv] with layers free of measurements. *)
Definition minv (n : nat) (c : circuit) (measured : bool) (l0 : list op) (ls : list (list op)) : Prop :=
  inv n c measured l0 ls /\ Forall no_meas ls.

Lemma layer_ops : forall dims lo hi (g : op) n o, In o (layer_list dims lo hi g n) ->
  o = g \/ is_igate o = true.
Proof.
  intros dims lo hi g n o H. rewrite layer_list_split in H. rewrite !in_app_iff, !in_map_iff in H.
  destruct H as [[i [<- _]]|[H|[i [<- _]]]]; [right; reflexivity| |right; reflexivity].
  destruct (lowr n lo <? highr n lo hi)%nat; [destruct H as [<-|[]]; auto|contradiction].
Qed.

Lemma added_no_meas : forall n dims lo hi (c : circuit) k g l0 ls ls', issues c k g ->
  added n dims lo hi g l0 ls ls' -> Forall no_meas ls -> Forall no_meas ls'.
Proof.
  intros n dims lo hi c k g l0 ls ls' Hi Ha H. destruct (issues_not_init Hi) as [_ [Hg _]].
  destruct Ha as [-> _|lsb l1 d l2 _ -> -> _]; apply Forall_app; rewrite ?Forall_app in H.
  - split; [exact H|]. constructor; [|constructor]. intros o Ho. apply layer_ops in Ho as [->|Ho]; [exact Hg|].
    destruct o; try discriminate; reflexivity.
  - destruct H as [H1 H2]. split; [exact H1|]. inversion H2 as [|? ? H3 _]; subst. constructor; [|constructor].
    intros o Ho. apply in_app_iff in Ho as [Ho|[<-|Ho]]; [apply H3; apply in_app_iff; auto|exact Hg|].
    apply H3. apply in_app_iff. right; right; exact Ho.
Qed.

Lemma step_minv : forall n (c : circuit) measured l0 ls k, minv n c measured l0 ls ->
  exists ls', minv n (step c k) (measured || (0 <? n)%nat && is_measure_all k) l0 ls'.
Proof.
  intros n c measured l0 ls k [I N]. unfold step.
  destruct (is_measure_all k) eqn:Ek.
  - destruct k; try discriminate. destruct (inv_measure I) as [c' [E' H]]. rewrite E'.
    destruct H as [[Hm ->]|[-> [Hn [I' _]]]].
    + exists ls. split; [|exact N]. destruct Hm as [->| ->]; [exact I|]. simpl. rewrite orb_false_r. exact I.
    + exists ls. split; [|exact N]. rewrite (proj2 (Nat.ltb_lt 0 n) Hn). exact I'.
  - rewrite andb_false_r, orb_false_r.
    destruct (api c k) as [[c' b]|e] eqn:E; [|exists ls; split; assumption].
    assert (Hk : k <> CMeasureAll) by (intros ->; discriminate).
    destruct (inv_gate I Hk E) as [[_ [-> _]]|[-> [_ [_ [g [lo [hi [ls' [Hi [_ [Ha [I' _]]]]]]]]]]]].
    + exists ls; split; assumption.
    + exists ls'. split; [exact I'|]. exact (added_no_meas Hi Ha N).
Qed.

Lemma after_minv : forall n ks (c : circuit) measured l0 ls, minv n c measured l0 ls ->
  exists ls', minv n (after c ks) (measured || (0 <? n)%nat && existsb (@is_measure_all S) ks) l0 ls'.
Proof.
  intros n ks; induction ks as [|k ks IH]; intros c measured l0 ls I.
  - exists ls. unfold after. simpl. rewrite andb_false_r, orb_false_r. exact I.
  - destruct (step_minv k I) as [ls' I']. destruct (IH _ _ _ _ I') as [ls2 I2]. exists ls2.
    simpl existsb. rewrite andb_orb_distrib_r, orb_assoc. exact I2.
Qed.

Lemma new_minv : forall q init out (c : circuit), mk_circuit S q init out = Ok c ->
  exists l0, minv (nregs q) c false l0 [].
Proof. intros q init out c H. destruct (inv_new _ _ _ H) as [l0 I]. exists l0. split; [exact I | constructor]. Qed.

Lemma history_minv : forall q init out ks (c : circuit), history q init out ks c ->
  exists l0 ls, minv (nregs q) c ((0 <? nregs q)%nat && existsb (@is_measure_all S) ks) l0 ls.
Proof.
  intros q init out ks c [c0 [H ->]]. destruct (new_minv _ _ _ H) as [l0 I].
  destruct (after_minv ks I) as [ls I']. eauto.
Qed.

(** ** Depth *)
Lemma py_get_last : forall A (l : list A) x, py_get (l ++ [x]) (-1) = Ok x.
Proof.
  intros A l x. unfold py_get, py_index. rewrite app_length. simpl length.
  replace (0 <=? -1) with false by reflexivity. replace (-1 <? 0) with true by reflexivity.
  replace (- Z.of_nat (length l + 1) <=? -1) with true by (symmetry; apply Z.leb_le; lia). cbn [andb].
  replace (Z.to_nat (-1 + Z.of_nat (length l + 1))) with (length l) by lia.
  rewrite nth_error_app2, Nat.sub_diag by lia. reflexivity.
Qed.

Lemma existsb_false_in : forall A (f : A -> bool) l, (forall x, In x l -> f x = false) -> existsb f l = false.
Proof.
  intros A f l H. destruct (existsb f l) eqn:E; [|reflexivity]. apply existsb_exists in E as [x [Hx Ex]].
  rewrite (H x Hx) in Ex. discriminate.
Qed.

Lemma mcount_no_meas : forall l, no_meas l -> mcount l = 0.
Proof.
  intros l; induction l as [|o l IH]; intros H; [reflexivity|]. rewrite mcount_cons, IH by (intros x Hx; apply H; right; exact Hx).
  rewrite (H o) by (left; reflexivity). reflexivity.
Qed.

Lemma mcount_meas_layer : forall n, mcount (meas_layer S n) = Z.of_nat n.
Proof.
  intros n. unfold mcount, meas_layer. rewrite <- (seq_length n 0) at 2. generalize (seq 0 n) as l.
  intros l; induction l as [|i l IH]; [reflexivity|]. cbn [map filter is_meas length]. lia.
Qed.

Lemma filter_true_in : forall A (f : A -> bool) l, (forall x, In x l -> f x = true) -> filter f l = l.
Proof.
  intros A f l; induction l as [|x l IH]; intros H; [reflexivity|]. simpl. rewrite (H x) by (left; reflexivity).
  rewrite IH by (intros; apply H; right; assumption). reflexivity.
Qed.
Lemma filter_false_in : forall A (f : A -> bool) l, (forall x, In x l -> f x = false) -> filter f l = [].
Proof.
  intros A f l; induction l as [|x l IH]; intros H; [reflexivity|]. simpl. rewrite (H x) by (left; reflexivity).
  apply IH. intros; apply H; right; assumption.
Qed.

Lemma init_no_meas : forall l, forallb (@is_init S) l = true -> no_meas l.
Proof.
  intros l H o Ho. rewrite forallb_forall in H. specialize (H o Ho). destruct o; try discriminate; reflexivity.
Qed.

Lemma minv_gate_layers : forall n c measured l0 ls, minv n c measured l0 ls -> (0 < n)%nat ->
  gate_layers c = length ls.
Proof.
  intros n c measured l0 ls [I N] Hn. unfold gate_layers. change (layers_of c) with (layers c). rewrite (i_list I).
  destruct (i_m0 I) as [H1 H2]. destruct l0 as [|o l0].
  { destruct n; [lia|]. discriminate. }
  cbn [filter]. simpl forallb in H1. apply andb_true_iff in H1 as [H1 H1']. simpl existsb at 1. rewrite H1. cbn [orb negb].
  rewrite filter_app, app_length, filter_true_in.
  - destruct measured; [|simpl; lia]. cbn [filter]. unfold meas_layer. destruct n as [|n]; [lia|].
    cbn [seq map existsb is_meas is_init orb]. rewrite orb_true_r. simpl. lia.
  - intros l Hl. apply negb_true_iff, orb_false_iff. split; apply existsb_false_in.
    + pose proof (i_gates I) as G. rewrite Forall_forall in G. intros x Hx. exact (G l Hl x Hx).
    + rewrite Forall_forall in N. intros x Hx. exact (N l Hl x Hx).
Qed.

Lemma minv_config : forall n c measured l0 ls, minv n c measured l0 ls ->
  get_circuit_config c = Ok (config_width c, Z.of_nat (length ls)).
Proof.
  intros n c measured l0 ls [I N]. unfold get_circuit_config.
  assert (E := i_list I). unfold layers in E.
  assert (Hne : f_list (c_flow c) <> []) by (intros X; rewrite X in E; discriminate).
  destruct (exists_last Hne) as [before [m Em]]. rewrite Em, py_get_last. cbn [bind].
  rewrite Em, map_app in E. cbn [map] in E. rewrite app_length. simpl length.
  destruct measured.
  - assert (Hn := i_pos I eq_refl). change (l0 :: ls ++ [meas_layer S n]) with ((l0 :: ls) ++ [meas_layer S n]) in E.
    apply app_inj_tail in E as [E1 E2].
    rewrite E2. destruct n as [|n]; [lia|]. unfold meas_layer. cbn [seq map existsb is_meas orb].
    apply (f_equal (@List.length _)) in E1. rewrite map_length in E1. simpl length in E1. do 2 f_equal. lia.
  - rewrite app_nil_r in E.
    assert (existsb (@is_meas S) (m_list m) = false) as ->.
    { apply existsb_false_in. assert (Hin : In (m_list m) (l0 :: ls)) by (rewrite <- E; apply in_app_iff; right; left; reflexivity).
      destruct Hin as [<-|Hin]; [apply init_no_meas; exact (proj1 (i_m0 I))|]. rewrite Forall_forall in N. exact (N _ Hin). }
    apply (f_equal (@List.length _)) in E. rewrite app_length, map_length in E. simpl length in E. do 2 f_equal. lia.
Qed.

Lemma minv_info_depth : forall n c measured l0 ls, minv n c measured l0 ls ->
  let q := Z.of_nat (length (qregs_list (c_qregs c))) in
  i_depth (get_circuit_info c)
  = Z.of_nat (length ls) + (if measured then if (0 <? q) && (q <=? Z.of_nat n) then 0 else 1 else 0).
Proof.
  intros n c measured l0 ls [I N] q. rewrite info_value. fold q. cbn [i_depth]. rewrite (i_list I).
  assert (F : forall l, no_meas l -> full_moment q l = false).
  { intros l Hl. unfold full_moment. rewrite (mcount_no_meas Hl).
    destruct (Z.ltb_spec 0 q), (Z.leb_spec q 0); try reflexivity; lia. }
  unfold fulls. cbn [filter]. rewrite (F l0) by (apply init_no_meas; exact (proj1 (i_m0 I))).
  rewrite filter_app, app_length. rewrite (@filter_false_in _ (full_moment q) ls).
  2:{ intros l Hl. apply F. rewrite Forall_forall in N. exact (N _ Hl). }
  simpl length. rewrite app_length. destruct measured.
  - cbn [filter]. unfold full_moment. rewrite mcount_meas_layer.
    destruct ((0 <? q) && (q <=? Z.of_nat n)); simpl length; lia.
  - simpl length. lia.
Qed.

Lemma issues_share : forall (c : circuit) k g r, issues c k g -> (may_share k r <-> is_hxz g = true /\ qreg_of g = r).
Proof. intros c k g r H; destruct H; simpl; split; intros X; try contradiction; try (destruct X; discriminate); intuition. Qed.

Lemma idle_in_range : forall n c measured l0 ls l r d, inv (S := S) n c measured l0 ls -> In l ls -> In (OI r d) l ->
  (0 <= r < Z.of_nat n).
Proof.
  intros n c measured l0 ls l r d I Hl Ho. pose proof (i_tile I) as T. rewrite Forall_forall in T.
  destruct (T l Hl) as [_ T2]. specialize (T2 _ Ho).
  rewrite (occupies_ranges n (ranges_single (OI r d : op) eq_refl)) in T2.
  destruct (highr n r r - lowr n r)%nat eqn:E; [exfalso; apply T2; reflexivity|]. unfold highr, lowr in E. lia.
Qed.

Lemma idle_last : forall n (c : circuit) l0 ls r, inv n c false l0 ls ->
  (idle_at_end c r <-> exists lsb l d, ls = lsb ++ [l] /\ In (OI r d) l).
Proof.
  intros n c l0 ls r I. unfold idle_at_end. change (layers_of c) with (layers c). rewrite (i_list I), app_nil_r.
  split.
  - intros [before [l [d [E Ho]]]]. destruct before as [|b before].
    + injection E as -> ->. exfalso. destruct (i_m0 I) as [H _]. rewrite forallb_forall in H. specialize (H _ Ho). discriminate.
    + injection E as -> ->. eauto.
  - intros [lsb [l [d [-> Ho]]]]. exists (l0 :: lsb), l, d. auto.
Qed.

Lemma gate_call : forall n (c c' : circuit) l0 ls k b, minv n c false l0 ls -> (0 < n)%nat -> k <> CMeasureAll ->
  api c k = Ok (c', b) ->
  exists g lo hi ls', issues c k g /\ ranges g lo hi /\ minv n c' false l0 ls' /\ config_width c' = config_width c /\
    added n (c_dims c) lo hi g l0 ls ls' /\
    (length ls' = length ls /\ (exists r, may_share k r /\ idle_at_end c r) \/
     length ls' = Datatypes.S (length ls) /\ ~ (exists r, may_share k r /\ idle_at_end c r)).
Proof.
  intros n c c' l0 ls k b [I N] Hn Hk Ha.
  destruct (inv_gate I Hk Ha) as [[X _]|[_ [_ [_ [g [lo [hi [ls' [Hi [Hr [Had [I' [f ->]]]]]]]]]]]]]; [destruct X; [discriminate|lia]|].
  exists g, lo, hi, ls'. split; [exact Hi|]. split; [exact Hr|]. split; [split; [exact I'|exact (added_no_meas Hi Had N)]|].
  split; [reflexivity|]. split; [exact Had|].
  destruct Had as [El Hno|lsb l1 d l2 Hx El El' Hrg].
  - right. split; [subst ls'; rewrite app_length; simpl; lia|]. intros [r [Hs Hid]].
    apply (issues_share r Hi) in Hs as [Hx <-]. apply (idle_last _ I) in Hid as [lsb [l [d [E Ho]]]].
    assert (Hin : In l ls) by (subst ls; apply in_app_iff; right; left; reflexivity).
    exact (Hno Hx (idle_in_range _ _ _ I Hin Ho) _ _ E d Ho).
  - left. split; [subst ls ls'; rewrite !app_length; reflexivity|]. exists (qreg_of g). split; [apply (issues_share _ Hi); auto|].
    apply (idle_last _ I). do 3 eexists. split; [exact El|]. apply in_app_iff. right; left; reflexivity.
Qed.

Theorem depth_reported : forall q init out ks (c : circuit), history q init out ks c -> (0 < nregs q)%nat ->
  get_circuit_config c = Ok (config_width c, Z.of_nat (gate_layers c)).
Proof.
  intros q init out ks c H Hn. destruct (history_minv H) as [l0 [ls I]].
  rewrite (minv_gate_layers I Hn). exact (minv_config I).
Qed.

Lemma history_qregs : forall q init out ks (c : circuit), history q init out ks c -> c_qregs c = q.
Proof.
  intros q init out ks c [c0 [H ->]].
  assert (E : c_qregs c0 = q).
  { unfold mk_circuit in H. apply bind_ok in H as [[len dims] [_ H]]. apply bind_ok in H as [f [_ H]]. injection H as <-. reflexivity. }
  destruct (inv_new _ _ _ H) as [l0 I].
  destruct (@after_full S (fun _ => True) _ ks _ _ _ _ I (proj2 (Forall_forall _ _) (fun _ _ => Logic.I)) ltac:(simpl; tauto))
    as [ls [_ [[L _] _]]].
  rewrite L. exact E.
Qed.

Theorem info_depth_reported : forall l init out ks (c : circuit), history (QList l) init out ks c -> l <> [] ->
  i_depth (get_circuit_info c) = Z.of_nat (gate_layers c).
Proof.
  intros l init out ks c H Hl. destruct (history_minv H) as [l0 [ls I]].
  assert (Hn : (0 < nregs (QList l))%nat) by (destruct l; [congruence|simpl; lia]).
  rewrite (minv_gate_layers I Hn), (minv_info_depth I), (history_qregs H). simpl qregs_list. simpl nregs in *.
  rewrite (proj2 (Nat.ltb_lt _ _) Hn). cbn [andb].
  replace (0 <? Z.of_nat (length l)) with true by (symmetry; apply Z.ltb_lt; lia).
  rewrite Z.leb_refl. destruct (existsb _ ks); cbn [andb]; lia.
Qed.

(** ** Gate counts *)
Lemma issues_named : forall (c : circuit) k g, issues c k g -> registers g = named k.
Proof. intros c k g H; destruct H; reflexivity. Qed.
Lemma issues_kind : forall (c : circuit) k g x, issues c k g -> has_kind x g = asks_kind x k.
Proof. intros c k g x H; destruct H, x; reflexivity. Qed.

Lemma on_line_ranges : forall n (c : circuit) k g lo hi, issues c k g -> ranges g lo hi ->
  (lowr n lo <? highr n lo hi)%nat = on_line n k.
Proof.
  intros n c k g lo hi Hi Hr. assert (E := occupies_ranges n Hr).
  assert (E2 : on_line n k = negb (match occupies n g with [] => true | _ => false end)).
  { unfold on_line, occupies, covers. rewrite <- (issues_named Hi). induction (seq 0 n) as [|i l IH]; [reflexivity|].
    simpl. destruct (_ && _); simpl; [reflexivity|exact IH]. }
  rewrite E2, E. destruct (highr n lo hi - lowr n lo)%nat eqn:D; simpl; [apply Nat.ltb_ge|apply Nat.ltb_lt]; lia.
Qed.

Lemma kcount_ids : forall x dims l, kcount x (map (idop S dims) l) = 0.
Proof. intros. apply kcount_none. intros o Ho. apply in_map_iff in Ho as [i [<- _]]. reflexivity. Qed.

Lemma lcount_app : forall x l1 l2, lcount x (l1 ++ l2) = lcount x l1 + lcount x l2.
Proof. intros. unfold lcount. rewrite concat_app, kcount_app. reflexivity. Qed.
Lemma lcount_one : forall x l, lcount x [l] = kcount x l.
Proof. intros. unfold lcount. simpl. rewrite app_nil_r. reflexivity. Qed.

Lemma added_count : forall n (c : circuit) lo hi k g l0 ls ls' x, issues c k g -> ranges g lo hi ->
  added n (c_dims c) lo hi g l0 ls ls' ->
  lcount x ls' = lcount x ls + (if asks_kind x k && on_line n k then 1 else 0).
Proof.
  intros n c lo hi k g l0 ls ls' x Hi Hr Ha. rewrite <- (issues_kind x Hi), <- (on_line_ranges n Hi Hr).
  destruct Ha as [-> _|lsb l1 d l2 Hx -> -> Hrg].
  - rewrite lcount_app, lcount_one, layer_list_split, !kcount_app, !kcount_ids.
    destruct (lowr n lo <? highr n lo hi)%nat; rewrite ?kcount_cons, ?kcount_nil;
      destruct (has_kind x g); cbn [andb]; lia.
  - rewrite !lcount_app, !lcount_one, !kcount_app, !kcount_cons. rewrite (hxz_placed n Hx Hr).
    replace (0 <=? qreg_of g) with true by (symmetry; apply Z.leb_le; lia).
    replace (qreg_of g <? Z.of_nat n) with true by (symmetry; apply Z.ltb_lt; lia).
    unfold has_kind at 2. cbn [kind_of]. destruct (has_kind x g); cbn [andb]; lia.
Qed.

Lemma minv_lcount : forall n c measured l0 ls x, minv n c measured l0 ls -> lcount x (layers c) = lcount x ls.
Proof.
  intros n c measured l0 ls x [I N]. rewrite (i_list I). change (l0 :: ls ++ ?t) with ([l0] ++ ls ++ t).
  rewrite !lcount_app, lcount_one, (@kcount_none x l0).
  - destruct measured; [rewrite lcount_one, kcount_none|]; [lia| |unfold lcount; simpl; rewrite kcount_nil; lia].
    intros o Ho. apply in_map_iff in Ho as [i [<- _]]. reflexivity.
  - intros o Ho. destruct (i_m0 I) as [H _]. rewrite forallb_forall in H. specialize (H o Ho).
    destruct o; try discriminate; reflexivity.
Qed.

Lemma on_line_0 : forall k : call, on_line 0 k = false. Proof. reflexivity. Qed.

Lemma after_measured : forall n ks (c : circuit) l0 ls, minv n c true l0 ls -> after c ks = c.
Proof.
  intros n ks; induction ks as [|k ks IH]; intros c l0 ls I; [reflexivity|]. unfold after in *. simpl.
  assert (E : step c k = c); [|rewrite E; exact (IH _ _ _ I)].
  unfold step. destruct (api c k) as [[c' b]|e] eqn:Ea; [|reflexivity].
  destruct (is_measure_all k) eqn:Ek.
  - destruct k; try discriminate. destruct (inv_measure (proj1 I)) as [c2 [E2 X]]. rewrite Ea in E2. injection E2 as <- ->.
    destruct X as [[_ ->]|[X _]]; [reflexivity|discriminate].
  - assert (Hk : k <> CMeasureAll) by (intros ->; discriminate).
    destruct (inv_gate (proj1 I) Hk Ea) as [[_ [-> _]]|[X _]]; [reflexivity|discriminate].
Qed.

Lemma tally_0 : forall x ks (c : circuit), tally 0 x c ks = 0.
Proof.
  intros x ks; induction ks as [|k ks IH]; intros c; [reflexivity|]. cbn [tally]. rewrite IH, on_line_0, andb_false_r.
  destruct (is_measure_all k); reflexivity.
Qed.

Lemma after_count : forall n x ks (c : circuit) l0 ls, minv n c false l0 ls ->
  exists m ls', minv n (after c ks) m l0 ls' /\ lcount x ls' = lcount x ls + tally n x c ks.
Proof.
  intros n x ks. destruct n as [|n].
  { intros c l0 ls I. destruct (after_minv ks I) as [ls' I']. do 2 eexists. split; [exact I'|].
    rewrite tally_0, (i_zero (proj1 I) eq_refl), (i_zero (proj1 I') eq_refl). lia. }
  assert (Hn : (0 < Datatypes.S n)%nat) by lia. generalize (Datatypes.S n), Hn. clear n Hn. intros n Hn.
  induction ks as [|k ks IH]; intros c l0 ls I.
  - exists false, ls. split; [exact I|]. simpl. lia.
  - cbn [tally]. destruct (is_measure_all k) eqn:Ek.
    + destruct (step_minv k I) as [ls' I']. rewrite Ek, (proj2 (Nat.ltb_lt 0 n) Hn) in I'. cbn [orb andb] in I'.
      assert (E : after c (k :: ks) = step c k) by exact (after_measured ks I'). rewrite E.
      exists true, ls. split; [|lia].
      destruct k; try discriminate. destruct (inv_measure (proj1 I)) as [c2 [E2 X]]. unfold step. rewrite E2.
      destruct X as [[[X|X] _]|[_ [_ [X _]]]]; [discriminate|lia|]. split; [exact X|exact (proj2 I)].
    + assert (Hk : k <> CMeasureAll) by (intros ->; discriminate).
      change (after c (k :: ks)) with (after (step c k) ks). unfold returns, step in *.
      destruct (api c k) as [[c' b]|e] eqn:Ea.
      * destruct (gate_call I Hn Hk Ea) as [g [lo [hi [ls1 [Hi [Hr [I1 [_ [Had _]]]]]]]]].
        destruct (IH _ _ _ I1) as [m [ls2 [I2 E2]]]. exists m, ls2. split; [exact I2|].
        rewrite E2, (added_count x Hi Hr Had), andb_true_r. lia.
      * destruct (IH _ _ _ I) as [m [ls2 [I2 E2]]]. exists m, ls2. split; [exact I2|].
        rewrite andb_false_r. cbn [andb]. lia.
Qed.

Theorem counts_reported : forall q init out ks (c0 : circuit), mk_circuit S q init out = Ok c0 ->
  let f x := tally (nregs q) x c0 ks in
  holds_counts (i_details (get_circuit_info (after c0 ks))) f /\
  i_gate_count (get_circuit_info (after c0 ks)) = f KH + f KX + f KZ + f KCX + f KToffoli + f KArbitrary.
Proof.
  intros q init out ks c0 H f. destruct (new_minv _ _ _ H) as [l0 I].
  assert (E : forall x, lcount x (layers (after c0 ks)) = f x).
  { intros x. destruct (after_count x ks I) as [m [ls' [I' E]]]. rewrite (minv_lcount x I'), E. unfold f.
    change (lcount x []) with 0. lia. }
  rewrite info_value. cbn [i_details i_gate_count]. rewrite (det_ext _ _ E).
  split; [apply filter_det_counts | apply filter_det_sum].
Qed.

(** ** Calls and depth *)
Theorem step_depth : forall q init out ks (c : circuit) k, history q init out ks c -> (0 < nregs q)%nat ->
  exists w d, get_circuit_config c = Ok (w, d) /\
    (get_circuit_config (step c k) = Ok (w, d) \/
     is_measure_all k = false /\ get_circuit_config (step c k) = Ok (w, d + 1)).
Proof.
  intros q init out ks c k H Hn. destruct (history_minv H) as [l0 [ls I]].
  do 2 eexists. split; [exact (minv_config I)|].
  set (m := ((0 <? nregs q)%nat && existsb (@is_measure_all S) ks)) in *. clearbody m.
  destruct m.
  - left. assert (E : step c k = c) by exact (after_measured [k] I). rewrite E. exact (minv_config I).
  - unfold step. destruct (is_measure_all k) eqn:Ek.
    + left. destruct k; try discriminate. destruct (inv_measure (proj1 I)) as [c2 [E2 X]]. rewrite E2.
      destruct X as [[[X|X] _]|[_ [_ [X [f Ef]]]]]; [discriminate|lia|].
      rewrite (minv_config (conj X (proj2 I))). subst c2. reflexivity.
    + assert (Hk : k <> CMeasureAll) by (intros ->; discriminate).
      destruct (api c k) as [[c' b]|e] eqn:Ea; [|left; exact (minv_config I)].
      destruct (gate_call I Hn Hk Ea) as [g [lo [hi [ls1 [Hi [Hr [I1 [Ew [Had D]]]]]]]]].
      rewrite (minv_config I1), Ew. destruct D as [[-> _]|[-> _]]; [left; reflexivity|right].
      split; [reflexivity|]. do 2 f_equal. lia.
Qed.

Theorem step_shared : forall q init out ks (c c' : circuit) k b, history q init out ks c -> (0 < nregs q)%nat ->
  ~ In CMeasureAll ks -> k <> CMeasureAll -> api c k = Ok (c', b) ->
  (get_circuit_config c' = get_circuit_config c <-> exists r, may_share k r /\ idle_at_end c r).
Proof.
  intros q init out ks c c' k b H Hn Hm Hk Ha. destruct (history_minv H) as [l0 [ls I]].
  assert (E : existsb (@is_measure_all S) ks = false).
  { apply existsb_false_in. intros x Hx. destruct x; try reflexivity. contradiction. }
  rewrite E, andb_false_r in I.
  destruct (gate_call I Hn Hk Ha) as [g [lo [hi [ls1 [Hi [Hr [I1 [Ew [Had D]]]]]]]]].
  rewrite (minv_config I1), (minv_config I), Ew. destruct D as [[-> D]|[-> D]]; split; intros X; auto; [|contradiction].
  exfalso. injection X as X. lia.
Qed.

(** ** weak_compare *)
Lemma mapM_some_err : forall A B (f : A -> res B) l x e, In x l -> f x = Err e -> exists e', mapM f l = Err e'.
Proof.
  intros A B f l; induction l as [|y l IH]; intros x e Hin He; [contradiction|]. simpl.
  destruct (f y) as [b|e'] eqn:E; [|eexists; reflexivity]. cbn [bind].
  destruct Hin as [->|Hin]; [congruence|]. destruct (IH x e Hin He) as [e2 ->]. eexists. reflexivity.
Qed.

Lemma compare_none : forall (B : backend S) l i, compare_from B i l = Ok None ->
  forall m1 m2, In (m1, m2) l -> exists r1 r2, moment_to_repr B m1 = Ok r1 /\ moment_to_repr B m2 = Ok r2.
Proof.
  intros B l; induction l as [|[a1 a2] l IH]; intros i H m1 m2 Hin; [contradiction|]. simpl in H.
  apply bind_ok in H as [r1 [E1 H]]. apply bind_ok in H as [r2 [E2 H]].
  destruct (reprs_eqb r1 r2); [|discriminate]. destruct Hin as [E|Hin]; [injection E as -> ->; eauto|].
  exact (IH _ H _ _ Hin).
Qed.

Lemma repr_meas : forall (B : backend S) m o r, In o (m_operations m) -> is_meas o = true -> moment_to_repr B m <> Ok r.
Proof.
  intros B m o r Hin Hm E. unfold moment_to_repr in E.
  match type of E with mapM ?f _ = _ => destruct (@mapM_some_err _ _ f _ o AttributeError Hin) as [e X] end.
  - cbv beta. rewrite Hm. reflexivity.
  - rewrite X in E. discriminate.
Qed.

Lemma combine_last1 : forall A B (l1 : list A) x (l2 : list B), (length (l1 ++ [x]) <= length l2)%nat ->
  exists y, In (x, y) (combine (l1 ++ [x]) l2).
Proof.
  intros A B l1; induction l1 as [|a l1 IH]; intros x [|b l2] H; simpl in H; try lia.
  - exists b. left. reflexivity.
  - destruct (IH x l2) as [y Hy]; [lia|]. exists y. right. exact Hy.
Qed.
Lemma combine_last2 : forall A B (l1 : list A) (l2 : list B) y, (length (l2 ++ [y]) <= length l1)%nat ->
  exists x, In (x, y) (combine l1 (l2 ++ [y])).
Proof.
  intros A B l1 l2; revert l1; induction l2 as [|b l2 IH]; intros [|a l1] y H; simpl in H; try lia.
  - exists a. left. reflexivity.
  - destruct (IH l1 y) as [x Hx]; [lia|]. exists x. right. exact Hx.
Qed.

Definition ops_kept (m : moment) : Prop :=
  forall o, In o (m_list m) -> is_meas o = true -> In o (m_operations m).

Lemma append_kept : forall fl m, Forall ops_kept fl -> ops_kept m -> Forall ops_kept (append_moment fl m).
Proof.
  intros fl m H Hm. unfold append_moment. destruct (rev fl) as [|p before] eqn:E; [constructor; [exact Hm|constructor]|].
  apply Forall_rev in H. rewrite E in H. inversion H as [|? ? H1 H2]; subst.
  apply Forall_app. split; [apply Forall_rev; exact H2|]. constructor; [exact H1|]. constructor; [exact Hm|constructor].
Qed.

Lemma in_upd : forall A (l : list A) k v x, In x (upd l k v) -> x = v \/ In x l.
Proof.
  intros A l; induction l as [|a l IH]; intros [|k] v x H; simpl in *; auto.
  - destruct H as [H|H]; auto.
  - destruct H as [H|H]; auto. destruct (IH _ _ _ H); auto.
Qed.

Lemma populate_kept : forall (f f' : opflow S) m b, populate_opflow f m = Ok (f', b) -> Forall ops_kept (f_list f) ->
  ops_kept m -> Forall ops_kept (f_list f').
Proof.
  intros f f' m b H HF Hm. unfold populate_opflow in H. destruct (rev (f_list f)) as [|last before] eqn:Er.
  { apply bind_ok in H as [ms [_ H]]. injection H as <- _. constructor; [exact Hm|constructor]. }
  assert (HR := Forall_rev HF). rewrite Er in HR. inversion HR as [|? ? HL HB]; subst.
  destruct (forallb _ _); [injection H as <- _; exact HF|].
  apply bind_ok in H as [[fl|] [Hmg H]].
  - injection H as <- _. cbn [f_list]. destruct (find (@is_hxz S) (m_list m)) as [g|] eqn:Ef; [|discriminate].
    destruct (zmem _ _); [|discriminate]. apply bind_ok in Hmg as [[l' b'] [Hr Hmg]]. destruct b'; [|discriminate].
    injection Hmg as <-. apply Forall_app. split; [apply Forall_rev; exact HB|]. constructor; [|constructor].
    intros o Ho Hmo. cbn [set_list m_list m_operations] in *. apply HL; [|exact Hmo].
    unfold replace_igate in Hr. apply bind_ok in Hr as [[[g' i]|] [_ Hr]]; [|discriminate].
    destruct (is_igate g'); [|discriminate]. injection Hr as <-. apply in_upd in Ho as [->|Ho]; [|exact Ho].
    apply find_some in Ef as [_ Ef]. destruct g; discriminate.
  - apply bind_ok in H as [ms [_ H]]. injection H as <- _. apply append_kept; assumption.
Qed.

Lemma step_kept : forall (c : circuit) k, Forall ops_kept (f_list (c_flow c)) -> Forall ops_kept (f_list (c_flow (step c k))).
Proof.
  intros c k H. unfold step. destruct (api c k) as [[c' b]|e] eqn:Ea; [|exact H].
  assert (A : forall f f' m b, populate_opflow f (mk_moment m f') = Ok b -> Forall ops_kept (f_list f) -> Forall ops_kept (f_list (fst b))).
  { intros f f' m [f2 b2] Hp HF. eapply populate_kept; [exact Hp|exact HF|]. intros o Ho _. exact Ho. }
  assert (AM : forall q g r, add_moment c q g = Ok r -> Forall ops_kept (f_list (c_flow (fst r)))).
  { intros q g r X. unfold add_moment in X. apply bind_ok in X as [data [_ X]]. apply bind_ok in X as [[f b0] [Hp X]].
    injection X as <-. exact (A _ _ _ _ Hp H). }
  destruct k; cbn [api] in Ea.
  - apply bind_ok in Ea as [? [_ Ea]]. apply bind_ok in Ea as [? [_ Ea]]. exact (AM _ _ _ Ea).
  - apply bind_ok in Ea as [? [_ Ea]]. apply bind_ok in Ea as [? [_ Ea]]. exact (AM _ _ _ Ea).
  - apply bind_ok in Ea as [? [_ Ea]]. apply bind_ok in Ea as [? [_ Ea]]. exact (AM _ _ _ Ea).
  - apply bind_ok in Ea as [? [_ Ea]]. apply bind_ok in Ea as [? [_ Ea]]. exact (AM _ _ _ Ea).
  - apply bind_ok in Ea as [g [_ Ea]]. destruct g; try discriminate.
    apply bind_ok in Ea as [[c2 b2] [Ea X]]. injection X as <- _. exact (AM _ _ _ Ea).
  - apply bind_ok in Ea as [? [_ Ea]]. apply bind_ok in Ea as [? [_ Ea]]. exact (AM _ _ _ Ea).
  - discriminate.
  - apply bind_ok in Ea as [[f b2] [Hp X]]. injection X as <- _. exact (A _ _ _ _ Hp H).
Qed.

Lemma history_kept : forall q init out ks (c : circuit), history q init out ks c -> Forall ops_kept (f_list (c_flow c)).
Proof.
  intros q init out ks c [c0 [H ->]].
  assert (H0 : Forall ops_kept (f_list (c_flow c0))).
  { unfold mk_circuit in H. apply bind_ok in H as [[len dims] [_ H]]. apply bind_ok in H as [f [H1 H]]. injection H as <-.
    unfold initialize_states in H1. apply bind_ok in H1 as [gs [_ H1]]. apply bind_ok in H1 as [[f' b] [Hp H1]].
    injection H1 as <-. eapply populate_kept; [exact Hp|constructor|]. intros o Ho _. exact Ho. }
  clear H. revert c0 H0. induction ks as [|k ks IH]; intros c0 H0; [exact H0|]. apply (IH (step c0 k)). apply step_kept; exact H0.
Qed.

Lemma last_measures : forall q init out ks (c : circuit), history q init out ks c -> (0 < nregs q)%nat -> In CMeasureAll ks ->
  exists fl m o, f_list (c_flow c) = fl ++ [m] /\ In o (m_operations m) /\ is_meas o = true.
Proof.
  intros q init out ks c H Hn Hm. destruct (history_inv H) as [l0 [ls I]].
  assert (E : existsb (@is_measure_all S) ks = true) by (apply existsb_exists; exists CMeasureAll; auto).
  rewrite E, (proj2 (Nat.ltb_lt _ _) Hn) in I. cbn [andb] in I. pose proof (i_list I) as El. unfold layers in El.
  change (l0 :: ls ++ [meas_layer S (nregs q)]) with ((l0 :: ls) ++ [meas_layer S (nregs q)]) in El.
  apply map_snoc_inv in El as [fl [m [E1 [_ E2]]]]. exists fl, m, (OMeas 0). split; [exact E1|]. split; [|reflexivity].
  pose proof (history_kept H) as K. rewrite E1 in K. apply Forall_app in K as [_ K]. inversion K as [|? ? K1 _]; subst.
  apply K1; [|reflexivity]. rewrite E2. unfold meas_layer. destruct (nregs q); [lia|]. left. reflexivity.
Qed.

Theorem weak_compare_measured : forall (B : backend S) q1 i1 o1 ks1 (c1 : circuit) q2 i2 o2 ks2 (c2 : circuit),
  history q1 i1 o1 ks1 c1 -> (0 < nregs q1)%nat -> In CMeasureAll ks1 ->
  history q2 i2 o2 ks2 c2 -> (0 < nregs q2)%nat -> In CMeasureAll ks2 ->
  length (f_list (c_flow c1)) <> length (f_list (c_flow c2)) -> weak_compare B c1 c2 <> Ok None.
Proof.
  intros B q1 i1 o1 ks1 c1 q2 i2 o2 ks2 c2 H1 N1 M1 H2 N2 M2 Hl E. unfold weak_compare in E.
  rewrite (proj2 (Nat.eqb_neq _ _) Hl) in E. cbn [negb] in E.
  destruct (last_measures H1 N1 M1) as [f1 [m1 [p1 [E1 [K1 P1]]]]]. destruct (last_measures H2 N2 M2) as [f2 [m2 [p2 [E2 [K2 P2]]]]].
  destruct (le_lt_dec (length (f_list (c_flow c1))) (length (f_list (c_flow c2)))) as [Hle|Hlt].
  - rewrite E1 in Hle, E. destruct (@combine_last1 _ _ f1 m1 _ Hle) as [y Hy].
    destruct (compare_none _ _ _ E _ _ Hy) as [r1 [r2 [X _]]]. exact (repr_meas B m1 _ K1 P1 X).
  - rewrite E2 in Hlt, E. destruct (@combine_last2 _ _ (f_list (c_flow c1)) f2 m2 ltac:(lia)) as [y Hy].
    destruct (compare_none _ _ _ E _ _ Hy) as [r1 [r2 [_ X]]]. exact (repr_meas B m2 _ K2 P2 X).
Qed.

Lemma class_name_eqb : forall o o' : op, String.eqb (class_name o) (class_name o') = same_class o o'.
Proof. intros [] []; reflexivity. Qed.

Lemma repr_look : forall (B : backend S) m1 m2 r1 r2, moment_to_repr B m1 = Ok r1 -> moment_to_repr B m2 = Ok r2 ->
  (reprs_eqb r1 r2 = true <-> same_look B m1 m2).
Proof.
  intros B m1 m2 r1 r2 H1 H2. unfold moment_to_repr, same_look in *. revert r1 r2 H1 H2.
  generalize (m_operations m2). generalize (m_operations m1). clear m1 m2.
  intros l1; induction l1 as [|o1 l1 IH]; intros [|o2 l2] r1 r2 H1 H2; cbn [mapM] in H1, H2.
  - injection H1 as <-. injection H2 as <-. split; [constructor | reflexivity].
  - injection H1 as <-. apply bind_ok in H2 as [x [_ H2]]. apply bind_ok in H2 as [y [_ H2]]. injection H2 as <-.
    split; [discriminate | intros X; inversion X].
  - injection H2 as <-. apply bind_ok in H1 as [x [_ H1]]. apply bind_ok in H1 as [y [_ H1]]. injection H1 as <-.
    split; [discriminate | intros X; inversion X].
  - apply bind_ok in H1 as [x1 [E1 H1]]. apply bind_ok in H1 as [y1 [F1 H1]]. injection H1 as <-.
    apply bind_ok in H2 as [x2 [E2 H2]]. apply bind_ok in H2 as [y2 [F2 H2]]. injection H2 as <-.
    destruct (is_meas o1); [discriminate|]. destruct (is_meas o2); [discriminate|].
    apply bind_ok in E1 as [u1 [U1 E1]]. injection E1 as <-. apply bind_ok in E2 as [u2 [U2 E2]]. injection E2 as <-.
    cbn [reprs_eqb]. unfold repr_eqb. cbn [fst snd]. rewrite class_name_eqb.
    rewrite !andb_true_iff, !Nat.eqb_eq, (IH _ _ _ F1 F2). split.
    + intros [[[X1 X2] X3] X4]. constructor; [|exact X4]. split; [exact X1|]. exists u1, u2. auto.
    + intros X. inversion X as [|? ? ? ? [X1 [v1 [v2 [V1 [V2 [V3 V4]]]]]] X2]; subst.
      rewrite U1 in V1. rewrite U2 in V2. injection V1 as <-. injection V2 as <-. auto.
Qed.

Lemma compare_first : forall (B : backend S) l i j m1 m2, compare_from B i l = Ok (Some (j, (m1, m2))) ->
  (i <= j)%nat /\ nth_error l (j - i) = Some (m1, m2) /\ ~ same_look B m1 m2 /\
  forall k m1' m2', (k < j - i)%nat -> nth_error l k = Some (m1', m2') -> same_look B m1' m2'.
Proof.
  intros B l; induction l as [|[a1 a2] l IH]; intros i j m1 m2 H; [discriminate|]. cbn [compare_from] in H.
  apply bind_ok in H as [r1 [E1 H]]. apply bind_ok in H as [r2 [E2 H]].
  pose proof (repr_look B _ _ E1 E2) as X. destruct (reprs_eqb r1 r2) eqn:Er.
  - destruct (IH _ _ _ _ H) as [I1 [I2 [I3 I4]]]. split; [lia|].
    replace (j - i)%nat with (Datatypes.S (j - Datatypes.S i)) by lia. split; [exact I2|]. split; [exact I3|].
    intros [|k] m1' m2' Hk Hn; [injection Hn as <- <-; apply X; reflexivity|]. apply (I4 k); [lia | exact Hn].
  - injection H as <- <- <-. split; [apply le_n|]. rewrite Nat.sub_diag. split; [reflexivity|].
    split; [intros Y; apply X in Y; discriminate|]. intros k ? ? Hk. lia.
Qed.

Lemma nth_error_combine : forall A B (l1 : list A) (l2 : list B) i a b,
  nth_error (combine l1 l2) i = Some (a, b) <-> nth_error l1 i = Some a /\ nth_error l2 i = Some b.
Proof.
  intros A B l1; induction l1 as [|x l1 IH]; intros [|y l2] [|i] a b; simpl; split; intros H; try discriminate;
    try (destruct H; discriminate); try (apply IH; exact H).
  - injection H as <- <-. auto.
  - destruct H as [H1 H2]. injection H1 as <-. injection H2 as <-. reflexivity.
Qed.

Theorem weak_compare_first : forall (B : backend S) (c1 c2 : circuit) i m1 m2,
  weak_compare B c1 c2 = Ok (Some (i, (m1, m2))) ->
  nth_error (f_list (c_flow c1)) i = Some m1 /\ nth_error (f_list (c_flow c2)) i = Some m2 /\ ~ same_look B m1 m2 /\
  forall j m1' m2', (j < i)%nat -> nth_error (f_list (c_flow c1)) j = Some m1' -> nth_error (f_list (c_flow c2)) j = Some m2' ->
    same_look B m1' m2'.
Proof.
  intros B c1 c2 i m1 m2 H. unfold weak_compare in H. destruct (negb _); [|discriminate].
  apply compare_first in H as [_ [H1 [H2 H3]]]. rewrite Nat.sub_0_r in *. apply nth_error_combine in H1 as [H1 H1'].
  split; [exact H1|]. split; [exact H1'|]. split; [exact H2|]. intros j m1' m2' Hj N1 N2.
  apply (H3 j); [exact Hj|]. apply nth_error_combine. auto.
Qed.
End InfoLib.
