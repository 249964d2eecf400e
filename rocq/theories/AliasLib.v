(** * AliasLib: circuits that share lists with the caller. *)
From Coq Require Import String.
From Verif Require Import Py Scalar Mat Utils Gates Circuit Spec Calls Lib Kern GateMat GateTof Flow Layers Blocks Refine Run
  Convert Alias AliasSpec.
Set Implicit Arguments.
Local Notation length := List.length.

(** ** Register list *)
Lemma position_lin : forall dims s, valid dims s -> position s (all_configs dims) = lin dims s.
Proof.
  assert (G : forall l s k, In s l -> NoDup l -> nth_error l k = Some s -> position s l = k).
  { induction l as [|x l IH]; intros s k Hin Hnd Hk; [contradiction|]. inversion Hnd as [|y l' Hx Hl]; subst. simpl.
    destruct (config_eqb x s) eqn:E.
    - apply config_eqb_eq in E. subst x. destruct k as [|k]; [reflexivity|]. simpl in Hk. apply nth_error_In in Hk. contradiction.
    - apply config_eqb_neq in E. destruct k as [|k]; simpl in Hk; [congruence|]. f_equal. apply IH; auto.
      destruct Hin as [->|Hin]; [contradiction | exact Hin]. }
  intros dims s Hs. apply G.
  - apply in_all_configs, Hs.
  - apply (NoDup_map_inv (lin dims)). rewrite lin_all_configs. apply seq_NoDup.
  - pose proof (lin_all_configs dims) as E.
    assert (Hlt : lin dims s < length (all_configs dims)).
    { rewrite <- (map_length (lin dims)), E, seq_length. apply lin_lt, Hs. }
    refine (eq_trans (nth_error_nth' (all_configs dims) [] Hlt) _). f_equal.
    assert (Hin : In (nth (lin dims s) (all_configs dims) []) (all_configs dims)) by (apply nth_In, Hlt).
    apply in_all_configs in Hin. eapply lin_inj; [exact Hin | exact Hs|].
    rewrite <- (map_nth (lin dims)), E, (nth_indep _ _ 0) by (rewrite seq_length; apply lin_lt, Hs).
    rewrite seq_nth by (apply lin_lt, Hs). reflexivity.
Qed.

Lemma nth_error_lin : forall dims k, k < prodn dims -> exists s, valid dims s /\ lin dims s = k /\ nth_error (all_configs dims) k = Some s.
Proof.
  intros dims k Hk. pose proof (lin_all_configs dims) as E.
  assert (Hlt : k < length (all_configs dims)) by (rewrite <- (map_length (lin dims)), E, seq_length; exact Hk).
  exists (nth k (all_configs dims) []). split; [|split].
  - apply in_all_configs, nth_In, Hlt.
  - rewrite <- (map_nth (lin dims)), E, (nth_indep _ _ 0) by (rewrite seq_length; exact Hk). apply seq_nth, Hk.
  - apply nth_error_nth', Hlt.
Qed.

Lemma zprod_nat : forall l, zprod (map Z.of_nat l) = Z.of_nat (prodn l).
Proof. induction l as [|x l IH]; [reflexivity|]. cbn [map zprod]. rewrite prodn_cons, IH, Nat2Z.inj_mul. reflexivity. Qed.

Section AliasLib.
Variable S : scalar.
Hypothesis L : scalar_laws S.
Add Ring Sring : (sl_ring L).
Notation op := (op S).
Notation NB := (NumpyBackend S).
Notation block := (block S).
Notation circuit := (circuit S).
Notation moment := (moment S).
Notation call := (call S).
Notation kapply := (kapply S).

Lemma labelled_renamed : forall dims dims' ty me psi, (forall d, In d dims' -> 0 < d) ->
  labelled S dims {| o_base := map Z.of_nat dims'; o_type := ty; o_method := me |} (answer dims psi)
  = match rename_all S dims dims' (answer dims psi) with
    | Some l => Ok (report ty me l)
    | None => Err IndexError
    end.
Proof.
  intros dims dims' ty me psi Hpos. unfold labelled, rename_all. cbn [o_base o_type o_method].
  assert (G : forall s a, In (s, a) (answer dims psi) -> valid dims s).
  { intros s a H. apply in_map_iff in H as [s' [E H]]. injection E as -> _. apply filter_In in H as [H _]. apply in_all_configs, H. }
  induction (answer dims psi) as [|[s a] l IH]; [reflexivity|]. cbn [mapM map].
  specialize (IH (fun s' a' H => G s' a' (or_intror H))). specialize (G s a (or_introl eq_refl)).
  unfold renamed at 1. rewrite (position_lin G).
  destruct (Nat.ltb_spec (lin dims s) (prodn dims')) as [Hlt|Hge].
  - destruct (nth_error_lin _ Hlt) as [s' [Hs' [El En]]]. rewrite En, <- El, (Nbase_to_bin_lin Hs'). cbn [bind].
    rewrite IH. cbn [option_map all_or_none]. destruct (all_or_none _) as [l'|]; cbn [option_map bind]; [|reflexivity].
    rewrite mk_label_shown. reflexivity.
  - rewrite nbase_big.
    + cbn [bind]. rewrite (proj2 (nth_error_None _ _)); [reflexivity|].
      rewrite <- (map_length (lin dims')), lin_all_configs, seq_length. exact Hge.
    + intros b Hb. apply in_map_iff in Hb as [d [<- Hd]]. specialize (Hpos d Hd). lia.
    + right. rewrite zprod_nat. lia.
Qed.

Theorem simulate_edited_correct : forall dims levels ks prog dims',
  dims <> [] -> (forall d, In d dims -> 2 <= d) -> length levels <= length dims -> valid dims (start dims levels) ->
  Forall2 (denotes dims) ks prog -> Forall (gate_ok dims) prog -> (forall d, In d dims' -> 0 < d) ->
  simulate_edited NB (map Z.of_nat dims) (Some (map Z.of_nat levels)) ks (map Z.of_nat dims')
  = match rename_all S dims dims' (answer dims (final dims prog (basis S (start dims levels)))) with
    | Some l => Ok (report OutPrint OutAmplitude l)
    | None => Err IndexError
    end.
Proof.
  intros dims levels ks prog dims' Hne Hd Hlen Hv HF Hok Hpos'.
  assert (Hpos : forall d, In d dims -> 0 < d) by (intros d H; specialize (Hd d H); lia).
  destruct (@mk_circuit_good S dims levels None Hd Hlen Hv) as [c0 [E0 [Hg0 Eo0]]].
  unfold simulate_edited. rewrite E0. cbn [bind]. rewrite script_app.
  destruct (script_good L Hne Hpos HF Hok Hg0) as [c1 [bss1 [E1 [Hg1 [Eo1 Ev1]]]]].
  rewrite E1. cbn [bind script].
  destruct (measure_all_good Hne Hg1) as [c2 [before [last [mm [E2 [Eo2 _]]]]]].
  rewrite E2. cbn [bind].
  (* the same circuit with another Output *)
  set (o := {| o_base := map Z.of_nat dims'; o_type := OutPrint; o_method := OutAmplitude |}).
  set (c1' := {| c_qregs := c_qregs c1; c_init := c_init c1; c_len := c_len c1; c_dims := c_dims c1; c_out := o; c_flow := c_flow c1 |}).
  assert (Hg1' : good dims (start dims levels) bss1 c1').
  { destruct Hg1 as [[A1 A2 A3] B C]. constructor; [constructor|..]; assumption. }
  destruct (run_any L Hne Hpos Hv Hg1') as [c2' [E2' Er]].
  assert (Ef : c_flow c2' = c_flow c2).
  { cbn [api c_len c_flow c1'] in E2, E2'. unfold c1' in E2'. cbn [c_len c_flow] in E2'.
    apply bind_ok in E2 as [[f1 b1] [P1 Q1]]. apply bind_ok in E2' as [[f2 b2] [P2 Q2]].
    injection Q1 as <-. injection Q2 as <-. cbn [set_flow c_flow]. rewrite P1 in P2. congruence. }
  assert (Eo : c_out c2' = o).
  { unfold c1' in E2'. cbn [api c_len c_flow] in E2'. apply bind_ok in E2' as [[f2 b2] [P2 Q2]]. injection Q2 as <-. reflexivity. }
  transitivity (run NB c2').
  - unfold run. rewrite Ef. cbn [edit_regs c_flow c_out]. rewrite Eo, Eo2, Eo1, Eo0. reflexivity.
  - rewrite Er. unfold c1'. cbn [c_out]. unfold o. rewrite labelled_renamed by exact Hpos'.
    rewrite (answer_ext S _ _ (fun s Hs => Ev1 _ s Hs)). reflexivity.
Qed.

(** ** Looking through the last layer *)
Lemma get_qreg_some : forall (ops : list op) q k,
  (forall o, In o ops -> is_ok (acting_members o) = true) ->
  (exists o a, In o ops /\ acting_members o = Ok a /\ zmem q a = true) ->
  exists l1 o l2 a, ops = l1 ++ o :: l2 /\ acting_members o = Ok a /\ zmem q a = true /\
    get_qreg_moment_from k ops q = Ok (Some (o, k + length l1)).
Proof.
  induction ops as [|g gs IH]; intros q k Hok [o [a [Hin [Ha Hz]]]]; [contradiction|]. cbn [get_qreg_moment_from].
  pose proof (Hok g (or_introl eq_refl)) as Hg. destruct (acting_members g) as [ag|e] eqn:Eg; [|discriminate]. cbn [bind].
  destruct (zmem q ag) eqn:Ez.
  - exists [], g, gs, ag. simpl. rewrite Nat.add_0_r. auto.
  - destruct Hin as [->|Hin]; [congruence|].
    destruct (IH q (Datatypes.S k)) as [l1 [o' [l2 [a' [-> [H1 [H2 H3]]]]]]].
    + intros o' Ho'. apply Hok. right; exact Ho'.
    + exists o, a. auto.
    + exists (g :: l1), o', l2, a'. split; [reflexivity|]. split; [exact H1|]. split; [exact H2|].
      rewrite H3. simpl. do 3 f_equal. lia.
Qed.

(** Offering a layer without measurements either appends it or puts its first
    h, x or z in the place of an identity on the same register. *)
Lemma populate_cases : forall f before last (m : moment),
  f_list f = before ++ [last] -> forallb (fun b => b) (f_meas f) = false ->
  forallb (fun o => negb (is_meas o)) (m_list m) = true ->
  (filter (@is_igate S) (m_list last) = [] \/ forall o, In o (m_list last) -> is_ok (acting_members o) = true) ->
  populate_opflow f m
  = Ok ({| f_list := before ++ [set_next (m_name m) last; set_prev (m_name last) m]; f_meas := f_meas f |}, true) \/
  exists g l1 o l2, find (@is_hxz S) (m_list m) = Some g /\ m_list last = l1 ++ o :: l2 /\
    is_igate o = true /\ qreg_of o = qreg_of g /\
    populate_opflow f m = Ok ({| f_list := before ++ [set_list (l1 ++ g :: l2) last]; f_meas := f_meas f |}, true).
Proof.
  intros f before last m Ef Em Hnm Hacts.
  assert (Happ : (match find (@is_hxz S) (m_list m) with
          | None => Ok None
          | Some g =>
              if zmem (qreg_of g) (map (@qreg_of S) (filter (@is_igate S) (m_list last)))
              then '(l', b) <- replace_igate (m_list last) g (qreg_of g) ;;
                Ok (if b : bool then Some (rev (rev before) ++ [set_list l' last]) else None)
              else Ok None
          end) = Ok None ->
     populate_opflow f m
     = Ok ({| f_list := before ++ [set_next (m_name m) last; set_prev (m_name last) m]; f_meas := f_meas f |}, true)).
  { intros E. unfold populate_opflow. rewrite Ef, rev_unit, Em, E. cbn [bind].
    rewrite detect_none by exact Hnm. cbn [bind]. rewrite append_moment_snoc. reflexivity. }
  destruct (find (@is_hxz S) (m_list m)) as [g|] eqn:Efind; [|left; apply Happ; reflexivity].
  destruct (zmem (qreg_of g) (map (@qreg_of S) (filter (@is_igate S) (m_list last)))) eqn:Ez; [|left; apply Happ; reflexivity].
  destruct Hacts as [Hacts|Hacts]; [rewrite Hacts in Ez; discriminate|].
  pose proof Ez as Ez'. apply zmem_spec in Ez'. apply in_map_iff in Ez' as [o0 [Eq0 Ho0]]. apply filter_In in Ho0 as [Ho0 Hi0].
  destruct (@get_qreg_some (m_list last) (qreg_of g) 0 Hacts) as [l1 [o [l2 [a [El [Ha [Hz Eg]]]]]]].
  { exists o0, [qreg_of g]. split; [exact Ho0|]. destruct o0; try discriminate. simpl in *. subst. split; [reflexivity|].
    unfold zmem. simpl. rewrite Z.eqb_refl. reflexivity. }
  assert (Er : replace_igate (m_list last) g (qreg_of g) = if is_igate o then Ok (l1 ++ g :: l2, true) else Ok (m_list last, false)).
  { unfold replace_igate. rewrite Eg. cbn [bind]. rewrite Nat.add_0_l. destruct (is_igate o); [|reflexivity].
    rewrite El, upd_split. reflexivity. }
  destruct (is_igate o) eqn:Eo.
  - right. exists g, l1, o, l2. split; [reflexivity|]. split; [exact El|]. split; [exact Eo|]. split.
    + destruct o; try discriminate. simpl in Ha. injection Ha as <-. simpl. symmetry. apply (zmem_single _ _ Hz).
    + unfold populate_opflow. rewrite Ef, rev_unit, Em, Efind, Ez, Er. cbn [bind]. rewrite rev_involutive. reflexivity.
  - left. apply Happ. rewrite Er. reflexivity.
Qed.

(** ** Editing *)
Lemma app_inv_len : forall A (l1 m1 l2 m2 : list A), l1 ++ l2 = m1 ++ m2 -> length l1 = length m1 -> l1 = m1 /\ l2 = m2.
Proof.
  intros A l1; induction l1 as [|x l1 IH]; intros [|y m1] l2 m2 E H; try discriminate; [auto|].
  simpl in E. injection E as -> E. destruct (IH _ _ _ E) as [-> ->]; auto.
Qed.

Lemma mapi_app : forall A B (f : nat -> A -> B) l1 l2 k,
  mapi_from f k (l1 ++ l2) = mapi_from f k l1 ++ mapi_from f (k + length l1) l2.
Proof.
  intros A B f l1; induction l1 as [|x l1 IH]; intros l2 k; simpl; [rewrite Nat.add_0_r; reflexivity|].
  rewrite IH. do 3 f_equal. lia.
Qed.

Lemma mapi_length : forall A B (f : nat -> A -> B) l k, length (mapi_from f k l) = length l.
Proof. intros A B f l; induction l; intros k; simpl; auto. Qed.

Lemma mapi_id : forall A (f : nat -> A -> A) l k, (forall j x, In x l -> f j x = x) -> mapi_from f k l = l.
Proof.
  intros A f l; induction l as [|x l IH]; intros k H; simpl; [reflexivity|].
  rewrite (H k x (or_introl eq_refl)), IH; [reflexivity|]. intros j y Hy. apply H. right; exact Hy.
Qed.

Lemma mapi_mapi : forall A (f g h : nat -> A -> A) l k, (forall j x, f j (g j x) = h j x) ->
  mapi_from f k (mapi_from g k l) = mapi_from h k l.
Proof. intros A f g h l; induction l as [|x l IH]; intros k H; simpl; [reflexivity|]. rewrite H, IH by exact H. reflexivity. Qed.

Lemma retarget_twice : forall l l' (o : op), retarget l (retarget l' o) = retarget l o.
Proof. intros l l' o. destruct o; reflexivity. Qed.

Lemma retarget_ops_twice : forall marks l l' i (ops : list op),
  retarget_ops marks l i (retarget_ops marks l' i ops) = retarget_ops marks l i ops.
Proof.
  intros. unfold retarget_ops. apply mapi_mapi. intros j x. destruct (holds marks i j); [apply retarget_twice | reflexivity].
Qed.

Lemma retarget_ops_unmarked : forall marks l i (ops : list op), (forall m, In m marks -> fst m < i) -> retarget_ops marks l i ops = ops.
Proof.
  intros marks l i ops H. apply mapi_id. intros j x _. unfold holds.
  replace (existsb _ marks) with false; [reflexivity|]. symmetry. apply not_true_is_false. intros E.
  apply existsb_exists in E as [m [Hm E]]. apply andb_true_iff in E as [E _]. apply Nat.eqb_eq in E. specialize (H m Hm). lia.
Qed.

Lemma retarget_ops_other : forall marks l i (ops : list op), (forall o, In o ops -> is_cx o = false) -> retarget_ops marks l i ops = ops.
Proof.
  intros marks l i ops H. apply mapi_id. intros j x Hx. specialize (H x Hx). destruct (holds marks i j); [|reflexivity].
  destruct x; try reflexivity. discriminate.
Qed.

Lemma retarget_ops_put : forall marks l i l1 (x y : op) l2, is_cx x = false -> is_cx y = false ->
  forall m1 m2, length m1 = length l1 ->
  retarget_ops marks l i (l1 ++ x :: l2) = m1 ++ x :: m2 ->
  retarget_ops marks l i (l1 ++ y :: l2) = m1 ++ y :: m2.
Proof.
  intros marks l i l1 x y l2 Hx Hy m1 m2 Hl. unfold retarget_ops. rewrite !mapi_app. cbn [mapi_from]. intros E.
  apply app_inv_len in E as [E1 E2]; [|rewrite mapi_length; symmetry; exact Hl].
  rewrite E1. f_equal. cbn [Nat.add] in *. injection E2 as _ E2. rewrite E2. f_equal. destruct (holds _ _ _); [|reflexivity]. destruct y; try reflexivity. discriminate.
Qed.

End AliasLib.
