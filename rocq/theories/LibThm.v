(** * LibThm: gate() given one of the gate classes of the library. *)
From Verif Require Import Py Scalar Mat Utils Gates Circuit Spec Calls HistSpec CallSpec InfoSpec ShapeSpec LibGates LibSpec.
From Coq Require FinFun.
From Verif Require Import Lib Kern GateMat GateTof Flow Layers Blocks Refine History Merge Errors Construct Ignored BadGates Reject Shapes Relate.
Set Implicit Arguments.
Local Notation length := List.length.

Section LibThm.
Variable S : scalar.
Notation op := (op S).
Notation circuit := (circuit S).
Notation call := (call S).
Notation NB := (NumpyBackend S).

(** The call that adds a layer of identities: a register before the first. *)
Definition skip : call := CH (-1) None.

Section Shaped.
Variables (dims : list nat) (c : circuit).
Hypothesis Hs : shaped dims c.

Lemma int_same : forall q r (g : op), (q < 0)%Z -> r < length dims ->
  moment_data c (RInt q) g = moment_data c (RInt (Z.of_nat r)) (OI (Z.of_nat r) (Z.of_nat (nth r dims 0))).
Proof.
  intros q r g Hq Hr. rewrite !(moment_data_int _ _ (shaped_len_ok Hs)). f_equal. unfold layer_int.
  apply map_ext_in. intros i Hi. destruct (Z.eqb_spec (Z.of_nat i) q) as [E|E]; [lia|].
  destruct (Z.eqb_spec (Z.of_nat i) (Z.of_nat r)) as [E'|E']; [|reflexivity].
  apply Nat2Z.inj in E' as ->. unfold idop. rewrite (sh_dims Hs), nth_map_Z. reflexivity.
Qed.

Lemma add_idle : forall r, r < length dims ->
  add_moment c (RInt (Z.of_nat r)) (OI (Z.of_nat r) (Z.of_nat (nth r dims 0))) = api c skip.
Proof.
  intros r Hr. unfold skip. cbn [api]. unfold validate1. rewrite (sh_len Hs).
  destruct (Z.ltb_spec (Z.of_nat (length dims) - 1) (-1)); [lia|]. cbn [bind]. unfold dims_or.
  assert (G : exists d, py_get (c_dims c) (-1) = Ok d).
  { rewrite (sh_dims Hs). unfold py_get, py_index. rewrite map_length.
    destruct (Z.leb_spec 0 (-1)); [lia|]. cbn [andb].
    rewrite (proj2 (Z.leb_le (- Z.of_nat (length dims)) (-1))) by lia. cbn [andb Z.ltb Z.compare].
    destruct (nth_error _ _) eqn:E; [eauto|]. apply nth_error_None in E. rewrite map_length in E. lia. }
  destruct G as [d ->]. cbn [bind]. unfold add_moment. rewrite (@int_same (-1) r (OH (-1) d) ltac:(lia) Hr). reflexivity.
Qed.

Lemma lib_idle : forall r dm, r < length dims -> dflt dims r dm ->
  lib_gate c KlassI (Z.of_nat r) dm = api c skip.
Proof.
  intros r dm Hr Hd. unfold lib_gate. rewrite (validate1_ok Hs Hr Hd), (dims_or_ok Hs Hr Hd). cbn [bind construct].
  apply add_idle; exact Hr.
Qed.

(** A register before the first. *)
Lemma lib_neg : forall q dm, (q < 0)%Z -> lib_gate c KlassI q dm = api c (CH q dm).
Proof.
  intros q dm Hq. unfold lib_gate. cbn [api construct]. destruct (validate1 c q dm); [|reflexivity]. cbn [bind].
  destruct (dims_or c dm q) as [d|]; [|reflexivity]. cbn [bind]. unfold add_moment.
  rewrite !(moment_data_int _ _ (shaped_len_ok Hs)). cbn [bind].
  replace (layer_int (c_dims c) q (OI q d : op) (length (c_dims c))) with (layer_int (c_dims c) q (OH q d : op) (length (c_dims c))); [reflexivity|].
  unfold layer_int. apply map_ext_in. intros i _. destruct (Z.eqb_spec (Z.of_nat i) q); [lia | reflexivity].
Qed.
End Shaped.

Lemma lib_bad : forall (c : circuit) k q dm, ~ In k [KlassH; KlassZ; KlassI] ->
  lib_gate c k q dm = (_ <- validate1 c q dm ;; _ <- dims_or c dm q ;; Err TypeError).
Proof.
  intros c k q dm Hk. unfold lib_gate. destruct (validate1 c q dm); [|reflexivity]. cbn [bind].
  destruct (dims_or c dm q) as [d|]; [|reflexivity]. cbn [bind].
  destruct k; cbn [construct bind]; try reflexivity; exfalso; apply Hk; simpl; tauto.
Qed.

(** ** Programs *)
Variable dims : list nat.
Variables (init : option (list Z)) (out : option output).
Notation hist := (history (QList (map Z.of_nat dims)) init out).

Lemma hist_step : forall ks (c : circuit) k, hist ks c -> hist (ks ++ [k]) (step c k).
Proof.
  intros ks c k [c0 [E ->]]. exists c0. split; [exact E|]. unfold after. rewrite fold_left_app. reflexivity.
Qed.

Lemma after_cons : forall (c : circuit) k ms, after_mixed c (k :: ms) = after_mixed (mixed_step c k) ms.
Proof. reflexivity. Qed.

Lemma after_own : forall ks (c : circuit), after_mixed c (map (@Own S) ks) = after c ks.
Proof. induction ks as [|k ks IH]; intros c; [reflexivity|]. cbn [map]. rewrite after_cons, IH. reflexivity. Qed.

Lemma mixes_reads : forall ms prog, mixes dims ms prog -> forall ks (c : circuit), hist ks c ->
  exists ks', reads dims ks' prog /\ after_mixed c ms = after c ks'.
Proof.
  intros ms prog H; induction H as [|k g ms prog Hd Hok H IH|k ms prog Hk H IH|r dm ms prog Hd Hok H IH|r dm ms prog Hd Hok H IH|r dm ms prog Hd Hr H IH|k q dm ms prog Hk H IH];
    intros ks c Hc; rewrite ?after_cons; unfold mixed_step; cbn [mixed_api].
  - exists []. split; [constructor | reflexivity].
  - destruct (IH _ _ (hist_step k Hc)) as [ks' [R E]]. exists (k :: ks'). split; [econstructor 2; eassumption | exact E].
  - destruct (IH _ _ (hist_step k Hc)) as [ks' [R E]]. exists (k :: ks'). split; [constructor 3; assumption | exact E].
  - destruct (IH _ _ (hist_step (CH (Z.of_nat r) dm) Hc)) as [ks' [R E]]. exists (CH (Z.of_nat r) dm :: ks').
    split; [econstructor 2; [constructor; exact Hd | exact Hok | exact R] | exact E].
  - destruct (IH _ _ (hist_step (CZ (Z.of_nat r) dm) Hc)) as [ks' [R E]]. exists (CZ (Z.of_nat r) dm :: ks').
    split; [econstructor 2; [constructor; exact Hd | exact Hok | exact R] | exact E].
  - destruct (IH _ _ (hist_step skip Hc)) as [ks' [R E]]. exists (skip :: ks'). split.
    + constructor 3; [|exact R]. apply sk_one with (r := (-1)%Z) (dm := None); [split; reflexivity | left; lia].
    + rewrite (lib_idle (hl_shaped dims Hc) Hr Hd). exact E.
  - destruct (IH _ _ Hc) as [ks' [R E]]. exists ks'. split; [exact R|]. rewrite (lib_bad c _ _ Hk).
    destruct (validate1 c q dm); cbn [bind]; [destruct (dims_or c dm q); cbn [bind]|]; exact E.
Qed.

Lemma idle_layers : forall ks (c : circuit) r dm, hist ks c -> ~ In CMeasureAll ks -> r < length dims -> dflt dims r dm ->
  exists fl, lib_gate c KlassI (Z.of_nat r) dm = Ok (set_flow c {| f_list := fl; f_meas := f_meas (c_flow c) |}, true) /\
    map (@m_list S) fl = layers c ++ [map (fun i => OI (Z.of_nat i) (Z.of_nat (nth i dims O))) (seq 0 (length dims))].
Proof.
  intros ks c r dm Hc Hm Hr Hd. pose proof (hl_shaped dims Hc) as Hs.
  destruct (history_inv Hc) as [l0 [ls I]]. rewrite (hl_nregs dims) in I. replace (_ && _) with false in I.
  2:{ symmetry. destruct (existsb _ ks) eqn:E; [|apply andb_false_r]. apply measured_in in E. contradiction. }
  unfold lib_gate. rewrite (validate1_ok Hs Hr Hd), (dims_or_ok Hs Hr Hd). cbn [bind construct].
  unfold add_moment. rewrite (moment_data_int _ _ (shaped_len_ok Hs)). cbn [bind].
  assert (El : layer_int (c_dims c) (Z.of_nat r) (OI (Z.of_nat r) (Z.of_nat (nth r dims O)) : op) (length (c_dims c))
    = map (fun i => OI (Z.of_nat i) (Z.of_nat (nth i dims O))) (seq 0 (length dims))).
  { rewrite (sh_dims Hs), map_length. unfold layer_int. apply map_ext. intros i. unfold idop. rewrite nth_map_Z.
    destruct (Z.eqb_spec (Z.of_nat i) (Z.of_nat r)) as [E|E]; [apply Nat2Z.inj in E as ->|]; reflexivity. }
  rewrite El. set (w := map _ (seq 0 (length dims))).
  assert (Wi : forall o, In o w -> is_igate o = true) by (intros o Ho; apply in_map_iff in Ho as [i [<- _]]; reflexivity).
  unfold populate_opflow. pose proof (i_list I) as Ll. unfold layers in Ll.
  destruct (rev (f_list (c_flow c))) as [|last before] eqn:Er.
  { apply (f_equal (@rev _)) in Er. rewrite rev_involutive in Er. cbn in Er. rewrite Er in Ll. discriminate. }
  rewrite (i_meas I), all_false_meas by lia. cbn [mk_moment m_list].
  assert (Ef : find (@is_hxz S) w = None).
  { destruct (find _ _) as [g|] eqn:E; [|reflexivity]. apply find_some in E as [E1 E2]. apply Wi in E1. destruct g; discriminate. }
  rewrite Ef. cbn [bind]. rewrite detect_none.
  2:{ apply forallb_forall. intros o Ho. apply Wi in Ho. destruct o; try discriminate; reflexivity. }
  cbn [bind]. eexists. split; [reflexivity|]. rewrite layers_append. reflexivity.
Qed.

(** ** An identity of the wrong size *)
Section Wrong.
Variables (r : nat) (d : Z).
Hypothesis Hr : r < length dims.
Hypothesis Hd : (0 < d < Z.of_nat (nth r dims O))%Z.
Let q : Z := Z.of_nat r.
Let d0 : Z := Z.of_nat (nth r dims O).

Let R (o o' : op) : Prop := o = o' \/ o = OI q d /\ o' = OI q d0.
Let Rr : forall o, R o o.
Proof. left. reflexivity. Qed.
Let Ra : forall o o', R o o' -> alike o o'.
Proof. intros o o' [->|[-> ->]]; [apply alike_refl|]. unfold alike; simpl; repeat split; constructor; reflexivity. Qed.

Variables (ks : list call) (c : circuit).
Hypothesis Hc : hist ks c.

Lemma wrong_rel : res_rel (arel R) (lib_gate c KlassI q (Some d)) (api c skip).
Proof.
  pose proof (hl_shaped dims Hc) as Hs. rewrite <- (add_idle Hs Hr). unfold lib_gate, validate1, dims_or, q.
  rewrite (sh_len Hs), (sh_get Hs Hr). destruct (Z.ltb_spec (Z.of_nat (length dims) - 1) (Z.of_nat r)); [lia|].
  destruct (Z.eqb_spec d 0); [lia|]. cbn [bind]. destruct (Z.ltb_spec (Z.of_nat (nth r dims O)) d); [lia|]. cbn [bind construct].
  apply add_moment_rel; auto; [apply crel_refl; exact Rr | reflexivity | right; split; reflexivity].
Qed.

Let c1 : circuit := mixed_step c (Klass KlassI q (Some d)).

Lemma wrong_after : forall ks', crel R (after c1 ks') (after c (skip :: ks')).
Proof.
  intros ks'. change (after c (skip :: ks')) with (after (step c skip) ks'). apply after_rel; auto.
  - clear - Rr Ra. induction ks' as [|k ks' IH]; constructor; [apply call_rel_refl; assumption | exact IH].
  - unfold c1, mixed_step, step. cbn [mixed_api]. destruct wrong_rel as [[a b] [a' b'] [E _]|e]; [exact E | apply crel_refl; exact Rr].
Qed.

Lemma Forall2_imp_in : forall A B (P Q : A -> B -> Prop) l l', Forall2 P l l' ->
  (forall x y, In x l -> P x y -> Q x y) -> Forall2 Q l l'.
Proof.
  intros A B P Q l l' H; induction H; intros HQ; constructor; [apply HQ; [left; reflexivity | assumption]|].
  apply IHForall2. intros; apply HQ; [right; assumption | assumption].
Qed.

(** Once the wrong identity is replaced nothing is left of it. *)
Lemma wrong_filled : forall (B : backend S) ks', ~ holds_identity (after c1 ks') r d ->
  run B (after c1 ks') = run B (after c (skip :: ks')).
Proof.
  intros B ks' Hn. apply (@run_same S eq B); [congruence|].
  destruct (wrong_after ks') as [H1 H2 H3 H4 H5 H6]. constructor; auto.
  eapply Forall2_imp_in; [exact H6|]. intros m m' Hm [E1 [E2 [E3 E4]]]. repeat split; auto.
  eapply Forall2_imp_in; [exact E4|]. intros o o' Ho [E|[-> _]]; [exact E|]. exfalso. apply Hn. exists m. auto.
Qed.

(** ... and as long as it is there, run() raises. *)
Lemma Forall2_cons_r : forall A B (P : A -> B -> Prop) l y ys, Forall2 P l (y :: ys) -> exists x xs, l = x :: xs /\ P x y /\ Forall2 P xs ys.
Proof. intros A B P l y ys H. inversion H; subst. eauto. Qed.

Lemma rel_other : forall l l', Forall2 R l l' -> Forall (fun o => is_igate o = false) l' -> l = l'.
Proof.
  intros l l' H; induction H as [|x y l l' Hxy H IH]; intros HF; [reflexivity|]. inversion HF; subst.
  rewrite IH by assumption. destruct Hxy as [->|[_ ->]]; [reflexivity | discriminate].
Qed.

Lemma rel_registers : forall o o', R o o' -> registers o = registers o'.
Proof. intros o o' [->|[-> ->]]; reflexivity. Qed.

Lemma rel_occupies : forall n o o', R o o' -> occupies n o = occupies n o'.
Proof. intros n o o' H. unfold occupies, covers. rewrite (rel_registers H). reflexivity. Qed.

Lemma rel_tiles : forall n l l', Forall2 R l l' -> tiles n l' -> tiles n l.
Proof.
  intros n l l' H [T1 T2]. split.
  - rewrite <- T1. f_equal. clear T1 T2. induction H; [reflexivity|]. cbn [map]. rewrite (rel_occupies n H), IHForall2. reflexivity.
  - intros o Ho. clear T1. induction H as [|x y l l' Hxy H IH]; [contradiction|]. destruct Ho as [<-|Ho].
    + rewrite (rel_occupies n Hxy). apply T2. left. reflexivity.
    + apply IH; [intros; apply T2; right; assumption | exact Ho].
Qed.

Lemma layers_rel : forall x y, crel R x y -> Forall2 (Forall2 R) (layers x) (layers y).
Proof.
  intros x y [_ _ _ _ _ H]. unfold layers. induction H as [|m m' l l' [_ [_ [_ Hm]]] H IH]; constructor; assumption.
Qed.

Lemma linked_rel : forall l l' : list (moment S), Forall2 (mrel R) l l' -> linked l' -> linked l.
Proof.
  intros l l' H Hl i m Hm.
  assert (E : exists m', nth_error l' i = Some m' /\ mrel R m m').
  { clear Hl. revert i Hm. induction H as [|x y l l' Hxy H IH]; intros [|i] Hm; try discriminate; cbn in *; [injection Hm as <-; eauto | auto]. }
  destruct E as [m' [Em [E1 [E2 [E3 _]]]]]. destruct (Hl i m' Em) as [L1 [L2 L3]].
  assert (El : length l = length l') by (clear - H; induction H; simpl; congruence).
  rewrite E1, E2, E3, El. auto.
Qed.

Lemma inv_rel : forall n x y m l0 ls, crel R x y -> inv n y m l0 ls ->
  exists ls', inv n x m l0 ls' /\ Forall2 (Forall2 R) ls' ls.
Proof.
  intros n x y m l0 ls Hxy I. pose proof (layers_rel Hxy) as HL. rewrite (i_list I) in HL.
  apply Forall2_cons_r in HL as [a [b [Ex [Ha Hb]]]].
  assert (Ea : a = l0).
  { apply (rel_other Ha). apply Forall_forall. intros o Ho. pose proof (proj1 (i_m0 I)) as H0. rewrite forallb_forall in H0.
    specialize (H0 o Ho). destruct o; try discriminate; reflexivity. }
  apply Forall2_app_inv_r in Hb as [ls' [t [Hls [Ht ->]]]].
  assert (Et : t = if m then [meas_layer S n] else []).
  { destruct m; [|inversion Ht; reflexivity]. apply Forall2_cons_r in Ht as [t0 [t1 [-> [Ht0 Ht1]]]]. inversion Ht1; subst.
    f_equal. apply (rel_other Ht0). apply Forall_forall. intros o Ho. apply in_map_iff in Ho as [i [<- _]]. reflexivity. }
  subst a t. exists ls'. split; [|exact Hls]. destruct Hxy as [X1 X2 X3 X4 X5 X6]. constructor.
  - unfold len_ok. rewrite X2, X3. exact (i_len I).
  - rewrite X3. exact (i_dims I).
  - rewrite X5. exact (i_meas I).
  - exact Ex.
  - exact (i_pos I).
  - exact (i_m0 I).
  - pose proof (i_tile I) as T. clear - Hls T. induction Hls as [|l l' ls ls' H Hls IH]; [constructor|].
    inversion T; subst. constructor; [eapply rel_tiles; eassumption | auto].
  - pose proof (i_gates I) as T. clear - Hls T. induction Hls as [|l l' ls ls' H Hls IH]; [constructor|].
    inversion T as [|? ? T1 T2]; subst. constructor; [|auto]. clear - H T1. induction H as [|o o' l l' Ho H IH]; intros z Hz; [contradiction|].
    destruct Hz as [<-|Hz].
    + destruct Ho as [->|[-> _]]; [apply T1; left; reflexivity | reflexivity].
    + apply IH; [|exact Hz]. intros w Hw. apply T1. right. exact Hw.
  - intros Hn. pose proof (i_zero I Hn) as E. rewrite E in Hls. inversion Hls. reflexivity.
  - eapply linked_rel; [exact X6 | exact (i_link I)].
Qed.

(** A gate on the register that is called next takes the place. *)
Hypothesis Hm : ~ In CMeasureAll ks.

Let wrong_layer : list op := layer_int (map Z.of_nat dims) q (OI q d) (length dims).

Lemma wrong_layer_in : In (OI q d : op) wrong_layer.
Proof. apply in_map_iff. exists r. unfold q. rewrite Z.eqb_refl. split; [reflexivity | apply in_seq; lia]. Qed.

Lemma wrong_layer_regs : map (@qreg_of S) wrong_layer = map Z.of_nat (seq 0 (length dims)).
Proof.
  unfold wrong_layer, layer_int. rewrite map_map. apply map_ext. intros i. destruct (Z.eqb_spec (Z.of_nat i) q) as [E|E]; [symmetry; exact E | reflexivity].
Qed.

Lemma wrong_layer_igate : forall o, In o wrong_layer -> is_igate o = true.
Proof. intros o H. apply in_map_iff in H as [i [<- _]]. destruct (_ =? _)%Z; reflexivity. Qed.

Lemma unmeasured : exists l0 ls, inv (length dims) c false l0 ls /\ (forall o, In o (gate_ops ls) -> from_calls c (fun _ => True) o).
Proof.
  destruct (@history_full S (fun _ => True) _ _ _ _ _ Hc) as [l0 [ls [I F]]]; [apply Forall_forall; auto|].
  rewrite (hl_nregs dims) in I. replace (_ && _) with false in I; [eauto|]. symmetry.
  destruct (existsb _ ks) eqn:E; [|apply andb_false_r]. apply measured_in in E. contradiction.
Qed.

Lemma wrong_layers : exists fl, lib_gate c KlassI q (Some d) = Ok (set_flow c {| f_list := fl; f_meas := f_meas (c_flow c) |}, true) /\
  map (@m_list S) fl = layers c ++ [wrong_layer].
Proof.
  pose proof (hl_shaped dims Hc) as Hs. destruct unmeasured as [l0 [ls [I _]]].
  unfold lib_gate, validate1, dims_or. unfold q at 1. rewrite (sh_len Hs).
  destruct (Z.ltb_spec (Z.of_nat (length dims) - 1) (Z.of_nat r)); [lia|].
  destruct (Z.eqb_spec d 0); [lia|]. unfold q at 1. rewrite (sh_get Hs Hr). cbn [bind].
  destruct (Z.ltb_spec (Z.of_nat (nth r dims O)) d); [lia|]. cbn [bind construct].
  unfold add_moment. rewrite (moment_data_int _ _ (shaped_len_ok Hs)). cbn [bind].
  rewrite (sh_dims Hs), map_length. fold wrong_layer. unfold populate_opflow.
  pose proof (i_list I) as El. unfold layers in El.
  destruct (rev (f_list (c_flow c))) as [|last before] eqn:Er.
  { apply (f_equal (@rev _)) in Er. rewrite rev_involutive in Er. cbn in Er. rewrite Er in El. discriminate. }
  rewrite (i_meas I), all_false_meas by lia. cbn [mk_moment m_list].
  assert (Ef : find (@is_hxz S) wrong_layer = None).
  { destruct (find _ _) as [g|] eqn:E; [|reflexivity]. apply find_some in E as [E1 E2]. apply wrong_layer_igate in E1. destruct g; discriminate. }
  rewrite Ef. cbn [bind]. rewrite detect_none.
  2:{ apply forallb_forall. intros o Ho. apply wrong_layer_igate in Ho. destruct o; try discriminate; reflexivity. }
  cbn [bind]. eexists. split; [reflexivity|]. rewrite layers_append. reflexivity.
Qed.

Lemma wrong_holds : forall fl f, map (@m_list S) fl = layers c ++ [wrong_layer] -> holds_identity (set_flow c {| f_list := fl; f_meas := f |}) r d.
Proof.
  intros fl f El. assert (Hl : In wrong_layer (map (@m_list S) fl)) by (rewrite El; apply in_or_app; right; left; reflexivity).
  apply in_map_iff in Hl as [m [E Hin]]. exists m. split; [exact Hin|]. rewrite E. exact wrong_layer_in.
Qed.

Lemma two_places : forall A (f : A -> Z) l1 x l2 y, NoDup (map f (l1 ++ x :: l2)) -> In y (l1 ++ l2) -> f y <> f x.
Proof.
  intros A f l1 x l2 y H Hy E. rewrite map_app in H. cbn [map] in H. apply NoDup_remove_2 in H. apply H.
  rewrite <- map_app. rewrite <- E. apply in_map. exact Hy.
Qed.

Lemma wrong_replaced : forall k c2, may_share k q -> api c1 k = Ok (c2, true) ->
  forall ks', ~ holds_identity (after c2 ks') r d.
Proof.
  intros k c2 Hk E ks'. destruct wrong_layers as [fl [E1 El]].
  assert (Ec : c1 = set_flow c {| f_list := fl; f_meas := f_meas (c_flow c) |}).
  { unfold c1, mixed_step. cbn [mixed_api]. rewrite E1. reflexivity. }
  destruct unmeasured as [l0 [ls [I F]]].
  assert (I1 : exists ls1, inv (length dims) c1 false l0 ls1).
  { pose proof (wrong_after []) as W. cbn [after fold_left] in W.
    assert (Hh : hist (ks ++ [skip]) (step c skip)) by (apply hist_step; exact Hc).
    destruct (@step_full S (fun _ => True) _ c _ _ _ skip I Coq.Init.Logic.I F) as [ls2 [I2 _]]. cbn [is_measure_all skip] in I2.
    rewrite andb_false_r in I2. destruct (inv_rel W I2) as [ls1 [I3 _]]. eauto. }
  destruct I1 as [ls1 I1].
  assert (E2 : ls1 = ls ++ [wrong_layer]).
  { pose proof (i_list I1) as X. pose proof (i_list I) as Y. rewrite !app_nil_r in X, Y.
    assert (Z : layers c1 = layers c ++ [wrong_layer]) by (rewrite Ec; exact El).
    rewrite X, Y in Z. injection Z as Z. exact Z. }
  assert (Hk' : k <> CMeasureAll) by (intros ->; contradiction).
  destruct (inv_gate I1 Hk' E) as [[[X|X] _]|[_ [_ [_ [g [lo [hi [ls' [Hi [Hrg [Had [I2 [f Ef]]]]]]]]]]]]]; [discriminate | lia |].
  assert (G : is_hxz g = true /\ qreg_of g = q).
  { clear - Hi Hk. destruct Hi; simpl in Hk; try contradiction; subst; split; reflexivity. }
  destruct G as [G1 G2].
  assert (F2 : forall o, In o (gate_ops ls') -> from_calls c2 (fun _ => True) o).
  { intros o Ho. rewrite Ef. eapply from_layout; [apply set_flow_layout|]. destruct Had as [_ Hno | lsb l1 dd l2 _ EL1 EL2 _].
    - exfalso. rewrite G2 in Hno. apply (Hno G1 ltac:(unfold q; lia) ls wrong_layer E2 d). exact wrong_layer_in.
    - rewrite E2 in EL1. apply app_inj_tail in EL1 as [<- EW]. rewrite EL2 in Ho. unfold gate_ops in Ho.
      rewrite concat_app in Ho. cbn [concat] in Ho. rewrite app_nil_r in Ho.
      assert (SL : same_layout c c1) by (rewrite Ec; apply set_flow_layout).
      apply in_app_or in Ho as [Ho|Ho]; [eapply from_layout; [exact SL | apply F; exact Ho]|].
      assert (Ho' : o = g \/ In o (l1 ++ l2)).
      { apply in_app_or in Ho as [Ho|[Ho|Ho]]; [right; apply in_or_app; auto | left; auto | right; apply in_or_app; auto]. }
      destruct Ho' as [->|Ho']; [right; exists k; auto|]. left.
      assert (N : NoDup (map (@qreg_of S) (l1 ++ OI (qreg_of g) dd :: l2))).
      { rewrite <- EW, wrong_layer_regs. apply FinFun.Injective_map_NoDup; [exact Nat2Z.inj | apply seq_NoDup]. }
      pose proof (@two_places _ (@qreg_of S) _ _ _ o N Ho') as Nq. cbn [qreg_of] in Nq. rewrite G2 in Nq.
      assert (Hw : In o wrong_layer).
      { rewrite EW. apply in_app_or in Ho' as [Ho'|Ho']; apply in_or_app; [auto | right; right; exact Ho']. }
      apply in_map_iff in Hw as [i [Eo Hin]]. apply in_seq in Hin. rewrite Ec. cbn [set_flow c_dims]. rewrite (sh_dims (hl_shaped dims Hc)), map_length.
      exists i. split; [lia|]. destruct (Z.eqb_spec (Z.of_nat i) q) as [X|X]; [|symmetry; exact Eo].
      exfalso. apply Nq. rewrite <- Eo. reflexivity. }
  destruct (@after_full S (fun _ => True) _ ks' _ _ _ _ I2 ltac:(apply Forall_forall; auto) F2) as [ls3 [I3 [SL [F3 _]]]].
  intros [m0 [Hm0 Hin]].
  assert (Hl : In (m_list m0) (layers (after c2 ks'))) by (apply in_map; exact Hm0).
  rewrite (i_list I3) in Hl. destruct Hl as [Hl|Hl].
  - pose proof (proj1 (i_m0 I3)) as H0. rewrite forallb_forall in H0. rewrite Hl in H0. specialize (H0 _ Hin). discriminate.
  - apply in_app_or in Hl as [Hl|Hl].
    + destruct (F3 (OI (Z.of_nat r) d)) as [[i [Hi' X]]|[k' [_ X]]]; [apply in_concat; eauto | |inversion X].
      unfold idop in X. injection X as X1 X2. apply Nat2Z.inj in X1 as <-.
      assert (Edims : c_dims (after c2 ks') = map Z.of_nat dims).
      { destruct SL as [S1 [S2 [S3 S4]]]. rewrite Ef, Ec in *. pose proof (sh_dims (hl_shaped dims Hc)) as Y. cbn in *. congruence. }
      rewrite Edims, nth_map_Z in X2. lia.
    + destruct (_ || _); [|contradiction]. destruct Hl as [Hl|[]]. rewrite <- Hl in Hin. apply in_map_iff in Hin as [i [X _]]. discriminate.
Qed.

Hypothesis L : scalar_laws S.
Hypothesis Ht : Forall (tame dims) ks.

Lemma wrong_raises : forall ks', Forall (tame dims) ks' -> holds_identity (after c1 ks') r d ->
  exists e, run NB (after c1 ks') = Err e.
Proof.
  intros ks' Ht' [m0 [Hm0 Hin]]. pose proof Hc as Hc'. destruct Hc' as [c0 [E0 Ec]].
  assert (Hdims : forall x, In x dims -> 2 <= x).
  { intros x Hx. assert (2 <= Z.of_nat x)%Z; [|lia]. apply (history_dims2 Hc). apply in_map. exact Hx. }
  destruct (inv_new _ _ _ E0) as [l0 I0]. rewrite (hl_nregs dims) in I0.
  assert (TT : Forall (tame dims) (ks ++ skip :: ks')).
  { apply Forall_app. split; [exact Ht|]. constructor; [exact I | exact Ht']. }
  destruct (@after_full S (tame dims) _ (ks ++ skip :: ks') _ _ _ _ I0 TT ltac:(simpl; tauto)) as [ls [I1 [SL [F1 _]]]].
  assert (Ea : after c0 (ks ++ skip :: ks') = after c (skip :: ks')).
  { rewrite Ec. unfold after. rewrite fold_left_app. reflexivity. }
  rewrite Ea in *. destruct (inv_rel (wrong_after ks') I1) as [ls' [I2 Hls]].
  assert (Hh : hist (ks ++ skip :: ks') (after c (skip :: ks'))) by (exists c0; split; [exact E0 | symmetry; exact Ea]).
  pose proof (hl_shaped dims Hh) as Hs3.
  pose proof (ops_fit L Hdims I1 Hs3 F1) as Fit.
  assert (Occ : occupies (length dims) (OI q d : op) = [r]) by (apply occupies_single; [reflexivity | exact Hr]).
  assert (Csz : csize dims (OI q d : op) = nth r dims O).
  { unfold csize. rewrite Occ. cbn [map]. rewrite prodn_cons. unfold prodn; simpl. lia. }
  destruct (@run_small S dims Hdims (after c1 ks') _ l0 ls' I2) as [e E].
  - eapply first_rows; [exact E0 | exact I0].
  - apply Forall_forall. intros o Ho. apply in_concat in Ho as [l [Hl Ho]].
    assert (X : exists o', In o' (gate_ops ls) /\ R o o').
    { clear - Hls Hl Ho. induction Hls as [|a b ls' ls Hab Hls IH]; [contradiction|]. destruct Hl as [->|Hl].
      - clear - Hab Ho. revert Ho. induction Hab as [|u v l b Huv Hab IH]; intros Ho; [contradiction|]. destruct Ho as [->|Ho].
        + exists v. split; [left; reflexivity | exact Huv].
        + destruct (IH Ho) as [o' [H1 H2]]. exists o'. split; [right; exact H1 | exact H2].
      - destruct (IH Hl) as [o' [H1 H2]]. exists o'. split; [apply in_or_app; right; exact H1 | exact H2]. }
    destruct X as [o' [Ho' [->|[-> _]]]]; [exact (proj1 (Forall_forall _ _) Fit o' Ho')|].
    intros m Eu. cbn [unitary] in Eu. injection Eu as <-. rewrite Csz. cbn. split; [reflexivity | lia].
  - apply Exists_exists. exists (OI q d). split.
    + assert (Hl : In (m_list m0) (layers (after c1 ks'))) by (apply in_map; exact Hm0).
      rewrite (i_list I2) in Hl. destruct Hl as [Hl|Hl].
      * exfalso. pose proof (proj1 (i_m0 I2)) as H0. rewrite forallb_forall in H0. rewrite Hl in H0. specialize (H0 _ Hin). discriminate.
      * apply in_app_or in Hl as [Hl|Hl]; [apply in_concat; eauto|]. exfalso.
        destruct (_ || _); [|contradiction]. destruct Hl as [Hl|[]]. rewrite <- Hl in Hin. apply in_map_iff in Hin as [i [X _]]. discriminate.
    + intros m Eu. cbn [unitary] in Eu. injection Eu as <-. rewrite Csz. cbn. lia.
  - exists e. unfold run. rewrite E. reflexivity.
Qed.
End Wrong.
End LibThm.
