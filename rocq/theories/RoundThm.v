(** * RoundThm: calls, layers and the final error bound. *)
From Coq Require Import Reals Lra Permutation.
From Verif Require Import Py Scalar Mat Utils Gates Circuit Spec Calls Complex ComplexSpec HistSpec BitSpec RoundSpec
  Lib Kern GateMat GateTof Flow History Layers Blocks Refine Run Bits Doubles ComplexLib CNorm RoundLib ScalarMap RoundOps RoundRun.
Set Implicit Arguments.
Local Open Scope R_scope.

Lemma configs_seq : forall ds, all_configs ds = map (unlin ds) (seq 0 (prodn ds)).
Proof.
  intros ds. rewrite <- lin_all_configs, map_map, <- map_id at 1. apply map_ext_in. intros s Hs.
  apply in_all_configs in Hs. symmetry. apply unlin_lin, Hs.
Qed.

Lemma rtotal_configs : forall ds (f : config -> R), rtotal f (all_configs ds) = rtotal (fun i => f (unlin ds i)) (seq 0 (prodn ds)).
Proof. intros ds f. rewrite configs_seq, rtotal_map. reflexivity. Qed.
Lemma ctotal_configs : forall ds (f : config -> C), ctotal f (all_configs ds) = ctotal (fun i => f (unlin ds i)) (seq 0 (prodn ds)).
Proof. intros ds f. rewrite configs_seq, ctotal_map. reflexivity. Qed.

Lemma stretch_configs : forall ds m c, stretch (all_configs ds) m c ->
  rgain (prodn ds) (prodn ds) (fun i j => m (unlin ds i) (unlin ds j)) c.
Proof.
  intros ds m c [Hc H]. split; [exact Hc|]. intros x. specialize (H (fun s => x (lin ds s))).
  rewrite !rtotal_configs in H. unfold vlen.
  erewrite rtotal_ext; [eapply Rle_trans; [exact H|]|].
  - apply Req_le. f_equal. apply rtotal_ext. intros i Hi. apply in_seq in Hi. cbv beta. rewrite lin_unlin by lia. reflexivity.
  - intros j Hj. cbv beta. rewrite ctotal_configs. do 2 f_equal. unfold vm. apply ctotal_ext. intros i Hi. apply in_seq in Hi.
    rewrite lin_unlin by lia. reflexivity.
Qed.

Section Thm.
Variable F : scalar.
Variable val : F -> C.
Variable ord : nat -> list nat.
Variable u : R.
Variable e : nat.
Hypothesis Hord : orders ord.
Hypothesis RD : rounded F val ord u e.
Variable meant : mat F -> mat (Cscalar ord).
Notation CS := (Cscalar ord).
Notation NC := (NumpyBackend CS).
Notation opd := (@opd F val ord u e meant).
Let L : scalar_laws CS := Cscalar_laws Hord.

Lemma cx_slice : forall S (ct : circuit S) dims c t, shaped dims ct -> (c < length dims)%nat -> (t < length dims)%nat ->
  (if (Z.of_nat c <? Z.of_nat t)%Z
   then py_slice (c_dims ct) (Z.of_nat c) (Z.of_nat t + 1)
   else py_slice (c_dims ct) (Z.of_nat t) (Z.of_nat c + 1))
  = map Z.of_nat (sub dims (Nat.min c t) (Nat.max c t - Nat.min c t + 1)).
Proof.
  intros S ct dims c t Hct Hc Ht.
  assert (Es : forall a z, (a <= z)%nat -> (z < length dims)%nat ->
            py_slice (c_dims ct) (Z.of_nat a) (Z.of_nat z + 1) = map Z.of_nat (sub dims a (z - a + 1))).
  { intros a z Haz Hz. rewrite (sh_dims Hct). unfold py_slice, py_clip. rewrite map_length.
    replace (Z.of_nat a <? 0)%Z with false by (symmetry; apply Z.ltb_ge; lia).
    replace (Z.of_nat z + 1 <? 0)%Z with false by (symmetry; apply Z.ltb_ge; lia).
    replace (Nat.min (Z.to_nat (Z.of_nat z + 1)) (length dims) - Nat.min (Z.to_nat (Z.of_nat a)) (length dims))%nat
      with (z - a + 1)%nat by lia.
    replace (Nat.min (Z.to_nat (Z.of_nat a)) (length dims)) with a by lia.
    rewrite skipn_map, firstn_map. reflexivity. }
  destruct (Z.of_nat c <? Z.of_nat t)%Z eqn:El; [apply Z.ltb_lt in El | apply Z.ltb_ge in El];
    rewrite Es by lia; repeat f_equal; lia.
Qed.

Lemma sub_pos : forall dims lo w, (forall d, In d dims -> 0 < d)%nat -> forall d, In d (sub dims lo w) -> (0 < d)%nat.
Proof.
  intros dims lo w H d Hd. apply H. unfold sub in Hd. rewrite <- (firstn_skipn lo dims). apply in_or_app. right.
  rewrite <- (firstn_skipn w (skipn lo dims)). apply in_or_app. left. exact Hd.
Qed.

Lemma gate_opd : forall dims (c : circuit F) k g cst o, shaped dims c -> (forall d, In d dims -> 0 < d)%nat ->
  denotes dims (as_meant meant k) g -> gate_ok dims g -> gain dims g cst ->
  (forall M q d, k = CGate M q d -> stands_for val u e M (meant M)) ->
  issues c k o -> opd o cst /\ exists r, (r < length dims)%nat /\ In (Z.of_nat r) (registers o).
Proof.
  intros dims c k g cst o Hsh Hpos Hden Hok Hgain HM Hi.
  destruct Hi as [q dm d Hv Hd | q dm p d Hv Hd | q dm d Hv Hd | a p a0 a1 E0 E1 | cs t p ds acting x Emk | q dm d x Hv Hd | l dm ds x Hv Hd];
    cbn [as_meant] in Hden; inversion Hden; subst; cbn [gate_ok gain] in Hok, Hgain.
  - rewrite (dims_or_ok Hsh Hok) in Hd by assumption. injection Hd as <-. split.
    + apply (opd_h Hord RD); [apply Hpos, nth_In; exact Hok | exact Hgain].
    + exists r. split; [exact Hok | left; reflexivity].
  - destruct Hok as [Hr Hp]. rewrite (dims_or_ok Hsh Hr) in Hd by assumption. injection Hd as <-. subst cst. split.
    + apply (opd_x Hord RD). exact Hp.
    + exists r. split; [exact Hr | left; reflexivity].
  - rewrite (dims_or_ok Hsh Hok) in Hd by assumption. injection Hd as <-. subst cst. split.
    + apply (opd_z Hord RD).
    + exists r. split; [exact Hok | left; reflexivity].
  - destruct Hok as [Hc Ht].
    injection E0 as <-. injection E1 as <-. rewrite (cx_slice Hsh Hc Ht).
    destruct (c0 =? t)%nat eqn:Ect; [apply Nat.eqb_eq in Ect | apply Nat.eqb_neq in Ect as Hne]; subst cst.
    { rewrite <- Ect, Nat.min_id, Nat.max_id, Nat.sub_diag. split; [|exists c0; split; [exact Hc | left; reflexivity]].
      cbn [Nat.add]. rewrite (sub_1 dims Hc). cbn [map]. apply (opd_cx_self Hord RD), Hpos, nth_In, Hc. }
    set (lo := Nat.min c0 t). set (hi := Nat.max c0 t). set (w := (hi - lo + 1)%nat). set (ds := sub dims lo w).
    assert (Lds : length ds = w) by (apply sub_length; unfold w, lo, hi; lia).
    split.
    + apply (@opd_cx F val ord u e Hord RD meant ds (Z.of_nat c0) (Z.of_nat t) p (c0 - lo) (t - lo)).
      * intros d Hd. apply (@sub_pos dims lo w Hpos d Hd).
      * unfold w, lo, hi in *; lia.
      * unfold w, lo, hi in *; lia.
      * unfold lo; lia.
      * destruct (Z.of_nat c0 <? Z.of_nat t)%Z eqn:El; [apply Z.ltb_lt in El | apply Z.ltb_ge in El]; unfold lo; lia.
      * destruct (Z.of_nat c0 <? Z.of_nat t)%Z eqn:El; [apply Z.ltb_lt in El | apply Z.ltb_ge in El]; unfold lo; lia.
    + exists c0. split; [exact Hc | left; reflexivity].
  - destruct Hok as [Hcs [Ht [Hnin Hsp]]]. subst cst.
    rename cs0 into cs. rename t0 into t.
    destruct (@nat_bounds (cs ++ [t])) as [lo [hi [Hlo [Hhi Hb]]]]; [destruct cs; discriminate|].
    assert (Hhi' : (hi < length dims)%nat).
    { apply in_app_or in Hhi as [H|[<-|[]]]; [apply Hcs; exact H | exact Ht]. }
    assert (Hlh : (lo <= hi)%nat) by (apply (Hb _ Hlo)).
    assert (Hspan : (hi - lo + 1 <> 2)%nat).
    { intros E. apply Hsp. exists lo.
      assert (Hin : forall y, In y (cs ++ [t]) <-> In y (t :: cs)).
      { intros y. rewrite in_app_iff. simpl. tauto. }
      split; [apply Hin; exact Hlo|]. split.
      - apply Hin. replace (lo + 1)%nat with hi by lia. exact Hhi.
      - intros y Hy. apply Hin in Hy. specialize (Hb _ Hy). lia. }
    destruct (@mk_toffoli_spec F dims cs t p lo hi Hb Hlo Hhi Hhi' Hpos) as [y [E' [Y1 [Y2 HR]]]].
    rewrite (sh_qregs Hsh) in Emk. cbn [qregs_list] in Emk. rewrite E' in Emk. injection Emk as <- <- <-. split.
    + apply (@opd_tof F val ord u e Hord RD meant dims cs t p lo hi Hb Hhi' Hnin Hspan _ y Y1 Y2 HR).
    + exists t. split; [exact Ht | left; reflexivity].
  - destruct Hok as [Hr Hu]. rewrite (dims_or_ok Hsh Hr) in Hd by assumption. injection Hd as <-.
    pose proof (HM _ _ _ eq_refl) as HS. pose proof HS as [S1 [S2 _]].
    assert (E1 : mr x = nth r dims 0%nat) by congruence. assert (E2 : mc x = nth r dims 0%nat) by congruence. split.
    + apply (@opd_arb F val ord u e RD meant (RInt (Z.of_nat r)) (RInt (Z.of_nat (nth r dims 0%nat))) x cst HS).
      * congruence.
      * apply (@unitary_rows CS L (nth r dims 0%nat) (meant x) u0); assumption.
      * intros S m M1 M2 HU. unfold arb_unitary. rewrite HU, M1, M2, E1, Z.eqb_refl. reflexivity.
      * rewrite E1. eapply rgain_ext; [|apply stretch_rgain, Hgain]. intros i j Hi Hj. cbv beta. symmetry. auto.
    + exists r. split; [exact Hr | left; reflexivity].
  - destruct Hok as [Hk [Hrk Hu]]. rename l0 into ll. change (span dims r k) with (sub dims r k) in *.
    pose proof (HM _ _ _ eq_refl) as HS. pose proof HS as [S1 [S2 _]].
    match goal with H : holds_entries _ _ _ |- _ => pose proof H as HE; apply entries_repr in H; pose proof H as HR end.
    pose proof HR as [R1 R2 _].
    set (D := map (fun y => Z.of_nat (nth y dims 0%nat)) ll).
    assert (ED : mapM (py_get (c_dims c)) (map Z.of_nat ll) = Ok D).
    { rewrite mapM_map. apply mapM_ok. intros y Hy. rewrite (sh_dims Hsh).
      match goal with H : forall x, In x ll -> _ |- _ => specialize (H y Hy) end.
      rewrite (@py_get_nat Z _ _ 0%Z) by (rewrite map_length; lia). rewrite nth_map_Z. reflexivity. }
    assert (Eds : ds = RList D).
    { rewrite ED in Hd. match goal with H : dm = None \/ _ |- _ => destruct H as [->| ->] end; cbn in Hd; congruence. }
    subst ds. split.
    + apply (@opd_arb F val ord u e RD meant (RList (map Z.of_nat ll)) (RList D) x cst HS).
      * congruence.
      * apply (is_unitary_iff HR). intros s t Hs Ht.
        specialize (Hu s t). rewrite !in_all_configs in Hu. specialize (Hu Hs Ht). rewrite bsum_total. exact Hu.
      * intros S m M1 M2 HU. unfold arb_unitary. rewrite HU.
        destruct ll as [|y [|z [|z' ll]]]; simpl in *; try lia; [|reflexivity].
        assert (k = 1)%nat by lia. subst k. assert (y = r) by lia. subst y.
        rewrite sub_1 in R1, R2 by lia. unfold prodn in R1, R2. simpl in R1, R2. rewrite Nat.mul_1_r in R1, R2.
        unfold D. cbn [map]. rewrite M1, M2, <- S1, R1, Z.eqb_refl. reflexivity.
      * rewrite <- S1, R1. eapply rgain_ext; [|apply stretch_configs, Hgain]. intros i j Hi Hj. cbv beta.
        destruct HE as [_ [_ HE]]. rewrite HE by congruence. reflexivity.
    + exists r. split; [lia|]. cbn [registers]. apply in_map_iff. exists r. auto.
Qed.


(** ** Layers of a history *)
Definition tag (o : op F) (c : R) : Prop := opd o c /\ (is_igate o = true -> c = 1).
Definition layt (l : list (op F)) (g : R) : Prop := exists cs, Forall2 tag l cs /\ rprod cs = g.

Lemma layt_layg : forall l g, layt l g -> @layg F val ord u e meant l g.
Proof.
  intros l g [cs [H E]]. exists cs. split; [|exact E]. clear E. induction H as [|o c l cs [H1 _] HF IH]; constructor; auto.
Qed.

Lemma rprod_ones : forall k, rprod (repeat 1 k) = 1.
Proof. induction k as [|k IH]; [reflexivity|]. cbn [repeat]. rewrite rprod_cons, IH. ring. Qed.

Lemma ids_tag : forall dims l, Forall2 tag (map (idop F (map Z.of_nat dims)) l) (repeat 1 (length l)).
Proof.
  intros dims l; induction l as [|i l IH]; simpl; constructor; [|exact IH]. split; [|reflexivity].
  unfold idop. apply (opd_i Hord RD). rewrite nth_map_Z. lia.
Qed.

Lemma issues_no_i : forall (c : circuit F) k o, issues c k o -> is_igate o = false.
Proof. intros c k o H. destruct H; reflexivity. Qed.

Lemma placed : forall n (g : op F) lo hi r, ranges g lo hi -> (r < n)%nat -> In (Z.of_nat r) (registers g) ->
  (lowr n lo < highr n lo hi)%nat.
Proof.
  intros n g lo hi r Hr Hn Hin.
  assert (H : In r (occupies n g)).
  { unfold occupies. apply filter_In. split; [apply in_seq; lia|]. unfold covers. apply andb_true_iff.
    split; apply existsb_exists; exists (Z.of_nat r); (split; [exact Hin | apply Z.leb_refl]). }
  rewrite (occupies_ranges n Hr) in H. apply in_seq in H. lia.
Qed.

Lemma layer_tag : forall dims lo hi g r cst, ranges g lo hi -> (r < length dims)%nat -> In (Z.of_nat r) (registers g) ->
  tag g cst -> layt (layer_list (map Z.of_nat dims) lo hi g (length dims)) cst.
Proof.
  intros dims lo hi g r cst Hr Hn Hin Ht. rewrite layer_list_split.
  pose proof (placed Hr Hn Hin) as Hlt. apply Nat.ltb_lt in Hlt. rewrite Hlt.
  eexists. split; [apply Forall2_app; [apply ids_tag | apply Forall2_app; [constructor; [exact Ht | constructor] | apply ids_tag]]|].
  rewrite !rprod_app, !rprod_ones, rprod_cons. simpl. ring.
Qed.

Lemma layer_merge : forall l1 q d l2 g cst G, layt (l1 ++ OI q d :: l2) G -> tag g cst -> layt (l1 ++ g :: l2) (G * cst).
Proof.
  intros l1 q d l2 g cst G [cs [HF <-]] Ht. apply Forall2_app_inv_l in HF as [c1 [c2 [H1 [H2 ->]]]].
  inversion H2 as [|o c l cs' [_ Hc] HF2]; subst. specialize (Hc eq_refl). subst c.
  exists (c1 ++ cst :: cs'). split; [apply Forall2_app; [exact H1 | constructor; assumption]|].
  rewrite !rprod_app, !rprod_cons. ring.
Qed.

Lemma script_track : forall dims, (forall d, In d dims -> 0 < d)%nat -> dims <> [] -> forall ks prog cs,
  Forall2 (fun k g => denotes dims (as_meant meant k) g) ks prog -> Forall (gate_ok dims) prog -> Forall2 (gain (ord := ord) dims) prog cs ->
  (forall M q d, In (CGate M q d) ks -> stands_for val u e M (meant M)) ->
  forall (c c' : circuit F) l0 ls gs, shaped dims c -> inv (length dims) c false l0 ls -> Forall2 layt ls gs -> script c ks = Ok c' ->
  exists ls' gs', inv (length dims) c' false l0 ls' /\ Forall2 layt ls' gs' /\ rprod gs' = rprod gs * rprod cs /\
    (length ls' <= length ls + length ks)%nat.
Proof.
  intros dims Hpos Hne ks prog cs HD; revert cs. induction HD as [|k g ks prog Hkg HD IH]; intros cs Hok HG HM c c' l0 ls gs Hsh HI HL Hs.
  - inversion HG; subst. injection Hs as <-. exists ls, gs. split; [exact HI|]. split; [exact HL|]. split; [simpl; ring | lia].
  - inversion Hok as [|g' prog' Hok1 Hok2]; subst. inversion HG as [|g' cst prog' cs' HG1 HG2]; subst.
    cbn [script] in Hs. apply bind_ok in Hs as [[c1 b1] [Ea Hs]].
    assert (Hk : k <> CMeasureAll) by (intros ->; inversion Hkg).
    destruct (inv_gate HI Hk Ea) as [[[X|X] _]|[_ [Hn [_ [o [lo [hi [ls1 [Hi [Hr [Had [HI1 [f ->]]]]]]]]]]]]].
    { discriminate. }
    { destruct dims; [contradiction | discriminate]. }
    destruct (@gate_opd dims c k g cst o Hsh Hpos Hkg Hok1 HG1 (fun M q d E => HM M q d (or_introl E)) Hi) as [Hop [r [Hr1 Hr2]]].
    assert (Ht : tag o cst) by (split; [exact Hop|]; rewrite (issues_no_i Hi); discriminate).
    assert (Hsh1 : shaped dims (set_flow c f)) by (destruct Hsh; constructor; assumption).
    assert (Hls1 : exists gs1, Forall2 layt ls1 gs1 /\ rprod gs1 = rprod gs * cst /\ (length ls1 <= length ls + 1)%nat).
    { destruct Had as [-> _ | lsb l1 d l2 Hg -> -> Hq].
      - exists (gs ++ [cst]). split; [|split].
        + apply Forall2_app; [exact HL|]. constructor; [|constructor]. rewrite (sh_dims Hsh). eapply layer_tag; eassumption.
        + rewrite rprod_app, rprod_cons. simpl. ring.
        + rewrite app_length. simpl. lia.
      - apply Forall2_app_inv_l in HL as [ga [gb [HL1 [HL2 ->]]]]. inversion HL2 as [|x G l' gs' HLx HL3]; subst. inversion HL3; subst.
        exists (ga ++ [G * cst]). split; [|split].
        + apply Forall2_app; [exact HL1|]. constructor; [|constructor]. eapply layer_merge; eassumption.
        + rewrite !rprod_app, !rprod_cons. simpl. ring.
        + rewrite !app_length. simpl. lia. }
    destruct Hls1 as [gs1 [HL1 [Eg1 Hlen]]].
    destruct (IH cs' Hok2 HG2 (fun M q d Hin => HM M q d (or_intror Hin)) (set_flow c f) c' l0 ls1 gs1 Hsh1 HI1 HL1 Hs)
      as [ls' [gs' [HI' [HL' [Eg' Hlen']]]]].
    exists ls', gs'. split; [exact HI'|]. split; [exact HL'|]. split.
    + rewrite Eg', Eg1, rprod_cons. ring.
    + simpl. lia.
Qed.


(** ** The whole simulation *)
Variable B : backend F.
Variable ok : B -> Prop.
Hypothesis CR : computes_rounded val u B ok.
Let v : F -> CS := val.
Notation om := (@omap F CS v meant).
Notation cm := (@cmap F CS v meant).

Lemma v0 : v s0 = s0.
Proof. exact (rd_0 RD). Qed.
Lemma v1 : v s1 = s1.
Proof. exact (rd_1 RD). Qed.

Lemma kmap_meant : forall k : call F, @kmap F CS meant k = as_meant meant k.
Proof. intros []; reflexivity. Qed.

Lemma layers_map : forall c : circuit F, layers (cm c) = map (map om) (layers c).
Proof. intros c. unfold layers. cbn [cmap c_flow fmap f_list]. rewrite !map_map. reflexivity. Qed.

Lemma seg_length : forall S dims p (bs : list (block S)) q, seg dims p bs q -> (length bs <= q - p)%nat /\ (p <= q)%nat.
Proof.
  intros S dims p bs q H; induction H as [p H | p b bs q Hb HS IH]; simpl; [lia|].
  pose proof (bok_w Hb). lia.
Qed.

Lemma layer_lay : forall dims l g (bs : list (block CS)), dims <> [] -> layt l g -> map om l = map (@bo CS) bs -> seg dims 0 bs (length dims) ->
  @lay F val ord u e meant B ok dims l g (prodn dims).
Proof.
  intros dims l g bs Hne Hl E Hs.
  assert (Hnil : l <> []).
  { intros ->. destruct bs; [|discriminate]. apply seg_width in Hs. simpl in Hs. destruct dims; [contradiction | discriminate]. }
  destruct (layer_near RD CR Hnil (layt_layg Hl)) as [b [M [Eb [EM [Hn Hg]]]]].
  destruct (exec_layer L Hs Hne) as [M' [EM' [R1 R2 _]]].
  rewrite <- E in EM'. assert (M = M') by (change (moment_exec NC (map om l) = Ok M) in EM; congruence). subst M'.
  exists b, M. split; [exact Eb|]. split; [exact EM|]. split.
  - eapply (near_mono RD); [|exact Hn]. apply Nat.mul_le_mono_r.
    apply seg_length in Hs. apply (f_equal (@length _)) in E. rewrite !map_length in E. lia.
  - split; [exact R1|]. split; [exact R2|]. rewrite R1, R2 in Hg. exact Hg.
Qed.

Lemma init_lay : forall dims init, dims <> [] -> valid dims init -> map om (init_ops F dims init) = init_ops CS dims init ->
  @lay F val ord u e meant B ok dims (init_ops F dims init) 1 1.
Proof.
  intros dims init Hne Hv E.
  assert (Hnil : init_ops F dims init <> []) by (destruct dims; [contradiction | discriminate]).
  assert (Hl : @layg F val ord u e meant (init_ops F dims init) 1).
  { exists (repeat 1 (length dims)). split; [|apply rprod_ones]. unfold init_ops.
    assert (H : forall k a, (a + k <= length dims)%nat -> Forall2 opd (map (init_op F dims init) (seq a k)) (repeat 1 k)).
    { induction k as [|k IH]; intros a Ha; simpl; constructor; [|apply IH; lia].
      apply (opd_init RD). apply (@valid_level dims init a Hv). lia. }
    apply H. lia. }
  destruct (layer_near RD CR Hnil Hl) as [b [M [Eb [EM [Hn Hg]]]]].
  destruct (init_exec L Hne Hv) as [M' [EM' [R1 R2 _]]].
  rewrite <- E in EM'. assert (M = M') by (change (moment_exec NC (map om (init_ops F dims init)) = Ok M) in EM; congruence). subst M'.
  exists b, M. split; [exact Eb|]. split; [exact EM|]. split.
  - eapply (near_mono RD); [|exact Hn]. apply Nat.mul_le_mono_r. unfold init_ops. rewrite map_length, seq_length. lia.
  - split; [exact R1|]. split; [exact R2|]. rewrite R1, R2 in Hg. exact Hg.
Qed.

Theorem simulate_rounded : forall dims levels out ty me ks prog cs,
  dims <> [] -> (forall d, In d dims -> 2 <= d)%nat ->
  (length levels <= length dims)%nat -> valid dims (start dims levels) -> wants dims out ty me ->
  Forall2 (fun k g => denotes dims (as_meant meant k) g) ks prog -> Forall (gate_ok dims) prog -> Forall2 (gain (ord := ord) dims) prog cs ->
  (forall M q d, In (CGate M q d) ks -> stands_for val u e M (meant M)) ->
  exists psi : config -> F,
    simulate B (QList (map Z.of_nat dims)) (Some (map Z.of_nat levels)) out ks = Ok (report ty me (answer dims psi)) /\
    distance dims (fun s => val (psi s)) (final dims prog (basis CS (start dims levels))) <= bound u e dims (length ks) cs.
Proof.
  intros dims levels out ty me ks prog cs Hne Hd Hlen Hv Hw HD Hok HG HM.
  assert (Hpos : forall d, In d dims -> (0 < d)%nat) by (intros d H; specialize (Hd d H); lia).
  set (init := start dims levels) in *.
  destruct (@mk_circuit_good F dims levels out Hd Hlen Hv) as [c0 [E0 [Hg0 Eo0]]].
  destruct (@mk_circuit_good CS dims levels out Hd Hlen Hv) as [d0 [D0 [Hgd0 _]]].
  pose proof (@mk_circuit_map F CS v v0 v1 meant (QList (map Z.of_nat dims)) (Some (map Z.of_nat levels)) out) as Em.
  rewrite E0, D0 in Em. cbn [rmap] in Em. injection Em as ->.
  assert (HD' : Forall2 (denotes dims) (map (@kmap F CS meant) ks) prog).
  { clear - HD. induction HD; simpl; constructor; [rewrite kmap_meant; assumption | assumption]. }
  destruct (script_good L Hne Hpos HD' Hok Hgd0) as [d1 [bss [D1 [Hgd [Eo1 Ev]]]]].
  rewrite (@script_map F CS v v0 v1 meant) in D1. destruct (script c0 ks) as [c1|x] eqn:E1; [|discriminate].
  cbn [rmap] in D1. injection D1 as <-. change (c_out c1 = c_out c0) in Eo1.
  destruct (inv_new _ _ _ E0) as [l0 I0]. cbn [nregs] in I0. rewrite map_length in I0.
  assert (El0 : l0 = init_ops F dims init).
  { pose proof (i_list I0) as X. destruct (g_list Hg0) as [m0 [ms [X1 [X2 X3]]]]. inversion X3; subst.
    unfold layers in X. rewrite X1 in X. cbn [map app] in X. injection X as X. rewrite <- X. exact X2. }
  subst l0.
  destruct (script_track Hpos Hne HD Hok HG HM (g_shaped Hg0) I0 (Forall2_nil _) E1) as [ls [gs [I1 [HL [Eg Hlen1]]]]].
  assert (Hsh1 : shaped dims c1) by (destruct (g_shaped Hgd) as [S1 S2 S3]; constructor; assumption).
  destruct (g_list Hgd) as [m0 [ms [X1 [X2 X3]]]].
  assert (El : layers (cm c1) = map (@m_list CS) (m0 :: ms)) by (unfold layers; rewrite X1; reflexivity).
  rewrite layers_map, (i_list I1), app_nil_r in El. cbn [map] in El. injection El as El0 El. rewrite X2 in El0.
  assert (HN : (0 < prodn dims)%nat) by (apply prodn_pos, Forall_forall; intros d H; specialize (Hpos d H); lia).
  pose proof (init_lay Hne Hv El0) as HL0.
  assert (HLs : Forall2 (fun l g => @lay F val ord u e meant B ok dims l g (prodn dims)) ls gs).
  { clear - HL El X3 Hne CR RD L. revert ms bss El X3. induction HL as [|l g ls gs Hl HL IH]; intros ms bss El X3; [constructor|].
    destruct ms as [|m ms]; [discriminate|]. inversion X3 as [|m' bs ms' bss' [Hm Hs] X4]; subst. cbn [map] in El. injection El as E1 E2.
    constructor; [|eapply IH; eassumption]. eapply layer_lay; [exact Hne | exact Hl | rewrite E1; exact Hm | exact Hs]. }
  destruct (st_all RD CR HN HL0 HLs) as [p [Q [Ep [EQ [[Hsp [Rp Cp]] [Q1 [Q2 [HG0 [Hdist _]]]]]]]]].
  destruct (exec_all L _ Hne Hv X2 X3) as [M [EM RM]].
  assert (HQ : Q = M).
  { change (@exec_step CS) with (fun acc m => @lstep CS NC acc (@m_list CS m)) in EM.
    rewrite <- (fold_left_map (@lstep CS NC) (@m_list CS)) in EM.
    rewrite map_rev in EM, EQ. cbn [map] in EM, EQ. rewrite X2, <- El, <- El0 in EM.
    pose proof (eq_trans (eq_sym EQ) EM) as X. injection X as X. exact X. }
  subst M.
  destruct (inv_measure I1) as [c2 [E2 [[[X|X] _]|[_ [_ [I2 [f ->]]]]]]]; [discriminate | destruct dims; [contradiction|discriminate] |].
  set (psi := fun s : config => mget (b_toarray p) (lin dims s) 0).
  exists psi. split.
  - unfold simulate. rewrite E0. cbn [bind]. rewrite script_app, E1. cbn [bind script]. rewrite E2. cbn [bind].
    unfold run, flow_exec. rewrite (i_meas I2).
    replace (forallb (fun b => b) (repeat true (length dims))) with true
      by (symmetry; apply forallb_forall; intros b Hb; apply repeat_spec in Hb; exact Hb).
    pose proof (i_list I2) as Y. unfold layers in Y. rewrite app_comm_cons in Y.
    apply map_snoc_inv in Y as [fl [mm [Y1 [Y2 Y3]]]]. rewrite Y1, rev_unit.
    match goal with |- context [fold_left ?f0 (rev fl) ?a0] =>
      change (fold_left f0 (rev fl) a0) with (fold_left (fun acc m => @lstep F B acc (@m_list F m)) (rev fl) a0) end.
    rewrite <- (fold_left_map (@lstep F B) (@m_list F)), map_rev, Y2, Ep. cbn [bind].
    rewrite (@output_any F dims _ (b_toarray p) psi).
    + assert (Eo : c_out (set_flow c1 f) = {| o_base := map Z.of_nat dims; o_type := ty; o_method := me |}).
      { cbn [set_flow c_out]. rewrite Eo1, Eo0. destruct Hw as [->|[-> [-> ->]]]; reflexivity. }
      rewrite Eo, labelled_own by reflexivity. reflexivity.
    + constructor; [exact Rp | exact Cp|]. intros s t Hs Ht. inversion Ht; subst. reflexivity.
  - unfold distance. rewrite rtotal_configs.
    eapply Rle_trans; [apply Req_le|eapply Rle_trans; [exact Hdist|]].
    + unfold fro, len2. rewrite rtotal_pairs. f_equal. apply rtotal_ext. intros i Hi. apply in_seq in Hi. cbn [seq rtotal fst snd].
      rewrite Rplus_0_r. unfold Cdist, mdist, entry, psi. rewrite lin_unlin by lia. do 5 f_equal.
      assert (Hvi : valid dims (unlin dims i)) by (apply unlin_valid; lia).
      pose proof (Ev (basis CS init) (unlin dims i) Hvi) as Evi. destruct RM as [_ _ R3].
      specialize (R3 (unlin dims i) [] Hvi (Forall2_nil _)). rewrite lin_unlin in R3 by lia. rewrite Evi in R3. exact (eq_sym R3).
    + rewrite Eg in *. change (rprod []) with 1 in *. rewrite Rmult_1_l in *. unfold bound.
      apply Rmult_le_compat_l; [apply Rmult_le_pos; [apply sqrt_pos | exact HG0]|].
      apply Rplus_le_compat_r. apply Rle_pow; [|cbn [length] in Hlen1; lia].
      pose proof (sqrt_pos (INR (prodn dims))). pose proof (@err_pos u (roundings e dims) (rd_u RD)).
      assert (0 <= sqrt (INR (prodn dims)) * err u (roundings e dims)) by (apply Rmult_le_pos; assumption). lra.
Qed.


End Thm.
