(** * ExactShape: the exception raised by one gate of the wrong dimension in an
    otherwise valid program. *)
From Verif Require Import Py Scalar Mat Utils Gates Circuit Spec Calls HistSpec CallSpec ShapeSpec Lib Kern GateMat GateTof Flow Layers Blocks Refine Run History Merge Errors Relate Construct Ignored BadGates Exact Reject Shapes.
Set Implicit Arguments.

Section ExactShape.
Variable S : scalar.
Hypothesis L : scalar_laws S.
Notation op := (op S).
Notation circuit := (circuit S).
Notation call := (call S).
Notation NB := (NumpyBackend S).

(** ** Valid calls are tame *)
Lemma denotes_tame : forall dims (k : call) g, (forall d, In d dims -> 2 <= d) ->
  denotes dims k g -> gate_ok dims g -> tame dims k.
Proof.
  intros dims k g Hd H Hg. destruct H; try exact I.
  - intros x [<-|Hx]; [lia|]. apply in_map_iff in Hx as [y [<- _]]. lia.
  - intros _. destruct Hg as [Hk [Hb _]]. destruct H4 as [E1 [E2 _]]. rewrite E1, E2, all_configs_length. split; [reflexivity|].
    change (map Z.of_nat l) with (registers (OArb (RList (map Z.of_nat l)) (RInt 0) M)). rewrite (room_csize dims).
    rewrite (@csize_range S dims _ r (r + k - 1)); [| | lia | lia].
    + replace (r + k - 1 - r + 1) with k by lia. apply le_n.
    + intros z. unfold covers. cbn [registers]. apply eq_true_iff_eq. rewrite !andb_true_iff, !existsb_exists, !Z.leb_le. split.
      * intros [[a [Ha La]] [b [Hbb Lb]]]. apply in_map_iff in Ha as [a' [<- Ha]]. apply in_map_iff in Hbb as [b' [<- Hbb]].
        apply Z.leb_le in La. apply Z.leb_le in Lb. specialize (H2 _ Ha) as B1. specialize (H2 _ Hbb) as B2. lia.
      * intros [La Lb]. split; [exists (Z.of_nat r) | exists (Z.of_nat (r + k - 1))]; (split; [apply in_map; assumption | apply Z.leb_le; lia]).
Qed.

Lemma asks_tame : forall dims ks prog, (forall d, In d dims -> 2 <= d) ->
  Forall2 (denotes dims) ks prog -> Forall (gate_ok dims) prog -> Forall (@tame S dims) ks.
Proof.
  intros dims ks prog Hd H; induction H as [|k g ks prog Hk H IH]; intros Hg; [constructor|].
  inversion Hg; subst. constructor; [eapply denotes_tame; eassumption | auto].
Qed.

(** ** A product of existing layers can only fail with ValueError *)
Lemma exec_all : forall l, (forall o, In o l -> exists m, unitary NB o = Ok m) ->
  l <> [] -> exists M, moment_exec NB l = Ok M.
Proof.
  intros [|g gs] H Hne; [congruence|]. unfold moment_exec. destruct (H g (or_introl eq_refl)) as [u ->]. cbn [bind].
  assert (G : forall o, In o gs -> exists m, unitary NB o = Ok m) by (intros o Ho; apply H; right; exact Ho).
  clear H Hne. revert u. induction gs as [|o gs IH]; intros u; [eexists; reflexivity|]. cbn [fold_left].
  destruct (G o (or_introl eq_refl)) as [v ->]. cbn [bind]. apply IH. intros; apply G; right; assumption.
Qed.

Lemma product_fails : forall (f : opflow S) e, (forall m, In m (tl (rev (f_list f))) -> exists M, moment_exec NB (m_list m) = Ok M) ->
  forallb (fun b => b) (f_meas f) = true -> f_list f <> [] -> flow_exec NB f = Err e -> e = ValueError.
Proof.
  intros f e H Hm Hne E. unfold flow_exec in E. rewrite Hm in E.
  destruct (rev (f_list f)) as [|last rest] eqn:Er.
  { apply (f_equal (@rev _)) in Er. rewrite rev_involutive in Er. contradiction. }
  cbn [tl] in H. clear Er Hne Hm.
  assert (G : forall rest a, (forall m, In m rest -> exists M, moment_exec NB (m_list m) = Ok M) ->
     fold_left (fun acc m => a <- acc ;; k <- moment_exec NB (m_list m) ;;
             match a with None => Ok (Some k) | Some d => p <- b_dot d k ;; Ok (Some p) end) rest (Ok a) = Err e -> e = ValueError).
  { clear. intros rest; induction rest as [|m rest IH]; intros a H E; [discriminate|]. cbn [fold_left] in E.
    destruct (H m (or_introl eq_refl)) as [M EM]. cbn [bind] in E. rewrite EM in E. cbn [bind] in E.
    destruct a as [d|]; [|eapply IH; [|exact E]; intros; apply H; right; assumption].
    destruct (b_dot d M) as [p|e'] eqn:Ed; cbn [bind] in E; [eapply IH; [|exact E]; intros; apply H; right; assumption|].
    rewrite (@fold_bind_err _ _ (fun a m => k <- moment_exec NB (m_list m) ;; 
            match a with None => Ok (Some k) | Some d => p <- b_dot d k ;; Ok (Some p) end)) in E. injection E as <-.
    cbn in Ed. unfold ddot in Ed. destruct (_ =? _); [discriminate | congruence]. }
  eapply G; eassumption.
Qed.

Lemma exact_mismatch : forall (R : op -> op -> Prop), (forall o, R o o) -> (forall o o', R o o' -> alike o o') ->
  (forall o o' m, R o o' -> unitary NB o' = Ok m -> exists m', unitary NB o = Ok m') ->
  forall dims levels out ty me ks1 ks2 k k' prog1 prog2 g,
  dims <> [] -> (forall d, In d dims -> 2 <= d) ->
  length levels <= length dims -> valid dims (start dims levels) -> wants dims out ty me ->
  Forall2 (denotes dims) ks1 prog1 -> Forall (gate_ok dims) prog1 ->
  Forall2 (denotes dims) ks2 prog2 -> Forall (gate_ok dims) prog2 ->
  denotes dims k' g -> gate_ok dims g ->
  (forall c : circuit, shaped dims c -> res_rel (arel R) (api c k) (api c k')) ->
  (forall c : circuit, history (QList (map Z.of_nat dims)) (Some (map Z.of_nat levels)) out ks1 c ->
     ~ In CMeasureAll ks1 -> exists c', api c k = Ok (c', true) /\
     exists e, flow_exec NB (c_flow (after c' (ks2 ++ [CMeasureAll]))) = Err e) ->
  simulate NB (QList (map Z.of_nat dims)) (Some (map Z.of_nat levels)) out (ks1 ++ k :: ks2) = Err ValueError.
Proof.
  intros R Hrefl Halike Hok dims levels out ty me ks1 ks2 k k' prog1 prog2 g
    Hne Hd Hlen Hv Hw HF1 Hok1 HF2 Hok2 Hk Hg Hrel Hnever.
  assert (Hpos : forall d, In d dims -> 0 < d) by (intros d H; specialize (Hd d H); lia).
  pose proof (@simulate_correct S L dims levels out ty me (ks1 ++ k' :: ks2) (prog1 ++ g :: prog2) Hne Hd Hlen Hv Hw) as Hgood.
  specialize (Hgood ltac:(apply Forall2_app; [assumption | constructor; assumption])
                    ltac:(apply Forall_app; split; [assumption | constructor; assumption])).
  destruct (@mk_circuit_good S dims levels out Hd Hlen Hv) as [c0 [E0 [Hg0 Eo0]]].
  destruct (script_good L Hne Hpos HF1 Hok1 Hg0) as [c1 [bss1 [E1 [Hg1 _]]]].
  unfold simulate in *. rewrite E0 in *. cbn [bind] in *. rewrite <- !app_assoc in *. rewrite !script_app in *. rewrite E1 in *. cbn [bind] in *.
  cbn [app script] in *.
  assert (Hm1 : ~ In CMeasureAll ks1).
  { clear - HF1. induction HF1 as [|k0 g0 ks prog Hk HF IH]; [auto|]. intros [->|X]; [inversion Hk | auto]. }
  assert (Hh : history (QList (map Z.of_nat dims)) (Some (map Z.of_nat levels)) out ks1 c1).
  { exists c0. split; [exact E0|]. symmetry. apply script_after. exact E1. }
  destruct (Hnever c1 Hh Hm1) as [cb [Eb [e He]]].
  specialize (Hrel c1 (g_shaped Hg1)). rewrite Eb in *. cbn [bind].
  inversion Hrel as [a a' Hcc X Ea'|]; subst. destruct a' as [cg b']. rewrite <- Ea' in Hgood. cbn [bind] in Hgood.
  destruct Hcc as [Hcc _]. cbn [fst] in Hcc.
  pose proof (@script_rel S R Hrefl Halike (ks2 ++ [CMeasureAll]) cb cg Hcc) as Hs.
  inversion Hs as [cf cf' Hcf Ef Ef'|e' Ef Ef']; rewrite <- Ef' in Hgood; cbn [bind] in Hgood; [|discriminate].
  cbn [bind]. symmetry in Ef. apply script_after in Ef. rewrite Ef in He.
  unfold run in *. rewrite He. cbn [bind]. f_equal.
  destruct (flow_exec NB (c_flow cf')) as [r'|e'] eqn:Eg; [|discriminate].
  pose proof (cr_meas Hcf) as Cm. pose proof (cr_list Hcf) as Cl.
  assert (Hm' : forallb (fun b => b) (f_meas (c_flow cf')) = true).
  { unfold flow_exec in Eg. destruct (forallb _ _); [reflexivity | discriminate]. }
  apply (@product_fails (c_flow cf) e); [| rewrite Cm; exact Hm' | | exact He].
  - apply Forall2_rev' in Cl.
    assert (Cl' : Forall2 (mrel R) (tl (rev (f_list (c_flow cf)))) (tl (rev (f_list (c_flow cf'))))).
    { destruct Cl; [constructor | assumption]. }
    intros m Hin. clear Cl.
    assert (Hin' : exists m', In m' (tl (rev (f_list (c_flow cf')))) /\ mrel R m m').
    { clear - Cl' Hin. induction Cl' as [|x y l l' Hxy H IH]; [contradiction|]. destruct Hin as [->|Hin]; [exists y; split; [left; reflexivity | assumption]|].
      destruct (IH Hin) as [m' [H1 H2]]. exists m'. split; [right; exact H1 | exact H2]. }
    destruct Hin' as [m' [Hm'' [_ [_ [_ Hl]]]]].
    destruct (moment_exec NB (m_list m')) as [M'|e'] eqn:EM.
    2:{ destruct (flow_bad NB (c_flow cf') m' Hm'' EM) as [e'' X]. congruence. }
    destruct (exec_shapes _ EM) as [ms [Hms _]].
    apply exec_all.
    + intros o Ho. clear EM Hin Hm''. revert ms Hms. induction Hl as [|x y l l' Hxy Hl IH]; intros ms Hms; [contradiction|].
      inversion Hms as [|? ? ? ? U3 U4]; subst. destruct Ho as [->|Ho]; [eapply Hok; eassumption | eapply IH; eassumption].
    + intros X. rewrite X in Hl. destruct (m_list m'); [discriminate | inversion Hl].
  - intros X. rewrite X in Cl. unfold flow_exec in Eg. rewrite Hm' in Eg. destruct (f_list (c_flow cf')); [discriminate | inversion Cl].
Qed.

Theorem exact_small : forall dims levels out ty me ks1 ks2 k r d g prog1 prog2,
  dims <> [] -> (forall d, In d dims -> 2 <= d) ->
  length levels <= length dims -> valid dims (start dims levels) -> wants dims out ty me ->
  Forall2 (denotes dims) ks1 prog1 -> Forall (gate_ok dims) prog1 ->
  Forall2 (denotes dims) ks2 prog2 -> Forall (gate_ok dims) prog2 ->
  r < length dims -> 1 <= d -> d < nth r dims 0 ->
  asks_one k (Z.of_nat r) (Some (Z.of_nat d)) -> denotes (put dims r d) k g -> gate_ok (put dims r d) g ->
  simulate NB (QList (map Z.of_nat dims)) (Some (map Z.of_nat levels)) out (ks1 ++ k :: ks2) = Err ValueError.
Proof.
  intros dims levels out ty me ks1 ks2 k r d g prog1 prog2 Hne Hd Hlen Hv Hw HF1 Hok1 HF2 Hok2 Hr H1 Hlt Ha Hden Hg.
  set (D := nth r dims 0) in *.
  assert (Ep : nth r (put dims r d) 0 = d) by (change (level (put dims r d) r = d); rewrite level_put, Nat.eqb_refl by exact Hr; reflexivity).
  assert (Hs : exists bad good k' g', denotes dims k' g' /\ gate_ok dims g' /\ alike bad good /\
     (exists m, unitary NB bad = Ok m) /\
     (forall c : circuit, shaped dims c -> api c k = add_moment c (RInt (Z.of_nat r)) bad /\ api c k' = add_moment c (RInt (Z.of_nat r)) good)).
  { assert (V : forall c : circuit, shaped dims c -> validate1 c (Z.of_nat r) (Some (Z.of_nat d)) = Ok tt).
    { intros c Hc. unfold validate1. rewrite (sh_len Hc). destruct (Z.ltb_spec (Z.of_nat (length dims) - 1) (Z.of_nat r)); [lia|].
      rewrite (@sh_get S dims c Hc r Hr). destruct (Z.of_nat d =? 0)%Z; [reflexivity|]. cbn [bind].
      destruct (Z.ltb_spec (Z.of_nat (nth r dims 0)) (Z.of_nat d)); [fold D in H; lia | reflexivity]. }
    assert (V' : forall c : circuit, shaped dims c -> validate1 c (Z.of_nat r) None = Ok tt).
    { intros c Hc. apply (validate1_ok Hc Hr). left; reflexivity. }
    assert (O : forall c : circuit, shaped dims c -> dims_or c (Some (Z.of_nat d)) (Z.of_nat r) = Ok (Z.of_nat d)).
    { intros c Hc. unfold dims_or. destruct (Z.eqb_spec (Z.of_nat d) 0); [lia | reflexivity]. }
    assert (O' : forall c : circuit, shaped dims c -> dims_or c None (Z.of_nat r) = Ok (Z.of_nat D)).
    { intros c Hc. apply (dims_or_ok Hc Hr). left; reflexivity. }
    assert (AL : forall o o' : op, is_igate o = is_igate o' -> is_hxz o = is_hxz o' -> is_meas o = is_meas o' -> qreg_of o = qreg_of o' ->
       acting_members o = acting_members o' -> alike o o').
    { intros o o' X1 X2 X3 X4 X5. unfold alike. rewrite X1, X2, X3, X4, X5. repeat split. apply rr_refl. reflexivity. }
    destruct Hden; cbn [asks_one] in Ha; try contradiction; destruct Ha as [Er Ed]; apply Nat2Z.inj in Er; subst r0 dm.
    - exists (OX (Z.of_nat r) (Z.of_nat d) p), (OX (Z.of_nat r) (Z.of_nat D) 0), (CX (Z.of_nat r) None 0), (GX r 0).
      split; [constructor; left; reflexivity|]. split; [split; [exact Hr | fold D; lia]|]. split; [apply AL; reflexivity|]. split.
      + destruct Hg as [_ Hg]. rewrite Ep in Hg. destruct (@x_unitary_spec S d p Hg) as [M [E _]]. cbn [unitary]. rewrite E. eexists; reflexivity.
      + intros c Hc. cbn [api]. rewrite V, V', O, O' by exact Hc. split; reflexivity.
    - exists (OH (Z.of_nat r) (Z.of_nat d)), (OH (Z.of_nat r) (Z.of_nat D)), (CH (Z.of_nat r) None), (GH r).
      split; [constructor; left; reflexivity|]. split; [exact Hr|]. split; [apply AL; reflexivity|]. split.
      + destruct (@h_unitary_spec S L d H1) as [M [E _]]. cbn [unitary]. rewrite E. eexists; reflexivity.
      + intros c Hc. cbn [api]. rewrite V, V', O, O' by exact Hc. split; reflexivity.
    - exists (OZ (Z.of_nat r) (Z.of_nat d)), (OZ (Z.of_nat r) (Z.of_nat D)), (CZ (Z.of_nat r) None), (GZ r).
      split; [constructor; left; reflexivity|]. split; [exact Hr|]. split; [apply AL; reflexivity|]. split.
      + destruct (@z_unitary_spec S L d) as [M [E _]]. cbn [unitary]. rewrite E. eexists; reflexivity.
      + intros c Hc. cbn [api]. rewrite V, V', O, O' by exact Hc. split; reflexivity.
    - rewrite Ep in *. set (U := deye S D D).
      exists (OArb (RInt (Z.of_nat r)) (RInt (Z.of_nat d)) M), (OArb (RInt (Z.of_nat r)) (RInt (Z.of_nat D)) U),
        (CGate U (RInt (Z.of_nat r)) None), (GU r (fun i j => if Nat.eqb i j then s1 else s0)).
      split; [constructor; [left; reflexivity | reflexivity | reflexivity |]; intros i j Hi Hj; unfold U, deye; rewrite mget_mkmat by assumption; reflexivity|].
      split; [split; [exact Hr | apply (identity_rows L)]|]. split; [apply AL; reflexivity|]. split.
      + destruct Hg as [_ Hg]. rewrite Ep in Hg. cbn [unitary]. unfold arb_unitary.
        rewrite (@unitary_rows S L d M u) by assumption. replace (mr M) with d by congruence. replace (mc M) with d by congruence.
        rewrite Z.eqb_refl. eexists; reflexivity.
      + intros c Hc. cbn [api validate]. rewrite V, V' by exact Hc. cbn [bind]. rewrite O, O' by exact Hc. split; reflexivity. }
  destruct Hs as [bad [good [k' [g' [K1 [K2 [K3 [K4 K5]]]]]]]].
  set (R := fun o o' : op => o = o' \/ o = bad /\ o' = good).
  assert (Rr : forall o, R o o) by (left; reflexivity).
  assert (Ra : forall o o', R o o' -> alike o o').
  { intros o o' [->|[-> ->]]; [apply alike_refl | exact K3]. }
  apply (@exact_mismatch R Rr Ra) with (ty := ty) (me := me) (k' := k') (prog1 := prog1) (prog2 := prog2) (g := g'); auto.
  - intros o o' m [->|[-> ->]] Hm; [eauto | exact K4].
  - intros c Hc. destruct (K5 c Hc) as [-> ->]. apply (@add_moment_rel S R Rr Ra); auto.
    + apply crel_refl. exact Rr.
    + reflexivity.
    + right. auto.
  - intros c Hc Hm. eapply (@too_small_flow S L dims); [exact Hc | exact Hm | exact Ha | exact Hr | lia | fold D; lia | |].
    + eapply asks_tame; eassumption.
    + apply Forall_app. split; [eapply asks_tame; eassumption | repeat constructor].
Qed.

End ExactShape.
