(** * MplLib: lemmas about the matplotlib drawing. *)
From Coq Require Import String.
From Verif Require Import Py Scalar Mat Utils Gates Circuit Spec Calls HistSpec Lib GateTof Flow History Construct Errors BadGates Info InfoSpec InfoLib Draw DrawSpec DrawLib.
Set Implicit Arguments.
Local Notation length := List.length.

Section MplLib.
Variable S : scalar.
Notation op := (op S).
Notation circuit := (circuit S).
Notation call := (call S).

(** ** Lowest and highest register *)
Lemma lowest_spec : forall l, l <> [] -> In (lowest l) l /\ forall x, In x l -> (lowest l <= x)%Z.
Proof.
  intros [|a l] H; [congruence|]. unfold lowest. cbn [hd]. clear H.
  assert (G : forall m, (fold_right Z.min a m = a \/ In (fold_right Z.min a m) m) /\ forall x, In x m -> (fold_right Z.min a m <= x)%Z).
  { induction m as [|b m [I1 I2]]; [split; [left; reflexivity | contradiction]|]. cbn [fold_right].
    destruct (Z.min_spec b (fold_right Z.min a m)) as [[L ->]|[L ->]].
    - split; [right; left; reflexivity|]. intros x [<-|Hx]; [lia|]. specialize (I2 x Hx). lia.
    - split; [destruct I1 as [E|I1]; [left; exact E | right; right; exact I1]|]. intros x [<-|Hx]; [lia|]. apply I2; exact Hx. }
  destruct (G (a :: l)) as [[G1|G1] G2]; (split; [|exact G2]); [rewrite G1; left; reflexivity | exact G1].
Qed.

Lemma highest_spec : forall l, l <> [] -> In (highest l) l /\ forall x, In x l -> (x <= highest l)%Z.
Proof.
  intros [|a l] H; [congruence|]. unfold highest. cbn [hd]. clear H.
  assert (G : forall m, (fold_right Z.max a m = a \/ In (fold_right Z.max a m) m) /\ forall x, In x m -> (x <= fold_right Z.max a m)%Z).
  { induction m as [|b m [I1 I2]]; [split; [left; reflexivity | contradiction]|]. cbn [fold_right].
    destruct (Z.max_spec b (fold_right Z.max a m)) as [[L ->]|[L ->]].
    - split; [destruct I1 as [E|I1]; [left; exact E | right; right; exact I1]|]. intros x [<-|Hx]; [lia|]. apply I2; exact Hx.
    - split; [right; left; reflexivity|]. intros x [<-|Hx]; [lia|]. specialize (I2 x Hx). lia. }
  destruct (G (a :: l)) as [[G1|G1] G2]; (split; [|exact G2]); [rewrite G1; left; reflexivity | exact G1].
Qed.

Lemma lowest_is : forall l m, In m l -> (forall x, In x l -> (m <= x)%Z) -> lowest l = m.
Proof.
  intros l m Hm H. assert (Hl : l <> []) by (destruct l; [contradiction | discriminate]).
  destruct (lowest_spec Hl) as [A B]. specialize (B m Hm). specialize (H _ A). lia.
Qed.
Lemma highest_is : forall l m, In m l -> (forall x, In x l -> (x <= m)%Z) -> highest l = m.
Proof.
  intros l m Hm H. assert (Hl : l <> []) by (destruct l; [contradiction | discriminate]).
  destruct (highest_spec Hl) as [A B]. specialize (B m Hm). specialize (H _ A). lia.
Qed.

Lemma py_min_lowest : forall l, l <> [] -> py_min l = Ok (lowest l).
Proof. intros [|x l] H; [congruence|]. destruct (py_min_ex x l) as [m [-> [I B]]]. f_equal. symmetry. apply lowest_is; assumption. Qed.
Lemma py_max_highest : forall l, l <> [] -> py_max l = Ok (highest l).
Proof. intros [|x l] H; [congruence|]. destruct (py_max_ex x l) as [m [-> [I B]]]. f_equal. symmetry. apply highest_is; assumption. Qed.

(** ** The look-up *)
Definition span_dims (l : list Z) (lo hi : Z) (ds : list Z) : Prop :=
  length ds = Z.to_nat (hi - lo + 1) /\ forall k, k < length ds -> nth k ds 0%Z = nth (Z.to_nat lo + k) l 0%Z.

Lemma looked : forall l lo hi ds r, span_dims l lo hi ds -> (0 <= lo)%Z -> (0 <= r)%Z ->
  py_get ds r = if (hi <? lo + r)%Z then Err IndexError else Ok (nth (Z.to_nat (lo + r)) l 0%Z).
Proof.
  intros l lo hi ds r [E N] Hlo Hr. unfold py_get.
  destruct (Z.ltb_spec hi (lo + r)) as [H|H].
  - replace (py_index (length ds) r) with (@None nat); [reflexivity|]. symmetry. unfold py_index.
    rewrite (proj2 (Z.leb_le 0 r)) by lia. cbn [andb]. rewrite (proj2 (Z.ltb_ge r _)) by lia.
    replace (r <? 0)%Z with false by (symmetry; apply Z.ltb_ge; lia). rewrite ?andb_false_r. reflexivity.
  - rewrite py_index_in by lia. rewrite (nth_error_nth' ds 0%Z) by lia. rewrite N by lia. f_equal. f_equal. lia.
Qed.

Lemma slice_span : forall l a b, (0 <= a)%Z -> (a <= b < Z.of_nat (length l))%Z -> span_dims l a b (py_slice l a (b + 1)).
Proof.
  intros l a b Ha Hb. unfold py_slice, py_clip.
  replace (b + 1 <? 0)%Z with false by (symmetry; apply Z.ltb_ge; lia).
  replace (a <? 0)%Z with false by (symmetry; apply Z.ltb_ge; lia).
  rewrite !Nat.min_l by lia. split.
  - rewrite firstn_length, skipn_length. lia.
  - intros k Hk. rewrite firstn_length, skipn_length in Hk. rewrite nth_firstn', nth_skipn' by lia. reflexivity.
Qed.

Lemma get_span : forall l lo hi ds, (0 <= lo)%Z -> (hi < Z.of_nat (length l))%Z ->
  mapM (py_get l) (zrange lo (hi + 1)) = Ok ds -> span_dims l lo hi ds.
Proof.
  intros l lo hi ds Hlo Hhi H. unfold zrange in H. rewrite mapM_map in H.
  rewrite mapM_ok with (g := fun k => nth (Z.to_nat lo + k) l 0%Z) in H.
  - injection H as <-. split; [rewrite map_length, seq_length; lia|]. intros k Hk. rewrite map_length, seq_length in Hk.
    rewrite (nth_indep _ 0%Z (nth (Z.to_nat lo + 0) l 0%Z)) by (rewrite map_length, seq_length; lia).
    rewrite (map_nth (fun k => nth (Z.to_nat lo + k) l 0%Z) _ 0). rewrite seq_nth by lia. reflexivity.
  - intros k Hk. apply in_seq in Hk. unfold py_get. rewrite py_index_in by lia.
    rewrite (nth_error_nth' l 0%Z) by lia. f_equal. f_equal. lia.
Qed.

(** ** The operations of a history *)
Lemma history_ops : forall (P : call -> Prop) l init out ks (c : circuit), history (QList l) init out ks c -> Forall P ks ->
  forall lay o, In lay (layers_of c) -> In o lay ->
  is_init o = true \/ (exists q, o = OMeas q) \/ (from_calls c P o /\ occupies (length l) o <> []).
Proof.
  intros P l init out ks c H HP lay o Hlay Ho. destruct (history_full H HP) as [l0 [ls [I HF]]]. cbn [nregs] in I.
  change (layers_of c) with (layers c) in Hlay. rewrite (i_list I) in Hlay. destruct Hlay as [<-|Hlay].
  - left. destruct (i_m0 I) as [A _]. rewrite forallb_forall in A. apply A; exact Ho.
  - right. apply in_app_iff in Hlay as [Hl|Hl].
    + right. split; [apply HF; unfold gate_ops; apply in_concat; eauto|]. pose proof (i_tile I) as T. rewrite Forall_forall in T. apply (proj2 (T lay Hl)). exact Ho.
    + left. destruct (_ && _); [|contradiction]. destruct Hl as [<-|[]]. apply in_map_iff in Ho as [i [<- _]]. eauto.
Qed.

Lemma cx_dims : forall l init out ks (c : circuit), history (QList l) init out ks c ->
  forall lay ds s t p, In lay (layers_of c) -> In (OCX ds [s; t] p) lay ->
  (0 <= s < Z.of_nat (length l))%Z -> (0 <= t < Z.of_nat (length l))%Z -> span_dims l (Z.min s t) (Z.max s t) ds.
Proof.
  intros l init out ks c H lay ds s t p Hlay Ho Hs Ht.
  destruct (@history_ops (fun _ => True) _ _ _ _ _ H ltac:(apply Forall_forall; auto) _ _ Hlay Ho) as [A|[[q A]|[A _]]]; try discriminate.
  destruct A as [[i [_ A]]|[k [_ A]]]; [discriminate|]. inversion A; subst.
  destruct (history_layout H) as [_ [_ [-> _]]].
  repeat match goal with
  | HH : py_get [s; t] 0 = Ok ?x |- _ => change (Ok s = Ok x) in HH; injection HH as <-
  | HH : py_get [s; t] 1 = Ok ?x |- _ => change (Ok t = Ok x) in HH; injection HH as <-
  end.
  destruct (Z.ltb_spec s t).
  - rewrite Z.min_l, Z.max_r by lia. apply slice_span; lia.
  - rewrite Z.min_r, Z.max_l by lia. apply slice_span; lia.
Qed.

Lemma tof_dims : forall l init out ks (c : circuit), history (QList l) init out ks c ->
  forall lay cs t p ds acting u, In lay (layers_of c) -> In (OTof cs t p ds acting u) lay ->
  (forall r, In r (t :: cs) -> (0 <= r < Z.of_nat (length l))%Z) -> span_dims l (lowest (t :: cs)) (highest (t :: cs)) ds.
Proof.
  intros l init out ks c H lay cs t p ds acting u Hlay Ho Hr.
  destruct (@history_ops (fun _ => True) _ _ _ _ _ H ltac:(apply Forall_forall; auto) _ _ Hlay Ho) as [A|[[q A]|[A _]]]; try discriminate.
  destruct A as [[i [_ A]]|[k [_ A]]]; [discriminate|]. inversion A; subst.
  rewrite (history_qregs H) in *. cbn [qregs_list] in *.
  match goal with HH : mk_toffoli _ _ _ _ _ = _ |- _ => rename HH into E end.
  pose proof E as E0. apply mk_toffoli_shape in E0 as [lb [ub [ds' [u' [E1 [E2 E0]]]]]]. injection E0 as <- -> <-.
  unfold mk_toffoli in E. apply History.bind_ok in E as [[[u1 lb1] ub1] [_ E]]. apply History.bind_ok in E as [ds1 [E E3]].
  assert (X1 : zrange lb1 (ub1 + 1) = zrange lb (ub + 1)) by (injection E3; congruence).
  assert (X2 : ds1 = ds) by (injection E3; congruence). rewrite X1 in E. subst ds1. clear E3 X1.
  assert (F1 : py_min (t :: cs) = Ok lb) by (eapply py_min_perm; [|exact E1]; intros x; apply in_snoc_cons).
  assert (F2 : py_max (t :: cs) = Ok ub) by (eapply py_max_perm; [|exact E2]; intros x; apply in_snoc_cons).
  rewrite py_min_lowest in F1 by discriminate. rewrite py_max_highest in F2 by discriminate.
  injection F1 as <-. injection F2 as <-.
  destruct (@lowest_spec (t :: cs)) as [L1 _]; [discriminate|]. destruct (@highest_spec (t :: cs)) as [L2 _]; [discriminate|].
  apply get_span; [apply (Hr _ L1) | apply (Hr _ L2) | exact E].
Qed.

(** ** One operation *)
Lemma cgate_joined : forall cs t p d, cs <> [] ->
  draw_cgate "X" cs t p d = Ok [MText t (shift_sign p d); joined cs t].
Proof.
  intros cs t p d Hc. unfold draw_cgate. rewrite py_min_lowest, py_max_highest by exact Hc. cbn [bind].
  assert (E1 : (if (t <? lowest cs)%Z then t else lowest cs) = lowest (t :: cs)).
  { symmetry. destruct (lowest_spec Hc) as [A B]. apply lowest_is; destruct (Z.ltb_spec t (lowest cs)).
    - left; reflexivity.
    - right; exact A.
    - intros x [<-|Hx]; [lia|]. specialize (B x Hx). lia.
    - intros x [<-|Hx]; [lia|]. apply B; exact Hx. }
  assert (E2 : (if (highest cs <? t)%Z then t else highest cs) = highest (t :: cs)).
  { symmetry. destruct (highest_spec Hc) as [A B]. apply highest_is; destruct (Z.ltb_spec (highest cs) t).
    - left; reflexivity.
    - right; exact A.
    - intros x [<-|Hx]; [lia|]. specialize (B x Hx). lia.
    - intros x [<-|Hx]; [lia|]. apply B; exact Hx. }
  rewrite E1, E2. unfold joined, zrange.
  replace (highest (t :: cs) + 1 - lowest (t :: cs))%Z with (highest (t :: cs) - lowest (t :: cs) + 1)%Z by lia. reflexivity.
Qed.

Theorem cx_label : forall l init out ks (c : circuit), history (QList l) init out ks c ->
  forall lay ds s t p, In lay (layers_of c) -> In (OCX ds [s; t] p) lay ->
  (0 <= s < Z.of_nat (length l))%Z -> (0 <= t < Z.of_nat (length l))%Z ->
  draw_gate (OCX ds [s; t] p : op)
  = if ((s =? 0) || (t =? 0))%Z then Ok (mark_of l (OCX ds [s; t] p : op)) else Err IndexError.
Proof.
  intros l init out ks c H lay ds s t p Hlay Ho Hs Ht. assert (Sp : span_dims l (Z.min s t) (Z.max s t) ds) by (eapply cx_dims; eauto).
  cbn [draw_gate draw_cnot_gate]. rewrite !(@looked _ _ _ _ _ Sp) by lia.
  destruct (Z.eqb_spec s 0) as [Es|Es], (Z.eqb_spec t 0) as [Et|Et]; cbn [orb].
  1-3: rewrite (proj2 (Z.ltb_ge (Z.max s t) (Z.min s t + t))), (proj2 (Z.ltb_ge (Z.max s t) (Z.min s t + s))) by lia;
    replace (Z.min s t + t)%Z with t by lia; replace (Z.min s t + s)%Z with s by lia; cbn [bind mark_of nth];
    destruct (_ && _); [reflexivity|]; apply cgate_joined; discriminate.
  destruct (Z.ltb_spec (Z.max s t) (Z.min s t + t)); [reflexivity|]. cbn [bind].
  rewrite (proj2 (Z.ltb_lt (Z.max s t) (Z.min s t + s))) by lia. reflexivity.
Qed.

Theorem tof_label : forall l init out ks (c : circuit), history (QList l) init out ks c ->
  forall lay cs t p ds acting u, In lay (layers_of c) -> In (OTof cs t p ds acting u) lay -> cs <> [] ->
  (forall r, In r (t :: cs) -> (0 <= r < Z.of_nat (length l))%Z) ->
  draw_gate (OTof cs t p ds acting u : op)
  = if (highest (t :: cs) <? lowest (t :: cs) + t)%Z then Err IndexError
    else Ok [MText t (shift_sign p (nth (Z.to_nat (lowest (t :: cs) + t)) l 0%Z)); joined cs t].
Proof.
  intros l init out ks c H lay cs t p ds acting u Hlay Ho Hc Hr. assert (Sp : span_dims l (lowest (t :: cs)) (highest (t :: cs)) ds) by (eapply tof_dims; eauto).
  destruct (@lowest_spec (t :: cs)) as [L1 _]; [discriminate|].
  cbn [draw_gate]. unfold draw_toffoli_gate. rewrite (@looked _ _ _ _ _ Sp); [|apply (Hr _ L1) | apply (Hr t); left; reflexivity].
  destruct (_ <? _)%Z; [reflexivity|]. cbn [bind]. apply cgate_joined; exact Hc.
Qed.

(** ** The whole figure *)
Theorem figure_fails : forall (c : circuit) lay o e, In lay (layers_of c) -> In o lay -> draw_gate o = Err e ->
  exists e', draw_circuit_mpl c = Err e'.
Proof.
  intros c lay o e Hlay Ho He. unfold draw_circuit_mpl.
  destruct (py_get _ 1) as [?|?]; [|eexists; reflexivity]. cbn [bind]. destruct (py_get _ 0) as [first|?]; [|eexists; reflexivity]. cbn [bind].
  destruct (mapM _ (combine _ _)) as [?|?]; [|eexists; reflexivity]. cbn [bind].
  unfold layers_of in Hlay. apply in_map_iff in Hlay as [m [<- Hm]].
  destruct (@mapM_some_err _ _ (@draw_gate S) _ _ _ Ho He) as [e1 E1].
  destruct (@mapM_some_err _ _ (fun m : moment S => l <- mapM (@draw_gate S) (m_list m) ;; Ok (concat l)) _ m e1 Hm) as [e2 E2].
  - rewrite E1. reflexivity.
  - rewrite E2. eexists. reflexivity.
Qed.

Theorem figure : forall l init out ks (c : circuit), history (QList l) init out ks c ->
  Forall (@from_zero S (length l)) ks -> 2 <= length (layers_of c) ->
  draw_circuit_mpl c
  = Ok (length l, wires (hd [] (layers_of c)), map (fun lay => concat (map (mark_of l) lay)) (layers_of c)).
Proof.
  intros l init out ks c H HP Hlen. destruct (history_full H HP) as [l0 [ls [I _]]]. cbn [nregs] in I.
  pose proof (i_list I) as EL. unfold layers in EL.
  assert (Hops : forall lay o, In lay (layers_of c) -> In o lay -> draw_gate o = Ok (mark_of l o)).
  { intros lay o Hlay Ho. destruct (history_ops H HP _ _ Hlay Ho) as [A|[[q ->]|[A Hocc]]].
    - destruct o; try discriminate. reflexivity.
    - reflexivity.
    - destruct A as [[i [_ ->]]|[k [Hk Hi]]]; [reflexivity|]. destruct Hi; cbn [from_zero] in Hk; try reflexivity.
      + destruct Hk as [s [t [-> [Hs [Ht Hz]]]]].
        etransitivity; [eapply cx_label; eauto|].
        replace ((s =? 0) || (t =? 0))%Z with true; [reflexivity|]. symmetry. apply orb_true_iff. rewrite !Z.eqb_eq. exact Hz.
      + destruct Hk as [Hc [Hz Hr]]. etransitivity; [eapply tof_label; eauto|]. cbn [mark_of].
        assert (E : lowest (t :: cs) = 0%Z) by (apply lowest_is; [exact Hz | intros x Hx; apply Hr in Hx; lia]).
        rewrite E. destruct (@highest_spec (t :: cs)) as [_ Hh]; [discriminate|].
        rewrite (proj2 (Z.ltb_ge (highest (t :: cs)) (0 + t))) by (specialize (Hh t (or_introl eq_refl)); lia). reflexivity.
      + destruct l1 as [|q1 [|q2 qs]].
        * exfalso. apply Hocc. unfold occupies. clear. induction (seq _ _) as [|x xs IH]; [reflexivity|]. simpl. exact IH.
        * reflexivity.
        * cbn [draw_gate draw_arbitrary_gate mark_of]. rewrite py_max_highest, py_min_lowest by discriminate. reflexivity. }
  unfold draw_circuit_mpl. unfold layers_of in *. rewrite map_length in Hlen.
  destruct (f_list (c_flow c)) as [|m0 [|m1 ms]] eqn:Em; [simpl in Hlen; lia.. |].
  replace (py_get (m0 :: m1 :: ms) 1) with (Ok m1).
  2: { unfold py_get. rewrite py_index_in by (simpl length; lia). reflexivity. }
  replace (py_get (m0 :: m1 :: ms) 0) with (Ok m0).
  2: { unfold py_get. rewrite py_index_in by (simpl length; lia). reflexivity. }
  cbn [bind]. set (mm := m0 :: m1 :: ms) in *.
  rewrite mapM_ok with (g := fun '(r, o) => match o : op with OInit d s _ _ => wire_sign r d s | _ => ""%string end).
  - cbn [bind]. rewrite mapM_ok with (g := fun m => concat (map (mark_of l) (m_list m))).
    + cbn [bind]. rewrite (history_qregs H). cbn [qregs_list]. rewrite map_map. reflexivity.
    + intros m Hm. rewrite mapM_ok with (g := mark_of l); [reflexivity|]. intros o Ho.
      apply (Hops (m_list m)); [apply in_map; exact Hm | exact Ho].
  - intros [r o] Hin. apply in_combine_r in Hin. assert (A := i_m0 I). injection EL as E0 _. rewrite <- E0 in A.
    destruct A as [A _]. rewrite forallb_forall in A. specialize (A o Hin). destruct o; try discriminate. reflexivity.
Qed.

Theorem no_layer_no_figure : forall (c : circuit), length (layers_of c) < 2 -> draw_circuit_mpl c = Err IndexError.
Proof.
  intros c H. unfold draw_circuit_mpl, layers_of in *. rewrite map_length in H.
  destruct (f_list (c_flow c)) as [|m0 [|m1 ms]]; [reflexivity | reflexivity | simpl in H; lia].
Qed.

(** A placed gate stays in the circuit. *)
Lemma placed : forall q init out ks (c : circuit) k g rest, history q init out ks c -> 0 < nregs q ->
  ~ In CMeasureAll ks -> issues c k g -> occupies (nregs q) g <> [] ->
  exists lay, In lay (layers_of (after c (k :: rest))) /\ In g lay.
Proof.
  intros q init out ks c k g rest H Hn Hm Hi Ho.
  destruct (accepts H Hn Hm Hi (occupies_regs _ _ Ho)) as [c' E].
  assert (Hk : k <> CMeasureAll) by (intros ->; inversion Hi).
  destruct (history_inv H) as [l0 [ls I]].
  assert (Em : (0 <? nregs q) && existsb (@is_measure_all S) ks = false).
  { destruct (existsb _ ks) eqn:X; [|apply andb_false_r]. apply measured_in in X. contradiction. }
  rewrite Em in I.
  destruct (inv_gate I Hk E) as [[[X|X] _]|[_ [_ [_ [g' [lo [hi [ls' [Hi' [Hr [Had [I' _]]]]]]]]]]]]; [discriminate | lia |].
  assert (g' = g) by (eapply issues_fun; eauto). subst g'.
  assert (Hin : In g (gate_ops ls')).
  { apply (added_ops Had). rewrite (occupies_ranges _ Hr) in Ho.
    destruct (Nat.ltb_spec (lowr (nregs q) lo) (highr (nregs q) lo hi)) as [Hlt|Hge]; [exact Hlt|].
    exfalso. apply Ho. replace (_ - _) with 0 by lia. reflexivity. }
  change (after c (k :: rest)) with (after (step c k) rest).
  replace (step c k) with c' by (unfold step; rewrite E; reflexivity).
  destruct (after_keep rest I') as [m2 [ls2 [I2 K]]].
  specialize (K g Hin (issues_not_igate Hi)). unfold gate_ops in K. apply in_concat in K as [lay [Hl Hg]].
  exists lay. split; [|exact Hg]. change (layers_of (after c' rest)) with (layers (after c' rest)). rewrite (i_list I2).
  right. apply in_app_iff. left. exact Hl.
Qed.

Theorem cx_spoils : forall l init out ks (c : circuit) s t p rest, history (QList l) init out ks c -> ~ In CMeasureAll ks ->
  (0 < s < Z.of_nat (length l))%Z -> (0 < t < Z.of_nat (length l))%Z ->
  exists e, draw_circuit_mpl (after c (CCX [s; t] p :: rest)) = Err e.
Proof.
  intros l init out ks c s t p rest H Hm Hs Ht.
  destruct (@placed _ _ _ _ _ (CCX [s; t] p) _ rest H ltac:(simpl; lia) Hm (is_cx c [s; t] p eq_refl eq_refl)) as [lay [Hl Ho]].
  - intros X. assert (Hc : In (Z.to_nat s) (occupies (nregs (QList l)) (OCX (if (s <? t)%Z then py_slice (c_dims c) s (t + 1) else py_slice (c_dims c) t (s + 1)) [s; t] p : op))).
    { unfold occupies. apply filter_In. split; [apply in_seq; simpl; lia|]. unfold covers. simpl. rewrite Z2Nat.id by lia.
      rewrite Z.leb_refl. reflexivity. }
    rewrite X in Hc. contradiction.
  - assert (H2 : history (QList l) init out (ks ++ CCX [s; t] p :: rest) (after c (CCX [s; t] p :: rest))).
    { destruct H as [c0 [H0 ->]]. exists c0. split; [exact H0|]. unfold after. rewrite fold_left_app. reflexivity. }
    assert (E : draw_gate (OCX (if (s <? t)%Z then py_slice (c_dims c) s (t + 1) else py_slice (c_dims c) t (s + 1)) [s; t] p : op) = Err IndexError).
    { etransitivity; [eapply cx_label; eauto; lia|].
      replace ((s =? 0) || (t =? 0))%Z with false; [reflexivity|]. symmetry. apply orb_false_iff. rewrite !Z.eqb_neq. lia. }
    eapply figure_fails; eauto.
Qed.
End MplLib.
