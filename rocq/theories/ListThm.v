(** * ListThm: facts about list_call. *)
From Verif Require Import Py Scalar Mat Utils Gates Circuit Spec Calls HistSpec CallSpec ShapeSpec InfoSpec Lib Kern GateMat GateTof Flow Layers Blocks Refine History Merge Errors Construct Ignored BadGates Reject Shapes OneList ListRegs.
Set Implicit Arguments.

Section ListThm.
Variable S : scalar.
Notation op := (op S).
Notation mat := (mat S).
Notation circuit := (circuit S).
Notation call := (call S).
Notation NB := (NumpyBackend S).

Lemma gate_of_regs : forall m q d, registers (gate_of S m q d) = [q].
Proof. intros [|p|] q d; reflexivity. Qed.
Lemma gate_of_hxz : forall m q d, is_hxz (gate_of S m q d) = true.
Proof. intros [|p|] q d; reflexivity. Qed.
Lemma gate_of_meas : forall m q d, is_meas (gate_of S m q d) = false.
Proof. intros [|p|] q d; reflexivity. Qed.

(** ** Checks *)
Lemma validate_list : forall (c : circuit) l dims, (forall q, In q l -> validate1 c q dims = Ok tt) -> validate c (RList l) dims = Ok tt.
Proof.
  intros c l dims H. unfold validate.
  assert (E : exists us, mapM (fun q => validate1 c q dims) l = Ok us).
  { induction l as [|q l IH]; [eexists; reflexivity|]. cbn [mapM]. rewrite H by (left; reflexivity). cbn [bind].
    destruct IH as [us E]; [intros x Hx; apply H; right; exact Hx|]. rewrite E. eexists; reflexivity. }
  destruct E as [us ->]. reflexivity.
Qed.

Lemma falsy_validate : forall (c : circuit) l dims, dims = None \/ dims = Some 0%Z ->
  validate c (RList l) dims = if existsb (fun q => (c_len c - 1 <? q)%Z) l then Err ValueError else Ok tt.
Proof.
  intros c l dims Hd. unfold validate.
  assert (E : if existsb (fun q => (c_len c - 1 <? q)%Z) l then mapM (fun q => validate1 c q dims) l = Err ValueError
              else exists us, mapM (fun q => validate1 c q dims) l = Ok us).
  { induction l as [|q l IH]; [eexists; reflexivity|]. cbn [mapM existsb]. unfold validate1 at 1 3.
    destruct (c_len c - 1 <? q)%Z; cbn [orb].
    - reflexivity.
    - replace (match dims with None => Ok tt | Some d => if (d =? 0)%Z then Ok tt else r <- py_get (c_dims c) q ;; if (r <? d)%Z then Err ValueError else Ok tt end)
        with (@Ok unit tt) by (destruct Hd as [->| ->]; reflexivity). cbn [bind].
      destruct (existsb _ l); [rewrite IH; reflexivity|]. destruct IH as [us ->]. eexists; reflexivity. }
  destruct (existsb _ l); [rewrite E; reflexivity|]. destruct E as [us ->]. reflexivity.
Qed.

Theorem no_dims : forall (c : circuit) m l dims, dims = None \/ dims = Some 0%Z ->
  list_call c m l dims = Err (if existsb (fun q => (c_len c - 1 <? q)%Z) l then ValueError else TypeError).
Proof.
  intros c m l dims Hd. unfold list_call. rewrite (falsy_validate c l Hd).
  destruct (existsb _ l); [reflexivity|]. cbn [bind]. destruct Hd as [->| ->]; reflexivity.
Qed.

(** ** The last layer *)
Lemma get_list_none : forall n l gs, tiles n gs -> (forall o, In o gs -> is_init o = false) -> l <> [] ->
  (forall r, In r l -> (0 <= r < Z.of_nat n)%Z /\ exists d, In (OI r d : op) gs) -> get_list l gs = Ok None.
Proof.
  intros n l gs T Hi Hl H. destruct l as [|r l]; [contradiction|]. destruct (H r ltac:(left; reflexivity)) as [Hr [d Hd]].
  assert (N : forall cs t p ds a u, In (OTof cs t p ds a u) gs -> cs <> r :: l).
  { intros cs t p ds a u Ho ->.
    assert (O1 : In (Z.to_nat r) (occupies n (OTof (r :: l) t p ds a u : op))).
    { unfold occupies, covers. apply filter_In. split; [apply in_seq; lia|]. apply andb_true_iff.
      split; apply existsb_exists; exists r; (split; [right; left; reflexivity | apply Z.leb_le; lia]). }
    assert (O2 : In (Z.to_nat r) (occupies n (OI r d : op))).
    { unfold occupies, covers. apply filter_In. split; [apply in_seq; lia|]. apply andb_true_iff.
      split; apply existsb_exists; exists r; (split; [left; reflexivity | apply Z.leb_le; lia]). }
    assert (ND : NoDup (concat (map (occupies n) gs))) by (rewrite (proj1 T); apply seq_NoDup).
    clear - Ho Hd O1 O2 ND. apply in_split in Ho as [g1 [g2 ->]]. rewrite map_app, concat_app in ND. cbn [map concat] in ND.
    apply in_app_or in Hd. destruct Hd as [Hd|[Hd|Hd]]; [|discriminate|].
    - eapply (NoDup_app_disjoint _ _ (Z.to_nat r) ND).
      + apply in_concat. eexists. split; [apply in_map; exact Hd | exact O2].
      + apply in_or_app. left. exact O1.
    - assert (ND2 : NoDup (occupies n (OTof (r :: l) t p ds a u : op) ++ concat (map (occupies n) g2))).
      { clear - ND. induction (concat (map (occupies n) g1)) as [|x y IH]; [exact ND|]. inversion ND; auto. }
      eapply (NoDup_app_disjoint _ _ (Z.to_nat r) ND2); [exact O1|].
      apply in_concat. eexists. split; [apply in_map; exact Hd | exact O2]. }
  clear - N Hi. induction gs as [|g gs IH]; [reflexivity|]. cbn [get_list].
  assert (E : acts_on_list (r :: l) g = Ok false).
  { destruct g; try reflexivity.
    - specialize (Hi _ (or_introl eq_refl)). discriminate.
    - cbn [acts_on_list]. destruct (list_eq_dec Z.eq_dec (r :: l) controls) as [<-|]; [|reflexivity].
      exfalso. eapply N; [left; reflexivity | reflexivity]. }
  rewrite E. cbn [bind]. apply IH; [intros o Ho; apply Hi; right; exact Ho | intros; eapply N; right; eassumption].
Qed.

(** ** Calls that do not pass the checks *)
Theorem bad_list : forall dims init out ks (c : circuit) m l d q, history (QList (map Z.of_nat dims)) init out ks c ->
  (forall x, In x l -> (0 <= x)%Z) -> In q l ->
  (Z.of_nat (length dims) <= q \/ d <> 0 /\ Z.of_nat (nth (Z.to_nat q) dims 0%nat) < d)%Z ->
  list_call c m l (Some d) = Err ValueError.
Proof.
  intros dims init out ks c m l d q H Hp Hq Hb. pose proof (hl_shaped dims H) as Hs.
  assert (V : forall x, (0 <= x)%Z -> validate1 c x (Some d) = Ok tt \/ validate1 c x (Some d) = Err ValueError).
  { intros x Hx. unfold validate1. rewrite (sh_len Hs). destruct (Z.ltb_spec (Z.of_nat (length dims) - 1) x); [auto|].
    destruct (Z.eqb_spec d 0); [auto|]. rewrite <- (Z2Nat.id x) by lia. rewrite (sh_get Hs) by lia. cbn [bind].
    destruct (_ <? d)%Z; auto. }
  assert (B : validate1 c q (Some d) = Err ValueError).
  { pose proof (Hp q Hq) as Hq0. unfold validate1. rewrite (sh_len Hs). destruct (Z.ltb_spec (Z.of_nat (length dims) - 1) q); [reflexivity|].
    destruct Hb as [Hb|[Hb1 Hb2]]; [lia|]. destruct (Z.eqb_spec d 0); [contradiction|].
    rewrite <- (Z2Nat.id q) by lia. rewrite (sh_get Hs) by lia. cbn [bind].
    destruct (Z.ltb_spec (Z.of_nat (nth (Z.to_nat q) dims 0)) d); [reflexivity | lia]. }
  unfold list_call, validate.
  assert (E : mapM (fun r => validate1 c r (Some d)) l = Err ValueError).
  { clear - V B Hp Hq. induction l as [|x l IH]; [contradiction|]. cbn [mapM].
    destruct (V x (Hp x (or_introl eq_refl))) as [Vx|Vx]; rewrite Vx; [|reflexivity]. cbn [bind].
    destruct Hq as [->|Hq]; [rewrite B in Vx; discriminate|]. rewrite IH; [reflexivity | intros y Hy; apply Hp; right; exact Hy | exact Hq]. }
  rewrite E. reflexivity.
Qed.

Lemma list_len : forall dims init out ks (c : circuit), history (QList (map Z.of_nat dims)) init out ks c -> c_len c = Z.of_nat (length dims).
Proof. intros dims init out ks c H. exact (sh_len (hl_shaped dims H)). Qed.

Lemma existsb_none : forall A (f : A -> bool) l, (forall x, In x l -> f x = false) -> existsb f l = false.
Proof.
  intros A f l H. destruct (existsb f l) eqn:E; [|reflexivity]. apply existsb_exists in E as [x [Hx Ex]]. rewrite (H x Hx) in Ex. discriminate.
Qed.

Section Hist.
Variables (dims : list nat) (init : option (list Z)) (out : option output) (ks : list call) (c : circuit).
Hypothesis H : history (QList (map Z.of_nat dims)) init out ks c.
Notation n := (length dims).
Variables (m : method) (l : list Z) (d : Z).
Hypothesis Hd : d <> 0%Z.
Hypothesis Hl : l <> [].
Hypothesis Hin : forall q, In q l -> exists r, q = Z.of_nat r /\ r < n /\ (d <= Z.of_nat (nth r dims 0%nat))%Z.

Let Hn : 0 < n.
Proof. destruct l as [|q l']; [contradiction|]. destruct (Hin q (or_introl eq_refl)) as [r [_ [Hr _]]]. lia. Qed.

Lemma list_valid : validate c (RList l) (Some d) = Ok tt.
Proof.
  pose proof (hl_shaped dims H) as Hs. apply validate_list. intros q Hq. destruct (Hin q Hq) as [r [-> [Hr Hle]]].
  unfold validate1. rewrite (sh_len Hs), (sh_get Hs Hr). destruct (Z.ltb_spec (Z.of_nat n - 1) (Z.of_nat r)); [lia|].
  destruct (Z.eqb_spec d 0); [contradiction|]. cbn [bind]. destruct (Z.ltb_spec (Z.of_nat (nth r dims 0%nat)) d); [lia | reflexivity].
Qed.

(** The lowest and the highest register. *)
Lemma list_span : exists lo hi, py_min l = Ok (Z.of_nat lo) /\ py_max l = Ok (Z.of_nat hi) /\ lo <= hi /\ hi < n /\
  (d <= Z.of_nat (nth lo dims 0%nat))%Z /\ In (Z.of_nat lo) l /\ forall q, In q l -> (Z.of_nat lo <= q <= Z.of_nat hi)%Z.
Proof.
  destruct l as [|x l']; [contradiction|]. destruct (py_min_ex x l') as [a [A1 [A2 A3]]]. destruct (py_max_ex x l') as [b [B1 [B2 B3]]].
  destruct (Hin _ A2) as [lo [-> [L1 L2]]]. destruct (Hin _ B2) as [hi [-> [H1 _]]]. exists lo, hi.
  split; [exact A1|]. split; [exact B1|]. pose proof (A3 _ B2). split; [lia|]. split; [exact H1|]. split; [exact L2|].
  split; [exact A2|]. intros q Hq. split; [apply A3 | apply B3]; exact Hq.
Qed.

(** After measure_all nothing is added. *)
Theorem call_measured : In CMeasureAll ks -> list_call c m l (Some d) = Ok (c, false).
Proof.
  intros Hme. destruct (history_inv H) as [l0 [ls I]]. rewrite (hl_nregs dims) in I.
  apply measured_in in Hme. rewrite Hme, andb_true_r, (proj2 (Nat.ltb_lt 0 n) Hn) in I.
  destruct list_span as [lo [hi [E1 [E2 _]]]].
  unfold list_call. rewrite list_valid. cbn [bind]. destruct (Z.eqb_spec d 0) as [|Hd0]; [contradiction|]. cbn [bind]. rewrite E1. cbn [bind].
  rewrite (@moment_data_list S c l _ _ _ (i_len I) E1 E2). cbn [bind]. unfold populate_list.
  destruct (rev (f_list (c_flow c))) as [|last before] eqn:Er.
  { exfalso. apply (f_equal (@rev _)) in Er. rewrite rev_involutive in Er. pose proof (i_list I) as El. unfold layers in El. rewrite Er in El. discriminate. }
  rewrite (i_meas I), forallb_repeat, orb_true_r. cbn [bind]. destruct c; reflexivity.
Qed.

Hypothesis Hm : ~ In CMeasureAll ks.
Lemma list_inv : exists l0 ls, inv n c false l0 ls.
Proof.
  destruct (history_inv H) as [l0 [ls I]]. rewrite (hl_nregs dims) in I. exists l0, ls.
  destruct (existsb (@is_measure_all S) ks) eqn:E; [apply measured_in in E; contradiction|].
  rewrite andb_false_r in I. exact I.
Qed.

Definition appended (lo hi : Z) : circuit :=
  with_layer c (layer_list (c_dims c) lo hi (gate_of S m lo d) n).

Lemma appended_layers : forall lo hi, layers_of (appended lo hi) = layers_of c ++ [layer_list (c_dims c) lo hi (gate_of S m lo d) n].
Proof. intros lo hi. unfold layers_of, appended, with_layer. cbn [c_flow set_flow f_list]. rewrite layers_append. reflexivity. Qed.

Lemma call_eq : forall lo hi, py_min l = Ok (Z.of_nat lo) -> py_max l = Ok (Z.of_nat hi) -> lo <= hi -> hi < n ->
  exists before last, f_list (c_flow c) = before ++ [last] /\
  list_call c m l (Some d) =
    if forallb (fun r => zmem r (map (@qreg_of S) (filter (@is_igate S) (m_list last)))) l
    then g <- get_list l (m_list last) ;;
         match g with None => Err TypeError | Some _ => Ok (appended (Z.of_nat lo) (Z.of_nat hi), true) end
    else Ok (appended (Z.of_nat lo) (Z.of_nat hi), true).
Proof.
  intros lo hi E1 E2 Hlh Hhi. destruct list_inv as [l0 [ls I]].
  unfold list_call. rewrite list_valid. cbn [bind]. destruct (Z.eqb_spec d 0) as [|Hd0]; [contradiction|]. cbn [bind]. rewrite E1. cbn [bind].
  rewrite (@moment_data_list S c l _ _ _ (i_len I) E1 E2). rewrite (i_dims I). cbn [bind]. unfold populate_list.
  destruct (rev (f_list (c_flow c))) as [|last before] eqn:Er.
  { exfalso. apply (f_equal (@rev _)) in Er. rewrite rev_involutive in Er. pose proof (i_list I) as El. unfold layers in El. rewrite Er in El. discriminate. }
  exists (rev before), last. split; [rewrite <- (rev_involutive (f_list (c_flow c))), Er; reflexivity|].
  rewrite (i_meas I), forallb_repeat. destruct (Nat.eqb_spec n 0) as [|Hn0]; [lia|]. cbn [orb mk_moment m_list].
  rewrite find_layer. destruct (Nat.ltb_spec (lowr n (Z.of_nat lo)) (highr n (Z.of_nat lo) (Z.of_nat hi))) as [_|X]; [|unfold highr, lowr in X; lia].
  rewrite gate_of_hxz.
  assert (D : detect_measurement 0 (layer_list (c_dims c) (Z.of_nat lo) (Z.of_nat hi) (gate_of S m (Z.of_nat lo) d) n) (repeat false n) = Ok (repeat false n)).
  { apply detect_none. apply forallb_forall. apply layer_forall; [reflexivity|]. rewrite gate_of_meas. reflexivity. }
  rewrite D. unfold appended, with_layer. rewrite (i_meas I).
  destruct (forallb _ l); cbn [bind]; [|reflexivity]. destruct (get_list l (m_list last)) as [[g|]|e]; reflexivity.
Qed.

(** Where the last layer is idle. *)
Lemma idle_last : forall before last q, f_list (c_flow c) = before ++ [last] ->
  idle_at_end c q <-> zmem q (map (@qreg_of S) (filter (@is_igate S) (m_list last))) = true.
Proof.
  intros before last q E. unfold idle_at_end, layers_of. rewrite E, map_app. cbn [map]. rewrite zmem_spec, in_map_iff. split.
  - intros [b [x [z [A B]]]]. apply app_inj_tail in A as [_ <-]. exists (OI q z). split; [reflexivity|]. apply filter_In. auto.
  - intros [o [A B]]. apply filter_In in B as [B1 B2]. destruct o; try discriminate. cbn in A. subst. eauto.
Qed.

Theorem call_idle : (forall q, In q l -> idle_at_end c q) -> list_call c m l (Some d) = Err TypeError.
Proof.
  intros Hi. destruct list_inv as [l0 [ls I]]. destruct list_span as [lo [hi [E1 [E2 [Hlh [Hhi _]]]]]].
  destruct (call_eq E1 E2 Hlh Hhi) as [before [last [Ef ->]]].
  assert (A : forallb (fun r => zmem r (map (@qreg_of S) (filter (@is_igate S) (m_list last)))) l = true).
  { apply forallb_forall. intros q Hq. apply (idle_last _ _ q Ef). apply Hi. exact Hq. }
  rewrite A.
  assert (X : exists lsb, ls = lsb ++ [m_list last]).
  { pose proof (i_list I) as El. unfold layers in El. rewrite app_nil_r, Ef, map_app in El. cbn [map] in El.
    destruct ls as [|lx ls2] using rev_ind.
    - destruct (map (@m_list S) before) as [|b0 [|]]; try discriminate. cbn in El. injection El as El.
      destruct l as [|q l']; [contradiction|]. cbn [forallb] in A. apply andb_true_iff in A as [A _].
      rewrite El, no_igate_init in A by apply (i_m0 I). discriminate.
    - clear IHls2. change (l0 :: ls2 ++ [lx]) with ((l0 :: ls2) ++ [lx]) in El. apply app_inj_tail in El as [_ <-]. eauto. }
  destruct X as [lsb ->].
  pose proof (i_tile I) as Ht. apply Forall_app in Ht as [_ Ht]. pose proof (Forall_inv Ht) as T.
  pose proof (i_gates I) as Hg. apply Forall_app in Hg as [_ Hg]. pose proof (Forall_inv Hg) as G.
  rewrite (@get_list_none n l (m_list last) T G Hl); [reflexivity|].
  intros r Hr. split; [destruct (Hin r Hr) as [x [-> [Hx _]]]; lia|].
  destruct (Hi r Hr) as [b [x [z [E B]]]]. unfold layers_of in E. rewrite Ef, map_app in E. apply app_inj_tail in E as [_ <-]. eauto.
Qed.

Theorem call_busy : forall q, In q l -> ~ idle_at_end c q ->
  exists lo hi, py_min l = Ok (Z.of_nat lo) /\ py_max l = Ok (Z.of_nat hi) /\ lo <= hi /\ hi < n /\
  (d <= Z.of_nat (nth lo dims 0%nat))%Z /\ list_call c m l (Some d) = Ok (appended (Z.of_nat lo) (Z.of_nat hi), true).
Proof.
  intros q Hq Hb. destruct list_span as [lo [hi [E1 [E2 [Hlh [Hhi [Hle _]]]]]]].
  exists lo, hi. repeat (split; [assumption|]). destruct (call_eq E1 E2 Hlh Hhi) as [before [last [Ef ->]]].
  destruct (forallb _ l) eqn:A; [|reflexivity]. exfalso. apply Hb. apply (idle_last _ _ q Ef).
  exact (proj1 (forallb_forall _ _) A q Hq).
Qed.

Theorem call_layer : forall q, In q l -> ~ idle_at_end c q ->
  exists lo hi, list_call c m l (Some d) = Ok (appended (Z.of_nat lo) (Z.of_nat hi), true) /\
    In (Z.of_nat lo) l /\ In (Z.of_nat hi) l /\ (forall x, In x l -> (Z.of_nat lo <= x <= Z.of_nat hi)%Z) /\
    layers_of (appended (Z.of_nat lo) (Z.of_nat hi)) = layers_of c ++
      [map (fun r => OI (Z.of_nat r) (Z.of_nat (nth r dims 0))) (seq 0 lo) ++ gate_of S m (Z.of_nat lo) d ::
       map (fun r => OI (Z.of_nat r) (Z.of_nat (nth r dims 0))) (seq (hi + 1) (n - (hi + 1)))].
Proof.
  intros q Hq Hb. destruct (@call_busy q Hq Hb) as [lo [hi [E1 [E2 [Hlh [Hhi [Hle E]]]]]]].
  destruct list_span as [lo' [hi' [F1 [F2 [_ [_ [_ [Hlo Hsp]]]]]]]]. rewrite E1 in F1. rewrite E2 in F2. injection F1 as F1. injection F2 as F2.
  exists lo, hi. split; [exact E|]. split; [rewrite F1; exact Hlo|]. split.
  { clear - E2. destruct l as [|x l']; [discriminate|]. destruct (py_max_ex x l') as [b [B1 [B2 _]]]. rewrite B1 in E2. injection E2 as <-. exact B2. }
  split; [rewrite F1, F2; exact Hsp|].
  rewrite appended_layers, layer_list_split.
  destruct (Nat.ltb_spec (lowr n (Z.of_nat lo)) (highr n (Z.of_nat lo) (Z.of_nat hi))) as [_|X]; [|unfold highr, lowr in X; lia].
  replace (lowr n (Z.of_nat lo)) with lo by (unfold lowr; lia).
  replace (highr n (Z.of_nat lo) (Z.of_nat hi)) with (hi + 1) by (unfold highr, lowr; lia).
  pose proof (hl_shaped dims H) as Hs. rewrite (sh_dims Hs).
  assert (I : forall i, idop S (map Z.of_nat dims) i = OI (Z.of_nat i) (Z.of_nat (nth i dims 0))) by (intros i; unfold idop; rewrite GateTof.nth_map_Z; reflexivity).
  rewrite !(map_ext _ _ I). reflexivity.
Qed.

(** ** One register *)
Definition asked (m : method) (q : Z) (dm : option Z) : call :=
  match m with MH => CH q dm | MX p => CX q dm p | MZ => CZ q dm end.

Theorem call_one : forall r, l = [Z.of_nat r] -> ~ idle_at_end c (Z.of_nat r) ->
  list_call c m l (Some d) = api c (asked m (Z.of_nat r) (Some d)).
Proof.
  intros r El Hb. destruct list_inv as [l0 [ls I]].
  destruct (@call_busy (Z.of_nat r) ltac:(rewrite El; left; reflexivity) Hb) as [lo [hi [E1 [E2 [Hlh [Hhi [_ E]]]]]]].
  rewrite El in E1, E2. cbn in E1, E2. injection E1 as E1. injection E2 as E2. apply Nat2Z.inj in E1, E2. subst lo hi. rewrite E.
  pose proof (hl_shaped dims H) as Hs.
  assert (V : validate1 c (Z.of_nat r) (Some d) = Ok tt).
  { pose proof list_valid as V. rewrite El in V. cbn [validate mapM] in V. destruct (validate1 c (Z.of_nat r) (Some d)) as [[]|e]; [reflexivity | discriminate]. }
  assert (D : dims_or c (Some d) (Z.of_nat r) = Ok d) by (unfold dims_or; destruct (Z.eqb_spec d 0); [contradiction | reflexivity]).
  assert (G : add_moment c (RInt (Z.of_nat r)) (gate_of S m (Z.of_nat r) d) = Ok (appended (Z.of_nat r) (Z.of_nat r), true)).
  { unfold add_moment. rewrite (moment_data_int _ _ (i_len I)), layer_int_list, (i_dims I). cbn [bind]. unfold populate_opflow.
    destruct (rev (f_list (c_flow c))) as [|last before] eqn:Er.
    { exfalso. apply (f_equal (@rev _)) in Er. rewrite rev_involutive in Er. pose proof (i_list I) as X. unfold layers in X. rewrite Er in X. discriminate. }
    rewrite (i_meas I), forallb_repeat. destruct (Nat.eqb_spec n 0) as [|Hn0]; [lia|]. cbn [orb mk_moment m_list].
    rewrite find_layer. destruct (Nat.ltb_spec (lowr n (Z.of_nat r)) (highr n (Z.of_nat r) (Z.of_nat r))) as [_|X]; [|unfold highr, lowr in X; lia].
    rewrite gate_of_hxz. replace (qreg_of (gate_of S m (Z.of_nat r) d)) with (Z.of_nat r) by (destruct m; reflexivity).
    destruct (zmem (Z.of_nat r) (map (@qreg_of S) (filter (@is_igate S) (m_list last)))) eqn:Ez.
    { exfalso. apply Hb. apply (idle_last (rev before) last); [rewrite <- (rev_involutive (f_list (c_flow c))), Er; reflexivity | exact Ez]. }
    cbn [bind]. rewrite detect_none; [unfold appended, with_layer; rewrite (i_meas I); reflexivity|].
    apply forallb_forall. apply layer_forall; [reflexivity|]. rewrite gate_of_meas. reflexivity. }
  destruct m; cbn [asked api gate_of] in *; rewrite V; cbn [bind]; rewrite D; cbn [bind]; symmetry; exact G.
Qed.

(** ** Several registers *)
Section Wide.
Variable L : scalar_laws S.
Let Hdims : forall x, In x dims -> 2 <= x.
Proof. intros x Hx. assert (2 <= Z.of_nat x)%Z; [|lia]. apply (history_dims2 H). apply in_map. exact Hx. Qed.

Lemma wide_small : forall lo hi (M : mat), lo < hi -> hi < n -> (d <= Z.of_nat (nth lo dims 0%nat))%Z ->
  moment_exec NB (layer_list (c_dims c) (Z.of_nat lo) (Z.of_nat hi) (gate_of S m (Z.of_nat lo) d) n) = Ok M ->
  mr M = mc M /\ mr M < prodn dims.
Proof.
  intros lo hi M Hlt Hhi Hle E. pose proof (hl_shaped dims H) as Hs.
  set (g' := OCX [] [Z.of_nat lo; Z.of_nat hi] 0 : op).
  assert (Rg : ranges g' (Z.of_nat lo) (Z.of_nat hi)).
  { apply (@ranges_list S g' [Z.of_nat lo; Z.of_nat hi]); [reflexivity | |].
    - cbn. f_equal. lia.
    - cbn. f_equal. lia. }
  pose proof (@csize_layer S dims _ (layer_tiles (c_dims c) n Rg)) as T. rewrite layer_list_split in T, E.
  destruct (Nat.ltb_spec (lowr n (Z.of_nat lo)) (highr n (Z.of_nat lo) (Z.of_nat hi))) as [_|X]; [|unfold highr, lowr in X; lia].
  apply exec_shapes in E as [ms [F [E1 E2]]].
  apply Forall2_app_inv_l in F as [ma [mb [Fa [F ->]]]]. inversion F as [|? u ? mb' Fu Fb]; subst. cbn [app] in Fb.
  assert (Id : forall a k ms, a + k <= n -> Forall2 (fun o mm => unitary NB o = Ok mm) (map (idop S (c_dims c)) (seq a k)) ms ->
     map (@mr S) ms = map (csize dims) (map (idop S (c_dims c)) (seq a k)) /\ map (@mc S) ms = map (csize dims) (map (idop S (c_dims c)) (seq a k))).
  { intros a k; revert a; induction k as [|k IH]; intros a xs Hk Fx; inversion Fx as [|o x os xs' Hx Fx']; subst; [split; reflexivity|].
    destruct (IH (Datatypes.S a) xs' ltac:(lia) Fx') as [I1 I2]. cbn [unitary idop] in Hx. injection Hx as <-. cbn [seq map mr mc].
    rewrite I1, I2.
    assert (Ec : csize dims (idop S (c_dims c) a) = nth a dims 0).
    { unfold csize. rewrite (@occupies_single S n _ a) by (try reflexivity; lia). cbn [map]. rewrite prodn_cons. change (prodn []) with 1. lia. }
    rewrite Ec. rewrite (sh_dims Hs), !GateTof.nth_map_Z, Nat2Z.id. split; reflexivity. }
  destruct (lowr_le n (Z.of_nat lo) (Z.of_nat hi)) as [B1 B2].
  destruct (Id 0 (lowr n (Z.of_nat lo)) ma ltac:(lia) Fa) as [Ia Ia'].
  destruct (Id (highr n (Z.of_nat lo) (Z.of_nat hi)) (n - highr n (Z.of_nat lo) (Z.of_nat hi)) mb' ltac:(lia) Fb) as [Ib Ib'].
  rewrite !map_app in E1, E2, T. cbn [map app] in E1, E2, T. rewrite !prodn_app, !prodn_cons in E1, E2, T. rewrite ?map_app, ?prodn_app in *.
  pose proof (eq_trans E1 (f_equal2 Nat.mul (f_equal prodn Ia) (f_equal2 Nat.mul (eq_refl (mr u)) (f_equal prodn Ib)))) as E1'.
  pose proof (eq_trans E2 (f_equal2 Nat.mul (f_equal prodn Ia') (f_equal2 Nat.mul (eq_refl (mc u)) (f_equal prodn Ib')))) as E2'.
  assert (One : one_reg (gate_of S m (Z.of_nat lo) d) (Z.of_nat lo) d) by (unfold one_reg; destruct m; cbn; eauto).
  destruct (one_size L One Hd Fu) as [D0 [U1 U2]].
  assert (Big : Z.to_nat d < csize dims g').
  { rewrite (csize_range dims Rg) by lia. rewrite <- sub_map by lia.
    replace (hi - lo + 1) with (Datatypes.S (Datatypes.S (hi - lo - 1))) by lia. cbn [seq map]. rewrite !prodn_cons.
    pose proof (Hdims _ (nth_In dims 0 (n := lo) ltac:(lia))) as K1. pose proof (Hdims _ (nth_In dims 0 (n := Datatypes.S lo) ltac:(lia))) as K2.
    assert (K3 : 1 <= prodn (map (fun r => nth r dims 0) (seq (Datatypes.S (Datatypes.S lo)) (hi - lo - 1)))).
    { apply prodn_pos, Forall_forall. intros x Hx. apply in_map_iff in Hx as [y [<- Hy]]. apply in_seq in Hy.
      pose proof (Hdims _ (nth_In dims 0 (n := y) ltac:(lia))). lia. }
    assert (K4 : Z.to_nat d <= nth lo dims 0) by lia. revert K1 K2 K3 K4. clear.
    generalize (nth lo dims 0), (nth (Datatypes.S lo) dims 0), (prodn (map (fun r => nth r dims 0) (seq (Datatypes.S (Datatypes.S lo)) (hi - lo - 1)))), (Z.to_nat d).
    intros a b p x K1 K2 K3 K4. assert (2 <= b * p) by nia. nia. }
  assert (Pos : forall a k, a + k <= n -> 0 < prodn (map (csize dims) (map (idop S (c_dims c)) (seq a k)))).
  { intros a k _. apply prodn_pos, Forall_forall. intros x Hx. apply in_map_iff in Hx as [y [<- _]]. apply (csize_pos dims Hdims). }
  pose proof (Pos 0 (lowr n (Z.of_nat lo)) ltac:(lia)) as P1.
  pose proof (Pos (highr n (Z.of_nat lo) (Z.of_nat hi)) (n - highr n (Z.of_nat lo) (Z.of_nat hi)) ltac:(lia)) as P2.
  rewrite U1 in E1'. rewrite U2 in E2'. split; [congruence|]. rewrite <- T, E1'. nia.
Qed.
(** measure_all after the wide layer. *)
Lemma wide_measured : forall lo hi l0 ls, inv n c false l0 ls ->
  exists f, api (appended lo hi) CMeasureAll = Ok (set_flow c f, true) /\
    map (@m_list S) (f_list f) = (l0 :: ls ++ [layer_list (c_dims c) lo hi (gate_of S m lo d) n]) ++ [meas_layer S n] /\
    f_meas f = repeat true n.
Proof.
  intros lo hi l0 ls I. cbn [api]. unfold appended, with_layer. cbn [c_len c_dims c_flow set_flow].
  rewrite (i_len I), (i_dims I). unfold populate_opflow. cbn [f_list f_meas].
  match goal with |- context [rev ?x] => destruct (rev x) as [|last before] eqn:Er end.
  { exfalso. apply (f_equal (@length _)) in Er. rewrite rev_length in Er. apply (f_equal (@length _)) in Er || idtac.
    pose proof (f_equal (@length _) (layers_append (f_list (c_flow c)) (mk_moment (length (f_list (c_flow c))) (layer_list (c_dims c) lo hi (gate_of S m lo d) n)))) as X.
    rewrite app_length, map_length in X. cbn [length] in X, Er. lia. }
  rewrite (i_meas I), forallb_repeat. destruct (Nat.eqb_spec n 0) as [|Hn0]; [lia|]. cbn [orb mk_moment m_list].
  rewrite map_map.
  assert (Ef2 : find (@is_hxz S) (map (fun x : nat => OMeas (Z.of_nat x)) (seq 0 n)) = None).
  { generalize 0 as a. generalize n as k. clear. intros k; induction k as [|k IH]; intros a; [reflexivity|]. apply IH. }
  rewrite Ef2. cbn [bind].
  assert (D := @detect_all_meas S 0 n [] (repeat false n) eq_refl (repeat_length _ _)). simpl app in D. rewrite D. cbn [bind].
  eexists. split; [reflexivity|]. cbn [f_list f_meas]. split; [|reflexivity].
  rewrite !layers_append. pose proof (i_list I) as El. unfold layers in El. rewrite El, app_nil_r. reflexivity.
Qed.

Theorem wide_never_runs : forall lo hi, lo < hi -> hi < n -> (d <= Z.of_nat (nth lo dims 0%nat))%Z -> Forall (tame dims) ks ->
  exists c', api (appended (Z.of_nat lo) (Z.of_nat hi)) CMeasureAll = Ok (c', true) /\ exists e, run NB c' = Err e.
Proof.
  intros lo hi Hlt Hhi Hle T1. pose proof (hl_shaped dims H) as Hs. destruct H as [c0 [E0 Ec]].
  destruct (inv_new _ _ _ E0) as [l0 I0]. rewrite (hl_nregs dims) in I0.
  destruct (@after_full S (tame dims) _ ks _ _ _ _ I0 T1 ltac:(simpl; tauto)) as [ls [I1 [_ [F1 _]]]].
  assert (Em : false || (0 <? n) && existsb (@is_measure_all S) ks = false).
  { destruct (existsb _ ks) eqn:E; [|apply andb_false_r]. apply measured_in in E. contradiction. }
  rewrite Em, <- Ec in I1. rewrite <- Ec in F1.
  destruct (wide_measured (Z.of_nat lo) (Z.of_nat hi) I1) as [f [Ea [El Eme]]]. eexists. split; [exact Ea|].
  unfold run. destruct (flow_exec NB _) as [r|e] eqn:E; [|exists e; reflexivity]. exfalso. cbn [set_flow c_flow] in E.
  assert (R0 : Forall (init_rows dims) l0) by (eapply first_rows; [exact E0 | exact I0]).
  assert (HF : Forall (fits dims) (gate_ops ls)) by (eapply ops_fit; eassumption).
  unfold flow_exec in E. destruct (forallb _ _); [|discriminate].
  apply map_eq_app in El as [fl1 [fl2 [Ef [E1 E2]]]]. destruct fl2 as [|last [|? ?]]; try discriminate.
  rewrite Ef, rev_app_distr in E. cbn [rev app] in E.
  destruct fl1 as [|m0 fl1]; [discriminate|]. cbn [map] in E1. injection E1 as E1 E3. cbn [rev] in E.
  destruct (@chain S (prodn dims) m0 (rev fl1) None r) as [_ C].
  - intros M HM. rewrite E1 in HM. eapply init_shape; [exact R0 | apply (i_m0 I1) | exact HM].
  - intros mm M Hi HM. apply in_rev in Hi. assert (Hll : In (m_list mm) (ls ++ [layer_list (c_dims c) (Z.of_nat lo) (Z.of_nat hi) (gate_of S m (Z.of_nat lo) d) n])) by (rewrite <- E3; apply in_map; exact Hi).
    apply in_app_or in Hll as [Hll|[Hll|[]]].
    + apply (@layer_shape S dims Hdims (m_list mm) M); [exact (proj1 (Forall_forall _ _) (i_tile I1) _ Hll) | | exact HM].
      apply Forall_forall. intros o Ho. apply (proj1 (Forall_forall _ _) HF). apply in_concat. eauto.
    + rewrite <- Hll in HM. apply (@wide_small lo hi M Hlt Hhi Hle HM).
  - exact E.
  - apply map_eq_app in E3 as [fa [fb [-> [_ E4]]]]. destruct fb as [|w [|? ?]]; try discriminate. injection E4 as E4.
    destruct (C w) as [M [HM HP]]; [apply -> in_rev; apply in_or_app; right; left; reflexivity|].
    rewrite E4 in HM. destruct (@wide_small lo hi M Hlt Hhi Hle HM). lia.
Qed.

Theorem call_several : forall q q', Forall (tame dims) ks -> In q l -> In q' l -> q <> q' -> ~ idle_at_end c q ->
  exists c' c'', list_call c m l (Some d) = Ok (c', true) /\ api c' CMeasureAll = Ok (c'', true) /\ exists e, run NB c'' = Err e.
Proof.
  intros q q' Ht Hq Hq' Hne Hb. destruct (@call_busy q Hq Hb) as [lo [hi [E1 [E2 [Hlh [Hhi [Hle E]]]]]]].
  destruct list_span as [lo' [hi' [F1 [F2 [_ [_ [_ [_ Hsp]]]]]]]]. rewrite E1 in F1. rewrite E2 in F2. injection F1 as F1. injection F2 as F2.
  assert (Hlt : lo < hi) by (pose proof (Hsp q Hq); pose proof (Hsp q' Hq'); lia).
  destruct (wide_never_runs Hlt Hhi Hle Ht) as [c'' [Ea Er]]. eauto.
Qed.
End Wide.
End Hist.
End ListThm.
