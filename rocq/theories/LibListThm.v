(** * LibListThm: gate() given a gate class of the library and a list of registers. *)
From Verif Require Import Py Scalar Mat Utils Gates Circuit Spec Calls HistSpec CallSpec ShapeSpec InfoSpec ListRegs LibGates LibList UserMat UserMatSpec Lib Kern GateMat GateTof Flow Layers Blocks Refine History Merge Errors Construct Ignored BadGates Reject Shapes OneList Local Run Reversible ListThm UserMatThm.
Set Implicit Arguments.
Local Notation length := List.length.

Section LibListThm.
Variable S : scalar.
Notation op := (op S).
Notation mat := (mat S).
Notation circuit := (circuit S).
Notation call := (call S).
Notation NB := (NumpyBackend S).
Variable no_matrix : mat.
Notation lib_list := (lib_list no_matrix).

Lemma igate_layer : forall dims lo hi (g : op) n, is_igate g = false ->
  existsb (fun o => negb (is_igate o)) (layer_list dims lo hi g n) = (lowr n lo <? highr n lo hi).
Proof.
  intros dims lo hi g n Hg. rewrite layer_list_split.
  assert (F : forall a k l, existsb (fun o => negb (is_igate o)) (map (idop S dims) (seq a k) ++ l) = existsb (fun o => negb (is_igate o)) l).
  { intros a k; revert a; induction k as [|k IH]; intros a l; [reflexivity|]. simpl. apply IH. }
  rewrite F. destruct (_ <? _).
  - cbn [app existsb]. rewrite Hg. reflexivity.
  - cbn [app]. rewrite <- (app_nil_r (map _ _)), F. reflexivity.
Qed.

Lemma arb_layer : forall dims lo hi l ds (u : mat) n, find (@is_hxz S) (layer_list dims lo hi (OArb l ds u) n) = None.
Proof. intros. rewrite find_layer. cbn [is_hxz]. destruct (_ <? _); reflexivity. Qed.

Section Hist.
Variables (dims : list nat) (init : option (list Z)) (out : option output) (ks : list call) (c : circuit).
Hypothesis H : history (QList (map Z.of_nat dims)) init out ks c.
Notation n := (length dims).
Let Hs := hl_shaped dims H.

Lemma minmax : forall l, (py_min l = Err ValueError /\ l = []) \/ exists lo hi, py_min l = Ok lo /\ py_max l = Ok hi.
Proof.
  intros [|x l]; [left; split; reflexivity|]. right. destruct (py_min_ex x l) as [lo [A _]]. destruct (py_max_ex x l) as [hi [B _]]. eauto.
Qed.

(** ** With a dimension *)
Theorem same_method : forall k m l d, d <> 0%Z -> k = KlassH /\ m = MH \/ k = KlassZ /\ m = MZ ->
  lib_list c k l (Some d) = list_call c m l (Some d).
Proof.
  intros k m l d Hd Hk. unfold LibList.lib_list, list_call. destruct (validate c (RList l) (Some d)); [|reflexivity]. cbn [bind dims_arg].
  destruct (Z.eqb_spec d 0); [contradiction|]. cbn [bind].
  assert (E : construct_list no_matrix k l (RInt d) = (lo <- py_min l ;; Ok (gate_of S m lo d))) by (destruct Hk as [[-> ->]|[-> ->]]; reflexivity).
  rewrite E. destruct (minmax l) as [[-> _]|[lo [hi [E1 E2]]]]; [reflexivity|]. rewrite E1. cbn [bind].
  rewrite (@moment_data_list S c l _ _ _ (shaped_len_ok Hs) E1 E2). cbn [bind]. f_equal.
  unfold populate_class, populate_list. destruct (rev (f_list (c_flow c))) as [|last before]; [reflexivity|].
  destruct (forallb _ (f_meas (c_flow c))); [reflexivity|]. cbn [m_list mk_moment].
  rewrite igate_layer, find_layer, gate_of_hxz by (destruct m; reflexivity).
  replace (searched k) with true by (destruct Hk as [[-> _]|[-> _]]; reflexivity). cbn [andb].
  destruct (_ <? _); reflexivity.
Qed.

Theorem same_identity : forall l d, d <> 0%Z ->
  lib_list c KlassI l (Some d) = api c (CGate (deye S (Z.to_nat d) (Z.to_nat d)) (RList l) (Some d)).
Proof.
  intros l d Hd. unfold LibList.lib_list. cbn [api]. destruct (validate c (RList l) (Some d)); [|reflexivity]. cbn [bind dims_arg].
  destruct (Z.eqb_spec d 0); [contradiction|]. cbn [bind construct_list]. unfold add_moment.
  destruct (minmax l) as [[_ ->]|[lo [hi [E1 E2]]]]; [reflexivity|].
  rewrite (@moment_data_list S c l _ _ _ (shaped_len_ok Hs) E1 E2). cbn [bind]. f_equal.
  unfold populate_class, populate_opflow. destruct (rev (f_list (c_flow c))) as [|last before]; [reflexivity|].
  destruct (forallb _ (f_meas (c_flow c))); [reflexivity|]. cbn [m_list mk_moment searched andb bind].
  rewrite arb_layer. reflexivity.
Qed.

(** ** Without *)
Lemma bare_api : forall k l dm c' b, In k [KlassH; KlassZ; KlassI] -> dm = None \/ dm = Some 0%Z ->
  lib_list c k l dm = Ok (c', b) -> api c (CGate no_matrix (RList l) dm) = Ok (c', b).
Proof.
  intros k l dm c' b Hk Hd E. unfold LibList.lib_list in E. cbn [api]. destruct (validate c (RList l) dm); [|discriminate]. cbn [bind] in *.
  assert (D : dims_arg c dm l = (r <- mapM (py_get (c_dims c)) l ;; Ok (RList r))) by (destruct Hd as [->| ->]; reflexivity).
  replace (match dm with Some d => if (d =? 0)%Z then x <- mapM (py_get (c_dims c)) l ;; Ok (RList x) else Ok (RInt d)
           | None => r <- mapM (py_get (c_dims c)) l ;; Ok (RList r) end) with (r <- mapM (py_get (c_dims c)) l ;; Ok (RList r))
    by (destruct Hd as [->| ->]; reflexivity).
  rewrite D in E. destruct (mapM (py_get (c_dims c)) l) as [ds|]; [|discriminate]. cbn [bind] in *.
  assert (C : construct_list no_matrix k l (RList ds) = Ok (OArb (RList l) (RList ds) no_matrix)) by (destruct Hk as [<-|[<-|[<-|[]]]]; reflexivity).
  rewrite C in E. cbn [bind] in E. unfold add_moment.
  destruct (minmax l) as [[_ ->]|[lo [hi [E1 E2]]]]; [discriminate|].
  rewrite (@moment_data_list S c l _ _ _ (shaped_len_ok Hs) E1 E2) in *. cbn [bind] in *.
  rewrite <- E. f_equal. unfold populate_class, populate_opflow in *. destruct (rev (f_list (c_flow c))) as [|last before]; [reflexivity|].
  destruct (forallb _ (f_meas (c_flow c))); [reflexivity|]. cbn [m_list mk_moment] in *. rewrite arb_layer.
  match type of E with context [bind (if ?x then ?y else Ok tt) _] => destruct x end; [|reflexivity].
  cbn zeta in *. destruct (forallb _ l); [|reflexivity]. destruct (get_list l (m_list last)) as [[g|]|e]; try discriminate. reflexivity.
Qed.

Lemma bare_identity : forall l dm, dm = None \/ dm = Some 0%Z ->
  lib_list c KlassI l dm = api c (CGate no_matrix (RList l) dm).
Proof.
  intros l dm Hd. unfold LibList.lib_list. cbn [api]. destruct (validate c (RList l) dm); [|reflexivity]. cbn [bind].
  change (match dm with Some d => if (d =? 0)%Z then x <- mapM (py_get (c_dims c)) l ;; Ok (RList x) else Ok (RInt d)
          | None => y <- mapM (py_get (c_dims c)) l ;; Ok (RList y) end) with (dims_arg c dm l).
  assert (D : dims_arg c dm l = (r <- mapM (py_get (c_dims c)) l ;; Ok (RList r))) by (destruct Hd as [->| ->]; reflexivity).
  rewrite D. destruct (mapM (py_get (c_dims c)) l) as [ds|]; [|reflexivity]. cbn [bind construct_list]. unfold add_moment.
  destruct (minmax l) as [[_ ->]|[lo [hi [E1 E2]]]]; [reflexivity|].
  rewrite (@moment_data_list S c l _ _ _ (shaped_len_ok Hs) E1 E2). cbn [bind]. f_equal.
  unfold populate_class, populate_opflow. destruct (rev (f_list (c_flow c))) as [|last before]; [reflexivity|].
  destruct (forallb _ (f_meas (c_flow c))); [reflexivity|]. cbn [m_list mk_moment searched andb bind].
  rewrite arb_layer. reflexivity.
Qed.

Section Inside.
Variable l : list Z.
Hypothesis Hin : forall q, In q l -> exists r, q = Z.of_nat r /\ r < n.

Lemma inside_gets : exists ds, mapM (py_get (c_dims c)) l = Ok ds.
Proof.
  destruct (@mapM_all _ _ (py_get (c_dims c)) l) as [ds [E _]]; [|eauto].
  intros q Hq. destruct (Hin _ Hq) as [r [-> Hr]]. rewrite (sh_get Hs Hr). eauto.
Qed.

Lemma inside_valid : forall dm, dm = None \/ dm = Some 0%Z -> validate c (RList l) dm = Ok tt.
Proof.
  intros dm Hd. rewrite (falsy_validate c l Hd). replace (existsb _ l) with false; [reflexivity|]. symmetry. apply existsb_none.
  intros q Hq. destruct (Hin _ Hq) as [r [-> Hr]]. rewrite (sh_len Hs). apply Z.ltb_ge. lia.
Qed.

Hypothesis Hl : l <> [].
Hypothesis Hm : ~ In CMeasureAll ks.

Let Hn : 0 < n.
Proof. destruct l as [|q l']; [contradiction|]. destruct (Hin _ (or_introl eq_refl)) as [r [_ Hr]]. lia. Qed.

Lemma inside_inv : exists l0 ls, inv n c false l0 ls.
Proof.
  destruct (history_inv H) as [l0 [ls I]]. rewrite (hl_nregs dims) in I. exists l0, ls.
  destruct (existsb (@is_measure_all S) ks) eqn:E; [apply measured_in in E; contradiction|].
  rewrite andb_false_r in I. exact I.
Qed.

Lemma inside_accepts : forall dm, dm = None \/ dm = Some 0%Z -> exists c', api c (CGate no_matrix (RList l) dm) = Ok (c', true).
Proof.
  intros dm Hd. destruct inside_gets as [ds E].
  apply (@accepts S _ init out ks c _ (OArb (RList l) (RList ds) no_matrix) H); [rewrite (hl_nregs dims); exact Hn | exact Hm | | exact Hl].
  constructor; [apply inside_valid; exact Hd|]. rewrite E. destruct Hd as [->| ->]; reflexivity.
Qed.

Lemma bare_cases : forall k dm, k = KlassH \/ k = KlassZ -> dm = None \/ dm = Some 0%Z ->
  exists before last, f_list (c_flow c) = before ++ [last] /\
  lib_list c k l dm =
    if forallb (fun r => zmem r (map (@qreg_of S) (filter (@is_igate S) (m_list last)))) l
    then g <- get_list l (m_list last) ;;
         match g with None => Err TypeError | Some _ => api c (CGate no_matrix (RList l) dm) end
    else api c (CGate no_matrix (RList l) dm).
Proof.
  intros k dm Hk Hd. destruct inside_inv as [l0 [ls I]]. destruct inside_gets as [ds E].
  unfold LibList.lib_list. cbn [api]. rewrite (inside_valid Hd). cbn [bind].
  change (match dm with Some d => if (d =? 0)%Z then x <- mapM (py_get (c_dims c)) l ;; Ok (RList x) else Ok (RInt d)
          | None => y <- mapM (py_get (c_dims c)) l ;; Ok (RList y) end) with (dims_arg c dm l).
  assert (D : dims_arg c dm l = Ok (RList ds)) by (destruct Hd as [->| ->]; cbn; rewrite E; reflexivity).
  rewrite D. cbn [bind].
  assert (C : construct_list no_matrix k l (RList ds) = Ok (OArb (RList l) (RList ds) no_matrix)) by (destruct Hk as [->| ->]; reflexivity).
  rewrite C. cbn [bind]. unfold add_moment.
  destruct (minmax l) as [[_ X]|[lo [hi [E1 E2]]]]; [contradiction|].
  rewrite (@moment_data_list S c l _ _ _ (shaped_len_ok Hs) E1 E2). cbn [bind]. unfold populate_class, populate_opflow.
  destruct (rev (f_list (c_flow c))) as [|last before] eqn:Er.
  { exfalso. apply (f_equal (@rev _)) in Er. rewrite rev_involutive in Er. pose proof (i_list I) as El. unfold layers in El. rewrite Er in El. discriminate. }
  exists (rev before), last. split; [rewrite <- (rev_involutive (f_list (c_flow c))), Er; reflexivity|].
  rewrite (i_meas I), forallb_repeat. destruct (Nat.eqb_spec n 0) as [|Hn0]; [lia|]. cbn [orb mk_moment m_list].
  rewrite arb_layer, igate_layer by reflexivity. rewrite (i_dims I).
  destruct l as [|x l'] eqn:El; [contradiction|]. rewrite <- El in *.
  destruct (py_min_ex x l') as [a [A1 [A2 _]]]. destruct (py_max_ex x l') as [b [B1 [B2 B3]]]. rewrite <- El in A1, A2, B1, B2, B3.
  rewrite A1 in E1. rewrite B1 in E2. injection E1 as <-. injection E2 as <-.
  destruct (Hin _ A2) as [ra [Ea Hra]]. destruct (Hin _ B2) as [rb [Eb Hrb]]. pose proof (B3 _ A2) as Hab.
  destruct (Nat.ltb_spec (lowr n a) (highr n a b)) as [_|X]; [|unfold highr, lowr in X; lia].
  replace (searched k) with true by (destruct Hk as [->| ->]; reflexivity). cbn [andb]. cbn zeta.
  destruct (forallb _ l); [|reflexivity]. destruct (get_list l (m_list last)) as [[g|]|e]; reflexivity.
Qed.

Theorem bare_idle : forall k dm, k = KlassH \/ k = KlassZ -> dm = None \/ dm = Some 0%Z ->
  (forall q, In q l -> idle_at_end c q) -> lib_list c k l dm = Err TypeError.
Proof.
  intros k dm Hk Hd Hi. destruct (bare_cases Hk Hd) as [before [last [Ef ->]]].
  assert (A : forall q, In q l -> zmem q (map (@qreg_of S) (filter (@is_igate S) (m_list last))) = true).
  { intros q Hq. apply (idle_last c _ _ q Ef). apply Hi. exact Hq. }
  rewrite (proj2 (forallb_forall _ _) A). destruct inside_inv as [l0 [ls I]].
  assert (X : exists lsb, ls = lsb ++ [m_list last]).
  { pose proof (i_list I) as El. unfold layers in El. rewrite app_nil_r, Ef, map_app in El. cbn [map] in El.
    destruct ls as [|lx ls2] using rev_ind.
    - destruct (map (@m_list S) before) as [|b0 [|]]; try discriminate. cbn in El. injection El as El.
      destruct l as [|q l']; [contradiction|]. specialize (A q (or_introl eq_refl)).
      rewrite El, no_igate_init in A by apply (i_m0 I). discriminate.
    - clear IHls2. change (l0 :: ls2 ++ [lx]) with ((l0 :: ls2) ++ [lx]) in El. apply app_inj_tail in El as [_ <-]. eauto. }
  destruct X as [lsb ->].
  pose proof (i_tile I) as Ht. apply Forall_app in Ht as [_ Ht]. pose proof (Forall_inv Ht) as T.
  pose proof (i_gates I) as Hg. apply Forall_app in Hg as [_ Hg]. pose proof (Forall_inv Hg) as G.
  rewrite (@get_list_none S n l (m_list last) T G Hl); [reflexivity|].
  intros r Hr. split; [destruct (Hin _ Hr) as [x [-> Hx]]; lia|].
  destruct (Hi r Hr) as [b [x [z [E B]]]]. unfold layers_of in E. rewrite Ef, map_app in E. apply app_inj_tail in E as [_ <-]. eauto.
Qed.

Theorem bare_busy : forall k dm q, k = KlassH \/ k = KlassZ -> dm = None \/ dm = Some 0%Z -> In q l -> ~ idle_at_end c q ->
  exists c', lib_list c k l dm = Ok (c', true).
Proof.
  intros k dm q Hk Hd Hq Hb. destruct (bare_cases Hk Hd) as [before [last [Ef ->]]].
  destruct (forallb _ l) eqn:A; [|apply inside_accepts; exact Hd].
  exfalso. apply Hb. apply (idle_last c _ _ q Ef). exact (proj1 (forallb_forall _ _) A q Hq).
Qed.
End Inside.

(** ** A gate without a matrix *)
Variable object_of : mat -> mat_object.
Hypothesis Hno : object_of no_matrix <> NdArray.

Lemma holds_never : forall (c' : circuit) m l0 ls q d, inv n c' m l0 ls -> In (OArb q d no_matrix) (gate_ops ls) ->
  forall B : backend S, exists e, run_of object_of B c' = Err e.
Proof.
  intros c' m l0 ls q d I Ho B. destruct m.
  - apply (@run_never S object_of B c' (l0 :: ls) (meas_layer S n) (OArb q d no_matrix)).
    + exact (i_list I).
    + cbn [concat]. apply in_or_app. right. exact Ho.
    + cbn. destruct (object_of no_matrix); congruence.
  - unfold run_of, flow_of. rewrite (i_meas I).
    assert (0 < n) by (destruct n as [|k] eqn:En; [rewrite (i_zero I eq_refl) in Ho; contradiction | lia]).
    destruct n; [lia|]. eexists; reflexivity.
Qed.

Theorem bare_never : forall k l dm c' q, In k [KlassH; KlassZ; KlassI] -> dm = None \/ dm = Some 0%Z ->
  lib_list c k l dm = Ok (c', true) -> In q l -> (0 <= q)%Z ->
  forall (B : backend S) ks', exists e, run_of object_of B (after c' ks') = Err e.
Proof.
  intros k l dm c' q Hk Hd E Hq Hq0 B ks'. apply (@bare_api k l dm c' true Hk Hd) in E.
  destruct (history_inv H) as [l0 [ls I]]. rewrite (hl_nregs dims) in I.
  destruct (@inv_gate S _ _ _ _ _ _ _ _ I (fun X : CGate no_matrix (RList l) dm = CMeasureAll => ltac:(discriminate X)) E) as [X|[_ [_ [_ [g [lo [hi [ls' [Hi [Hr [Had [I' _]]]]]]]]]]]]; [destruct X as [_ [_ [X|[_ [? [? [? X]]]]]]]; discriminate|].
  inversion Hi; subst.
  assert (Hqn : (q < Z.of_nat n)%Z).
  { match goal with V : validate c (RList l) dm = Ok tt |- _ => rewrite (falsy_validate c l Hd) in V;
      destruct (existsb _ l) eqn:X; [discriminate|] end.
    destruct (Z.lt_ge_cases q (Z.of_nat n)) as [|Hge]; [assumption|]. exfalso.
    assert (Y : existsb (fun q => (c_len c - 1 <? q)%Z) l = true); [|congruence].
    apply existsb_exists. exists q. split; [exact Hq|]. rewrite (sh_len Hs). apply Z.ltb_lt. lia. }
  assert (Ho : occupies n (OArb (RList l) ds no_matrix) <> []).
  { apply (@occupies_in S _ _ q q (Z.to_nat q)); [exact Hq | exact Hq | lia | lia]. }
  assert (Hg : In (OArb (RList l) ds no_matrix) (gate_ops ls')).
  { apply (added_ops Had). rewrite (occupies_ranges _ Hr) in Ho.
    destruct (Nat.ltb_spec (lowr n lo) (highr n lo hi)) as [Hlt|Hge]; [exact Hlt|].
    exfalso. apply Ho. replace (_ - _) with 0 by lia. reflexivity. }
  destruct (after_keep ks' I') as [m2 [ls2 [I2 K]]].
  exact (@holds_never _ _ _ _ _ _ I2 (K _ Hg eq_refl) B).
Qed.
End Hist.

(** ** The other classes *)
Lemma others : forall (c : circuit) k l dm, ~ In k [KlassH; KlassZ; KlassI] ->
  lib_list c k l dm = (_ <- validate c (RList l) dm ;; _ <- dims_arg c dm l ;;
                       Err (match k with KlassToffoli => if length l =? 2 then TypeError else ValueError | _ => TypeError end)).
Proof.
  intros c k l dm Hk. unfold LibList.lib_list. destruct (validate c (RList l) dm); [|reflexivity]. cbn [bind].
  destruct (dims_arg c dm l); [|reflexivity]. cbn [bind].
  destruct k; cbn [construct_list bind]; try reflexivity; exfalso; apply Hk; simpl; tauto.
Qed.

(** ** The identity on several registers *)
Variable L : scalar_laws S.

Lemma small_gate : forall dims init out ks (c : circuit) k g ks',
  history (QList (map Z.of_nat dims)) init out ks c -> ~ In CMeasureAll ks -> 0 < length dims ->
  issues c k g -> tame dims k -> occupies (length dims) g <> [] -> small dims g ->
  Forall (tame dims) ks -> Forall (tame dims) ks' ->
  exists c', api c k = Ok (c', true) /\ exists e, run NB (after c' ks') = Err e.
Proof.
  intros dims init out ks c k g ks' H Hm H0 Hi Tk Ho Hsm T1 T2.
  pose proof (hl_shaped dims H) as Hs. pose proof H as H'. destruct H' as [c0 [E0 Ec]].
  assert (Hdims : forall x, In x dims -> 2 <= x).
  { intros x Hx. assert (2 <= Z.of_nat x)%Z; [|lia]. apply (history_dims2 H). apply in_map. exact Hx. }
  destruct (inv_new _ _ _ E0) as [l0 I0]. rewrite (hl_nregs dims) in I0.
  destruct (@after_full S (tame dims) _ ks _ _ _ _ I0 T1 ltac:(simpl; tauto)) as [ls [I1 [_ [F1 _]]]].
  assert (Em : false || (0 <? length dims) && existsb (@is_measure_all S) ks = false).
  { destruct (existsb _ ks) eqn:E; [|apply andb_false_r]. apply measured_in in E. contradiction. }
  rewrite Em, <- Ec in I1. rewrite <- Ec in F1.
  assert (Hn : 0 < nregs (QList (map Z.of_nat dims))) by (rewrite (hl_nregs dims); lia).
  destruct (accepts H Hn Hm Hi (occupies_regs _ _ Ho)) as [c' Eapi].
  exists c'. split; [exact Eapi|].
  assert (Hk : k <> CMeasureAll) by (intros ->; inversion Hi).
  destruct (inv_gate I1 Hk Eapi) as [[[X|X] _]|[_ [_ [_ [g' [lo [hi [ls' [Hi' [Hrg [Had [I2 [f ->]]]]]]]]]]]]];
    [discriminate | lia |].
  rewrite <- (issues_fun Hi Hi') in *. clear g' Hi'.
  assert (Hs' : shaped dims (set_flow c f)) by (destruct Hs as [S1 S2 S3]; constructor; assumption).
  destruct (added_ops Had) as [A1 [_ A3]].
  assert (F2 : forall o, In o (gate_ops ls') -> from_calls (set_flow c f) (tame dims) o).
  { intros o Hoo. eapply from_layout; [apply set_flow_layout|]. destruct (A1 o Hoo) as [Ho'|[->|[i [Hin ->]]]]; [auto | right; eauto|].
    left. exists i. rewrite (i_dims I1). auto. }
  assert (Hin : In g (gate_ops ls')).
  { apply A3. rewrite (occupies_ranges _ Hrg) in Ho.
    destruct (Nat.lt_ge_cases (lowr (length dims) lo) (highr (length dims) lo hi)) as [Hl|Hge]; [exact Hl|].
    exfalso. apply Ho. replace (highr (length dims) lo hi - lowr (length dims) lo) with 0 by lia. reflexivity. }
  destruct (@after_full S (tame dims) _ ks' _ _ _ _ I2 T2 F2) as [ls2 [I3 [SL [F3 K3]]]].
  assert (Hs3 : shaped dims (after (set_flow c f) ks')).
  { destruct SL as [L1 [L2 [L3 _]]]. destruct Hs' as [S1 S2 S3]. constructor; congruence. }
  assert (X : exists e, flow_exec NB (c_flow (after (set_flow c f) ks')) = Err e).
  { eapply run_small; [exact Hdims | exact I3 | eapply first_rows; [exact E0 | exact I0] | | ].
    - eapply ops_fit; eassumption.
    - apply Exists_exists. exists g. split; [|exact Hsm].
      apply K3; [exact Hin | eapply issues_not_igate; exact Hi]. }
  destruct X as [e X]. exists e. unfold run. rewrite X. reflexivity.
Qed.

Theorem wide_identity : forall dims init out ks (c : circuit) l d q q' ks',
  history (QList (map Z.of_nat dims)) init out ks c -> ~ In CMeasureAll ks ->
  d <> 0%Z -> (forall q, In q l -> exists r, q = Z.of_nat r /\ r < length dims /\ (d <= Z.of_nat (nth r dims 0%nat))%Z) ->
  In q l -> In q' l -> q <> q' -> Forall (tame dims) ks -> Forall (tame dims) ks' ->
  exists c', lib_list c KlassI l (Some d) = Ok (c', true) /\ exists e, run NB (after c' ks') = Err e.
Proof.
  intros dims init out ks c l d q q' ks' H Hm Hd Hin Hq Hq' Hne T1 T2. rewrite (same_identity dims H) by exact Hd.
  assert (Hdims : forall x, In x dims -> 2 <= x).
  { intros x Hx. assert (2 <= Z.of_nat x)%Z; [|lia]. apply (history_dims2 H). apply in_map. exact Hx. }
  assert (Hl : l <> []) by (intros ->; contradiction).
  destruct (@list_span dims l d Hl Hin) as [lo [hi [E1 [E2 [Hlh [Hhi [Hle [Hlo Hsp]]]]]]]].
  assert (Hlt : lo < hi) by (pose proof (Hsp q Hq); pose proof (Hsp q' Hq'); lia).
  set (g := OArb (RList l) (RInt d) (deye S (Z.to_nat d) (Z.to_nat d)) : op).
  assert (Rg : ranges g (Z.of_nat lo) (Z.of_nat hi)) by (apply (@ranges_list S g l); [reflexivity | exact E1 | exact E2]).
  assert (Big : Z.to_nat d < csize dims g).
  { rewrite (csize_range dims Rg) by lia. rewrite <- sub_map by lia.
    replace (hi - lo + 1) with (Datatypes.S (Datatypes.S (hi - lo - 1))) by lia. cbn [seq map]. rewrite !prodn_cons.
    pose proof (Hdims _ (nth_In dims 0 (n := lo) ltac:(lia))) as K1. pose proof (Hdims _ (nth_In dims 0 (n := Datatypes.S lo) ltac:(lia))) as K2.
    assert (K3 : 1 <= prodn (map (fun r => nth r dims 0) (seq (Datatypes.S (Datatypes.S lo)) (hi - lo - 1)))).
    { apply prodn_pos, Forall_forall. intros x Hx. apply in_map_iff in Hx as [y [<- Hy]]. apply in_seq in Hy.
      pose proof (Hdims _ (nth_In dims 0 (n := y) ltac:(lia))). lia. }
    assert (K4 : Z.to_nat d <= nth lo dims 0) by lia. revert K1 K2 K3 K4. clear.
    generalize (nth lo dims 0), (nth (Datatypes.S lo) dims 0), (prodn (map (fun r => nth r dims 0) (seq (Datatypes.S (Datatypes.S lo)) (hi - lo - 1)))), (Z.to_nat d).
    intros a b p x K1 K2 K3 K4. assert (2 <= b * p) by nia. nia. }
  apply (@small_gate dims init out ks c _ g ks' H Hm); [lia | | | | | exact T1 | exact T2].
  - constructor; [apply (list_valid dims H Hd Hl Hin)|]. destruct (Z.eqb_spec d 0); [contradiction | reflexivity].
  - cbn [tame]. intros _. split; [reflexivity|]. cbn [mr deye mkmat]. unfold csize in Big. change (room dims l) with (prodn (map (fun r => nth r dims 0) (occupies (length dims) g))). lia.
  - apply (@occupies_in S _ _ (Z.of_nat lo) (Z.of_nat lo) lo); [exact Hlo | exact Hlo | lia | lia].
  - intros m Hu. unfold g in Hu. cbn [unitary] in Hu. apply bind_ok in Hu as [v [Hv X]]. injection X as <-. cbn [b_matrix NumpyBackend].
    unfold arb_unitary in Hv. destruct (is_unitary _); [|discriminate]. destruct (_ && _)%bool in Hv; [|discriminate]. injection Hv as <-. exact Big.
Qed.

(** ** The identity on one register *)
Definition unit_entry (i j : nat) : S := if Nat.eqb i j then s1 else s0.

Add Ring Sring_ll : (sl_ring L).

Lemma apply_unit : forall dims r psi s, valid dims s -> r < length dims -> Spec.apply dims (GU r unit_entry) psi s = psi s.
Proof.
  intros dims r psi s Hs Hr. unfold Spec.apply. cbn [amp]. rewrite <- bsum_total, (local_apply L) by assumption.
  rewrite (@bsum_single S L _ _ _ (level s r)).
  - unfold unit_entry. rewrite Nat.eqb_refl, put_level. ring.
  - apply seq_NoDup.
  - apply in_seq. pose proof (valid_level Hs Hr). lia.
  - intros x _ Hx. unfold unit_entry. destruct (Nat.eqb_spec (level s r) x); [congruence | ring].
Qed.

Lemma unit_rows : forall d, orthonormal_rows S Nat.eqb (seq 0 d) unit_entry.
Proof.
  intros d i j Hi Hj. rewrite <- bsum_total. rewrite (@bsum_single S L _ _ _ i (seq_NoDup _ _) Hi).
  - unfold unit_entry. rewrite Nat.eqb_refl. rewrite (Nat.eqb_sym j i).
    replace (smul s1 (sconj (if i =? j then s1 else s0))) with (if i =? j then s1 else s0 : S); [apply (sl_close_refl L)|].
    destruct (i =? j); [rewrite (sl_conj1 L) | rewrite (sl_conj0 L)]; ring.
  - intros x _ Hx. unfold unit_entry. destruct (Nat.eqb_spec i x); [congruence | ring].
Qed.

Theorem one_identity : forall dims levels out ty me ks1 ks2 prog1 prog2 (c0 : circuit) r,
  dims <> [] -> (forall d, In d dims -> 2 <= d) -> length levels <= length dims -> valid dims (start dims levels) ->
  wants dims out ty me -> reads dims ks1 prog1 -> reads dims ks2 prog2 -> r < length dims ->
  mk_circuit S (QList (map Z.of_nat dims)) (Some (map Z.of_nat levels)) out = Ok c0 ->
  exists c1, lib_list (after c0 ks1) KlassI [Z.of_nat r] (Some (Z.of_nat (nth r dims 0))) = Ok (c1, true) /\
    run NB (after c1 (ks2 ++ [CMeasureAll])) = Ok (report ty me (answer dims (final dims (prog1 ++ prog2) (basis S (start dims levels))))).
Proof.
  intros dims levels out ty me ks1 ks2 prog1 prog2 c0 r Hne Hd Hlen Hv Hw R1 R2 Hr E0.
  assert (H : history (QList (map Z.of_nat dims)) (Some (map Z.of_nat levels)) out ks1 (after c0 ks1)) by (exists c0; auto).
  pose proof (Hd _ (nth_In dims 0 Hr)) as Hd2. set (d := nth r dims 0) in *.
  rewrite (same_identity dims H) by lia. rewrite Nat2Z.id. set (u := deye S d d).
  assert (N1 : ~ In CMeasureAll ks1).
  { intros Hi. clear - R1 Hi. induction R1 as [|k ks g prog D G R IH|k ks prog D R IH]; [contradiction| |].
    - destruct Hi as [->|Hi]; [inversion D | auto].
    - destruct Hi as [->|Hi]; [inversion D; subst; match goal with A : asks_one CMeasureAll _ _ |- _ => inversion A end | auto]. }
  assert (Dn : denotes dims (CGate u (RInt (Z.of_nat r)) (Some (Z.of_nat d))) (GU r unit_entry)).
  { constructor; [right; right; reflexivity | reflexivity | reflexivity |].
    intros i j Hi Hj. unfold u, deye. rewrite mget_mkmat by assumption. reflexivity. }
  assert (Ok_ : gate_ok dims (GU r unit_entry)) by (split; [exact Hr | apply unit_rows]).
  assert (Acc : exists c1, api (after c0 ks1) (CGate u (RList [Z.of_nat r]) (Some (Z.of_nat d))) = Ok (c1, true)).
  { apply (@accepts S _ _ out ks1 _ _ (OArb (RList [Z.of_nat r]) (RInt (Z.of_nat d)) u) H); [rewrite (hl_nregs dims); lia | exact N1 | | discriminate].
    constructor.
    - apply (@list_valid S dims _ _ _ _ H [Z.of_nat r] (Z.of_nat d) ltac:(lia) ltac:(discriminate)).
      intros q [<-|[]]. exists r. split; [reflexivity|]. split; [exact Hr | unfold d; lia].
    - destruct (Z.eqb_spec (Z.of_nat d) 0); [lia | reflexivity]. }
  destruct Acc as [c1 E1]. exists c1. split; [exact E1|].
  replace (after c1 (ks2 ++ [CMeasureAll])) with (after (after c0 ks1) (CGate u (RList [Z.of_nat r]) (Some (Z.of_nat d)) :: (ks2 ++ [CMeasureAll])))
    by (change (after (step (after c0 ks1) (CGate u (RList [Z.of_nat r]) (Some (Z.of_nat d)))) (ks2 ++ [CMeasureAll]) = after c1 (ks2 ++ [CMeasureAll]));
        unfold step; rewrite E1; reflexivity).
  rewrite (one_run H). set (k := CGate u (RInt (Z.of_nat r)) (Some (Z.of_nat d))).
  replace (after (after c0 ks1) (k :: ks2 ++ [CMeasureAll])) with (after (after c0 (ks1 ++ k :: ks2)) [CMeasureAll])
    by (unfold after; rewrite !fold_left_app; cbn [fold_left]; rewrite fold_left_app; reflexivity).
  rewrite (@history_run S L dims levels out ty me (ks1 ++ k :: ks2) (prog1 ++ GU r unit_entry :: prog2) (after c0 (ks1 ++ k :: ks2)) Hne Hd Hlen Hv Hw).
  - f_equal. f_equal. apply answer_ext. intros t Ht. rewrite !final_app. cbn [final]. apply final_ext; [|exact Ht].
    intros s Hs. apply apply_unit; assumption.
  - apply reads_app; [exact R1|]. apply reads_gate; assumption.
  - exists c0. auto.
Qed.
End LibListThm.
