(** * Reject: the exceptions raised for registers that do not exist, and the
    order of the register list of an arbitrary gate. *)
From Verif Require Import Py Scalar Mat Utils Gates Circuit Spec Calls HistSpec CallSpec Lib Kern GateMat GateTof Flow Layers Blocks Refine Run History Merge Errors Relate Construct Ignored BadGates Exact.
Set Implicit Arguments.

Section Reject.
Variable S : scalar.
Hypothesis L : scalar_laws S.
Notation op := (op S).
Notation circuit := (circuit S).
Notation call := (call S).
Notation NB := (NumpyBackend S).

Lemma mapM_err : forall A B (f : A -> res B) l e, mapM f l = Err e -> exists x, In x l /\ f x = Err e.
Proof.
  intros A B f l; induction l as [|x l IH]; intros e H; simpl in H; [discriminate|].
  destruct (f x) as [b|e'] eqn:E; cbn [bind] in H; [|exists x; split; [left; reflexivity | congruence]].
  destruct (mapM f l) as [bs|e'] eqn:E'; cbn [bind] in H; [discriminate|]. injection H as ->.
  destruct (IH e eq_refl) as [y [Hy Ey]]. exists y. split; [right; exact Hy | exact Ey].
Qed.

Lemma mapM_all : forall A B (f : A -> res B) l, (forall x, In x l -> exists b, f x = Ok b) ->
  exists bs, mapM f l = Ok bs /\ length bs = length l.
Proof.
  intros A B f l; induction l as [|x l IH]; intros H; [exists []; auto|]. simpl.
  destruct (H x (or_introl eq_refl)) as [b ->]. destruct IH as [bs [-> El]]; [intros y Hy; apply H; right; exact Hy|].
  exists (b :: bs). split; [reflexivity | simpl; congruence].
Qed.

Lemma py_get_err : forall A (l : list A) i e, py_get l i = Err e -> e = IndexError.
Proof.
  intros A l i e H. unfold py_get, py_index in H.
  destruct (_ && _); [destruct (nth_error l _); congruence|].
  destruct (_ && _); [destruct (nth_error l _); congruence | congruence].
Qed.

Section List.
Variable dims : list nat.
Variables (init : option (list Z)) (out : option output) (ks : list call) (c : circuit).
Hypothesis H : history (QList (map Z.of_nat dims)) init out ks c.

Let Hs : shaped dims c := hl_shaped dims H.

(** x, h, z and gate on one register *)
Theorem one_big : forall k r dm, asks_one k r dm -> (Z.of_nat (length dims) <= r)%Z -> api c k = Err ValueError.
Proof.
  intros k r dm Ha Hr.
  assert (V : validate1 c r dm = Err ValueError).
  { unfold validate1. rewrite (sh_len Hs). destruct (Z.ltb_spec (Z.of_nat (length dims) - 1) r); [reflexivity | lia]. }
  destruct k as [q d|q d p|q d| | |u [q|l] d| |]; simpl in Ha; try contradiction; destruct Ha as [-> ->];
    cbn [api validate]; rewrite V; reflexivity.
Qed.

Theorem one_dim : forall k r d, asks_one k (Z.of_nat r) (Some d) -> r < length dims ->
  (Z.of_nat (nth r dims O) < d)%Z -> api c k = Err ValueError.
Proof.
  intros k r d Ha Hr Hd.
  assert (V : validate1 c (Z.of_nat r) (Some d) = Err ValueError).
  { unfold validate1. rewrite (sh_len Hs). destruct (Z.ltb_spec (Z.of_nat (length dims) - 1) (Z.of_nat r)); [lia|].
    destruct (Z.eqb_spec d 0); [lia|]. rewrite (hl_get dims H Hr). cbn [bind].
    destruct (Z.ltb_spec (Z.of_nat (nth r dims 0)) d); [reflexivity | lia]. }
  destruct k as [q d'|q d' p|q d'| | |u [q|l] d'| |]; simpl in Ha; try contradiction; destruct Ha as [-> ->];
    cbn [api validate]; rewrite V; reflexivity.
Qed.

(** gate on a list of registers, default dims *)
Theorem many_big : forall u l dm, dm = None \/ dm = Some 0%Z -> (exists r, In r l /\ (Z.of_nat (length dims) <= r)%Z) ->
  api c (CGate u (RList l) dm) = Err ValueError.
Proof.
  intros u l dm Hd [r [Hin Hr]]. cbn [api validate].
  assert (V : forall q, validate1 c q dm = if (Z.of_nat (length dims) - 1 <? q)%Z then Err ValueError else Ok tt).
  { intros q. unfold validate1. rewrite (sh_len Hs). destruct (_ <? q)%Z; [reflexivity|].
    destruct Hd as [->| ->]; reflexivity. }
  destruct (@mapM_bad _ _ (fun q => validate1 c q dm) l r ValueError Hin) as [e E].
  { rewrite V. destruct (Z.ltb_spec (Z.of_nat (length dims) - 1) r); [reflexivity | lia]. }
  rewrite E. cbn [bind]. apply mapM_err in E as [x [_ E]]. rewrite V in E. destruct (_ <? x)%Z; congruence.
Qed.

(** toffoli *)
Theorem tof_big : forall cs t p, (exists r, In r (t :: cs) /\ (Z.of_nat (length dims) <= r)%Z) ->
  api c (CTof cs t p) = Err IndexError.
Proof.
  intros cs t p [r [Hin Hr]]. cbn [api]. rewrite (sh_qregs Hs). cbn [qregs_list]. unfold mk_toffoli, toffoli_dm.
  assert (Hin' : In r (cs ++ [t])) by (apply in_snoc_cons; exact Hin).
  destruct (cs ++ [t]) as [|x l] eqn:E; [contradiction|].
  destruct (py_min_ex x l) as [lb [-> [Il Bl]]]. destruct (py_max_ex x l) as [ub [-> [Iu Bu]]]. cbn [bind].
  destruct (@mapM_bad _ _ (py_get (map Z.of_nat dims)) (zrange lb (ub + 1)) r IndexError) as [e Ee].
  - apply in_zrange. specialize (Bl _ Hin'). specialize (Bu _ Hin'). lia.
  - apply py_get_big. rewrite map_length. exact Hr.
  - rewrite Ee. cbn [bind]. apply mapM_err in Ee as [y [_ Ey]]. apply py_get_err in Ey. congruence.
Qed.

(** An arbitrary gate on three or more registers: only the set of registers
    matters. *)
Theorem span_order : forall u l l' ks' (B : backend S), 3 <= length l -> 3 <= length l' ->
  (forall x, In x l <-> In x l') -> (forall x, In x l -> x < length dims) ->
  run B (after c (CGate u (RList (map Z.of_nat l)) None :: ks'))
  = run B (after c (CGate u (RList (map Z.of_nat l')) None :: ks')).
Proof.
  intros u l l' ks' B Hl Hl' Hll Hx.
  set (R := fun o o' : op => o = o' \/ exists ds ds', 3 <= length ds /\ 3 <= length ds' /\
     o = OArb (RList (map Z.of_nat l)) (RList ds) u /\ o' = OArb (RList (map Z.of_nat l')) (RList ds') u).
  assert (Rr : forall o, R o o) by (left; reflexivity).
  assert (Hm : forall q, In q (map Z.of_nat l) <-> In q (map Z.of_nat l')).
  { intros q. rewrite !in_map_iff. split; intros [x [E Hi]]; exists x; (split; [exact E|]); apply Hll; exact Hi. }
  assert (Ra : forall o o', R o o' -> alike o o').
  { intros o o' [->|[ds [ds' [_ [_ [-> ->]]]]]]; [apply alike_refl|]. unfold alike. simpl. repeat split. constructor.
    intros q. apply eq_true_iff_eq. rewrite !zmem_spec. apply Hm. }
  assert (Get : forall m, (forall x, In x m -> x < length dims) ->
     validate c (RList (map Z.of_nat m)) None = Ok tt /\
     exists ds, mapM (py_get (c_dims c)) (map Z.of_nat m) = Ok ds /\ length ds = length m).
  { intros m Hm'. split.
    - cbn [validate]. destruct (@mapM_all _ _ (fun q => validate1 c q None) (map Z.of_nat m)) as [bs [-> _]]; [|reflexivity].
      intros x Hin. apply in_map_iff in Hin as [y [<- Hy]]. exists tt. apply (hl_valid1 H); [apply Hm'; exact Hy | left; reflexivity].
    - destruct (@mapM_all _ _ (py_get (c_dims c)) (map Z.of_nat m)) as [bs [E El]].
      + intros x Hin. apply in_map_iff in Hin as [y [<- Hy]]. eexists. apply (hl_get dims H). apply Hm'; exact Hy.
      + exists bs. rewrite map_length in El. auto. }
  destruct (Get l Hx) as [V1 [ds [D1 E1]]]. destruct (Get l') as [V2 [ds' [D2 E2]]].
  { intros x Hi. apply Hx, Hll, Hi. }
  apply (@run_same S R B).
  - intros o o' [->|[d1 [d2 [G1 [G2 [-> ->]]]]]]; [reflexivity|]. cbn [unitary]. unfold arb_unitary.
    destruct d1 as [|? [|? [|? ?]]]; simpl in G1; try lia. destruct d2 as [|? [|? [|? ?]]]; simpl in G2; try lia. reflexivity.
  - change (crel R (after (step c (CGate u (RList (map Z.of_nat l)) None)) ks') (after (step c (CGate u (RList (map Z.of_nat l')) None)) ks')).
    apply after_rel; auto.
    + clear - Rr Ra. induction ks' as [|k ks' IH]; constructor; [apply call_rel_refl; assumption | exact IH].
    + unfold step. cbn [api]. rewrite V1, V2, D1, D2. cbn [bind].
      pose proof (@add_moment_rel S R Rr Ra c c (RList (map Z.of_nat l)) (RList (map Z.of_nat l'))
        (OArb (RList (map Z.of_nat l)) (RList ds) u) (OArb (RList (map Z.of_nat l')) (RList ds') u)) as X.
      destruct X as [[a b] [a' b'] [X _]|e]; [apply crel_refl; exact Rr | | | exact X | apply crel_refl; exact Rr].
      * simpl. destruct l as [|x0 l0]; [simpl in Hl; lia|]. 
        destruct (py_min_ex (Z.of_nat x0) (map Z.of_nat l0)) as [lo [Elo _]]. destruct (py_max_ex (Z.of_nat x0) (map Z.of_nat l0)) as [hi [Ehi _]].
        cbn [map] in *. split; [rewrite Elo, (py_min_perm _ _ Hm Elo) | rewrite Ehi, (py_max_perm _ _ Hm Ehi)]; reflexivity.
      * right. exists ds, ds'. rewrite E1, E2. auto.
Qed.

End List.
End Reject.

(** Calls that are accepted and dropped. *)
Section Dropped.
Variable S : scalar.
Notation call := (call S).
Notation circuit := (circuit S).

Lemma reads_app : forall dims (ks1 ks2 : list call) prog1 prog2, reads dims ks1 prog1 -> reads dims ks2 prog2 ->
  reads dims (ks1 ++ ks2) (prog1 ++ prog2).
Proof.
  intros dims ks1 ks2 prog1 prog2 H1 H2; induction H1; simpl; [exact H2 | apply reads_gate; assumption | apply reads_skip; assumption].
Qed.

Lemma py_get_some : forall A (l : list A) r, (- Z.of_nat (length l) <= r < Z.of_nat (length l))%Z -> exists x, py_get l r = Ok x.
Proof.
  intros A l r Hr. unfold py_get, py_index.
  assert (G : forall k, k < length l -> exists x : A, (match nth_error l k with Some x => Ok x | None => Err IndexError end) = Ok x).
  { intros k Hk. destruct (nth_error l k) as [x|] eqn:E; [eauto|]. apply nth_error_None in E. lia. }
  destruct (Z.leb_spec 0 r); cbn [andb].
  - destruct (Z.ltb_spec r (Z.of_nat (length l))); [|lia]. apply G. lia.
  - destruct (Z.leb_spec (- Z.of_nat (length l)) r); [|lia]. destruct (Z.ltb_spec r 0); [|lia]. cbn [andb]. apply G. lia.
Qed.

Lemma dropped_skipped : forall dims (k : call), dropped (length dims) k -> skipped dims k.
Proof.
  intros dims k [[r [dm [Ha [Hr _]]]]|[s [t [p [-> Hst]]]]].
  - apply (@sk_one S dims k r dm Ha). left. lia.
  - apply sk_cx. right. destruct Hst as [[? ?]|[? ?]]; [left | right]; intros r [<-|[<-|[]]]; lia.
Qed.

Lemma dropped_accepted : forall dims init out ks (c : circuit) k,
  history (QList (map Z.of_nat dims)) init out ks c -> ~ In CMeasureAll ks -> dims <> [] ->
  dropped (length dims) k -> exists c', api c k = Ok (c', true).
Proof.
  intros dims init out ks c k H Hm Hne Hk. pose proof (hl_shaped dims H) as Hs.
  assert (Hn : 0 < nregs (QList (map Z.of_nat dims))) by (rewrite hl_nregs; destruct dims; [congruence | simpl; lia]).
  destruct Hk as [[r [dm [Ha [Hr Hdm]]]]|[s [t [p [-> Hst]]]]].
  - assert (V : validate1 c r dm = Ok tt).
    { unfold validate1. rewrite (sh_len Hs). destruct (Z.ltb_spec (Z.of_nat (length dims) - 1) r); [lia|].
      destruct Hdm as [->| ->]; reflexivity. }
    assert (D : exists d, dims_or c dm r = Ok d).
    { assert (X : exists d, py_get (c_dims c) r = Ok d).
      { apply py_get_some. rewrite (sh_dims Hs), map_length. lia. }
      unfold dims_or. destruct Hdm as [->| ->]; exact X. }
    destruct D as [d D].
    destruct k as [q d'|q d' p|q d'| | |u [q|l] d'| |]; simpl in Ha; try contradiction; destruct Ha as [-> ->].
    + apply (@accepts S _ _ _ _ c _ (OH r d) H Hn Hm); [constructor; assumption | discriminate].
    + apply (@accepts S _ _ _ _ c _ (OX r d p) H Hn Hm); [constructor; assumption | discriminate].
    + apply (@accepts S _ _ _ _ c _ (OZ r d) H Hn Hm); [constructor; assumption | discriminate].
    + apply (@accepts S _ _ _ _ c _ (OArb (RInt r) (RInt d) u) H Hn Hm); [constructor; assumption | discriminate].
  - eapply (@accepts S _ _ _ _ c _ _ H Hn Hm); [econstructor; reflexivity | discriminate].
Qed.
End Dropped.

Section Single.
Variable S : scalar.
Hypothesis L : scalar_laws S.
Add Ring Sring2 : (sl_ring L).

(** One gate on a basis state: the amplitudes of the gate itself. *)
Lemma single_gate_answer : forall dims (g : gate S) s f, valid dims s /\ (forall t, amp dims g t s = f t) ->
  answer dims (final dims [g] (basis S s)) = answer dims f.
Proof.
  intros dims g s f [Hv Hf]. apply answer_ext. intros t Ht. rewrite <- Hf.
  cbn [final]. unfold Spec.apply. rewrite <- bsum_total.
  rewrite (@bsum_single S L _ _ _ s (all_configs_NoDup dims)).
  - unfold basis. rewrite config_eqb_refl. ring.
  - apply in_all_configs; exact Hv.
  - intros u _ Hu. unfold basis. destruct (config_eqb s u) eqn:E; [|ring]. apply config_eqb_eq in E. congruence.
Qed.
End Single.
