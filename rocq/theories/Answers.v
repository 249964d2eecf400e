(** * Answers: the answer of every call. *)
From Verif Require Import Py Scalar Mat Utils Gates Circuit Spec Calls HistSpec CallSpec Lib Kern GateMat GateTof Flow Layers Blocks Refine Run History Merge Errors Relate Construct Ignored BadGates Exact Reject ExLib AnswerSpec.
Set Implicit Arguments.

Lemma indexable_spec : forall n r, indexable n r = true <-> (- Z.of_nat n <= r < Z.of_nat n)%Z.
Proof. intros n r. unfold indexable. rewrite andb_true_iff, Z.leb_le, Z.ltb_lt. tauto. Qed.

Lemma indexable_out : forall n r, indexable n r = false <-> (r < - Z.of_nat n \/ Z.of_nat n <= r)%Z.
Proof. intros n r. unfold indexable. rewrite andb_false_iff, Z.leb_gt, Z.ltb_ge. tauto. Qed.

Lemma py_get_dims : forall dims r,
  py_get (map Z.of_nat dims) r = if indexable (length dims) r then Ok (dim_at dims r) else Err IndexError.
Proof.
  intros dims r. unfold py_get, py_index, indexable, dim_at. rewrite map_length.
  assert (G : forall k, k < length dims -> (match nth_error (map Z.of_nat dims) k with Some x => Ok x | None => Err IndexError end) = Ok (Z.of_nat (nth k dims 0))).
  { intros k Hk. rewrite (map_nth_error _ _ dims (nth_error_nth' dims 0 Hk)). reflexivity. }
  destruct (Z.leb_spec 0 r); destruct (Z.leb_spec (- Z.of_nat (length dims)) r); destruct (Z.ltb_spec r (Z.of_nat (length dims)));
    destruct (Z.ltb_spec r 0); cbn [andb]; try lia; try reflexivity.
  - apply G. lia.
  - rewrite G by lia. do 4 f_equal; lia.
Qed.

Lemma dim_at_in : forall dims r, indexable (length dims) r = true -> exists d, In d dims /\ dim_at dims r = Z.of_nat d.
Proof.
  intros dims r H. apply indexable_spec in H. unfold dim_at.
  eexists. split; [|reflexivity]. apply nth_In. destruct (Z.ltb_spec r 0); lia.
Qed.

Lemma mapM_indexable : forall dims l,
  mapM (py_get (map Z.of_nat dims)) l
  = if forallb (indexable (length dims)) l then Ok (map (dim_at dims) l) else Err IndexError.
Proof.
  intros dims. induction l as [|r l IH]; [reflexivity|]. cbn [mapM forallb map]. rewrite py_get_dims, IH.
  destruct (indexable _ r); cbn [bind andb]; [|reflexivity]. destruct (forallb _ l); reflexivity.
Qed.

Section Answers.
Variable S : scalar.
Notation op := (op S).
Notation circuit := (circuit S).
Notation call := (call S).

(** ** Toffoli gates, also with Python-style negative registers *)
Definition span_of (dims : list nat) (lb ub : Z) : list nat :=
  map (fun r => Z.to_nat (dim_at dims r)) (zrange lb (ub + 1)).

Lemma upd_valid : forall ds s k v, valid ds s -> k < length ds -> v < nth k ds 0 -> valid ds (upd s k v).
Proof.
  intros ds s k v Hs Hk Hv. rewrite <- put_upd. apply valid_put; assumption.
Qed.

Lemma toffoli_total : forall dims cs t p lb ub, (forall d, In d dims -> 0 < d) ->
  py_min (cs ++ [t]) = Ok lb -> py_max (cs ++ [t]) = Ok ub ->
  forallb (indexable (length dims)) (zrange lb (ub + 1)) = true ->
  exists u, mk_toffoli S cs t p (map Z.of_nat dims)
    = Ok (OTof cs t p (map (dim_at dims) (zrange lb (ub + 1))) (zrange lb (ub + 1)) u) /\
    mr u = prodn (span_of dims lb ub) /\ mc u = prodn (span_of dims lb ub).
Proof.
  intros dims cs t p lb ub Hpos Elb Eub Hin. unfold mk_toffoli, toffoli_dm. rewrite Elb, Eub. cbn [bind].
  rewrite mapM_indexable, Hin. cbn [bind].
  pose proof (py_min_in _ Elb) as [Il Bl]. pose proof (py_max_in _ Eub) as [Iu Bu].
  assert (Ht : (lb <= t <= ub)%Z) by (split; [apply Bl | apply Bu]; apply in_or_app; right; left; reflexivity).
  assert (It : indexable (length dims) t = true).
  { rewrite forallb_forall in Hin. apply Hin. apply in_zrange. lia. }
  rewrite py_get_dims, It. cbn [bind].
  assert (En : map Z.to_nat (map (dim_at dims) (zrange lb (ub + 1))) = span_of dims lb ub) by (rewrite map_map; reflexivity).
  rewrite En. set (ds := span_of dims lb ub).
  assert (Ez : forall k, k < Z.to_nat (ub + 1 - lb) -> nth k (zrange lb (ub + 1)) 0%Z = (lb + Z.of_nat k)%Z).
  { intros k Hk. unfold zrange. rewrite nth_map_lt with (e := 0) by (rewrite seq_length; lia). rewrite seq_nth by lia. lia. }
  assert (Hlen : length ds = Z.to_nat (ub + 1 - lb)) by (unfold ds, span_of, zrange; rewrite !map_length, seq_length; reflexivity).
  assert (Hk : Z.to_nat (t - lb) < length ds) by lia.
  assert (Hd : nth (Z.to_nat (t - lb)) ds 0 = Z.to_nat (dim_at dims t)).
  { unfold ds, span_of. rewrite nth_map_lt with (e := 0%Z) by (unfold zrange; rewrite map_length, seq_length; lia).
    rewrite Ez by lia. do 2 f_equal. lia. }
  destruct (dim_at_in dims t It) as [d [Id Ed]]. specialize (Hpos d Id).
  rewrite combinations_all_configs.
  match goal with |- context [mapM ?f ?l] => destruct (@mapM_all _ _ f l) as [bs [Eb El]] end.
  - intros [i x] Hix. match goal with |- exists b, (if ?a then _ else _) = _ => destruct a end; [|eauto].
    assert (Hv : valid ds x).
    { apply in_combine_r in Hix. apply in_all_configs in Hix. exact Hix. }
    rewrite get_index_configs with (ds := ds); [eauto|]. apply upd_valid; [exact Hv | exact Hk|]. rewrite Hd, Ed.
    pose proof (Z.mod_pos_bound (Z.of_nat (nth (Z.to_nat (t - lb)) x 0) + p) (Z.of_nat d)). lia.
  - rewrite Eb. cbn [bind]. rewrite mapM_indexable, Hin. cbn [bind]. eexists. split; [reflexivity|]. split; reflexivity.
Qed.

(** ** An accepted call *)
Lemma flag_issued : forall q init out ks (c : circuit) k g, history q init out ks c -> 0 < nregs q ->
  issues c k g -> registers g <> [] -> flag (api c k) = Ok (is_toffoli k || negb (existsb (@is_measure_all S) ks)).
Proof.
  intros q init out ks c k g H Hn Hi Hr. destruct (existsb (@is_measure_all S) ks) eqn:Em.
  - apply measured_in in Em. destruct (history_inv H) as [l0 [ls I]].
    destruct (issues_layer (i_len I) Hi Hr) as [lo [hi [Hrg E]]].
    rewrite (i_dims I) in E. destruct (populate_gate I Hi Hrg) as [f [b [Ep X]]].
    assert (Ea : api c k = Ok (set_flow c f, is_toffoli k || is_measure_all k || b)).
    { rewrite api_layer, E. cbn [bind]. unfold new_moment in Ep. rewrite Ep. reflexivity. }
    rewrite Ea. cbn [flag]. f_equal.
    assert (Nk : is_measure_all k = false) by (destruct Hi; reflexivity). rewrite Nk, orb_false_r in *.
    destruct (is_toffoli k) eqn:Et; [reflexivity|]. cbn [orb] in *.
    destruct (measure_all_final H Hn Em) as [A _]. destruct (A _ _ _ Ea) as [_ [_ B]]. exact (B Nk Et).
  - assert (Hm : ~ In CMeasureAll ks) by (intros X; apply measured_in in X; congruence).
    destruct (accepts H Hn Hm Hi Hr) as [c' ->]. cbn [flag negb]. rewrite orb_true_r. reflexivity.
Qed.

Section List.
Variable dims : list nat.
Variables (init : option (list Z)) (out : option output) (ks : list call) (c : circuit).
Hypothesis H : history (QList (map Z.of_nat dims)) init out ks c.
Hypothesis Hne : dims <> [].
Let m := existsb (@is_measure_all S) ks.

Let Hs : shaped dims c := hl_shaped dims H.
Lemma Hn : 0 < nregs (QList (map Z.of_nat dims)).
Proof. rewrite hl_nregs. destruct dims; [congruence | simpl; lia]. Qed.
Lemma Hpos : forall d, In d dims -> 0 < d.
Proof. intros d Hd. destruct (In_nth _ _ 0 Hd) as [r [Hr <-]]. pose proof (hl_dims dims H Hr). lia. Qed.

Lemma dim_at_pos : forall r, indexable (length dims) r = true -> (0 < dim_at dims r)%Z.
Proof. intros r Hr. destruct (dim_at_in dims r Hr) as [d [Hd ->]]. specialize (Hpos d Hd). lia. Qed.

Lemma valid_one : forall r dm, check_one dims dm r = Ok tt -> validate1 c r dm = Ok tt /\ exists d, dims_or c dm r = Ok d.
Proof.
  intros r dm. unfold check_one, validate1, dims_or. rewrite (sh_len Hs), (sh_dims Hs), py_get_dims.
  destruct (Z.leb_spec (Z.of_nat (length dims)) r); [discriminate|].
  destruct (Z.ltb_spec (Z.of_nat (length dims) - 1) r); [lia|].
  destruct (indexable (length dims) r) eqn:E; cbn [negb]; [|discriminate].
  destruct dm as [d|]; [|eauto]. destruct (Z.eqb_spec d 0); [eauto|]. cbn [bind].
  destruct (dim_at dims r <? d)%Z; [discriminate|]. eauto.
Qed.

Lemma invalid_one : forall r dm e, check_one dims dm r = Err e ->
  validate1 c r dm = Err e \/ (validate1 c r dm = Ok tt /\ dims_or c dm r = Err e).
Proof.
  intros r dm e. unfold check_one, validate1, dims_or. rewrite (sh_len Hs), (sh_dims Hs), py_get_dims.
  destruct (Z.leb_spec (Z.of_nat (length dims)) r).
  { intros X. injection X as <-. left. destruct (Z.ltb_spec (Z.of_nat (length dims) - 1) r); [reflexivity | lia]. }
  destruct (Z.ltb_spec (Z.of_nat (length dims) - 1) r); [lia|].
  destruct (indexable (length dims) r) eqn:E; cbn [negb].
  - destruct dm as [d|]; [|discriminate]. pose proof (dim_at_pos r E).
    destruct (Z.ltb_spec (dim_at dims r) d); [|discriminate]. intros X. injection X as <-.
    destruct (Z.eqb_spec d 0); [lia|]. cbn [bind]. left. destruct (Z.ltb_spec (dim_at dims r) d); [reflexivity | lia].
  - intros X. injection X as <-. destruct dm as [d|]; [|right; auto]. destruct (Z.eqb_spec d 0); [right; auto | left; reflexivity].
Qed.

Lemma reply_one : forall k r dm, asks_one k r dm -> flag (api c k) = reply dims m k.
Proof.
  intros k r dm Ha.
  assert (R : reply dims m k = (_ <- check_one dims dm r ;; Ok (negb m))).
  { destruct k as [q d|q d p|q d| | |u [q|l] d| |]; simpl in Ha; try contradiction; destruct Ha as [-> ->]; reflexivity. }
  rewrite R. destruct (check_one dims dm r) as [[]|e] eqn:E; cbn [bind].
  - apply valid_one in E as [V [d D]]. change (Ok (negb m)) with (Ok (false || negb m)).
    destruct k as [q d'|q d' p|q d'| | |u [q|l] d'| |]; simpl in Ha; try contradiction; destruct Ha as [-> ->];
      (eapply flag_issued; [exact H | exact Hn | econstructor; eassumption | discriminate]).
  - apply invalid_one in E.
    destruct k as [q d'|q d' p|q d'| | |u [q|l] d'| |]; simpl in Ha; try contradiction; destruct Ha as [-> ->];
      cbn [api validate]; (destruct E as [E|[E1 E2]]; [rewrite E; reflexivity | rewrite E1; cbn [bind]; rewrite E2; reflexivity]).
Qed.

Lemma reply_cx : forall l p, flag (api c (CCX l p)) = reply dims m (CCX l p : call).
Proof.
  intros l p. cbn [reply]. destruct l as [|a [|b l]]; [reflexivity | reflexivity |].
  change (length (a :: b :: l) <? 2) with false.
  assert (E1 : py_get (a :: b :: l) 0 = Ok a) by reflexivity.
  assert (E2 : py_get (a :: b :: l) 1 = Ok b).
  { unfold py_get, py_index. cbn [length].
    replace ((0 <=? 1) && (1 <? Z.of_nat (Datatypes.S (Datatypes.S (length l)))))%Z with true
      by (symmetry; apply andb_true_iff; rewrite Z.leb_le, Z.ltb_lt; lia). reflexivity. }
  change (Ok (negb m)) with (Ok (is_toffoli (CCX (a :: b :: l) p : call) || negb m)).
  eapply flag_issued; [exact H | exact Hn | econstructor; eassumption | discriminate].
Qed.

Lemma reply_tof : forall cs t p, flag (api c (CTof cs t p)) = reply dims m (CTof cs t p : call).
Proof.
  intros cs t p. cbn [reply].
  assert (Hx : exists lb ub, py_min (cs ++ [t]) = Ok lb /\ py_max (cs ++ [t]) = Ok ub).
  { destruct (cs ++ [t]) as [|x l] eqn:E; [destruct cs; discriminate|].
    destruct (py_min_ex x l) as [lb [-> _]]. destruct (py_max_ex x l) as [ub [-> _]]. eauto. }
  destruct Hx as [lb [ub [Elb Eub]]]. pose proof (py_min_in _ Elb) as [Il Bl]. pose proof (py_max_in _ Eub) as [Iu Bu].
  assert (EQ : forallb (indexable (length dims)) (t :: cs) = forallb (indexable (length dims)) (zrange lb (ub + 1))).
  { apply eq_true_iff_eq. rewrite !forallb_forall. split; intros A x Hx.
    - apply in_zrange in Hx. pose proof (A lb (proj1 (in_snoc_cons _ _ _) Il)) as A1. pose proof (A ub (proj1 (in_snoc_cons _ _ _) Iu)) as A2.
      apply indexable_spec in A1. apply indexable_spec in A2. apply indexable_spec. lia.
    - apply A. apply in_zrange. apply in_snoc_cons in Hx. specialize (Bl x Hx). specialize (Bu x Hx). lia. }
  rewrite EQ. destruct (forallb _ (zrange lb (ub + 1))) eqn:E.
  - destruct (@toffoli_total dims cs t p lb ub Hpos Elb Eub E) as [u [Em _]].
    change (Ok true) with (Ok (is_toffoli (CTof cs t p : call) || negb m)).
    eapply flag_issued; [exact H | exact Hn | constructor; rewrite (sh_qregs Hs); exact Em | discriminate].
  - cbn [api]. rewrite (sh_qregs Hs). cbn [qregs_list]. unfold mk_toffoli, toffoli_dm. rewrite Elb, Eub. cbn [bind].
    rewrite mapM_indexable, E. reflexivity.
Qed.

Lemma validate_list : forall dm l, dm = None \/ dm = Some 0%Z ->
  validate c (RList l) dm = if existsb (fun r => Z.of_nat (length dims) <=? r)%Z l then Err ValueError else Ok tt.
Proof.
  intros dm l Hdm. cbn [validate].
  assert (V : forall q, validate1 c q dm = if (Z.of_nat (length dims) <=? q)%Z then Err ValueError else Ok tt).
  { intros q. unfold validate1. rewrite (sh_len Hs).
    destruct (Z.ltb_spec (Z.of_nat (length dims) - 1) q); destruct (Z.leb_spec (Z.of_nat (length dims)) q); try lia; [reflexivity|].
    destruct Hdm as [->| ->]; reflexivity. }
  induction l as [|r l IH]; [reflexivity|]. cbn [mapM existsb]. rewrite V.
  destruct (Z.of_nat (length dims) <=? r)%Z; cbn [bind orb]; [reflexivity|].
  destruct (mapM (fun q => validate1 c q dm) l) as [x|e]; cbn [bind] in *; exact IH.
Qed.

Lemma validate_dim : forall d l, d <> 0%Z -> validate c (RList l) (Some d) = first_error (map (check_one dims (Some d)) l).
Proof.
  intros d l Hd. cbn [validate].
  assert (V : forall q, validate1 c q (Some d) = check_one dims (Some d) q).
  { intros q. unfold validate1, check_one. rewrite (sh_len Hs), (sh_dims Hs), py_get_dims.
    destruct (Z.ltb_spec (Z.of_nat (length dims) - 1) q); destruct (Z.leb_spec (Z.of_nat (length dims)) q); try lia; [reflexivity|].
    destruct (Z.eqb_spec d 0); [contradiction|]. destruct (indexable _ q); reflexivity. }
  induction l as [|r l IH]; [reflexivity|]. cbn [mapM map first_error]. rewrite V.
  destruct (check_one dims (Some d) r) as [[]|e]; cbn [bind]; [|reflexivity].
  destruct (mapM (fun q => validate1 c q (Some d)) l) as [x|e]; cbn [bind] in *; exact IH.
Qed.

Lemma reply_list : forall u l dm, flag (api c (CGate u (RList l) dm)) = reply dims m (CGate u (RList l) dm).
Proof.
  intros u l dm. cbn [reply]. destruct l as [|x l].
  { cbn [check_list bind]. cbn [api validate mapM bind]. destruct dm as [d|]; [destruct (d =? 0)%Z|]; reflexivity. }
  set (L := x :: l) in *.
  assert (Acc : forall ds, validate c (RList L) dm = Ok tt ->
    match dm with
    | Some d => if (d =? 0)%Z then r <- mapM (py_get (c_dims c)) L ;; Ok (RList r) else Ok (RInt d)
    | None => r <- mapM (py_get (c_dims c)) L ;; Ok (RList r)
    end = Ok ds -> flag (api c (CGate u (RList L) dm)) = Ok (negb m)).
  { intros ds V D. change (Ok (negb m)) with (Ok (is_toffoli (CGate u (RList L) dm : call) || negb m)).
    eapply flag_issued; [exact H | exact Hn | constructor; eassumption | discriminate]. }
  destruct dm as [d|]; [destruct (Z.eq_dec d 0) as [->|Hd]|].
  2: { assert (E : check_list dims (Some d) L = first_error (map (check_one dims (Some d)) L)) by (destruct d; [congruence | reflexivity | reflexivity]).
       rewrite E. pose proof (validate_dim L Hd) as V. destruct (first_error _) as [[]|e]; cbn [bind].
       - apply (Acc (RInt d)); [exact V|]. destruct (Z.eqb_spec d 0); [contradiction | reflexivity].
       - cbn [api]. rewrite V. reflexivity. }
  1: pose proof (@validate_list (Some 0%Z) L (or_intror eq_refl)) as V.
  2: pose proof (@validate_list None L (or_introl eq_refl)) as V.
  all: unfold check_list; fold L; destruct (existsb _ L); cbn [bind]; [cbn [api]; rewrite V; reflexivity|];
    pose proof (mapM_indexable dims L) as M; destruct (forallb (indexable (length dims)) L) eqn:E;
    [eapply Acc; [exact V | rewrite (sh_dims Hs), M; reflexivity]
    |cbn [bind api]; rewrite V; cbn [bind Z.eqb]; rewrite (sh_dims Hs), M; reflexivity].
Qed.

Theorem replies : forall k, flag (api c k) = reply dims m k.
Proof.
  intros k. destruct k as [q d|q d p|q d|a p|cs t p|u [q|l] d|q|].
  1-3: eapply reply_one; simpl; eauto.
  - apply reply_cx.
  - apply reply_tof.
  - eapply reply_one; simpl; eauto.
  - apply reply_list.
  - reflexivity.
  - destruct (history_inv H) as [l0 [ls I]]. destruct (inv_measure I) as [c' [E _]]. rewrite E. reflexivity.
Qed.
End List.
End Answers.
