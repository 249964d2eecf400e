(** * RunsIff: every plain call asks for a valid gate, does nothing, or breaks
    the circuit. *)
From Verif Require Import Py Scalar Mat Utils Gates Circuit Spec Calls HistSpec CallSpec ShapeSpec SucceedSpec AnswerSpec Lib Kern GateMat GateTof Flow Layers Blocks Refine History Merge Errors Construct Ignored BadGates Reject Shapes Answers Succeeds.
Set Implicit Arguments.

Section RunsIff.
Variable S : scalar.
Variable L : scalar_laws S.
Notation op := (op S).
Notation mat := (mat S).
Notation circuit := (circuit S).
Notation call := (call S).
Notation NB := (NumpyBackend S).

Definition asks_gate (dims : list nat) (k : call) : Prop := exists g, denotes dims k g /\ gate_ok dims g.

Lemma unitary_rows : forall (u : mat), is_unitary u = true -> mc u = mr u ->
  orthonormal_rows S Nat.eqb (seq 0 (mr u)) (mget u).
Proof.
  intros u H Hsq i j Hi Hj. apply in_seq in Hi. apply in_seq in Hj. unfold is_unitary, ddot in H.
  change (mr (dconj (dtrans u))) with (mc u) in H. rewrite Nat.eqb_refl in H. change (mc (dconj (dtrans u))) with (mr u) in H.
  rewrite forallb_forall in H. specialize (H i ltac:(apply in_seq; lia)). rewrite forallb_forall in H.
  specialize (H j ltac:(apply in_seq; lia)). unfold deye in H. rewrite !mget_mkmat in H by lia.
  rewrite <- H. f_equal. rewrite <- (bsum_total S), Hsq. apply bsum_ext. intros k Hk. apply in_seq in Hk.
  unfold dconj, dtrans. cbn [mr mc mkmat]. rewrite !mget_mkmat by lia. reflexivity.
Qed.

(** The entries of a matrix as amplitudes between configurations. *)
Definition entries (ds : list nat) (M : mat) : config -> config -> S := fun s t => mget M (lin ds s) (lin ds t).

Lemma holds_own : forall ds (M : mat), mr M = prodn ds -> mc M = prodn ds -> holds_entries ds M (entries ds M).
Proof.
  intros ds M H1 H2. unfold holds_entries. rewrite all_configs_length. split; [exact H1|]. split; [exact H2|].
  intros i j Hi Hj. unfold entries. fold (unlin ds i) (unlin ds j). rewrite !lin_unlin by lia. reflexivity.
Qed.

Lemma entries_ok : forall ds (M : mat), mr M = prodn ds -> mc M = prodn ds -> is_unitary M = true ->
  orthonormal_rows S config_eqb (all_configs ds) (entries ds M).
Proof.
  intros ds M H1 H2 HU s t Hs Ht. apply in_all_configs in Hs. apply in_all_configs in Ht.
  pose proof (@entries_repr S ds M _ (@holds_own ds M H1 H2)) as R. rewrite (is_unitary_iff R) in HU. specialize (HU s t Hs Ht).
  rewrite (bsum_total S) in HU. exact HU.
Qed.

Section Call.
Variable dims : list nat.
Variables (init : option (list Z)) (out : option output) (ks : list call) (c : circuit).
Hypothesis H : history (QList (map Z.of_nat dims)) init out ks c.
Hypothesis Hm : ~ In CMeasureAll ks.
Hypothesis Hne : dims <> [].
Notation n := (length dims).

Definition breaks (k : call) : Prop :=
  (exists c', api c k = Ok (c', true) /\ never_runs c') \/
  (exists g, issues c k g /\ occupies n g <> [] /\ large dims g).

Let Hs : shaped dims c := hl_shaped dims H.

Lemma Hdims2 : forall d, In d dims -> 2 <= d.
Proof. intros d Hd. destruct (In_nth _ _ 0 Hd) as [r [Hr <-]]. exact (hl_dims dims H Hr). Qed.
Lemma Hnregs : 0 < nregs (QList (map Z.of_nat dims)).
Proof. rewrite hl_nregs. destruct dims; [congruence | simpl; lia]. Qed.

Lemma broken : forall k g e, issues c k g -> occupies n g <> [] -> unitary NB g = Err e -> breaks k.
Proof.
  intros k g e Hi Ho He. left. eapply (@poison S (QList (map Z.of_nat dims)) init out ks c k g e H Hnregs Hm Hi); [|exact He].
  rewrite hl_nregs. exact Ho.
Qed.

(** One-register gates *)
Lemma sort_one : forall k r dm, asks_one k r dm -> plain dims k -> asks_gate dims k \/ skipped dims k \/ breaks k.
Proof.
  intros k q dm Ha Hp.
  assert (Hp' : forall d, dm = Some d -> (0 <= q < Z.of_nat n)%Z -> (d <= 0 \/ Z.of_nat (nth (Z.to_nat q) dims O) <= d)%Z).
  { destruct k as [q' d|q' d p|q' d| | |u [q'|l] d| |]; simpl in Ha; try contradiction; destruct Ha as [-> ->]; exact Hp. }
  destruct (Z.lt_ge_cases q 0) as [Hq|Hq]; [right; left; eapply sk_one; [exact Ha | left; exact Hq]|].
  destruct (Z.lt_ge_cases q (Z.of_nat n)) as [Hq2|Hq2]; [|right; left; eapply sk_one; [exact Ha | right; exact Hq2]].
  assert (Hr : exists r, q = Z.of_nat r /\ r < n) by (exists (Z.to_nat q); lia). destruct Hr as [r [-> Hr]].
  rewrite Nat2Z.id in Hp'.
  assert (Cs : dflt dims r dm \/ (exists d, dm = Some d /\ (Z.of_nat (nth r dims O) < d)%Z) \/ (exists d, dm = Some d /\ (d < 0)%Z)).
  { destruct dm as [d|]; [|left; left; reflexivity]. destruct (Z.eq_dec d 0) as [->|Hd0]; [left; right; left; reflexivity|].
    destruct (Z.lt_ge_cases d 0); [right; right; eauto|].
    destruct (Hp' d eq_refl ltac:(lia)) as [X|X]; [lia|].
    destruct (Z.eq_dec d (Z.of_nat (nth r dims 0))) as [->|]; [left; right; right; reflexivity | right; left; exists d; split; [reflexivity | lia]]. }
  destruct Cs as [Hd|[[d [-> Hd]]|[d [-> Hd]]]].
  - destruct k as [q' d|q' d p|q' d| | |u [q'|l] d| |]; simpl in Ha; try contradiction; destruct Ha as [-> ->].
    + left. exists (GH r). split; [constructor; exact Hd | exact Hr].
    + destruct (Z.lt_ge_cases p (- Z.of_nat (nth r dims 0))); [right; right; left; eapply bad_x; eauto|].
      destruct (Z.lt_ge_cases p (Z.of_nat (nth r dims 0))); [|right; right; left; eapply bad_x; eauto].
      left. exists (GX r p). split; [constructor; exact Hd | split; [exact Hr | lia]].
    + left. exists (GZ r). split; [constructor; exact Hd | exact Hr].
    + destruct (is_unitary u) eqn:EU; [|right; right; left; eapply bad_arb1; eauto].
      destruct (Nat.eq_dec (mr u) (nth r dims 0)) as [E1|]; [|right; right; left; eapply bad_arb1; eauto].
      destruct (Nat.eq_dec (mc u) (nth r dims 0)) as [E2|]; [|right; right; left; eapply bad_arb1; eauto].
      left. exists (GU r (mget u)). split; [constructor; auto|]. split; [exact Hr|]. rewrite <- E1. apply unitary_rows; [exact EU | congruence].
  - right. left. eapply sk_dim; eauto.
  - right. right.
    assert (V : validate1 c (Z.of_nat r) (Some d) = Ok tt).
    { unfold validate1. rewrite (sh_len Hs), (@sh_get S dims c Hs r Hr). destruct (Z.ltb_spec (Z.of_nat n - 1) (Z.of_nat r)); [lia|].
      destruct (Z.eqb_spec d 0); [reflexivity|]. cbn [bind]. destruct (Z.ltb_spec (Z.of_nat (nth r dims O)) d); [lia | reflexivity]. }
    assert (D : dims_or c (Some d) (Z.of_nat r) = Ok d).
    { unfold dims_or. destruct (Z.eqb_spec d 0); [lia | reflexivity]. }
    assert (Hd' : (d <? 0)%Z = true) by (apply Z.ltb_lt; exact Hd).
    assert (O1 : forall g : op, registers g = [Z.of_nat r] -> occupies n g <> []).
    { intros g Eg. rewrite (occupies_single g Eg Hr). discriminate. }
    assert (U : exists g, issues c k g /\ registers g = [Z.of_nat r] /\ exists e, unitary NB g = Err e).
    { destruct k as [q' d'|q' d' p|q' d'| | |u [q'|l] d'| |]; simpl in Ha; try contradiction; destruct Ha as [-> ->]; eexists;
        (split; [constructor; [exact V | exact D]|]); (split; [reflexivity|]); cbn [unitary].
      - unfold h_unitary. destruct (Z.ltb_spec (d + 1) 0); [eexists; reflexivity|].
        destruct (Z.leb_spec d 0); [eexists; reflexivity | lia].
      - unfold x_unitary. rewrite Hd'. eexists; reflexivity.
      - unfold z_unitary. destruct (Z.ltb_spec (d + 1) 0); [eexists; reflexivity|].
        destruct (Z.eqb_spec (d + 1) 0); [eexists; reflexivity | lia].
      - unfold arb_unitary. destruct (is_unitary u); [|eexists; reflexivity].
        destruct (Z.eqb_spec (Z.of_nat (mr u)) d); [lia|]. eexists; reflexivity. }
    destruct U as [g [Hi [Hg [e He]]]]. eapply broken; eauto.
Qed.

Lemma all_or_some : forall (f : Z -> bool) l, (forall r, In r l -> f r = true) \/ exists r, In r l /\ f r = false.
Proof.
  intros f l. destruct (forallb f l) eqn:E; [left; apply forallb_forall; exact E|]. right.
  induction l as [|x l IH]; [discriminate|]. cbn [forallb] in E. destruct (f x) eqn:Ex; [|exists x; split; [left; reflexivity | exact Ex]].
  destruct (IH E) as [r [I R]]. exists r. split; [right; exact I | exact R].
Qed.

Lemma signs : forall l : list Z, (forall r, In r l -> (r < 0)%Z) \/ exists r, In r l /\ (0 <= r)%Z.
Proof.
  intros l. destruct (all_or_some (fun r => (r <? 0)%Z) l) as [A|[r [I R]]].
  - left. intros r Hr. apply Z.ltb_lt, A, Hr.
  - right. exists r. split; [exact I | apply Z.ltb_ge; exact R].
Qed.
Lemma signs' : forall l : list Z, (forall r, In r l -> (0 <= r)%Z) \/ exists r, In r l /\ (r < 0)%Z.
Proof.
  intros l. destruct (all_or_some (fun r => (0 <=? r)%Z) l) as [A|[r [I R]]].
  - left. intros r Hr. apply Z.leb_le, A, Hr.
  - right. exists r. split; [exact I | apply Z.leb_gt; exact R].
Qed.
Lemma past : forall l : list Z, (forall r, In r l -> (Z.of_nat n <= r)%Z) \/ exists r, In r l /\ (r < Z.of_nat n)%Z.
Proof.
  intros l. destruct (all_or_some (fun r => (Z.of_nat n <=? r)%Z) l) as [A|[r [I R]]].
  - left. intros r Hr. apply Z.leb_le, A, Hr.
  - right. exists r. split; [exact I | apply Z.leb_gt; exact R].
Qed.
Lemma fine : forall l : list Z, (forall r, In r l -> (- Z.of_nat n <= r < Z.of_nat n)%Z) \/
  exists r, In r l /\ (r < - Z.of_nat n \/ Z.of_nat n <= r)%Z.
Proof.
  intros l. destruct (all_or_some (indexable n) l) as [A|[r [I R]]].
  - left. intros r Hr. apply indexable_spec, A, Hr.
  - right. exists r. split; [exact I | apply indexable_out; exact R].
Qed.
Lemma naturals : forall l : list Z, (forall r, In r l -> (0 <= r)%Z) -> exists l', l = map Z.of_nat l'.
Proof.
  intros l A. exists (map Z.to_nat l). rewrite map_map. rewrite <- (map_id l) at 1. apply map_ext_in. intros x Hx.
  rewrite Z2Nat.id; [reflexivity | apply A; exact Hx].
Qed.

(** cx *)
Lemma sort_cx : forall a p, asks_gate dims (CCX a p) \/ skipped dims (CCX a p : call) \/ breaks (CCX a p).
Proof.
  intros a p. destruct (Nat.lt_ge_cases (length a) 2) as [Hl|Hl]; [right; left; apply sk_cx; left; exact Hl|].
  destruct (signs a) as [A|[b [Ib Hb]]]; [right; left; apply sk_cx; right; left; exact A|].
  destruct (past a) as [A|[d [Id Hd]]]; [right; left; apply sk_cx; right; right; exact A|].
  destruct a as [|s [|t [|x a]]]; simpl in Hl; try lia.
  - assert (X : (exists s' t', s = Z.of_nat s' /\ t = Z.of_nat t' /\ s' < n /\ t' < n) \/ outside n s \/ outside n t).
    { unfold outside. destruct (Z.lt_ge_cases s 0); [tauto|]. destruct (Z.lt_ge_cases t 0); [tauto|].
      destruct (Z.lt_ge_cases s (Z.of_nat n)); [|tauto]. destruct (Z.lt_ge_cases t (Z.of_nat n)); [|tauto].
      left. exists (Z.to_nat s), (Z.to_nat t). lia. }
    destruct X as [[s' [t' [-> [-> [H1 H2]]]]]|X].
    + left. exists (GCX s' t' p). split; [constructor | split; assumption].
    + right. right. left. eapply bad_cx; [exact H | exact Hm | exact Hne | | exact X].
      exists (Z.to_nat (Z.max 0 (Z.min s t))). simpl in Ib, Id. destruct dims; [congruence|]. simpl length in *. lia.
  - right. right.
    assert (E2 : py_get (s :: t :: x :: a) 1 = Ok t).
    { unfold py_get, py_index. cbn [length].
      replace ((0 <=? 1) && (1 <? Z.of_nat (Datatypes.S (Datatypes.S (Datatypes.S (length a))))))%Z with true
        by (symmetry; apply andb_true_iff; rewrite Z.leb_le, Z.ltb_lt; lia). reflexivity. }
    eapply (@broken (CCX (s :: t :: x :: a) p)); [apply (@is_cx S c (s :: t :: x :: a) p s t); [reflexivity | exact E2] | | reflexivity].
    destruct (Z.lt_ge_cases b (Z.of_nat n)) as [Hbn|Hbn].
    + apply (@occupies_in S n _ b b (Z.to_nat b)); [exact Ib | exact Ib | lia | lia].
    + destruct (Z.lt_ge_cases d 0) as [Hd0|Hd0].
      * apply (@occupies_in S n _ d b 0); [exact Id | exact Ib | lia | destruct dims; [congruence | simpl; lia]].
      * apply (@occupies_in S n _ d d (Z.to_nat d)); [exact Id | exact Id | lia | lia].
Qed.

(** toffoli *)
Lemma sort_tof : forall cs t p, plain dims (CTof cs t p : call) ->
  asks_gate dims (CTof cs t p) \/ skipped dims (CTof cs t p : call) \/ breaks (CTof cs t p).
Proof.
  intros cs t p Hp. destruct (fine (t :: cs)) as [F|F]; [|right; left; apply sk_tof; left; exact F].
  destruct (signs (t :: cs)) as [A|[b [Ib Hb]]]; [right; left; apply sk_tof; right; exact A|].
  destruct (signs' (t :: cs)) as [A|[a [Ia Ha]]].
  - destruct (@naturals cs) as [cn ->]; [intros r Hr; apply A; right; exact Hr|].
    assert (Et : exists tn, t = Z.of_nat tn) by (exists (Z.to_nat t); specialize (A t (or_introl eq_refl)); lia).
    destruct Et as [tn ->].
    assert (Hx : forall x, In x (tn :: cn) -> x < n).
    { intros x Hx. assert (In (Z.of_nat x) (Z.of_nat tn :: map Z.of_nat cn)) by (change (In (Z.of_nat x) (map Z.of_nat (tn :: cn))); apply in_map; exact Hx).
      specialize (F _ H0). lia. }
    assert (D2 : spans_two (tn :: cn) \/ ~ spans_two (tn :: cn)).
    { destruct (@nat_bounds (tn :: cn)) as [lo [hi [I1 [I2 B]]]]; [discriminate|]. destruct (Nat.eq_dec hi (lo + 1)) as [->|Hd].
      - left. exists lo. split; [exact I1|]. split; [exact I2|]. intros x Ix. specialize (B x Ix). lia.
      - right. intros [l [J1 [J2 J3]]]. apply Hd. pose proof (B _ J1). pose proof (B _ J2).
        pose proof (J3 _ I1). pose proof (J3 _ I2). lia. }
    destruct D2 as [D2|D2]; [right; right; left; eapply bad_tof2; eauto|].
    destruct (in_dec Nat.eq_dec tn cn) as [It|It].
    + right. right. left. eapply bad_tof_target; [exact H | exact Hm | exact L | exact Hx | exact It|].
      apply (Hp tn eq_refl); [apply Hx; left; reflexivity | apply in_map; exact It].
    + left. exists (GTof cn tn p). split; [constructor|]. split; [intros x Ix; apply Hx; right; exact Ix|].
      split; [apply Hx; left; reflexivity|]. split; assumption.
  - right. right. right.
    destruct (py_min (cs ++ [t])) as [lb|] eqn:Elb; [|destruct cs; discriminate].
    destruct (py_max (cs ++ [t])) as [ub|] eqn:Eub; [|destruct cs; discriminate].
    destruct (@toffoli_total S dims cs t p lb ub (@Answers.Hpos S dims init out ks c H) Elb Eub) as [u [E _]].
    { apply forallb_forall. intros r Hr. apply in_zrange in Hr. apply indexable_spec.
      pose proof (py_min_in _ Elb) as [Il _]. pose proof (py_max_in _ Eub) as [Iu _].
      assert (Sn : forall x, In x (cs ++ [t]) -> In x (t :: cs)) by (intros x; rewrite in_app_iff; simpl; tauto).
      pose proof (F _ (Sn _ Il)). pose proof (F _ (Sn _ Iu)). lia. }
    assert (E' : mk_toffoli S cs t p (qregs_list (c_qregs c)) = Ok (OTof cs t p (map (dim_at dims) (zrange lb (ub + 1))) (zrange lb (ub + 1)) u))
      by (rewrite (sh_qregs Hs); exact E).
    eexists. split; [constructor; exact E'|].
    destruct (@tof_mixed S dims Hdims2 c Hs _ _ _ _ _ _ E') as [O X]; [exists a; auto | exists b; auto|]. split; [exact O|].
    intros m Hu. apply X. exact Hu.
Qed.

(** Matrices for lists of registers *)
Lemma sort_list : forall u l dm, plain dims (CGate u (RList l) dm) ->
  asks_gate dims (CGate u (RList l) dm) \/ skipped dims (CGate u (RList l) dm) \/ breaks (CGate u (RList l) dm).
Proof.
  intros u l dm [Hdm Hp]. destruct (fine l) as [F|F]; [|right; left; apply sk_list; left; exact F].
  destruct (signs l) as [A|[b [Ib Hb]]]; [right; left; apply sk_list; right; exact A|].
  assert (V : validate c (RList l) dm = Ok tt).
  { rewrite (@validate_list S dims init out ks c H dm l Hdm). destruct (existsb _ l) eqn:E; [|reflexivity]. exfalso.
    apply existsb_exists in E as [r [Ir Er]]. apply Z.leb_le in Er. specialize (F r Ir). lia. }
  assert (D : mapM (py_get (c_dims c)) l = Ok (map (dim_at dims) l)).
  { rewrite (sh_dims Hs), mapM_indexable. replace (forallb (indexable n) l) with true; [reflexivity|]. symmetry.
    apply forallb_forall. intros r Hr. apply indexable_spec, F, Hr. }
  assert (Hi : issues c (CGate u (RList l) dm) (OArb (RList l) (RList (map (dim_at dims) l)) u)).
  { constructor; [exact V|]. destruct Hdm as [->| ->]; cbn; rewrite D; reflexivity. }
  assert (Ho : occupies n (OArb (RList l) (RList (map (dim_at dims) l)) u : op) <> []).
  { apply (@occupies_in S n _ b b (Z.to_nat b)); [exact Ib | exact Ib | lia | specialize (F b Ib); lia]. }
  destruct (is_unitary u) eqn:EU.
  2:{ right. right. eapply broken; [exact Hi | exact Ho|]. cbn [unitary]. unfold arb_unitary. rewrite EU. reflexivity. }
  destruct (Nat.eq_dec (length l) 2) as [H2|H2].
  { right. right. destruct l as [|x [|y [|z l]]]; try discriminate H2.
    eapply broken; [exact Hi | exact Ho|]. cbn [unitary map]. unfold arb_unitary. rewrite EU. reflexivity. }
  assert (Lg : 3 <= length l -> room dims l < mr u -> breaks (CGate u (RList l) dm)).
  { intros H3 Hlt. right. eexists. split; [exact Hi|]. split; [exact Ho|]. intros m Hm'. cbn [unitary] in Hm'.
    apply bind_ok in Hm' as [v [Hm' X]]. injection X as <-. unfold arb_unitary in Hm'. rewrite EU in Hm'.
    destruct l as [|x [|y [|z l]]]; simpl in H3; try lia. cbn [map] in Hm'. injection Hm' as <-. exact Hlt. }
  assert (Cs : (3 <= length l /\ room dims l < mr u) \/ (3 <= length l -> mr u = room dims l)).
  { destruct (Nat.lt_ge_cases (length l) 3) as [H3|H3]; [right; lia|]. destruct (Hp H3) as [_ [X _]].
    destruct (Nat.eq_dec (mr u) (room dims l)); [right; auto | left; lia]. }
  destruct Cs as [[H3 Hlt]|Eq]; [right; right; apply Lg; assumption|]. clear Lg.
  assert (A : forall r, In r l -> (0 <= r)%Z).
  { destruct (Nat.lt_ge_cases (length l) 3) as [H3|H3].
    - destruct l as [|x [|y l]]; simpl in H2, H3; try lia; [contradiction|]. intros r [<-|[]]. destruct Ib as [->|[]]. exact Hb.
    - destruct (Hp H3) as [_ [_ X]]. destruct (X (Eq H3)) as [A|A]; [exact A|]. specialize (A b Ib). lia. }
  destruct (@naturals l A) as [l' ->].
  destruct (@nat_bounds l') as [lo [hi [I1 [I2 B]]]]; [destruct l'; [contradiction | discriminate]|].
  assert (Hhi : hi < n) by (specialize (F (Z.of_nat hi) (in_map _ _ _ I2)); lia).
  assert (Hlo : lo <= hi) by (apply B; exact I1).
  assert (Rm : room dims (map Z.of_nat l') = prodn (sub dims lo (hi - lo + 1))).
  { change (Shapes.csize dims (OArb (RList (map Z.of_nat l')) (RInt 0) u : op) = prodn (sub dims lo (hi - lo + 1))).
    apply csize_range; [|exact Hlo | exact Hhi].
    intros r. unfold covers. cbn [registers]. apply eq_true_iff_eq. rewrite !andb_true_iff, !existsb_exists, !Z.leb_le. split.
    - intros [[x [Hx Lx]] [y [Hy Ly]]]. apply Z.leb_le in Lx. apply Z.leb_le in Ly.
      apply in_map_iff in Hx as [x' [<- Hx]]. apply in_map_iff in Hy as [y' [<- Hy]]. pose proof (B _ Hx). pose proof (B _ Hy). lia.
    - intros [Lx Ly]. split; [exists (Z.of_nat lo) | exists (Z.of_nat hi)]; (split; [apply in_map; assumption | apply Z.leb_le; lia]). }
  assert (Ok1 : mr u = prodn (sub dims lo (hi - lo + 1)) -> mc u = prodn (sub dims lo (hi - lo + 1)) -> length l' = 1 \/ 3 <= length l' ->
     asks_gate dims (CGate u (RList (map Z.of_nat l')) dm)).
  { intros E1 E2 E3. exists (GSpan lo (hi - lo + 1) (entries (sub dims lo (hi - lo + 1)) u)). split.
    - apply den_span; [exact Hdm | exact I1 | replace (lo + (hi - lo + 1) - 1) with hi by lia; exact I2 | | exact E3 | apply holds_own; assumption].
      intros x Hx. specialize (B x Hx). lia.
    - split; [lia|]. split; [lia|]. apply entries_ok; assumption. }
  rewrite map_length in *.
  destruct (Nat.lt_ge_cases (length l') 3) as [H3|H3].
  - destruct l' as [|x [|y l']]; simpl in H2, H3; try lia; [contradiction|]. clear H2 H3.
    destruct I1 as [->|[]]. destruct I2 as [<-|[]]. replace (lo - lo + 1) with 1 in * by lia. rewrite sub_1 in Ok1 by exact Hhi.
    assert (Ep : prodn [nth lo dims 0] = nth lo dims 0) by (unfold prodn; simpl; lia). rewrite Ep in Ok1.
    destruct (Nat.eq_dec (mr u) (nth lo dims 0)) as [E1|E1];
      [destruct (Nat.eq_dec (mc u) (nth lo dims 0)) as [E2|E2]; [left; apply Ok1; auto|]|];
      right; right; (eapply broken; [exact Hi | exact Ho|]); cbn [unitary map]; unfold arb_unitary; rewrite EU;
      unfold dim_at; destruct (Z.ltb_spec (Z.of_nat lo) 0); try lia; rewrite Nat2Z.id.
    + destruct (Z.eqb_spec (Z.of_nat (mr u)) (Z.of_nat (nth lo dims 0))); [|reflexivity].
      destruct (Z.eqb_spec (Z.of_nat (mc u)) (Z.of_nat (nth lo dims 0))); [lia | reflexivity].
    + destruct (Z.eqb_spec (Z.of_nat (mr u)) (Z.of_nat (nth lo dims 0))); [lia | reflexivity].
  - left. destruct (Hp H3) as [E1 _]. pose proof (Eq H3) as E2. apply Ok1; [congruence | congruence | right; exact H3].
Qed.

Theorem sorts : forall k, plain dims k -> asks_gate dims k \/ skipped dims k \/ breaks k.
Proof.
  intros k Hp. destruct k as [q d|q d p|q d|a p|cs t p|u [q|l] d|q|].
  1-3: eapply sort_one; [simpl; eauto | exact Hp].
  - apply sort_cx.
  - apply sort_tof; exact Hp.
  - eapply sort_one; [simpl; eauto | exact Hp].
  - apply sort_list; exact Hp.
  - right. left. apply sk_measure.
  - contradiction.
Qed.

(** A call that breaks the circuit is never made good. *)
Lemma breaks_run : forall k ks', breaks k -> plain dims k -> Forall (plain dims) ks -> Forall (plain dims) ks' ->
  exists e, run NB (after (step c k) (ks' ++ [CMeasureAll])) = Err e.
Proof.
  intros k ks' Hb Hp T1 T2. destruct Hb as [[c' [E N]]|[g [Hi [Ho Hl]]]].
  - unfold step. rewrite E. apply N.
  - assert (W : forall l : list call, Forall (plain dims) l -> Forall (fun k => plain dims k \/ k = CMeasureAll) l).
    { intros l. apply Forall_impl. auto. }
    destruct (@too_large_flow S L dims init out ks c k g (ks' ++ [CMeasureAll]) H Hm Hi Ho Hl Hp (W _ T1)) as [c' [E [e He]]].
    { apply Forall_app. split; [apply W; exact T2 | constructor; [right; reflexivity | constructor]]. }
    exists e. unfold step. rewrite E. unfold run. rewrite He. reflexivity.
Qed.
End Call.

(** Either every call is good, or one of them breaks the circuit. *)
Theorem reads_or_breaks : forall dims init out ks (c : circuit),
  history (QList (map Z.of_nat dims)) init out ks c -> dims <> [] -> Forall (plain dims) ks ->
  (exists prog, reads dims ks prog) \/ exists e, run NB (after c [CMeasureAll]) = Err e.
Proof.
  intros dims init out ks c [c0 [E0 ->]] Hne HP.
  assert (NoM : forall l : list call, Forall (plain dims) l -> ~ In CMeasureAll l).
  { intros l Hl I. rewrite Forall_forall in Hl. exact (Hl _ I). }
  assert (G : forall ks pre, Forall (plain dims) pre -> Forall (plain dims) ks ->
    (exists prog, reads dims ks prog) \/ exists e, run NB (after c0 (pre ++ ks ++ [CMeasureAll])) = Err e).
  { clear ks HP. induction ks as [|k ks IH]; intros pre T1 T2; [left; exists []; constructor|].
    inversion T2 as [|? ? Pk T3]; subst.
    assert (Hh : history (QList (map Z.of_nat dims)) init out pre (after c0 pre)) by (exists c0; auto).
    assert (T4 : Forall (plain dims) (pre ++ [k])) by (apply Forall_app; split; [exact T1 | constructor; [exact Pk | constructor]]).
    assert (Es : after c0 (pre ++ (k :: ks) ++ [CMeasureAll]) = after (step (after c0 pre) k) (ks ++ [CMeasureAll])).
    { unfold after. rewrite fold_left_app. reflexivity. }
    destruct (IH (pre ++ [k]) T4 T3) as [[prog R]|[e X]].
    2:{ right. exists e. rewrite <- app_assoc in X. exact X. }
    destruct (@sorts dims init out pre _ Hh (NoM _ T1) Hne k Pk) as [[g [D O]]|[Sk|Bk]].
    - left. exists (g :: prog). apply reads_gate; assumption.
    - left. exists prog. apply reads_skip; assumption.
    - right. rewrite Es. eapply breaks_run; [exact Hh | apply NoM; exact T1 | exact Bk | exact Pk | exact T1 | exact T3]. }
  destruct (G ks [] (Forall_nil _) HP) as [R|[e X]]; [left; exact R | right]. exists e. unfold after in *. rewrite <- fold_left_app. exact X.
Qed.
End RunsIff.
