(** * History: invariants of every call history. *)
From Verif Require Import Py Scalar Mat Utils Gates Circuit Spec HistSpec Lib GateTof Flow.
Set Implicit Arguments.

Section History.
Variable S : scalar.
Notation op := (op S).
Notation moment := (moment S).
Notation circuit := (circuit S).
Notation call := (call S).

(** ** Layers tile the line *)
Definition lowr (n : nat) (lo : Z) : nat := Nat.min (Z.to_nat lo) n.
Definition highr (n : nat) (lo hi : Z) : nat := Nat.max (lowr n lo) (Nat.min (Z.to_nat (hi + 1)) n).

Lemma flat_map_singleton : forall A B (f : A -> B) l, flat_map (fun x => [f x]) l = map f l.
Proof. intros A B f l; induction l as [|x l IH]; simpl; [reflexivity | rewrite IH; reflexivity]. Qed.

Lemma flat_map_ext_in' : forall A B (f g : A -> list B) l, (forall x, In x l -> f x = g x) -> flat_map f l = flat_map g l.
Proof.
  intros A B f g l; induction l as [|x l IH]; intros H; simpl; [reflexivity|].
  rewrite (H x (or_introl eq_refl)), IH; auto. intros y Hy. apply H; right; exact Hy.
Qed.

Lemma flat_map_nil : forall A B (f : A -> list B) l, (forall x, In x l -> f x = []) -> flat_map f l = [].
Proof.
  intros A B f l; induction l as [|x l IH]; intros H; simpl; [reflexivity|].
  rewrite (H x (or_introl eq_refl)), IH; auto. intros y Hy. apply H; right; exact Hy.
Qed.

Lemma seq_split3 : forall a b n, a <= b -> b <= n -> seq 0 n = seq 0 a ++ seq a (b - a) ++ seq b (n - b).
Proof.
  intros a b n H1 H2. replace n with (a + ((b - a) + (n - b))) at 1 by lia.
  rewrite !seq_app. replace (0 + a) with a by lia. replace (a + (b - a)) with b by lia. reflexivity.
Qed.

Lemma lowr_le : forall n lo hi, lowr n lo <= highr n lo hi /\ highr n lo hi <= n.
Proof. intros. unfold highr, lowr. lia. Qed.

Lemma layer_list_split : forall dims lo hi (g : op) n,
  layer_list dims lo hi g n
  = map (idop S dims) (seq 0 (lowr n lo)) ++
    (if lowr n lo <? highr n lo hi then [g] else []) ++
    map (idop S dims) (seq (highr n lo hi) (n - highr n lo hi)).
Proof.
  intros dims lo hi g n. unfold layer_list.
  destruct (lowr_le n lo hi) as [H1 H2].
  rewrite (@seq_split3 (lowr n lo) (highr n lo hi) n) at 1 by assumption.
  rewrite !flat_map_app. f_equal; [|f_equal].
  - rewrite <- flat_map_singleton. apply flat_map_ext_in'. intros i Hi. apply in_seq in Hi.
    unfold lowr in Hi. replace (lo <=? Z.of_nat i)%Z with false by (symmetry; apply Z.leb_gt; lia). reflexivity.
  - destruct (Nat.ltb_spec (lowr n lo) (highr n lo hi)) as [Hlt|Hge].
    + replace (highr n lo hi - lowr n lo) with (Datatypes.S (highr n lo hi - lowr n lo - 1)) by lia.
      cbn [seq flat_map]. rewrite flat_map_nil.
      * unfold highr, lowr in *. rewrite app_nil_r.
        replace (lo <=? Z.of_nat (Nat.min (Z.to_nat lo) n))%Z with true by (symmetry; apply Z.leb_le; lia).
        replace (Z.of_nat (Nat.min (Z.to_nat lo) n) <=? hi)%Z with true by (symmetry; apply Z.leb_le; lia).
        replace (Z.of_nat (Nat.min (Z.to_nat lo) n) =? Z.max 0 lo)%Z with true by (symmetry; apply Z.eqb_eq; lia).
        reflexivity.
      * intros i Hi. apply in_seq in Hi. unfold highr, lowr in *.
        replace (lo <=? Z.of_nat i)%Z with true by (symmetry; apply Z.leb_le; lia).
        replace (Z.of_nat i <=? hi)%Z with true by (symmetry; apply Z.leb_le; lia).
        replace (Z.of_nat i =? Z.max 0 lo)%Z with false by (symmetry; apply Z.eqb_neq; lia). reflexivity.
    + replace (highr n lo hi - lowr n lo) with 0 by lia. reflexivity.
  - rewrite <- flat_map_singleton. apply flat_map_ext_in'. intros i Hi. apply in_seq in Hi.
    unfold highr, lowr in Hi. replace ((lo <=? Z.of_nat i) && (Z.of_nat i <=? hi))%Z with false; [reflexivity|].
    symmetry. apply andb_false_iff. rewrite !Z.leb_gt. lia.
Qed.

Lemma layer_int_list : forall dims q (g : op) n, layer_int dims q g n = layer_list dims q q g n.
Proof.
  intros dims q g n. unfold layer_int, layer_list. rewrite <- flat_map_singleton.
  apply flat_map_ext_in'. intros i _. destruct (Z.of_nat i =? q)%Z eqn:E.
  - apply Z.eqb_eq in E. rewrite <- E, Z.leb_refl. cbn [andb].
    replace (Z.of_nat i =? Z.max 0 (Z.of_nat i))%Z with true by (symmetry; apply Z.eqb_eq; lia). reflexivity.
  - apply Z.eqb_neq in E. replace ((q <=? Z.of_nat i) && (Z.of_nat i <=? q))%Z with false; [reflexivity|].
    symmetry. apply andb_false_iff. rewrite !Z.leb_gt. lia.
Qed.

(** [g] was issued for the registers from [lo] to [hi]. *)
Definition ranges (g : op) (lo hi : Z) : Prop :=
  forall r, covers g r = ((lo <=? Z.of_nat r) && (Z.of_nat r <=? hi))%Z.

Lemma filter_seq_range : forall lo hi n,
  filter (fun r => (lo <=? Z.of_nat r) && (Z.of_nat r <=? hi))%Z (seq 0 n)
  = seq (lowr n lo) (highr n lo hi - lowr n lo).
Proof.
  intros lo hi n. destruct (lowr_le n lo hi) as [H1 H2].
  rewrite (@seq_split3 (lowr n lo) (highr n lo hi) n) at 1 by assumption.
  assert (F : forall (P : nat -> bool) l, (forall x, In x l -> P x = false) -> filter P l = []).
  { intros P l; induction l as [|x l IH]; intros H; simpl; [reflexivity|].
    rewrite (H x (or_introl eq_refl)). apply IH. intros y Hy; apply H; right; exact Hy. }
  assert (T : forall (P : nat -> bool) l, (forall x, In x l -> P x = true) -> filter P l = l).
  { intros P l; induction l as [|x l IH]; intros H; simpl; [reflexivity|].
    rewrite (H x (or_introl eq_refl)). f_equal. apply IH. intros y Hy; apply H; right; exact Hy. }
  rewrite !filter_app, F, T, F; [apply app_nil_r | | |].
  - intros x Hx. apply in_seq in Hx. unfold highr, lowr in *. apply andb_false_iff. rewrite !Z.leb_gt. lia.
  - intros x Hx. apply in_seq in Hx. unfold highr, lowr in *. apply andb_true_iff. rewrite !Z.leb_le. lia.
  - intros x Hx. apply in_seq in Hx. unfold highr, lowr in *. apply andb_false_iff. rewrite !Z.leb_gt. lia.
Qed.

Lemma occupies_ranges : forall n g lo hi, ranges g lo hi ->
  occupies n g = seq (lowr n lo) (highr n lo hi - lowr n lo).
Proof.
  intros n g lo hi H. unfold occupies. rewrite <- filter_seq_range. apply filter_ext. exact H.
Qed.

Lemma ranges_single : forall (g : op) q, registers g = [q] -> ranges g q q.
Proof. intros g q E r. unfold covers. rewrite E. simpl. rewrite !orb_false_r. reflexivity. Qed.

Lemma occupies_single : forall n (g : op) r, registers g = [Z.of_nat r] -> r < n -> occupies n g = [r].
Proof.
  intros n g r E Hr. rewrite (occupies_ranges n (ranges_single g E)).
  unfold highr, lowr. replace (Nat.min (Z.to_nat (Z.of_nat r)) n) with r by lia.
  replace (Nat.max r (Nat.min (Z.to_nat (Z.of_nat r + 1)) n) - r) with 1 by lia. reflexivity.
Qed.

Lemma concat_ids : forall dims n a k, a + k <= n ->
  concat (map (occupies n) (map (idop S dims) (seq a k))) = seq a k.
Proof.
  intros dims n a k; revert a; induction k as [|k IH]; intros a H; [reflexivity|].
  cbn [seq map concat]. rewrite IH by lia. rewrite (@occupies_single n _ a); [reflexivity | reflexivity | lia].
Qed.

Lemma layer_tiles : forall dims n lo hi g, ranges g lo hi -> tiles n (layer_list dims lo hi g n).
Proof.
  intros dims n lo hi g Hg. destruct (lowr_le n lo hi) as [H1 H2].
  rewrite layer_list_split. split.
  - rewrite !map_app, !concat_app, !concat_ids by lia.
    rewrite (@seq_split3 (lowr n lo) (highr n lo hi) n) at 1 by assumption. f_equal. f_equal.
    destruct (Nat.ltb_spec (lowr n lo) (highr n lo hi)) as [Hlt|Hge].
    + cbn [map concat]. rewrite app_nil_r. apply occupies_ranges; exact Hg.
    + replace (highr n lo hi - lowr n lo) with 0 by lia. reflexivity.
  - assert (Hid : forall i, i < n -> occupies n (idop S dims i) <> []).
    { intros i Hi. rewrite (@occupies_single n _ i); [discriminate | reflexivity | exact Hi]. }
    intros o Ho. rewrite !in_app_iff in Ho. destruct Ho as [Ho|[Ho|Ho]].
    + apply in_map_iff in Ho as [i [<- Hi]]. apply in_seq in Hi. apply Hid. lia.
    + destruct (Nat.ltb_spec (lowr n lo) (highr n lo hi)) as [Hlt|Hge]; [|contradiction].
      destruct Ho as [<-|[]]. rewrite (occupies_ranges n Hg).
      replace (highr n lo hi - lowr n lo) with (Datatypes.S (highr n lo hi - lowr n lo - 1)) by lia. discriminate.
    + apply in_map_iff in Ho as [i [<- Hi]]. apply in_seq in Hi. apply Hid. lia.
Qed.

(** ** Bounds of register lists *)
Lemma py_min_ex : forall x l, exists m, py_min (x :: l) = Ok m /\ In m (x :: l) /\ forall y, In y (x :: l) -> (m <= y)%Z.
Proof.
  intros x l. simpl py_min. exists (fold_left Z.min l x). split; [reflexivity|].
  revert x; induction l as [|y l IH]; intros x; simpl.
  - split; [left; reflexivity|]. intros y [<-|[]]. lia.
  - destruct (IH (Z.min x y)) as [H1 H2]. split.
    + destruct H1 as [H1|H1]; [|right; right; exact H1].
      destruct (Z.min_spec x y) as [[_ E]|[_ E]]; rewrite E in H1 at 1; auto.
    + intros z Hz. assert (Hm := H2 _ (or_introl eq_refl)).
      destruct Hz as [<-|[<-|Hz]]; [lia | lia | apply H2; right; exact Hz].
Qed.

Lemma py_max_ex : forall x l, exists m, py_max (x :: l) = Ok m /\ In m (x :: l) /\ forall y, In y (x :: l) -> (y <= m)%Z.
Proof.
  intros x l. simpl py_max. exists (fold_left Z.max l x). split; [reflexivity|].
  revert x; induction l as [|y l IH]; intros x; simpl.
  - split; [left; reflexivity|]. intros y [<-|[]]. lia.
  - destruct (IH (Z.max x y)) as [H1 H2]. split.
    + destruct H1 as [H1|H1]; [|right; right; exact H1].
      destruct (Z.max_spec x y) as [[_ E]|[_ E]]; rewrite E in H1 at 1; auto.
    + intros z Hz. assert (Hm := H2 _ (or_introl eq_refl)).
      destruct Hz as [<-|[<-|Hz]]; [lia | lia | apply H2; right; exact Hz].
Qed.

Lemma ranges_list : forall (g : op) l lo hi, registers g = l -> py_min l = Ok lo -> py_max l = Ok hi -> ranges g lo hi.
Proof.
  intros g l lo hi E Hlo Hhi r. unfold covers. rewrite E. destruct l as [|x l]; [discriminate|].
  destruct (py_min_ex x l) as [m [Em [I1 B1]]]. rewrite Em in Hlo. injection Hlo as <-.
  destruct (py_max_ex x l) as [M [EM [I2 B2]]]. rewrite EM in Hhi. injection Hhi as <-.
  f_equal; apply eq_true_iff_eq; rewrite existsb_exists.
  - split.
    + intros [y [Hy Hle]]. apply Z.leb_le in Hle. apply Z.leb_le. specialize (B1 y Hy). lia.
    + intros Hle. exists m. auto.
  - split.
    + intros [y [Hy Hle]]. apply Z.leb_le in Hle. apply Z.leb_le. specialize (B2 y Hy). lia.
    + intros Hle. exists M. auto.
Qed.

(** ** What an accepted call does *)
Definition new_moment (c : circuit) (data : list op) : moment := mk_moment (length (f_list (c_flow c))) data.

(** [issues c k g]: call [k] on [c] creates gate object [g]. *)
Inductive issues (c : circuit) : call -> op -> Prop :=
| is_h : forall q dm d, validate1 c q dm = Ok tt -> dims_or c dm q = Ok d -> issues c (CH q dm) (OH q d)
| is_x : forall q dm p d, validate1 c q dm = Ok tt -> dims_or c dm q = Ok d -> issues c (CX q dm p) (OX q d p)
| is_z : forall q dm d, validate1 c q dm = Ok tt -> dims_or c dm q = Ok d -> issues c (CZ q dm) (OZ q d)
| is_cx : forall a p a0 a1, py_get a 0 = Ok a0 -> py_get a 1 = Ok a1 ->
    issues c (CCX a p) (OCX (if (a0 <? a1)%Z then py_slice (c_dims c) a0 (a1 + 1)
                             else py_slice (c_dims c) a1 (a0 + 1)) a p)
| is_tof : forall cs t p ds acting u,
    mk_toffoli S cs t p (qregs_list (c_qregs c)) = Ok (OTof cs t p ds acting u) ->
    issues c (CTof cs t p) (OTof cs t p ds acting u)
| is_arb1 : forall q dm d u, validate1 c q dm = Ok tt -> dims_or c dm q = Ok d ->
    issues c (CGate u (RInt q) dm) (OArb (RInt q) (RInt d) u)
| is_arb : forall l dm ds u, validate c (RList l) dm = Ok tt ->
    match dm with
    | Some d => if (d =? 0)%Z then r <- mapM (py_get (c_dims c)) l ;; Ok (RList r) else Ok (RInt d)
    | None => r <- mapM (py_get (c_dims c)) l ;; Ok (RList r)
    end = Ok ds ->
    issues c (CGate u (RList l) dm) (OArb (RList l) ds u).

Lemma bind_ok : forall A B (r : res A) (f : A -> res B) b, bind r f = Ok b -> exists a, r = Ok a /\ f a = Ok b.
Proof. intros A B [a|e] f b H; [eauto | discriminate]. Qed.

Lemma moment_data_list_ok : forall (c : circuit) l g data, len_ok c -> moment_data c (RList l) g = Ok data ->
  exists lo hi, py_min l = Ok lo /\ py_max l = Ok hi /\ data = layer_list (c_dims c) lo hi g (length (c_dims c)).
Proof.
  intros c l g data Hl H. destruct l as [|x l]; [discriminate|].
  destruct (py_min_ex x l) as [lo [Elo _]]. destruct (py_max_ex x l) as [hi [Ehi _]].
  rewrite (@moment_data_list S c (x :: l) g lo hi Hl Elo Ehi) in H. injection H as <-. eauto.
Qed.

Lemma zrange_minmax : forall lo hi, (lo <= hi)%Z -> py_min (zrange lo (hi + 1)) = Ok lo /\ py_max (zrange lo (hi + 1)) = Ok hi.
Proof.
  intros lo hi H. assert (Hne : exists x l, zrange lo (hi + 1) = x :: l).
  { destruct (zrange lo (hi + 1)) as [|x l] eqn:E; [|eauto].
    assert (Hi : In lo (zrange lo (hi + 1))) by (apply in_zrange; lia). rewrite E in Hi. contradiction. }
  destruct Hne as [x [l E]]. split.
  - rewrite E. destruct (py_min_ex x l) as [m [-> [I B]]]. f_equal. rewrite <- E in *.
    apply in_zrange in I. assert (In lo (zrange lo (hi + 1))) as Hin by (apply in_zrange; lia).
    specialize (B _ Hin). lia.
  - rewrite E. destruct (py_max_ex x l) as [m [-> [I B]]]. f_equal. rewrite <- E in *.
    apply in_zrange in I. assert (In hi (zrange lo (hi + 1))) as Hin by (apply in_zrange; lia).
    specialize (B _ Hin). lia.
Qed.

Lemma mk_toffoli_shape : forall cs t p dims g, mk_toffoli S cs t p dims = Ok g ->
  exists lb ub ds u, py_min (cs ++ [t]) = Ok lb /\ py_max (cs ++ [t]) = Ok ub /\
    g = OTof cs t p ds (zrange lb (ub + 1)) u.
Proof.
  intros cs t p dims g H. unfold mk_toffoli in H. apply bind_ok in H as [[[u lb] ub] [H1 H2]].
  apply bind_ok in H2 as [ds [H2 H3]]. injection H3 as <-.
  unfold toffoli_dm in H1. apply bind_ok in H1 as [lb' [E1 H1]]. apply bind_ok in H1 as [ub' [E2 H1]].
  apply bind_ok in H1 as [sp [_ H1]]. apply bind_ok in H1 as [dt [_ H1]]. apply bind_ok in H1 as [rp [_ H1]].
  injection H1 as <- <- <-. eauto 10.
Qed.

Lemma py_min_max_le : forall l lo hi, py_min l = Ok lo -> py_max l = Ok hi -> (lo <= hi)%Z.
Proof.
  intros [|x l] lo hi H1 H2; [discriminate|].
  destruct (py_min_ex x l) as [m [Em [I1 B1]]]. destruct (py_max_ex x l) as [M [EM [I2 B2]]].
  rewrite Em in H1. rewrite EM in H2. injection H1 as <-. injection H2 as <-. apply B1; exact I2.
Qed.

Lemma py_min_perm : forall l m lo, (forall x, In x l <-> In x m) -> py_min l = Ok lo -> py_min m = Ok lo.
Proof.
  intros l m lo E H. destruct l as [|x l]; [discriminate|]. destruct (py_min_ex x l) as [a [Ea [Ia Ba]]].
  rewrite Ea in H. injection H as <-. destruct m as [|y m].
  - exfalso. apply (proj1 (E a)). exact Ia.
  - destruct (py_min_ex y m) as [b [-> [Ib Bb]]]. f_equal.
    apply E in Ib as Ib'. apply E in Ia as Ia'. specialize (Ba _ Ib'). specialize (Bb _ Ia'). lia.
Qed.
Lemma py_max_perm : forall l m lo, (forall x, In x l <-> In x m) -> py_max l = Ok lo -> py_max m = Ok lo.
Proof.
  intros l m lo E H. destruct l as [|x l]; [discriminate|]. destruct (py_max_ex x l) as [a [Ea [Ia Ba]]].
  rewrite Ea in H. injection H as <-. destruct m as [|y m].
  - exfalso. apply (proj1 (E a)). exact Ia.
  - destruct (py_max_ex y m) as [b [-> [Ib Bb]]]. f_equal.
    apply E in Ib as Ib'. apply E in Ia as Ia'. specialize (Ba _ Ib'). specialize (Bb _ Ia'). lia.
Qed.

Lemma in_snoc_cons : forall A (l : list A) t x, In x (l ++ [t]) <-> In x (t :: l).
Proof. intros. rewrite in_app_iff. simpl. tauto. Qed.

(** Every accepted gate call adds the layer of a gate object that covers
    exactly the registers of the call, and the circuit changes in its flow
    only. *)
Lemma api_gate : forall (c : circuit) k c' b, len_ok c -> api c k = Ok (c', b) -> k <> CMeasureAll ->
  exists g lo hi f b',
    issues c k g /\ ranges g lo hi /\
    populate_opflow (c_flow c) (new_moment c (layer_list (c_dims c) lo hi g (length (c_dims c)))) = Ok (f, b') /\
    c' = set_flow c f /\ (b = b' \/ b = true /\ exists cs t p, k = CTof cs t p).
Proof.
  intros c k c' b Hl H Hk.
  assert (One : forall q g, registers g = [q] -> add_moment c (RInt q) g = Ok (c', b) -> issues c k g ->
    exists g lo hi f b', issues c k g /\ ranges g lo hi /\
      populate_opflow (c_flow c) (new_moment c (layer_list (c_dims c) lo hi g (length (c_dims c)))) = Ok (f, b') /\
      c' = set_flow c f /\ (b = b' \/ b = true /\ exists cs t p, k = CTof cs t p)).
  { intros q g Eg Ha Hi. unfold add_moment in Ha. rewrite (@moment_data_int S c q g Hl) in Ha. cbn [bind] in Ha.
    rewrite layer_int_list in Ha. apply bind_ok in Ha as [[f b'] [Ha E]]. injection E as <- <-.
    exists g, q, q, f, b'. split; [exact Hi|]. split; [apply ranges_single; exact Eg|]. auto. }
  assert (Lst : forall l g b0 c0, add_moment c (RList l) g = Ok (c0, b0) ->
    (forall lo hi, py_min l = Ok lo -> py_max l = Ok hi -> ranges g lo hi) ->
    exists lo hi f, ranges g lo hi /\
      populate_opflow (c_flow c) (new_moment c (layer_list (c_dims c) lo hi g (length (c_dims c)))) = Ok (f, b0) /\
      c0 = set_flow c f).
  { intros l g b0 c0 Ha Hr. unfold add_moment in Ha. apply bind_ok in Ha as [data [Hd Ha]].
    apply (moment_data_list_ok _ _ Hl) in Hd as [lo [hi [E1 [E2 ->]]]].
    apply bind_ok in Ha as [[f b'] [Ha E]]. injection E as <- <-.
    exists lo, hi, f. auto. }
  destruct k as [q dm|q dm p|q dm|a p|cs t p|u q dm|q|]; cbn [api] in H.
  - apply bind_ok in H as [[] [V H]]. apply bind_ok in H as [d [D H]]. eapply One; [|exact H|constructor; assumption]. reflexivity.
  - apply bind_ok in H as [[] [V H]]. apply bind_ok in H as [d [D H]]. eapply One; [|exact H|constructor; assumption]. reflexivity.
  - apply bind_ok in H as [[] [V H]]. apply bind_ok in H as [d [D H]]. eapply One; [|exact H|constructor; assumption]. reflexivity.
  - apply bind_ok in H as [a0 [A0 H]]. apply bind_ok in H as [a1 [A1 H]].
    apply Lst in H as [lo [hi [f [Hr [Hp ->]]]]].
    + do 2 eexists. exists hi, f, b. split; [econstructor; eassumption|]. split; [exact Hr|]. auto.
    + intros lo hi E1 E2. eapply ranges_list; eauto.
  - apply bind_ok in H as [g [Hg H]]. pose proof Hg as Hmk. apply mk_toffoli_shape in Hg as [lb [ub [ds [u [E1 [E2 ->]]]]]].
    apply bind_ok in H as [[c0 b0] [H E]]. injection E as <- <-.
    apply Lst in H as [lo [hi [f [Hr [Hp ->]]]]].
    + do 2 eexists. exists hi, f, b0. split; [constructor; exact Hmk|]. split; [exact Hr|]. split; [exact Hp|].
      split; [reflexivity|]. right. eauto.
    + intros lo hi E1' E2'. destruct (@zrange_minmax lb ub) as [Z1 Z2]; [eapply py_min_max_le; eauto|].
      rewrite Z1 in E1'. rewrite Z2 in E2'. injection E1' as <-. injection E2' as <-.
      eapply ranges_list; [reflexivity| |].
      * eapply py_min_perm; [|exact E1]. intros x. apply in_snoc_cons.
      * eapply py_max_perm; [|exact E2]. intros x. apply in_snoc_cons.
  - apply bind_ok in H as [[] [V H]]. apply bind_ok in H as [ds [D H]]. destruct q as [q|l].
    + apply bind_ok in D as [d [D Ed]]. injection Ed as <-.
      eapply One; [|exact H|constructor; [exact V|exact D]]. reflexivity.
    + apply Lst in H as [lo [hi [f [Hr [Hp ->]]]]].
      * do 2 eexists. exists hi, f, b. split; [constructor; [exact V|exact D]|]. split; [exact Hr|]. auto.
      * intros lo hi E1 E2. eapply ranges_list; eauto.
  - discriminate.
  - congruence.
Qed.

(** ** The invariant *)

(** The operations of the layers, first to last. *)
Definition layers (c : circuit) : list (list op) := map (@m_list S) (f_list (c_flow c)).
Definition meas_layer (n : nat) : list op := map (fun i => OMeas (Z.of_nat i)) (seq 0 n).
Definition not_init_layer (l : list op) : Prop := forall o, In o l -> is_init o = false.

Record inv (n : nat) (c : circuit) (measured : bool) (l0 : list op) (ls : list (list op)) : Prop := {
  i_len : len_ok c;
  i_dims : length (c_dims c) = n;
  i_meas : f_meas (c_flow c) = repeat measured n;
  i_list : layers c = l0 :: ls ++ (if measured then [meas_layer n] else []);
  i_pos : measured = true -> 0 < n;
  i_m0 : forallb (@is_init S) l0 = true /\ map (@qreg_of S) l0 = map Z.of_nat (seq 0 n);
  i_tile : Forall (tiles n) ls;
  i_gates : Forall not_init_layer ls;
  i_zero : n = 0 -> ls = [];
  i_link : linked (f_list (c_flow c)) }.

Lemma no_meas_init : forall l : list op, forallb (@is_init S) l = true -> forallb (fun o => negb (is_meas o)) l = true.
Proof.
  intros l; induction l as [|o l IH]; intros H; simpl in *; [reflexivity|].
  apply andb_true_iff in H as [H1 H2]. rewrite IH by exact H2. destruct o; try discriminate; reflexivity.
Qed.

Lemma no_igate_init : forall l : list op, forallb (@is_init S) l = true -> filter (@is_igate S) l = [].
Proof.
  intros l; induction l as [|o l IH]; intros H; simpl in *; [reflexivity|].
  apply andb_true_iff in H as [H1 H2]. destruct o; try discriminate; simpl; apply IH; exact H2.
Qed.

(** [linked] under append and under change of the last layer's operations. *)
Lemma linked_append : forall fl m, linked (S := S) fl -> fl <> [] -> m_name m = length fl ->
  m_next m = None -> linked (append_moment fl m).
Proof.
  intros fl m H Hne En Hn. destruct (exists_last Hne) as [before [p ->]].
  rewrite append_moment_snoc. rewrite app_length in En. simpl in En.
  assert (Hp : nth_error (before ++ [p]) (length before) = Some p)
    by (rewrite nth_error_app2, Nat.sub_diag by lia; reflexivity).
  destruct (H _ _ Hp) as [Np [Pp Xp]].
  intros i m' Hi. rewrite app_length. simpl length.
  destruct (Nat.lt_trichotomy i (length before)) as [Hlt|[->|Hgt]].
  - rewrite nth_error_app1 in Hi by exact Hlt.
    destruct (H i m') as [N [P X]]; [rewrite nth_error_app1 by exact Hlt; exact Hi|].
    rewrite app_length in X. simpl length in X.
    replace (i + 1 =? length before + 1) with false in X by (symmetry; apply Nat.eqb_neq; lia).
    replace (i + 1 =? length before + 2) with false by (symmetry; apply Nat.eqb_neq; lia). auto.
  - rewrite nth_error_app2, Nat.sub_diag in Hi by lia. simpl in Hi. injection Hi as <-. simpl.
    replace (length before + 1 =? length before + 2) with false by (symmetry; apply Nat.eqb_neq; lia).
    rewrite En. auto.
  - rewrite nth_error_app2 in Hi by lia. destruct (i - length before) as [|[|j]] eqn:Ei; simpl in Hi; try lia.
    + injection Hi as <-. assert (i = Datatypes.S (length before)) as -> by lia. cbn [set_prev m_name m_prev m_next].
      replace (Datatypes.S (length before) + 1 =? length before + 2) with true by (symmetry; apply Nat.eqb_eq; lia).
      rewrite Np, En. split; [lia|]. split; [reflexivity | exact Hn].
    + destruct j; discriminate.
Qed.

Lemma linked_set_list : forall before last l, linked (S := S) (before ++ [last]) -> linked (before ++ [set_list l last]).
Proof.
  intros before last l H i m Hi. rewrite app_length in *. simpl length in *.
  destruct (Nat.lt_ge_cases i (length before)) as [Hlt|Hge].
  - rewrite nth_error_app1 in Hi by exact Hlt.
    destruct (H i m) as [N [P X]]; [rewrite nth_error_app1 by exact Hlt; exact Hi|].
    rewrite app_length in X. auto.
  - rewrite nth_error_app2 in Hi by lia. destruct (i - length before) as [|j] eqn:Ei; simpl in Hi; [|destruct j; discriminate].
    injection Hi as <-. destruct (H i last) as [N [P X]].
    + rewrite nth_error_app2 by lia. rewrite Ei. reflexivity.
    + rewrite app_length in X. simpl in *. auto.
Qed.

(** ** Merging *)
Lemma acting_occupied : forall n (o : op) a q, acting_members o = Ok a -> In q a -> (0 <= q < Z.of_nat n)%Z ->
  In (Z.to_nat q) (occupies n o).
Proof.
  intros n o a q Ha Hq Hr. unfold occupies. apply filter_In. split; [apply in_seq; lia|].
  assert (In q (registers o)) as Hin.
  { destruct o as [dim st qq v|qq d|qq d|qq d p|qq d|qq acting p|cs t p ds acting u|[z|l] ds u|qq];
      simpl in Ha; try discriminate; injection Ha as <-; simpl in *; tauto. }
  unfold covers. apply andb_true_iff. rewrite !existsb_exists. split; exists q; (split; [exact Hin|apply Z.leb_le; lia]).
Qed.

Lemma get_qreg_split : forall (l1 : list op) q d l2 k,
  (forall o, In o l1 -> exists a, acting_members o = Ok a /\ ~ In q a) ->
  get_qreg_moment_from k (l1 ++ OI q d :: l2) q = Ok (Some (OI q d, k + length l1)).
Proof.
  induction l1 as [|o l1 IH]; intros q d l2 k H; simpl.
  - unfold zmem. simpl. rewrite Z.eqb_refl. simpl. rewrite Nat.add_0_r. reflexivity.
  - destruct (H o (or_introl eq_refl)) as [a [-> Hn]]. cbn [bind].
    assert (zmem q a = false) as ->.
    { destruct (zmem q a) eqn:E; [|reflexivity]. apply zmem_spec in E. contradiction. }
    rewrite IH by (intros o' Ho; apply H; right; exact Ho). do 2 f_equal. f_equal. lia.
Qed.

Lemma upd_split : forall A (l1 : list A) x y l2, upd (l1 ++ x :: l2) (length l1) y = l1 ++ y :: l2.
Proof. intros A l1 x y l2; induction l1 as [|z l1 IH]; simpl; [reflexivity | rewrite IH; reflexivity]. Qed.

Lemma NoDup_app_disjoint : forall A (l1 l2 : list A) x, NoDup (l1 ++ l2) -> In x l1 -> In x l2 -> False.
Proof.
  intros A l1 l2 x; induction l1 as [|y l1 IH]; intros H H1 H2; [contradiction|].
  simpl in H. inversion H as [|y' l' Hy Hn]; subst. destruct H1 as [->|H1].
  - apply Hy, in_or_app; right; exact H2.
  - apply IH; assumption.
Qed.

Lemma replace_tiles : forall n l g q, tiles n l -> not_init_layer l ->
  zmem q (map (@qreg_of S) (filter (@is_igate S) l)) = true -> registers g = [q] -> is_init g = false ->
  exists l1 d l2, l = l1 ++ OI q d :: l2 /\ replace_igate l g q = Ok (l1 ++ g :: l2, true) /\
    tiles n (l1 ++ g :: l2) /\ not_init_layer (l1 ++ g :: l2) /\ (0 <= q < Z.of_nat n)%Z.
Proof.
  intros n l g q [Ht Hne] Hni Hz Hg Hgi. apply zmem_spec in Hz. apply in_map_iff in Hz as [o [Eq Ho]].
  apply filter_In in Ho as [Ho Hi]. destruct o as [| q' d | | | | | | | ]; try discriminate. simpl in Eq. subst q'.
  apply in_split in Ho as [l1 [l2 ->]].
  assert (Hq : (0 <= q < Z.of_nat n)%Z).
  { specialize (Hne (OI q d)). assert (Hne' := Hne ltac:(apply in_or_app; right; left; reflexivity)).
    rewrite (occupies_ranges n (ranges_single (OI q d : op) eq_refl)) in Hne'. unfold highr, lowr in Hne'.
    destruct (Z.lt_ge_cases q 0) as [Hlt|Hge0].
    - exfalso. apply Hne'. replace (_ - _) with 0 by lia. reflexivity.
    - destruct (Z.lt_ge_cases q (Z.of_nat n)) as [?|Hge]; [lia|].
      exfalso. apply Hne'. replace (_ - _) with 0 by lia. reflexivity. }
  assert (Eocc : occupies n g = occupies n (OI q d : op)).
  { rewrite (occupies_ranges n (ranges_single g Hg)), (occupies_ranges n (ranges_single (OI q d : op) eq_refl)). reflexivity. }
  exists l1, d, l2. split; [reflexivity|]. split; [|split; [|split]].
  - unfold replace_igate. rewrite get_qreg_split.
    + cbn [bind is_igate]. rewrite Nat.add_0_l, upd_split. reflexivity.
    + intros o Ho. assert (Hoi : is_init o = false) by (apply Hni, in_or_app; left; exact Ho).
      assert (Ha : exists a, acting_members o = Ok a).
      { destruct o as [| | | | | | |[z|zs] ds u|]; simpl in *; try discriminate; eauto. }
      destruct Ha as [a Ha]. exists a. split; [exact Ha|]. intros Hin.
      assert (O1 : In (Z.to_nat q) (occupies n o)) by (eapply acting_occupied; eauto).
      assert (O2 : In (Z.to_nat q) (occupies n (OI q d : op))).
      { eapply (@acting_occupied n (OI q d : op) [q] q); [reflexivity | left; reflexivity | exact Hq]. }
      rewrite map_app, concat_app in Ht.
      apply (@NoDup_app_disjoint _ (concat (map (occupies n) l1)) (concat (map (occupies n) (OI q d :: l2))) (Z.to_nat q)).
      * rewrite Ht. apply seq_NoDup.
      * apply in_concat. exists (occupies n o). split; [apply in_map; exact Ho | exact O1].
      * simpl. apply in_or_app; left; exact O2.
  - split.
    + rewrite <- Ht, !map_app, !concat_app. simpl. rewrite Eocc. reflexivity.
    + intros o Ho. apply in_app_or in Ho as [Ho|[<-|Ho]].
      * apply Hne, in_or_app; left; exact Ho.
      * rewrite Eocc. apply Hne, in_or_app; right; left; reflexivity.
      * apply Hne, in_or_app; right; right; exact Ho.
  - intros o Ho. apply in_app_or in Ho as [Ho|[<-|Ho]]; auto; apply Hni, in_or_app; auto. right; right; exact Ho.
  - exact Hq.
Qed.


(** ** One step *)
Lemma layers_append : forall (fl : list moment) m, map (@m_list S) (append_moment fl m) = map (@m_list S) fl ++ [m_list m].
Proof.
  intros fl m. destruct fl as [|x fl] using rev_ind; [reflexivity|].
  rewrite append_moment_snoc, !map_app, <- app_assoc. reflexivity.
Qed.

Lemma find_layer : forall dims lo hi (g : op) n,
  find (@is_hxz S) (layer_list dims lo hi g n)
  = if lowr n lo <? highr n lo hi then (if is_hxz g then Some g else None) else None.
Proof.
  intros dims lo hi g n. rewrite layer_list_split.
  assert (F : forall a k l, find (@is_hxz S) (map (idop S dims) (seq a k) ++ l) = find (@is_hxz S) l).
  { intros a k; revert a; induction k as [|k IH]; intros a l; [reflexivity|]. simpl. apply IH. }
  rewrite F. assert (F2 : forall a k, find (@is_hxz S) (map (idop S dims) (seq a k)) = None).
  { intros a k. rewrite <- (app_nil_r (map _ _)), F. reflexivity. }
  destruct (lowr n lo <? highr n lo hi); simpl; rewrite F2; destruct (is_hxz g); reflexivity.
Qed.

Lemma layer_forall : forall (P : op -> Prop) dims lo hi (g : op) n,
  (forall i, P (idop S dims i)) -> P g -> forall o, In o (layer_list dims lo hi g n) -> P o.
Proof.
  intros P dims lo hi g n Hi Hg o Ho. unfold layer_list in Ho. apply in_flat_map in Ho as [i [_ Ho]].
  destruct ((lo <=? Z.of_nat i) && (Z.of_nat i <=? hi))%Z.
  - destruct (Z.of_nat i =? Z.max 0 lo)%Z; [|contradiction]. destruct Ho as [<-|[]]. exact Hg.
  - destruct Ho as [<-|[]]. apply Hi.
Qed.

Lemma forallb_repeat : forall (b : bool) n, forallb (fun x => x) (repeat b n) = (n =? 0) || b.
Proof. intros b n; induction n as [|n IH]; simpl; [reflexivity|]. rewrite IH. destruct b, (n =? 0); reflexivity. Qed.

Lemma issues_not_init : forall (c : circuit) k g, issues c k g -> is_init g = false /\ is_meas g = false /\ is_igate g = false.
Proof. intros c k g H; destruct H; simpl; auto. Qed.

Lemma hxz_regs : forall g : op, is_hxz g = true -> registers g = [qreg_of g].
Proof. intros g H; destruct g; try discriminate; reflexivity. Qed.

Lemma map_snoc_inv : forall A B (f : A -> B) l x y, map f l = x ++ [y] ->
  exists l' z, l = l' ++ [z] /\ map f l' = x /\ f z = y.
Proof.
  intros A B f l x y H. destruct l as [|a l] using rev_ind; [destruct x; discriminate|].
  rewrite map_app in H. apply app_inj_tail in H as [H1 H2]. eauto.
Qed.

(** The effect of adding a gate to a circuit that is not measured. *)
Inductive added (n : nat) (dims : list Z) (lo hi : Z) (g : op) (l0 : list op) (ls ls' : list (list op)) : Prop :=
| added_new : ls' = ls ++ [layer_list dims lo hi g n] ->
    (is_hxz g = true -> (0 <= qreg_of g < Z.of_nat n)%Z ->
     forall lsb l, ls = lsb ++ [l] -> forall d, ~ In (OI (qreg_of g) d) l) ->
    added n dims lo hi g l0 ls ls'
| added_merge : forall lsb l1 d l2, is_hxz g = true ->
    ls = lsb ++ [l1 ++ OI (qreg_of g) d :: l2] ->
    ls' = lsb ++ [l1 ++ g :: l2] -> (0 <= qreg_of g < Z.of_nat n)%Z ->
    added n dims lo hi g l0 ls ls'.

Lemma hxz_placed : forall n (g : op) lo hi, is_hxz g = true -> ranges g lo hi ->
  (lowr n lo <? highr n lo hi) = ((0 <=? qreg_of g) && (qreg_of g <? Z.of_nat n))%Z.
Proof.
  intros n g lo hi Hg Hr.
  assert (E1 := occupies_ranges n Hr). assert (E2 := occupies_ranges n (ranges_single g (hxz_regs g Hg))).
  assert (E3 : highr n lo hi - lowr n lo = highr n (qreg_of g) (qreg_of g) - lowr n (qreg_of g)).
  { rewrite <- (seq_length (highr n lo hi - lowr n lo) (lowr n lo)), <- E1, E2, seq_length. reflexivity. }
  apply eq_true_iff_eq. rewrite Nat.ltb_lt, andb_true_iff, Z.leb_le, Z.ltb_lt. unfold highr, lowr in *. lia.
Qed.

Lemma populate_gate : forall n c measured l0 ls k g lo hi,
  inv n c measured l0 ls -> issues c k g -> ranges g lo hi ->
  exists f b, populate_opflow (c_flow c) (new_moment c (layer_list (c_dims c) lo hi g n)) = Ok (f, b) /\
    ((measured = true \/ n = 0) /\ f = c_flow c /\ b = false \/
     measured = false /\ 0 < n /\ b = true /\ f_meas f = repeat false n /\ linked (f_list f) /\
     exists ls', map (@m_list S) (f_list f) = l0 :: ls' /\ added n (c_dims c) lo hi g l0 ls ls').
Proof.
  intros n c measured l0 ls k g lo hi I Hk Hr.
  destruct (issues_not_init Hk) as [Gi [Gm Gd]].
  assert (Hnil : rev (f_list (c_flow c)) <> []).
  { intros E. apply (f_equal (@rev _)) in E. rewrite rev_involutive in E. simpl in E.
    assert (El := i_list I). unfold layers in El. rewrite E in El. discriminate. }
  unfold populate_opflow. destruct (rev (f_list (c_flow c))) as [|last before] eqn:Er; [congruence|]. clear Hnil.
  rewrite (i_meas I), forallb_repeat.
  destruct ((n =? 0) || measured) eqn:Ed.
  { do 2 eexists. split; [reflexivity|]. left. split; [|auto].
    apply orb_true_iff in Ed as [Ed|Ed]; [right; apply Nat.eqb_eq; exact Ed | left; exact Ed]. }
  apply orb_false_iff in Ed as [Hn ->]. apply Nat.eqb_neq in Hn.
  assert (Ef : f_list (c_flow c) = rev before ++ [last]).
  { rewrite <- (rev_involutive (f_list (c_flow c))), Er. reflexivity. }
  assert (El := i_list I). unfold layers in El. rewrite app_nil_r in El.
  assert (App : forall o, (is_hxz g = true -> (0 <= qreg_of g < Z.of_nat n)%Z ->
      forall lsb l, ls = lsb ++ [l] -> forall d, ~ In (OI (qreg_of g) d) l) -> o = None (A := list moment) ->
    exists f b, match o with
      | Some fl => Ok ({| f_list := fl; f_meas := repeat false n |}, true)
      | None => meas <- detect_measurement 0 (m_list (new_moment c (layer_list (c_dims c) lo hi g n))) (repeat false n) ;;
                Ok ({| f_list := append_moment (f_list (c_flow c)) (new_moment c (layer_list (c_dims c) lo hi g n)); f_meas := meas |}, true)
      end = Ok (f, b) /\
      ((false = true \/ n = 0) /\ f = c_flow c /\ b = false \/
       false = false /\ 0 < n /\ b = true /\ f_meas f = repeat false n /\ linked (f_list f) /\
       exists ls', map (@m_list S) (f_list f) = l0 :: ls' /\ added n (c_dims c) lo hi g l0 ls ls')).
  { intros o Hno ->. cbn [new_moment mk_moment m_list]. rewrite detect_none.
    - cbn [bind]. do 2 eexists. split; [reflexivity|]. right. repeat (split; [auto; lia|]). cbn [f_list]. split.
      + apply linked_append; [apply (i_link I) | rewrite Ef; destruct (rev before); discriminate | reflexivity | reflexivity].
      + exists (ls ++ [layer_list (c_dims c) lo hi g n]). split.
        * rewrite layers_append, El. reflexivity.
        * apply added_new; [reflexivity | exact Hno].
    - apply forallb_forall. apply layer_forall; [reflexivity|]. rewrite Gm. reflexivity. }
  cbn [new_moment mk_moment m_list].
  rewrite find_layer.
  destruct (lowr n lo <? highr n lo hi) eqn:Ep; [destruct (is_hxz g) eqn:Eg|]; cbn [bind].
  - destruct (zmem (qreg_of g) (map (@qreg_of S) (filter (@is_igate S) (m_list last)))) eqn:Ez; cbn [bind].
    + assert (Hl : exists lsb, ls = lsb ++ [m_list last] /\ map (@m_list S) (rev before) = l0 :: lsb).
      { rewrite Ef, map_app in El. simpl in El. destruct ls as [|lx ls2] using rev_ind.
        - destruct (rev before) as [|b0 bs]; [|destruct bs; discriminate]. simpl in El. injection El as El.
          rewrite El, no_igate_init in Ez by apply (i_m0 I). discriminate.
        - clear IHls2. change (l0 :: ls2 ++ [lx]) with ((l0 :: ls2) ++ [lx]) in El. apply app_inj_tail in El as [E1 <-]. eauto. }
      destruct Hl as [lsb [Els Eb]].
      assert (Ht := i_tile I). rewrite Els in Ht. apply Forall_app in Ht as [_ Ht]. assert (Ht1 := Forall_inv Ht).
      assert (Hni := i_gates I). rewrite Els in Hni. apply Forall_app in Hni as [_ Hni]. assert (Hn1 := Forall_inv Hni).
      destruct (replace_tiles g Ht1 Hn1 Ez (hxz_regs g Eg) Gi) as [l1 [d [l2 [E1 [E2 [_ [_ Hq]]]]]]].
      rewrite E2. cbn [bind]. do 2 eexists. split; [reflexivity|]. right. repeat (split; [auto; lia|]). cbn [f_list]. split.
      * apply linked_set_list. rewrite <- Ef. apply (i_link I).
      * exists (lsb ++ [l1 ++ g :: l2]). split.
        -- rewrite map_app, Eb. reflexivity.
        -- apply (@added_merge n (c_dims c) lo hi g l0 _ _ lsb l1 d l2); auto. rewrite <- E1. exact Els.
    + apply (App None); [|reflexivity]. intros _ Hq lsb l Els d Hin.
      assert (E : m_list last = l).
      { rewrite Ef, map_app, Els in El. simpl in El. change (l0 :: lsb ++ [l]) with ((l0 :: lsb) ++ [l]) in El.
        apply app_inj_tail in El as [_ E]. exact E. }
      assert (zmem (qreg_of g) (map (@qreg_of S) (filter (@is_igate S) (m_list last))) = true); [|congruence].
      apply zmem_spec. change (qreg_of g) with (qreg_of (OI (qreg_of g) d : op)). apply in_map, filter_In.
      rewrite E. auto.
  - apply (App None); [|reflexivity]. intros E; discriminate.
  - apply (App None); [|reflexivity]. intros Eg Hq. exfalso. rewrite (@hxz_placed n g lo hi Eg Hr) in Ep.
    apply andb_false_iff in Ep. rewrite Z.leb_gt, Z.ltb_ge in Ep. lia.
Qed.

Lemma added_inv : forall n dims lo hi g l0 ls ls' k (c : circuit), issues c k g -> ranges g lo hi ->
  Forall (tiles n) ls -> Forall not_init_layer ls ->
  added n dims lo hi g l0 ls ls' -> Forall (tiles n) ls' /\ Forall not_init_layer ls'.
Proof.
  intros n dims lo hi g l0 ls ls' k c Hk Hr Ht Hi Ha. destruct (issues_not_init Hk) as [Gi _].
  destruct Ha as [-> _ | lsb l1 d l2 Hg -> -> Hq].
  - split; apply Forall_app; (split; [assumption|]); constructor; auto.
    + apply layer_tiles; exact Hr.
    + intros o Ho. revert o Ho. apply layer_forall; [reflexivity | exact Gi].
  - apply Forall_app in Ht as [Ht1 Ht]. apply Forall_app in Hi as [Hi1 Hi].
    inversion Ht as [|? ? Ht2 _]; subst. inversion Hi as [|? ? Hi2 _]; subst.
    assert (Hz : zmem (qreg_of g) (map (@qreg_of S) (filter (@is_igate S) (l1 ++ OI (qreg_of g) d :: l2))) = true).
    { apply zmem_spec. rewrite filter_app, map_app. apply in_or_app. right. left. reflexivity. }
    destruct (replace_tiles g Ht2 Hi2 Hz (hxz_regs g Hg) Gi) as [l1' [d' [l2' [E1 [E2 [T [N _]]]]]]].
    assert (Eq : l1' ++ g :: l2' = l1 ++ g :: l2).
    { assert (HH : l1' = l1 /\ l2' = l2).
      { assert (Key : forall (a a' b b' : list op), a ++ OI (qreg_of g) d :: b = a' ++ OI (qreg_of g) d' :: b' ->
          NoDup (concat (map (occupies n) (a ++ OI (qreg_of g) d :: b))) -> a' = a /\ b' = b).
        { induction a as [|x a IH]; intros [|x' a'] b b' E Hnd; simpl in E.
          - injection E as _ <-. auto.
          - exfalso. injection E as <- ->. simpl in Hnd.
            eapply (@NoDup_app_disjoint _ _ _ (Z.to_nat (qreg_of g)) Hnd).
            + eapply (@acting_occupied n (OI (qreg_of g) d : op) [qreg_of g]); [reflexivity | left; reflexivity | exact Hq].
            + rewrite map_app, concat_app. apply in_or_app. right. simpl. apply in_or_app. left.
              eapply (@acting_occupied n (OI (qreg_of g) d' : op) [qreg_of g]); [reflexivity | left; reflexivity | exact Hq].
          - exfalso. injection E as -> <-. simpl in Hnd.
            eapply (@NoDup_app_disjoint _ _ _ (Z.to_nat (qreg_of g)) Hnd).
            + eapply (@acting_occupied n (OI (qreg_of g) d' : op) [qreg_of g]); [reflexivity | left; reflexivity | exact Hq].
            + rewrite map_app, concat_app. apply in_or_app. right. simpl. apply in_or_app. left.
              eapply (@acting_occupied n (OI (qreg_of g) d : op) [qreg_of g]); [reflexivity | left; reflexivity | exact Hq].
          - injection E as <- E. simpl in Hnd. destruct (IH a' b b' E) as [-> ->]; auto.
            clear -Hnd. induction (occupies n x) as [|y l IH]; [exact Hnd|]. inversion Hnd; auto. }
        apply (Key l1 l1' l2 l2' E1). rewrite (proj1 Ht2). apply seq_NoDup. }
      destruct HH as [-> ->]. reflexivity. }
    rewrite Eq in T, N. split; apply Forall_app; auto.
Qed.

Lemma len_ok_set : forall (c : circuit) f, len_ok c -> len_ok (set_flow c f).
Proof. intros c f H. exact H. Qed.

Theorem inv_gate : forall n (c : circuit) measured l0 ls k c' b, inv n c measured l0 ls ->
  k <> CMeasureAll -> api c k = Ok (c', b) ->
  (measured = true \/ n = 0) /\ c' = c /\ (b = false \/ b = true /\ exists cs t p, k = CTof cs t p) \/
  measured = false /\ 0 < n /\ b = true /\
  exists g lo hi ls', issues c k g /\ ranges g lo hi /\ added n (c_dims c) lo hi g l0 ls ls' /\
    inv n c' false l0 ls' /\ exists f, c' = set_flow c f.
Proof.
  intros n c measured l0 ls k c' b I Hk Ha.
  destruct (api_gate (i_len I) Ha Hk) as [g [lo [hi [f [b' [Hi [Hr [Hp [-> Hb]]]]]]]]].
  rewrite (i_dims I) in Hp.
  destruct (populate_gate I Hi Hr) as [f' [b'' [Hp' H]]]. rewrite Hp in Hp'. injection Hp' as <- <-.
  destruct H as [[Hm [-> ->]] | [Hm [Hn [-> [Hf [Hl [ls' [El Had]]]]]]]].
  - left. split; [exact Hm|]. split; [destruct c; reflexivity|]. destruct Hb as [->|Hb]; auto.
  - right. split; [exact Hm|]. split; [exact Hn|]. split; [tauto|].
    exists g, lo, hi, ls'. split; [exact Hi|]. split; [exact Hr|]. split; [exact Had|].
    split; [|eauto].
    destruct (added_inv Hi Hr (i_tile I) (i_gates I) Had) as [T N].
    constructor; simpl.
    + apply (i_len I).
    + apply (i_dims I).
    + exact Hf.
    + unfold layers. simpl. rewrite El, app_nil_r. reflexivity.
    + intros E; discriminate E.
    + apply (i_m0 I).
    + exact T.
    + exact N.
    + intros ->. lia.
    + exact Hl.
Qed.

Lemma detect_all_meas : forall k n done rest, length done = k -> length rest = n ->
  @detect_measurement S k (map (fun i => OMeas (Z.of_nat i)) (seq k n)) (done ++ rest) = Ok (done ++ repeat true n).
Proof.
  intros k n; revert k; induction n as [|n IH]; intros k done rest Hd Hr.
  - destruct rest; [reflexivity|discriminate].
  - destruct rest as [|x rest]; [discriminate|]. cbn [seq map detect_measurement is_meas].
    unfold py_set. rewrite py_index_nat by (rewrite app_length; simpl; lia). cbn [bind].
    replace (upd (done ++ x :: rest) k true) with (done ++ true :: rest) by (rewrite <- Hd, upd_split; reflexivity).
    replace (done ++ true :: rest) with ((done ++ [true]) ++ rest) by (rewrite <- app_assoc; reflexivity).
    rewrite IH; [|rewrite app_length; simpl; lia | simpl in Hr; lia].
    rewrite <- app_assoc. reflexivity.
Qed.

Theorem inv_measure : forall n (c : circuit) measured l0 ls, inv n c measured l0 ls ->
  exists c', api c CMeasureAll = Ok (c', true) /\
    ((measured = true \/ n = 0) /\ c' = c \/
     measured = false /\ 0 < n /\ inv n c' true l0 ls /\ exists f, c' = set_flow c f).
Proof.
  intros n c measured l0 ls I. cbn [api]. rewrite (i_len I), (i_dims I).
  unfold populate_opflow.
  assert (El := i_list I). unfold layers in El.
  destruct (rev (f_list (c_flow c))) as [|last before] eqn:Er.
  { apply (f_equal (@rev _)) in Er. rewrite rev_involutive in Er. rewrite Er in El. discriminate. }
  assert (Ef : f_list (c_flow c) = rev before ++ [last]).
  { rewrite <- (rev_involutive (f_list (c_flow c))), Er. reflexivity. }
  rewrite (i_meas I), forallb_repeat. destruct ((n =? 0) || measured) eqn:Ed.
  - cbn [bind]. eexists. split; [reflexivity|]. left. split; [|destruct c; reflexivity].
    apply orb_true_iff in Ed as [Ed|Ed]; [right; apply Nat.eqb_eq; exact Ed | left; exact Ed].
  - apply orb_false_iff in Ed as [Hn ->]. apply Nat.eqb_neq in Hn. cbn [mk_moment m_list].
    rewrite map_map.
    assert (Ef2 : find (@is_hxz S) (map (fun x : nat => OMeas (Z.of_nat x)) (seq 0 n)) = None).
    { generalize 0 as a. clear. induction n as [|n IH]; intros a; [reflexivity|]. apply IH. }
    rewrite Ef2. cbn [bind].
    assert (D := @detect_all_meas 0 n [] (repeat false n) eq_refl (repeat_length _ _)). simpl app in D. rewrite D. cbn [bind].
    eexists. split; [reflexivity|]. right. split; [reflexivity|]. split; [lia|]. split; [|eauto].
    constructor; simpl.
    + apply (i_len I).
    + apply (i_dims I).
    + reflexivity.
    + unfold layers. simpl. rewrite layers_append, El, app_nil_r. reflexivity.
    + lia.
    + apply (i_m0 I).
    + apply (i_tile I).
    + apply (i_gates I).
    + apply (i_zero I).
    + apply linked_append; [apply (i_link I) | rewrite Ef; destruct (rev before); discriminate | reflexivity | reflexivity].
Qed.

(** ** The constructor *)
Lemma mapM_forall2 : forall A B (f : A -> res B) l l', mapM f l = Ok l' -> Forall2 (fun x y => f x = Ok y) l l'.
Proof.
  intros A B f l; induction l as [|x l IH]; intros l' H; simpl in H.
  - injection H as <-. constructor.
  - apply bind_ok in H as [y [E H]]. apply bind_ok in H as [ys [E2 H]]. injection H as <-. constructor; auto.
Qed.

Lemma Forall2_len : forall A B (P : A -> B -> Prop) l l', Forall2 P l l' -> length l = length l'.
Proof. intros A B P l l' H; induction H; simpl; congruence. Qed.

Lemma py_get_bound : forall A (l : list A) i x, py_get l (Z.of_nat i) = Ok x -> i < length l.
Proof.
  intros A l i x H. unfold py_get, py_index in H.
  destruct ((0 <=? Z.of_nat i) && (Z.of_nat i <? Z.of_nat (length l)))%Z eqn:E.
  - apply andb_true_iff in E as [_ E]. apply Z.ltb_lt in E. lia.
  - destruct ((- Z.of_nat (length l) <=? Z.of_nat i) && (Z.of_nat i <? 0))%Z eqn:E2; [|discriminate].
    apply andb_true_iff in E2 as [_ E2]. apply Z.ltb_lt in E2. lia.
Qed.

Lemma init_state_shape : forall d e q g, init_state S d e q = Ok g -> is_init g = true /\ qreg_of g = q.
Proof.
  intros d e q g H. unfold init_state in H. destruct (_ || _)%bool; [discriminate|].
  destruct (py_index _ _); [|discriminate]. injection H as <-. auto.
Qed.

Theorem inv_new : forall q init out c, mk_circuit S q init out = Ok c ->
  exists l0, inv (nregs q) c false l0 [].
Proof.
  intros q init out c H. unfold mk_circuit in H. apply bind_ok in H as [[len dims] [Hl H]].
  apply bind_ok in H as [f [Hf H]]. injection H as <-.
  assert (Hw : length dims = nregs q /\ Z.to_nat len = nregs q).
  { unfold reg_layout in Hl. destruct q as [l|l].
    - apply bind_ok in Hl as [a [Ea Hl]]. apply bind_ok in Hl as [d [Ed Hl]]. injection Hl as <- <-.
      unfold zrepeat. rewrite repeat_length. destruct l as [|x l]; [discriminate|]. simpl.
      unfold py_get in Ea. simpl in Ea. injection Ea as <-. auto.
    - injection Hl as <- <-. simpl. lia. }
  destruct Hw as [Hw1 Hw2].
  set (st := pad_init len (match init with Some l => l | None => [] end)) in *.
  unfold initialize_states in Hf. apply bind_ok in Hf as [gates [Hg Hf]]. apply bind_ok in Hf as [[f' b] [Hp Hf]].
  injection Hf as <-. apply mapM_forall2 in Hg.
  assert (Hst : length st = nregs q).
  { assert (nregs q <= length st).
    { unfold st, pad_init. destruct (Z.ltb_spec (Z.of_nat (length (match init with Some l => l | None => [] end))) len) as [E|E].
      - rewrite app_length. unfold zrepeat. rewrite repeat_length. lia.
      - lia. }
    destruct (Nat.le_gt_cases (length st) (nregs q)) as [Hle|Hgt]; [lia|]. exfalso.
    assert (Hall : forall i e, In (i, e) (combine (seq 0 (length st)) st) -> i < length dims).
    { intros i e Hin. clear -Hg Hin. induction Hg as [|x y l l' Hxy Hg IH]; [contradiction|].
      destruct Hin as [->|Hin]; [|auto]. apply bind_ok in Hxy as [d [Ed _]]. eapply py_get_bound; exact Ed. }
    assert (Hin : In (length st - 1, nth (length st - 1) st 0%Z) (combine (seq 0 (length st)) st)).
    { assert (E : nth (length st - 1) (combine (seq 0 (length st)) st) (0, 0%Z) = (length st - 1, nth (length st - 1) st 0%Z)).
      { rewrite combine_nth by apply seq_length. rewrite seq_nth by lia. reflexivity. }
      rewrite <- E. apply nth_In. rewrite combine_length, seq_length. lia. }
    apply Hall in Hin. lia. }
  assert (Hgs : forallb (@is_init S) gates = true /\ map (@qreg_of S) gates = map Z.of_nat (seq 0 (length st))).
  { revert Hg. generalize 0 as a. clear. revert gates. induction st as [|e st IH]; intros gates a H; simpl in *.
    - inversion H. auto.
    - inversion H as [|? g ? gs Hg Hgs]; subst. destruct (IH gs _ Hgs) as [IH1 IH2].
      apply bind_ok in Hg as [d [_ Hg]]. apply init_state_shape in Hg as [G1 G2]. simpl. rewrite G1, G2, IH1, IH2. auto. }
  destruct Hgs as [G1 G2]. rewrite Hst in G2.
  assert (Hlg : length gates = nregs q).
  { apply (f_equal (@length Z)) in G2. rewrite !map_length, seq_length in G2. exact G2. }
  unfold populate_opflow in Hp. cbn [opflow0 f_list rev mk_moment m_list] in Hp.
  rewrite detect_none in Hp by (apply no_meas_init; exact G1). cbn [bind] in Hp. injection Hp as <- <-.
  exists gates. constructor; simpl.
  - unfold len_ok. simpl. rewrite Hw1. unfold zrange. rewrite Z.sub_0_r, Hw2. apply map_ext. intros i. lia.
  - exact Hw1.
  - rewrite Hlg. reflexivity.
  - reflexivity.
  - intros E; discriminate E.
  - auto.
  - constructor.
  - constructor.
  - auto.
  - intros [|i] m Hi; [|destruct i; discriminate]. simpl in Hi. injection Hi as <-. simpl. auto.
Qed.

(** ** Histories *)
Lemma step_inv : forall n (c : circuit) measured l0 ls k, inv n c measured l0 ls ->
  exists ls', inv n (step c k) (measured || (0 <? n) && is_measure_all k) l0 ls'.
Proof.
  intros n c measured l0 ls k I. unfold step.
  destruct (is_measure_all k) eqn:Ek.
  - destruct k; try discriminate. destruct (inv_measure I) as [c' [E' H]]. rewrite E'.
    destruct H as [[Hm ->]|[-> [Hn [I' _]]]].
    + exists ls. destruct Hm as [->| ->]; [exact I|]. simpl. rewrite orb_false_r. exact I.
    + exists ls. rewrite (proj2 (Nat.ltb_lt 0 n) Hn). exact I'.
  - rewrite andb_false_r, orb_false_r.
    destruct (api c k) as [[c' b]|e] eqn:E; [|eauto].
    assert (Hk : k <> CMeasureAll) by (intros ->; discriminate).
    destruct (inv_gate I Hk E) as [[_ [-> _]]|[-> [_ [_ [g [lo [hi [ls' [_ [_ [_ [I' _]]]]]]]]]]]]; eauto.
Qed.

Lemma after_inv : forall n ks (c : circuit) measured l0 ls, inv n c measured l0 ls ->
  exists ls', inv n (after c ks) (measured || (0 <? n) && existsb (@is_measure_all S) ks) l0 ls'.
Proof.
  intros n ks; induction ks as [|k ks IH]; intros c measured l0 ls I.
  - exists ls. unfold after. simpl. rewrite andb_false_r, orb_false_r. exact I.
  - destruct (step_inv k I) as [ls' I']. destruct (IH _ _ _ _ I') as [ls2 I2]. exists ls2.
    simpl existsb. rewrite andb_orb_distrib_r, orb_assoc. exact I2.
Qed.

Theorem history_inv : forall q init out ks (c : circuit), history q init out ks c ->
  exists l0 ls, inv (nregs q) c ((0 <? nregs q) && existsb (@is_measure_all S) ks) l0 ls.
Proof.
  intros q init out ks c [c0 [H ->]]. destruct (inv_new _ _ _ H) as [l0 I].
  destruct (after_inv ks I) as [ls I']. eauto.
Qed.

(** ** Property-shaped consequences *)
Lemma measured_in : forall (ks : list call), existsb (@is_measure_all S) ks = true <-> In CMeasureAll ks.
Proof.
  intros ks. rewrite existsb_exists. split.
  - intros [k [Hin Hk]]. destruct k; try discriminate. exact Hin.
  - intros H. exists CMeasureAll. auto.
Qed.

Lemma init_registers : forall l : list op, forallb (@is_init S) l = true ->
  map (@registers S) l = map (fun q => [q]) (map (@qreg_of S) l).
Proof.
  intros l; induction l as [|o l IH]; intros H; simpl in *; [reflexivity|].
  apply andb_true_iff in H as [H1 H2]. rewrite IH by exact H2. destruct o; try discriminate. reflexivity.
Qed.

Theorem layers_tile : forall q init out ks (c : circuit), history q init out ks c ->
  exists first gates tail,
    map (@m_list S) (f_list (c_flow c)) = first :: gates ++ tail /\
    (forallb (@is_init S) first = true /\ map (@registers S) first = map (fun i => [Z.of_nat i]) (seq 0 (nregs q))) /\
    Forall (tiles (nregs q)) gates /\
    (if (0 <? nregs q) && existsb (@is_measure_all S) ks
     then tail = [map (fun i => OMeas (Z.of_nat i)) (seq 0 (nregs q))] else tail = []).
Proof.
  intros q init out ks c H. destruct (history_inv H) as [l0 [ls I]].
  exists l0, ls. eexists. split; [apply (i_list I)|]. destruct (i_m0 I) as [M1 M2].
  split; [split; [exact M1|rewrite init_registers, M2, map_map by exact M1; reflexivity]|].
  split; [apply (i_tile I)|]. destruct ((0 <? nregs q) && existsb (@is_measure_all S) ks); reflexivity.
Qed.

(** A gate accepted before measurement is in the last layer. *)
Lemma layer_forall_lt : forall (P : op -> Prop) dims lo hi (g : op) n,
  (forall i, i < n -> P (idop S dims i)) -> P g -> forall o, In o (layer_list dims lo hi g n) -> P o.
Proof.
  intros P dims lo hi g n Hi Hg o Ho. unfold layer_list in Ho. apply in_flat_map in Ho as [i [Hin Ho]].
  apply in_seq in Hin.
  destruct ((lo <=? Z.of_nat i) && (Z.of_nat i <=? hi))%Z.
  - destruct (Z.of_nat i =? Z.max 0 lo)%Z; [|contradiction]. destruct Ho as [<-|[]]. exact Hg.
  - destruct Ho as [<-|[]]. apply Hi. lia.
Qed.

Lemma registers_hxz : forall g : op, is_hxz g = true -> registers g = [qreg_of g].
Proof. intros g H; destruct g; try discriminate; reflexivity. Qed.

Theorem gate_in_last : forall q init out ks (c : circuit) k c', history q init out ks c -> ~ In CMeasureAll ks ->
  api c k = Ok (c', true) -> k <> CMeasureAll -> 0 < nregs q ->
  exists g, issues c k g /\
    ((exists new, layers c' = layers c ++ [new] /\ (forall o, In o new -> o = g \/ is_igate o = true) /\
        (In g new \/ occupies (nregs q) g = [])) \/
     (exists before l1 d l2 r, layers c = before ++ [l1 ++ OI r d :: l2] /\
        layers c' = before ++ [l1 ++ g :: l2] /\ registers g = [r])).
Proof.
  intros q init out ks c k c' H Hm Ha Hk Hn. destruct (history_inv H) as [l0 [ls I]].
  assert (Em : (0 <? nregs q) && existsb (@is_measure_all S) ks = false).
  { destruct (existsb _ ks) eqn:E; [|apply andb_false_r]. apply measured_in in E. contradiction. }
  rewrite Em in I.
  destruct (inv_gate I Hk Ha) as [[[X|X] _]|[_ [_ [_ [g [lo [hi [ls' [Hi [Hr [Had [I' _]]]]]]]]]]]];
    [discriminate | lia |].
  exists g. split; [exact Hi|]. assert (El := i_list I'). rewrite app_nil_r in El.
  assert (E0 := i_list I). rewrite app_nil_r in E0.
  destruct Had as [-> _ | lsb l1 d l2 Hg -> -> Hq].
  - left. exists (layer_list (c_dims c) lo hi g (nregs q)). split; [rewrite El, E0; reflexivity|].
    split; [apply layer_forall_lt; [right; reflexivity | left; reflexivity]|].
    rewrite layer_list_split, (occupies_ranges _ Hr).
    destruct (Nat.ltb_spec (lowr (nregs q) lo) (highr (nregs q) lo hi)) as [Hlt|Hge].
    + left. apply in_or_app; right; left; reflexivity.
    + right. replace (_ - _) with 0 by lia. reflexivity.
  - right. exists (l0 :: lsb), l1, d, l2, (qreg_of g). rewrite El, E0. split; [reflexivity|]. split; [reflexivity|].
    apply registers_hxz; exact Hg.
Qed.

Theorem measure_all_final : forall q init out ks (c : circuit), history q init out ks c -> 0 < nregs q ->
  In CMeasureAll ks ->
  (forall k c' b, api c k = Ok (c', b) -> c' = c /\ (is_measure_all k = true -> b = true) /\
     (is_measure_all k = false -> is_toffoli k = false -> b = false)) /\
  (forall ks', after c ks' = c).
Proof.
  intros q init out ks c H Hn Hm. destruct (history_inv H) as [l0 [ls I]].
  rewrite (proj2 (measured_in ks) Hm), (proj2 (Nat.ltb_lt 0 _) Hn) in I. simpl in I.
  assert (A : forall k c' b, api c k = Ok (c', b) -> c' = c /\ (is_measure_all k = true -> b = true) /\
     (is_measure_all k = false -> is_toffoli k = false -> b = false)).
  { intros k c' b Ha. destruct (is_measure_all k) eqn:Ek.
    - destruct k; try discriminate. destruct (inv_measure I) as [c2 [E2 X]]. rewrite Ha in E2. injection E2 as <- ->.
      destruct X as [[_ ->]|[X _]]; [|discriminate]. split; [reflexivity|]. split; [auto|discriminate].
    - assert (Hk : k <> CMeasureAll) by (intros ->; discriminate).
      destruct (inv_gate I Hk Ha) as [[_ [-> Hb]]|[X _]]; [|discriminate].
      split; [reflexivity|]. split; [discriminate|]. intros _ Ht. destruct Hb as [->|[_ [cs [t [p ->]]]]]; [reflexivity|discriminate]. }
  split; [exact A|]. induction ks' as [|k ks' IH]; [reflexivity|]. unfold after in *. simpl.
  assert (E : step c k = c).
  { unfold step. destruct (api c k) as [[c' b]|e] eqn:E; [|reflexivity]. apply A in E as [-> _]. reflexivity. }
  rewrite E. exact IH.
Qed.

Theorem run_unmeasured : forall (B : backend S) q init out ks (c : circuit), history q init out ks c -> 0 < nregs q ->
  ~ In CMeasureAll ks -> run B c = Err AssertionError.
Proof.
  intros B q init out ks c H Hn Hm. destruct (history_inv H) as [l0 [ls I]].
  assert (E : existsb (@is_measure_all S) ks = false).
  { destruct (existsb _ ks) eqn:E; [|reflexivity]. apply measured_in in E. contradiction. }
  rewrite E, andb_false_r in I. unfold run, flow_exec. rewrite (i_meas I), forallb_repeat.
  rewrite (proj2 (Nat.eqb_neq _ 0)) by lia. reflexivity.
Qed.

(** Which operations can be in a layer of a history: identities of the
    circuit, and gates issued by calls on circuits of the same layout. *)
Definition same_layout (c c' : circuit) : Prop :=
  c_qregs c' = c_qregs c /\ c_len c' = c_len c /\ c_dims c' = c_dims c /\ c_out c' = c_out c.

Lemma issues_layout : forall (c c' : circuit) k g, same_layout c c' -> issues c k g -> issues c' k g.
Proof.
  intros c c' k g [E1 [E2 [E3 _]]] H. destruct H.
  - constructor; [unfold validate1 in *; rewrite E2, E3; assumption | unfold dims_or in *; rewrite E3; assumption].
  - constructor; [unfold validate1 in *; rewrite E2, E3; assumption | unfold dims_or in *; rewrite E3; assumption].
  - constructor; [unfold validate1 in *; rewrite E2, E3; assumption | unfold dims_or in *; rewrite E3; assumption].
  - rewrite <- E3. constructor; assumption.
  - constructor. rewrite E1. assumption.
  - constructor; [unfold validate1 in *; rewrite E2, E3; assumption | unfold dims_or in *; rewrite E3; assumption].
  - constructor; [unfold validate, validate1 in *; rewrite E2, E3; assumption | rewrite E3; assumption].
Qed.

Definition from_calls (c : circuit) (P : call -> Prop) (o : op) : Prop :=
  (exists i, i < length (c_dims c) /\ o = idop S (c_dims c) i) \/ exists k, P k /\ issues c k o.

Lemma from_layout : forall (c c' : circuit) P o, same_layout c c' -> from_calls c P o -> from_calls c' P o.
Proof.
  intros c c' P o E [[i [Hi ->]]|[k [Hk H]]].
  - left. exists i. destruct E as [_ [_ [E _]]]. rewrite E. auto.
  - right. exists k. split; [exact Hk|]. eapply issues_layout; eauto.
Qed.

Lemma set_flow_layout : forall (c : circuit) f, same_layout c (set_flow c f).
Proof. intros c f. repeat split. Qed.

(** The operations of the gate layers, one after another. *)
Definition gate_ops (ls : list (list op)) : list op := concat ls.

Lemma added_ops : forall n dims lo hi g l0 ls ls', added n dims lo hi g l0 ls ls' ->
  (forall o, In o (gate_ops ls') -> In o (gate_ops ls) \/ o = g \/ exists i, i < n /\ o = idop S dims i) /\
  (forall o, In o (gate_ops ls) -> is_igate o = false -> In o (gate_ops ls')) /\
  (lowr n lo < highr n lo hi -> In g (gate_ops ls')).
Proof.
  intros n dims lo hi g l0 ls ls' H. unfold gate_ops. destruct H as [-> _ | lsb l1 d l2 _ -> -> _]; rewrite !concat_app; simpl;
    rewrite ?app_nil_r.
  - split; [|split].
    + intros o Ho. apply in_app_or in Ho as [Ho|Ho]; [auto|]. right. revert o Ho.
      apply layer_forall_lt; [|left; reflexivity]. intros i Hi. right. eauto.
    + intros o Ho _. apply in_or_app; left; exact Ho.
    + intros Hlt. apply in_or_app; right. rewrite layer_list_split.
      rewrite (proj2 (Nat.ltb_lt _ _) Hlt). apply in_or_app; right; left; reflexivity.
  - split; [|split].
    + intros o Ho. rewrite !in_app_iff in *. simpl in *. intuition (subst; auto).
    + intros o Ho Hi. rewrite !in_app_iff in *. simpl in *. destruct Ho as [Ho|[Ho|[<-|Ho]]]; auto. discriminate.
    + intros _. rewrite !in_app_iff. simpl. auto.
Qed.

(** One step, with everything known about it. *)
Lemma step_full : forall (P : call -> Prop) n (c : circuit) m l0 ls k, inv n c m l0 ls -> P k ->
  (forall o, In o (gate_ops ls) -> from_calls c P o) ->
  exists ls', inv n (step c k) (m || (0 <? n) && is_measure_all k) l0 ls' /\
    same_layout c (step c k) /\
    (forall o, In o (gate_ops ls') -> from_calls (step c k) P o) /\
    (forall o, In o (gate_ops ls) -> is_igate o = false -> In o (gate_ops ls')).
Proof.
  intros P n c m l0 ls k I HP HF.
  destruct (is_measure_all k) eqn:Ek.
  - unfold step. destruct k; try discriminate. destruct (inv_measure I) as [c' [E' H]]. rewrite E'.
    destruct H as [[Hm ->]|[-> [Hn [I' [f ->]]]]].
    + exists ls. split; [|repeat split; auto]. destruct Hm as [->| ->]; [auto|]. simpl. rewrite orb_false_r. auto.
    + exists ls. rewrite (proj2 (Nat.ltb_lt 0 n) Hn). split; [exact I'|]. split; [apply set_flow_layout|].
      split; [|auto]. intros o Ho. eapply from_layout; [apply set_flow_layout | auto].
  - rewrite andb_false_r, orb_false_r. unfold step.
    assert (Same : exists ls', inv n c m l0 ls' /\ same_layout c c /\
      (forall o, In o (gate_ops ls') -> from_calls c P o) /\
      (forall o, In o (gate_ops ls) -> is_igate o = false -> In o (gate_ops ls'))).
    { exists ls. split; [exact I|]. split; [repeat split|]. auto. }
    destruct (api c k) as [[c' b]|e] eqn:E; [|exact Same].
    assert (Hk : k <> CMeasureAll) by (intros ->; discriminate).
    destruct (inv_gate I Hk E) as [[_ [-> _]]|[-> [_ [_ [g [lo [hi [ls' [Hi [_ [Had [I' [f ->]]]]]]]]]]]]]; [exact Same|].
    exists ls'. split; [exact I'|]. split; [apply set_flow_layout|].
    destruct (added_ops Had) as [A1 [A2 _]]. split; [|exact A2].
    intros o Ho. eapply from_layout; [apply set_flow_layout|].
    destruct (A1 o Ho) as [Ho'|[->|[i [Hin ->]]]]; [auto | right; eauto|].
    left. exists i. rewrite (i_dims I). auto.
Qed.

Lemma same_layout_trans : forall c1 c2 c3 : circuit, same_layout c1 c2 -> same_layout c2 c3 -> same_layout c1 c3.
Proof. intros c1 c2 c3 [A1 [A2 [A3 A4]]] [B1 [B2 [B3 B4]]]. unfold same_layout. repeat split; congruence. Qed.

Lemma after_full : forall (P : call -> Prop) n ks (c : circuit) m l0 ls, inv n c m l0 ls -> Forall P ks ->
  (forall o, In o (gate_ops ls) -> from_calls c P o) ->
  exists ls', inv n (after c ks) (m || (0 <? n) && existsb (@is_measure_all S) ks) l0 ls' /\
    same_layout c (after c ks) /\
    (forall o, In o (gate_ops ls') -> from_calls (after c ks) P o) /\
    (forall o, In o (gate_ops ls) -> is_igate o = false -> In o (gate_ops ls')).
Proof.
  intros P n ks; induction ks as [|k ks IH]; intros c m l0 ls I HP HF.
  - exists ls. unfold after. simpl. rewrite andb_false_r, orb_false_r. split; [exact I|]. split; [repeat split|]. auto.
  - inversion HP as [|? ? HP1 HP2]; subst.
    destruct (@step_full P n c m l0 ls k I HP1 HF) as [ls' [I' [SL [HF' HK]]]].
    destruct (IH _ _ _ _ I' HP2 HF') as [ls2 [I2 [SL2 [HF2 HK2]]]]. exists ls2.
    simpl existsb. rewrite andb_orb_distrib_r, orb_assoc. split; [exact I2|].
    split; [eapply same_layout_trans; eauto|]. auto.
Qed.

Theorem history_full : forall (P : call -> Prop) q init out ks (c : circuit), history q init out ks c -> Forall P ks ->
  exists l0 ls, inv (nregs q) c ((0 <? nregs q) && existsb (@is_measure_all S) ks) l0 ls /\
    (forall o, In o (gate_ops ls) -> from_calls c P o).
Proof.
  intros P q init out ks c [c0 [H ->]] HP. destruct (inv_new _ _ _ H) as [l0 I].
  destruct (@after_full P _ ks _ _ _ _ I HP ltac:(simpl; tauto)) as [ls [I' [_ [HF _]]]]. eauto.
Qed.

Lemma issues_made_by : forall (c : circuit) k g, issues c k g -> made_by k g.
Proof. intros c k g H; destruct H; simpl; auto. Qed.

(** ** Exceptions of run *)
Lemma fold_bind_err : forall A B (f : A -> B -> res A) l e,
  fold_left (fun acc x => a <- acc ;; f a x) l (Err e) = Err e.
Proof. intros A B f l e; induction l as [|x l IH]; simpl; auto. Qed.

Lemma fold_bind_errs : forall A B (f : A -> B -> res A) (E : exn -> Prop) l a e,
  (forall a x e, In x l -> f a x = Err e -> E e) ->
  fold_left (fun acc x => a <- acc ;; f a x) l (Ok a) = Err e -> E e.
Proof.
  intros A B f E l; induction l as [|x l IH]; intros a e H Hf; simpl in Hf; [discriminate|].
  destruct (f a x) as [a'|e'] eqn:Ef.
  - apply (IH a' e); [|exact Hf]. intros a2 y e2 Hy. apply H. right; exact Hy.
  - rewrite fold_bind_err in Hf. injection Hf as <-. apply (H a x e'); [left; reflexivity | exact Ef].
Qed.

Lemma mapM_err : forall A B (f : A -> res B) l e, mapM f l = Err e -> exists x, In x l /\ f x = Err e.
Proof.
  intros A B f l; induction l as [|x l IH]; intros e H; simpl in H; [discriminate|].
  destruct (f x) as [y|e'] eqn:E; simpl in H.
  - destruct (mapM f l) as [ys|e2]; [discriminate|]. injection H as ->. destruct (IH e eq_refl) as [z [Hz Ez]].
    exists z. split; [right; exact Hz | exact Ez].
  - injection H as ->. exists x. split; [left; reflexivity | exact E].
Qed.

Lemma Nbase_err : forall v base e, Nbase_to_bin v base = Err e -> e = IndexError.
Proof.
  intros v base e H. unfold Nbase_to_bin in H.
  assert (G : forall rb v e, nbase_digits v rb = Err e -> e = IndexError).
  { clear. induction rb as [|b rb IH]; intros v e H; simpl in H; destruct (v =? 0)%Z; try congruence.
    destruct (nbase_digits (v / b) rb) as [ds|e'] eqn:E; [discriminate|]. simpl in H. injection H as <-. eauto. }
  destruct (nbase_digits v (rev base)) eqn:E; simpl in H; [discriminate|]. injection H as <-. eauto.
Qed.

(** The errors of run come from the gate matrices, from misaligned products
    (ValueError), from empty layers or labels (IndexError), or from running an
    empty circuit (AttributeError). *)
Theorem run_errors : forall (B : backend S) (E : exn -> Prop) (c : circuit) e,
  (forall a b e, b_dot (b := B) a b = Err e -> e = ValueError) ->
  E ValueError -> E IndexError -> E AttributeError ->
  (forall m o e, In m (tl (rev (f_list (c_flow c)))) -> In o (m_list m) -> unitary B o = Err e -> E e) ->
  forallb (fun b => b) (f_meas (c_flow c)) = true ->
  run B c = Err e -> E e.
Proof.
  intros B E c e Hdot EV EI EA Hu Hm Hr. unfold run, flow_exec in Hr. rewrite Hm in Hr.
  destruct (rev (f_list (c_flow c))) as [|last rest] eqn:Er; [injection Hr as <-; exact EI|].
  match type of Hr with bind ?x _ = _ => destruct x as [[m|]|e'] eqn:Ex end; simpl in Hr.
  - unfold output_call in Hr. apply mapM_err in Hr as [v [_ Hv]].
    destruct (Nbase_to_bin _ _) eqn:En; simpl in Hv; [discriminate|]. apply Nbase_err in En. congruence.
  - injection Hr as <-. exact EA.
  - injection Hr as <-. revert Ex. apply fold_bind_errs. intros a m e0 Hin He0.
    destruct (moment_exec B (m_list m)) as [k|e1] eqn:Ek.
    + simpl in He0. destruct a as [d|]; [|discriminate].
      destruct (b_dot d k) as [p|e2] eqn:Ed; simpl in He0; [discriminate|]. injection He0 as <-.
      apply Hdot in Ed. subst e2. exact EV.
    + simpl in He0. injection He0 as <-. unfold moment_exec in Ek.
      assert (Hu' : forall o e, In o (m_list m) -> unitary B o = Err e -> E e).
      { intros o e2 Ho He2. apply (Hu m o e2); auto. }
      destruct (m_list m) as [|g gs]; [injection Ek as <-; exact EI|].
      destruct (unitary B g) as [u|e2] eqn:Eu.
      * simpl in Ek. revert Ek. apply (@fold_bind_errs _ _ (fun a h => b <- unitary B h ;; Ok (b_kron a b)) E gs u e1).
        intros a0 h e3 Hh E3. destruct (unitary B h) as [uh|e4] eqn:E4; simpl in E3; [discriminate|].
        injection E3 as <-. apply (Hu' h); [right; exact Hh | exact E4].
      * simpl in Ek. injection Ek as <-. apply (Hu' g); [left; reflexivity | exact Eu].
Qed.

End History.
