(** * CsrLib: facts about rows of stored entries. *)
From Coq Require Import List Arith Lia Bool.
From Verif Require Import Py Scalar Mat Lib BackendSpec Csr.
Import ListNotations.
Set Implicit Arguments.

Lemma NoDup_apart : forall A (l m : list A), NoDup l -> NoDup m -> (forall x, In x l -> In x m -> False) -> NoDup (l ++ m).
Proof.
  intros A l m Hl Hm H; induction Hl as [|x l Hx Hl IH]; [exact Hm|]. simpl. constructor.
  - rewrite in_app_iff. intros [G|G]; [auto | apply (H x); [left; reflexivity | exact G]].
  - apply IH. intros y Hy. apply H. right. exact Hy.
Qed.

Section Rows.
Variable S : scalar.
Notation srow := (srow S).
Notation csr := (csr S).

Fixpoint stored (row : srow) (j : nat) : option S :=
  match row with
  | [] => None
  | (q, v) :: row' => if Nat.eqb q j then Some v else stored row' j
  end.
Definition deflt (o : option S) : S := match o with Some v => v | None => s0 end.

Lemma look_stored : forall row j, look row j = deflt (stored row j).
Proof. induction row as [|[q v] row IH]; intros j; simpl; [reflexivity|]. destruct (q =? j); auto. Qed.

Lemma stored_none : forall row j, ~ In j (map fst row) -> stored row j = None.
Proof.
  induction row as [|[q v] row IH]; intros j H; simpl in *; [reflexivity|].
  destruct (q =? j) eqn:E; [apply Nat.eqb_eq in E; tauto | apply IH; tauto].
Qed.

Lemma stored_in : forall row j v, stored row j = Some v -> In (j, v) row.
Proof.
  induction row as [|[q w] row IH]; intros j v H; simpl in *; [discriminate|].
  destruct (q =? j) eqn:E; [apply Nat.eqb_eq in E; left; congruence | right; auto].
Qed.

Lemma in_stored : forall row j v, NoDup (map fst row) -> In (j, v) row -> stored row j = Some v.
Proof.
  induction row as [|[q w] row IH]; intros j v Hn H; simpl in *; [contradiction|]. inversion Hn; subst.
  destruct H as [H|H].
  - injection H as -> ->. rewrite Nat.eqb_refl. reflexivity.
  - destruct (q =? j) eqn:E; [|auto]. apply Nat.eqb_eq in E. subst q. exfalso. apply H2, in_map_iff. exists (j, v). auto.
Qed.

Lemma stored_iff : forall row j o, NoDup (map fst row) ->
  match o with Some v => In (j, v) row | None => ~ In j (map fst row) end -> stored row j = o.
Proof. intros row j [v|] Hn H; [apply in_stored | apply stored_none]; assumption. Qed.

(** Rows of a matrix with [c] columns. *)
Definition row_ok (c : nat) (row : srow) : Prop := NoDup (map fst row) /\ forall q v, In (q, v) row -> q < c.
Definition csr_ok (a : csr) : Prop := length (rl a) = rr a /\ forall row, In row (rl a) -> row_ok (rc a) row.
Definition at_ (a : csr) (i j : nat) : option S := stored (nth i (rl a) []) j.

Lemma row_ok_nil : forall c, row_ok c [].
Proof. intros c. split; [constructor | intros q v []]. Qed.
Lemma ok_row : forall a i, csr_ok a -> row_ok (rc a) (nth i (rl a) []).
Proof.
  intros a i [H1 H2]. destruct (Nat.lt_ge_cases i (length (rl a))) as [H|H].
  - apply H2, nth_In, H.
  - rewrite nth_overflow by exact H. apply row_ok_nil.
Qed.

Lemma toarray_at : forall a i j, i < rr a -> j < rc a -> mget (csr_toarray a) i j = deflt (at_ a i j).
Proof. intros a i j Hi Hj. unfold csr_toarray. rewrite mget_mkmat by assumption. apply look_stored. Qed.

(** ** From arrays *)
Lemma stored_cells : forall (f : nat -> S) s n j,
  stored (flat_map (fun j => if seqb (f j) s0 then [] else [(j, f j)]) (seq s n)) j
  = if (s <=? j) && (j <? s + n) then (if seqb (f j) s0 then None else Some (f j)) else None.
Proof.
  intros f s n j; revert s; induction n as [|n IH]; intros s; cbn [seq flat_map].
  - destruct (s <=? j) eqn:E; [|reflexivity]. apply Nat.leb_le in E. replace (j <? s + 0) with false; [reflexivity|].
    symmetry. apply Nat.ltb_ge. lia.
  - assert (R : (if Nat.eqb s j then if seqb (f j) s0 then None else Some (f j)
                 else if (Datatypes.S s <=? j) && (j <? Datatypes.S s + n) then (if seqb (f j) s0 then None else Some (f j)) else None)
                = (if (s <=? j) && (j <? s + Datatypes.S n) then (if seqb (f j) s0 then None else Some (f j)) else None)).
    { destruct (Nat.eqb_spec s j) as [->|Hne].
      - replace (j <=? j) with true by (symmetry; apply Nat.leb_le; lia).
        replace (j <? j + Datatypes.S n) with true by (symmetry; apply Nat.ltb_lt; lia). reflexivity.
      - destruct (Nat.leb_spec (Datatypes.S s) j), (Nat.leb_spec s j), (Nat.ltb_spec j (Datatypes.S s + n)), (Nat.ltb_spec j (s + Datatypes.S n)); try reflexivity; lia. }
    rewrite <- R. clear R. destruct (seqb (f s) s0) eqn:E.
    + cbn [app]. rewrite IH. destruct (Nat.eqb_spec s j) as [Hs|Hne]; [subst s|reflexivity].
      rewrite E. replace (Datatypes.S j <=? j) with false by (symmetry; apply Nat.leb_gt; lia). reflexivity.
    + cbn [app stored]. destruct (Nat.eqb_spec s j) as [Hs|Hne]; [subst s; rewrite E; reflexivity | apply IH].
Qed.

Lemma cells_keys : forall (f : nat -> S) s n, NoDup (map fst (flat_map (fun j => if seqb (f j) s0 then [] else [(j, f j)]) (seq s n))) /\
  forall q v, In (q, v) (flat_map (fun j => if seqb (f j) s0 then [] else [(j, f j)]) (seq s n)) -> s <= q < s + n.
Proof.
  assert (R : forall (f : nat -> S) s n q v, In (q, v) (flat_map (fun j => if seqb (f j) s0 then [] else [(j, f j)]) (seq s n)) -> s <= q < s + n).
  { intros f s n q v H. apply in_flat_map in H as [j [Hj H]]. apply in_seq in Hj.
    destruct (seqb (f j) s0); [destruct H|]. destruct H as [H|[]]. injection H as -> _. lia. }
  intros f s n. split; [|apply R]. revert s; induction n as [|n IH]; intros s; cbn [seq flat_map]; [constructor|].
  destruct (seqb (f s) s0); [apply IH|]. cbn [app map fst]. constructor; [|apply IH].
  intros H. apply in_map_iff in H as [[q v] [E H]]. simpl in E. subst q. apply R in H. lia.
Qed.

Lemma ok_of_mat : forall m, csr_ok (csr_of_mat m).
Proof.
  intros m. split; cbn [csr_of_mat rl rr rc].
  - rewrite map_length, seq_length. reflexivity.
  - intros row H. apply in_map_iff in H as [i [<- _]]. destruct (cells_keys (mget m i) 0 (mc m)) as [H1 H2].
    split; [exact H1|]. intros q v H. apply H2 in H. lia.
Qed.

Lemma at_of_mat : forall m i j, i < mr m -> j < mc m ->
  at_ (csr_of_mat m) i j = if seqb (mget m i j) s0 then None else Some (mget m i j).
Proof.
  intros m i j Hi Hj. unfold at_. cbn [csr_of_mat rl]. rewrite nth_map_seq by exact Hi. rewrite stored_cells.
  replace (j <? 0 + mc m) with true by (symmetry; apply Nat.ltb_lt; lia). reflexivity.
Qed.

(** ** Identity *)
Lemma ok_eye : forall n m, csr_ok (csr_eye S n m).
Proof.
  intros n m. split; cbn [csr_eye rl rr rc].
  - rewrite map_length, seq_length. reflexivity.
  - intros row H. apply in_map_iff in H as [i [<- _]]. destruct (Nat.ltb_spec i m); [|apply row_ok_nil].
    split; [repeat constructor; intros [] | intros q v [H'|[]]; injection H' as <- _; assumption].
Qed.

Lemma at_eye : forall n m i j, i < n -> j < m -> at_ (csr_eye S n m) i j = if Nat.eqb i j then Some s1 else None.
Proof.
  intros n m i j Hi Hj. unfold at_. cbn [csr_eye rl]. rewrite nth_map_seq by exact Hi.
  destruct (Nat.ltb_spec i m) as [H|H]; simpl; [destruct (i =? j); reflexivity|].
  replace (i =? j) with false; [reflexivity|]. symmetry. apply Nat.eqb_neq. lia.
Qed.

(** ** Transposition *)
Definition col (s : nat) (rows : list srow) (j : nat) : srow :=
  flat_map (fun '(i, row) => taken i j row) (combine (seq s (length rows)) rows).

Lemma in_pick : forall i (row : srow) j k v,
  In (k, v) (taken i j row) <-> k = i /\ In (j, v) row.
Proof.
  intros i row j k v. unfold taken. rewrite in_map_iff. split.
  - intros [[q w] [E H]]. injection E as <- <-. apply filter_In in H as [H E]. apply Nat.eqb_eq in E. subst q. auto.
  - intros [-> H]. exists (j, v). split; [reflexivity|]. apply filter_In. split; [exact H | apply Nat.eqb_refl].
Qed.

Lemma pick_short : forall i (row : srow) j, NoDup (map fst row) ->
  NoDup (map fst (taken i j row)).
Proof.
  intros i row j Hn. induction row as [|[q v] row IH]; [constructor|]. inversion Hn; subst. unfold taken. cbn [filter].
  destruct (Nat.eqb_spec q j) as [->|Hne]; [|auto]. cbn [map fst]. constructor; [|auto].
  intros H. apply in_map_iff in H as [[k w] [E H]]. apply in_pick in H as [_ H]. apply H1, in_map_iff. exists (j, w). auto.
Qed.

Lemma in_col : forall rows s j k v, In (k, v) (col s rows j) <-> s <= k /\ In (j, v) (nth (k - s) rows []).
Proof.
  unfold col. induction rows as [|row rows IH]; intros s j k v; cbn [length seq combine flat_map].
  - split; [intros []|]. intros [_ H]. destruct (k - s); destruct H.
  - rewrite in_app_iff, in_pick, IH. split.
    + intros [[-> H]|[Hle H]].
      * rewrite Nat.sub_diag. auto.
      * split; [lia|]. replace (k - s) with (Datatypes.S (k - Datatypes.S s)) by lia. exact H.
    + intros [Hle H]. destruct (Nat.eq_dec k s) as [->|Hne].
      * left. rewrite Nat.sub_diag in H. auto.
      * right. split; [lia|]. replace (k - s) with (Datatypes.S (k - Datatypes.S s)) in H by lia. exact H.
Qed.

Lemma col_keys : forall rows s j, (forall row, In row rows -> NoDup (map fst row)) -> NoDup (map fst (col s rows j)).
Proof.
  induction rows as [|row rows IH]; intros s j H; [constructor|].
  change (col s (row :: rows) j) with (taken s j row ++ col (Datatypes.S s) rows j).
  rewrite map_app. specialize (IH (Datatypes.S s) j (fun r Hr => H r (or_intror Hr))).
  pose proof (@pick_short s row j (H row (or_introl eq_refl))) as P.
  apply NoDup_apart; auto.
  intros k Hk1 Hk2. apply in_map_iff in Hk1 as [[q v] [<- Hk1]]. apply in_pick in Hk1 as [-> _].
  apply in_map_iff in Hk2 as [[q w] [E Hk2]]. simpl in E. subst q. apply in_col in Hk2 as [Hk2 _]. lia.
Qed.

Lemma ok_trans : forall a, csr_ok a -> csr_ok (csr_trans a).
Proof.
  intros a [H1 H2]. split; cbn [csr_trans rl rr rc].
  - rewrite map_length, seq_length. reflexivity.
  - intros row H. apply in_map_iff in H as [j [<- _]]. fold (col 0 (rl a) j). split.
    + apply col_keys. intros r Hr. apply H2, Hr.
    + intros q v H. apply in_col in H as [_ H]. rewrite Nat.sub_0_r in H. rewrite <- H1.
      destruct (Nat.lt_ge_cases q (length (rl a))) as [|Hge]; [assumption|]. rewrite nth_overflow in H by exact Hge. destruct H.
Qed.

Lemma at_trans : forall a i j, csr_ok a -> i < rc a -> at_ (csr_trans a) i j = at_ a j i.
Proof.
  intros a i j [H1 H2] Hi. unfold at_. cbn [csr_trans rl]. rewrite nth_map_seq by exact Hi. fold (col 0 (rl a) i).
  apply stored_iff; [apply col_keys; intros r Hr; apply H2, Hr|].
  destruct (stored (nth j (rl a) []) i) as [v|] eqn:E.
  - apply in_col. rewrite Nat.sub_0_r. split; [lia|]. apply stored_in, E.
  - intros H. apply in_map_iff in H as [[k v] [Ek H]]. simpl in Ek. subst k. apply in_col in H as [_ H]. rewrite Nat.sub_0_r in H.
    apply in_stored in H; [congruence|]. apply (ok_row j (conj H1 H2)).
Qed.

(** ** Kronecker products *)
Lemma in_kron_row : forall m (x y : srow) k z, In (k, z) (kron_row m x y) <->
  exists q v q' w, In (q, v) x /\ In (q', w) y /\ k = q * m + q' /\ z = smul v w.
Proof.
  intros m x y k z. unfold kron_row. rewrite in_flat_map. split.
  - intros [[q v] [Hx H]]. apply in_map_iff in H as [[q' w] [E Hy]]. injection E as <- <-. exists q, v, q', w. auto.
  - intros [q [v [q' [w [Hx [Hy [-> ->]]]]]]]. exists (q, v). split; [exact Hx|]. apply in_map_iff. exists (q', w). auto.
Qed.

Lemma kron_keys : forall m (x y : srow), NoDup (map fst x) -> NoDup (map fst y) -> (forall q v, In (q, v) y -> q < m) ->
  NoDup (map fst (kron_row m x y)).
Proof.
  intros m x y Hx Hy Hm. induction x as [|[q v] x IH]; [constructor|]. inversion Hx; subst.
  change (kron_row m ((q, v) :: x) y) with (map (fun '(q', w) => (q * m + q', smul v w)) y ++ kron_row m x y).
  rewrite map_app. apply NoDup_apart; [|auto|].
  - rewrite map_map. clear -Hy. induction y as [|[q' w] y IH]; [constructor|]. cbn [map]. inversion Hy; subst. constructor; [|auto].
    intros H. apply in_map_iff in H as [[p z] [E H]]. simpl in E. apply H1. apply in_map_iff. exists (p, z). split; [simpl; lia | exact H].
  - intros k Hk1 Hk2. apply in_map_iff in Hk1 as [[k1 z1] [E1 Hk1]]. simpl in E1. subst k1.
    apply in_map_iff in Hk1 as [[q' w] [E Hk1]]. injection E as E _.
    apply in_map_iff in Hk2 as [[k2 z2] [E2 Hk2]]. simpl in E2. subst k2.
    apply in_kron_row in Hk2 as [p [v' [p' [w' [Hp [Hp' [Ek _]]]]]]].
    apply Hm in Hk1, Hp'. assert (p = q) by nia. subst p. apply H1, in_map_iff. exists (q, v'). auto.
Qed.

Lemma row_ok_kron : forall c m (x y : srow), row_ok c x -> row_ok m y -> row_ok (c * m) (kron_row m x y).
Proof.
  intros c m x y [H1 H2] [G1 G2]. split; [apply kron_keys; assumption|].
  intros k z H. apply in_kron_row in H as [q [v [q' [w [Hq [Hq' [-> _]]]]]]]. apply H2 in Hq. apply G2 in Hq'. nia.
Qed.

Lemma stored_kron : forall c m (x y : srow) j, row_ok c x -> row_ok m y -> j < c * m ->
  stored (kron_row m x y) j = match stored x (j / m), stored y (j mod m) with Some v, Some w => Some (smul v w) | _, _ => None end.
Proof.
  intros c m x y j [H1 H2] [G1 G2] Hj. assert (Hm : m <> 0) by nia.
  assert (D : forall q q', q' < m -> j = q * m + q' -> j / m = q /\ j mod m = q').
  { intros q q' Hq ->. split; [rewrite Nat.div_add_l, Nat.div_small by lia; lia | rewrite Nat.add_comm, Nat.mod_add, Nat.mod_small by lia; reflexivity]. }
  apply stored_iff; [apply kron_keys; assumption|].
  assert (N : (forall v w, stored x (j / m) = Some v -> stored y (j mod m) = Some w -> False) -> ~ In j (map fst (kron_row m x y))).
  { intros N H. apply in_map_iff in H as [[k z] [E H]]. simpl in E. subst k. apply in_kron_row in H as [q [v [q' [w [Hq [Hq' [E _]]]]]]].
    destruct (D q q' (G2 _ _ Hq') E) as [<- <-]. apply in_stored in Hq; [|assumption]. apply in_stored in Hq'; [|assumption]. eauto. }
  destruct (stored x (j / m)) as [v|] eqn:Ex; [|apply N; discriminate].
  destruct (stored y (j mod m)) as [w|] eqn:Ey; [|apply N; discriminate].
  apply in_kron_row. exists (j / m), v, (j mod m), w. repeat split; [apply stored_in, Ex | apply stored_in, Ey|].
  rewrite (Nat.mul_comm (j / m) m). apply Nat.div_mod, Hm.
Qed.

Lemma nth_pairs : forall A B C (f : A -> B -> C) (la : list A) (lb : list B) i da db dc, i < length la * length lb ->
  nth i (flat_map (fun x => map (f x) lb) la) dc = f (nth (i / length lb) la da) (nth (i mod length lb) lb db).
Proof.
  intros A B C f la lb i da db dc. revert i. induction la as [|x la IH]; intros i Hi; [simpl in Hi; lia|].
  assert (Hn : length lb <> 0) by (intros E; rewrite E in Hi; simpl in Hi; lia). cbn [flat_map].
  destruct (Nat.lt_ge_cases i (length lb)) as [H|H].
  - rewrite app_nth1 by (rewrite map_length; exact H). rewrite Nat.div_small, Nat.mod_small by exact H. apply nth_map_lt, H.
  - rewrite app_nth2 by (rewrite map_length; exact H). rewrite map_length. rewrite IH by (simpl in Hi; lia).
    replace i with ((i - length lb) + 1 * length lb) at 3 4 by lia. rewrite Nat.div_add, Nat.mod_add by exact Hn.
    rewrite Nat.add_1_r. reflexivity.
Qed.

Lemma ok_kron : forall a b, csr_ok a -> csr_ok b -> csr_ok (csr_kron a b).
Proof.
  intros a b [H1 H2] [G1 G2]. split; cbn [csr_kron rl rr rc].
  - rewrite <- H1, <- G1. clear. induction (rl a) as [|x l IH]; simpl; [reflexivity|]. rewrite app_length, map_length, IH. reflexivity.
  - intros row H. apply in_flat_map in H as [x [Hx H]]. apply in_map_iff in H as [y [<- Hy]]. apply row_ok_kron; auto.
Qed.

Lemma at_kron : forall a b i j, csr_ok a -> csr_ok b -> i < rr a * rr b -> j < rc a * rc b ->
  at_ (csr_kron a b) i j
  = match at_ a (i / rr b) (j / rc b), at_ b (i mod rr b) (j mod rc b) with Some v, Some w => Some (smul v w) | _, _ => None end.
Proof.
  intros a b i j Ha Hb Hi Hj. pose proof (proj1 Ha) as L1. pose proof (proj1 Hb) as L2. unfold at_. cbn [csr_kron rl].
  rewrite (@nth_pairs _ _ _ (kron_row (rc b)) (rl a) (rl b) i [] [] []) by (rewrite L1, L2; exact Hi). rewrite L2.
  apply (@stored_kron (rc a)); [apply ok_row; assumption..|exact Hj].
Qed.

(** ** Products *)
Lemma stored_add_at : forall (acc : srow) j x k, stored (add_at acc j x) k = if j =? k then Some (sadd (deflt (stored acc j)) x) else stored acc k.
Proof.
  induction acc as [|[q v] acc IH]; intros j x k; cbn [add_at stored].
  - reflexivity.
  - destruct (Nat.eqb_spec q j) as [->|Hne]; cbn [stored].
    + destruct (j =? k); reflexivity.
    + rewrite IH. destruct (Nat.eqb_spec q k) as [->|]; [|reflexivity]. replace (j =? k) with false; [reflexivity|].
      symmetry. apply Nat.eqb_neq. congruence.
Qed.

Lemma in_add_at : forall (acc : srow) j x q v, In (q, v) (add_at acc j x) -> q = j \/ In q (map fst acc).
Proof.
  induction acc as [|[p w] acc IH]; intros j x q v H; cbn [add_at] in H.
  - destruct H as [H|[]]. injection H as -> _. auto.
  - cbn [map fst]. destruct (Nat.eqb_spec p j) as [->|Hne]; destruct H as [H|H].
    + injection H as -> _. auto.
    + right. right. apply in_map_iff. exists (q, v). auto.
    + injection H as -> _. right. left. reflexivity.
    + destruct (IH _ _ _ _ H); [auto | right; right; assumption].
Qed.

Lemma row_ok_add_at : forall c (acc : srow) j x, row_ok c acc -> j < c -> row_ok c (add_at acc j x).
Proof.
  intros c acc j x [H1 H2] Hj. split.
  - clear H2 Hj. induction acc as [|[p w] acc IH]; cbn [add_at]; [repeat constructor; intros []|]. inversion H1; subst.
    destruct (Nat.eqb_spec p j) as [->|Hne]; cbn [map fst]; [constructor; assumption|]. constructor; [|auto].
    intros H. apply in_map_iff in H as [[q v] [E H]]. simpl in E. subst q. apply in_add_at in H as [H|H]; congruence.
  - intros q v H. apply in_add_at in H as [->|H]; [exact Hj|]. apply in_map_iff in H as [[p w] [E H]]. simpl in E. subst p. eauto.
Qed.

Lemma row_ok_add_row : forall c (y acc : srow) v, row_ok c acc -> (forall q w, In (q, w) y -> q < c) -> row_ok c (add_row acc v y).
Proof.
  intros c y. induction y as [|[j w] y IH]; intros acc v Ha Hy; [exact Ha|].
  apply (IH (add_at acc j (smul v w))); [|intros q z H; apply (Hy q z); right; exact H].
  apply row_ok_add_at; [exact Ha | apply (Hy j w); left; reflexivity].
Qed.

Lemma stored_add_row : forall (y acc : srow) v k, NoDup (map fst y) ->
  stored (add_row acc v y) k
  = match stored y k with Some w => Some (sadd (deflt (stored acc k)) (smul v w)) | None => stored acc k end.
Proof.
  induction y as [|[j w] y IH]; intros acc v k Hn; [reflexivity|]. inversion Hn; subst.
  change (add_row acc v ((j, w) :: y)) with (add_row (add_at acc j (smul v w)) v y). rewrite IH by assumption.
  rewrite stored_add_at. cbn [stored]. destruct (Nat.eqb_spec j k) as [->|Hne]; [|reflexivity].
  rewrite stored_none by assumption. reflexivity.
Qed.

(** The sums, number by number. *)
Definition put_in (b : list srow) (j : nat) (acc : option S) (e : nat * S) : option S :=
  match stored (nth (fst e) b []) j with Some w => Some (sadd (deflt acc) (smul (snd e) w)) | None => acc end.

Lemma stored_dot : forall (x : srow) b k, (forall i, NoDup (map fst (nth i b []))) ->
  stored (dot_row x b) k = fold_left (put_in b k) x None.
Proof.
  intros x b k Hb.
  assert (G : forall acc, stored (fold_left (fun acc '(k, v) => add_row acc v (nth k b [])) x acc) k
                          = fold_left (put_in b k) x (stored acc k)).
  { induction x as [|[i v] x IH]; intros acc; [reflexivity|]. cbn [fold_left]. rewrite IH. f_equal.
    unfold put_in. cbn [fst snd]. apply stored_add_row, Hb. }
  apply G.
Qed.

Lemma ok_dot : forall a b, csr_ok a -> csr_ok b ->
  csr_ok {| rr := rr a; rc := rc b; rl := map (fun x => dot_row x (rl b)) (rl a) |}.
Proof.
  intros a b [H1 H2] Hb. split; cbn [rl rr rc]; [rewrite map_length; exact H1|].
  intros row H. apply in_map_iff in H as [x [<- _]]. unfold dot_row.
  assert (G : forall acc, row_ok (rc b) acc -> row_ok (rc b) (fold_left (fun acc '(k, v) => add_row acc v (nth k (rl b) [])) x acc)).
  { induction x as [|[i v] x IH]; intros acc Ha; [exact Ha|]. cbn [fold_left]. apply IH. apply row_ok_add_row; [exact Ha|].
    apply (ok_row i Hb). }
  apply G, row_ok_nil.
Qed.

Lemma at_dot : forall a b i j, csr_ok b -> i < length (rl a) ->
  at_ {| rr := rr a; rc := rc b; rl := map (fun x => dot_row x (rl b)) (rl a) |} i j
  = fold_left (put_in (rl b) j) (nth i (rl a) []) None.
Proof.
  intros a b i j Hb Hi. unfold at_. cbn [rl]. etransitivity; [apply (f_equal (fun r : srow => stored r j)), (@nth_map_lt srow srow (fun x => dot_row x (rl b)) (rl a) i [] [] Hi)|].
  apply stored_dot. intros k. apply (ok_row k Hb).
Qed.
End Rows.

Arguments deflt {S}.

(** ** Sums over the stored entries *)
Section Monoid.
Variable A : Type.
Variable z : A.
Variable add : A -> A -> A.
Hypothesis add_0 : forall x, add z x = x.
Hypothesis add_c : forall x y, add x y = add y x.
Hypothesis add_a : forall x y w, add x (add y w) = add (add x y) w.
Definition big {B} (f : B -> A) (l : list B) : A := fold_right (fun x s => add (f x) s) z l.

Lemma big_add : forall B (f g : B -> A) l, big (fun x => add (f x) (g x)) l = add (big f l) (big g l).
Proof.
  intros B f g l; induction l as [|x l IH]; simpl; [symmetry; apply add_0|]. rewrite IH.
  rewrite <- !add_a. f_equal. rewrite !add_a. f_equal. apply add_c.
Qed.
Lemma big_ext : forall B (f g : B -> A) l, (forall x, In x l -> f x = g x) -> big f l = big g l.
Proof. intros B f g l H; induction l as [|x l IH]; simpl; [reflexivity|]. rewrite H by (left; reflexivity). rewrite IH by (intros y Hy; apply H; right; exact Hy). reflexivity. Qed.
Lemma big_zero : forall B (f : B -> A) l, (forall x, In x l -> f x = z) -> big f l = z.
Proof. intros B f l H; induction l as [|x l IH]; simpl; [reflexivity|]. rewrite H by (left; reflexivity). rewrite IH by (intros y Hy; apply H; right; exact Hy). apply add_0. Qed.
Lemma big_one : forall (f : nat -> A) l q, NoDup l -> In q l -> (forall k, In k l -> k <> q -> f k = z) -> big f l = f q.
Proof.
  intros f l q; induction l as [|x l IH]; intros Hn Hq H; [destruct Hq|]. inversion Hn; subst. simpl. destruct Hq as [->|Hq].
  - rewrite big_zero; [rewrite add_c; apply add_0|]. intros k Hk. apply H; [right; exact Hk | congruence].
  - rewrite H; [|left; reflexivity|congruence]. rewrite add_0. apply IH; auto. intros k Hk. apply H. right. exact Hk.
Qed.

Lemma big_stored : forall (S : scalar) (x : srow S) (g : nat -> S -> A) l, NoDup l -> NoDup (map fst x) ->
  (forall q v, In (q, v) x -> In q l) ->
  big (fun k => match stored x k with Some v => g k v | None => z end) l = big (fun e => g (fst e) (snd e)) x.
Proof.
  intros S x g l Hl. induction x as [|[q v] x IH]; intros Hn Hin.
  - apply big_zero. reflexivity.
  - inversion Hn; subst. cbn [big fold_right fst snd]. fold (big (fun e : nat * S => g (fst e) (snd e)) x).
    rewrite <- IH by (auto; intros p w H; apply (Hin p w); right; exact H).
    assert (Hq : In q l) by (apply (Hin q v); left; reflexivity).
    assert (O : big (fun k => if q =? k then g q v else z) l = g q v).
    { rewrite (@big_one _ l q Hl Hq); [rewrite Nat.eqb_refl; reflexivity|].
      intros k _ Hk. replace (q =? k) with false; [reflexivity | symmetry; apply Nat.eqb_neq; congruence]. }
    rewrite <- O, <- big_add. clear O. apply big_ext. intros k _. cbn [stored]. destruct (Nat.eqb_spec q k) as [<-|Hne].
    + rewrite stored_none by assumption. symmetry. rewrite add_c. apply add_0.
    + symmetry. apply add_0.
Qed.
End Monoid.
