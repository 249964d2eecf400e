(** * TreeMap: the in-order numbering of the tree and its wires. *)
From Coq Require Import Permutation.
From Verif Require Import Py Scalar Mat Utils Gates Circuit Spec Lib Tree TreeSpec TreeLib.
Set Implicit Arguments.
Open Scope Z_scope.
Ltac Zify.zify_post_hook ::= Z.div_mod_to_equations.

(** [x] lies in the subtree of [p]. *)
Notation sub := in_subtree.

Lemma sub_split : forall p x, sub p x <-> x = p \/ sub (p * 2) x \/ sub (p * 2 + 1) x.
Proof.
  intros p x. split.
  - intros [k [Hk E]]. destruct (Z.eq_dec k 0) as [->|Hn].
    + left. rewrite Z.pow_0_r, Z.div_1_r in E. exact E.
    + right. assert (E' : x / 2 ^ (k - 1) / 2 = p).
      { rewrite Z.div_div by lia. rewrite Z.mul_comm, <- Z.pow_succ_r by lia. replace (Z.succ (k - 1)) with k by lia. exact E. }
      assert (H : x / 2 ^ (k - 1) = p * 2 \/ x / 2 ^ (k - 1) = p * 2 + 1) by lia.
      destruct H as [H|H]; [left|right]; exists (k - 1); split; auto; lia.
  - assert (G : forall q, q / 2 = p -> sub q x -> sub p x).
    { intros q Hq [k [Hk E]]. exists (k + 1). split; [lia|].
      rewrite Z.pow_add_r by lia. change (2 ^ 1) with 2. rewrite <- Z.div_div by lia. rewrite E. exact Hq. }
    intros [->|[H|H]].
    + exists 0. split; [lia|]. rewrite Z.pow_0_r, Z.div_1_r. reflexivity.
    + apply (G (p * 2)); [lia | exact H].
    + apply (G (p * 2 + 1)); [lia | exact H].
Qed.

Lemma sub_ge : forall p x, 1 <= p -> sub p x -> p <= x.
Proof.
  intros p x Hp [k [Hk E]]. assert (0 < 2 ^ k) by lia. subst p.
  destruct (Z.lt_ge_cases x 0); [|apply Z.div_le_upper_bound; nia].
  assert (x / 2 ^ k < 0) by (apply Z.div_lt_upper_bound; lia). lia.
Qed.

Lemma div_pow_mono : forall x j k, 0 <= x -> 0 <= j <= k -> x / 2 ^ k <= x / 2 ^ j.
Proof.
  intros x j k Hx [H1 H2]. apply Z.div_le_compat_l; [exact Hx|]. split; [lia|]. apply Z.pow_le_mono_r; lia.
Qed.

Lemma sub_disjoint : forall p x, 1 <= p -> sub (p * 2) x -> sub (p * 2 + 1) x -> False.
Proof.
  assert (K : forall x j k, 0 <= x -> 0 <= j < k -> 2 * (x / 2 ^ k) <= x / 2 ^ j).
  { intros x j k Hx [H1 H2]. assert (x / 2 ^ k <= x / 2 ^ (j + 1)) by (apply div_pow_mono; lia).
    rewrite Z.pow_add_r in H by lia. change (2 ^ 1) with 2 in H. rewrite <- Z.div_div in H by lia. lia. }
  intros p x Hp H1 H2. pose proof (@sub_ge (p * 2) x ltac:(lia) H1). destruct H1 as [j [Hj E1]]. destruct H2 as [k [Hk E2]].
  destruct (Z.lt_trichotomy j k) as [H3|[->|H3]].
  - pose proof (K x j k ltac:(lia) ltac:(lia)). lia.
  - lia.
  - pose proof (K x k j ltac:(lia) ltac:(lia)). lia.
Qed.

Lemma sub_root : forall x, 1 <= x -> sub 1 x.
Proof.
  intros x Hx. exists (Z.log2 x). split; [apply Z.log2_nonneg|].
  destruct (Z.log2_spec x) as [H1 H2]; [lia|]. rewrite Z.pow_succ_r in H2 by apply Z.log2_nonneg.
  symmetry. apply Z.div_unique with (x - 2 ^ Z.log2 x); lia.
Qed.

Section Order.
Variable c : Z.
Notation gi := (fun f => generate_inorder f c).

Lemma gi_empty : forall f p, c < p -> gi f p = [].
Proof.
  intros [|f] p H; [reflexivity|]. cbn [generate_inorder]. rewrite Z.gtb_ltb, (proj2 (Z.ltb_lt c p)) by exact H. reflexivity.
Qed.

Lemma gi_fuel : forall f g p, 1 <= p -> c < p + Z.of_nat f -> c < p + Z.of_nat g -> gi f p = gi g p.
Proof.
  induction f as [|f IH]; intros g p Hp Hf Hg.
  - rewrite !gi_empty by lia. reflexivity.
  - destruct g as [|g]; [rewrite !gi_empty by lia; reflexivity|]. cbn [generate_inorder].
    destruct (p >? c); [reflexivity|]. rewrite (IH g (p * 2)), (IH g (p * 2 + 1)) by lia. reflexivity.
Qed.

Lemma gi_unfold : forall f p, 1 <= p <= c -> c < p + Z.of_nat f ->
  gi f p = gi f (p * 2) ++ [p] ++ gi f (p * 2 + 1).
Proof.
  intros [|f] p Hp Hf; [lia|]. rewrite (@gi_fuel (S f) f (p * 2)), (@gi_fuel (S f) f (p * 2 + 1)) by lia.
  cbn [generate_inorder]. rewrite Z.gtb_ltb, (proj2 (Z.ltb_ge c p)) by lia. reflexivity.
Qed.

Lemma gi_in : forall f p x, 1 <= p -> c < p + Z.of_nat f -> (In x (gi f p) <-> x <= c /\ sub p x).
Proof.
  induction f as [|f IH]; intros p x Hp Hf.
  - cbn [generate_inorder]. split; [intros []|]. intros [H1 H2]. apply sub_ge in H2; lia.
  - cbn [generate_inorder]. rewrite Z.gtb_ltb. destruct (Z.ltb_spec c p) as [H|H].
    + split; [intros []|]. intros [H1 H2]. apply sub_ge in H2; lia.
    + rewrite !in_app_iff. rewrite (IH (p * 2)), (IH (p * 2 + 1)) by lia. rewrite (sub_split p x). simpl In. intuition lia.
Qed.

Lemma NoDup_glue : forall A (l : list A) x m, NoDup l -> NoDup m -> ~ In x l -> ~ In x m ->
  (forall y, In y l -> In y m -> False) -> NoDup (l ++ [x] ++ m).
Proof.
  intros A l x m Hl Hm Hxl Hxm H. induction Hl as [|y l Hy Hl IH]; simpl.
  - constructor; assumption.
  - constructor.
    + rewrite in_app_iff. simpl. intros [K|[K|K]]; [exact (Hy K) | subst; apply Hxl; left; reflexivity |].
      apply (H y); [left; reflexivity | exact K].
    + apply IH; [intros K; apply Hxl; right; exact K |]. intros z Hz. apply H. right. exact Hz.
Qed.

Lemma gi_NoDup : forall f p, 1 <= p -> c < p + Z.of_nat f -> NoDup (gi f p).
Proof.
  induction f as [|f IH]; intros p Hp Hf; [constructor|]. cbn [generate_inorder].
  destruct (p >? c); [constructor|]. apply NoDup_glue; [apply IH; lia | apply IH; lia | | |].
  - intros K. apply (@gi_in f (p * 2)) in K as [_ K]; [|lia|lia]. apply sub_ge in K; lia.
  - intros K. apply (@gi_in f (p * 2 + 1)) in K as [_ K]; [|lia|lia]. apply sub_ge in K; lia.
  - intros y K1 K2. apply (@gi_in f (p * 2)) in K1 as [_ K1]; [|lia|lia]. apply (@gi_in f (p * 2 + 1)) in K2 as [_ K2]; [|lia|lia].
    exact (@sub_disjoint p y Hp K1 K2).
Qed.

Lemma order_in : forall f x, c <= Z.of_nat f -> (In x (gi f 1) <-> 1 <= x <= c).
Proof.
  intros f x Hf. rewrite (@gi_in f 1 x) by lia. split.
  - intros [H1 H2]. apply sub_ge in H2; lia.
  - intros H. split; [lia | apply sub_root; lia].
Qed.

Lemma order_length : forall f, c <= Z.of_nat f -> 0 <= c -> length (gi f 1) = Z.to_nat c.
Proof.
  intros f Hf Hc. rewrite (Permutation_length (l' := zrange 1 (c + 1))); [rewrite zrange_length; lia|].
  apply NoDup_Permutation; [apply gi_NoDup; lia | apply NoDup_zrange |].
  intros x. rewrite (@order_in f x Hf), in_zrange. lia.
Qed.
End Order.

(** ** The dictionary *)
Lemma dict_get_snoc : forall l n w v, dict_get (l ++ [(n, w)]) v = if n =? v then Some w else dict_get l v.
Proof. intros l n w v. unfold dict_get. rewrite fold_left_app. reflexivity. Qed.

Lemma dict_fold_absent : forall l k v acc, ~ In v l ->
  fold_left (fun acc '(k', w) => if k' =? v then Some w else acc) (indexed l k) acc = acc.
Proof.
  induction l as [|x l IH]; intros k v acc H; [reflexivity|]. cbn [indexed fold_left].
  rewrite (proj2 (Z.eqb_neq x v)); [apply IH; intros K; apply H; right; exact K|].
  intros ->. apply H. left. reflexivity.
Qed.

Lemma dict_get_indexed : forall l k i v, NoDup l -> nth_error l i = Some v ->
  dict_get (indexed l k) v = Some (k + Z.of_nat i).
Proof.
  intros l k i v Hn. unfold dict_get. generalize (@None Z) as acc. revert k i.
  induction Hn as [|x l Hx Hn IH]; intros k i acc Hi; [destruct i; discriminate|].
  cbn [indexed fold_left]. destruct i as [|i]; simpl in Hi.
  - injection Hi as ->. rewrite Z.eqb_refl. rewrite dict_fold_absent by exact Hx. f_equal. lia.
  - rewrite (IH (k + 1) i _ Hi). f_equal. lia.
Qed.

(** ** Wires *)
Section Wires.
Variable c : Z.
Variable fuel : nat.
Hypothesis Hc : 1 <= c.
Hypothesis Hf : c <= Z.of_nat fuel.

Definition mp : list (Z * Z) := inorder_traversal fuel (c + 1) c.
Definition order : list Z := generate_inorder fuel c 1.
Definition node (i : nat) : Z := nth i order (c + 1).
Definition wire (v : Z) : nat := match dict_get mp v with Some i => Z.to_nat i | None => 0%nat end.

Lemma order_len : length order = Z.to_nat c.
Proof. apply order_length; lia. Qed.

Lemma get_node : forall i, (i <= Z.to_nat c)%nat -> dict_get mp (node i) = Some (Z.of_nat i).
Proof.
  intros i Hi. unfold mp, inorder_traversal. rewrite dict_get_snoc. fold order. unfold node.
  destruct (Nat.eq_dec i (Z.to_nat c)) as [->|Hn].
  - rewrite nth_overflow by (rewrite order_len; lia). rewrite Z.eqb_refl. f_equal. lia.
  - assert (Hl : (i < length order)%nat) by (rewrite order_len; lia).
    pose proof (nth_In order (c + 1) Hl) as K. apply (@order_in c fuel) in K; [|exact Hf].
    rewrite (proj2 (Z.eqb_neq (c + 1) _)) by lia.
    rewrite (@dict_get_indexed order 0 i) with (v := nth i order (c + 1)).
    + f_equal.
    + apply gi_NoDup; lia.
    + apply nth_error_nth'. exact Hl.
Qed.

Lemma node_range : forall i, (i <= Z.to_nat c)%nat -> 1 <= node i <= c + 1.
Proof.
  intros i Hi. unfold node. destruct (Nat.eq_dec i (Z.to_nat c)) as [->|Hn].
  - rewrite nth_overflow by (rewrite order_len; lia). lia.
  - assert (Hl : (i < length order)%nat) by (rewrite order_len; lia).
    pose proof (nth_In order (c + 1) Hl) as K. apply (@order_in c fuel) in K; [lia|exact Hf].
Qed.

Lemma node_ex : forall v, 1 <= v <= c + 1 -> exists i, (i <= Z.to_nat c)%nat /\ node i = v.
Proof.
  intros v Hv. destruct (Z.eq_dec v (c + 1)) as [->|Hn].
  - exists (Z.to_nat c). split; [lia|]. unfold node. apply nth_overflow. rewrite order_len. lia.
  - assert (K : In v order) by (apply (@order_in c fuel); [exact Hf | lia]).
    apply In_nth with (d := c + 1) in K as [i [Hi E]]. rewrite order_len in Hi. exists i. split; [lia | exact E].
Qed.

Lemma wire_node : forall i, (i <= Z.to_nat c)%nat -> wire (node i) = i.
Proof. intros i Hi. unfold wire. rewrite get_node by exact Hi. lia. Qed.

Lemma node_wire : forall v, 1 <= v <= c + 1 -> node (wire v) = v.
Proof. intros v Hv. destruct (node_ex Hv) as [i [Hi <-]]. rewrite wire_node by exact Hi. reflexivity. Qed.

Lemma wire_lt : forall v, 1 <= v <= c + 1 -> (wire v < Z.to_nat (c + 1))%nat.
Proof. intros v Hv. destruct (node_ex Hv) as [i [Hi <-]]. rewrite wire_node by exact Hi. lia. Qed.

Lemma get_wire : forall v, 1 <= v <= c + 1 -> dict_get mp v = Some (Z.of_nat (wire v)).
Proof. intros v Hv. destruct (node_ex Hv) as [i [Hi <-]]. rewrite wire_node, get_node by exact Hi. reflexivity. Qed.

Lemma wire_inj : forall u v, 1 <= u <= c + 1 -> 1 <= v <= c + 1 -> wire u = wire v -> u = v.
Proof. intros u v Hu Hv H. rewrite <- (node_wire Hu), <- (node_wire Hv), H. reflexivity. Qed.

Lemma wire_last : wire (c + 1) = Z.to_nat c.
Proof.
  assert (E : node (Z.to_nat c) = c + 1) by (unfold node; apply nth_overflow; rewrite order_len; lia).
  rewrite <- E at 1. apply wire_node. lia.
Qed.

(** The numbering is in-order. *)
Lemma order_around : forall v, 1 <= v <= c -> exists pre post, order = pre ++ generate_inorder fuel c v ++ post.
Proof.
  assert (G : forall v, 0 <= v -> 1 <= v <= c -> exists pre post, order = pre ++ generate_inorder fuel c v ++ post);
    [|intros v Hv; apply G; lia].
  intros v H0. pattern v. apply Z_lt_induction; [|exact H0]. clear v H0. intros v IH Hv.
  destruct (Z.eq_dec v 1) as [->|Hn].
  - exists [], []. rewrite app_nil_r. reflexivity.
  - destruct (IH (v / 2) ltac:(lia) ltac:(lia)) as [pre [post E]].
    rewrite (@gi_unfold c fuel (v / 2)) in E by lia.
    assert (K : v = v / 2 * 2 \/ v = v / 2 * 2 + 1) by lia. destruct K as [K|K]; rewrite <- K in E.
    + exists pre, (([v / 2] ++ generate_inorder fuel c (v + 1)) ++ post). rewrite E. rewrite <- !app_assoc. reflexivity.
    + exists (pre ++ generate_inorder fuel c (v / 2 * 2) ++ [v / 2]), post. rewrite E. rewrite <- !app_assoc. reflexivity.
Qed.

Lemma wire_at : forall i v, nth_error order i = Some v -> wire v = i.
Proof.
  intros i v H. assert (Hi : (i < length order)%nat) by (apply nth_error_Some; congruence). rewrite order_len in Hi.
  rewrite <- (@wire_node i) by lia. f_equal. unfold node. symmetry. apply nth_error_nth. exact H.
Qed.

Lemma wire_in_order : forall u v, 1 <= v <= c -> u <= c ->
  (sub (v * 2) u -> (wire u < wire v)%nat) /\ (sub (v * 2 + 1) u -> (wire v < wire u)%nat).
Proof.
  intros u v Hv Hu. destruct (order_around Hv) as [pre [post E]]. rewrite (@gi_unfold c fuel v) in E by lia.
  set (l := generate_inorder fuel c (v * 2)) in *. set (r := generate_inorder fuel c (v * 2 + 1)) in *.
  assert (Ev : wire v = (length pre + length l)%nat).
  { apply wire_at. rewrite E. rewrite nth_error_app2 by lia. rewrite <- app_assoc, nth_error_app2 by lia.
    replace (length pre + length l - length pre - length l)%nat with 0%nat by lia. reflexivity. }
  split; intros H.
  - assert (K : In u l) by (apply (@gi_in c fuel (v * 2)); [lia | lia | auto]).
    apply In_nth_error in K as [j Hj]. assert (Lj : (j < length l)%nat) by (apply nth_error_Some; congruence).
    assert (Eu : wire u = (length pre + j)%nat); [|lia]. apply wire_at. rewrite E. rewrite nth_error_app2 by lia.
    rewrite <- app_assoc, nth_error_app1 by lia. replace (length pre + j - length pre)%nat with j by lia. exact Hj.
  - assert (K : In u r) by (apply (@gi_in c fuel (v * 2 + 1)); [lia | lia | auto]).
    apply In_nth_error in K as [j Hj]. assert (Lj : (j < length r)%nat) by (apply nth_error_Some; congruence).
    assert (Eu : wire u = (length pre + length l + 1 + j)%nat); [|lia]. apply wire_at. rewrite E. rewrite nth_error_app2 by lia.
    rewrite <- app_assoc, nth_error_app2 by lia. rewrite <- app_assoc. rewrite nth_error_app2 by (cbn [length]; lia).
    rewrite nth_error_app1 by (cbn [length]; lia).
    replace (length pre + length l + 1 + j - length pre - length l - length [v])%nat with j by (cbn [length]; lia). exact Hj.
Qed.
End Wires.
