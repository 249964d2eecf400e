(** * Props_Nodes: the three kinds of nodes of the tree decomposition (C94). *)
From Verif Require Import Py Tree.
Local Notation length := List.length.
Open Scope Z_scope.

(** The tree of Circuit(n) has the nodes 1, ..., n - 1; node v has the
    children 2v and 2v + 1 as far as they are nodes. *)
Definition node (n v : Z) : Prop := 1 <= v <= n - 1.
Definition child (n v w : Z) : Prop := node n w /\ (w = 2 * v \/ w = 2 * v + 1).
Definition has_grandchild (n v : Z) : Prop := exists w x, child n v w /\ child n w x.

Lemma grandchild_iff : forall n v, node n v -> (has_grandchild n v <-> 4 * v <= n - 1).
Proof.
  intros n v Hv. unfold has_grandchild, child, node in *. split.
  - intros [w [x [[Hw1 Hw2] [Hx1 Hx2]]]]. lia.
  - intros H. exists (2 * v), (4 * v). repeat split; lia.
Qed.

(** ** C94 *)
Theorem C94_nodes_are_told_apart_by_their_grandchildren :
  forall flog fuel n t v, mk_tree flog fuel n = Ok t -> node n v ->
  (check_id t v = true <-> ~ has_grandchild n v) /\
  (check_gpll t v = true <-> has_grandchild n v /\ ~ has_grandchild n (v + 1)) /\
  (check_sd t v = true <-> has_grandchild n v /\ has_grandchild n (v + 1)).
Proof.
  intros flog fuel n t v Ht Hv. unfold mk_tree in Ht. destruct (Z.leb_spec (n - 1) 0) as [|Hc]; [discriminate|].
  injection Ht as <-. unfold check_id, check_gpll, check_sd. cbn [t_gpll].
  pose proof (Z.div_mod (n - 1) 4 ltac:(lia)) as D. pose proof (Z.mod_pos_bound (n - 1) 4 ltac:(lia)) as M.
  rewrite Z.gtb_lt, Z.eqb_eq, Z.ltb_lt.
  rewrite (grandchild_iff n v Hv).
  destruct (Z_le_dec (v + 1) (n - 1)) as [Hv1|Hv1].
  - rewrite (grandchild_iff n (v + 1)) by (unfold node in *; lia). lia.
  - assert (N : ~ has_grandchild n (v + 1)).
    { intros [w [x [[[W1 W2] W3] [[X1 X2] X3]]]]. unfold node in *. lia. }
    unfold node in *. split; [lia|]. split; split; intros H.
    + split; [lia | exact N].
    + lia.
    + lia.
    + destruct H as [_ H]. contradiction.
Qed.

(** The right child of the last node with grandchildren has a child. *)
Theorem C94_right_grandchild :
  forall flog fuel n t g, mk_tree flog fuel n = Ok t -> node n g -> check_gpll t g = true ->
  (gpll_has_right_grandchild t = true <-> exists x, child n (2 * g + 1) x).
Proof.
  intros flog fuel n t g Ht Hg Hc. unfold mk_tree in Ht. destruct (Z.leb_spec (n - 1) 0) as [|Hn]; [discriminate|].
  injection Ht as <-. unfold check_gpll, gpll_has_right_grandchild in *. cbn [t_gpll t_c] in *. apply Z.eqb_eq in Hc.
  rewrite Z.eqb_eq.
  pose proof (Z.div_mod (n - 1) 4 ltac:(lia)) as D. pose proof (Z.mod_pos_bound (n - 1) 4 ltac:(lia)) as M.
  pose proof (Z.div_mod (n - 1) 2 ltac:(lia)) as D2. pose proof (Z.mod_pos_bound (n - 1) 2 ltac:(lia)) as M2.
  unfold child, node in *. split.
  - intros H. exists (2 * (2 * g + 1)). lia.
  - intros [x [Hx1 Hx2]]. lia.
Qed.

(** Eleven nodes: 3 and above have no grandchildren, 2 is the last that has,
    and its right child 5 has the children 10 and 11. *)
Example ex_C94 : exists t, mk_tree (fun c => Z.log2 c) 100 12 = Ok t /\
  map (check_id t) [1; 2; 3; 11] = [false; false; true; true] /\
  map (check_gpll t) [1; 2; 3] = [false; true; false] /\ map (check_sd t) [1; 2; 3] = [true; false; false] /\
  gpll_has_right_grandchild t = true /\ node 12 2 /\ child 12 5 10 /\ has_grandchild 12 2 /\ ~ has_grandchild 12 3.
Proof.
  eexists. split; [vm_compute; reflexivity|]. repeat (split; [vm_compute; reflexivity|]).
  split; [unfold node; lia|]. split; [unfold child, node; lia|].
  rewrite !grandchild_iff by (unfold node; lia). lia.
Qed.

Print Assumptions C94_nodes_are_told_apart_by_their_grandchildren.
Print Assumptions C94_right_grandchild.
