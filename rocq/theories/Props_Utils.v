(** * Props_Utils: the functions of utils/linalg.py and utils/numpy.py (C84). *)
From Verif Require Import Py Utils Spec Lib GateMat GateTof Convert Props_Construct.

(** ** C84 *)

(** [clip(l, a, b)] is the part of [l] from position [a] to position [b], both
    included. *)
Theorem C84_clip_is_a_closed_range : forall A (l : list A) a b, a <= b < length l ->
  length (clip l (Z.of_nat a) (Z.of_nat b)) = b - a + 1 /\
  forall i d, i <= b - a -> nth i (clip l (Z.of_nat a) (Z.of_nat b)) d = nth (a + i) l d.
Proof.
  intros A l a b H. unfold clip, py_slice, py_clip.
  replace (Z.of_nat b + 1 <? 0)%Z with false by (symmetry; apply Z.ltb_ge; lia).
  replace (Z.of_nat a <? 0)%Z with false by (symmetry; apply Z.ltb_ge; lia).
  rewrite !Nat.min_l by lia. rewrite firstn_length, skipn_length. split; [lia|].
  intros i d Hi. rewrite nth_firstn', nth_skipn' by lia. f_equal. lia.
Qed.

(** The last position written as -1 gives nothing, not the end of the list. *)
Theorem C84_clip_to_minus_one_is_empty : forall A (l : list A) a, clip l a (-1) = [].
Proof. intros A l a. unfold clip, py_slice, py_clip. simpl. reflexivity. Qed.

(** A negative first position counts from the end, and means the whole front if
    it is beyond the first element. *)
Theorem C84_clip_from_the_end : forall A (l : list A) k b, 0 < k ->
  clip l (- Z.of_nat k) (Z.of_nat b) = clip l (Z.of_nat (length l - k)) (Z.of_nat b).
Proof.
  intros A l k b Hk. unfold clip, py_slice, py_clip.
  replace (- Z.of_nat k <? 0)%Z with true by (symmetry; apply Z.ltb_lt; lia).
  replace (Z.of_nat (length l - k) <? 0)%Z with false by (symmetry; apply Z.ltb_ge; lia).
  replace (Z.to_nat (Z.max 0 (- Z.of_nat k + Z.of_nat (length l)))) with (Nat.min (Z.to_nat (Z.of_nat (length l - k))) (length l)) by lia.
  reflexivity.
Qed.

(** Row [r] of the truth table holds the digits of [r] in the mixed base. *)
Theorem C84_truth_table : forall qreg, qreg <> [] ->
  length (ttg qreg) = fold_right Nat.mul 1 qreg /\
  forall r row, nth_error (ttg qreg) r = Some row -> length row = length qreg /\
    forall j, j < length qreg -> nth j row 0 = (r / fold_right Nat.mul 1 (skipn (j + 1) qreg)) mod nth j qreg 0.
Proof.
  intros qreg Hne. rewrite (ttg_all_configs Hne). split; [apply all_configs_length|].
  intros r row Hr. assert (L : r < prodn qreg) by (rewrite <- all_configs_length; apply nth_error_Some; unfold config in *; rewrite Hr; discriminate).
  assert (E : row = unlin qreg r) by (unfold unlin; symmetry; apply nth_error_nth; exact Hr). subst row.
  pose proof (unlin_valid _ L) as V. split; [exact (valid_length V)|].
  intros j Hj. change (nth j (unlin qreg r) 0) with (level (unlin qreg r) j). rewrite (level_lin V Hj), (lin_unlin _ L).
  rewrite Nat.add_1_r. reflexivity.
Qed.

(** The label of row [r] has index [r], for both index functions. *)
Theorem C84_rows_have_their_index : forall qreg r row, qreg <> [] -> nth_error (ttg qreg) r = Some row ->
  get_index (ttg qreg) row = Some r /\
  ((product (map Z.of_nat qreg) <= 2 ^ 63)%Z -> bin_to_Nbase (map Z.of_nat row) (map Z.of_nat qreg) = Ok (Z.of_nat r)).
Proof.
  intros qreg r row Hne Hr. rewrite (ttg_all_configs Hne) in *.
  assert (L : r < prodn qreg) by (rewrite <- all_configs_length; apply nth_error_Some; unfold config in *; rewrite Hr; discriminate).
  assert (E : row = unlin qreg r) by (unfold unlin; symmetry; apply nth_error_nth; exact Hr). subst row.
  pose proof (unlin_valid _ L) as V. rewrite (get_index_configs V), (lin_unlin _ L). split; [reflexivity|]. intros Hb.
  rewrite bin_to_Nbase_exact by (rewrite !map_length; exact (valid_length V)); rewrite value_lin, (lin_unlin _ L). f_equal. apply wrap_small.
  rewrite product_zprod, zprod_nat in Hb. lia.
Qed.

(** In any table of rows, [get_index] is the first row equal to the target; None
    if there is none. *)
Theorem C84_get_index_is_the_first_match : forall src trgt,
  (forall i, get_index src trgt = Some i <->
     nth_error src i = Some trgt /\ forall j, j < i -> nth_error src j <> Some trgt) /\
  (get_index src trgt = None <-> ~ In trgt src).
Proof.
  intros src trgt. assert (G : forall k, match get_index_from k src trgt with
    | Some i => exists i', i = k + i' /\ nth_error src i' = Some trgt /\ forall j, j < i' -> nth_error src j <> Some trgt
    | None => ~ In trgt src end).
  { induction src as [|v vs IH]; intros k; cbn [get_index_from]; [intros []|].
    destruct (list_eqb Nat.eqb v trgt) eqn:E.
    - apply list_eqb_nat in E. subst. exists 0. split; [lia|]. split; [reflexivity | intros j Hj; lia].
    - assert (N : v <> trgt) by (intros ->; rewrite (proj2 (list_eqb_nat trgt trgt) eq_refl) in E; discriminate).
      specialize (IH (Datatypes.S k)). destruct (get_index_from (Datatypes.S k) vs trgt) as [i|].
      + destruct IH as [i' [-> [H1 H2]]]. exists (Datatypes.S i'). split; [lia|]. split; [exact H1|].
        intros [|j] Hj; cbn [nth_error]; [congruence | apply H2; lia].
      + intros [H|H]; [exact (N H) | exact (IH H)]. }
  specialize (G 0). unfold get_index. destruct (get_index_from 0 src trgt) as [i0|].
  - destruct G as [i' [-> [H1 H2]]]. cbn [Nat.add]. split.
    + intros i. split.
      * intros H. injection H as <-. auto.
      * intros [H3 H4]. f_equal. destruct (Nat.lt_trichotomy i' i) as [H|[H|H]]; [destruct (H4 _ H H1) | exact H | destruct (H2 _ H H3)].
    + split; [discriminate|]. intros H. destruct H. apply nth_error_In in H1. exact H1.
  - split; [|split; auto]. intros i. split; [discriminate|]. intros [H _]. destruct G. apply nth_error_In in H. exact H.
Qed.

Example ex_C84 : clip [2; 3; 4; 5] 1 2 = [3; 4] /\ clip [2; 3; 4; 5] 2 (-1) = [] /\ clip [2; 3; 4; 5] (-3) 2 = [3; 4] /\
  nth_error (ttg [2; 3; 4]) 14 = Some [1; 0; 2] /\ (product (map Z.of_nat [2; 3; 4]%nat) <= 2 ^ 63)%Z /\
  get_index [[0; 1]; [1; 1]; [1; 1]] [1; 1] = Some 1 /\ get_index [[0; 1]] [1; 1] = None.
Proof. repeat split; vm_compute; try reflexivity. discriminate. Qed.

Print Assumptions C84_clip_is_a_closed_range.
Print Assumptions C84_clip_to_minus_one_is_empty.
Print Assumptions C84_clip_from_the_end.
Print Assumptions C84_truth_table.
Print Assumptions C84_rows_have_their_index.
Print Assumptions C84_get_index_is_the_first_match.
