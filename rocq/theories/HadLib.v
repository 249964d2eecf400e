(** * HadLib: when the matrix of h is unitary. *)
From Coq Require Import Reals Lra Lia Psatz Permutation.
From Verif Require Import Py Scalar Mat Utils Gates Circuit Spec Complex ComplexSpec RoundSpec HadSpec Lib ComplexLib CNorm.
Set Implicit Arguments.
Local Notation length := List.length.

(** ** Sums *)
Lemma ctotal_perm : forall A (f : A -> C) l l', Permutation l l' -> ctotal f l = ctotal f l'.
Proof.
  intros A f l l' H; induction H; simpl; try congruence. apply C_ext; simpl; ring.
Qed.

Lemma ctotal_reindex : forall (f : nat -> C) (g : nat -> nat) l m, NoDup l -> length l = m ->
  (forall k, In k l -> g k < m) -> (forall k k', In k l -> In k' l -> g k = g k' -> k = k') ->
  ctotal (fun k => f (g k)) l = ctotal f (seq 0 m).
Proof.
  intros f g l m Hn Hl Hg Hi. rewrite <- (ctotal_map g f). apply ctotal_perm.
  apply NoDup_Permutation_bis.
  - clear Hg Hl. induction l as [|x l IH]; simpl; [constructor|]. inversion Hn; subst. constructor.
    + intros H. apply in_map_iff in H as [y [E Hy]]. apply Hi in E; [subst; contradiction | right; exact Hy | left; reflexivity].
    + apply IH; [assumption|]. intros; apply Hi; auto with datatypes.
  - rewrite map_length, seq_length. lia.
  - intros y Hy. apply in_map_iff in Hy as [x [<- Hx]]. apply in_seq. specialize (Hg x Hx). lia.
Qed.

Lemma ctotal_conj : forall A (f : A -> C) l, ctotal (fun x => Cconj (f x)) l = Cconj (ctotal f l).
Proof. intros A f l; induction l as [|x l IH]; simpl; [|rewrite IH]; apply C_ext; simpl; ring. Qed.
Lemma ctotal_mul : forall A B (f : A -> C) (g : B -> C) l l',
  Cmul (ctotal f l) (ctotal g l') = ctotal (fun x => ctotal (fun y => Cmul (f x) (g y)) l') l.
Proof.
  intros A B f g l l'; induction l as [|x l IH]; simpl; [apply C_ext; simpl; ring|].
  rewrite <- IH, ctotal_scal. apply C_ext; simpl; ring.
Qed.
Lemma ctotal_swap : forall A B (f : A -> B -> C) la lb,
  ctotal (fun a => ctotal (f a) lb) la = ctotal (fun b => ctotal (fun a => f a b) la) lb.
Proof.
  intros A B f la lb; induction la as [|a la IH]; simpl.
  - symmetry. apply ctotal_zero. reflexivity.
  - rewrite IH. symmetry. apply ctotal_plus.
Qed.
Lemma ctotal_fst : forall A (f : A -> C) l, fst (ctotal f l) = rtotal (fun x => fst (f x)) l.
Proof. intros A f l; induction l as [|x l IH]; simpl; [reflexivity | rewrite IH; reflexivity]. Qed.
Lemma ctotal_snd : forall A (f : A -> C) l, snd (ctotal f l) = rtotal (fun x => snd (f x)) l.
Proof. intros A f l; induction l as [|x l IH]; simpl; [reflexivity | rewrite IH; reflexivity]. Qed.
Lemma rtotal_perm : forall A (f : A -> R) l l', Permutation l l' -> rtotal f l = rtotal f l'.
Proof. intros A f l l' H; induction H; simpl; try congruence. ring. Qed.

Lemma rtotal_two : forall (g : nat -> R) n a,
  rtotal g (seq a (2 * n)) = rtotal (fun j => (g (a + 2 * j)%nat + g (a + 2 * j + 1)%nat)%R) (seq 0 n).
Proof.
  intros g n a; induction n as [|n IH]; [reflexivity|].
  replace (2 * S n) with (S (S (2 * n))) by lia. rewrite !seq_S, !rtotal_app, IH. cbn [rtotal].
  replace (a + S (2 * n)) with (a + 2 * n + 1) by lia. replace (0 + n) with n by lia. ring.
Qed.

Lemma rtotal_more : forall A (f : A -> R) l a, (INR (length l) * a < rtotal f l)%R -> exists x, In x l /\ (a < f x)%R.
Proof.
  intros A f l a; induction l as [|x l IH]; intros H; [simpl in H; lra|].
  change (length (x :: l)) with (S (length l)) in H. rewrite S_INR in H. simpl in H.
  destruct (Rlt_dec a (f x)) as [Hx|Hx]; [exists x; split; [left; reflexivity | exact Hx]|].
  destruct IH as [y [Hy Ha]]; [lra|]. exists y. split; [right; exact Hy | exact Ha].
Qed.

(** ** A matrix whose first row and column are 1 and whose rest is cyclic *)
Section Cyc.
Variable c : nat -> C.
Variable m : nat.
Hypothesis Hm : 0 < m.

Definition ent (i j : nat) : C := if Nat.eqb i 0 || Nat.eqb j 0 then C1 else c ((i + m - j) mod m).
Definition gram (i j : nat) : C := ctotal (fun k => Cmul (ent i k) (Cconj (ent j k))) (seq 0 (S m)).
Definition cogram (i j : nat) : C := ctotal (fun k => Cmul (Cconj (ent k i)) (ent k j)) (seq 0 (S m)).
Definition corr (s : nat) : C := ctotal (fun t => Cmul (c t) (Cconj (c ((t + s) mod m)))) (seq 0 m).

Lemma mod_inj : forall a b, a mod m = b mod m -> a <= b < a + m -> a = b.
Proof.
  intros a b E H. pose proof (Nat.div_mod_eq a m). pose proof (Nat.div_mod_eq b m).
  assert (a / m = b / m) by nia. nia.
Qed.
Lemma mod_inj2 : forall a b, a mod m = b mod m -> a < b + m -> b < a + m -> a = b.
Proof. intros a b E H1 H2. destruct (Nat.le_gt_cases a b); [|symmetry in E |- *]; apply mod_inj; trivial; lia. Qed.

Lemma cyc_sum : forall (f : nat -> C) a, ctotal (fun k => f ((a + k) mod m)) (seq 0 m) = ctotal f (seq 0 m).
Proof.
  intros f a. apply (ctotal_reindex f (fun k => (a + k) mod m)); [apply seq_NoDup | apply seq_length | |].
  - intros k _. apply Nat.mod_upper_bound. lia.
  - intros k k' Hk Hk' E. apply in_seq in Hk, Hk'. apply mod_inj2 in E; lia.
Qed.

Lemma gram_corr : forall i j, 1 <= i <= m -> 1 <= j <= m -> gram i j = Cadd C1 (corr (j + m - i)).
Proof.
  intros i j Hi Hj. unfold gram. cbn [seq ctotal]. f_equal.
  { unfold ent. rewrite !Bool.orb_true_r. apply C_ext; simpl; ring. }
  unfold corr. rewrite <- (@ctotal_reindex _ (fun k => (i + m - k) mod m) (seq 1 m) m).
  - apply ctotal_ext. intros k Hk. apply in_seq in Hk. unfold ent.
    replace (Nat.eqb i 0) with false by (symmetry; apply Nat.eqb_neq; lia).
    replace (Nat.eqb j 0) with false by (symmetry; apply Nat.eqb_neq; lia).
    replace (Nat.eqb k 0) with false by (symmetry; apply Nat.eqb_neq; lia). cbn [orb]. do 3 f_equal.
    rewrite Nat.add_mod_idemp_l by lia. replace (i + m - k + (j + m - i)) with (j + m - k + 1 * m) by lia.
    rewrite Nat.mod_add by lia. reflexivity.
  - apply seq_NoDup.
  - apply seq_length.
  - intros k _. apply Nat.mod_upper_bound. lia.
  - intros k k' Hk Hk' E. apply in_seq in Hk, Hk'. apply mod_inj2 in E; lia.
Qed.

Lemma cogram_corr : forall i j, 1 <= i <= m -> 1 <= j <= m -> cogram i j = Cadd C1 (corr (j + m - i)).
Proof.
  intros i j Hi Hj. unfold cogram. cbn [seq ctotal]. f_equal.
  { unfold ent. cbn [Nat.eqb orb]. apply C_ext; simpl; ring. }
  unfold corr. rewrite <- (@ctotal_reindex _ (fun k => (k + m - j) mod m) (seq 1 m) m).
  - apply ctotal_ext. intros k Hk. apply in_seq in Hk. unfold ent.
    replace (Nat.eqb i 0) with false by (symmetry; apply Nat.eqb_neq; lia).
    replace (Nat.eqb j 0) with false by (symmetry; apply Nat.eqb_neq; lia).
    replace (Nat.eqb k 0) with false by (symmetry; apply Nat.eqb_neq; lia). cbn [orb].
    rewrite Nat.add_mod_idemp_l by lia. replace (k + m - j + (j + m - i)) with (k + m - i + 1 * m) by lia.
    rewrite Nat.mod_add by lia. apply C_ext; simpl; ring.
  - apply seq_NoDup.
  - apply seq_length.
  - intros k _. apply Nat.mod_upper_bound. lia.
  - intros k k' Hk Hk' E. apply in_seq in Hk, Hk'. apply mod_inj2 in E; lia.
Qed.

Lemma row_sum : forall j, 1 <= j <= m -> gram 0 j = Cconj (Cadd C1 (ctotal c (seq 0 m))).
Proof.
  intros j Hj. unfold gram. cbn [seq ctotal].
  assert (E : ctotal (fun k => Cmul (ent 0 k) (Cconj (ent j k))) (seq 1 m) = Cconj (ctotal c (seq 0 m))).
  { rewrite <- ctotal_conj. rewrite <- (@ctotal_reindex (fun k => Cconj (c k)) (fun k => (j + m - k) mod m) (seq 1 m) m).
    - apply ctotal_ext. intros k Hk. apply in_seq in Hk. unfold ent.
      replace (Nat.eqb j 0) with false by (symmetry; apply Nat.eqb_neq; lia).
      replace (Nat.eqb k 0) with false by (symmetry; apply Nat.eqb_neq; lia). cbn [Nat.eqb orb]. apply C_ext; simpl; ring.
    - apply seq_NoDup.
    - apply seq_length.
    - intros k _. apply Nat.mod_upper_bound. lia.
    - intros k k' Hk Hk' E. apply in_seq in Hk, Hk'. apply mod_inj2 in E; lia. }
  rewrite E. unfold ent. rewrite !Bool.orb_true_r. apply C_ext; simpl; ring.
Qed.
Lemma column_sum : forall j, 1 <= j <= m -> cogram 0 j = Cadd C1 (ctotal c (seq 0 m)).
Proof.
  intros j Hj. unfold cogram. cbn [seq ctotal].
  assert (E : ctotal (fun k => Cmul (Cconj (ent k 0)) (ent k j)) (seq 1 m) = ctotal c (seq 0 m)).
  { rewrite <- (@ctotal_reindex c (fun k => (k + m - j) mod m) (seq 1 m) m).
    - apply ctotal_ext. intros k Hk. apply in_seq in Hk. unfold ent.
      replace (Nat.eqb j 0) with false by (symmetry; apply Nat.eqb_neq; lia).
      replace (Nat.eqb k 0) with false by (symmetry; apply Nat.eqb_neq; lia). cbn [Nat.eqb orb]. apply C_ext; simpl; ring.
    - apply seq_NoDup.
    - apply seq_length.
    - intros k _. apply Nat.mod_upper_bound. lia.
    - intros k k' Hk Hk' E. apply in_seq in Hk, Hk'. apply mod_inj2 in E; lia. }
  rewrite E. unfold ent. cbn [Nat.eqb orb]. apply C_ext; simpl; ring.
Qed.

Lemma gram_sym : forall i j, gram j i = Cconj (gram i j).
Proof. intros i j. unfold gram. rewrite <- ctotal_conj. apply ctotal_ext. intros k _. apply C_ext; simpl; ring. Qed.
Lemma cogram_sym : forall i j, cogram j i = Cconj (cogram i j).
Proof. intros i j. unfold cogram. rewrite <- ctotal_conj. apply ctotal_ext. intros k _. apply C_ext; simpl; ring. Qed.

(** The matrix is normal when the cyclic entries add up to -1. *)
Lemma gram_cogram : ctotal c (seq 0 m) = Copp C1 -> forall i j, i <= m -> j <= m -> cogram i j = gram i j.
Proof.
  intros H. 
  assert (G0 : forall j, 1 <= j <= m -> cogram 0 j = C0 /\ gram 0 j = C0).
  { intros j Hj. rewrite column_sum, row_sum, H by exact Hj. split; apply C_ext; simpl; ring. }
  intros i j Hi Hj. destruct i as [|i]; destruct j as [|j].
  - unfold gram, cogram. apply ctotal_ext. intros k _. unfold ent. rewrite !Bool.orb_true_r. cbn [Nat.eqb orb]. apply C_ext; simpl; ring.
  - destruct (G0 (S j) ltac:(lia)) as [-> ->]. reflexivity.
  - rewrite (cogram_sym 0), (gram_sym 0). destruct (G0 (S i) ltac:(lia)) as [-> ->]. reflexivity.
  - rewrite cogram_corr, gram_corr by lia. reflexivity.
Qed.

(** The squared moduli of the entries of the square of the matrix. *)
Definition twice (i x : nat) : C := ctotal (fun j => Cmul (ent i j) (ent j x)) (seq 0 (S m)).
Lemma twice_total : ctotal c (seq 0 m) = Copp C1 ->
  rtotal (fun x => rtotal (fun i => prob (twice i x)) (seq 0 (S m))) (seq 0 (S m))
  = rtotal (fun j => rtotal (fun l => prob (gram j l)) (seq 0 (S m))) (seq 0 (S m)).
Proof.
  intros H. set (L := seq 0 (S m)).
  assert (P : forall z, prob z = fst (Cmul z (Cconj z))) by (intros z; unfold prob, Cre, Cim; simpl; ring).
  assert (R2 : forall (f : nat -> nat -> C), rtotal (fun a => rtotal (fun b => prob (f a b)) L) L
             = fst (ctotal (fun a => ctotal (fun b => Cmul (f a b) (Cconj (f a b))) L) L)).
  { intros f. rewrite ctotal_fst. apply rtotal_ext. intros a _. rewrite ctotal_fst. apply rtotal_ext. intros b _. apply P. }
  rewrite (R2 (fun x i => twice i x)), (R2 gram). f_equal.
  transitivity (ctotal (fun x => ctotal (fun i => ctotal (fun j => ctotal (fun l =>
     Cmul (Cmul (Cconj (ent i l)) (ent i j)) (Cmul (ent j x) (Cconj (ent l x)))) L) L) L) L).
  { apply ctotal_ext. intros x _. apply ctotal_ext. intros i _. unfold twice. rewrite <- ctotal_conj, ctotal_mul.
    apply ctotal_ext. intros j _. apply ctotal_ext. intros l _. apply C_ext; simpl; ring. }
  transitivity (ctotal (fun j => ctotal (fun l => ctotal (fun x => ctotal (fun i =>
     Cmul (Cmul (Cconj (ent i l)) (ent i j)) (Cmul (ent j x) (Cconj (ent l x)))) L) L) L) L).
  { transitivity (ctotal (fun x => ctotal (fun j => ctotal (fun l => ctotal (fun i =>
     Cmul (Cmul (Cconj (ent i l)) (ent i j)) (Cmul (ent j x) (Cconj (ent l x)))) L) L) L) L).
    - apply ctotal_ext. intros x _. rewrite ctotal_swap. apply ctotal_ext. intros j _. apply ctotal_swap.
    - rewrite ctotal_swap. apply ctotal_ext. intros j _. apply ctotal_swap. }
  apply ctotal_ext. intros j Hj. apply ctotal_ext. intros l Hl. apply in_seq in Hj, Hl.
  rewrite <- (gram_sym j l), <- (gram_cogram H (i := l) (j := j)) by lia.
  unfold cogram, gram. fold L. rewrite ctotal_mul. apply ctotal_ext. intros x _. apply ctotal_ext. intros i _. apply C_ext; simpl; ring.
Qed.
End Cyc.
