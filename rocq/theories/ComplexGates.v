(** * ComplexGates: the H and Z gates over the complex numbers. *)
From Coq Require Import Reals Lra Lia Permutation.
From Verif Require Import Py Scalar Mat Utils Gates Circuit Spec Calls Complex ComplexSpec ComplexLib Lib Kern GateMat Layers Refine Local Unitary.
Set Implicit Arguments.

Section CG.
Variable ord : nat -> list nat.
Hypothesis Hord : orders ord.
Let CS := Cscalar ord.
Let LC : scalar_laws CS := Cscalar_laws Hord.
Local Open Scope R_scope.

Lemma Cconj_add : forall x y : CS, sconj (sadd x y) = sadd (sconj x) (sconj y).
Proof. intros x y. apply C_ext; simpl; ring. Qed.
Lemma Cconj_mul : forall x y : CS, sconj (smul x y) = smul (sconj x) (sconj y).
Proof. intros x y. apply C_ext; simpl; ring. Qed.

Lemma bsum_Csum : forall A (f : A -> CS) l, bsum f l = Csum (map f l).
Proof. intros A f l; induction l as [|x l IH]; simpl; [reflexivity|]. rewrite IH. reflexivity. Qed.

Lemma ones_INR : forall d, ones CS d = (INR d, 0).
Proof.
  intros d. unfold ones. generalize 0%nat as k. induction d as [|d IH]; intros k; simpl bsum; [reflexivity|].
  rewrite IH, S_INR. apply C_ext; simpl; ring.
Qed.

Lemma scale_sq : forall d, (0 < d)%nat -> smul (s := CS) (sisqrt d) (sisqrt d) = (/ INR d, 0).
Proof.
  intros d Hd. assert (0 < INR d) by (apply lt_0_INR; exact Hd).
  apply C_ext; simpl; [|ring]. replace (/ sqrt (INR d) * / sqrt (INR d) - 0 * 0) with (/ (sqrt (INR d) * sqrt (INR d))).
  - rewrite sqrt_sqrt by lra. reflexivity.
  - field. apply Rgt_not_eq, sqrt_lt_R0. assumption.
Qed.

Lemma scale_neq0 : forall d, (0 < d)%nat -> (sisqrt d : CS) <> s0.
Proof.
  intros d Hd E. assert (0 < INR d) by (apply lt_0_INR; exact Hd). injection E as E.
  apply (Rinv_neq_0_compat (sqrt (INR d))); [apply Rgt_not_eq, sqrt_lt_R0; assumption | exact E].
Qed.

Lemma ord_length : forall d, length (ord d) = d.
Proof. intros d. rewrite (Permutation_length (Hord d)). apply seq_length. Qed.

Lemma map_nth_seq : forall A (l : list A) x, map (fun i => nth i l x) (seq 0 (length l)) = l.
Proof.
  intros A l x; induction l as [|y l IH]; [reflexivity|]. simpl. f_equal. rewrite <- seq_shift, map_map. exact IH.
Qed.

Lemma cfourier : forall d, (2 <= d)%nat -> one_last ord d -> fourier CS d.
Proof.
  intros d Hd [l Hl]. constructor.
  - rewrite scale_sq, ones_INR by lia. assert (0 < INR d) by (apply lt_0_INR; lia). apply C_ext; simpl; field; lra.
  - rewrite bsum_Csum. cbn [sroots CS Cscalar]. unfold CS, Cscalar. cbn [sroots]. rewrite Hl, map_app.
    assert (Ll : length l = (d - 1)%nat) by (pose proof (ord_length d) as E; rewrite Hl, app_length in E; simpl in E; lia).
    rewrite map_ext_in with (g := fun i => nth i (map (root d) l) C0).
    + rewrite <- Ll, <- (map_length (root d) l), map_nth_seq.
      pose proof (roots_sum Hd) as E. rewrite (Csum_perm (Permutation_map (root d) (Permutation_sym (Hord d)))) in E.
      rewrite Hl, map_app, Csum_app in E. simpl in E. rewrite root_0 in E.
      apply C_ext; [apply (f_equal fst) in E | apply (f_equal snd) in E]; simpl in *; lra.
    + intros i Hi. apply in_seq in Hi. rewrite app_nth1; [reflexivity | rewrite map_length; lia].
Qed.

(** ** Small dimensions *)
Lemma root_2_1 : root 2 1 = (-1, 0).
Proof. unfold root, cis. replace (2 * PI * INR 1 / INR 2) with PI by (simpl; field). rewrite cos_PI, sin_PI. reflexivity. Qed.
Lemma root_3_1 : root 3 1 = (-1 / 2, sqrt 3 / 2).
Proof.
  unfold root, cis. replace (2 * PI * INR 1 / INR 3) with (2 * (PI / 3)) by (simpl; field).
  rewrite cos_2PI3, sin_2PI3. reflexivity.
Qed.
Lemma root_3_2 : root 3 2 = (-1 / 2, - (sqrt 3 / 2)).
Proof.
  change (root 3 2) with (root 3 (1 + 1)). rewrite root_add, root_3_1. pose proof (sqrt_sqrt 3 ltac:(lra)) as E.
  apply C_ext; simpl; lra.
Qed.
Lemma root_4_1 : root 4 1 = (0, 1).
Proof.
  unfold root, cis. replace (2 * PI * INR 1 / INR 4) with (PI / 2) by (simpl; field). rewrite cos_PI2, sin_PI2. reflexivity.
Qed.
Lemma root_4_2 : root 4 2 = (-1, 0).
Proof. change (root 4 2) with (root 4 (1 + 1)). rewrite root_add, root_4_1. apply C_ext; simpl; ring. Qed.
Lemma root_4_3 : root 4 3 = (0, -1).
Proof. change (root 4 3) with (root 4 (2 + 1)). rewrite root_add, root_4_1, root_4_2. apply C_ext; simpl; ring. Qed.

Lemma ord_elems : forall d, NoDup (ord d) /\ forall k, In k (ord d) -> (k < d)%nat.
Proof.
  intros d. split; [apply (Permutation_NoDup (Permutation_sym (Hord d))), seq_NoDup|].
  intros k Hk. apply (Permutation_in _ (Hord d)) in Hk. apply in_seq in Hk. lia.
Qed.

Lemma ord_2 : one_last ord 2 -> ord 2 = [1; 0]%nat.
Proof.
  intros [l Hl]. pose proof (ord_length 2) as E. destruct (ord_elems 2) as [HN Hk]. rewrite Hl in *.
  rewrite app_length in E. simpl in E. destruct l as [|a [|b l]]; simpl in *; try lia.
  assert (Ha := Hk a (or_introl eq_refl)). apply NoDup_cons_iff in HN as [HN _]. simpl in HN.
  destruct a as [|[|a]]; [exfalso; apply HN; left; reflexivity | reflexivity | lia].
Qed.
Lemma ord_3 : one_last ord 3 -> ord 3 = [1; 2; 0]%nat \/ ord 3 = [2; 1; 0]%nat.
Proof.
  intros [l Hl]. pose proof (ord_length 3) as E. destruct (ord_elems 3) as [HN Hk]. rewrite Hl in *.
  rewrite app_length in E. simpl in E. destruct l as [|a [|b [|c l]]]; simpl in *; try lia.
  assert (Ha := Hk a (or_introl eq_refl)). assert (Hb := Hk b (or_intror (or_introl eq_refl))).
  apply NoDup_cons_iff in HN as [HN HN']. apply NoDup_cons_iff in HN' as [HN' _]. simpl in HN, HN'.
  destruct a as [|[|[|a]]]; try lia; destruct b as [|[|[|b]]]; try lia; auto; exfalso; auto.
Qed.

(** In dimension 2 and 3 the matrix is the discrete Fourier matrix of a
    primitive root. *)
Lemma had_fourier : forall d, d = 2%nat \/ d = 3%nat -> one_last ord d ->
  exists k, (k = 1 \/ k = d - 1)%nat /\
  forall i j, (i < d)%nat -> (j < d)%nat -> had CS d i j = Cmul (/ sqrt (INR d), 0) (Cpow (root d k) (i * j)).
Proof.
  intros d [->| ->] H.
  - exists 1%nat. split; [auto|]. intros i j Hi Hj. unfold had, CS, Cscalar. cbn [sroots sisqrt smul s1 s0]. rewrite (ord_2 H).
    f_equal. destruct i as [|[|i]]; try lia; destruct j as [|[|j]]; try lia; simpl; try reflexivity.
    rewrite root_2_1. apply C_ext; simpl; ring.
  - assert (P : forall k, Cpow (root 3 k) 4 = root 3 k).
    { intros k. change (Cpow (root 3 k) 4) with (Cmul (root 3 k) (Cpow (root 3 k) 3)). rewrite root_pow by lia. apply C_ext; simpl; ring. }
    assert (P1 : forall z, Cpow z 1 = z) by (intros z; apply C_ext; simpl; ring).
    assert (P2 : Cpow (root 3 1) 2 = root 3 2 /\ Cpow (root 3 2) 2 = root 3 1).
    { rewrite root_3_1, root_3_2. pose proof (sqrt_sqrt 3 ltac:(lra)) as Es. split; apply C_ext; simpl; lra. }
    destruct P2 as [P2 P2'].
    destruct (ord_3 H) as [E|E]; [exists 1%nat | exists 2%nat]; (split; [auto|]); intros i j Hi Hj;
      unfold had, CS, Cscalar; cbn [sroots sisqrt smul s1 s0]; rewrite E; f_equal;
      (destruct i as [|[|[|i]]]; try lia; destruct j as [|[|[|j]]]; try lia;
       cbn [Nat.eqb orb Nat.mul Nat.add Nat.sub Nat.modulo Nat.divmod snd fst map nth];
       rewrite ?P, ?P1, ?P2, ?P2'; reflexivity).
Qed.

(** Columns and rows are orthonormal. *)
Lemma had_unitary : forall d, d = 2%nat \/ d = 3%nat -> one_last ord d ->
  forall i j, (i < d)%nat -> (j < d)%nat ->
  bsum (fun k => smul (s := CS) (sconj (had CS d k i)) (had CS d k j)) (seq 0 d) = (if Nat.eqb i j then s1 else s0) /\
  bsum (fun k => smul (s := CS) (had CS d i k) (sconj (had CS d j k))) (seq 0 d) = (if Nat.eqb i j then s1 else s0).
Proof.
  intros d Hd H i j Hi Hj.
  set (e := fun i j => if Nat.eqb i 0 || Nat.eqb j 0 then C1 else nth ((i + (d - 1) - j) mod (d - 1)) (map (root d) (ord d)) C0).
  assert (G : forall f g : nat -> C, 
    (forall k, (k < d)%nat -> f k = Cmul (/ INR d, 0) (g k)) ->
    bsum (S := CS) f (seq 0 d) = Cmul (/ INR d, 0) (bsum (S := CS) g (seq 0 d))).
  { intros f g Hf. rewrite <- (bsum_mul_l LC). apply bsum_ext. intros k Hk. apply in_seq in Hk. apply Hf. lia. }
  assert (W : bsum (S := CS) (fun k => Cmul (Cconj (e k i)) (e k j)) (seq 0 d) = (if Nat.eqb i j then (INR d, 0) else C0) /\
              bsum (S := CS) (fun k => Cmul (e i k) (Cconj (e j k))) (seq 0 d) = (if Nat.eqb i j then (INR d, 0) else C0)).
  { pose proof (sqrt_sqrt 3 ltac:(lra)) as Es. subst e. clear G. destruct Hd as [->| ->].
    - rewrite (ord_2 H). cbn [map]. rewrite root_2_1, root_0.
      destruct i as [|[|i]]; try lia; destruct j as [|[|j]]; try lia; split; apply C_ext; simpl; lra.
    - destruct (ord_3 H) as [E|E]; rewrite E; cbn [map]; rewrite root_3_1, root_3_2, root_0;
        (destruct i as [|[|[|i]]]; try lia; destruct j as [|[|[|j]]]; try lia; split; apply C_ext; simpl; lra). }
  assert (Hp : 0 < INR d) by (apply lt_0_INR; lia). destruct W as [W1 W2]. split.
  - rewrite (G _ (fun k => Cmul (Cconj (e k i)) (e k j))), W1.
    + destruct (Nat.eqb i j); apply C_ext; simpl; field; lra.
    + intros k Hk. rewrite <- scale_sq by lia.
      change (had CS d k i) with (Cmul (sisqrt (s := CS) d) (e k i)). change (had CS d k j) with (Cmul (sisqrt (s := CS) d) (e k j)).
      generalize (e k i), (e k j). intros u v. apply C_ext; simpl; ring.
  - rewrite (G _ (fun k => Cmul (e i k) (Cconj (e j k)))), W2.
    + destruct (Nat.eqb i j); apply C_ext; simpl; field; lra.
    + intros k Hk. rewrite <- scale_sq by lia.
      change (had CS d i k) with (Cmul (sisqrt (s := CS) d) (e i k)). change (had CS d j k) with (Cmul (sisqrt (s := CS) d) (e j k)).
      generalize (e i k), (e j k). intros u v. apply C_ext; simpl; ring.
Qed.

(** ** Dimension 4 *)
Lemma ord_4 : exists a b c e, ord 4 = [a; b; c; e] /\ (a < 4 /\ b < 4 /\ c < 4 /\ e < 4)%nat /\
  (a <> b /\ a <> c /\ a <> e /\ b <> c /\ b <> e /\ c <> e)%nat.
Proof.
  pose proof (ord_length 4) as E. destruct (ord_elems 4) as [HN Hk].
  destruct (ord 4) as [|a [|b [|c [|e [|]]]]]; simpl in E; try lia. exists a, b, c, e. split; [reflexivity|].
  split; [repeat split; apply Hk; simpl; auto|].
  apply NoDup_cons_iff in HN as [N1 HN]. apply NoDup_cons_iff in HN as [N2 HN]. apply NoDup_cons_iff in HN as [N3 HN].
  simpl in *. repeat split; intros ->; tauto.
Qed.

(** Two rows of the matrix, and what two applications do to a level. *)
Lemma had_4 :
  (exists i j, (i < 4 /\ j < 4 /\ i <> j)%nat /\
     bsum (fun k => smul (s := CS) (had CS 4 i k) (sconj (had CS 4 j k))) (seq 0 4) <> C0) /\
  (exists x, (x < 4)%nat /\
     fold_right Rplus 0 (map (fun i => prob (bsum (fun j => smul (s := CS) (had CS 4 i j) (had CS 4 j x)) (seq 0 4))) (seq 0 4)) <> 1).
Proof.
  destruct ord_4 as [a [b [c [e [E [B N]]]]]].
  set (q := sisqrt (s := CS) 4).
  assert (Hq : q = (/ 2, 0)).
  { apply C_ext; simpl; [|reflexivity]. f_equal. replace (1 + 1 + 1 + 1) with (2 * 2) by ring. apply sqrt_square. lra. }
  set (h := fun i j => Cmul q (if Nat.eqb i 0 || Nat.eqb j 0 then C1 else nth ((i + (4 - 1) - j) mod (4 - 1)) (map (root 4) (ord 4)) C0)).
  change (had CS 4) with h. subst h. rewrite Hq, E. cbn [map]. clear Hq q E.
  destruct e as [|e].
  - split; [exists 1%nat, 2%nat; split; [lia|] | exists 1%nat; split; [lia|]];
    destruct a as [|[|[|[|a]]]]; try lia; destruct b as [|[|[|[|b]]]]; try lia; destruct c as [|[|[|[|c]]]]; try lia;
    rewrite ?root_4_1, ?root_4_2, ?root_4_3, ?root_0; unfold prob; intros E;
    first [apply (f_equal snd) in E | idtac]; simpl in E; lra.
  - split; [exists 0%nat, 1%nat; split; [lia|] | exists 0%nat; split; [lia|]];
    destruct e as [|[|[|e]]]; try lia;
    destruct a as [|[|[|[|a]]]]; try lia; destruct b as [|[|[|[|b]]]]; try lia; destruct c as [|[|[|[|c]]]]; try lia;
    rewrite ?root_4_1, ?root_4_2, ?root_4_3, ?root_0; unfold prob; intros E;
    first [apply (f_equal (fun z => fst z)) in E | idtac]; simpl in E; lra.
Qed.
End CG.
