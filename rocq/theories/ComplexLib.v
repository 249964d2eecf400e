(** * ComplexLib: facts about the complex scalars. *)
From Coq Require Import Reals Lra Permutation Setoid.
From Verif Require Import Py Scalar Complex ComplexSpec.
Set Implicit Arguments.
Local Open Scope R_scope.

Lemma C_ext : forall x y : C, fst x = fst y -> snd x = snd y -> x = y.
Proof. intros [a b] [c d]; simpl; congruence. Qed.

Lemma Cscalar_ring : ring_theory C0 C1 Cadd Cmul (fun x y => Cadd x (Copp y)) Copp eq.
Proof. constructor; intros; apply C_ext; simpl; ring. Qed.

Lemma Ceqb_eq : forall x y, Ceqb x y = true <-> x = y.
Proof.
  intros [a b] [c d]. unfold Ceqb. simpl.
  destruct (Req_EM_T a c) as [->|H]; [destruct (Req_EM_T b d) as [->|H]|]; split; intros E; try reflexivity; try discriminate.
  - injection E as E. contradiction.
  - injection E as E _. contradiction.
Qed.

Lemma Cclose_refl : forall x, Cclose x x = true.
Proof.
  intros [a b]. unfold Cclose. destruct (Rle_dec _ _) as [|H]; [reflexivity|]. exfalso. apply H.
  unfold Cabs, Cadd, Copp; simpl. replace ((a + - a) * (a + - a) + (b + - b) * (b + - b)) with 0 by ring. rewrite sqrt_0.
  pose proof (sqrt_pos (a * a + b * b)). lra.
Qed.

Lemma Cclose_10 : Cclose C1 C0 = false.
Proof.
  unfold Cclose, Cabs, Cadd, Copp; simpl.
  replace ((1 + - 0) * (1 + - 0) + (0 + - 0) * (0 + - 0)) with 1 by ring.
  replace (0 * 0 + 0 * 0) with 0 by ring. rewrite sqrt_0, sqrt_1. destruct (Rle_dec _ _); [lra | reflexivity].
Qed.

Lemma Cscalar_laws : forall ord, orders ord -> scalar_laws (Cscalar ord).
Proof.
  intros ord H. constructor; simpl.
  - exact Cscalar_ring.
  - exact Ceqb_eq.
  - intros E. injection E as E. lra.
  - apply C_ext; simpl; ring.
  - apply C_ext; simpl; ring.
  - exact Cclose_refl.
  - exact Cclose_10.
  - intros d. rewrite map_length, (Permutation_length (H d)). apply seq_length.
Qed.

(** ** Roots of unity *)
Lemma cis_add : forall a b, cis (a + b) = Cmul (cis a) (cis b).
Proof. intros a b. apply C_ext; simpl; [apply cos_plus | rewrite sin_plus; ring]. Qed.
Lemma cis_0 : cis 0 = C1.
Proof. apply C_ext; simpl; [apply cos_0 | apply sin_0]. Qed.
Lemma cis_2PI : cis (2 * PI) = C1.
Proof. apply C_ext; simpl; [apply cos_2PI | apply sin_2PI]. Qed.
Lemma cis_norm : forall a, Cmul (cis a) (Cconj (cis a)) = C1.
Proof.
  intros a. pose proof (sin2_cos2 a) as H. unfold Rsqr in H. apply C_ext; simpl; [|ring]. rewrite <- H. ring.
Qed.

Lemma cis_pow : forall a n, Cpow (cis a) n = cis (INR n * a).
Proof.
  intros a n; induction n as [|n IH]; cbn [Cpow].
  - simpl. rewrite Rmult_0_l. symmetry; apply cis_0.
  - rewrite IH, <- cis_add, S_INR. f_equal. ring.
Qed.
Lemma cis_period : forall k, cis (2 * PI * INR k) = C1.
Proof. intros k. replace (2 * PI * INR k) with (INR k * (2 * PI)) by ring. rewrite <- cis_pow, cis_2PI.
  induction k as [|k IH]; [reflexivity|]. cbn [Cpow]. rewrite IH. apply C_ext; simpl; ring. Qed.

Lemma root_pow : forall d k, (0 < d)%nat -> Cpow (root d k) d = C1.
Proof.
  intros d k Hd. unfold root. rewrite cis_pow, <- (cis_period k). f_equal. field. apply not_0_INR. lia.
Qed.
Lemma root_0 : forall d, root d 0 = C1.
Proof. intros d. unfold root. simpl INR. replace (2 * PI * 0 / INR d) with 0 by (unfold Rdiv; ring). apply cis_0. Qed.
Lemma root_norm : forall d k, Cmul (root d k) (Cconj (root d k)) = C1.
Proof. intros; apply cis_norm. Qed.
Lemma root_add : forall d j k, root d (j + k) = Cmul (root d j) (root d k).
Proof. intros d j k. unfold root. rewrite <- cis_add, plus_INR. f_equal. unfold Rdiv. ring. Qed.
Lemma root_Cpow : forall d k n, root d (n * k) = Cpow (root d k) n.
Proof. intros d k n; induction n as [|n IH]; [apply root_0|]. simpl. rewrite root_add, IH. reflexivity. Qed.

Lemma cos_lt_1 : forall x, 0 < x < 2 * PI -> cos x < 1.
Proof.
  intros x Hx. replace x with (2 * (x / 2)) by field. rewrite cos_2a_sin.
  assert (0 < sin (x / 2)) by (apply sin_gt_0; lra). nra.
Qed.

Lemma root_inj : forall d j k, (j < d)%nat -> (k < d)%nat -> root d j = root d k -> j = k.
Proof.
  assert (G : forall d j k, (j < k)%nat -> (k < d)%nat -> root d j <> root d k).
  { intros d j k Hjk Hk E. unfold root, cis in E. injection E as E1 E2.
    set (a := 2 * PI * INR j / INR d) in *. set (b := 2 * PI * INR k / INR d) in *.
    assert (Hc : cos (b - a) = 1).
    { rewrite cos_minus, <- E1, <- E2. pose proof (sin2_cos2 a) as H. unfold Rsqr in H. lra. }
    assert (Hd : 0 < INR d) by (apply lt_0_INR; lia).
    assert (Hb : b - a = 2 * PI * (INR (k - j) / INR d)).
    { unfold a, b. rewrite minus_INR by lia. field. lra. }
    pose proof PI_RGT_0 as HP.
    assert (Hkj : 0 < INR (k - j) / INR d < 1).
    { assert (0 < INR (k - j)) by (apply lt_0_INR; lia). assert (INR (k - j) < INR d) by (apply lt_INR; lia).
      split; [apply Rdiv_lt_0_compat; lra|]. apply Rmult_lt_reg_r with (INR d); [lra|]. unfold Rdiv.
      rewrite Rmult_assoc, Rinv_l by lra. lra. }
    assert (cos (b - a) < 1); [|lra]. apply cos_lt_1. rewrite Hb. nra. }
  intros d j k Hj Hk E. destruct (Nat.lt_trichotomy j k) as [H|[H|H]]; [|exact H|].
  - exfalso. apply (@G d j k H Hk E).
  - exfalso. apply (@G d k j H Hj). symmetry; exact E.
Qed.

Lemma root_neq_1 : forall d k, (0 < k < d)%nat -> root d k <> C1.
Proof. intros d k Hk E. rewrite <- (root_0 d) in E. apply root_inj in E; lia. Qed.

Lemma Cmul_eq_0 : forall x y, Cmul x y = C0 -> x = C0 \/ y = C0.
Proof.
  intros [a b] [c d] E. unfold Cmul, C0 in E. simpl in E. injection E as E1 E2.
  assert (H : (a * a + b * b) * (c * c + d * d) = 0).
  { replace ((a * a + b * b) * (c * c + d * d)) with ((a * c - b * d) * (a * c - b * d) + (a * d + b * c) * (a * d + b * c)) by ring.
    rewrite E1, E2. ring. }
  apply Rmult_integral in H. destruct H as [H|H]; [left|right]; apply C_ext; simpl; nra.
Qed.

Fixpoint Csum (l : list C) : C := match l with [] => C0 | x :: l' => Cadd x (Csum l') end.
Lemma Csum_perm : forall l l', Permutation l l' -> Csum l = Csum l'.
Proof.
  intros l l' H; induction H; simpl; try congruence. apply C_ext; simpl; ring.
Qed.
Lemma Csum_app : forall l l', Csum (l ++ l') = Cadd (Csum l) (Csum l').
Proof. intros l l'; induction l as [|x l IH]; simpl; [apply C_ext; simpl; ring | rewrite IH; apply C_ext; simpl; ring]. Qed.

Lemma roots_sum : forall d, (2 <= d)%nat -> Csum (map (root d) (seq 0 d)) = C0.
Proof.
  intros d Hd.
  assert (G : forall n, Cmul (Cadd (root d 1) (Copp C1)) (Csum (map (root d) (seq 0 n))) = Cadd (root d n) (Copp C1)).
  { induction n as [|n IH].
    - rewrite root_0. apply C_ext; simpl; ring.
    - rewrite seq_S, map_app, Csum_app. simpl plus. simpl map. simpl Csum.
      replace (S n) with (n + 1)%nat by lia. rewrite root_add.
      replace (Cmul (Cadd (root d 1) (Copp C1)) (Cadd (Csum (map (root d) (seq 0 n))) (Cadd (root d n) C0)))
        with (Cadd (Cmul (Cadd (root d 1) (Copp C1)) (Csum (map (root d) (seq 0 n)))) (Cmul (Cadd (root d 1) (Copp C1)) (root d n)))
        by (apply C_ext; simpl; ring).
      rewrite IH. apply C_ext; simpl; ring. }
  specialize (G d). replace (root d d) with C1 in G.
  - replace (Cadd C1 (Copp C1)) with C0 in G by (apply C_ext; simpl; ring). apply Cmul_eq_0 in G as [G|G]; [|exact G].
    exfalso. apply (@root_neq_1 d 1); [lia|]. replace (root d 1) with (Cadd (Cadd (root d 1) (Copp C1)) C1) by (apply C_ext; simpl; ring).
    rewrite G. apply C_ext; simpl; ring.
  - unfold root. rewrite <- (cis_period 1). f_equal. simpl INR. field. apply not_0_INR. lia.
Qed.
