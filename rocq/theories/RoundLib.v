(** * RoundLib: errors through Kronecker products and products of matrices. *)
From Coq Require Import Reals Lra Psatz.
From Verif Require Import Py Scalar Mat Utils Gates Circuit Spec Calls Complex ComplexSpec RoundSpec Lib Kern ComplexLib Bits CNorm.
Set Implicit Arguments.
Local Open Scope R_scope.

(** ** Index arithmetic *)
Lemma rtotal_seq_mul : forall (f : nat -> R) n m,
  rtotal f (seq 0 (n * m)) = rtotal (fun p => rtotal (fun q => f (p * m + q)%nat) (seq 0 m)) (seq 0 n).
Proof.
  intros f n m. rewrite seq_mul, rtotal_flat_map. apply rtotal_ext. intros p _. apply rtotal_map.
Qed.
Lemma ctotal_seq_mul : forall (f : nat -> C) n m,
  ctotal f (seq 0 (n * m)) = ctotal (fun p => ctotal (fun q => f (p * m + q)%nat) (seq 0 m)) (seq 0 n).
Proof.
  intros f n m. rewrite seq_mul, ctotal_flat_map. apply ctotal_ext. intros p _. apply ctotal_map.
Qed.
Lemma divmod_pair : forall p q m, (q < m)%nat -> ((p * m + q) / m = p)%nat /\ ((p * m + q) mod m = q)%nat.
Proof.
  intros p q m H. split.
  - rewrite Nat.div_add_l, Nat.div_small by lia. lia.
  - rewrite Nat.add_comm, Nat.mod_add, Nat.mod_small by lia. reflexivity.
Qed.

(** ** Vectors times matrices *)
Definition vm (r : nat) (x : nat -> C) (m : nat -> nat -> C) (j : nat) : C := ctotal (fun i => Cmul (x i) (m i j)) (seq 0 r).
Definition vlen (n : nat) (x : nat -> C) : R := rtotal (fun i => Cabs (x i) ^ 2) (seq 0 n).
Definition rgain (r c : nat) (m : nat -> nat -> C) (k : R) : Prop :=
  0 <= k /\ forall x, vlen c (vm r x m) <= k ^ 2 * vlen r x.

Lemma vlen_ext : forall n x y, (forall i, (i < n)%nat -> x i = y i) -> vlen n x = vlen n y.
Proof. intros n x y H. apply rtotal_ext. intros i Hi. apply in_seq in Hi. rewrite H by lia. reflexivity. Qed.
Lemma vm_ext : forall r x m m' j, (forall i, (i < r)%nat -> m i j = m' i j) -> vm r x m j = vm r x m' j.
Proof. intros r x m m' j H. apply ctotal_ext. intros i Hi. apply in_seq in Hi. rewrite H by lia. reflexivity. Qed.
Lemma rgain_ext : forall r c m m' k, (forall i j, (i < r)%nat -> (j < c)%nat -> m i j = m' i j) -> rgain r c m k -> rgain r c m' k.
Proof.
  intros r c m m' k H [H1 H2]. split; [exact H1|]. intros x. eapply Rle_trans; [|exact (H2 x)]. apply Req_le. apply vlen_ext.
  intros j Hj. symmetry. apply vm_ext. intros i Hi. apply H; assumption.
Qed.

Lemma rgain_kron : forall r c r' c' a b k k', rgain r c a k -> rgain r' c' b k' ->
  rgain (r * r') (c * c') (fun i j => Cmul (a (i / r')%nat (j / c')%nat) (b (i mod r')%nat (j mod c')%nat)) (k * k').
Proof.
  intros r c r' c' a b k k' [Hk Ha] [Hk' Hb]. split; [apply Rmult_le_pos; assumption|]. intros x.
  unfold vlen at 1. rewrite rtotal_seq_mul.
  set (z := fun p q => vm r' (fun s => x (p * r' + s)%nat) b q).
  rewrite rtotal_ext with (g := fun p => rtotal (fun q => Cabs (vm r (fun i => z i q) a p) ^ 2) (seq 0 c')).
  2: { intros p Hp. apply rtotal_ext. intros q Hq. apply in_seq in Hp, Hq. do 2 f_equal.
       unfold vm at 1. rewrite ctotal_seq_mul. apply ctotal_ext. intros i Hi. apply in_seq in Hi.
       unfold z, vm. rewrite <- ctotal_scal_r. apply ctotal_ext. intros s Hs. apply in_seq in Hs.
       destruct (@divmod_pair i s r' ltac:(lia)) as [-> ->]. destruct (@divmod_pair p q c' ltac:(lia)) as [-> ->].
       apply C_ext; simpl; ring. }
  rewrite rtotal_swap.
  apply Rle_trans with (rtotal (fun q => k ^ 2 * vlen r (fun i => z i q)) (seq 0 c')).
  { apply rtotal_le. intros q _. apply Ha. }
  rewrite rtotal_scal. unfold vlen at 1. rewrite rtotal_swap.
  apply Rle_trans with (k ^ 2 * rtotal (fun i => k' ^ 2 * vlen r' (fun s => x (i * r' + s)%nat)) (seq 0 r)).
  { apply Rmult_le_compat_l; [apply pow2_ge_0|]. apply rtotal_le. intros i _. apply Hb. }
  rewrite rtotal_scal. unfold vlen. rewrite rtotal_seq_mul. apply Req_le. ring.
Qed.

(** A matrix with one 1 per column, in different rows. *)
Definition fbits (f : nat -> nat) (i j : nat) : C := if (f j =? i)%nat then C1 else C0.

Lemma vm_pick : forall r x f j v, (f j < r)%nat ->
  vm r x (fun i j => if (f j =? i)%nat then v j else C0) j = Cmul (x (f j)) (v j).
Proof.
  intros r x f j v H. unfold vm. rewrite ctotal_one with (x := f j).
  - rewrite Nat.eqb_refl. reflexivity.
  - apply seq_NoDup.
  - apply in_seq. lia.
  - intros i _ Hi. rewrite (proj2 (Nat.eqb_neq _ _)) by congruence. apply C_ext; simpl; ring.
Qed.

Lemma rgain_pick : forall r c f v, (forall j, (j < c)%nat -> (f j < r)%nat) ->
  (forall j j', (j < c)%nat -> (j' < c)%nat -> f j = f j' -> j = j') -> (forall j, (j < c)%nat -> Cabs (v j) = 1) ->
  rgain r c (fun i j => if (f j =? i)%nat then v j else C0) 1.
Proof.
  intros r c f v Hf Hi Hv. split; [lra|]. intros x. unfold vlen.
  rewrite rtotal_ext with (g := fun j => Cabs (x (f j)) ^ 2).
  2: { intros j Hj. apply in_seq in Hj. rewrite vm_pick by (apply Hf; lia). rewrite Cabs_mul, Hv by lia. rewrite Rmult_1_r. reflexivity. }
  rewrite <- (rtotal_map f (fun i => Cabs (x i) ^ 2)).
  apply Rle_trans with (rtotal (fun i => Cabs (x i) ^ 2) (seq 0 r)); [|lra].
  apply rtotal_sub.
  - apply Nat.eq_dec.
  - clear - Hi. assert (G : forall l, NoDup l -> (forall j, In j l -> (j < c)%nat) -> NoDup (map f l)).
    { induction l as [|j l IH]; intros Hn Hl; simpl; [constructor|]. inversion Hn; subst. constructor.
      - intros Hin. apply in_map_iff in Hin as [j' [E Hj']]. assert (j' = j) by (apply Hi; auto with datatypes). subst. contradiction.
      - apply IH; auto with datatypes. }
    apply G; [apply seq_NoDup|]. intros j Hj. apply in_seq in Hj. lia.
  - intros i H. apply in_map_iff in H as [j [<- Hj]]. apply in_seq in Hj. apply in_seq. specialize (Hf j). lia.
  - intros; apply pow2_ge_0.
Qed.

Lemma rtotal_split : forall A (P : A -> bool) (f : A -> R) l,
  rtotal f l = rtotal f (filter P l) + rtotal f (filter (fun x => negb (P x)) l).
Proof.
  intros A P f l. induction l as [|x l IH]; simpl; [unfold rtotal; simpl; lra|].
  destruct (P x); cbn [negb]; unfold rtotal in *; simpl; rewrite IH; lra.
Qed.

(** The same where two columns may share a row. *)
Lemma rgain_pick2 : forall r c f (P : nat -> bool), (forall j, (j < c)%nat -> (f j < r)%nat) ->
  (forall j j', (j < c)%nat -> (j' < c)%nat -> P j = P j' -> f j = f j' -> j = j') ->
  rgain r c (fun i j => if (f j =? i)%nat then C1 else C0) (sqrt 2).
Proof.
  intros r c f P Hf Hi. split; [apply sqrt_pos|]. intros x. unfold vlen.
  rewrite rtotal_ext with (g := fun j => Cabs (x (f j)) ^ 2).
  2: { intros j Hj. apply in_seq in Hj. rewrite (@vm_pick r x f j (fun _ => C1)) by (apply Hf; lia). rewrite Cabs_mul, Cabs_C1, Rmult_1_r. reflexivity. }
  replace (sqrt 2 ^ 2) with 2 by (simpl; rewrite Rmult_1_r, sqrt_sqrt; lra).
  assert (G : forall b, rtotal (fun j => Cabs (x (f j)) ^ 2) (filter (fun j => Bool.eqb (P j) b) (seq 0 c)) <= rtotal (fun i => Cabs (x i) ^ 2) (seq 0 r)).
  { intros b. rewrite <- (rtotal_map f (fun i => Cabs (x i) ^ 2)). apply rtotal_sub.
    - apply Nat.eq_dec.
    - assert (G : forall l, NoDup l -> (forall j, In j l -> (j < c)%nat /\ P j = b) -> NoDup (map f l)).
      { induction l as [|j l IH]; intros Hn Hl; simpl; [constructor|]. inversion Hn; subst. constructor.
        - intros Hin. apply in_map_iff in Hin as [j' [E Hj']]. destruct (Hl j (or_introl eq_refl)), (Hl j' (or_intror Hj')).
          assert (j' = j) by (apply Hi; congruence || assumption). subst. contradiction.
        - apply IH; auto with datatypes. }
      apply G; [apply NoDup_filter, seq_NoDup|]. intros j Hj. apply filter_In in Hj as [Hj Hb]. apply in_seq in Hj.
      split; [lia | apply eqb_prop; exact Hb].
    - intros i H. apply in_map_iff in H as [j [<- Hj]]. apply filter_In in Hj as [Hj _]. apply in_seq in Hj. apply in_seq. specialize (Hf j). lia.
    - intros; apply pow2_ge_0. }
  rewrite (rtotal_split P). pose proof (G true) as G1. pose proof (G false) as G2.
  rewrite (filter_ext (fun j => Bool.eqb (P j) true) P) in G1 by (intros j; destruct (P j); reflexivity).
  rewrite (filter_ext (fun j => Bool.eqb (P j) false) (fun j => negb (P j))) in G2 by (intros j; destruct (P j); reflexivity).
  lra.
Qed.

(** ** Frobenius norm *)
Definition pairs (r c : nat) : list (nat * nat) := list_prod (seq 0 r) (seq 0 c).
Definition fro (r c : nat) (m : nat -> nat -> C) : R := len2 (fun p => Cabs (m (fst p) (snd p))) (pairs r c).

Lemma in_pairs : forall r c i j, In (i, j) (pairs r c) <-> (i < r)%nat /\ (j < c)%nat.
Proof. intros r c i j. unfold pairs. rewrite in_prod_iff, !in_seq. lia. Qed.

Lemma rtotal_pairs : forall r c (f : nat * nat -> R), rtotal f (pairs r c) = rtotal (fun i => rtotal (fun j => f (i, j)) (seq 0 c)) (seq 0 r).
Proof.
  intros r c f. unfold pairs. induction (seq 0 r) as [|i l IH]; simpl; [reflexivity|].
  rewrite rtotal_app, rtotal_map, IH. reflexivity.
Qed.

Lemma fro_pos : forall r c m, 0 <= fro r c m.
Proof. intros. apply len2_pos. Qed.
Lemma fro_sq : forall r c m, fro r c m ^ 2 = rtotal (fun i => vlen c (m i)) (seq 0 r).
Proof. intros r c m. unfold fro. rewrite len2_sq, rtotal_pairs. reflexivity. Qed.

Lemma fro_le : forall r c m (w : nat -> nat -> R), (forall i j, (i < r)%nat -> (j < c)%nat -> Cabs (m i j) <= w i j) ->
  fro r c m <= len2 (fun p => w (fst p) (snd p)) (pairs r c).
Proof.
  intros r c m w H. apply len2_mono. intros [i j] Hp. apply in_pairs in Hp as [Hi Hj]. split; [apply Cabs_pos | apply H; assumption].
Qed.

Lemma fro_ext : forall r c m m', (forall i j, (i < r)%nat -> (j < c)%nat -> m i j = m' i j) -> fro r c m = fro r c m'.
Proof. intros r c m m' H. apply len2_ext. intros [i j] Hp. apply in_pairs in Hp as [Hi Hj]. cbn [fst snd]. rewrite H by assumption. reflexivity. Qed.

Definition mm (n : nat) (a b : nat -> nat -> C) (i j : nat) : C := ctotal (fun k => Cmul (a i k) (b k j)) (seq 0 n).
Definition amm (n : nat) (a b : nat -> nat -> C) (i j : nat) : R := rtotal (fun k => Cabs (a i k) * Cabs (b k j)) (seq 0 n).

Lemma fro_mm : forall r n c a b k, rgain n c b k -> fro r c (mm n a b) <= k * fro r n a.
Proof.
  intros r n c a b k [Hk H]. apply sq_le; [apply Rmult_le_pos; [exact Hk | apply fro_pos]|].
  rewrite Rpow_mult_distr, !fro_sq, <- rtotal_scal. apply rtotal_le. intros i _. apply (H (a i)).
Qed.

Lemma fro_gain : forall n c b k, rgain n c b k -> fro n c b <= sqrt (INR n) * k.
Proof.
  intros n c b k [Hk H]. apply sq_le; [apply Rmult_le_pos; [apply sqrt_pos | exact Hk]|].
  rewrite Rpow_mult_distr, fro_sq. replace (sqrt (INR n) ^ 2) with (INR n) by (rewrite <- Rsqr_pow2, Rsqr_sqrt by apply pos_INR; reflexivity).
  rewrite <- (seq_length n 0) at 2. rewrite <- rtotal_const. apply rtotal_le. intros i Hi. apply in_seq in Hi.
  specialize (H (fun p => if (i =? p)%nat then C1 else C0)).
  assert (E1 : vlen n (fun p => if (i =? p)%nat then C1 else C0) = 1).
  { unfold vlen. destruct (in_split i (seq 0 n)) as [l1 [l2 E]]; [apply in_seq; lia|].
    assert (Hn : NoDup (seq 0 n)) by apply seq_NoDup. rewrite E in Hn |- *. apply NoDup_remove_2 in Hn.
    rewrite rtotal_app. cbn [rtotal]. rewrite Nat.eqb_refl, Cabs_C1, !rtotal_zero; [ring| |].
    - intros p Hp. rewrite (proj2 (Nat.eqb_neq _ _)), Cabs_C0; [ring|]. intros ->. apply Hn, in_or_app; auto.
    - intros p Hp. rewrite (proj2 (Nat.eqb_neq _ _)), Cabs_C0; [ring|]. intros ->. apply Hn, in_or_app; auto. }
  rewrite E1, Rmult_1_r in H. eapply Rle_trans; [|exact H]. apply Req_le. apply vlen_ext. intros j Hj.
  unfold vm. rewrite ctotal_one with (x := i).
  - rewrite Nat.eqb_refl. apply C_ext; simpl; ring.
  - apply seq_NoDup.
  - apply in_seq. lia.
  - intros p _ Hp. rewrite (proj2 (Nat.eqb_neq _ _)) by congruence. apply C_ext; simpl; ring.
Qed.

Lemma len2_amm : forall r n c a b, len2 (fun p => amm n a b (fst p) (snd p)) (pairs r c) <= fro r n a * fro n c b.
Proof.
  intros r n c a b. apply sq_le; [apply Rmult_le_pos; apply fro_pos|].
  rewrite Rpow_mult_distr, len2_sq, !fro_sq, rtotal_pairs. cbn [fst snd].
  apply Rle_trans with (rtotal (fun i => rtotal (fun j => vlen n (a i) * rtotal (fun k => Cabs (b k j) ^ 2) (seq 0 n)) (seq 0 c)) (seq 0 r)).
  - apply rtotal_le. intros i _. apply rtotal_le. intros j _. unfold amm, vlen.
    apply (cauchy (fun k => Cabs (a i k)) (fun k => Cabs (b k j))).
  - rewrite rtotal_ext with (g := fun i => vlen n (a i) * rtotal (fun k => vlen c (b k)) (seq 0 n)).
    + rewrite rtotal_scal_r. lra.
    + intros i _. rewrite rtotal_scal. unfold vlen at 3. rewrite rtotal_swap. reflexivity.
Qed.

(** ** One rounded product *)
Definition mdist (a b : nat -> nat -> C) (i j : nat) : C := Cadd (a i j) (Copp (b i j)).

Lemma fro_tri : forall r c a b, fro r c a <= fro r c b + fro r c (mdist a b).
Proof.
  intros r c a b. unfold fro at 2 3. eapply Rle_trans; [|apply len2_add].
  apply (@fro_le r c a (fun i j => Cabs (b i j) + Cabs (mdist a b i j))). intros i j _ _. apply Cabs_le.
Qed.

Theorem product_error : forall u k r n c (p a b P L : nat -> nat -> C) e f g,
  0 <= u ->
  (forall i j, (i < r)%nat -> (j < c)%nat -> Cdist (p i j) (mm n a b i j) <= err u (n + 1) * amm n a b i j) ->
  (forall i j, (i < n)%nat -> (j < c)%nat -> within u k (b i j) (L i j)) ->
  fro r n (mdist a P) <= e -> fro r n P <= f -> rgain n c L g ->
  fro r c (mdist p (mm n P L)) <= g * e + (f + e) * err u (k + (n + 1)) * (sqrt (INR n) * g).
Proof.
  intros u k r n c p a b P L e f g Hu Hp Hb He Hf Hg.
  assert (Hg0 : 0 <= g) by apply Hg.
  assert (HL := fro_gain Hg).
  assert (Ha : fro r n a <= f + e) by (pose proof (fro_tri r n a P); lra).
  eapply Rle_trans.
  - apply (@fro_le r c (mdist p (mm n P L)) (fun i j => Cabs (mm n (mdist a P) L i j) + err u (k + (n + 1)) * amm n a L i j)).
    intros i j Hi Hj. unfold mdist at 1. fold (Cdist (p i j) (mm n P L i j)).
    eapply Rle_trans; [apply (Cdist_tri _ (mm n a b i j))|].
    eapply Rle_trans; [apply Rplus_le_compat_l, (Cdist_tri _ (mm n a L i j))|].
    assert (E1 : Cdist (mm n a L i j) (mm n P L i j) = Cabs (mm n (mdist a P) L i j)).
    { unfold Cdist. f_equal. unfold mm. rewrite <- ctotal_opp, <- ctotal_plus. apply ctotal_ext. intros q _.
      unfold mdist. apply C_ext; simpl; ring. }
    assert (E2 : Cdist (mm n a b i j) (mm n a L i j) <= err u k * amm n a L i j).
    { unfold mm, amm. eapply Rle_trans; [apply ctotal_dist|]. rewrite <- rtotal_scal. apply rtotal_le. intros q Hq. apply in_seq in Hq.
      rewrite Cdist_mul_l. assert (Hw : within u k (b q j) (L q j)) by (apply Hb; lia). unfold within in Hw.
      pose proof (Cabs_pos (a i q)). replace (err u k * (Cabs (a i q) * Cabs (L q j))) with (Cabs (a i q) * (err u k * Cabs (L q j))) by ring.
      apply Rmult_le_compat_l; assumption. }
    assert (E3 : amm n a b i j <= (1 + err u k) * amm n a L i j).
    { unfold amm. rewrite <- rtotal_scal. apply rtotal_le. intros q Hq. apply in_seq in Hq.
      assert (Hw : within u k (b q j) (L q j)) by (apply Hb; lia). apply within_abs in Hw.
      pose proof (Cabs_pos (a i q)). replace ((1 + err u k) * (Cabs (a i q) * Cabs (L q j))) with (Cabs (a i q) * ((1 + err u k) * Cabs (L q j))) by ring.
      apply Rmult_le_compat_l; assumption. }
    specialize (Hp i j Hi Hj). pose proof (err_pos (n + 1) Hu).
    assert (err u (n + 1) * amm n a b i j <= err u (n + 1) * ((1 + err u k) * amm n a L i j)) by (apply Rmult_le_compat_l; assumption).
    pose proof (err_add u k (n + 1)) as E.
    replace (err u (k + (n + 1))) with ((1 + err u k) * (1 + err u (n + 1)) - 1) by lra. rewrite E1. lra.
  - eapply Rle_trans; [apply len2_add|].
    assert (He' := err_pos (k + (n + 1)) Hu).
    rewrite (len2_scal (fun p => amm n a L (fst p) (snd p))) by exact He'.
    apply Rplus_le_compat.
    + eapply Rle_trans; [apply (fro_mm r (mdist a P) Hg)|]. apply Rmult_le_compat_l; assumption.
    + eapply Rle_trans; [apply Rmult_le_compat_l; [exact He' | apply len2_amm]|].
      replace ((f + e) * err u (k + (n + 1)) * (sqrt (INR n) * g)) with (err u (k + (n + 1)) * ((f + e) * (sqrt (INR n) * g))) by ring.
      apply Rmult_le_compat_l; [exact He'|]. apply Rmult_le_compat; try apply fro_pos; assumption.
Qed.
