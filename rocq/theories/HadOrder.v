(** * HadOrder: rows of the matrix of h that are not orthogonal, for roots that
    come in conjugate pairs. *)
From Coq Require Import Reals Lra Lia Psatz Permutation.
From Verif Require Import Py Scalar Mat Utils Gates Circuit Spec Complex ComplexSpec RoundSpec HadSpec Lib ComplexLib ComplexGates CNorm HadLib.
Set Implicit Arguments.
Local Notation length := List.length.

(** ** Roots *)
Lemma root_unit : forall d k, (fst (root d k) * fst (root d k) + snd (root d k) * snd (root d k) = 1)%R.
Proof. intros d k. pose proof (f_equal fst (root_norm d k)) as H. simpl in H |- *. lra. Qed.

Lemma root_full : forall d, 0 < d -> root d d = C1.
Proof.
  intros d Hd. rewrite <- (cis_period 1). unfold root. f_equal. change (INR 1) with 1%R. field. apply not_0_INR. lia.
Qed.

Lemma root_conj : forall d k, k < d -> root d (d - k) = Cconj (root d k).
Proof.
  intros d k Hk. assert (E : Cmul (root d (d - k)) (root d k) = C1).
  { rewrite <- root_add. replace (d - k + k) with d by lia. apply root_full. lia. }
  transitivity (Cmul (Cmul (root d (d - k)) (root d k)) (Cconj (root d k))).
  - replace (Cmul (Cmul (root d (d - k)) (root d k)) (Cconj (root d k)))
      with (Cmul (root d (d - k)) (Cmul (root d k) (Cconj (root d k)))) by (apply C_ext; simpl; ring).
    rewrite root_norm. apply C_ext; simpl; ring.
  - rewrite E. apply C_ext; simpl; ring.
Qed.

Lemma root_above : forall d k, 0 < k -> 2 * k < d -> (0 < snd (root d k))%R.
Proof.
  intros d k H0 H. simpl. pose proof PI_RGT_0 as HP.
  assert (Hk : (0 < INR k)%R) by (apply lt_0_INR; lia). assert (Hd : (0 < INR d)%R) by (apply lt_0_INR; lia).
  assert (H2 : (2 * INR k < INR d)%R) by (apply lt_INR in H; rewrite mult_INR in H; simpl in H; lra).
  apply sin_gt_0.
  - apply Rmult_lt_0_compat; [nra | apply Rinv_0_lt_compat, Hd].
  - apply Rmult_lt_reg_r with (INR d); [exact Hd|]. unfold Rdiv. rewrite Rmult_assoc, Rinv_l by lra. nra.
Qed.

Lemma root_half : forall h, 0 < h -> root (2 * h) h = Copp C1.
Proof.
  intros h Hh. assert (0 < INR h)%R by (apply lt_0_INR; lia).
  assert (E : (2 * PI * INR h / INR (2 * h) = PI)%R) by (rewrite mult_INR; simpl; field; lra).
  unfold root. rewrite E. unfold cis. rewrite cos_PI, sin_PI. apply C_ext; simpl; ring.
Qed.

(** The squares of the imaginary parts of all roots add up to half the degree. *)
Lemma sq_sum : forall d, 3 <= d -> (rtotal (fun k => snd (root d k) * snd (root d k)) (seq 0 d) = INR d / 2)%R.
Proof.
  intros d Hd.
  assert (G : forall n, Cmul (Cadd (root d 2) (Copp C1)) (ctotal (fun k => root d (2 * k)) (seq 0 n)) = Cadd (root d (2 * n)) (Copp C1)).
  { induction n as [|n IH].
    - cbn [seq ctotal Nat.mul]. rewrite root_0. apply C_ext; simpl; ring.
    - rewrite seq_S, ctotal_app. cbn [ctotal]. replace (2 * S n) with (2 * n + 2) by lia. rewrite root_add. rewrite Nat.add_0_l.
      transitivity (Cadd (Cmul (Cadd (root d 2) (Copp C1)) (ctotal (fun k => root d (2 * k)) (seq 0 n)))
                         (Cmul (Cadd (root d 2) (Copp C1)) (root d (2 * n)))).
      + apply C_ext; cbn [Cmul Cadd fst snd C0 Copp C1]; ring.
      + rewrite IH. apply C_ext; cbn [Cmul Cadd fst snd C0 Copp C1]; ring. }
  specialize (G d). replace (root d (2 * d)) with C1 in G.
  2:{ replace (2 * d) with (d + d) by lia. rewrite root_add, root_full by lia. apply C_ext; simpl; ring. }
  replace (Cadd C1 (Copp C1)) with C0 in G by (apply C_ext; simpl; ring). apply Cmul_eq_0 in G as [G|G].
  { exfalso. apply (@root_neq_1 d 2); [lia|].
    apply C_ext; [apply (f_equal fst) in G | apply (f_equal snd) in G]; simpl in G |- *; lra. }
  apply (f_equal fst) in G. rewrite ctotal_fst in G.
  assert (E : (rtotal (fun k => snd (root d k) * snd (root d k)) (seq 0 d)
               = rtotal (fun k => 1 / 2 + (- (1 / 2)) * fst (root d (2 * k))) (seq 0 d))%R).
  { apply rtotal_ext. intros k _. replace (2 * k) with (k + k) by lia. rewrite root_add. pose proof (root_unit d k).
    cbn [Cmul fst]. lra. }
  rewrite E, rtotal_plus, rtotal_const, rtotal_scal, G, seq_length. change (fst C0) with 0%R. lra.
Qed.

(** ** Lists of pairs *)
Inductive pairs (d : nat) : list nat -> Prop :=
| pr_nil : pairs d []
| pr_pair : forall k l, 0 < k -> 2 * k < d -> pairs d l -> pairs d (k :: d - k :: l).

Lemma paired_init : forall d L, paired d L -> forall l, L = l ++ [0] -> paired d l.
Proof.
  intros d L H; induction H as [|k L Hk H IH|k L H0 H1 H IH]; intros l E.
  - destruct l; discriminate.
  - destruct l as [|a l]; [constructor|]. injection E as -> ->. constructor; auto.
  - destruct l as [|a [|b l]].
    + discriminate.
    + simpl in E. injection E as E1 E2 E3. lia.
    + simpl in E. injection E as <- <- ->. apply pd_pair; auto.
Qed.

Lemma paired_pairs : forall d l, paired d l -> (forall k, In k l -> (2 * k) mod d <> 0) -> pairs d l.
Proof.
  intros d l H; induction H as [|k l Hk H IH|k l H0 H1 H IH]; intros Hr.
  - constructor.
  - exfalso. apply (Hr k); [left; reflexivity | exact Hk].
  - constructor; [assumption | assumption|]. apply IH. intros; apply Hr; simpl; auto.
Qed.

Lemma paired_split : forall d h l, paired d l -> 0 < h -> d = 2 * h -> NoDup l -> In h l ->
  (forall k, In k l -> (2 * k) mod d = 0 -> k = h) ->
  exists p q, pairs d p /\ pairs d q /\ l = p ++ h :: q.
Proof.
  intros d h l H H0 Hd; induction H as [|k l Hk H IH|k l H1 H2 H IH]; intros Hn Hh Hr.
  - destruct Hh.
  - assert (k = h) by (apply Hr; [left; reflexivity | exact Hk]). subst k. inversion Hn; subst.
    exists [], l. split; [constructor|]. split; [|reflexivity]. apply paired_pairs; [exact H|].
    intros k Hk' E. assert (k = h) by (apply Hr; [right; exact Hk' | exact E]). subst. contradiction.
  - inversion Hn as [|? ? Hn1 Hn2]; subst. inversion Hn2 as [|? ? Hn3 Hn4]; subst.
    destruct IH as [p [q [Hp [Hq ->]]]]; [exact Hn4 | | intros; apply Hr; simpl; auto |].
    + destruct Hh as [Hh|[Hh|Hh]]; [lia | lia | exact Hh].
    + exists (k :: 2 * h - k :: p), q. split; [constructor; assumption|]. split; [exact Hq | reflexivity].
Qed.

Lemma pairs_app : forall d p q, pairs d p -> pairs d q -> pairs d (p ++ q).
Proof. intros d p q H Hq; induction H; [exact Hq|]. simpl. constructor; assumption. Qed.

Lemma pairs_nth : forall d l, pairs d l -> exists p, length l = 2 * p /\
  forall j, j < p -> exists k, 0 < k /\ 2 * k < d /\ nth (2 * j) l 0 = k /\ nth (2 * j + 1) l 0 = d - k.
Proof.
  intros d l H; induction H as [|k l H0 H1 H [p [IH1 IH2]]].
  - exists 0. split; [reflexivity | intros; lia].
  - exists (S p). split; [simpl; lia|]. intros [|j] Hj.
    + exists k. repeat split; assumption.
    + destruct (IH2 j ltac:(lia)) as [k' Hk']. exists k'. replace (2 * S j) with (S (S (2 * j))) by lia. exact Hk'.
Qed.

(** ** An even number of cyclic entries: the alternating sum *)
Definition sg (k : nat) : R := if Nat.even k then 1%R else (-1)%R.
Lemma sg_add : forall a b, (sg (a + b) = sg a * sg b)%R.
Proof. intros a b. unfold sg. rewrite Nat.even_add. destruct (Nat.even a), (Nat.even b); simpl; lra. Qed.
Lemma sg_two : forall j, sg (2 * j) = 1%R.
Proof. intros j. unfold sg. rewrite Nat.even_mul. reflexivity. Qed.
Lemma sg_mod : forall a p, 0 < p -> sg (a mod (2 * p)) = sg a.
Proof.
  intros a p Hp. rewrite (Nat.div_mod_eq a (2 * p)) at 2. rewrite sg_add, <- Nat.mul_assoc, sg_two. lra.
Qed.

Lemma alternating : forall c p, 0 < p -> (forall t, t < 2 * p -> Cmul (c t) (Cconj (c t)) = C1) ->
  (forall s, 0 < s < 2 * p -> corr c (2 * p) s = Copp C1) ->
  let T := ctotal (fun t => Cmul (sg t, 0%R) (c t)) (seq 0 (2 * p)) in
  Cmul T (Cconj T) = (INR (2 * p + 1), 0%R).
Proof.
  intros c p Hp Hc Hs T. set (m := 2 * p) in *.
  transitivity (ctotal (fun s => Cmul (sg s, 0%R) (corr c m s)) (seq 0 m)).
  - transitivity (ctotal (fun t => ctotal (fun s => Cmul (Cmul (sg s, 0%R) (c t)) (Cconj (c ((t + s) mod m)))) (seq 0 m)) (seq 0 m)).
    + unfold T. rewrite <- ctotal_scal_r. apply ctotal_ext. intros t Ht.
      rewrite <- ctotal_conj, <- (@cyc_sum m ltac:(unfold m; lia) _ t), <- ctotal_scal.
      apply ctotal_ext. intros s _. unfold m at 1. rewrite sg_mod, sg_add by exact Hp. fold m.
      assert (Q : (sg t * sg t = 1)%R) by (unfold sg; destruct (Nat.even t); lra).
      generalize (c t), (c ((t + s) mod m)). intros x y. apply C_ext; simpl.
      * transitivity ((sg t * sg t) * sg s * (fst x * fst y + snd x * snd y))%R; [ring | rewrite Q; ring].
      * transitivity ((sg t * sg t) * sg s * (snd x * fst y - fst x * snd y))%R; [ring | rewrite Q; ring].
    + rewrite ctotal_swap. apply ctotal_ext. intros s _. unfold corr. rewrite <- ctotal_scal. apply ctotal_ext. intros t _.
      apply C_ext; simpl; ring.
  - assert (E : m = S (m - 1)) by (unfold m; lia).
    assert (C0' : corr c m 0 = (INR m, 0%R)).
    { unfold corr. rewrite (ctotal_ext _ (fun _ => C1)).
      - apply C_ext; [rewrite ctotal_fst | rewrite ctotal_snd]; rewrite rtotal_const, seq_length; simpl; ring.
      - intros t Ht. apply in_seq in Ht. rewrite Nat.add_0_r, Nat.mod_small by lia. apply Hc. lia. }
    assert (Z : rtotal sg (seq 0 m) = 0%R).
    { unfold m. rewrite rtotal_two. apply rtotal_zero. intros j _. rewrite Nat.add_0_l, sg_add, sg_two. unfold sg. simpl. lra. }
    rewrite E in Z |- *. cbn [seq ctotal rtotal] in Z |- *. rewrite <- E.
    rewrite (ctotal_ext _ (fun s => Cmul (sg s, 0%R) (Copp C1))).
    + rewrite ctotal_scal_r, C0'. apply C_ext; cbn [Cadd Cmul fst snd Copp C1].
      * rewrite ctotal_fst, ctotal_snd. cbn [fst snd]. rewrite (rtotal_zero (fun _ : nat => 0%R)) by reflexivity.
        change (sg 0) with 1%R in *. rewrite plus_INR. change (INR 1) with 1%R. change (fun x => sg x) with sg. lra.
      * rewrite ctotal_fst, ctotal_snd. cbn [fst snd]. rewrite (rtotal_zero (fun _ : nat => 0%R)) by reflexivity. ring.
    + intros s Hsn. apply in_seq in Hsn. rewrite Hs by lia. reflexivity.
Qed.

(** ** An odd number of cyclic entries, one of them -1: two steps apart *)
Lemma two_apart : forall b p, 0 < p -> b 0 = Copp C1 ->
  (forall j, j < p -> (0 < snd (b (2 * j + 1)%nat))%R /\ Cmul (b (2 * j + 1)) (Cconj (b (2 * j + 1))) = C1 /\ b (2 * j + 2) = Cconj (b (2 * j + 1))) ->
  (snd (corr b (2 * p + 1)%nat 2%nat) < 0)%R.
Proof.
  intros b p Hp H0 Hb. unfold corr. rewrite ctotal_snd.
  destruct p as [|p]; [lia|]. replace (2 * S p + 1) with (S (2 * p + 2)) by lia.
  set (m := S (2 * p + 2)). set (g := fun t => snd (Cmul (b t) (Cconj (b ((t + 2) mod m))))).
  change (seq 0 m) with (0 :: seq 1 (2 * p + 2)). rewrite seq_app. cbn [rtotal]. rewrite rtotal_app, rtotal_two.
  replace (1 + 2 * p) with (2 * p + 1) by lia. cbn [seq rtotal].
  rewrite (rtotal_zero (fun j => (g (1 + 2 * j)%nat + g (1 + 2 * j + 1)%nat)%R)).
  - assert (M0 : (0 + 2) mod m = 2) by (apply Nat.mod_small; unfold m; lia).
    assert (M1 : (2 * p + 1 + 2) mod m = 0).
    { replace (2 * p + 1 + 2) with m by (unfold m; lia). apply Nat.mod_same. unfold m; lia. }
    assert (M2 : (S (2 * p + 1) + 2) mod m = 1).
    { replace (S (2 * p + 1) + 2) with (1 + 1 * m) by (unfold m; lia). rewrite Nat.mod_add by (unfold m; lia). apply Nat.mod_small. unfold m; lia. }
    unfold g. rewrite M0, M1, M2.
    destruct (Hb 0 ltac:(lia)) as [P1 [Q1 R1]]. destruct (Hb p ltac:(lia)) as [P2 [Q2 R2]].
    replace (2 * p + 2) with (S (2 * p + 1)) in R2 by lia. cbn [Nat.mul Nat.add] in P1, Q1, R1. rewrite H0, R1, R2.
    apply (f_equal fst) in Q1, Q2. set (x := b 1) in *. set (y := b (2 * p + 1)) in *.
    cbn [Cmul Cconj Copp C1 fst snd] in *.
    assert (-1 < fst x < 1)%R by nra. assert (-1 < fst y < 1)%R by nra. nra.
  - intros j Hj. apply in_seq in Hj. unfold g.
    rewrite !Nat.mod_small by (unfold m; lia).
    destruct (Hb j ltac:(lia)) as [_ [_ R1]]. destruct (Hb (S j) ltac:(lia)) as [_ [_ R2]].
    replace (1 + 2 * j + 1 + 2) with (2 * S j + 2) by lia. replace (1 + 2 * j + 2) with (2 * S j + 1) by lia.
    replace (1 + 2 * j + 1) with (2 * j + 2) by lia. replace (1 + 2 * j) with (2 * j + 1) by lia.
    rewrite R1, R2. simpl. ring.
Qed.

(** ** Rotating a list *)
Lemma nth_rotate : forall (p q : list nat) t, t < length (p ++ q) ->
  nth ((length p + t) mod length (p ++ q)) (p ++ q) 0 = nth t (q ++ p) 0.
Proof.
  intros p q t Ht. rewrite app_length in Ht. destruct (Nat.lt_ge_cases t (length q)) as [H|H].
  - rewrite Nat.mod_small by (rewrite app_length; lia). rewrite app_nth2, app_nth1 by lia. f_equal. lia.
  - replace (length p + t) with ((t - length q) + 1 * length (p ++ q)) by (rewrite app_length; lia).
    rewrite Nat.mod_add, Nat.mod_small by (rewrite app_length; lia). rewrite app_nth1, app_nth2 by lia. reflexivity.
Qed.

(** ** The matrix of h *)
Definition cyc (d : nat) (l : list nat) (k : nat) : C := root d (nth k l 0).

Lemma corr_rotate : forall d p q s, 0 < length (p ++ q) ->
  corr (cyc d (p ++ q)) (length (p ++ q)) s = corr (cyc d (q ++ p)) (length (p ++ q)) s.
Proof.
  intros d p q s H. unfold corr. set (m := length (p ++ q)) in *.
  rewrite <- (@cyc_sum m H (fun t => Cmul (cyc d (p ++ q) t) (Cconj (cyc d (p ++ q) ((t + s) mod m)))) (length p)).
  apply ctotal_ext. intros t Ht. apply in_seq in Ht. unfold cyc. rewrite Nat.add_mod_idemp_l by lia.
  replace ((length p + t + s) mod m) with ((length p + (t + s) mod m) mod m).
  - unfold m. rewrite !nth_rotate; [reflexivity | apply Nat.mod_upper_bound; lia | fold m; lia].
  - rewrite Nat.add_mod_idemp_r by lia. f_equal. lia.
Qed.

Theorem not_orthogonal : forall d l, 4 <= d -> Permutation (l ++ [0]) (seq 0 d) -> paired d (l ++ [0]) ->
  ~ (forall i j, 1 <= i < d -> 1 <= j < d -> i <> j -> gram (cyc d l) (d - 1) i j = C0).
Proof.
  intros d l Hd HP Hpair Hg. pose proof (@paired_init d _ Hpair l eq_refl) as Hl.
  assert (Hlen : length l = d - 1).
  { apply Permutation_length in HP. rewrite app_length, seq_length in HP. simpl in HP. lia. }
  assert (HN : NoDup (l ++ [0])) by (apply (Permutation_NoDup (Permutation_sym HP)), seq_NoDup).
  assert (HN0 : NoDup l /\ ~ In 0 l).
  { pose proof (NoDup_remove_1 _ _ _ HN) as H1. pose proof (NoDup_remove_2 _ _ _ HN) as H2. rewrite app_nil_r in *. auto. }
  destruct HN0 as [HNl H0l].
  assert (Hlt : forall k, In k l -> 0 < k < d).
  { intros k Hk. split; [destruct k; [contradiction | lia]|].
    assert (In k (seq 0 d)) as Hi by (apply (Permutation_in _ HP), in_or_app; auto). apply in_seq in Hi. lia. }
  assert (Hs : forall s, 0 < s < d - 1 -> corr (cyc d l) (d - 1) s = Copp C1).
  { intros s H. specialize (Hg (d - 1) s ltac:(lia) ltac:(lia) ltac:(lia)).
    rewrite gram_corr in Hg by lia. replace (s + (d - 1) - (d - 1)) with s in Hg by lia.
    apply C_ext; [apply (f_equal fst) in Hg | apply (f_equal snd) in Hg]; simpl in *; lra. }
  assert (Hreal : forall k, In k l -> (2 * k) mod d = 0 -> 2 * k = d).
  { intros k Hk E. apply Hlt in Hk. apply Nat.mod_divides in E as [q E]; [|lia]. assert (q = 1) by nia. nia. }
  destruct (Nat.Even_or_Odd d) as [[h Eh]|[p Ep]].
  - (* -1 is among the roots *)
    assert (Hin : In h l).
    { assert (In h (l ++ [0])) as Hi by (apply (Permutation_in _ (Permutation_sym HP)), in_seq; lia).
      apply in_app_or in Hi as [Hi|[Hi|[]]]; [exact Hi | lia]. }
    destruct (@paired_split d h l Hl ltac:(lia) Eh HNl Hin) as [p [q [Hp [Hq El]]]].
    { intros k Hk E. apply Hreal in E; [lia | exact Hk]. }
    specialize (Hs 2 ltac:(lia)). rewrite <- Hlen, El in Hs. rewrite corr_rotate in Hs by (rewrite app_length; simpl; lia).
    rewrite <- El, Hlen in Hs. cbn [app] in Hs.
    destruct (pairs_nth (pairs_app Hq Hp)) as [n [Hn1 Hn2]].
    assert (Hm : d - 1 = 2 * n + 1) by (rewrite <- Hlen, El; rewrite app_length in Hn1 |- *; simpl; lia).
    rewrite Hm in Hs. apply (f_equal snd) in Hs. cbn [Copp C1 snd] in Hs.
    assert (snd (corr (cyc d (h :: q ++ p)) (2 * n + 1) 2) < 0)%R; [|lra].
    apply two_apart; [lia | |].
    + unfold cyc. cbn [nth]. rewrite Eh. apply root_half. lia.
    + intros j Hj. destruct (Hn2 j Hj) as [k [K1 [K2 [K3 K4]]]]. unfold cyc.
      replace (2 * j + 2) with (S (2 * j + 1)) by lia. replace (2 * j + 1) with (S (2 * j)) at 1 2 3 5 by lia. cbn [nth].
      rewrite K3, K4. split; [apply root_above; assumption|]. split; [apply root_norm | apply root_conj; lia].
  - (* the roots other than 1 form pairs *)
    assert (Hp : pairs d l).
    { apply paired_pairs; [exact Hl|]. intros k Hk E. apply Hreal in E; [lia | exact Hk]. }
    destruct (pairs_nth Hp) as [n [Hn1 Hn2]]. assert (n = p) by lia. subst n.
    assert (Hm : d - 1 = 2 * p) by lia. rewrite Hm in Hs.
    set (c := cyc d l) in *.
    assert (A := @alternating c p ltac:(lia) (fun t _ => root_norm d _) Hs). cbv zeta in A.
    apply (f_equal fst) in A. set (T := ctotal _ _) in A. cbn [Cmul Cconj fst snd] in A.
    set (y := fun j => snd (c (2 * j))).
    assert (Hy : forall j, j < p -> (0 < y j <= 1)%R /\ c (2 * j + 1) = Cconj (c (2 * j))).
    { intros j Hj. destruct (Hn2 j Hj) as [k [K1 [K2 [K3 K4]]]]. unfold y, c, cyc. rewrite K3, K4.
      pose proof (root_above K1 K2). pose proof (root_unit d k). split; [split; [assumption | nra] | apply root_conj; lia]. }
    assert (T1 : fst T = 0%R).
    { unfold T. rewrite ctotal_fst, rtotal_two. apply rtotal_zero. intros j Hj. apply in_seq in Hj.
      destruct (Hy j ltac:(lia)) as [_ Ec]. rewrite Nat.add_0_l, Ec, sg_add, sg_two. unfold sg. simpl. lra. }
    assert (T2 : (snd T = 2 * rtotal y (seq 0 p))%R).
    { unfold T. rewrite ctotal_snd, rtotal_two, <- rtotal_scal. apply rtotal_ext. intros j Hj. apply in_seq in Hj.
      destruct (Hy j ltac:(lia)) as [_ Ec]. rewrite Nat.add_0_l, Ec, sg_add, sg_two. unfold y, sg. simpl. lra. }
    assert (Q : (2 * rtotal (fun j => y j * y j) (seq 0 p) = INR d / 2)%R).
    { rewrite <- (@sq_sum d ltac:(lia)), <- (rtotal_perm _ HP), rtotal_app. cbn [rtotal]. rewrite root_0. cbn [C1 snd].
      transitivity (rtotal (fun t => snd (c t) * snd (c t))%R (seq 0 (2 * p))).
      - rewrite rtotal_two, <- rtotal_scal. apply rtotal_ext. intros j Hj. apply in_seq in Hj.
        destruct (Hy j ltac:(lia)) as [_ Ec]. rewrite Nat.add_0_l, Ec. unfold y. simpl. lra.
      - transitivity (rtotal (fun k => snd (root d k) * snd (root d k))%R l); [|ring].
        rewrite <- (map_nth_seq l 0) at 1. rewrite rtotal_map, Hlen, Hm. reflexivity. }
    assert (Le : (rtotal (fun j => y j * y j) (seq 0 p) <= rtotal y (seq 0 p))%R).
    { apply rtotal_le. intros j Hj. apply in_seq in Hj. destruct (Hy j ltac:(lia)) as [[H1 H2] _]. nra. }
    replace (2 * p + 1) with d in A by lia. rewrite T1, T2 in A.
    assert (D : (4 < INR d)%R). { assert (5 <= d) as Hd5 by lia. apply le_INR in Hd5. simpl in Hd5. lra. }
    set (Y := rtotal y (seq 0 p)) in *. nra.
Qed.
