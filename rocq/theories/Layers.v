(** * Layers: the effect of a layer on a state; fresh and merged layers. *)
From Verif Require Import Py Scalar Mat Utils Gates Circuit Spec Lib Kern GateMat GateTof Flow.
Set Implicit Arguments.

Section Layers.
Variable S : scalar.
Hypothesis L : scalar_laws S.
Add Ring Sring : (sl_ring L).
Notation op := (op S).
Notation NB := (NumpyBackend S).
Notation kernel := (config -> config -> S).
Notation block := (block S).
Infix "*s" := (@smul S) (at level 40, left associativity).

Definition kapply (dims : list nat) (K : kernel) (psi : config -> S) : config -> S :=
  fun s => bsum (fun u => K s u *s psi u) (all_configs dims).

Lemma kapply_ext : forall dims K K' psi psi' s, valid dims s ->
  (forall u, valid dims u -> K s u = K' s u) -> (forall u, valid dims u -> psi u = psi' u) ->
  kapply dims K psi s = kapply dims K' psi' s.
Proof.
  intros dims K K' psi psi' s Hs HK Hp. unfold kapply. apply bsum_ext. intros u Hu.
  apply in_all_configs in Hu. rewrite HK, Hp by assumption. reflexivity.
Qed.

Lemma kapply_comp : forall dims K1 K2 psi s,
  kapply dims (fun a c => bsum (fun b => K1 a b *s K2 b c) (all_configs dims)) psi s
  = kapply dims K1 (kapply dims K2 psi) s.
Proof.
  intros dims K1 K2 psi s. unfold kapply.
  rewrite bsum_ext with (g := fun u => bsum (fun b => K1 s b *s (K2 b u *s psi u)) (all_configs dims)).
  - rewrite (bsum_swap L). apply bsum_ext. intros b _. apply (bsum_mul_l L).
  - intros u _. rewrite <- (bsum_mul_r L). apply bsum_ext. intros b _. ring.
Qed.

(** ** Three-part kernels *)
Definition K3 (p w : nat) (A k B : kernel) : kernel := fun s t =>
  A (firstn p s) (firstn p t) *s k (firstn w (skipn p s)) (firstn w (skipn p t))
  *s B (skipn (p + w) s) (skipn (p + w) t).

Lemma K3_compose : forall d1 d2 d3 A g B s t,
  let dims := d1 ++ d2 ++ d3 in let p := length d1 in let w := length d2 in
  valid dims s -> valid dims t ->
  bsum (fun u => K3 p w (delta S) g (delta S) s u *s K3 p w A (delta S) B u t) (all_configs dims)
  = K3 p w A g B s t.
Proof.
  intros d1 d2 d3 A g B s t dims p w Hs Ht. unfold dims.
  rewrite (bsum_configs_app L).
  set (sa := firstn p s). set (sb := firstn w (skipn p s)). set (sc := skipn (p + w) s).
  assert (Va : valid d1 sa).
  { apply valid_firstn with (n := p) in Hs. unfold dims, p in Hs. rewrite firstn_app_exact in Hs by reflexivity. exact Hs. }
  assert (Vc : valid d3 sc).
  { apply valid_skipn with (n := p + w) in Hs. unfold dims, p, w in Hs.
    rewrite app_assoc in Hs. rewrite skipn_app_exact in Hs by (rewrite app_length; reflexivity). exact Hs. }
  assert (Vtb : valid d2 (firstn w (skipn p t))).
  { apply valid_skipn with (n := p) in Ht. unfold dims, p in Ht. rewrite skipn_app_exact in Ht by reflexivity.
    apply valid_firstn with (n := w) in Ht. unfold w in Ht. rewrite firstn_app_exact in Ht by reflexivity. exact Ht. }
  rewrite bsum_ext with (g := fun a => delta S sa a *s
     bsum (fun b => delta S (firstn w (skipn p t)) b *s
        bsum (fun c => delta S sc c *s (A a (firstn p t) *s g sb b *s B c (skipn (p + w) t))) (all_configs d3))
       (all_configs d2)).
  - rewrite (bsum_delta_l L) by exact Va. rewrite (bsum_delta_l L) by exact Vtb.
    rewrite (bsum_delta_l L) by exact Vc. reflexivity.
  - intros a Ha. apply in_all_configs in Ha. rewrite (bsum_configs_app L), <- (bsum_mul_l L).
    apply bsum_ext. intros b Hb. apply in_all_configs in Hb. rewrite <- !(bsum_mul_l L).
    apply bsum_ext. intros c Hc. apply in_all_configs in Hc.
    pose proof (valid_length Ha) as La. pose proof (valid_length Hb) as Lb.
    unfold K3. rewrite app_assoc, (@skipn_app_exact nat (a ++ b) c (p + w)) by (rewrite app_length; unfold p, w; lia).
    rewrite <- app_assoc. rewrite (@firstn_app_exact nat a _ p) by exact La. rewrite (@skipn_app_exact nat a _ p) by exact La.
    rewrite (@firstn_app_exact nat b _ w) by exact Lb.
    fold sa sb sc.
    assert (Edelta : delta S b (firstn w (skipn p t)) = delta S (firstn w (skipn p t)) b).
    { unfold delta. destruct (config_eqb b (firstn w (skipn p t))) eqn:E.
      - apply config_eqb_eq in E. rewrite <- E, config_eqb_refl. reflexivity.
      - apply config_eqb_neq in E. rewrite (proj2 (config_eqb_neq _ _)) by congruence. reflexivity. }
    rewrite Edelta. ring.
Qed.

(** ** Identity blocks *)
Definition idblk (dims : list nat) (i : nat) : block :=
  {| bo := OI (Z.of_nat i) (Z.of_nat (nth i dims 0)); bw := 1; bk := delta S |}.
Definition idblocks (dims : list nat) (p k : nat) : list block := map (idblk dims) (seq p k).

Lemma idblk_ok : forall dims i, i < length dims -> blk_ok dims i (idblk dims i).
Proof.
  intros dims i Hi. constructor; simpl; try lia.
  - exists (deye S (nth i dims 0) (nth i dims 0)). rewrite Nat2Z.id. split; [reflexivity|].
    rewrite sub_1 by exact Hi. pose proof (repr_eye S [nth i dims 0]) as H.
    change (prodn [nth i dims 0]) with (nth i dims 0 * 1) in H. rewrite Nat.mul_1_r in H. exact H.
  - exists [Z.of_nat i]. split; [reflexivity|]. intros q Hq. unfold zmem in Hq. simpl in Hq.
    rewrite orb_false_r in Hq. apply Z.eqb_eq in Hq. lia.
  - intros _. auto.
Qed.

Lemma idblocks_seg : forall dims k p, p + k <= length dims -> seg dims p (idblocks dims p k) (p + k).
Proof.
  intros dims k; induction k as [|k IH]; intros p H; simpl.
  - rewrite Nat.add_0_r. constructor. lia.
  - replace (p + Datatypes.S k) with (Datatypes.S p + k) by lia. constructor; [apply idblk_ok; lia|].
    simpl. replace (p + 1) with (Datatypes.S p) by lia. apply IH. lia.
Qed.

Lemma idblocks_width : forall dims k p, width (idblocks dims p k) = k.
Proof. intros dims k; induction k as [|k IH]; intros p; simpl; [reflexivity|]. f_equal. apply IH. Qed.

Lemma delta_cons : forall x y s t, delta S (x :: s) (y :: t) = delta S [x] [y] *s delta S s t.
Proof.
  intros x y s t. unfold delta.
  destruct (Nat.eq_dec x y) as [->|Hne].
  - rewrite config_eqb_refl. destruct (config_eqb s t) eqn:E.
    + apply config_eqb_eq in E. subst. rewrite config_eqb_refl. ring.
    + apply config_eqb_neq in E. rewrite (proj2 (config_eqb_neq _ _)) by congruence. ring.
  - rewrite (proj2 (config_eqb_neq _ _)) by congruence.
    rewrite (proj2 (config_eqb_neq [x] [y])) by congruence. ring.
Qed.

Lemma idblocks_kern : forall dims k p s t, length s = k -> length t = k ->
  lkern (idblocks dims p k) s t = delta S s t.
Proof.
  intros dims k; induction k as [|k IH]; intros p s t Hs Ht.
  - destruct s, t; try discriminate. unfold delta. rewrite config_eqb_refl. reflexivity.
  - destruct s as [|x s], t as [|y t]; try discriminate.
    change (idblocks dims p (Datatypes.S k)) with (idblk dims p :: idblocks dims (Datatypes.S p) k).
    cbn [lkern]. unfold tensor. cbn [bw idblk bk firstn skipn].
    rewrite IH by (simpl in *; lia). symmetry. apply delta_cons.
Qed.

(** A layer with one gate and identities elsewhere. *)
Definition fresh (dims : list nat) (p : nat) (b : block) : list block :=
  idblocks dims 0 p ++ b :: idblocks dims (p + bw b) (length dims - (p + bw b)).

Lemma fresh_seg : forall dims p b, blk_ok dims p b -> seg dims 0 (fresh dims p b) (length dims).
Proof.
  intros dims p b Hb. destruct (Hb). unfold fresh. eapply seg_app.
  - apply (@idblocks_seg dims p 0). lia.
  - constructor; [exact Hb|]. simpl.
    replace (length dims) with (p + bw b + (length dims - (p + bw b))) at 2 by lia.
    apply idblocks_seg. lia.
Qed.

Lemma fresh_kern : forall dims p b s t, p + bw b <= length dims -> valid dims s -> valid dims t ->
  lkern (fresh dims p b) s t = K3 p (bw b) (delta S) (bk b) (delta S) s t.
Proof.
  intros dims p b s t Hp Hs Ht. unfold fresh. rewrite (lkern_app L). unfold tensor.
  apply valid_length in Hs. apply valid_length in Ht.
  rewrite idblocks_width. rewrite idblocks_kern by (rewrite firstn_length; lia).
  simpl. unfold tensor. rewrite !skipn_skipn'.
  rewrite idblocks_kern by (rewrite skipn_length; lia). unfold K3. ring.
Qed.

(** The two ways [moment_data] lays out a fresh layer. *)
Lemma layer_int_fresh : forall dims p b, p < length dims -> bw b = 1 ->
  layer_int (map Z.of_nat dims) (Z.of_nat p) (bo b) (length (map Z.of_nat dims)) = map (@bo S) (fresh dims p b).
Proof.
  intros dims p b Hp Hw. unfold layer_int, fresh, idblocks.
  rewrite map_length, map_app, map_cons, !map_map, Hw. simpl bo.
  replace (length dims) with (p + (1 + (length dims - (p + 1)))) at 1 by lia.
  rewrite seq_app, seq_app, !map_app. f_equal; [|cbn [seq map app]; rewrite Nat.add_0_l, Z.eqb_refl; f_equal].
  - apply map_ext_in. intros i Hi. apply in_seq in Hi.
    replace (Z.of_nat i =? Z.of_nat p)%Z with false by (symmetry; apply Z.eqb_neq; lia).
    unfold idop. rewrite nth_map_Z. reflexivity.
  - apply map_ext_in. intros i Hi. apply in_seq in Hi.
    replace (Z.of_nat i =? Z.of_nat p)%Z with false by (symmetry; apply Z.eqb_neq; lia).
    unfold idop. rewrite nth_map_Z. reflexivity.
Qed.

Lemma flat_map_single : forall A B (f : A -> B) l, flat_map (fun x => [f x]) l = map f l.
Proof. intros A B f l; induction l; simpl; congruence. Qed.

Lemma flat_map_ext_in : forall A B (f g : A -> list B) l,
  (forall x, In x l -> f x = g x) -> flat_map f l = flat_map g l.
Proof.
  intros A B f g l; induction l as [|x l IH]; intros H; simpl; [reflexivity|].
  rewrite (H x (or_introl eq_refl)), IH; [reflexivity|]. intros y Hy; apply H; right; exact Hy.
Qed.

Lemma layer_list_fresh : forall dims lo hi b, lo <= hi -> hi < length dims -> bw b = hi - lo + 1 ->
  layer_list (map Z.of_nat dims) (Z.of_nat lo) (Z.of_nat hi) (bo b) (length (map Z.of_nat dims))
  = map (@bo S) (fresh dims lo b).
Proof.
  intros dims lo hi b Hlh Hh Hw. unfold layer_list, fresh, idblocks.
  rewrite map_length, map_app, map_cons, !map_map, Hw. simpl bo.
  replace (length dims) with (lo + (1 + (hi - lo + (length dims - (lo + (hi - lo + 1)))))) at 1 by lia.
  rewrite !seq_app, !flat_map_app. f_equal; [|f_equal].
  - rewrite flat_map_ext_in with (g := fun i => [OI (Z.of_nat i) (Z.of_nat (nth i dims 0))]).
    + apply flat_map_single.
    + intros i Hi. apply in_seq in Hi.
      replace (Z.of_nat lo <=? Z.of_nat i)%Z with false by (symmetry; apply Z.leb_gt; lia). simpl.
      unfold idop. rewrite nth_map_Z. reflexivity.
  - simpl. rewrite app_nil_r.
    replace (Z.of_nat lo <=? Z.of_nat lo)%Z with true by (symmetry; apply Z.leb_le; lia).
    replace (Z.of_nat lo <=? Z.of_nat hi)%Z with true by (symmetry; apply Z.leb_le; lia). simpl.
    replace (Z.of_nat lo =? Z.max 0 (Z.of_nat lo))%Z with true by (symmetry; apply Z.eqb_eq; lia).
    simpl. f_equal.
    rewrite flat_map_ext_in with (g := fun _ : nat => []).
    2: { intros i Hi. apply in_seq in Hi.
         replace (Z.of_nat lo <=? Z.of_nat i)%Z with true by (symmetry; apply Z.leb_le; lia).
         replace (Z.of_nat i <=? Z.of_nat hi)%Z with true by (symmetry; apply Z.leb_le; lia). simpl.
         replace (Z.of_nat i =? Z.max 0 (Z.of_nat lo))%Z with false by (symmetry; apply Z.eqb_neq; lia).
         reflexivity. }
    replace (flat_map (fun _ : nat => []) (seq (lo + 1) (hi - lo))) with (@nil op)
      by (induction (seq (lo + 1) (hi - lo)); simpl; auto).
    simpl. replace (lo + 1 + (hi - lo)) with (lo + (hi - lo + 1)) by lia.
    rewrite flat_map_ext_in with (g := fun i => [OI (Z.of_nat i) (Z.of_nat (nth i dims 0))]).
    + apply flat_map_single.
    + intros i Hi. apply in_seq in Hi.
      replace (Z.of_nat i <=? Z.of_nat hi)%Z with false by (symmetry; apply Z.leb_gt; lia). rewrite andb_false_r.
      unfold idop. rewrite nth_map_Z. reflexivity.
Qed.

(** ** Merging into an identity slot *)
Lemma merge_kern : forall dims bs1 b0 b bs2 p s t,
  seg dims 0 (bs1 ++ b0 :: bs2) (length dims) -> p = width bs1 ->
  bw b0 = bw b -> (forall s t, bk b0 s t = delta S s t) ->
  valid dims s -> valid dims t ->
  lkern (bs1 ++ b :: bs2) s t
  = bsum (fun u => lkern (fresh dims p b) s u *s lkern (bs1 ++ b0 :: bs2) u t) (all_configs dims).
Proof.
  intros dims bs1 b0 b bs2 p s t Hseg Ep Hw Hk Hs Ht.
  pose proof (seg_app_inv _ _ Hseg) as [q [Hs1 Hs2]].
  pose proof (seg_width Hs1) as Eq. simpl in Eq.
  inversion Hs2 as [|p' b' bs' q' Hb0 Hs3]; subst p' b' bs' q'.
  pose proof (bok_in Hb0) as Hin. rewrite Hw in Hin.
  assert (Hd : dims = firstn p dims ++ firstn (bw b) (skipn p dims) ++ skipn (p + bw b) dims) by apply split3.
  assert (L1 : length (firstn p dims) = p) by (rewrite firstn_length; lia).
  assert (L2 : length (firstn (bw b) (skipn p dims)) = bw b) by (rewrite firstn_length, skipn_length; lia).
  assert (Estruct : forall b1, bw b1 = bw b -> forall s t,
            lkern (bs1 ++ b1 :: bs2) s t = K3 p (bw b) (lkern bs1) (bk b1) (lkern bs2) s t).
  { intros b1 Hb1 s' t'. rewrite (lkern_app L). unfold tensor. rewrite <- Ep. simpl. unfold tensor.
    rewrite Hb1, !skipn_skipn'. unfold K3. ring. }
  rewrite (Estruct b eq_refl).
  pose proof (@K3_compose (firstn p dims) (firstn (bw b) (skipn p dims)) (skipn (p + bw b) dims)
               (lkern bs1) (bk b) (lkern bs2) s t) as HC.
  cbv zeta in HC. rewrite L1, L2, <- Hd in HC.
  rewrite <- HC by assumption.
  apply bsum_ext. intros u Hu. apply in_all_configs in Hu.
  rewrite fresh_kern by (assumption || lia). rewrite (Estruct b0) by exact Hw.
  unfold K3. rewrite Hk. reflexivity.
Qed.

(** Replacing an identity block by a block of width one keeps the layer well formed. *)
Lemma merge_seg : forall dims bs1 b0 b (bs2 : list block) q,
  seg dims 0 (bs1 ++ b0 :: bs2) q -> bw b = bw b0 -> blk_ok dims (width bs1) b ->
  seg dims 0 (bs1 ++ b :: bs2) q.
Proof.
  intros dims bs1 b0 b bs2 q Hseg Hw Hb.
  apply seg_app_inv in Hseg as [r [H1 H2]]. pose proof (seg_width H1) as E. simpl in E. subst r.
  eapply seg_app; [exact H1|].
  inversion H2 as [|p' b' bs' q' Hb0 Hs3]; subst. constructor; [exact Hb|]. rewrite Hw. exact Hs3.
Qed.

End Layers.
