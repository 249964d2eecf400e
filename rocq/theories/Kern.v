(** * Kern: matrices as transition kernels between configurations; layers. *)
From Verif Require Import Py Scalar Mat Utils Gates Circuit Spec Lib.
Set Implicit Arguments.

Section Kern.
Variable S : scalar.
Hypothesis L : scalar_laws S.
Add Ring Sring : (sl_ring L).
Notation mat := (mat S).
Notation op := (op S).
Notation NB := (NumpyBackend S).
Notation kernel := (config -> config -> S).

(** [M] has a row per configuration of [rd], a column per configuration of
    [cd], and entries given by [K]. *)
Record repr (rd cd : list nat) (M : mat) (K : kernel) : Prop := {
  repr_mr : mr M = prodn rd;
  repr_mc : mc M = prodn cd;
  repr_get : forall s t, valid rd s -> valid cd t -> mget M (lin rd s) (lin cd t) = K s t }.

Lemma repr_ext : forall rd cd M K K',
  (forall s t, valid rd s -> valid cd t -> K s t = K' s t) -> repr rd cd M K -> repr rd cd M K'.
Proof.
  intros rd cd M K K' E [H1 H2 H3]. constructor; auto.
  intros s t Hs Ht. rewrite <- E by assumption. auto.
Qed.

(** A matrix given entry by entry through indices. *)
Lemma repr_mkmat : forall rd cd f,
  repr rd cd (mkmat (prodn rd) (prodn cd) f) (fun s t => f (lin rd s) (lin cd t)).
Proof.
  intros rd cd f. constructor; try reflexivity.
  intros s t Hs Ht. rewrite mget_mkmat by (apply lin_lt; assumption). reflexivity.
Qed.

Definition tensor (n m : nat) (K1 K2 : kernel) : kernel :=
  fun s t => smul (K1 (firstn n s) (firstn m t)) (K2 (skipn n s) (skipn m t)).

Lemma firstn_app_exact : forall A (l1 l2 : list A) n, length l1 = n -> firstn n (l1 ++ l2) = l1.
Proof. intros A l1 l2 n <-. rewrite firstn_app, Nat.sub_diag, firstn_all, firstn_O, app_nil_r. reflexivity. Qed.
Lemma skipn_app_exact : forall A (l1 l2 : list A) n, length l1 = n -> skipn n (l1 ++ l2) = l2.
Proof. intros A l1 l2 n <-. rewrite skipn_app, Nat.sub_diag, skipn_all. reflexivity. Qed.

Lemma lin_split : forall d1 d2 s, valid (d1 ++ d2) s ->
  lin (d1 ++ d2) s = lin d1 (firstn (length d1) s) * prodn d2 + lin d2 (skipn (length d1) s).
Proof.
  intros d1 d2 s H. pose proof (valid_length H) as Hl. rewrite app_length in Hl.
  rewrite <- (firstn_skipn (length d1) s) at 1.
  apply lin_app. rewrite firstn_length. lia.
Qed.

Lemma valid_app_l : forall d1 d2 s, valid (d1 ++ d2) s -> valid d1 (firstn (length d1) s).
Proof.
  intros d1 d2 s H. apply valid_firstn with (n := length d1) in H.
  rewrite firstn_app_exact in H by reflexivity. exact H.
Qed.
Lemma valid_app_r : forall d1 d2 s, valid (d1 ++ d2) s -> valid d2 (skipn (length d1) s).
Proof.
  intros d1 d2 s H. apply valid_skipn with (n := length d1) in H.
  rewrite skipn_app_exact in H by reflexivity. exact H.
Qed.

Lemma repr_kron : forall rd1 cd1 rd2 cd2 A B K1 K2,
  repr rd1 cd1 A K1 -> repr rd2 cd2 B K2 ->
  repr (rd1 ++ rd2) (cd1 ++ cd2) (dkron A B) (tensor (length rd1) (length cd1) K1 K2).
Proof.
  intros rd1 cd1 rd2 cd2 A B K1 K2 [A1 A2 A3] [B1 B2 B3].
  constructor; simpl; try (rewrite prodn_app; congruence).
  intros s t Hs Ht. unfold dkron, tensor.
  rewrite A1, A2, B1, B2.
  pose proof (lin_lt Hs) as Ls. pose proof (lin_lt Ht) as Lt. rewrite prodn_app in Ls, Lt.
  rewrite mget_mkmat by assumption.
  rewrite (lin_split _ _ Hs), (lin_split _ _ Ht).
  pose proof (valid_app_l _ _ Hs) as V1. pose proof (valid_app_r _ _ Hs) as V2.
  pose proof (valid_app_l _ _ Ht) as V3. pose proof (valid_app_r _ _ Ht) as V4.
  pose proof (lin_lt V2) as L2. pose proof (lin_lt V4) as L4.
  rewrite !Nat.div_add_l, !Nat.div_small, !Nat.add_0_r by lia.
  rewrite (Nat.add_comm (_ * prodn rd2)), (Nat.add_comm (_ * prodn cd2)).
  rewrite !Nat.mod_add, !Nat.mod_small by lia.
  rewrite A3, B3 by assumption. reflexivity.
Qed.

Lemma repr_dot : forall rd md cd A B K1 K2,
  repr rd md A K1 -> repr md cd B K2 ->
  exists M, ddot A B = Ok M /\
    repr rd cd M (fun s t => bsum (fun u => smul (K1 s u) (K2 u t)) (all_configs md)).
Proof.
  intros rd md cd A B K1 K2 [A1 A2 A3] [B1 B2 B3].
  unfold ddot. rewrite A2, B1, Nat.eqb_refl. eexists. split; [reflexivity|].
  rewrite A1, B2. eapply repr_ext; [|apply repr_mkmat].
  intros s t Hs Ht. simpl. rewrite bsum_seq_configs.
  apply bsum_ext; intros u Hu. apply in_all_configs in Hu.
  rewrite A3, B3 by assumption. reflexivity.
Qed.

(** ** Blocks: one operation of a layer, occupying [bw] registers. *)
Record block : Type := { bo : op; bw : nat; bk : kernel }.

Definition sub (dims : list nat) (pos w : nat) : list nat := firstn w (skipn pos dims).

Lemma sub_length : forall dims pos w, pos + w <= length dims -> length (sub dims pos w) = w.
Proof. intros dims pos w H. unfold sub. rewrite firstn_length, skipn_length. lia. Qed.

Lemma skipn_sub : forall dims pos w, skipn pos dims = sub dims pos w ++ skipn (pos + w) dims.
Proof. intros dims pos w. unfold sub. rewrite <- skipn_skipn'. symmetry. apply firstn_skipn. Qed.

Lemma sub_1 : forall dims pos, pos < length dims -> sub dims pos 1 = [nth pos dims 0].
Proof.
  induction dims as [|d ds IH]; intros [|pos] H; simpl in *; try lia; [reflexivity|].
  apply IH. lia.
Qed.

Record blk_ok (dims : list nat) (pos : nat) (b : block) : Prop := {
  bok_w : 0 < bw b;
  bok_in : pos + bw b <= length dims;
  bok_u : exists M, unitary NB (bo b) = Ok M /\ repr (sub dims pos (bw b)) (sub dims pos (bw b)) M (bk b);
  bok_acts : exists a, acting_members (bo b) = Ok a /\
             forall q, zmem q a = true -> (Z.of_nat pos <= q < Z.of_nat (pos + bw b))%Z;
  bok_i : is_igate (bo b) = true ->
          bo b = OI (Z.of_nat pos) (Z.of_nat (nth pos dims 0)) /\ bw b = 1 /\
          forall s t, bk b s t = delta S s t;
  bok_m : is_meas (bo b) = false }.

(** A run of blocks covering the registers from [pos] to [pos']. *)
Inductive seg (dims : list nat) : nat -> list block -> nat -> Prop :=
| seg_nil : forall pos, pos <= length dims -> seg dims pos [] pos
| seg_cons : forall pos b bs pos', blk_ok dims pos b -> seg dims (pos + bw b) bs pos' ->
             seg dims pos (b :: bs) pos'.

Lemma seg_app : forall dims bs1 bs2 p q r,
  seg dims p bs1 q -> seg dims q bs2 r -> seg dims p (bs1 ++ bs2) r.
Proof. intros dims bs1 bs2 p q r H; induction H; intros H2; simpl; auto. constructor; auto. Qed.

Lemma seg_app_inv : forall dims bs1 bs2 p r,
  seg dims p (bs1 ++ bs2) r -> exists q, seg dims p bs1 q /\ seg dims q bs2 r.
Proof.
  intros dims bs1; induction bs1 as [|b bs1 IH]; intros bs2 p r H; simpl in H.
  - exists p. split; [|exact H]. constructor.
    inversion H; subst; [assumption|]. destruct H0. lia.
  - inversion H as [|p' b' bs' r' Hb Hs]; subst. apply IH in Hs as [q [H1 H2]].
    exists q. split; [constructor; assumption | exact H2].
Qed.

Lemma seg_le : forall dims p bs q, seg dims p bs q -> p <= q /\ q <= length dims.
Proof.
  intros dims p bs q H; induction H as [p Hp|p b bs q Hb Hs IH]; [lia|].
  destruct Hb; lia.
Qed.

Definition width (bs : list block) : nat := fold_right (fun b n => bw b + n) 0 bs.

Lemma seg_width : forall dims p bs q, seg dims p bs q -> q = p + width bs.
Proof. intros dims p bs q H; induction H; simpl; lia. Qed.

Fixpoint lkern (bs : list block) : kernel :=
  match bs with
  | [] => fun _ _ => s1
  | b :: bs' => tensor (bw b) (bw b) (bk b) (lkern bs')
  end.

Lemma lkern_app : forall bs1 bs2 s t,
  lkern (bs1 ++ bs2) s t = tensor (width bs1) (width bs1) (lkern bs1) (lkern bs2) s t.
Proof.
  induction bs1 as [|b bs1 IH]; intros bs2 s t; unfold tensor; simpl.
  - ring.
  - unfold tensor at 1. rewrite IH. unfold tensor.
    rewrite !skipn_skipn'. rewrite !skipn_firstn_comm, !firstn_firstn.
    replace (Nat.min (bw b) (bw b + width bs1)) with (bw b) by lia.
    replace (bw b + width bs1 - bw b) with (width bs1) by lia. ring.
Qed.

(** ** Executing a layer *)
Lemma fold_kron : forall dims bs p q d1 A Ka,
  seg dims p bs q -> repr d1 d1 A Ka ->
  exists M,
    fold_left (fun acc h => a <- acc ;; b <- unitary NB h ;; Ok (b_kron a b)) (map bo bs) (Ok A) = Ok M /\
    repr (d1 ++ sub dims p (width bs)) (d1 ++ sub dims p (width bs)) M
         (tensor (length d1) (length d1) Ka (lkern bs)).
Proof.
  intros dims bs; induction bs as [|b bs IH]; intros p q d1 A Ka Hs HA; simpl.
  - exists A. split; [reflexivity|]. unfold sub; simpl. rewrite app_nil_r.
    eapply repr_ext; [|exact HA]. intros s t Hs' Ht'. unfold tensor.
    apply valid_length in Hs'. apply valid_length in Ht'.
    rewrite <- Hs' at 1. rewrite <- Ht', !firstn_all. ring.
  - inversion Hs as [|p' b' bs' q' Hb Hs']; subst.
    destruct (bok_u Hb) as [Mb [Eu Rb]]. rewrite Eu. simpl.
    destruct (@IH (p + bw b) q (d1 ++ sub dims p (bw b)) (dkron A Mb)
                 (tensor (length d1) (length d1) Ka (bk b)) Hs') as [M [E R]].
    { apply repr_kron; assumption. }
    exists M. split; [exact E|].
    assert (Esub : sub dims p (bw b) ++ sub dims (p + bw b) (width bs) = sub dims p (bw b + width bs)).
    { pose proof (seg_width Hs'). pose proof (seg_le Hs') as [_ Hle]. unfold sub.
      rewrite <- skipn_skipn'.
      rewrite <- (firstn_skipn (bw b) (firstn (bw b + width bs) (skipn p dims))).
      rewrite firstn_firstn, skipn_firstn_comm.
      replace (Nat.min (bw b) (bw b + width bs)) with (bw b) by lia.
      replace (bw b + width bs - bw b) with (width bs) by lia. reflexivity. }
    rewrite <- app_assoc, Esub in R.
    eapply repr_ext; [|exact R]. intros s t _ _. unfold tensor.
    rewrite app_length, sub_length by (destruct Hb; assumption).
    rewrite <- !skipn_skipn', !skipn_firstn_comm, !firstn_firstn.
    replace (Nat.min (length d1) (length d1 + bw b)) with (length d1) by lia.
    replace (length d1 + bw b - length d1) with (bw b) by lia. ring.
Qed.

Lemma exec_layer : forall dims bs,
  seg dims 0 bs (length dims) -> dims <> [] ->
  exists M, moment_exec NB (map bo bs) = Ok M /\ repr dims dims M (lkern bs).
Proof.
  intros dims bs Hs Hne. pose proof (seg_width Hs) as Hw.
  destruct bs as [|b bs].
  - simpl in Hw. destruct dims; [contradiction | simpl in Hw; lia].
  - inversion Hs as [|p' b' bs' q' Hb Hs']; subst. simpl.
    destruct (bok_u Hb) as [Mb [Eu Rb]]. rewrite Eu. simpl.
    destruct (@fold_kron dims bs (0 + bw b) (length dims) _ Mb (bk b) Hs' Rb) as [M [E R]].
    exists M. split; [exact E|].
    assert (Ed : sub dims 0 (bw b) ++ sub dims (0 + bw b) (width bs) = dims).
    { unfold sub. simpl in *.
      rewrite (firstn_all2 (n := width bs)) by (rewrite skipn_length; lia). apply firstn_skipn. }
    rewrite Ed in R. rewrite sub_length in R by (destruct Hb; assumption). exact R.
Qed.

End Kern.
