(** * RoundBound: growth factors of gates, the numpy backend with rounding,
    and a simpler form of the error bound. *)
From Coq Require Import Reals Lra Psatz Permutation.
From Verif Require Import Py Scalar Mat Utils Gates Circuit Spec Calls Complex ComplexSpec BitSpec RoundSpec
  Lib ComplexLib ComplexGates CNorm RoundLib RoundRun.
Set Implicit Arguments.
Local Open Scope R_scope.

Add Ring Cring : Cscalar_ring.

(** ** Sums *)
Lemma Cconj_add : forall x y, Cconj (Cadd x y) = Cadd (Cconj x) (Cconj y).
Proof. intros. apply C_ext; simpl; ring. Qed.
Lemma Cconj_mul : forall x y, Cconj (Cmul x y) = Cmul (Cconj x) (Cconj y).
Proof. intros. apply C_ext; simpl; ring. Qed.
Lemma Cconj_abs : forall x, Cabs (Cconj x) = Cabs x.
Proof. intros [a b]. unfold Cabs, Cconj; simpl. f_equal. ring. Qed.
Lemma Cconj_0 : Cconj C0 = C0.
Proof. apply C_ext; simpl; ring. Qed.
Lemma Cconj_1 : Cconj C1 = C1.
Proof. apply C_ext; simpl; ring. Qed.
Lemma Cconj_conj : forall x, Cconj (Cconj x) = x.
Proof. intros. apply C_ext; simpl; ring. Qed.

Lemma conj_ctotal : forall A (f : A -> C) l, Cconj (ctotal f l) = ctotal (fun x => Cconj (f x)) l.
Proof. intros A f l; induction l as [|x l IH]; simpl; [apply Cconj_0|]. rewrite Cconj_add, IH. reflexivity. Qed.

Lemma ctotal_swap : forall A B (f : A -> B -> C) la lb,
  ctotal (fun a => ctotal (f a) lb) la = ctotal (fun b => ctotal (fun a => f a b) la) lb.
Proof.
  intros A B f la lb. induction la as [|a la IH]; simpl.
  - induction lb as [|b lb IH]; simpl; [reflexivity|]. rewrite <- IH. apply C_ext; simpl; ring.
  - rewrite IH. rewrite <- ctotal_plus. reflexivity.
Qed.

Lemma ctotal_real : forall A (f : A -> R) l, ctotal (fun x => (f x, 0)) l = (rtotal f l, 0).
Proof. intros A f l; induction l as [|x l IH]; simpl; [reflexivity|]. rewrite IH. apply C_ext; simpl; ring. Qed.

Lemma Cabs_conj : forall x, Cmul x (Cconj x) = (Cabs x ^ 2, 0).
Proof. intros x. rewrite Cabs_sq. apply C_ext; simpl; ring. Qed.

(** ** Growth factors *)
Section Gram.
Variable A : Type.
Variable eqb : A -> A -> bool.
Hypothesis eqb_eq : forall x y, eqb x y = true <-> x = y.

Lemma gram_stretch : forall (l : list A) (m : A -> A -> C) a b, NoDup l -> 0 <= a -> 0 <= b ->
  (forall i k, In i l -> In k l ->
     Cdist (ctotal (fun j => Cmul (m i j) (Cconj (m k j))) l) (if eqb i k then C1 else C0) <= (if eqb i k then a else 0) + b) ->
  stretch l m (sqrt (1 + a + b * INR (length l))).
Proof.
  intros l m a b Hnd Ha Hb H.
  assert (Hn : 0 <= INR (length l)) by apply pos_INR.
  assert (Hc : 0 <= 1 + a + b * INR (length l)) by nra.
  split; [apply sqrt_pos|]. intros x.
  replace (sqrt (1 + a + b * INR (length l)) ^ 2) with (1 + a + b * INR (length l))
    by (symmetry; rewrite <- Rsqr_pow2; apply Rsqr_sqrt; exact Hc).
  set (X := rtotal (fun i => Cabs (x i) ^ 2) l).
  set (T := rtotal (fun j => Cabs (ctotal (fun i => Cmul (x i) (m i j)) l) ^ 2) l).
  set (Gm := fun i k => ctotal (fun j => Cmul (m i j) (Cconj (m k j))) l) in *.
  assert (ET : (T, 0) = ctotal (fun i => ctotal (fun k => Cmul (Cmul (x i) (Cconj (x k))) (Gm i k)) l) l).
  { unfold T. rewrite <- ctotal_real.
    rewrite (@ctotal_ext A _ (fun j => ctotal (fun i => ctotal (fun k => Cmul (Cmul (x i) (Cconj (x k))) (Cmul (m i j) (Cconj (m k j)))) l) l)).
    - rewrite ctotal_swap. apply ctotal_ext. intros i _. rewrite ctotal_swap. apply ctotal_ext. intros k _. unfold Gm. rewrite ctotal_scal. reflexivity.
    - intros j _. rewrite <- Cabs_conj, conj_ctotal, <- ctotal_scal_r. apply ctotal_ext. intros i _.
      rewrite <- ctotal_scal. apply ctotal_ext. intros k _. rewrite Cconj_mul. ring. }
  assert (EX : (X, 0) = ctotal (fun i => ctotal (fun k => Cmul (Cmul (x i) (Cconj (x k))) (if eqb i k then C1 else C0)) l) l).
  { unfold X. rewrite <- ctotal_real. apply ctotal_ext. intros i Hi.
    rewrite (@ctotal_one A _ l i Hnd Hi).
    - rewrite (proj2 (eqb_eq i i) eq_refl), <- Cabs_conj. ring.
    - intros k _ Hk. destruct (eqb i k) eqn:E; [apply eqb_eq in E; congruence | ring]. }
  assert (HX : 0 <= X) by (apply rtotal_pos; intros; apply pow2_ge_0).
  assert (HT : 0 <= T) by (apply rtotal_pos; intros; apply pow2_ge_0).
  assert (HD : Cdist (T, 0) (X, 0) <= rtotal (fun i => rtotal (fun k => Cabs (x i) * Cabs (x k) * ((if eqb i k then a else 0) + b)) l) l).
  { rewrite ET, EX. eapply Rle_trans; [apply ctotal_dist|]. apply rtotal_le. intros i Hi.
    eapply Rle_trans; [apply ctotal_dist|]. apply rtotal_le. intros k Hk.
    rewrite Cdist_mul_l, Cabs_mul, Cconj_abs. apply Rmult_le_compat_l; [apply Rmult_le_pos; apply Cabs_pos | apply H; assumption]. }
  assert (HS : rtotal (fun i => rtotal (fun k => Cabs (x i) * Cabs (x k) * ((if eqb i k then a else 0) + b)) l) l
               = a * X + b * (rtotal (fun i => Cabs (x i)) l) ^ 2).
  { unfold X. rewrite <- rtotal_scal. replace (rtotal (fun i => Cabs (x i)) l ^ 2) with (rtotal (fun i => Cabs (x i)) l * rtotal (fun i => Cabs (x i)) l) by ring.
    rewrite <- rtotal_scal_r, <- rtotal_scal, <- rtotal_plus. apply rtotal_ext. intros i Hi.
    rewrite <- !rtotal_scal.
    rewrite (@rtotal_ext A _ (fun k => Cabs (x i) * Cabs (x k) * (if eqb i k then a else 0) + b * (Cabs (x i) * Cabs (x k)))) by (intros; ring).
    rewrite rtotal_plus. f_equal.
    clear - eqb_eq Hnd Hi. induction l as [|y l IH]; [contradiction|]. inversion Hnd; subst. simpl.
    destruct Hi as [->|Hi].
    - rewrite (proj2 (eqb_eq i i) eq_refl). rewrite rtotal_zero; [ring|]. intros k Hk. destruct (eqb i k) eqn:E; [apply eqb_eq in E; subst; contradiction | ring].
    - rewrite IH by assumption. destruct (eqb i y) eqn:E; [apply eqb_eq in E; subst; contradiction | ring]. }
  assert (HC : (rtotal (fun i => Cabs (x i)) l) ^ 2 <= INR (length l) * X).
  { pose proof (@cauchy A (fun i => Cabs (x i)) (fun _ => 1) l) as HC.
    rewrite (@rtotal_ext A (fun i => Cabs (x i) * 1) (fun i => Cabs (x i))) in HC by (intros; ring).
    rewrite (@rtotal_ext A (fun i => 1 ^ 2) (fun _ => 1)) in HC by (intros; ring).
    rewrite rtotal_const in HC. fold X in HC. lra. }
  pose proof (Cabs_le (T, 0) (X, 0)) as HL. rewrite !Cabs_real in HL by assumption.
  rewrite HS in HD. assert (b * rtotal (fun i => Cabs (x i)) l ^ 2 <= b * (INR (length l) * X)) by (apply Rmult_le_compat_l; assumption).
  nra.
Qed.

(** A matrix and its transpose have the same growth factors. *)
Lemma stretch_transpose : forall (l : list A) (m : A -> A -> C) c, stretch l (fun i j => m j i) c -> stretch l m c.
Proof.
  intros l m c [Hc H]. split; [exact Hc|]. intros x.
  set (y := fun j => ctotal (fun i => Cmul (x i) (m i j)) l).
  set (w := fun j => Cconj (y j)).
  set (v := fun i => ctotal (fun j => Cmul (w j) (m i j)) l).
  set (X := rtotal (fun i => Cabs (x i) ^ 2) l).
  set (T := rtotal (fun j => Cabs (y j) ^ 2) l).
  set (V := rtotal (fun i => Cabs (v i) ^ 2) l).
  assert (HV : V <= c ^ 2 * T).
  { unfold V, T. eapply Rle_trans; [apply (H w)|]. apply Rmult_le_compat_l; [apply pow2_ge_0|].
    apply Req_le, rtotal_ext. intros j _. unfold w. rewrite Cconj_abs. reflexivity. }
  assert (HT : 0 <= T) by (apply rtotal_pos; intros; apply pow2_ge_0).
  assert (HX : 0 <= X) by (apply rtotal_pos; intros; apply pow2_ge_0).
  assert (E : (T, 0) = ctotal (fun i => Cmul (x i) (v i)) l).
  { unfold T. rewrite <- ctotal_real.
    rewrite (@ctotal_ext A _ (fun j => ctotal (fun i => Cmul (x i) (Cmul (w j) (m i j))) l)).
    - rewrite ctotal_swap. apply ctotal_ext. intros i _. unfold v. rewrite ctotal_scal. reflexivity.
    - intros j _. rewrite <- Cabs_conj. fold (w j). unfold y at 1. rewrite <- ctotal_scal_r. apply ctotal_ext. intros. ring. }
  assert (HT2 : T <= len2 (fun i => Cabs (x i)) l * len2 (fun i => Cabs (v i)) l).
  { rewrite <- (Cabs_real HT), E. eapply Rle_trans; [apply ctotal_abs|].
    eapply Rle_trans; [apply Req_le, rtotal_ext; intros; apply Cabs_mul|]. apply len2_cauchy. }
  pose proof (len2_sq (fun i => Cabs (x i)) l) as SX. pose proof (len2_sq (fun i => Cabs (v i)) l) as SV.
  fold X in SX. fold V in SV.
  assert (HT3 : T ^ 2 <= X * (c ^ 2 * T)).
  { eapply Rle_trans; [apply pow_incr; split; [exact HT | exact HT2]|]. rewrite Rpow_mult_distr, SX, SV. apply Rmult_le_compat_l; assumption. }
  change (T <= c ^ 2 * X). destruct (Req_dec T 0) as [Hz|Hz]; [rewrite Hz; apply Rmult_le_pos; [apply pow2_ge_0 | exact HX]|].
  apply Rmult_le_reg_l with T; [lra|]. simpl in *. lra.
Qed.

(** Exactly orthonormal columns, or rows. *)
Lemma columns_stretch : forall (l : list A) (m : A -> A -> C), NoDup l ->
  (forall i k, In i l -> In k l -> ctotal (fun j => Cmul (Cconj (m j i)) (m j k)) l = if eqb i k then C1 else C0) -> stretch l m 1.
Proof.
  intros l m Hnd H. apply stretch_transpose.
  replace 1 with (sqrt (1 + 0 + 0 * INR (length l))) by (rewrite Rmult_0_l, !Rplus_0_r; apply sqrt_1).
  apply gram_stretch; [exact Hnd | lra | lra|]. intros i k Hi Hk.
  replace (ctotal (fun j => Cmul (m j i) (Cconj (m j k))) l) with (Cconj (if eqb i k then C1 else C0)).
  - destruct (eqb i k); rewrite ?Cconj_1, ?Cconj_0, Cdist_refl; lra.
  - rewrite <- (H i k Hi Hk), conj_ctotal. apply ctotal_ext. intros j _. rewrite Cconj_mul, Cconj_conj. reflexivity.
Qed.

(** What numpy's test lets pass. *)
Lemma accepted_stretch : forall ord (l : list A) (m : A -> A -> Cscalar ord), NoDup l -> orthonormal_rows (Cscalar ord) eqb l m ->
  stretch l m (sqrt (1 + 2 / 100000 + 2 / 100000000 * INR (length l))).
Proof.
  intros ord l m Hnd H. apply gram_stretch; [exact Hnd | lra | lra|]. intros i k Hi Hk.
  specialize (H i k Hi Hk). rewrite total_ctotal in H. cbn in H.
  set (g := ctotal _ l) in *. rewrite Cdist_sym. unfold Cclose in H.
  destruct (Rle_dec _ _) as [H'|]; [clear H|discriminate]. fold (Cdist (if eqb i k then C1 else C0) g) in H'.
  pose proof (Cabs_le g (if eqb i k then C1 else C0)) as HL. rewrite Cdist_sym in HL.
  destruct (eqb i k); rewrite ?Cabs_C1, ?Cabs_C0 in HL; lra.
Qed.
End Gram.

Lemma seq_eqb : forall x y : nat, (x =? y)%nat = true <-> x = y.
Proof. intros. apply Nat.eqb_eq. Qed.

Lemma exact_gain : forall ord dims g, orders ord -> gate_ok dims g -> (forall r, g = GH r -> one_last ord (nth r dims 0%nat)) ->
  exact dims g -> gain (ord := ord) dims g 1.
Proof.
  intros ord dims g Hord Hok Hl Hx. destruct g; cbn [exact gain gate_ok] in *; try reflexivity; auto.
  2:{ rewrite (proj2 (Nat.eqb_neq _ _) Hx). reflexivity. }
  - apply (columns_stretch Nat.eqb seq_eqb); [apply seq_NoDup|]. intros i k Hi Hk. apply in_seq in Hi, Hk.
    pose proof (@had_unitary ord Hord (nth r dims 0%nat) Hx (Hl r eq_refl) i k) as [H _]; [lia | lia|].
    rewrite bsum_ctotal in H. exact H.
  - apply (columns_stretch Nat.eqb seq_eqb); [apply seq_NoDup|]. intros i k Hi Hk. specialize (Hx i k Hi Hk). rewrite total_ctotal in Hx. exact Hx.
  - apply (columns_stretch config_eqb config_eqb_eq); [apply all_configs_NoDup|]. intros i j Hi Hj. specialize (Hx i j Hi Hj). rewrite total_ctotal in Hx. exact Hx.
Qed.

(** ** The numpy backend *)
Section Numpy.
Variable F : scalar.
Variable val : F -> C.
Variable ord : nat -> list nat.
Variable u : R.
Variable e : nat.
Hypothesis RD : rounded F val ord u e.
Notation NF := (NumpyBackend F).

Lemma sum_rounded : forall A (f : A -> F) (g : A -> C) l, (forall x, In x l -> Cdist (val (f x)) (g x) <= u * Cabs (g x)) ->
  Cdist (val (bsum f l)) (ctotal g l) <= err u (length l + 1) * rtotal (fun x => Cabs (g x)) l.
Proof.
  pose proof (rd_u RD) as Hu.
  intros A f g l; induction l as [|x l IH]; intros H.
  - simpl. rewrite (rd_0 RD), Cdist_refl. lra.
  - cbn [bsum fold_right ctotal rtotal length]. fold (bsum f l).
    specialize (IH (fun y Hy => H y (or_intror Hy))). specialize (H x (or_introl eq_refl)).
    set (T := rtotal (fun x => Cabs (g x)) l) in *. set (s := bsum f l) in *. set (t := ctotal g l) in *.
    assert (Ht : Cabs t <= T) by apply ctotal_abs.
    pose proof (rd_add RD (f x) s) as Ha.
    assert (HT : 0 <= T) by (eapply Rle_trans; [apply Cabs_pos | exact Ht]).
    pose proof (Cabs_pos (g x)) as Hg.
    assert (D1 : Cdist (Cadd (val (f x)) (val s)) (Cadd (g x) t) <= u * Cabs (g x) + err u (length l + 1) * T).
    { assert (D0 : Cdist (Cadd (val (f x)) (val s)) (Cadd (g x) t) <= Cdist (val (f x)) (g x) + Cdist (val s) t).
      { unfold Cdist. replace (Cadd (Cadd (val (f x)) (val s)) (Copp (Cadd (g x) t)))
          with (Cadd (Cadd (val (f x)) (Copp (g x))) (Cadd (val s) (Copp t))) by ring. apply Cabs_add. }
      lra. }
    assert (A1 : Cabs (Cadd (val (f x)) (val s)) <= Cabs (g x) + T + (u * Cabs (g x) + err u (length l + 1) * T)).
    { eapply Rle_trans; [apply (Cabs_le _ (Cadd (g x) t))|]. pose proof (Cabs_add (g x) t). lra. }
    pose proof (Cdist_tri (val (sadd (f x) s)) (Cadd (val (f x)) (val s)) (Cadd (g x) t)) as TR.
    assert (E2 : err u (S (length l) + 1) = (1 + u) * (1 + err u (length l + 1)) - 1).
    { unfold err. replace (S (length l) + 1)%nat with (S (length l + 1)) by lia. cbn [pow]. ring. }
    assert (E1 : u <= err u (length l + 1)) by (rewrite <- (err_1 u) at 1; apply err_mono; [exact Hu | lia]).
    assert (u * Cabs (Cadd (val (f x)) (val s)) <= u * (Cabs (g x) + T + (u * Cabs (g x) + err u (length l + 1) * T)))
      by (apply Rmult_le_compat_l; assumption).
    rewrite E2. set (k := err u (length l + 1)) in *.
    assert (0 <= (k - u) * (Cabs (g x) * (1 + u))) by (repeat apply Rmult_le_pos; lra).
    nra.
Qed.

Lemma numpy_rounded : computes_rounded val u NF (fun _ => True).
Proof.
  constructor; unfold sized, rows, cols, entry; cbn [b_toarray b_matrix b_eye b_trans b_kron b_dot NumpyBackend].
  - intros m. auto.
  - intros n m. unfold deye. cbn [mkmat mr mc]. split; [auto|]. intros i j Hi Hj. rewrite mget_mkmat by assumption.
    destruct (i =? j)%nat; [apply (rd_1 RD) | apply (rd_0 RD)].
  - intros a r c [_ [<- <-]]. unfold dtrans. cbn [mkmat mr mc]. split; [auto|]. intros i j Hi Hj. rewrite mget_mkmat by assumption. reflexivity.
  - intros a b r c r' c' [_ [<- <-]] [_ [<- <-]]. unfold dkron. cbn [mkmat mr mc]. split; [auto|]. intros i j Hi Hj.
    rewrite mget_mkmat by assumption. apply (rd_mul RD).
  - intros a b r n c [_ [<- <-]] [_ [E <-]]. unfold ddot. rewrite E, Nat.eqb_refl. eexists. split; [reflexivity|].
    cbn [mkmat mr mc]. split; [auto|]. intros i j Hi Hj. rewrite mget_mkmat by assumption.
    eapply Rle_trans; [apply (@sum_rounded nat _ (fun k => Cmul (val (mget a i k)) (val (mget b k j))))|].
    + intros k _. apply (rd_mul RD).
    + rewrite seq_length. apply Req_le. f_equal. apply rtotal_ext. intros k _. apply Cabs_mul.
Qed.
End Numpy.

(** ** A simpler bound *)
Lemma pow_err : forall x n, 0 <= x -> INR n * x <= 1 -> (1 + x) ^ n - 1 <= 2 * (INR n * x).
Proof.
  intros x n Hx Hn.
  assert (H : forall k, (k <= n)%nat -> (1 + x) ^ k <= 1 + INR k * x + (INR k * x) ^ 2).
  { induction k as [|k IH]; intros Hk; [simpl; lra|]. specialize (IH ltac:(lia)).
    assert (Hk1 : INR k * x <= 1).
    { eapply Rle_trans; [|exact Hn]. apply Rmult_le_compat_r; [exact Hx|]. apply le_INR. lia. }
    assert (Hk1' : INR (S k) * x <= 1).
    { eapply Rle_trans; [|exact Hn]. apply Rmult_le_compat_r; [exact Hx|]. apply le_INR. lia. }
    pose proof (pos_INR k) as Hp. rewrite S_INR in *. cbn [pow] in *. set (y := INR k * x) in *.
    assert (0 <= y) by (apply Rmult_le_pos; assumption).
    assert ((1 + x) * (1 + x) ^ k <= (1 + x) * (1 + y + y * (y * 1))) by (apply Rmult_le_compat_l; [lra | exact IH]).
    replace ((INR k + 1) * x) with (y + x) in * by (unfold y; ring).
    assert (0 <= x * y * (1 - y)) by (apply Rmult_le_pos; [apply Rmult_le_pos; assumption | lra]). pose proof (Rmult_le_pos _ _ Hx Hx). lra. }
  specialize (H n (Nat.le_refl n)). assert (0 <= INR n * x) by (apply Rmult_le_pos; [apply pos_INR | exact Hx]). nra.
Qed.

Lemma bound_simple : forall u e dims m cs, 0 <= u -> 0 <= rprod cs ->
  INR (roundings e dims) * u <= 1 ->
  2 * INR (m + 1) * sqrt (INR (prodn dims)) * INR (roundings e dims) * u <= 1 ->
  bound u e dims m cs <= 4 * INR (m + 1) * INR (prodn dims) * INR (roundings e dims) * u * rprod cs.
Proof.
  intros u e dims m cs Hu Hc H1 H2. unfold bound.
  set (k := roundings e dims) in *. set (N := prodn dims) in *. set (sn := sqrt (INR N)) in *.
  assert (Hs : 0 <= sn) by apply sqrt_pos.
  assert (HN : sn * sn = INR N) by (apply sqrt_sqrt, pos_INR).
  assert (He : err u k <= 2 * (INR k * u)) by (apply pow_err; assumption).
  pose proof (@err_pos u k Hu) as He0.
  pose proof (pos_INR (m + 1)) as Hm.
  assert (Hx : 0 <= sn * err u k) by (apply Rmult_le_pos; assumption).
  assert (Hx2 : sn * err u k <= sn * (2 * (INR k * u))) by (apply Rmult_le_compat_l; assumption).
  assert (Hx3 : INR (m + 1) * (sn * err u k) <= INR (m + 1) * (sn * (2 * (INR k * u)))) by (apply Rmult_le_compat_l; assumption).
  assert (Hp : (1 + sn * err u k) ^ (m + 1) - 1 <= 2 * (INR (m + 1) * (sn * err u k))) by (apply pow_err; [exact Hx | lra]).
  eapply Rle_trans; [apply Rmult_le_compat_l; [apply Rmult_le_pos; assumption|]|].
  - eapply Rle_trans; [exact Hp|]. apply Rmult_le_compat_l; [lra | exact Hx3].
  - apply Req_le. rewrite <- HN. ring.
Qed.
