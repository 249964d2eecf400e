(** * CNorm: moduli of complex numbers, sums, and lengths of vectors. *)
From Coq Require Import Reals Lra Psatz.
From Verif Require Import Py Scalar Mat Spec Complex ComplexSpec RoundSpec Lib ComplexLib.
Set Implicit Arguments.
Local Open Scope R_scope.

(** ** Moduli *)
Lemma Cabs_pos : forall x, 0 <= Cabs x.
Proof. intros x. apply sqrt_pos. Qed.

Lemma Cabs_sq : forall x, Cabs x ^ 2 = fst x * fst x + snd x * snd x.
Proof. intros x. unfold Cabs. simpl. rewrite Rmult_1_r. apply sqrt_sqrt. nra. Qed.

Lemma sq_le : forall a b, 0 <= b -> a ^ 2 <= b ^ 2 -> a <= b.
Proof. intros a b Hb H. nra. Qed.

Lemma sq_eq : forall a b, 0 <= a -> 0 <= b -> a ^ 2 = b ^ 2 -> a = b.
Proof. intros a b Ha Hb H. apply Rle_antisym; apply sq_le; lra. Qed.

Lemma Cabs_mul : forall x y, Cabs (Cmul x y) = Cabs x * Cabs y.
Proof.
  intros x y. apply sq_eq; [apply Cabs_pos | apply Rmult_le_pos; apply Cabs_pos|].
  rewrite Rpow_mult_distr, !Cabs_sq. simpl. ring.
Qed.

Lemma Cabs_C0 : Cabs C0 = 0.
Proof. unfold Cabs, C0; simpl. replace (0 * 0 + 0 * 0) with 0 by ring. apply sqrt_0. Qed.
Lemma Cabs_C1 : Cabs C1 = 1.
Proof. unfold Cabs, C1; simpl. replace (1 * 1 + 0 * 0) with 1 by ring. apply sqrt_1. Qed.
Lemma Cabs_opp : forall x, Cabs (Copp x) = Cabs x.
Proof. intros x. unfold Cabs; simpl. f_equal. ring. Qed.
Lemma Cabs_real : forall a, 0 <= a -> Cabs (a, 0) = a.
Proof. intros a Ha. unfold Cabs; simpl. replace (a * a + 0 * 0) with (a * a) by ring. apply sqrt_square, Ha. Qed.

Lemma Cabs_0 : forall x, Cabs x = 0 -> x = C0.
Proof.
  intros x H. assert (E := Cabs_sq x). rewrite H in E. apply C_ext; simpl; nra.
Qed.

Lemma Cabs_add : forall x y, Cabs (Cadd x y) <= Cabs x + Cabs y.
Proof.
  intros x y. apply sq_le; [pose proof (Cabs_pos x); pose proof (Cabs_pos y); lra|].
  replace ((Cabs x + Cabs y) ^ 2) with (Cabs x ^ 2 + Cabs y ^ 2 + 2 * (Cabs x * Cabs y)) by ring.
  rewrite !Cabs_sq. simpl.
  assert (H : fst x * fst y + snd x * snd y <= Cabs x * Cabs y).
  { apply sq_le; [apply Rmult_le_pos; apply Cabs_pos|]. rewrite Rpow_mult_distr, !Cabs_sq.
    pose proof (pow2_ge_0 (fst x * snd y - snd x * fst y)). nra. }
  nra.
Qed.

Lemma Cdist_refl : forall x, Cdist x x = 0.
Proof. intros x. unfold Cdist. replace (Cadd x (Copp x)) with C0 by (apply C_ext; simpl; ring). apply Cabs_C0. Qed.
Lemma Cdist_pos : forall x y, 0 <= Cdist x y.
Proof. intros. apply Cabs_pos. Qed.
Lemma Cdist_sym : forall x y, Cdist x y = Cdist y x.
Proof. intros x y. unfold Cdist. rewrite <- Cabs_opp. f_equal. apply C_ext; simpl; ring. Qed.
Lemma Cdist_tri : forall x y z, Cdist x z <= Cdist x y + Cdist y z.
Proof.
  intros x y z. unfold Cdist. replace (Cadd x (Copp z)) with (Cadd (Cadd x (Copp y)) (Cadd y (Copp z))) by (apply C_ext; simpl; ring).
  apply Cabs_add.
Qed.
Lemma Cabs_le : forall x y, Cabs x <= Cabs y + Cdist x y.
Proof.
  intros x y. unfold Cdist. replace x with (Cadd y (Cadd x (Copp y))) at 1 by (apply C_ext; simpl; ring). apply Cabs_add.
Qed.
Lemma Cdist_mul_l : forall x y z, Cdist (Cmul x y) (Cmul x z) = Cabs x * Cdist y z.
Proof. intros x y z. unfold Cdist. rewrite <- Cabs_mul. f_equal. apply C_ext; simpl; ring. Qed.
Lemma Cdist_mul_r : forall x y z, Cdist (Cmul y x) (Cmul z x) = Cdist y z * Cabs x.
Proof. intros x y z. unfold Cdist. rewrite <- Cabs_mul. f_equal. apply C_ext; simpl; ring. Qed.
Lemma Cdist_0 : forall x, Cdist x C0 = Cabs x.
Proof. intros x. unfold Cdist. f_equal. apply C_ext; simpl; ring. Qed.

(** ** Roundings compose *)
Lemma err_pos : forall u k, 0 <= u -> 0 <= err u k.
Proof. intros u k Hu. unfold err. assert (1 <= (1 + u) ^ k) by (apply pow_R1_Rle; lra). lra. Qed.
Lemma err_mono : forall u j k, 0 <= u -> (j <= k)%nat -> err u j <= err u k.
Proof. intros u j k Hu H. unfold err. assert ((1 + u) ^ j <= (1 + u) ^ k) by (apply Rle_pow; lra || assumption). lra. Qed.
Lemma err_0 : forall u, err u 0 = 0.
Proof. intros u. unfold err. simpl. ring. Qed.
Lemma err_1 : forall u, err u 1 = u.
Proof. intros u. unfold err. simpl. ring. Qed.
Lemma err_add : forall u j k, (1 + err u j) * (1 + err u k) = 1 + err u (j + k).
Proof. intros u j k. unfold err. rewrite pow_add. ring. Qed.

Definition within (u : R) (k : nat) (x y : C) : Prop := Cdist x y <= err u k * Cabs y.

Lemma within_refl : forall u k x, 0 <= u -> within u k x x.
Proof. intros u k x Hu. unfold within. rewrite Cdist_refl. apply Rmult_le_pos; [apply err_pos, Hu | apply Cabs_pos]. Qed.
Lemma within_mono : forall u j k x y, 0 <= u -> (j <= k)%nat -> within u j x y -> within u k x y.
Proof.
  intros u j k x y Hu Hjk H. unfold within in *. eapply Rle_trans; [exact H|].
  apply Rmult_le_compat_r; [apply Cabs_pos | apply err_mono; assumption].
Qed.
Lemma within_abs : forall u k x y, within u k x y -> Cabs x <= (1 + err u k) * Cabs y.
Proof. intros u k x y H. pose proof (Cabs_le x y). unfold within in H. lra. Qed.
Lemma within_mul : forall u j k x y x' y', 0 <= u -> within u j x y -> within u k x' y' ->
  within u (j + k) (Cmul x x') (Cmul y y').
Proof.
  intros u j k x y x' y' Hu H H'. unfold within. rewrite Cabs_mul.
  eapply Rle_trans; [apply (Cdist_tri _ (Cmul x y'))|]. rewrite Cdist_mul_l, Cdist_mul_r.
  pose proof (within_abs H) as Ha. unfold within in *. pose proof (err_pos k Hu). pose proof (err_pos j Hu).
  pose proof (Cabs_pos y'). pose proof (Cabs_pos y). pose proof (Cabs_pos x). pose proof (Cdist_pos x' y').
  pose proof (err_add u j k) as E.
  apply Rle_trans with ((1 + err u j) * Cabs y * (err u k * Cabs y') + err u j * Cabs y * Cabs y').
  - apply Rplus_le_compat; [apply Rmult_le_compat; lra | apply Rmult_le_compat_r; lra].
  - replace (err u (j + k)) with ((1 + err u j) * (1 + err u k) - 1) by lra. apply Req_le. ring.
Qed.
Lemma within_trans : forall u j k x y z, 0 <= u -> within u j x y -> within u k y z -> within u (j + k) x z.
Proof.
  intros u j k x y z Hu H H'. pose proof (within_abs H') as Ha. unfold within in *.
  pose proof (Cdist_tri x y z). pose proof (err_add u j k). pose proof (err_pos j Hu). pose proof (Cabs_pos z).
  assert (err u j * Cabs y <= err u j * ((1 + err u k) * Cabs z)) by (apply Rmult_le_compat_l; lra).
  replace (err u (j + k)) with ((1 + err u j) * (1 + err u k) - 1) by lra. nra.
Qed.

(** ** Sums *)
Lemma rtotal_ext : forall A (f g : A -> R) l, (forall x, In x l -> f x = g x) -> rtotal f l = rtotal g l.
Proof. intros A f g l; induction l as [|x l IH]; intros H; simpl; [reflexivity|]. rewrite H, IH; auto with datatypes. Qed.
Lemma rtotal_le : forall A (f g : A -> R) l, (forall x, In x l -> f x <= g x) -> rtotal f l <= rtotal g l.
Proof.
  intros A f g l; induction l as [|x l IH]; intros H; simpl; [lra|].
  assert (f x <= g x) by auto with datatypes. assert (rtotal f l <= rtotal g l) by auto with datatypes. lra.
Qed.
Lemma rtotal_pos : forall A (f : A -> R) l, (forall x, In x l -> 0 <= f x) -> 0 <= rtotal f l.
Proof.
  intros A f l; induction l as [|x l IH]; intros H; simpl; [lra|].
  assert (0 <= f x) by auto with datatypes. assert (0 <= rtotal f l) by auto with datatypes. lra.
Qed.
Lemma rtotal_plus : forall A (f g : A -> R) l, rtotal (fun x => f x + g x) l = rtotal f l + rtotal g l.
Proof. intros A f g l; induction l as [|x l IH]; simpl; lra. Qed.
Lemma rtotal_scal : forall A (f : A -> R) a l, rtotal (fun x => a * f x) l = a * rtotal f l.
Proof. intros A f a l; induction l as [|x l IH]; simpl; lra. Qed.
Lemma rtotal_scal_r : forall A (f : A -> R) a l, rtotal (fun x => f x * a) l = rtotal f l * a.
Proof. intros A f a l; induction l as [|x l IH]; simpl; lra. Qed.
Lemma rtotal_const : forall A a (l : list A), rtotal (fun _ => a) l = INR (length l) * a.
Proof. intros A a l; induction l as [|x l IH]; [simpl; ring|]. change (length (x :: l)) with (S (length l)). rewrite S_INR. simpl. lra. Qed.
Lemma rtotal_zero : forall A (f : A -> R) l, (forall x, In x l -> f x = 0) -> rtotal f l = 0.
Proof. intros A f l H. rewrite rtotal_ext with (g := fun _ => 0) by exact H. rewrite rtotal_const. ring. Qed.
Lemma rtotal_app : forall A (f : A -> R) l l', rtotal f (l ++ l') = rtotal f l + rtotal f l'.
Proof. intros A f l l'; induction l as [|x l IH]; simpl; lra. Qed.
Lemma rtotal_map : forall A B (h : A -> B) (f : B -> R) l, rtotal f (map h l) = rtotal (fun x => f (h x)) l.
Proof. intros A B h f l; induction l as [|x l IH]; simpl; congruence. Qed.
Lemma rtotal_flat_map : forall A B (h : A -> list B) (f : B -> R) l, rtotal f (flat_map h l) = rtotal (fun x => rtotal f (h x)) l.
Proof. intros A B h f l; induction l as [|x l IH]; simpl; [reflexivity|]. rewrite rtotal_app, IH. reflexivity. Qed.
Lemma rtotal_swap : forall A B (f : A -> B -> R) la lb,
  rtotal (fun a => rtotal (f a) lb) la = rtotal (fun b => rtotal (fun a => f a b) la) lb.
Proof.
  intros A B f la lb; induction la as [|a la IH]; simpl.
  - symmetry. apply rtotal_zero. reflexivity.
  - rewrite IH. symmetry. apply rtotal_plus.
Qed.
Lemma rtotal_in : forall A (f : A -> R) l x, (forall y, In y l -> 0 <= f y) -> In x l -> f x <= rtotal f l.
Proof.
  intros A f l x; induction l as [|y l IH]; intros H Hx; simpl; [contradiction|].
  assert (0 <= f y) by auto with datatypes. assert (0 <= rtotal f l) by (apply rtotal_pos; auto with datatypes).
  destruct Hx as [->|Hx]; [lra|]. assert (f x <= rtotal f l) by auto with datatypes. lra.
Qed.
Lemma rtotal_sub : forall A (eqd : forall x y : A, {x = y} + {x <> y}) (f : A -> R) l l', NoDup l -> incl l l' ->
  (forall y, In y l' -> 0 <= f y) -> rtotal f l <= rtotal f l'.
Proof.
  intros A eqd f l; induction l as [|x l IH]; intros l' Hn Hi Hp; simpl; [apply rtotal_pos, Hp|].
  inversion Hn as [|y k Hx Hn']; subst. destruct (in_split x l') as [l1 [l2 ->]]; [apply Hi; left; reflexivity|].
  assert (rtotal f l <= rtotal f (l1 ++ l2)).
  { apply IH; [exact Hn' | |].
    - intros y Hy. assert (In y (l1 ++ x :: l2)) as Hy' by (apply Hi; right; exact Hy).
      apply in_app_or in Hy' as [Hy'|[->|Hy']]; [apply in_or_app; auto | contradiction | apply in_or_app; auto].
    - intros y Hy. apply Hp. apply in_or_app. apply in_app_or in Hy as [Hy|Hy]; simpl; auto. }
  rewrite !rtotal_app in *. simpl. lra.
Qed.

Lemma ctotal_ext : forall A (f g : A -> C) l, (forall x, In x l -> f x = g x) -> ctotal f l = ctotal g l.
Proof. intros A f g l; induction l as [|x l IH]; intros H; simpl; [reflexivity|]. rewrite H, IH; auto with datatypes. Qed.
Lemma ctotal_abs : forall A (f : A -> C) l, Cabs (ctotal f l) <= rtotal (fun x => Cabs (f x)) l.
Proof.
  intros A f l; induction l as [|x l IH]; simpl; [rewrite Cabs_C0; lra|].
  pose proof (Cabs_add (f x) (ctotal f l)). lra.
Qed.
Lemma ctotal_plus : forall A (f g : A -> C) l, ctotal (fun x => Cadd (f x) (g x)) l = Cadd (ctotal f l) (ctotal g l).
Proof. intros A f g l; induction l as [|x l IH]; simpl; [|rewrite IH]; apply C_ext; simpl; ring. Qed.
Lemma ctotal_opp : forall A (f : A -> C) l, ctotal (fun x => Copp (f x)) l = Copp (ctotal f l).
Proof. intros A f l; induction l as [|x l IH]; simpl; [|rewrite IH]; apply C_ext; simpl; ring. Qed.
Lemma ctotal_dist : forall A (f g : A -> C) l, Cdist (ctotal f l) (ctotal g l) <= rtotal (fun x => Cdist (f x) (g x)) l.
Proof. intros A f g l. unfold Cdist. rewrite <- ctotal_opp, <- ctotal_plus. apply ctotal_abs. Qed.
Lemma ctotal_scal : forall A (f : A -> C) a l, ctotal (fun x => Cmul a (f x)) l = Cmul a (ctotal f l).
Proof. intros A f a l; induction l as [|x l IH]; simpl; [|rewrite IH]; apply C_ext; simpl; ring. Qed.
Lemma ctotal_scal_r : forall A (f : A -> C) a l, ctotal (fun x => Cmul (f x) a) l = Cmul (ctotal f l) a.
Proof. intros A f a l; induction l as [|x l IH]; simpl; [|rewrite IH]; apply C_ext; simpl; ring. Qed.
Lemma ctotal_zero : forall A (f : A -> C) l, (forall x, In x l -> f x = C0) -> ctotal f l = C0.
Proof.
  intros A f l; induction l as [|x l IH]; intros H; simpl; [reflexivity|].
  rewrite H, IH by auto with datatypes. apply C_ext; simpl; ring.
Qed.
Lemma ctotal_app : forall A (f : A -> C) l l', ctotal f (l ++ l') = Cadd (ctotal f l) (ctotal f l').
Proof. intros A f l l'; induction l as [|x l IH]; simpl; [|rewrite IH]; apply C_ext; simpl; ring. Qed.
Lemma ctotal_map : forall A B (h : A -> B) (f : B -> C) l, ctotal f (map h l) = ctotal (fun x => f (h x)) l.
Proof. intros A B h f l; induction l as [|x l IH]; simpl; congruence. Qed.
Lemma ctotal_flat_map : forall A B (h : A -> list B) (f : B -> C) l, ctotal f (flat_map h l) = ctotal (fun x => ctotal f (h x)) l.
Proof. intros A B h f l; induction l as [|x l IH]; simpl; [reflexivity|]. rewrite ctotal_app, IH. reflexivity. Qed.
Lemma ctotal_one : forall A (f : A -> C) l x, NoDup l -> In x l -> (forall y, In y l -> y <> x -> f y = C0) -> ctotal f l = f x.
Proof.
  intros A f l x Hn Hx H. apply in_split in Hx as [l1 [l2 ->]]. rewrite ctotal_app. simpl.
  pose proof (NoDup_remove_2 _ _ _ Hn) as Hx.
  rewrite !ctotal_zero.
  - apply C_ext; simpl; ring.
  - intros y Hy. apply H; [apply in_or_app; right; right; exact Hy|]. intros ->. apply Hx, in_or_app. auto.
  - intros y Hy. apply H; [apply in_or_app; left; exact Hy|]. intros ->. apply Hx, in_or_app. auto.
Qed.

Lemma bsum_ctotal : forall ord A (f : A -> Cscalar ord) l, bsum f l = ctotal f l.
Proof. intros ord A f l; induction l as [|x l IH]; simpl; [reflexivity|]. rewrite <- IH. reflexivity. Qed.
Lemma total_ctotal : forall ord A (f : A -> Cscalar ord) l, total (Cscalar ord) f l = ctotal f l.
Proof. intros ord A f l; induction l as [|x l IH]; simpl; [reflexivity|]. rewrite <- IH. reflexivity. Qed.

(** ** Lengths *)
Definition len2 {A} (f : A -> R) (l : list A) : R := sqrt (rtotal (fun x => f x ^ 2) l).

Lemma sq_total_pos : forall A (f : A -> R) l, 0 <= rtotal (fun x => f x ^ 2) l.
Proof. intros A f l. apply rtotal_pos. intros x _. apply pow2_ge_0. Qed.
Lemma len2_pos : forall A (f : A -> R) l, 0 <= len2 f l.
Proof. intros. apply sqrt_pos. Qed.
Lemma len2_sq : forall A (f : A -> R) l, len2 f l ^ 2 = rtotal (fun x => f x ^ 2) l.
Proof. intros A f l. unfold len2. rewrite <- Rsqr_pow2. apply Rsqr_sqrt, sq_total_pos. Qed.

Lemma cauchy : forall A (f g : A -> R) l,
  rtotal (fun x => f x * g x) l ^ 2 <= rtotal (fun x => f x ^ 2) l * rtotal (fun x => g x ^ 2) l.
Proof.
  intros A f g l; induction l as [|x l IH]; cbn [rtotal]; [lra|].
  set (a := f x). set (b := g x). set (s := rtotal (fun x => f x * g x) l) in *.
  set (F := rtotal (fun x => f x ^ 2) l) in *. set (G := rtotal (fun x => g x ^ 2) l) in *.
  assert (HF : 0 <= F) by apply sq_total_pos. assert (HG : 0 <= G) by apply sq_total_pos.
  assert (H : 2 * (a * b) * s <= F * b ^ 2 + G * a ^ 2).
  { apply sq_le.
    - pose proof (pow2_ge_0 a). pose proof (pow2_ge_0 b).
      assert (0 <= F * b ^ 2) by (apply Rmult_le_pos; assumption). assert (0 <= G * a ^ 2) by (apply Rmult_le_pos; assumption). lra.
    - apply Rle_trans with (4 * (F * b ^ 2) * (G * a ^ 2)).
      + replace ((2 * (a * b) * s) ^ 2) with (4 * (a ^ 2 * b ^ 2) * s ^ 2) by ring.
        replace (4 * (F * b ^ 2) * (G * a ^ 2)) with (4 * (a ^ 2 * b ^ 2) * (F * G)) by ring.
        apply Rmult_le_compat_l; [|exact IH]. pose proof (pow2_ge_0 (a * b)). rewrite Rpow_mult_distr in *. lra.
      + pose proof (pow2_ge_0 (F * b ^ 2 - G * a ^ 2)). lra. }
  replace ((a * b + s) ^ 2) with (a ^ 2 * b ^ 2 + 2 * (a * b) * s + s ^ 2) by ring. lra.
Qed.

Lemma len2_cauchy : forall A (f g : A -> R) l, rtotal (fun x => f x * g x) l <= len2 f l * len2 g l.
Proof.
  intros A f g l. apply sq_le; [apply Rmult_le_pos; apply len2_pos|].
  rewrite Rpow_mult_distr, !len2_sq. apply cauchy.
Qed.

Lemma len2_mono : forall A (f g : A -> R) l, (forall x, In x l -> 0 <= f x <= g x) -> len2 f l <= len2 g l.
Proof.
  intros A f g l H. apply sqrt_le_1; [apply sq_total_pos..|]. apply rtotal_le. intros x Hx. specialize (H x Hx).
  apply pow_incr. lra.
Qed.
Lemma len2_ext : forall A (f g : A -> R) l, (forall x, In x l -> f x = g x) -> len2 f l = len2 g l.
Proof. intros A f g l H. unfold len2. f_equal. apply rtotal_ext. intros x Hx. rewrite H by exact Hx. reflexivity. Qed.

Lemma len2_add : forall A (f g : A -> R) l, len2 (fun x => f x + g x) l <= len2 f l + len2 g l.
Proof.
  intros A f g l. pose proof (len2_pos f l). pose proof (len2_pos g l). apply sq_le; [lra|].
  replace ((len2 f l + len2 g l) ^ 2) with (len2 f l ^ 2 + len2 g l ^ 2 + 2 * (len2 f l * len2 g l)) by ring.
  pose proof (len2_cauchy f g l) as Hc.
  rewrite !len2_sq.
  rewrite rtotal_ext with (g := fun x => (f x ^ 2 + g x ^ 2) + 2 * (f x * g x)) by (intros; ring).
  rewrite !rtotal_plus, rtotal_scal. lra.
Qed.
Lemma len2_scal : forall A (f : A -> R) a l, 0 <= a -> len2 (fun x => a * f x) l = a * len2 f l.
Proof.
  intros A f a l Ha. apply sq_eq; [apply len2_pos | apply Rmult_le_pos; [exact Ha | apply len2_pos]|].
  rewrite Rpow_mult_distr, !len2_sq, <- rtotal_scal. apply rtotal_ext. intros; ring.
Qed.
Lemma len2_in : forall A (f : A -> R) l x, In x l -> (forall y, In y l -> 0 <= f y) -> f x <= len2 f l.
Proof.
  intros A f l x Hx H. apply sq_le; [apply len2_pos|]. rewrite len2_sq.
  apply (@rtotal_in _ (fun y => f y ^ 2)); [intros; apply pow2_ge_0 | exact Hx].
Qed.
