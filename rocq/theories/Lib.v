(** * Lib: lemmas about lists, indexing and sums (proofs only, no model). *)
From Verif Require Import Py Scalar Mat Utils Gates Spec.
Set Implicit Arguments.

(** ** Lists *)
Lemma nth_map_seq : forall A (f : nat -> A) n i d, i < n -> nth i (map f (seq 0 n)) d = f i.
Proof.
  intros A f n i d H.
  rewrite nth_indep with (d' := f 0) by (rewrite map_length, seq_length; exact H).
  rewrite map_nth, seq_nth by exact H. reflexivity.
Qed.

Lemma nth_map_lt : forall A B (f : A -> B) l i d e, i < length l -> nth i (map f l) d = f (nth i l e).
Proof.
  intros A B f l i d e H.
  rewrite nth_indep with (d' := f e) by (rewrite map_length; exact H).
  apply map_nth.
Qed.

Lemma upd_length : forall A (l : list A) k v, length (upd l k v) = length l.
Proof. induction l as [|x l IH]; intros [|k] v; simpl; auto. Qed.

Lemma nth_upd : forall A (l : list A) k v i d,
  nth i (upd l k v) d = if (i =? k) && (i <? length l) then v else nth i l d.
Proof.
  induction l as [|x l IH]; intros k v i d; simpl.
  - rewrite andb_false_r. reflexivity.
  - destruct k as [|k]; destruct i as [|i]; simpl; try reflexivity. apply IH.
Qed.

Lemma nth_error_upd : forall A (l : list A) k v i,
  nth_error (upd l k v) i = if (i =? k) && (i <? length l) then Some v else nth_error l i.
Proof.
  induction l as [|x l IH]; intros k v i; simpl.
  - rewrite andb_false_r. destruct i; reflexivity.
  - destruct k as [|k]; destruct i as [|i]; simpl; try reflexivity. rewrite IH. reflexivity.
Qed.

Lemma upd_split : forall A (l1 l2 : list A) x v, upd (l1 ++ x :: l2) (length l1) v = l1 ++ v :: l2.
Proof. induction l1 as [|y l1 IH]; intros; simpl; [reflexivity | f_equal; apply IH]. Qed.

Lemma upd_app1 : forall A (l1 l2 : list A) k v, k < length l1 -> upd (l1 ++ l2) k v = upd l1 k v ++ l2.
Proof.
  induction l1 as [|y l1 IH]; intros l2 k v H; simpl in *; [lia|].
  destruct k; simpl; [reflexivity | f_equal; apply IH; lia].
Qed.

Lemma upd_app2 : forall A (l1 l2 : list A) k v, length l1 <= k ->
  upd (l1 ++ l2) k v = l1 ++ upd l2 (k - length l1) v.
Proof.
  induction l1 as [|y l1 IH]; intros l2 k v H; simpl in *.
  - rewrite Nat.sub_0_r. reflexivity.
  - destruct k; [lia|]. simpl. f_equal. apply IH. lia.
Qed.

Lemma put_upd : forall s r v, put s r v = upd s r v.
Proof. induction s as [|x s IH]; intros [|r] v; simpl; auto. f_equal; auto. Qed.

Lemma skipn_skipn' : forall A n m (l : list A), skipn n (skipn m l) = skipn (m + n) l.
Proof.
  intros A n m; induction m as [|m IH]; intros l; simpl; [reflexivity|].
  destruct l; [destruct n; reflexivity | apply IH].
Qed.

Lemma split3 : forall A p w (s : list A),
  s = firstn p s ++ firstn w (skipn p s) ++ skipn (p + w) s.
Proof.
  intros A p w s. rewrite <- (skipn_skipn' w p s).
  rewrite firstn_skipn, firstn_skipn. reflexivity.
Qed.

Lemma combine_seq_nth : forall A (l : list A) s d,
  combine (seq s (length l)) l = map (fun i => (s + i, nth i l d)) (seq 0 (length l)).
Proof.
  intros A l; induction l as [|x l IH]; intros s d; simpl; [reflexivity|].
  f_equal; [f_equal; lia|].
  rewrite (IH (S s) d). rewrite <- seq_shift, map_map. apply map_ext. intros i; f_equal; lia.
Qed.

Lemma map_nth_seq : forall A (l : list A) d, map (fun i => nth i l d) (seq 0 (length l)) = l.
Proof.
  intros A l d; induction l as [|x l IH]; simpl; [reflexivity|].
  f_equal. rewrite <- seq_shift, map_map. exact IH.
Qed.

Lemma list_eqb_nat : forall l m, list_eqb Nat.eqb l m = true <-> l = m.
Proof.
  induction l as [|x l IH]; intros [|y m]; simpl; split; intro H; try discriminate; auto.
  - apply andb_true_iff in H as [H1 H2]. apply Nat.eqb_eq in H1. apply IH in H2. congruence.
  - injection H as -> ->. rewrite Nat.eqb_refl. apply IH. reflexivity.
Qed.

Lemma config_eqb_eq : forall s t, config_eqb s t = true <-> s = t.
Proof. intros s t; unfold config_eqb; destruct list_eq_dec; split; congruence. Qed.
Lemma config_eqb_refl : forall s, config_eqb s s = true.
Proof. intros s; apply config_eqb_eq; reflexivity. Qed.
Lemma config_eqb_neq : forall s t, config_eqb s t = false <-> s <> t.
Proof. intros s t; unfold config_eqb; destruct list_eq_dec; split; congruence. Qed.

(** ** py indexing *)
Lemma py_index_nat : forall n k, k < n -> py_index n (Z.of_nat k) = Some k.
Proof.
  intros n k H. unfold py_index.
  replace ((0 <=? Z.of_nat k) && (Z.of_nat k <? Z.of_nat n))%Z with true
    by (symmetry; apply andb_true_iff; split; [apply Z.leb_le | apply Z.ltb_lt]; lia).
  rewrite Nat2Z.id. reflexivity.
Qed.

Lemma py_get_nat : forall A (l : list A) k d, k < length l -> py_get l (Z.of_nat k) = Ok (nth k l d).
Proof.
  intros A l k d H. unfold py_get. rewrite py_index_nat by exact H.
  rewrite (nth_error_nth' l d H). reflexivity.
Qed.

Lemma zrange_nat : forall lo hi, zrange (Z.of_nat lo) (Z.of_nat hi) = map Z.of_nat (seq lo (hi - lo)).
Proof.
  intros lo hi. unfold zrange.
  replace (Z.to_nat (Z.of_nat hi - Z.of_nat lo)) with (hi - lo) by lia.
  generalize (hi - lo) as n; intros n. revert lo.
  induction n as [|n IH]; intros lo; simpl; [reflexivity|].
  f_equal; [lia|].
  rewrite <- seq_shift, map_map, <- (IH (S lo)). apply map_ext; intros; lia.
Qed.

Lemma mapM_ok : forall A B (f : A -> res B) (g : A -> B) l,
  (forall x, In x l -> f x = Ok (g x)) -> mapM f l = Ok (map g l).
Proof.
  intros A B f g l; induction l as [|x l IH]; intros H; simpl; [reflexivity|].
  rewrite (H x (or_introl eq_refl)); simpl. rewrite IH by (intros; apply H; right; assumption).
  reflexivity.
Qed.

Lemma mapM_ext : forall A B (f g : A -> res B) l,
  (forall x, In x l -> f x = g x) -> mapM f l = mapM g l.
Proof.
  intros A B f g l; induction l as [|x l IH]; intros H; simpl; [reflexivity|].
  rewrite (H x (or_introl eq_refl)). rewrite IH by (intros; apply H; right; assumption). reflexivity.
Qed.

Lemma mapM_inv : forall A B (f : A -> res B) l ys,
  mapM f l = Ok ys -> Forall2 (fun x y => f x = Ok y) l ys.
Proof.
  intros A B f l; induction l as [|x l IH]; simpl; intros ys H.
  - injection H as <-. constructor.
  - destruct (f x) as [y|e] eqn:E; simpl in H; [|discriminate].
    destruct (mapM f l) as [ys'|e] eqn:E2; simpl in H; [|discriminate].
    injection H as <-. constructor; auto.
Qed.

Lemma mapM_app : forall A B (f : A -> res B) l1 l2,
  mapM f (l1 ++ l2) = (a <- mapM f l1 ;; b <- mapM f l2 ;; Ok (a ++ b)).
Proof.
  intros A B f l1 l2; induction l1 as [|x l1 IH]; simpl.
  - destruct (mapM f l2); reflexivity.
  - destruct (f x) as [y|e]; simpl; [|reflexivity]. rewrite IH.
    destruct (mapM f l1); simpl; [|reflexivity]. destruct (mapM f l2); reflexivity.
Qed.

Lemma mapM_map : forall A B C (f : B -> res C) (g : A -> B) l,
  mapM f (map g l) = mapM (fun x => f (g x)) l.
Proof. intros A B C f g l; induction l as [|x l IH]; simpl; [reflexivity|]. rewrite IH. reflexivity. Qed.

Lemma bind_ok : forall A B (r : res A) (f : A -> res B) b,
  bind r f = Ok b -> exists a, r = Ok a /\ f a = Ok b.
Proof. intros A B [a|e] f b H; simpl in H; [exists a; auto | discriminate]. Qed.

(** ** Products *)
Lemma prodn_cons : forall d l, prodn (d :: l) = d * prodn l.
Proof. reflexivity. Qed.
#[global] Arguments prodn : simpl never.
Lemma prodn_app : forall l m, prodn (l ++ m) = prodn l * prodn m.
Proof.
  induction l as [|x l IH]; intros m; simpl.
  - change (prodn []) with 1; lia.
  - rewrite !prodn_cons, IH. lia.
Qed.
Lemma prodn_pos : forall l, Forall (fun d => 1 <= d) l -> 1 <= prodn l.
Proof. induction 1 as [|x l Hx Hl IH]; [unfold prodn; simpl; lia|]. rewrite prodn_cons. nia. Qed.

(** ** Configurations *)

Lemma valid_length : forall dims s, valid dims s -> length s = length dims.
Proof. intros dims s H; induction H; simpl; congruence. Qed.

Lemma in_all_configs : forall dims s, In s (all_configs dims) <-> valid dims s.
Proof.
  induction dims as [|d ds IH]; intros s; simpl.
  - split; [intros [<-|[]]; constructor | intros H; inversion H; auto].
  - rewrite in_flat_map. split.
    + intros [x [Hx Hs]]. apply in_seq in Hx. apply in_map_iff in Hs as [s' [<- Hs']].
      apply IH in Hs'. constructor; [lia | exact Hs'].
    + intros H; inversion H as [|x d' s' ds' Hx Hs']; subst. exists x. split; [apply in_seq; lia|].
      apply in_map. apply IH. exact Hs'.
Qed.

(** Mixed-radix index, most significant register first. *)
Fixpoint lin (dims : list nat) (s : config) : nat :=
  match dims, s with
  | _ :: ds, x :: s' => x * prodn ds + lin ds s'
  | _, _ => 0
  end.

Lemma lin_lt : forall dims s, valid dims s -> lin dims s < prodn dims.
Proof.
  intros dims s H; induction H as [|x d s ds Hx Hs IH]; simpl; [unfold prodn; simpl; lia|].
  rewrite prodn_cons. nia.
Qed.

Lemma all_configs_length : forall dims, length (all_configs dims) = prodn dims.
Proof.
  induction dims as [|d ds IH]; simpl; [reflexivity|].
  rewrite prodn_cons, <- IH.
  clear IH. generalize 0 as a. induction d as [|d IHd]; intros a; simpl; [reflexivity|].
  rewrite app_length, map_length, IHd. reflexivity.
Qed.

Lemma map_flat_map : forall A B C (g : B -> C) (f : A -> list B) l,
  map g (flat_map f l) = flat_map (fun x => map g (f x)) l.
Proof. intros A B C g f l; induction l as [|x l IH]; simpl; [reflexivity|]. rewrite map_app, IH. reflexivity. Qed.

Lemma flat_map_seq_mul : forall p n s,
  flat_map (fun x => map (fun y => x * p + y) (seq 0 p)) (seq s n) = seq (s * p) (n * p).
Proof.
  intros p n; induction n as [|n IH]; intros s; simpl; [reflexivity|].
  rewrite IH, seq_app. f_equal; [|f_equal; simpl; lia].
  generalize (s * p) as a; intros a. clear.
  revert a. induction p as [|p IH]; intros a; simpl; [reflexivity|].
  f_equal; [lia|]. rewrite <- seq_shift, map_map, <- (IH (S a)). apply map_ext; intros; lia.
Qed.

Lemma lin_all_configs : forall dims, map (lin dims) (all_configs dims) = seq 0 (prodn dims).
Proof.
  induction dims as [|d ds IH]; simpl; [reflexivity|].
  rewrite map_flat_map.
  rewrite flat_map_ext with (g := fun x => map (fun y => x * prodn ds + y) (seq 0 (prodn ds))).
  - rewrite flat_map_seq_mul. reflexivity.
  - intros x. rewrite map_map. rewrite <- IH, map_map. reflexivity.
Qed.

Lemma all_configs_NoDup : forall dims, NoDup (all_configs dims).
Proof.
  intros dims. apply (NoDup_map_inv (lin dims)). rewrite lin_all_configs. apply seq_NoDup.
Qed.

Lemma lin_inj : forall dims s t, valid dims s -> valid dims t -> lin dims s = lin dims t -> s = t.
Proof.
  intros dims s t Hs; revert t; induction Hs as [|x d s ds Hx Hs IH]; intros t Ht E;
    inversion Ht as [|y d' t' ds' Hy Ht']; subst; [reflexivity|].
  simpl in E. pose proof (lin_lt Hs) as L1. pose proof (lin_lt Ht') as L2.
  assert (x = y) by nia. subst y. f_equal. apply IH; [exact Ht' | nia].
Qed.

(** The configuration with a given index. *)
Definition unlin (dims : list nat) (i : nat) : config := nth i (all_configs dims) [].

Lemma unlin_lin : forall dims s, valid dims s -> unlin dims (lin dims s) = s.
Proof.
  intros dims s H. unfold unlin.
  assert (Hl : lin dims s < length (all_configs dims)) by (rewrite all_configs_length; apply lin_lt, H).
  apply (lin_inj (dims := dims)); [apply in_all_configs, nth_In, Hl | exact H |].
  rewrite <- (map_nth (lin dims)). rewrite lin_all_configs.
  rewrite nth_indep with (d' := 0) by (rewrite seq_length; apply lin_lt, H).
  apply seq_nth, lin_lt, H.
Qed.

Lemma unlin_valid : forall dims i, i < prodn dims -> valid dims (unlin dims i).
Proof. intros dims i H. apply in_all_configs. apply nth_In. rewrite all_configs_length. exact H. Qed.

Lemma lin_unlin : forall dims i, i < prodn dims -> lin dims (unlin dims i) = i.
Proof.
  intros dims i H. unfold unlin. rewrite <- (map_nth (lin dims)), lin_all_configs.
  rewrite nth_indep with (d' := 0) by (rewrite seq_length; exact H).
  apply seq_nth, H.
Qed.

Lemma all_configs_unlin : forall dims, all_configs dims = map (unlin dims) (seq 0 (prodn dims)).
Proof.
  intros dims. unfold unlin. rewrite <- all_configs_length. symmetry. apply map_nth_seq.
Qed.

Lemma valid_app : forall d1 d2 s1 s2, valid d1 s1 -> valid d2 s2 -> valid (d1 ++ d2) (s1 ++ s2).
Proof. intros; apply Forall2_app; assumption. Qed.

Lemma valid_firstn : forall n dims s, valid dims s -> valid (firstn n dims) (firstn n s).
Proof.
  intros n dims s H; revert n; induction H as [|x d s ds Hx Hs IH]; intros [|n]; simpl; try constructor;
    [exact Hx | apply IH].
Qed.
Lemma valid_skipn : forall n dims s, valid dims s -> valid (skipn n dims) (skipn n s).
Proof.
  intros n dims s H; revert n; induction H as [|x d s ds Hx Hs IH]; intros [|n]; simpl; try apply IH;
    constructor; assumption.
Qed.

Lemma lin_app : forall d1 d2 s1 s2, length s1 = length d1 ->
  lin (d1 ++ d2) (s1 ++ s2) = lin d1 s1 * prodn d2 + lin d2 s2.
Proof.
  induction d1 as [|d d1 IH]; intros d2 [|x s1] s2 H; simpl in *; try discriminate; [reflexivity|].
  rewrite IH by lia. rewrite prodn_app. lia.
Qed.

Lemma flat_map_flat_map : forall A B C (f : A -> list B) (g : B -> list C) l,
  flat_map g (flat_map f l) = flat_map (fun x => flat_map g (f x)) l.
Proof.
  intros A B C f g l; induction l as [|x l IH]; simpl; [reflexivity|].
  rewrite flat_map_app, IH. reflexivity.
Qed.

Lemma flat_map_map : forall A B C (f : A -> B) (g : B -> list C) l,
  flat_map g (map f l) = flat_map (fun x => g (f x)) l.
Proof. intros A B C f g l; induction l as [|x l IH]; simpl; congruence. Qed.

Lemma all_configs_app : forall d1 d2,
  all_configs (d1 ++ d2) = flat_map (fun a => map (app a) (all_configs d2)) (all_configs d1).
Proof.
  induction d1 as [|d d1 IH]; intros d2; simpl.
  - rewrite app_nil_r. symmetry. apply map_id.
  - rewrite flat_map_flat_map. apply flat_map_ext; intros x.
    rewrite IH, map_flat_map, flat_map_map. apply flat_map_ext; intros a. rewrite map_map. reflexivity.
Qed.

Lemma valid_put : forall dims s r v, valid dims s -> v < nth r dims 0 -> valid dims (put s r v).
Proof.
  intros dims s r v H; revert r; induction H as [|x d s ds Hx Hs IH]; intros [|r] Hv; simpl in *;
    try lia; constructor; auto. apply IH; exact Hv.
Qed.

Lemma valid_level : forall dims s r, valid dims s -> r < length dims -> level s r < nth r dims 0.
Proof.
  intros dims s r H; revert r; induction H as [|x d s ds Hx Hs IH]; intros [|r] Hr; simpl in *; try lia.
  - exact Hx.
  - apply IH; lia.
Qed.

Lemma shift_lt : forall d x p, 0 < d -> shift d x p < d.
Proof.
  intros d x p H. unfold shift.
  pose proof (Z.mod_pos_bound (Z.of_nat x + p) (Z.of_nat d) ltac:(lia)). lia.
Qed.

Lemma level_put : forall s r v r', r < length s -> level (put s r v) r' = if r' =? r then v else level s r'.
Proof.
  intros s r v r' H. unfold level. rewrite put_upd, nth_upd.
  destruct (r' =? r) eqn:E; simpl; [|reflexivity].
  apply Nat.eqb_eq in E; subst. apply Nat.ltb_lt in H. rewrite H. reflexivity.
Qed.

Lemma put_length : forall s r v, length (put s r v) = length s.
Proof. intros; rewrite put_upd; apply upd_length. Qed.

Lemma put_level : forall s r, put s r (level s r) = s.
Proof. induction s as [|x s IH]; intros [|r]; simpl; auto. f_equal. apply IH. Qed.

Lemma put_put : forall s r v w, put (put s r v) r w = put s r w.
Proof. induction s as [|x s IH]; intros [|r] v w; simpl; auto. f_equal; auto. Qed.

(** ** Sums *)
Section Sums.
Variable S : scalar.
Hypothesis L : scalar_laws S.
Add Ring Sring : (sl_ring L).
Notation "0" := (@s0 S).
Notation "1" := (@s1 S).
Infix "+" := (@sadd S).
Infix "*" := (@smul S).

Lemma bsum_total : forall A (f : A -> S) l, bsum f l = total S f l.
Proof. intros A f l; induction l as [|x l IH]; simpl; congruence. Qed.

Lemma bsum_ext : forall A (f g : A -> S) l, (forall x, In x l -> f x = g x) -> bsum f l = bsum g l.
Proof.
  intros A f g l; induction l as [|x l IH]; intros H; simpl; [reflexivity|].
  rewrite (H x (or_introl eq_refl)), IH; [reflexivity|]. intros y Hy; apply H; right; exact Hy.
Qed.

Lemma bsum_app : forall A (f : A -> S) l m, bsum f (l ++ m) = bsum f l + bsum f m.
Proof. intros A f l m; induction l as [|x l IH]; simpl; [ring|]. rewrite IH. ring. Qed.

Lemma bsum_zero : forall A (f : A -> S) l, (forall x, In x l -> f x = 0) -> bsum f l = 0.
Proof.
  intros A f l; induction l as [|x l IH]; intros H; simpl; [reflexivity|].
  rewrite (H x (or_introl eq_refl)), IH; [ring|]. intros y Hy; apply H; right; exact Hy.
Qed.

Lemma bsum_add : forall A (f g : A -> S) l, bsum (fun x => f x + g x) l = bsum f l + bsum g l.
Proof. intros A f g l; induction l as [|x l IH]; simpl; [ring|]. rewrite IH. ring. Qed.

Lemma bsum_mul_l : forall A (f : A -> S) c l, bsum (fun x => c * f x) l = c * bsum f l.
Proof. intros A f c l; induction l as [|x l IH]; simpl; [ring|]. rewrite IH. ring. Qed.
Lemma bsum_mul_r : forall A (f : A -> S) c l, bsum (fun x => f x * c) l = bsum f l * c.
Proof. intros A f c l; induction l as [|x l IH]; simpl; [ring|]. rewrite IH. ring. Qed.

Lemma bsum_swap : forall A B (f : A -> B -> S) l m,
  bsum (fun x => bsum (fun y => f x y) m) l = bsum (fun y => bsum (fun x => f x y) l) m.
Proof.
  intros A B f l m; induction l as [|x l IH]; simpl.
  - symmetry; apply bsum_zero; reflexivity.
  - rewrite IH, <- bsum_add. reflexivity.
Qed.

Lemma bsum_map : forall A B (f : B -> S) (g : A -> B) l, bsum f (map g l) = bsum (fun x => f (g x)) l.
Proof. intros A B f g l; induction l as [|x l IH]; simpl; congruence. Qed.

Lemma bsum_flat_map : forall A B (f : B -> S) (g : A -> list B) l,
  bsum f (flat_map g l) = bsum (fun x => bsum f (g x)) l.
Proof. intros A B f g l; induction l as [|x l IH]; simpl; [reflexivity|]. rewrite bsum_app, IH. reflexivity. Qed.

(** A sum with one nonzero term. *)
Lemma bsum_single : forall A (f : A -> S) l a,
  NoDup l -> In a l -> (forall x, In x l -> x <> a -> f x = 0) -> bsum f l = f a.
Proof.
  intros A f l a HN; induction HN as [|x l Hx HN IH]; intros Ha H; [destruct Ha|].
  simpl. destruct Ha as [->|Ha].
  - rewrite bsum_zero; [ring|]. intros y Hy. apply H; [right; exact Hy | intros ->; contradiction].
  - rewrite (H x (or_introl eq_refl)), IH; [ring | exact Ha | | intros ->; contradiction].
    intros y Hy; apply H; right; exact Hy.
Qed.

Lemma bsum_configs_app : forall d1 d2 (f : config -> S),
  bsum f (all_configs (d1 ++ d2))
  = bsum (fun a => bsum (fun b => f (a ++ b)) (all_configs d2)) (all_configs d1).
Proof.
  intros d1 d2 f. rewrite all_configs_app, bsum_flat_map.
  apply bsum_ext; intros a _. apply bsum_map.
Qed.

Lemma bsum_seq_configs : forall dims (f : nat -> S),
  bsum f (seq 0 (prodn dims)) = bsum (fun s => f (lin dims s)) (all_configs dims).
Proof. intros dims f. rewrite <- lin_all_configs, bsum_map. reflexivity. Qed.

Definition delta (s t : config) : S := if config_eqb s t then 1 else 0.

Lemma delta_refl : forall s, delta s s = 1.
Proof. intros; unfold delta; rewrite config_eqb_refl; reflexivity. Qed.
Lemma delta_neq : forall s t, s <> t -> delta s t = 0.
Proof. intros s t H; unfold delta. apply config_eqb_neq in H. rewrite H. reflexivity. Qed.

Lemma bsum_delta_l : forall dims s (f : config -> S), valid dims s ->
  bsum (fun u => delta s u * f u) (all_configs dims) = f s.
Proof.
  intros dims s f H.
  rewrite bsum_single with (a := s).
  - rewrite delta_refl; ring.
  - apply all_configs_NoDup.
  - apply in_all_configs; exact H.
  - intros u _ Hu. rewrite delta_neq by congruence. ring.
Qed.

(** ** Matrix entries *)
Lemma mget_mkmat : forall r c (f : nat -> nat -> S) i j, i < r -> j < c -> mget (mkmat r c f) i j = f i j.
Proof.
  intros r c f i j Hi Hj. unfold mget, mkmat; simpl.
  rewrite (nth_map_seq (fun i => map (f i) (seq 0 c)) _ Hi).
  apply nth_map_seq; exact Hj.
Qed.

Lemma mkmat_ext : forall r c (f g : nat -> nat -> S),
  (forall i j, i < r -> j < c -> f i j = g i j) -> mkmat r c f = mkmat r c g.
Proof.
  intros r c f g H. unfold mkmat. f_equal. apply map_ext_in; intros i Hi. apply in_seq in Hi.
  apply map_ext_in; intros j Hj. apply in_seq in Hj. apply H; lia.
Qed.

End Sums.
