(** * Product: states in which every register has a state of its own. *)
From Verif Require Import Py Scalar Mat Utils Gates Circuit Spec Calls Lib Flow Layers Blocks Refine Run Reversible Parts Moved Local Props_Run.
Set Implicit Arguments.

Section Product.
Variable S : scalar.
Variable L : scalar_laws S.
Add Ring Sring : (sl_ring L).
Notation gate := (gate S).
Notation "x +s y" := (sadd x y) (at level 50).
Notation "x *s y" := (smul x y) (at level 40).
Notation one := (fun _ : nat => s1 : S).

Fixpoint product (fs : list (nat -> S)) (s : config) : S :=
  match fs, s with f :: fs, x :: s => f x *s product fs s | _, _ => s1 end.

Lemma product_upd : forall fs r f s, r < length fs -> length s = length fs ->
  product (upd fs r f) s = f (level s r) *s product (upd fs r one) s.
Proof.
  induction fs as [|g fs IH]; intros r f s Hr Hl; simpl in *; [lia|]. destruct s as [|x s]; [discriminate|]. simpl in Hl.
  destruct r as [|r]; simpl; unfold level; simpl; [ring|]. rewrite (IH r f) by lia. unfold level. ring.
Qed.

Lemma product_put_one : forall fs r v s, r < length fs -> length s = length fs -> product (upd fs r one) (put s r v) = product (upd fs r one) s.
Proof.
  induction fs as [|g fs IH]; intros r v s Hr Hl; simpl in *; [lia|]. destruct s as [|x s]; [discriminate|]. simpl in Hl.
  destruct r as [|r]; simpl; [ring|]. rewrite IH by lia. ring.
Qed.

Lemma upd_nth : forall A (l : list A) r d, r < length l -> upd l r (nth r l d) = l.
Proof. intros A l; induction l as [|x l IH]; intros [|r] d H; simpl in *; try lia; [reflexivity|]. rewrite IH by lia. reflexivity. Qed.

Lemma product_at : forall fs r s, r < length fs -> length s = length fs -> product fs s = nth r fs one (level s r) *s product (upd fs r one) s.
Proof. intros fs r s Hr Hl. rewrite <- product_upd by assumption. rewrite upd_nth by exact Hr. reflexivity. Qed.

Lemma product_ext : forall dims fs fs' s, valid dims s -> length fs = length dims -> length fs' = length dims ->
  (forall r x, r < length dims -> x < nth r dims 0 -> nth r fs one x = nth r fs' one x) -> product fs s = product fs' s.
Proof.
  intros dims fs fs' s Hs; revert fs fs'. induction Hs as [|x d s dims Hx Hs IH]; intros fs fs' H1 H2 H.
  - destruct fs, fs'; try discriminate. reflexivity.
  - destruct fs as [|f fs], fs' as [|f' fs']; try discriminate. simpl in *.
    rewrite (H 0 x) by (simpl; lia). f_equal. apply IH; [lia | lia |]. intros r y Hr Hy. apply (H (Datatypes.S r) y); simpl; lia.
Qed.

(** A gate on one register acts on that register's own state. *)
Lemma product_local : forall dims r (u : nat -> nat -> S) fs s, valid dims s -> r < length dims -> length fs = length dims ->
  bsum (fun inp => local S r u s inp *s product fs inp) (all_configs dims)
  = product (upd fs r (fun i => bsum (fun j => u i j *s nth r fs one j) (seq 0 (nth r dims 0)))) s.
Proof.
  intros dims r u fs s Hs Hr Hl. pose proof (valid_length Hs) as Ls. rewrite (local_apply L) by assumption.
  rewrite product_upd by lia. rewrite <- (bsum_mul_r L). apply bsum_ext. intros j _.
  rewrite (@product_at fs r (put s r j)) by (rewrite ?put_length; lia).
  rewrite product_put_one by lia. rewrite level_put, Nat.eqb_refl by lia. ring.
Qed.

(** Configurations are products. *)
Definition at_level (v : nat) : nat -> S := fun x => if Nat.eqb v x then s1 else s0.
Lemma product_basis : forall s t, length t = length s -> basis S s t = product (map at_level s) t.
Proof.
  induction s as [|x s IH]; intros [|y t] H; try discriminate; [reflexivity|]. simpl in *. rewrite <- IH by lia.
  unfold basis, at_level. destruct (Nat.eqb_spec x y) as [->|N].
  - destruct (config_eqb s t) eqn:E.
    + apply config_eqb_eq in E. subst. rewrite config_eqb_refl. ring.
    + rewrite (proj2 (config_eqb_neq _ _)); [ring|]. intros X. injection X as ->. apply config_eqb_neq in E. auto.
  - rewrite (proj2 (config_eqb_neq _ _)); [ring|]. intros X. injection X as -> _. auto.
Qed.

(** ** Qubits *)
Definition qubits (n : nat) : list nat := repeat 2 n.
Lemma nth_qubits : forall n r, r < n -> nth r (qubits n) 0 = 2.
Proof. intros n; induction n as [|n IH]; intros [|r] H; simpl; try lia. apply IH. lia. Qed.
Lemma len_qubits : forall n, length (qubits n) = n. Proof. intros; apply repeat_length. Qed.

Definition hh (f : nat -> S) : nat -> S := fun i => bsum (fun j => had S 2 i j *s f j) (seq 0 2).
Definition sign (x : nat) : S := if Nat.eqb x 1 then sopp s1 else s1.

Lemma apply_ext : forall dims (g : gate) psi psi' s, (forall t, valid dims t -> psi t = psi' t) -> valid dims s -> apply dims g psi s = apply dims g psi' s.
Proof. intros dims g psi psi' s H Hs. exact (@final_ext S dims [g] psi psi' H s Hs). Qed.

Lemma apply_h_product : forall n r fs s, valid (qubits n) s -> r < n -> length fs = n ->
  apply (qubits n) (GH r) (product fs) s = product (upd fs r (hh (nth r fs one))) s.
Proof.
  intros n r fs s Hs Hr Hl. rewrite apply_kapply. unfold kapply. cbn [amp].
  rewrite product_local by (rewrite ?len_qubits; assumption). rewrite nth_qubits by exact Hr. reflexivity.
Qed.

Lemma split_step : forall A (l a b : list A) k f, length a = k -> l = a ++ f :: b -> firstn (Datatypes.S k) l = a ++ [f] /\ skipn (Datatypes.S k) l = b.
Proof.
  intros A l a b k f <- ->. induction a as [|x a [I1 I2]]; [split; reflexivity|]. split; [|exact I2].
  change (firstn (Datatypes.S (length (x :: a))) ((x :: a) ++ f :: b)) with (x :: firstn (Datatypes.S (length a)) (a ++ f :: b)). rewrite I1. reflexivity.
Qed.

(** An h on every register. *)
Lemma h_layer : forall n k fs s, valid (qubits n) s -> k <= n -> length fs = n ->
  final (qubits n) (map (fun r => GH r) (seq 0 k)) (product fs) s = product (map hh (firstn k fs) ++ skipn k fs) s.
Proof.
  intros n k; induction k as [|k IH]; intros fs s Hs Hk Hl; [reflexivity|].
  rewrite seq_S, map_app, final_app. cbn [map final]. simpl (0 + k).
  rewrite (@apply_ext (qubits n) (GH k) _ (product (map hh (firstn k fs) ++ skipn k fs))); [| intros t Ht; apply IH; try assumption; lia | exact Hs].
  assert (Lk : length (map hh (firstn k fs)) = k) by (rewrite map_length, firstn_length; lia).
  rewrite apply_h_product; [| exact Hs | lia | rewrite app_length, Lk, skipn_length; lia]. f_equal.
  destruct (skipn k fs) as [|f fs'] eqn:E; [apply (f_equal (@length _)) in E; rewrite skipn_length in E; simpl in E; lia|].
  assert (E2 : fs = firstn k fs ++ f :: fs') by (rewrite <- E; symmetry; apply firstn_skipn).
  rewrite app_nth2 by lia. rewrite Lk, Nat.sub_diag. cbn [nth].
  replace (upd (map hh (firstn k fs) ++ f :: fs') k (hh f)) with (map hh (firstn k fs) ++ hh f :: fs')
    by (rewrite <- Lk at 3; symmetry; apply upd_split).
  assert (Lf : length (firstn k fs) = k) by (rewrite firstn_length; lia).
  destruct (split_step _ _ _ Lf E2) as [F G].
  rewrite F, G, map_app. rewrite <- app_assoc. reflexivity.
Qed.

(** A cx whose target changes sign when its levels are exchanged moves the sign
    to the control. *)
Lemma kickback : forall n c t fs s, valid (qubits n) s -> c < n -> t < n -> c <> t -> length fs = n ->
  (nth t fs one 1 = sopp (nth t fs one 0)) ->
  apply (qubits n) (GCX c t 1) (product fs) s = product (upd fs c (fun x => sign x *s nth c fs one x)) s.
Proof.
  intros n c t fs s Hs Hc Ht Hn Hl Hm. pose proof (valid_length Hs) as Ls. rewrite len_qubits in Ls.
  assert (Rg : reversible (S := S) (GCX c t 1)) by exact Hn.
  rewrite (apply_reversible L); [| exact Rg | simpl; rewrite len_qubits; lia | exact Hs].
  pose proof (valid_level Hs (r := c) ltac:(rewrite len_qubits; lia)) as Vc. rewrite nth_qubits in Vc by lia.
  pose proof (valid_level Hs (r := t) ltac:(rewrite len_qubits; lia)) as Vt. rewrite nth_qubits in Vt by lia.
  rewrite product_upd by lia. rewrite <- Ls in *.
  assert (E : product fs s = nth c fs one (level s c) *s product (upd fs c one) s) by (apply product_at; lia).
  unfold undo, move, move_cx, top, move_x. rewrite nth_qubits by lia. unfold sign.
  destruct (Nat.eqb_spec (level s c + 1) 2) as [T|T].
  - replace (level s c) with 1 in * by lia. simpl (1 =? 1).
    transitivity (sopp (product fs s)); [|rewrite E; ring].
    rewrite nth_qubits by lia. rewrite (@product_at fs t s) by lia. rewrite (@product_at fs t (put s t _)) by (rewrite ?put_length; lia).
    rewrite product_put_one by lia. rewrite level_put, Nat.eqb_refl by lia.
    assert (D : level s t = 0 \/ level s t = 1) by lia. destruct D as [-> | ->].
    + change (shift 2 0 (- (1))) with 1. rewrite Hm. ring.
    + change (shift 2 1 (- (1))) with 0. rewrite Hm. ring.
  - replace (level s c) with 0 in * by lia. simpl (0 =? 1). rewrite E. ring.
Qed.
End Product.
