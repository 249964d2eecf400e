(** * Jozsa: the amplitude at the start state after h gates, an oracle and h gates. *)
From Verif Require Import Py Scalar Mat Utils Gates Circuit Spec Calls Lib Flow Layers Blocks Refine Run Reversible Parts Moved Local Product Algo.
Set Implicit Arguments.

Section Jozsa.
Variable S : scalar.
Variable L : scalar_laws S.
Add Ring Sring : (sl_ring L).
Notation gate := (gate S).
Notation "x +s y" := (sadd x y) (at level 50).
Notation "x *s y" := (smul x y) (at level 40).
Hypothesis Hroot : nth 0 (sroots 2) s0 = sopp s1 :> S.
Hypothesis Hscale : (sisqrt 2 *s sisqrt 2) +s (sisqrt 2 *s sisqrt 2) = s1 :> S.

Lemma final_sum : forall dims (prog : list gate) psi t, valid dims t ->
  final dims prog psi t = bsum (fun s => final dims prog (basis S s) t *s psi s) (all_configs dims).
Proof.
  intros dims prog; induction prog as [|g prog IH]; intros psi t Ht; cbn [final].
  - symmetry. rewrite (bsum_single L (fun s => basis S s t *s psi s) (a := t)).
    + unfold basis. rewrite config_eqb_refl. ring.
    + apply all_configs_NoDup.
    + apply in_all_configs. exact Ht.
    + intros s _ N. unfold basis. destruct (config_eqb s t) eqn:E; [apply config_eqb_eq in E; contradiction | ring].
  - rewrite IH by exact Ht.
    transitivity (bsum (fun u => bsum (fun s => final dims prog (basis S u) t *s (amp dims g u s *s psi s)) (all_configs dims)) (all_configs dims)).
    { apply bsum_ext. intros u Hu. rewrite (bsum_mul_l L). f_equal. rewrite apply_kapply. reflexivity. }
    rewrite (bsum_swap L). apply bsum_ext. intros s Hs. apply in_all_configs in Hs. rewrite (IH (apply dims g (basis S s))) by exact Ht.
    rewrite <- (bsum_mul_r L). apply bsum_ext. intros u Hu. rewrite (apply_basis_any L) by exact Hs. ring.
Qed.

Definition sgn (b : bool) : S := if b then sopp s1 else s1.
Notation start1 n := (repeat 0 n ++ [1]).
Notation c2 := (sisqrt 2 : S).

Lemma start_valid : forall n, valid (qubits (n + 1)) (start1 n).
Proof.
  intros n. unfold qubits. rewrite repeat_app. apply valid_app; [|repeat constructor].
  induction n; simpl; constructor; [lia | assumption].
Qed.

Lemma h_product : forall n b t, valid (qubits n) b -> valid (qubits n) t ->
  final (qubits n) (map (fun r => GH r) (seq 0 n)) (basis S b) t = product S (map (hh S) (map (at_level S) b)) t.
Proof.
  intros n b t Hb Ht. pose proof (valid_length Hb) as Lb. rewrite len_qubits in Lb.
  rewrite (@final_ext S (qubits n) _ _ (product S (map (at_level S) b)));
    [| intros w Hw; apply (product_basis L); pose proof (valid_length Hw) as X; rewrite len_qubits in X; lia | exact Ht].
  rewrite (h_layer L) by (try assumption; rewrite ?map_length; lia).
  rewrite firstn_all2, skipn_all2, app_nil_r by (rewrite map_length; lia). reflexivity.
Qed.

Lemma bit : forall x, x < 2 -> x = 0 \/ x = 1. Proof. intros; lia. Qed.

Lemma walsh_to : forall n s, valid (qubits (n + 1)) s ->
  product S (map (hh S) (map (at_level S) s)) (start1 n) = spow S c2 (n + 1) *s sign S (level s n).
Proof.
  intros n; induction n as [|n IH]; intros s Hs.
  - inversion Hs as [|x d s' ds Hx Hs']; subst. inversion Hs'; subst. simpl. unfold level. simpl.
    rewrite (@hh_level S L Hroot x 1) by lia. destruct (bit Hx) as [-> | ->]; unfold sign; simpl; ring.
  - inversion Hs as [|x d s' ds Hx Hs']; subst. specialize (IH s' Hs'). change (level (x :: s') (Datatypes.S n)) with (level s' n).
    cbn [map repeat app product Nat.add spow]. rewrite IH, (@hh_level S L Hroot x 0) by lia. rewrite (spow_one L). ring.
Qed.
Lemma walsh_from : forall n s, valid (qubits (n + 1)) s ->
  product S (map (hh S) (map (at_level S) (start1 n))) s = spow S c2 (n + 1) *s sign S (level s n).
Proof.
  intros n; induction n as [|n IH]; intros s Hs.
  - inversion Hs as [|x d s' ds Hx Hs']; subst. inversion Hs'; subst. simpl. unfold level. simpl.
    rewrite (@hh_level S L Hroot 1 x) by lia. simpl. ring.
  - inversion Hs as [|x d s' ds Hx Hs']; subst. specialize (IH s' Hs'). change (level (x :: s') (Datatypes.S n)) with (level s' n).
    cbn [map repeat app product Nat.add spow]. rewrite IH, (@hh_level S L Hroot 0 x) by lia. simpl. ring.
Qed.

(** The oracle turns the last qubit over where [f] holds of the others. *)
Definition turned (n : nat) (f : config -> bool) (s : config) : config :=
  put s n (if f (firstn n s) then 1 - level s n else level s n).

Lemma firstn_put : forall n s v, firstn n (put s n v) = firstn n s.
Proof. induction n as [|n IH]; intros [|x s] v; simpl; try reflexivity. rewrite IH. reflexivity. Qed.

Lemma last_bit : forall n s, valid (qubits (n + 1)) s -> level s n < 2 /\ length s = n + 1.
Proof.
  intros n s Hs. pose proof (valid_length Hs) as E. rewrite len_qubits in E. split; [|exact E].
  pose proof (valid_level Hs (r := n) ltac:(rewrite len_qubits; lia)) as V. rewrite nth_qubits in V by lia. exact V.
Qed.
Lemma turned_valid : forall n f s, valid (qubits (n + 1)) s -> valid (qubits (n + 1)) (turned n f s).
Proof.
  intros n f s Hs. destruct (last_bit n Hs) as [H1 H2]. apply valid_put; [exact Hs|]. rewrite nth_qubits by lia. destruct (f _); lia.
Qed.
Lemma turned_twice : forall n f s, valid (qubits (n + 1)) s -> turned n f (turned n f s) = s.
Proof.
  intros n f s Hs. destruct (last_bit n Hs) as [H1 H2]. unfold turned. rewrite firstn_put, level_put, Nat.eqb_refl, put_put by lia.
  destruct (f (firstn n s)); [replace (1 - (1 - level s n)) with (level s n) by lia|]; apply put_level.
Qed.
Lemma turned_sign : forall n f s, valid (qubits (n + 1)) s ->
  sign S (level (turned n f s) n) = sgn (f (firstn n s)) *s sign S (level s n).
Proof.
  intros n f s Hs. destruct (last_bit n Hs) as [H1 H2]. unfold turned. rewrite level_put, Nat.eqb_refl by lia.
  destruct (bit H1) as [-> | ->], (f (firstn n s)); unfold sign, sgn; simpl; ring.
Qed.

Section Oracle.
Variables (n : nat) (f : config -> bool) (prog : list gate).
Hypothesis Hok : Forall (gate_ok (qubits (n + 1))) prog.
Hypothesis Hrev : forall g, In g prog -> reversible g.
Hypothesis Hf : forall s, valid (qubits (n + 1)) s -> moves (qubits (n + 1)) prog s = turned n f s.
Notation hs := (map (fun r => GH r) (seq 0 (n + 1)) : list gate).
Notation dims := (qubits (n + 1)).

Lemma after_oracle : forall s, valid dims s ->
  final dims prog (final dims hs (basis S (start1 n))) s = sgn (f (firstn n s)) *s final dims hs (basis S (start1 n)) s.
Proof.
  intros s Hs. pose proof (turned_valid n f Hs) as Ht.
  assert (E : s = moves dims prog (turned n f s)) by (rewrite Hf by exact Ht; symmetry; apply turned_twice; exact Hs).
  rewrite E at 1. rewrite (final_moved L) by assumption. rewrite !h_product by (try apply start_valid; assumption).
  rewrite !walsh_from by assumption. rewrite turned_sign by exact Hs. ring.
Qed.

Lemma jozsa_amplitude : final dims (hs ++ prog ++ hs) (basis S (start1 n)) (start1 n)
  = spow S c2 (n + n) *s bsum (fun x => sgn (f x)) (all_configs (qubits n)).
Proof.
  rewrite !final_app, final_sum by apply start_valid.
  assert (Sq : forall x, sign S x *s sign S x = s1) by (intros x; unfold sign; destruct (Nat.eqb x 1); ring).
  rewrite bsum_ext with (g := fun s => (spow S c2 (n + 1) *s spow S c2 (n + 1)) *s sgn (f (firstn n s))).
  2: { intros s Hs. apply in_all_configs in Hs. rewrite after_oracle by exact Hs. rewrite !h_product by (try apply start_valid; assumption).
       rewrite walsh_to, walsh_from by exact Hs. transitivity ((spow S c2 (n + 1) *s spow S c2 (n + 1)) *s sgn (f (firstn n s)) *s (sign S (level s n) *s sign S (level s n))); [ring|].
       rewrite Sq. ring. }
  rewrite (bsum_mul_l L). unfold qubits. rewrite repeat_app, (bsum_configs_app L). fold (qubits n).
  rewrite bsum_ext with (g := fun a => sgn (f a) +s sgn (f a)).
  2: { intros a Ha. apply in_all_configs in Ha. pose proof (valid_length Ha) as E. rewrite len_qubits in E.
       simpl. rewrite <- E, !firstn_app, Nat.sub_diag, !firstn_all. simpl. rewrite !app_nil_r. ring. }
  rewrite (bsum_add L). rewrite !(spow_add L). simpl (spow S c2 1).
  transitivity (spow S c2 n *s spow S c2 n *s ((c2 *s c2) +s (c2 *s c2)) *s bsum (fun x => sgn (f x)) (all_configs (qubits n))); [ring|].
  rewrite Hscale. ring.
Qed.

Lemma jozsa_constant : forall b, (forall x, valid (qubits n) x -> f x = b) -> forall t, valid dims t ->
  final dims (hs ++ prog ++ hs) (basis S (start1 n)) t = sgn b *s basis S (start1 n) t.
Proof.
  intros b Hb t Ht. rewrite !final_app.
  assert (Fv : forall s, valid dims s -> f (firstn n s) = b).
  { intros s Hs. apply Hb. pose proof (valid_firstn n Hs) as V. unfold qubits in V. rewrite repeat_app in V.
    rewrite firstn_app, repeat_length, Nat.sub_diag, (firstn_all2 (repeat 2 n)) in V by (rewrite repeat_length; lia). cbn [firstn] in V. rewrite app_nil_r in V. exact V. }
  rewrite final_sum by exact Ht.
  rewrite bsum_ext with (g := fun s => sgn b *s (final dims hs (basis S s) t *s final dims hs (basis S (start1 n)) s)).
  2: { intros s Hs. apply in_all_configs in Hs. rewrite after_oracle, Fv by exact Hs. ring. }
  rewrite (bsum_mul_l L), <- final_sum by exact Ht. f_equal.
  pose proof (@hidden_parity S L Hroot Hscale n (start1 n) [] t Ht (start_valid n)) as P. cbn [map app] in P. rewrite final_app in P. rewrite P.
  - f_equal. apply nth_ext with (d := 0) (d' := 0).
    + rewrite map_length, seq_length, app_length, repeat_length. simpl. lia.
    + intros r Hr. rewrite map_length, seq_length in Hr.
      rewrite nth_indep with (d' := (fun r => (level (start1 n) r + count_occ Nat.eq_dec [] r) mod 2) 0) by (rewrite map_length, seq_length; exact Hr).
      rewrite (map_nth (fun r => (level (start1 n) r + count_occ Nat.eq_dec [] r) mod 2)), seq_nth by exact Hr. cbn [count_occ Nat.add].
      rewrite Nat.add_0_r. apply Nat.mod_small. pose proof (valid_level (start_valid n) (r := r) ltac:(rewrite len_qubits; exact Hr)) as V.
      rewrite nth_qubits in V by exact Hr. exact V.
  - unfold level. rewrite app_nth2 by (rewrite repeat_length; lia). rewrite repeat_length, Nat.sub_diag. reflexivity.
  - intros c [].
Qed.
End Oracle.
End Jozsa.
