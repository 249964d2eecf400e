(** * Unitary: gates that preserve the total of the squared moduli. *)
From Coq Require Import FinFun.
From Verif Require Import Py Scalar Mat Utils Gates Circuit Spec Calls ComplexSpec Lib Kern GateMat Layers Refine Reversible Local.
Set Implicit Arguments.

Section Unitary.
Variable S : scalar.
Hypothesis L : scalar_laws S.
Hypothesis conj_add : forall x y : S, sconj (sadd x y) = sadd (sconj x) (sconj y).
Hypothesis conj_mul : forall x y : S, sconj (smul x y) = smul (sconj x) (sconj y).
Add Ring Sring : (sl_ring L).
Infix "*s" := (@smul S) (at level 40, left associativity).

Lemma conj_bsum : forall A (f : A -> S) l, sconj (bsum f l) = bsum (fun x => sconj (f x)) l.
Proof. intros A f l; induction l as [|x l IH]; simpl; [apply (sl_conj0 L)|]. rewrite conj_add, IH. reflexivity. Qed.

Definition norm (dims : list nat) (psi : config -> S) : S := bsum (fun s => psi s *s sconj (psi s)) (all_configs dims).

(** The columns of a kernel are orthonormal. *)
Definition isometry (dims : list nat) (K : config -> config -> S) : Prop :=
  forall a b, valid dims a -> valid dims b ->
  bsum (fun o => sconj (K o a) *s K o b) (all_configs dims) = delta S a b.

Lemma isometry_norm : forall dims K psi, isometry dims K -> norm dims (kapply S dims K psi) = norm dims psi.
Proof.
  intros dims K psi H. unfold norm, kapply.
  set (cs := all_configs dims).
  transitivity (bsum (fun o => bsum (fun b => bsum (fun a => (sconj (psi a) *s psi b) *s (sconj (K o a) *s K o b)) cs) cs) cs).
  - apply bsum_ext. intros o _. rewrite conj_bsum, <- (bsum_mul_r L). apply bsum_ext. intros b _.
    rewrite <- (bsum_mul_l L). apply bsum_ext. intros a _. rewrite conj_mul. ring.
  - rewrite (bsum_swap L). apply bsum_ext. intros b Hb. rewrite (bsum_swap L).
    rewrite bsum_ext with (g := fun a => delta S b a *s (sconj (psi a) *s psi b)).
    + apply in_all_configs in Hb. unfold cs. rewrite (bsum_delta_l L) by exact Hb. ring.
    + intros a Ha. rewrite (bsum_mul_l L). apply in_all_configs in Ha, Hb. unfold cs. rewrite H by assumption.
      unfold delta. destruct (config_eqb a b) eqn:E; destruct (config_eqb b a) eqn:E'; try ring.
      * apply config_eqb_eq in E. subst. rewrite config_eqb_refl in E'. discriminate.
      * apply config_eqb_eq in E'. subst. rewrite config_eqb_refl in E. discriminate.
Qed.

Lemma norm_ext : forall dims psi psi', (forall s, valid dims s -> psi s = psi' s) -> norm dims psi = norm dims psi'.
Proof. intros dims psi psi' H. apply bsum_ext. intros s Hs. apply in_all_configs in Hs. rewrite H by exact Hs. reflexivity. Qed.

Lemma norm_basis : forall dims s, valid dims s -> norm dims (basis S s) = s1.
Proof.
  intros dims s Hs. unfold norm. rewrite bsum_ext with (g := fun t => delta S s t *s sconj (basis S s t)) by reflexivity.
  rewrite (bsum_delta_l L) by exact Hs. unfold basis. rewrite config_eqb_refl. apply (sl_conj1 L).
Qed.

Lemma final_norm : forall dims prog psi, (forall g, In g prog -> isometry dims (amp dims g)) ->
  norm dims (final dims prog psi) = norm dims psi.
Proof.
  intros dims prog; induction prog as [|g prog IH]; intros psi H; simpl; [reflexivity|].
  rewrite IH by (intros; apply H; right; assumption).
  rewrite norm_ext with (psi' := kapply S dims (amp dims g) psi) by (intros; apply apply_kapply).
  apply isometry_norm. apply H. left; reflexivity.
Qed.

(** The numbers reported are those of the whole state. *)
Lemma norm_answer : forall dims psi, total S (fun '(_, a) => a *s sconj a) (answer dims psi) = norm dims psi.
Proof.
  intros dims psi. unfold answer, norm. rewrite <- bsum_total, bsum_map. induction (all_configs dims) as [|s l IH]; simpl; [reflexivity|].
  destruct (seqb (psi s) s0) eqn:E; simpl; rewrite IH; [|reflexivity]. apply (sl_eqb L) in E. rewrite E. ring.
Qed.

(** ** Classical gates *)
Lemma classical_isometry : forall dims f, (forall s, valid dims s -> valid dims (f s)) ->
  (forall s t, valid dims s -> valid dims t -> f s = f t -> s = t) -> isometry dims (classical S f).
Proof.
  intros dims f Hv Hi a b Ha Hb.
  rewrite bsum_ext with (g := fun o => delta S (f a) o *s classical S f o b).
  - rewrite (bsum_delta_l L) by auto. unfold classical, delta.
    destruct (config_eqb (f b) (f a)) eqn:E; destruct (config_eqb a b) eqn:E'; try reflexivity.
    + apply config_eqb_eq in E. apply config_eqb_neq in E'. exfalso. apply E'. apply Hi; congruence.
    + apply config_eqb_eq in E'. subst. rewrite config_eqb_refl in E. discriminate.
  - intros o _. f_equal. unfold classical, delta. destruct (config_eqb (f a) o); [apply (sl_conj1 L) | apply (sl_conj0 L)].
Qed.

(** ** Gates on one register *)
Lemma put_same : forall (s t : config) r v, put s r v = put t r v -> level s r = level t r -> s = t.
Proof. intros s t r v E Ev. rewrite <- (put_level s r), <- (put_level t r), <- (put_put s r v), <- (put_put t r v), E, Ev. reflexivity. Qed.

Lemma local_isometry : forall dims r u, r < length dims -> columns S Nat.eqb (seq 0 (nth r dims 0)) u ->
  isometry dims (local S r u).
Proof.
  intros dims r u Hr Hu a b Ha Hb. pose proof (valid_length Ha) as La. pose proof (valid_length Hb) as Lb.
  rewrite (@bsum_image S L _ _ (fun o => sconj (local S r u o a) *s local S r u o b) (put a r) (seq 0 (nth r dims 0))).
  - rewrite bsum_ext with (g := fun j => (if config_eqb (put b r 0) (put a r 0) then s1 else s0) *s (sconj (u j (level a r)) *s u j (level b r))).
    + rewrite (bsum_mul_l L), bsum_total, Hu by (apply in_seq; split; [lia | apply valid_level; assumption]).
      unfold delta. destruct (config_eqb (put b r 0) (put a r 0)) eqn:E.
      * apply config_eqb_eq in E. destruct (Nat.eqb_spec (level a r) (level b r)) as [E'|E'].
        -- rewrite (put_same _ _ _ _ E (eq_sym E')), config_eqb_refl. ring.
        -- rewrite (proj2 (config_eqb_neq _ _)) by congruence. ring.
      * apply config_eqb_neq in E. rewrite (proj2 (config_eqb_neq _ _)) by congruence. ring.
    + intros j _. unfold local. rewrite level_put, Nat.eqb_refl, config_eqb_refl by lia.
      destruct (config_eqb (put b r j) (put a r j)) eqn:E; destruct (config_eqb (put b r 0) (put a r 0)) eqn:E'; try ring; exfalso.
      * apply config_eqb_eq in E. apply config_eqb_neq in E'. apply E'. rewrite <- (put_put b r j), <- (put_put a r j), E. reflexivity.
      * apply config_eqb_neq in E. apply config_eqb_eq in E'. apply E. rewrite <- (put_put b r 0), <- (put_put a r 0), E'. reflexivity.
  - apply all_configs_NoDup.
  - apply FinFun.Injective_map_NoDup; [|apply seq_NoDup]. intros v w E. eapply put_inj; [|exact E]. lia.
  - intros j Hj. apply in_seq in Hj. apply in_all_configs. apply valid_put; [exact Ha | lia].
  - intros o Ho Hn. apply in_all_configs in Ho. unfold local at 1.
    destruct (config_eqb (put a r (level o r)) o) eqn:E; [|rewrite (sl_conj0 L); ring]. exfalso. apply Hn.
    apply config_eqb_eq in E. apply in_map_iff. exists (level o r). split; [exact E|].
    apply in_seq. pose proof (valid_level Ho Hr). lia.
Qed.

(** ** Gates on several registers *)
Lemma span_parts : forall dims r k, r + k <= length dims ->
  dims = firstn r dims ++ span dims r k ++ skipn (r + k) dims.
Proof.
  intros dims r k H. unfold span. rewrite <- (firstn_skipn r dims) at 1. f_equal.
  rewrite <- (firstn_skipn k (skipn r dims)) at 1. f_equal. apply skipn_skipn'.
Qed.

Lemma span_isometry : forall dims r k u, r + k <= length dims ->
  columns S config_eqb (all_configs (span dims r k)) u -> isometry dims (amp dims (GSpan r k u)).
Proof.
  intros dims r k u Hr Hu a b Ha Hb. pose proof (valid_length Ha) as La. pose proof (valid_length Hb) as Lb.
  assert (P1 : forall s, valid dims s -> valid (firstn r dims) (firstn r s)).
  { intros s Hs. rewrite <- (firstn_skipn r dims) in Hs. apply valid_app_l in Hs. rewrite firstn_length, Nat.min_l in Hs by lia. exact Hs. }
  assert (P2 : forall s n, n <= length dims -> valid dims s -> valid (skipn n dims) (skipn n s)).
  { intros s n Hn Hs. rewrite <- (firstn_skipn n dims) in Hs. apply valid_app_r in Hs. rewrite firstn_length, Nat.min_l in Hs by lia. exact Hs. }
  assert (P3 : forall s, valid dims s -> valid (span dims r k) (firstn k (skipn r s))).
  { intros s Hs. unfold span. specialize (P2 s r ltac:(lia) Hs). rewrite <- (firstn_skipn k (skipn r dims)) in P2.
    apply valid_app_l in P2. rewrite firstn_length, skipn_length, Nat.min_l in P2 by lia. exact P2. }
  assert (P4 : forall s : config, s = firstn r s ++ firstn k (skipn r s) ++ skipn (r + k) s).
  { intros s. rewrite <- (firstn_skipn r s) at 1. f_equal. rewrite <- (firstn_skipn k (skipn r s)) at 1. f_equal. apply skipn_skipn'. }
  set (h := fun w : config => firstn r a ++ w ++ skipn (r + k) a).
  assert (Q1 : forall w, valid (span dims r k) w -> firstn r (h w) = firstn r a).
  { intros w Hw. apply firstn_app_exact. rewrite firstn_length. lia. }
  assert (Q2 : forall w, valid (span dims r k) w -> firstn k (skipn r (h w)) = w /\ skipn (r + k) (h w) = skipn (r + k) a).
  { intros w Hw. assert (length w = k) by (rewrite (valid_length Hw); unfold span; rewrite firstn_length, skipn_length; lia).
    rewrite <- (skipn_skipn' k r). unfold h. rewrite skipn_app_exact by (rewrite firstn_length; lia).
    split; [apply firstn_app_exact | apply skipn_app_exact]; assumption. }
  cbn [amp].
  rewrite (@bsum_image S L _ _ _ h (all_configs (span dims r k))).
  - rewrite bsum_ext with (g := fun w => (if config_eqb (firstn r b) (firstn r a) && config_eqb (skipn (r + k) b) (skipn (r + k) a) then s1 else s0)
                                          *s (sconj (u w (firstn k (skipn r a))) *s u w (firstn k (skipn r b)))).
    + rewrite (bsum_mul_l L), bsum_total, Hu by (apply in_all_configs; auto). unfold delta.
      destruct (config_eqb (firstn r b) (firstn r a)) eqn:E1; [destruct (config_eqb (skipn (r + k) b) (skipn (r + k) a)) eqn:E2|].
      * apply config_eqb_eq in E1, E2. simpl. destruct (config_eqb (firstn k (skipn r a)) (firstn k (skipn r b))) eqn:E3.
        -- apply config_eqb_eq in E3. rewrite (proj2 (config_eqb_eq a b)); [ring|].
           rewrite (P4 a), (P4 b), E1, E2, E3. reflexivity.
        -- apply config_eqb_neq in E3. rewrite (proj2 (config_eqb_neq a b)) by congruence. ring.
      * apply config_eqb_neq in E2. simpl. rewrite (proj2 (config_eqb_neq a b)) by congruence. ring.
      * apply config_eqb_neq in E1. simpl. rewrite (proj2 (config_eqb_neq a b)) by congruence. ring.
    + intros w Hw. apply in_all_configs in Hw. destruct (Q2 w Hw) as [Q3 Q4]. rewrite (Q1 w Hw), Q3, Q4, !config_eqb_refl. simpl.
      destruct (config_eqb (firstn r b) (firstn r a) && config_eqb (skipn (r + k) b) (skipn (r + k) a)); ring.
  - apply all_configs_NoDup.
  - apply FinFun.Injective_map_NoDup; [|apply all_configs_NoDup]. intros v w E. unfold h in E.
    apply app_inv_head in E. apply app_inv_tail in E. exact E.
  - intros w Hw. apply in_all_configs in Hw. apply in_all_configs. rewrite (span_parts dims r k Hr).
    apply valid_app; [auto|]. apply valid_app; [exact Hw|]. apply P2; assumption.
  - intros o Ho Hn. apply in_all_configs in Ho.
    destruct (config_eqb (firstn r a) (firstn r o)) eqn:E1; [|simpl; rewrite (sl_conj0 L); ring].
    destruct (config_eqb (skipn (r + k) a) (skipn (r + k) o)) eqn:E2; [|simpl; rewrite (sl_conj0 L); ring].
    exfalso. apply Hn. apply config_eqb_eq in E1, E2. apply in_map_iff. exists (firstn k (skipn r o)).
    split; [unfold h; rewrite E1, E2; symmetry; apply P4 | apply in_all_configs; auto].
Qed.

End Unitary.
