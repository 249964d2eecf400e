(** * Overlap: inner products and marginals under isometries. *)
From Coq Require Import Reals.
From Verif Require Import Py Scalar Mat Utils Gates Circuit Spec Calls Complex ComplexSpec ComplexLib OverlapSpec Lib Kern GateMat Layers Refine
  Reversible Local Unitary PartsSpec Parts ComplexRun.
Set Implicit Arguments.

Section Overlap.
Variable S : scalar.
Hypothesis L : scalar_laws S.
Hypothesis conj_add : forall x y : S, sconj (sadd x y) = sadd (sconj x) (sconj y).
Hypothesis conj_mul : forall x y : S, sconj (smul x y) = smul (sconj x) (sconj y).
Add Ring Sring' : (sl_ring L).
Infix "*s" := (@smul S) (at level 40, left associativity).

Definition inner (dims : list nat) (phi psi : config -> S) : S :=
  bsum (fun s => sconj (phi s) *s psi s) (all_configs dims).

Lemma isometry_inner : forall dims K phi psi, isometry S dims K ->
  inner dims (kapply S dims K phi) (kapply S dims K psi) = inner dims phi psi.
Proof.
  intros dims K phi psi H. unfold inner, kapply. set (cs := all_configs dims).
  transitivity (bsum (fun o => bsum (fun a => bsum (fun b => (sconj (phi a) *s psi b) *s (sconj (K o a) *s K o b)) cs) cs) cs).
  - apply bsum_ext. intros o _. rewrite (conj_bsum L conj_add), <- (bsum_mul_r L). apply bsum_ext. intros a _.
    rewrite <- (bsum_mul_l L). apply bsum_ext. intros b _. rewrite conj_mul. ring.
  - rewrite (bsum_swap L). apply bsum_ext. intros a Ha. rewrite (bsum_swap L).
    rewrite bsum_ext with (g := fun b => delta S a b *s (sconj (phi a) *s psi b)).
    + apply in_all_configs in Ha. unfold cs. rewrite (bsum_delta_l L) by exact Ha. reflexivity.
    + intros b Hb. rewrite (bsum_mul_l L). apply in_all_configs in Ha, Hb. unfold cs. rewrite H by assumption. ring.
Qed.

Lemma inner_ext : forall dims phi phi' psi psi', (forall s, valid dims s -> phi s = phi' s) -> (forall s, valid dims s -> psi s = psi' s) ->
  inner dims phi psi = inner dims phi' psi'.
Proof. intros dims phi phi' psi psi' H H'. apply bsum_ext. intros s Hs. apply in_all_configs in Hs. rewrite H, H' by exact Hs. reflexivity. Qed.

Lemma final_inner : forall dims prog phi psi, (forall g, In g prog -> isometry S dims (amp dims g)) ->
  inner dims (final dims prog phi) (final dims prog psi) = inner dims phi psi.
Proof.
  intros dims prog; induction prog as [|g prog IH]; intros phi psi H; simpl; [reflexivity|].
  rewrite IH by (intros; apply H; right; assumption).
  rewrite inner_ext with (phi' := kapply S dims (amp dims g) phi) (psi' := kapply S dims (amp dims g) psi) by (intros; apply apply_kapply).
  apply isometry_inner. apply H. left; reflexivity.
Qed.

Lemma bsum_answer : forall dims (f : config -> S -> S) psi, (forall s, f s s0 = s0) ->
  total S (fun '(s, a) => f s a) (answer dims psi) = bsum (fun s => f s (psi s)) (all_configs dims).
Proof.
  intros dims f psi H. unfold answer. rewrite <- bsum_total, bsum_map. induction (all_configs dims) as [|s l IH]; simpl; [reflexivity|].
  destruct (seqb (psi s) s0) eqn:E; simpl; rewrite IH; [|reflexivity]. apply (sl_eqb L) in E. rewrite E, H. ring.
Qed.

Lemma overlap_inner : forall dims phi psi, overlap S (answer dims phi) (answer dims psi) = inner dims phi psi.
Proof.
  intros dims phi psi. unfold overlap.
  assert (E : forall s a, total S (fun '(t, b) => if config_eqb s t then sconj a *s b else s0) (answer dims psi)
    = bsum (fun t => if config_eqb s t then sconj a *s psi t else s0) (all_configs dims)).
  { intros s a. apply (@bsum_answer dims (fun t b => if config_eqb s t then sconj a *s b else s0)).
    intros t. destruct (config_eqb s t); ring. }
  transitivity (total S (fun '(s, a) => bsum (fun t => if config_eqb s t then sconj a *s psi t else s0) (all_configs dims)) (answer dims phi)).
  { rewrite <- !bsum_total. apply bsum_ext. intros [s a] _. apply E. }
  rewrite (@bsum_answer dims (fun s a => bsum (fun t => if config_eqb s t then sconj a *s psi t else s0) (all_configs dims))).
  - apply bsum_ext. intros s Hs. apply in_all_configs in Hs.
    rewrite bsum_ext with (g := fun t => delta S s t *s (sconj (phi s) *s psi t)).
    + apply (bsum_delta_l L). exact Hs.
    + intros t _. unfold delta. destruct (config_eqb s t); ring.
  - intros s. apply (bsum_zero L). intros t _. destruct (config_eqb s t); [|reflexivity]. rewrite (sl_conj0 L). ring.
Qed.

Lemma inner_basis : forall dims s t, valid dims s -> inner dims (basis S s) (basis S t) = if config_eqb s t then s1 else s0.
Proof.
  intros dims s t Hs. unfold inner.
  rewrite bsum_ext with (g := fun u => delta S s u *s basis S t u).
  - rewrite (bsum_delta_l L) by exact Hs. unfold basis.
    destruct (config_eqb t s) eqn:E; destruct (config_eqb s t) eqn:E'; try reflexivity.
    + apply config_eqb_eq in E. subst. rewrite config_eqb_refl in E'. discriminate.
    + apply config_eqb_eq in E'. subst. rewrite config_eqb_refl in E. discriminate.
  - intros u _. f_equal. unfold basis, delta. destruct (config_eqb s u); [apply (sl_conj1 L) | apply (sl_conj0 L)].
Qed.

(** ** Marginals *)
Definition mask (P : config -> bool) (psi : config -> S) : config -> S := fun s => if P s then psi s else s0.

Lemma reads_differ : forall rs P s t, reads rs P -> P s <> P t -> exists r, In r rs /\ level s r <> level t r.
Proof.
  intros rs P s t HP Hn. destruct (existsb (fun r => negb (Nat.eqb (level s r) (level t r))) rs) eqn:E.
  - apply existsb_exists in E as [r [Hr E]]. exists r. split; [exact Hr|]. apply Bool.negb_true_iff, Nat.eqb_neq in E. exact E.
  - exfalso. apply Hn, HP. intros r Hr. destruct (Nat.eq_dec (level s r) (level t r)) as [H|H]; [exact H|].
    assert (X : existsb (fun r => negb (Nat.eqb (level s r) (level t r))) rs = true).
    { apply existsb_exists. exists r. split; [exact Hr|]. apply Bool.negb_true_iff, Nat.eqb_neq. exact H. }
    congruence.
Qed.

Lemma apply_mask : forall dims (g : gate S) rs P psi s, gate_ok dims g -> (forall r, In r rs -> ~ In r (changes g)) -> reads rs P ->
  valid dims s -> apply dims g (mask P psi) s = mask P (apply dims g psi) s.
Proof.
  intros dims g rs P psi s Hg Hr HP Hs. unfold mask at 2. rewrite !apply_kapply. unfold kapply. destruct (P s) eqn:E.
  - apply bsum_ext. intros u Hu. apply in_all_configs in Hu. unfold mask. destruct (P u) eqn:E'; [reflexivity|].
    destruct (@reads_differ rs P s u HP) as [r [H1 H2]]; [congruence|].
    rewrite (@amp_changes S dims g r s u Hg Hs Hu (Hr r H1) H2). ring.
  - apply (bsum_zero L). intros u Hu. apply in_all_configs in Hu. unfold mask. destruct (P u) eqn:E'; [|ring].
    destruct (@reads_differ rs P s u HP) as [r [H1 H2]]; [congruence|].
    rewrite (@amp_changes S dims g r s u Hg Hs Hu (Hr r H1) H2). ring.
Qed.

Lemma final_mask : forall dims prog rs P psi s, Forall (gate_ok dims) prog ->
  (forall g r, In g prog -> In r rs -> ~ In r (changes g)) -> reads rs P ->
  valid dims s -> final dims prog (mask P psi) s = mask P (final dims prog psi) s.
Proof.
  intros dims prog rs P; induction prog as [|g prog IH]; intros psi s Hok Hr HP Hs; simpl; [reflexivity|].
  inversion Hok; subst. rewrite <- IH; try assumption.
  - apply final_ext; [|exact Hs]. intros u Hu. apply apply_mask with (rs := rs); try assumption. intros r. apply Hr. left; reflexivity.
  - intros g' r Hg'. apply Hr. right; exact Hg'.
Qed.

Lemma mask_norm : forall dims prog rs P psi, Forall (gate_ok dims) prog ->
  (forall g r, In g prog -> In r rs -> ~ In r (changes g)) -> reads rs P ->
  (forall g, In g prog -> isometry S dims (amp dims g)) ->
  norm S dims (mask P (final dims prog psi)) = norm S dims (mask P psi).
Proof.
  intros dims prog rs P psi Hok Hr HP Hi. rewrite <- (final_norm L conj_add conj_mul prog (mask P psi) Hi).
  apply norm_ext. intros s Hs. symmetry. apply final_mask with (rs := rs); assumption.
Qed.
End Overlap.

Lemma weight_norm : forall ord (Hord : orders ord) dims P (psi : config -> Cscalar ord),
  weight P (answer dims psi) = Cre (norm (Cscalar ord) dims (mask (Cscalar ord) P psi)).
Proof.
  intros ord Hord dims P psi. unfold weight, answer, norm. induction (all_configs dims) as [|s l IH]; [reflexivity|].
  rewrite map_map in IH |- *. cbn [filter]. unfold bsum in *. cbn [map fold_right].
  transitivity ((if P s then prob (psi s) else 0) + fold_right Rplus 0
    (map (fun x => if P x then prob (psi x) else 0) (filter (fun t => negb (seqb (psi t) s0)) l)))%R.
  - destruct (seqb (psi s) s0) eqn:E; cbn [negb map fold_right]; [|reflexivity].
    apply (sl_eqb (Cscalar_laws Hord)) in E. rewrite E. unfold prob. destruct (P s); cbn; unfold Cre, Cim; cbn; ring.
  - rewrite IH. unfold mask at 3 4. unfold prob. destruct (P s); cbn; unfold Cre, Cim; cbn; ring.
Qed.
