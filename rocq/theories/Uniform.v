(** * Uniform: h gates on distinct registers, from any start levels. *)
From Coq Require Import Reals Lra Permutation.
From Verif Require Import Py Scalar Mat Utils Gates Circuit Spec Calls Complex ComplexSpec ComplexLib Lib Kern Layers Refine Reversible Local ComplexRun.
Set Implicit Arguments.
Local Notation length := List.length.
Open Scope nat_scope.

Lemma prob_mul : forall a b, prob (Cmul a b) = (prob a * prob b)%R.
Proof. intros [a1 a2] [b1 b2]. unfold prob, Cmul, Cre, Cim. simpl. ring. Qed.
Lemma prob_root : forall d k, prob (root d k) = 1%R.
Proof. intros d k. unfold prob, root, cis, Cre, Cim. simpl. rewrite Rplus_comm. apply sin2_cos2. Qed.
Lemma prob_0 : forall z, prob z = 0%R <-> z = C0.
Proof.
  intros [x y]. unfold prob, Cre, Cim, C0. simpl. split; [|intros E; injection E as -> ->; ring].
  intros H. assert (0 <= x * x)%R by apply Rle_0_sqr. assert (0 <= y * y)%R by apply Rle_0_sqr.
  f_equal; apply Rsqr_0_uniq; unfold Rsqr; lra.
Qed.

Section Uniform.
Variable ord : nat -> list nat.
Hypothesis Hord : orders ord.
Notation CS := (Cscalar ord).

Lemma prob_had : forall d i j, 2 <= d -> prob (had CS d i j) = (/ INR d)%R.
Proof.
  intros d i j Hd. unfold had. change (smul (s := CS)) with Cmul. rewrite prob_mul.
  assert (E1 : prob (sisqrt (s := CS) d) = (/ INR d)%R).
  { unfold prob, Cscalar, Cre, Cim. simpl. assert (0 < INR d)%R by (apply lt_0_INR; lia).
    rewrite Rmult_0_l, Rplus_0_r, <- Rinv_mult. rewrite sqrt_sqrt by lra. reflexivity. }
  rewrite E1. assert (E2 : forall b : bool, prob (if b then s1 (s := CS) else nth ((i + (d - 1) - j) mod (d - 1)) (sroots (s := CS) d) s0) = 1%R).
  { intros [|]; [unfold prob; simpl; ring|]. cbn [sroots Cscalar].
    rewrite nth_indep with (d' := root d 0).
    - rewrite map_nth. apply prob_root.
    - rewrite map_length, (Permutation_length (Hord d)), seq_length. pose proof (Nat.mod_upper_bound (i + (d - 1) - j) (d - 1)). lia. }
  rewrite E2. ring.
Qed.

(** [t] has the levels of [s] except on the registers [rs]. *)
Definition same_off (rs : list nat) (s t : config) : bool :=
  forallb (fun r => existsb (Nat.eqb r) rs || Nat.eqb (level t r) (level s r)) (seq 0 (length s)).

Lemma one_h : forall dims r b (psi : config -> CS) t, valid dims t -> r < length dims -> b < nth r dims 0 ->
  (forall u, valid dims u -> level u r <> b -> psi u = s0) ->
  apply dims (GH r) psi t = smul (had CS (nth r dims 0) (level t r) b) (psi (put t r b)).
Proof.
  intros dims r b psi t Ht Hr Hb H0. rewrite apply_kapply. unfold kapply. cbn [amp].
  rewrite (local_apply (Cscalar_laws Hord)) by assumption.
  rewrite (@bsum_single CS (Cscalar_laws Hord) _ (fun j => smul (s := CS) (had CS (nth r dims 0) (level t r) j) (psi (put t r j))) (seq 0 (nth r dims 0)) b); [reflexivity | apply seq_NoDup | apply in_seq; lia|].
  intros j Hj Nj. apply in_seq in Hj. rewrite H0; [|apply valid_put; [exact Ht | lia] |].
  - apply C_ext; simpl; ring.
  - rewrite level_put, Nat.eqb_refl by (rewrite (valid_length Ht); exact Hr). exact Nj.
Qed.

Fixpoint puts (b : config) (rs : list nat) (t : config) : config :=
  match rs with [] => t | r :: rs => put (puts b rs t) r (level b r) end.
Fixpoint share (dims rs : list nat) : R :=
  match rs with [] => 1%R | r :: rs => (share dims rs * / INR (nth r dims 0%nat))%R end.

Lemma puts_valid : forall dims b rs t, valid dims b -> valid dims t -> (forall r, In r rs -> r < length dims) -> valid dims (puts b rs t).
Proof.
  intros dims b rs t Hb Ht; induction rs as [|r rs IH]; intros H; [exact Ht|]. cbn [puts].
  apply valid_put; [apply IH; intros; apply H; right; assumption|]. apply valid_level; [exact Hb | apply H; left; reflexivity].
Qed.
Lemma puts_level : forall dims b rs t r, valid dims t -> (forall r, In r rs -> r < length dims) ->
  level (puts b rs t) r = if existsb (Nat.eqb r) rs then level b r else level t r.
Proof.
  intros dims b rs t r Ht; induction rs as [|q rs IH]; intros H; [reflexivity|]. cbn [puts existsb].
  assert (Lp : forall rs, length (puts b rs t) = length dims).
  { clear -Ht. induction rs as [|q rs IH]; [exact (valid_length Ht)|]. cbn [puts]. rewrite put_length. exact IH. }
  rewrite level_put by (rewrite Lp; apply H; left; reflexivity). destruct (Nat.eqb_spec r q) as [->|N]; [reflexivity|].
  apply IH. intros; apply H; right; assumption.
Qed.

Lemma many_h : forall dims b rs (psi : config -> CS) t, valid dims b -> valid dims t -> (forall d, In d dims -> 2 <= d) ->
  NoDup rs -> (forall r, In r rs -> r < length dims) ->
  (forall u r, valid dims u -> In r rs -> level u r <> level b r -> psi u = s0) ->
  prob (final dims (map (fun r => GH r) rs) psi t) = (share dims rs * prob (psi (puts b rs t)))%R.
Proof.
  intros dims b rs; induction rs as [|r rs IH]; intros psi t Hb Ht Hd Hn Hr H0; [simpl; ring|].
  inversion Hn as [|? ? N Hn']; subst. cbn [map final].
  assert (R : r < length dims) by (apply Hr; left; reflexivity).
  assert (E : forall u, valid dims u -> apply dims (GH r) psi u = smul (had CS (nth r dims 0) (level u r) (level b r)) (psi (put u r (level b r)))).
  { intros u Hu. apply one_h; [exact Hu | exact R | apply valid_level; assumption |].
    intros v Hv Hl. apply (H0 v r); [exact Hv | left; reflexivity | exact Hl]. }
  rewrite IH; try assumption.
  - rewrite E by (apply puts_valid; try assumption; intros; apply Hr; right; assumption).
    change (smul (s := CS)) with Cmul. rewrite prob_mul, prob_had by (apply Hd, nth_In; exact R). cbn [share puts]. ring.
  - intros; apply Hr; right; assumption.
  - intros u q Hu Hq Hl. rewrite E by exact Hu. rewrite (H0 (put u r (level b r)) q).
    + apply C_ext; simpl; ring.
    + apply valid_put; [exact Hu | apply valid_level; assumption].
    + right. exact Hq.
    + rewrite level_put by (rewrite (valid_length Hu); exact R). destruct (Nat.eqb_spec q r) as [->|_]; [contradiction | exact Hl].
Qed.

Lemma share_pos : forall dims rs, (forall d, In d dims -> 2 <= d) -> (forall r, In r rs -> r < length dims) ->
  share dims rs = (/ INR (prodn (map (fun r => nth r dims 0%nat) rs)))%R /\ prodn (map (fun r => nth r dims 0) rs) <> 0.
Proof.
  intros dims rs Hd; induction rs as [|r rs IH]; intros Hr.
  - split; [simpl; field | discriminate].
  - destruct IH as [I1 I2]; [intros; apply Hr; right; assumption|]. cbn [map]. rewrite prodn_cons. cbn [share].
    assert (D : 2 <= nth r dims 0) by (apply Hd, nth_In, Hr; left; reflexivity).
    split; [|nia]. rewrite I1, mult_INR, Rinv_mult. ring.
Qed.

Lemma spread_probs : forall dims b rs t, valid dims b -> valid dims t -> (forall d, In d dims -> 2 <= d) ->
  NoDup rs -> (forall r, In r rs -> r < length dims) ->
  prob (final dims (map (fun r => GH r) rs) (basis CS b) t)
  = if same_off rs b t then (/ INR (prodn (map (fun r => nth r dims 0%nat) rs)))%R else 0%R.
Proof.
  intros dims b rs t Hb Ht Hd Hn Hr. rewrite (@many_h dims b rs) by (try assumption; intros u r Hu _ Hl; unfold basis;
    (destruct (config_eqb b u) eqn:E; [apply config_eqb_eq in E; subst; destruct (Hl eq_refl) | reflexivity])).
  rewrite (proj1 (share_pos dims rs Hd Hr)).
  assert (Q : config_eqb b (puts b rs t) = same_off rs b t).
  { apply Bool.eq_iff_eq_true. rewrite config_eqb_eq. unfold same_off. rewrite forallb_forall. split.
    - intros E r Hin. apply in_seq in Hin. pose proof (@puts_level dims b rs t r Ht Hr) as P. rewrite <- E in P.
      destruct (existsb (Nat.eqb r) rs); [reflexivity|]. rewrite P. apply Nat.eqb_refl.
    - intros H. apply level_ext.
      + rewrite (valid_length Hb). symmetry. apply valid_length. apply puts_valid; assumption.
      + intros r Hl. rewrite (@puts_level dims) by assumption. specialize (H r ltac:(apply in_seq; lia)).
        destruct (existsb (Nat.eqb r) rs); [reflexivity|]. symmetry. apply Nat.eqb_eq. exact H. }
  unfold basis. rewrite Q. destruct (same_off rs b t); unfold prob; simpl; ring.
Qed.
End Uniform.
