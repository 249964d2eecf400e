(** * Denoms: the probabilities of circuits with h and z on qubits and qutrits
    are fractions with known denominators. *)
From Coq Require Import Reals Lra Permutation.
From Verif Require Import Py Scalar Mat Utils Gates Circuit Spec Calls Complex ComplexSpec ComplexLib Lib Kern GateMat Layers Refine Run Reversible
  Outcome Local Unitary ComplexGates ComplexRun Parts Product Props_Run Undo.
Local Notation length := List.length.

(** ** Eisenstein integers x + y w, w a primitive third root of unity *)
Definition eis (c : C) : Prop := exists x y : Z, c = Cadd (IZR x, 0%R) (Cmul (IZR y, 0%R) (root 3 1)).

Lemma eis_parts : forall x y, Cadd (IZR x, 0%R) (Cmul (IZR y, 0%R) (root 3 1)) = (IZR x - IZR y / 2, IZR y * (sqrt 3 / 2))%R.
Proof. intros x y. rewrite root_3_1. apply C_ext; simpl; field. Qed.

Lemma eis_int : forall x, eis (IZR x, 0%R).
Proof. intros x. exists x, 0%Z. rewrite eis_parts. apply C_ext; simpl; field. Qed.

Lemma eis_add : forall a b, eis a -> eis b -> eis (Cadd a b).
Proof.
  intros a b [x [y ->]] [x' [y' ->]]. exists (x + x')%Z, (y + y')%Z. rewrite !eis_parts, !plus_IZR. apply C_ext; simpl; field.
Qed.

Lemma eis_mul : forall a b, eis a -> eis b -> eis (Cmul a b).
Proof.
  intros a b [x [y ->]] [x' [y' ->]]. exists (x * x' - y * y')%Z, (x * y' + y * x' - y * y')%Z.
  rewrite !eis_parts. rewrite !minus_IZR, !plus_IZR, !mult_IZR. pose proof (sqrt_sqrt 3 ltac:(lra)) as E. 
  apply C_ext; cbn [Cmul fst snd].
  - replace ((IZR y * (sqrt 3 / 2)) * (IZR y' * (sqrt 3 / 2)))%R with (IZR y * IZR y' * (sqrt 3 * sqrt 3) / 4)%R by field. rewrite E. field.
  - field.
Qed.

Lemma eis_root : forall d k, d = 2 \/ d = 3 -> k < d -> eis (root d k).
Proof.
  intros d k [->| ->] H; destruct k as [|[|[|k]]]; try lia; rewrite ?root_0, ?root_2_1.
  - exact (eis_int 1).
  - exact (eis_int (-1)).
  - exact (eis_int 1).
  - exists 0%Z, 1%Z. apply C_ext; simpl; ring.
  - exists (-1)%Z, (-1)%Z. rewrite eis_parts, root_3_2. apply C_ext; simpl; field.
Qed.

Lemma eis_prob : forall a, eis a -> exists m, (fst a * fst a + snd a * snd a)%R = IZR m.
Proof.
  intros a [x [y ->]]. exists (x * x - x * y + y * y)%Z. rewrite eis_parts. cbn [fst snd].
  rewrite plus_IZR, minus_IZR, !mult_IZR. pose proof (sqrt_sqrt 3 ltac:(lra)) as E.
  replace ((IZR y * (sqrt 3 / 2)) * (IZR y * (sqrt 3 / 2)))%R with (IZR y * IZR y * (sqrt 3 * sqrt 3) / 4)%R by field. rewrite E. field.
Qed.

Section Denoms.
Variable ord : nat -> list nat.
Hypothesis Hord : orders ord.
Let CS := Cscalar ord.
Let LC : scalar_laws CS := Cscalar_laws Hord.
Variable dims : list nat.

(** [psi] has Eisenstein integers times [c] as amplitudes. *)
Definition times (c : R) (psi : config -> CS) : Prop := forall s, valid dims s -> exists e, eis e /\ psi s = Cmul (c, 0%R) e.

Lemma bsum_times : forall A (f : A -> CS) c l, (forall x, In x l -> exists e, eis e /\ f x = Cmul (c, 0%R) e) ->
  exists e, eis e /\ bsum f l = Cmul (c, 0%R) e.
Proof.
  intros A f c l. induction l as [|x l IH]; intros H.
  - exists C0. split; [exact (eis_int 0)|]. apply C_ext; simpl; ring.
  - destruct (H x (or_introl eq_refl)) as [e [E1 E2]]. destruct IH as [e' [E3 E4]]; [intros y Hy; apply H; right; exact Hy|].
    exists (Cadd e e'). split; [apply eis_add; assumption|].
    change (bsum f (x :: l)) with (Cadd (f x) (bsum f l)). rewrite E2, E4. apply C_ext; simpl; ring.
Qed.

Lemma had_eis : forall d i j, d = 2 \/ d = 3 -> i < d -> j < d ->
  exists e, eis e /\ had CS d i j = Cmul (/ sqrt (INR d), 0)%R e.
Proof.
  intros d i j Hd Hi Hj. unfold had. destruct (_ || _)%bool.
  - exists C1. split; [exact (eis_int 1) | reflexivity].
  - assert (K : (i + (d - 1) - j) mod (d - 1) < d) by (pose proof (Nat.mod_upper_bound (i + (d - 1) - j) (d - 1)); lia).
    exists (phase ord d ((i + (d - 1) - j) mod (d - 1))). split.
    + unfold phase. apply eis_root; [exact Hd|]. apply (ord_elems Hord), nth_In. rewrite (ord_length Hord). exact K.
    + rewrite <- (roots_nth ord Hord) by exact K. reflexivity.
Qed.

Lemma times_reversible : forall c g psi, reversible g -> gate_ok dims g -> times c psi -> times c (apply dims g psi).
Proof.
  intros c g psi Hr Hg Ht s Hs. rewrite (apply_reversible LC) by assumption. apply Ht. apply undo_valid; assumption.
Qed.

Lemma times_z : forall c r psi, r < length dims -> nth r dims 0 = 2 \/ nth r dims 0 = 3 -> times c psi -> times c (apply dims (GZ r) psi).
Proof.
  intros c r psi Hr Hd Ht s Hs. rewrite (apply_z ord Hord) by assumption. destruct (Ht s Hs) as [e [E1 E2]].
  pose proof (valid_level Hs Hr) as Hl.
  exists (Cmul (phase ord (nth r dims 0) (level s r)) e). split.
  - apply eis_mul; [|exact E1]. unfold phase. apply eis_root; [exact Hd|]. apply (ord_elems Hord), nth_In. rewrite (ord_length Hord). exact Hl.
  - rewrite E2. apply C_ext; simpl; ring.
Qed.

Lemma times_h : forall c r psi, r < length dims -> nth r dims 0 = 2 \/ nth r dims 0 = 3 -> times c psi ->
  times (c * / sqrt (INR (nth r dims 0))) (apply dims (GH r) psi).
Proof.
  intros c r psi Hr Hd Ht s Hs. rewrite (apply_had ord Hord) by assumption. apply bsum_times. intros j Hj. apply in_seq in Hj.
  pose proof (valid_level Hs Hr) as Hl.
  destruct (had_eis (nth r dims 0) (level s r) j Hd Hl ltac:(lia)) as [e [E1 E2]].
  destruct (Ht (put s r j)) as [e' [E3 E4]]; [apply valid_put; [exact Hs|lia]|].
  exists (Cmul e e'). split; [apply eis_mul; assumption|]. change (Cmul (had CS (nth r dims 0) (level s r) j) (psi (put s r j)) = Cmul (c * / sqrt (INR (nth r dims 0%nat)), 0)%R (Cmul e e')). rewrite E2, E4.
  apply C_ext; simpl; ring.
Qed.

(** How many h calls are on registers with [d] levels. *)
Definition h_on (d : nat) (prog : list (gate CS)) : nat :=
  length (filter (fun g => match g with GH r => Nat.eqb (nth r dims 0) d | _ => false end) prog).

Definition small (g : gate CS) : Prop :=
  match g with
  | GX _ _ | GTof _ _ _ => True
  | GCX c t _ => c <> t
  | GH r | GZ r => nth r dims 0 = 2 \/ nth r dims 0 = 3
  | _ => False
  end.

Lemma final_times : forall prog c psi, Forall (gate_ok dims) prog -> Forall small prog -> times c psi ->
  times (c * ((/ sqrt 2) ^ h_on 2 prog * (/ sqrt 3) ^ h_on 3 prog)) (final dims prog psi).
Proof.
  intros prog. induction prog as [|g prog IH]; intros c psi Hok Hs Ht.
  - cbn [final]. unfold h_on. cbn [filter Datatypes.length pow]. rewrite !Rmult_1_r. exact Ht.
  - inversion Hok as [|? ? A1 A2]; subst. inversion Hs as [|? ? B1 B2]; subst. cbn [final].
    assert (R : reversible g -> times (c * ((/ sqrt 2) ^ h_on 2 prog * (/ sqrt 3) ^ h_on 3 prog)) (final dims prog (apply dims g psi))).
    { intros Hr. apply IH; try assumption. apply times_reversible; assumption. }
    destruct g as [r p|r|r|c' t p|cs t p|r u|r k u]; try contradiction.
    + exact (R I).
    + assert (E : times (c * / sqrt (INR (nth r dims 0)) * ((/ sqrt 2) ^ h_on 2 prog * (/ sqrt 3) ^ h_on 3 prog)) (final dims prog (apply dims (GH r) psi))).
      { apply IH; try assumption. apply times_h; assumption. }
      unfold h_on in *. cbn [filter]. destruct B1 as [B1|B1]; rewrite B1 in *; cbn [Nat.eqb Datatypes.length pow].
      * replace (INR 2) with 2%R in E by (simpl; ring). match type of E with times ?x _ => match goal with |- times ?y _ => replace y with x by ring; exact E end end.
      * replace (INR 3) with 3%R in E by (simpl; ring). match type of E with times ?x _ => match goal with |- times ?y _ => replace y with x by ring; exact E end end.
    + apply IH; try assumption. apply times_z; assumption.
    + exact (R B1).
    + exact (R I).
Qed.

Lemma basis_times : forall s, times 1 (basis CS s).
Proof.
  intros s t _. unfold basis. destruct (config_eqb s t).
  - exists C1. split; [exact (eis_int 1) | apply C_ext; simpl; ring].
  - exists C0. split; [exact (eis_int 0) | apply C_ext; simpl; ring].
Qed.

Lemma inv_sqrt_pow : forall x n, (0 < x)%R -> ((/ sqrt x) ^ n * (/ sqrt x) ^ n = / x ^ n)%R.
Proof.
  intros x n H. rewrite <- Rpow_mult_distr. rewrite <- Rinv_mult, sqrt_sqrt by lra. apply pow_inv.
Qed.

Lemma final_prob : forall prog s t, Forall (gate_ok dims) prog -> Forall small prog -> valid dims t ->
  exists m, (0 <= m)%Z /\ prob (final dims prog (basis CS s) t) = (IZR m / (2 ^ h_on 2 prog * 3 ^ h_on 3 prog))%R.
Proof.
  intros prog s t Hok Hs Ht.
  destruct (final_times prog 1 (basis CS s) Hok Hs (basis_times s) t Ht) as [e [E1 E2]].
  destruct (eis_prob e E1) as [m Hm]. exists m.
  assert (P : (0 <= IZR m)%R) by (rewrite <- Hm; nra). split; [apply le_IZR; exact P|].
  rewrite E2. unfold prob, Cre, Cim. rewrite <- Hm. set (a := h_on 2 prog). set (b := h_on 3 prog).
  assert (Q2 : (0 < 2 ^ a)%R) by (apply pow_lt; lra). assert (Q3 : (0 < 3 ^ b)%R) by (apply pow_lt; lra).
  pose proof (inv_sqrt_pow 2 a ltac:(lra)) as I2. pose proof (inv_sqrt_pow 3 b ltac:(lra)) as I3.
  cbn [Cmul fst snd]. unfold Cmul. cbn [fst snd].
  transitivity ((fst e * fst e + snd e * snd e) * (((/ sqrt 2) ^ a * (/ sqrt 2) ^ a) * ((/ sqrt 3) ^ b * (/ sqrt 3) ^ b)))%R; [ring|].
  rewrite I2, I3. field. lra.
Qed.

End Denoms.
