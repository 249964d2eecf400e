(** * Props_Accept: which matrices user gates accept (C91, C92). *)
From Coq Require Import Reals Lra String.
From Verif Require Import Py Scalar Mat Gates Utils Circuit Spec Calls Complex ComplexSpec ComplexLib AcceptSpec Lib Props_Run Props_Errors.
Local Notation length := List.length.
Open Scope list_scope.
Open Scope nat_scope.

Lemma total_re : forall ord (f : nat -> C) l, Cre (@total (Cscalar ord) nat f l) = rsum (fun k => Cre (f k)) l.
Proof. intros ord f l; induction l as [|x l IH]; [reflexivity|]. cbn [total rsum]. rewrite <- IH. reflexivity. Qed.
Lemma total_im : forall ord (f : nat -> C) l, Cim (@total (Cscalar ord) nat f l) = rsum (fun k => Cim (f k)) l.
Proof. intros ord f l; induction l as [|x l IH]; [reflexivity|]. cbn [total rsum]. rewrite <- IH. reflexivity. Qed.
Lemma rsum_ext : forall f g l, (forall x, f x = g x) -> rsum f l = rsum g l.
Proof. intros f g l H; induction l as [|x l IH]; simpl; rewrite ?H, ?IH; reflexivity. Qed.

Lemma is_unitary_rows : forall S (u : mat S), is_unitary u = true <->
  forall i j, i < mr u -> j < mr u ->
  sclose (if Nat.eqb i j then s1 else s0) (total S (fun k => smul (mget u i k) (sconj (mget u j k))) (seq 0 (mc u))) = true.
Proof.
  intros S u. unfold is_unitary, ddot.
  change (mr (dconj (dtrans u))) with (mc u). rewrite Nat.eqb_refl. change (mc (dconj (dtrans u))) with (mr u).
  assert (E : forall i j, i < mr u -> j < mr u ->
    sclose (mget (deye S (mr u) (mr u)) i j)
      (mget (mkmat (mr u) (mr u) (fun i j =>
         bsum (fun k => smul (mget u i k) (mget (dconj (dtrans u)) k j)) (seq 0 (mc u)))) i j)
    = sclose (if Nat.eqb i j then s1 else s0) (total S (fun k => smul (mget u i k) (sconj (mget u j k))) (seq 0 (mc u)))).
  { intros i j Hi Hj. rewrite mget_mkmat by assumption. unfold deye. rewrite mget_mkmat by assumption. f_equal.
    rewrite <- (bsum_total S). apply bsum_ext. intros k Hk. apply in_seq in Hk.
    unfold dconj, dtrans. cbn [mr mc mkmat]. rewrite !mget_mkmat by lia. reflexivity. }
  rewrite forallb_forall. setoid_rewrite forallb_forall. setoid_rewrite in_seq. split.
  - intros H i j Hi Hj. rewrite <- E by assumption. apply H; lia.
  - intros H i Hi j Hj. rewrite E by lia. apply H; lia.
Qed.

Lemma is_unitary_near : forall ord (u : mat (Cscalar ord)),
  is_unitary u = true <-> nearly_orthonormal (mr u) (mc u) (mget u).
Proof.
  intros ord u. rewrite is_unitary_rows. unfold nearly_orthonormal.
  assert (E : forall i j,
    sclose (s := Cscalar ord) (if Nat.eqb i j then s1 else s0)
      (total (Cscalar ord) (fun k => smul (mget u i k) (sconj (mget u j k))) (seq 0 (mc u))) = true <->
    (sqrt (((if Nat.eqb i j then 1 else 0) - rows_re (mc u) (mget u) i j) ^ 2 + rows_im (mc u) (mget u) i j ^ 2)
       <= 1 / 100000000 + 1 / 100000 * sqrt (rows_re (mc u) (mget u) i j ^ 2 + rows_im (mc u) (mget u) i j ^ 2))%R).
  { intros i j. set (T := total (Cscalar ord) _ _).
    assert (Er : Cre T = rows_re (mc u) (mget u) i j).
    { unfold T, rows_re. rewrite total_re. apply rsum_ext. intros k. unfold Cre, Cim. simpl. ring. }
    assert (Ei : Cim T = rows_im (mc u) (mget u) i j).
    { unfold T, rows_im. rewrite total_im. apply rsum_ext. intros k. unfold Cre, Cim. simpl. ring. }
    rewrite <- Er, <- Ei. clear Er Ei. generalize T. clear T. intros [x y]. simpl. unfold Cclose, Cabs, Cadd, Copp, Cre, Cim.
    cbn [fst snd].
    replace (((if i =? j then 1 else 0) - x) * (((if i =? j then 1 else 0) - x) * 1) + y * (y * 1))%R
      with ((fst (if i =? j then C1 else C0) + - x) * (fst (if i =? j then C1 else C0) + - x)
            + (snd (if i =? j then C1 else C0) + - y) * (snd (if i =? j then C1 else C0) + - y))%R
      by (destruct (i =? j); simpl; ring).
    replace (x * (x * 1) + y * (y * 1))%R with (x * x + y * y)%R by ring.
    replace (1 / 100000000)%R with (/ 100000000)%R by field. replace (1 / 100000)%R with (/ 100000)%R by field.
    match goal with |- (if ?d then true else false) = true <-> _ => destruct d as [H|H] end; split; intros X; auto; try discriminate; contradiction. }
  split; intros H i j Hi Hj; apply E, H; assumption.
Qed.

(** ** C91 *)
Theorem C91_accepted_matrices :
  forall ord (B : backend (Cscalar ord)) dims levels out ty me ks1 ks2 r dm (u : mat (Cscalar ord)) prog1 prog2,
  orders ord -> supported B -> line dims levels -> wants dims out ty me -> asks dims ks1 prog1 -> asks dims ks2 prog2 ->
  r < length dims -> dflt dims r dm ->
  let result := simulate B (QList (map Z.of_nat dims)) (Some (map Z.of_nat levels)) out
                  (ks1 ++ CGate u (RInt (Z.of_nat r)) dm :: ks2) in
  let square := mr u = nth r dims 0 /\ mc u = nth r dims 0 in
  let near := nearly_orthonormal (mr u) (mc u) (mget u) in
  (near -> square -> exists v, result = Ok v) /\
  (~ near -> result = Err PlainException) /\
  (near -> ~ square -> result = Err AssertionError).
Proof.
  intros ord B dims levels out ty me ks1 ks2 r dm u prog1 prog2 Ho HB HL Hw H1 H2 Hr Hdm result square near.
  pose proof (Cscalar_laws Ho) as L. split; [|split].
  - intros Hn [E1 E2]. unfold result. eexists.
    apply (C01_run_applies_gates_in_order (Cscalar ord) L B dims levels out ty me _ (prog1 ++ GU r (mget u) :: prog2) HB HL Hw).
    destruct H1 as [A1 A2], H2 as [A3 A4]. split.
    + apply Forall2_app; [exact A1|]. constructor; [|exact A3]. constructor; auto.
    + apply Forall_app. split; [exact A2|]. constructor; [|exact A4]. split; [exact Hr|].
      intros i j Hi Hj. apply in_seq in Hi. apply in_seq in Hj. rewrite <- E2 at 1.
      apply (proj1 (is_unitary_rows _ u)); [apply is_unitary_near; exact Hn | lia | lia].
  - intros Hn. unfold result.
    apply (C32_bad_matrix_raises (Cscalar ord) L B dims levels out ty me ks1 ks2 r dm u PlainException prog1 prog2 HB HL Hw H1 H2 Hr Hdm).
    left. split; [|reflexivity]. destruct (is_unitary u) eqn:E; [|reflexivity]. apply is_unitary_near in E. contradiction.
  - intros Hn Hs. unfold result.
    apply (C32_bad_matrix_raises (Cscalar ord) L B dims levels out ty me ks1 ks2 r dm u AssertionError prog1 prog2 HB HL Hw H1 H2 Hr Hdm).
    right. split; [apply is_unitary_near; exact Hn|]. split; [|reflexivity].
    destruct (Nat.eq_dec (mr u) (nth r dims 0)) as [E1|E1]; [|left; exact E1].
    destruct (Nat.eq_dec (mc u) (nth r dims 0)) as [E2|E2]; [|right; exact E2]. destruct Hs. split; assumption.
Qed.

(** ** C92 *)
(** A multiple of the identity of a qubit. *)
Definition scaled {ord} (c : R) : mat (Cscalar ord) :=
  @mkmat (Cscalar ord) 2 2 (fun i j => if Nat.eqb i j then ((c, 0)%R : C) else C0).

Lemma scaled_near : forall ord c, (1 <= c * c <= 1 + 1 / 100000)%R ->
  nearly_orthonormal (mr (@scaled ord c)) (mc (@scaled ord c)) (mget (@scaled ord c)).
Proof.
  intros ord c Hc i j Hi Hj. simpl in Hi, Hj. cbn zeta.
  assert (Er : rows_re 2 (mget (@scaled ord c)) i j = if i =? j then (c * c)%R else 0%R).
  { destruct i as [|[|i]]; destruct j as [|[|j]]; try lia; unfold rows_re; cbn; ring. }
  assert (Ei : rows_im 2 (mget (@scaled ord c)) i j = 0%R).
  { destruct i as [|[|i]]; destruct j as [|[|j]]; try lia; unfold rows_im; cbn; ring. }
  change (mc (@scaled ord c)) with 2. rewrite Er, Ei. destruct (i =? j).
  - replace ((1 - c * c) ^ 2 + 0 ^ 2)%R with (Rsqr (c * c - 1)) by (unfold Rsqr; ring).
    replace ((c * c) ^ 2 + 0 ^ 2)%R with (Rsqr (c * c)) by (unfold Rsqr; ring).
    rewrite !sqrt_Rsqr by lra. lra.
  - replace ((0 - 0) ^ 2 + 0 ^ 2)%R with 0%R by ring. replace (0 ^ 2 + 0 ^ 2)%R with 0%R by ring. rewrite sqrt_0. lra.
Qed.

Lemma scaled_final : forall ord (c : R) n (f : state (Cscalar ord)) (z : R), f [0] = ((z, 0)%R : C) -> f [1] = C0 ->
  final [2] (repeat (GU 0 (mget (@scaled ord c))) n) f [0] = ((z * c ^ n, 0)%R : C) /\
  final [2] (repeat (GU 0 (mget (@scaled ord c))) n) f [1] = C0.
Proof.
  intros ord c n; induction n as [|n IH]; intros f z H0 H1; cbn [repeat final].
  - rewrite H0, H1. split; [|reflexivity]. simpl. f_equal. ring.
  - destruct (IH (apply [2] (GU 0 (mget (@scaled ord c))) f) (z * c)%R) as [A1 A2].
    + unfold apply. cbn. rewrite H0, H1. unfold Cadd, Cmul, C0. cbn. f_equal; ring.
    + unfold apply. cbn. rewrite H0, H1. unfold Cadd, Cmul, C0. cbn. f_equal; ring.
    + rewrite A1, A2. split; [|reflexivity]. f_equal. simpl. ring.
Qed.

Theorem C92_accepted_gates_can_raise_the_total_probability :
  forall ord (B : backend (Cscalar ord)) c n, orders ord -> supported B -> (1 <= c)%R -> (c * c <= 1 + 1 / 100000)%R ->
  simulate B (QList [2%Z]) None None (repeat (CGate (scaled c) (RInt 0) None) n)
  = Ok [(LStr "|0>"%string, (c ^ n, 0)%R)].
Proof.
  intros ord B c n Ho HB Hc1 Hc2. pose proof (Cscalar_laws Ho) as L.
  assert (Hcc : (1 <= c * c)%R) by nra.
  change (QList [2%Z]) with (QList (map Z.of_nat [2])).
  assert (E : simulate B (QList (map Z.of_nat [2])) None None (repeat (CGate (@scaled ord c) (RInt 0) None) n) =
              simulate B (QList (map Z.of_nat [2])) (Some (map Z.of_nat [])) None (repeat (CGate (@scaled ord c) (RInt 0) None) n)).
  { reflexivity. }
  rewrite E. clear E.
  rewrite (C01_run_applies_gates_in_order (Cscalar ord) L B [2] [] None OutPrint OutAmplitude _
             (repeat (GU 0 (mget (@scaled ord c))) n) HB).
  - destruct (@scaled_final ord c n (basis (Cscalar ord) [0]) 1%R eq_refl eq_refl) as [A1 A2]. rewrite Rmult_1_l in A1.
    unfold answer. change (all_configs [2]) with [[0]; [1]]. change (start [2] []) with [0]. cbn [filter map].
    rewrite A1, A2.
    assert (Z0 : seqb (s := Cscalar ord) C0 s0 = true) by (apply (sl_eqb L); reflexivity). rewrite Z0.
    destruct (seqb (s := Cscalar ord) ((c ^ n)%R, 0%R) s0) eqn:E0.
    + apply (sl_eqb L) in E0. injection E0 as E0. pose proof (pow_R1_Rle c n Hc1). lra.
    + cbn [negb map]. rewrite A1. reflexivity.
  - split; [discriminate|]. split; [intros d [<-|[]]; lia|]. split; [simpl; lia|]. repeat constructor.
  - right. auto.
  - split.
    + induction n as [|n IH]; cbn [repeat]; constructor; [|exact IH].
      apply (@den_u (Cscalar ord) [2] 0 None); auto. left. reflexivity.
    + apply Forall_forall. intros g Hg. apply repeat_spec in Hg. subst g. split; [simpl; lia|].
      intros i j Hi Hj. apply in_seq in Hi. apply in_seq in Hj. simpl in Hi, Hj.
      apply (proj1 (is_unitary_rows _ (@scaled ord c))); [|simpl; lia | simpl; lia].
      apply is_unitary_near, scaled_near. lra.
Qed.

(** So the total probability of a circuit of accepted gates has no bound. *)
Theorem C92_total_probability_is_unbounded :
  forall ord (B : backend (Cscalar ord)) (K : R), orders ord -> supported B ->
  exists ks v, (forall k, In k ks -> exists u : mat (Cscalar ord), k = CGate u (RInt 0) None /\ nearly_orthonormal (mr u) (mc u) (mget u)) /\
    simulate B (QList [2%Z]) None None ks = Ok v /\ (K < prob_sum v)%R.
Proof.
  intros ord B K Ho HB. set (c := (1 + 4 / 1000000)%R). assert (Hc : (1 <= c)%R) by (unfold c; lra).
  assert (Hcc : (c * c <= 1 + 1 / 100000)%R) by (unfold c; lra).
  destruct (archimed (K * 1000000)) as [HA _].
  set (n := Z.to_nat (up (K * 1000000))).
  exists (repeat (CGate (scaled c) (RInt 0) None) n), [(LStr "|0>"%string, (c ^ n, 0)%R)]. split; [|split].
  - intros k Hk. apply repeat_spec in Hk. subst k. eexists. split; [reflexivity|]. apply scaled_near. nra.
  - apply C92_accepted_gates_can_raise_the_total_probability; assumption.
  - unfold prob_sum, prob, Cre, Cim. cbn [map fold_right fst snd].
    assert (P : (1 + INR n * (4 / 1000000) <= c ^ n)%R) by (apply poly; lra).
    assert (P1 : (1 <= c ^ n)%R) by (apply pow_R1_Rle; exact Hc).
    destruct (Rlt_le_dec K 0) as [Hk|Hk]; [nra|].
    assert (N : (K * 1000000 <= INR n)%R).
    { unfold n. rewrite INR_IZR_INZ, Z2Nat.id; [lra|]. apply le_IZR. lra. }
    nra.
Qed.

Module CaseAccept.
(** The identity is accepted, and so is its multiple by 1.000004; a shear is not. *)
Example ex_C91 : forall ord, orders ord ->
  nearly_orthonormal 2 2 (mget (@scaled ord 1)) /\ nearly_orthonormal 2 2 (mget (@scaled ord (1 + 4 / 1000000))) /\
  ~ nearly_orthonormal 2 2 (mget (@scaled ord 2)) /\
  nearly_orthonormal 1 2 (fun i j => if j =? 0 then C1 else C0).
Proof.
  intros ord _. split; [|split; [|split]].
  - apply (@scaled_near ord). lra.
  - apply (@scaled_near ord). lra.
  - intros H. specialize (H 0 0 ltac:(lia) ltac:(lia)). unfold rows_re, rows_im in H. cbn in H.
    match type of H with (sqrt ?a <= _ + _ * sqrt ?b)%R =>
      replace a with (3 * 3)%R in H by ring; replace b with (4 * 4)%R in H by ring end.
    rewrite !sqrt_square in H by lra. lra.
  - intros i j Hi Hj. replace i with 0 by lia. replace j with 0 by lia. unfold rows_re, rows_im. cbn.
    match goal with |- (sqrt ?a <= _ + _ * sqrt ?b)%R =>
      replace a with (0 * 0)%R by ring; replace b with (1 * 1)%R by ring end.
    rewrite !sqrt_square by lra. lra.
Qed.

Example ex_C91_calls : forall ord, @asks (Cscalar ord) [2; 3] [CX 1 None 1] [GX 1 1] /\ line [2; 3] [] /\ dflt [2; 3] 0 None.
Proof.
  intros ord. split; [|split].
  - split; [|constructor; [simpl; lia|constructor]]. constructor; [|constructor]. exact (@den_x (Cscalar ord) [2; 3] 1 None 1 (or_introl eq_refl)).
  - split; [discriminate|]. split; [intros d [<-|[<-|[]]]; lia|]. split; [simpl; lia|]. repeat constructor.
  - left. reflexivity.
Qed.

Example ex_C92 : orders (seq 0) /\ (1 <= 1 + 4 / 1000000)%R /\ ((1 + 4 / 1000000) * (1 + 4 / 1000000) <= 1 + 1 / 100000)%R.
Proof. split; [intros d; apply Permutation.Permutation_refl|]. lra. Qed.
End CaseAccept.

Print Assumptions C91_accepted_matrices.
Print Assumptions C92_accepted_gates_can_raise_the_total_probability.
Print Assumptions C92_total_probability_is_unbounded.
