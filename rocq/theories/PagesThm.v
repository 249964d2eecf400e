(** * PagesThm: lemmas about the figures of the matplotlib drawing. *)
From Coq Require Import String QArith Qround Lqa.
From Verif Require Import Py Scalar Mat Utils Gates Circuit Info Draw DrawPages PagesSpec.
Set Implicit Arguments.
Local Notation length := List.length.
Local Open Scope Q_scope.

(** ** Widths *)
Lemma longer_l : forall a b, a <= longer a b.
Proof. intros a b. unfold longer. destruct (Qle_bool a b) eqn:E; [apply Qle_bool_iff; exact E | apply Qle_refl]. Qed.
Lemma longer_r : forall a b, b <= longer a b.
Proof.
  intros a b. unfold longer. destruct (Qle_bool a b) eqn:E; [apply Qle_refl|].
  destruct (Qlt_le_dec b a) as [L|L]; [apply Qlt_le_weak; exact L|]. apply Qle_bool_iff in L. congruence.
Qed.
Lemma longer_is : forall a b, longer a b = a \/ longer a b = b.
Proof. intros a b. unfold longer. destruct (Qle_bool a b); auto. Qed.

Lemma widest_acc : forall l a, a <= fold_left longer l a /\ (forall q, In q l -> q <= fold_left longer l a) /\
  (fold_left longer l a = a \/ In (fold_left longer l a) l).
Proof.
  induction l as [|b l IH]; intros a; cbn [fold_left].
  - split; [apply Qle_refl|]. split; [contradiction | left; reflexivity].
  - destruct (IH (longer a b)) as [A [B C]]. split; [eapply Qle_trans; [apply longer_l | exact A]|]. split.
    + intros q [<-|Hq]; [eapply Qle_trans; [apply longer_r | exact A] | apply B; exact Hq].
    + destruct C as [C|C]; [|right; right; exact C]. rewrite C.
      destruct (longer_is a b) as [E|E]; rewrite E; [left; reflexivity | right; left; reflexivity].
Qed.
Lemma widest_nonneg : forall l, 0 <= widest l.
Proof. intros l. exact (proj1 (widest_acc l 0)). Qed.
Lemma widest_ge : forall l q, In q l -> q <= widest l.
Proof. intros l. exact (proj1 (proj2 (widest_acc l 0))). Qed.
Lemma widest_le : forall l w, 0 <= w -> (forall q, In q l -> q <= w) -> widest l <= w.
Proof.
  intros l w Hw H. destruct (proj2 (proj2 (widest_acc l 0))) as [E|E]; unfold widest.
  - rewrite E. exact Hw.
  - apply H. exact E.
Qed.

Section PagesThm.
Variable tw : string -> Q.
Notation lw := (layer_width tw).

Definition fig (p : page) : nat * list (Q * list mark) := (p_number p, p_layers p).

Lemma next_app : forall l i q m, next_free lw i (l ++ [(q, m)]) = next_free lw i l + lw m + 1.
Proof. induction l as [|[q' m'] l IH]; intros i q m; cbn; [reflexivity | apply IH]. Qed.

Lemma spaced_app : forall l i q m, spaced lw i l -> q == next_free lw i l -> spaced lw i (l ++ [(q, m)]).
Proof.
  induction l as [|[q' m'] l IH]; intros i q m H E; cbn in *; [auto|].
  destruct H as [H1 H2]. split; [exact H1 | apply IH; assumption].
Qed.

(** The layout, for figures numbered from [n]. *)
Record laid (n : nat) (x o : Q) (marks : list (list mark)) (figs : list (nat * list (Q * list mark))) : Prop := {
  la_all : concat (map (fun f => map snd (snd f)) figs) = marks;
  la_numbers : map fst figs = seq n (length figs);
  la_spaced : forall k f, nth_error figs k = Some f -> spaced lw (origin o k) (snd f);
  la_inside : forall f q m l, In f figs -> snd f = (q, m) :: l -> forall q' m', In (q', m') l -> ~ over x q';
  la_full : forall k f, nth_error figs k = Some f -> (S k < length figs)%nat ->
    snd f <> [] /\ over x (next_free lw (origin o k) (snd f));
  la_last : forall f, nth_error figs (length figs - 1) = Some f ->
    snd f = [] \/ ~ over x (next_free lw (origin o (length figs - 1)) (snd f))
}.

Lemma laid_out_of : forall x o marks figs, laid 1 x o marks figs -> laid_out lw x o marks figs.
Proof. intros x o marks figs [A B C D E F]. constructor; assumption. Qed.

Lemma origin_two : forall k, origin 2 k = 2.
Proof. intros [|k]; reflexivity. Qed.

Lemma pages_nonempty : forall ms x i p, pages_from tw x i p ms <> [].
Proof.
  induction ms as [|m ms IH]; intros x i p; cbn [pages_from]; [discriminate|].
  destruct (Qle_bool _ _); [discriminate | apply IH].
Qed.

Definition tidy (x : Q) (l : list (Q * list mark)) : Prop :=
  forall q m r, l = (q, m) :: r -> forall q' m', In (q', m') r -> ~ over x q'.

Lemma tidy_app : forall x l q m, tidy x l -> (l <> [] -> ~ over x q) -> tidy x (l ++ [(q, m)]).
Proof.
  intros x l q m H N q0 m0 r E q' m' I. destruct l as [|[q1 m1] l]; cbn in E.
  - injection E as _ _ <-. contradiction.
  - injection E as -> -> <-. apply in_app_or in I. destruct I as [I|[I|[]]].
    + exact (H _ _ _ eq_refl _ _ I).
    + injection I as <- <-. apply N. discriminate.
Qed.

Lemma pages_laid : forall ms x o i p,
  i = next_free lw o (p_layers p) -> spaced lw o (p_layers p) -> tidy x (p_layers p) ->
  (p_layers p <> [] -> ~ over x i) ->
  laid (p_number p) x o (map snd (p_layers p) ++ ms) (map fig (pages_from tw x i p ms)).
Proof.
  induction ms as [|m ms IH]; intros x o i p Ei Hs Ht Hn; cbn [pages_from].
  - cbn [map]. constructor; cbn [length map concat fig fst snd seq].
    + reflexivity.
    + reflexivity.
    + intros [|k] f E; cbn in E; [injection E as <-; exact Hs | destruct k; discriminate].
    + intros f q m l [<-|[]] E. cbn in E. apply (Ht _ _ _ E).
    + intros k f E L. lia.
    + intros f E. cbn in E. injection E as <-. cbn. destruct (p_layers p) as [|a l] eqn:Ep; [left; reflexivity|].
      right. rewrite <- Ei. apply Hn. discriminate.
  - assert (Ep : p_layers (put p i m) = p_layers p ++ [(i, m)]) by reflexivity.
    assert (En : next_free lw o (p_layers (put p i m)) = i + lw m + 1) by (rewrite Ep, next_app, <- Ei; reflexivity).
    assert (Es : spaced lw o (p_layers (put p i m))).
    { rewrite Ep. apply spaced_app; [exact Hs|]. rewrite <- Ei. apply Qeq_refl. }
    assert (Et : tidy x (p_layers (put p i m))) by (rewrite Ep; apply tidy_app; assumption).
    destruct (Qle_bool (x - 1) (inject_Z (Qceiling (i + lw m + 1)))) eqn:Eb.
    + set (p2 := {| p_number := p_number p + 1; p_wires := 1; p_layers := [] |}).
      assert (T : laid (p_number p2) x 2 (map snd (p_layers p2) ++ ms) (map fig (pages_from tw x 2 p2 ms))).
      { apply IH; cbn; [reflexivity | exact I | intros q m' r E; discriminate | congruence]. }
      destruct T as [TA TN TS TI TF TL].
      assert (Hne : (0 < length (map fig (pages_from tw x 2 p2 ms)))%nat).
      { pose proof (@pages_nonempty ms x 2 p2). destruct (pages_from tw x 2 p2 ms); [congruence | cbn; lia]. }
      cbn [map]. constructor.
      * cbn [map concat fig snd]. rewrite TA, Ep, map_app. cbn. rewrite <- app_assoc. reflexivity.
      * cbn [map fst fig length seq]. rewrite TN. cbn [p2 p_number put]. rewrite Nat.add_1_r. reflexivity.
      * intros [|k] f E; cbn [nth_error] in E; [injection E as <-; exact Es|].
        specialize (TS k f E). rewrite origin_two in TS. exact TS.
      * intros f q m' l [<-|Hf] E; [exact (Et _ _ _ E) | exact (TI f q m' l Hf E)].
      * intros [|k] f E L; cbn [nth_error] in E.
        -- injection E as <-. cbn [fig snd]. split; [rewrite Ep; destruct (p_layers p); discriminate|].
           cbn [origin]. rewrite En. apply Qle_bool_iff. exact Eb.
        -- specialize (TF k f E). rewrite origin_two in TF. apply TF. cbn [length] in L. lia.
      * intros f E. cbn [length] in *. rewrite Nat.sub_succ, Nat.sub_0_r in *.
        destruct (length (map fig (pages_from tw x 2 p2 ms))) as [|n] eqn:El; [lia|].
        cbn [nth_error] in E. rewrite Nat.sub_succ, Nat.sub_0_r in TL. specialize (TL f E). rewrite origin_two in TL. exact TL.
    + replace (map snd (p_layers p) ++ m :: ms) with (map snd (p_layers (put p i m)) ++ ms)
        by (rewrite Ep, map_app; cbn; rewrite <- app_assoc; reflexivity).
      apply (IH x o (i + lw m + 1) (put p i m)); [symmetry; exact En | exact Es | exact Et|].
      intros _ O. apply Qle_bool_iff in O. congruence.
Qed.

(** ** A wider figure needs no more of them *)
Definition more (x i' : Q) : bool := Qle_bool (x - 1) (inject_Z (Qceiling i')).

Fixpoint breaks (x i : Q) (ms : list (list mark)) : nat :=
  match ms with
  | [] => 1
  | m :: ms' => if more x (i + lw m + 1) then S (breaks x 2 ms') else breaks x (i + lw m + 1) ms'
  end.

Lemma pages_breaks : forall ms x i p, length (pages_from tw x i p ms) = breaks x i ms.
Proof.
  induction ms as [|m ms IH]; intros x i p; cbn [pages_from breaks]; [reflexivity|]. unfold more.
  destruct (Qle_bool _ _); cbn [length]; rewrite IH; reflexivity.
Qed.

Lemma more_mono : forall x x' i i', x <= x' -> i' <= i -> more x' i' = true -> more x i = true.
Proof.
  unfold more. intros x x' i i' Hx Hi H. apply Qle_bool_iff in H. apply Qle_bool_iff.
  assert (A : inject_Z (Qceiling i') <= inject_Z (Qceiling i)) by (rewrite <- Zle_Qle; apply Qceiling_resp_le; exact Hi).
  lra.
Qed.

Lemma lw_nonneg : forall m, 0 <= lw m.
Proof. intros m. apply widest_nonneg. Qed.

Lemma breaks_mono : forall x x', x <= x' -> forall ms i i', 1 <= i ->
  (i' <= i -> (breaks x' i' ms <= breaks x i ms)%nat) /\ (breaks x' i' ms <= S (breaks x i ms))%nat.
Proof.
  intros x x' Hx. induction ms as [|m ms IH]; intros i i' Hi; cbn [breaks]; [split; intros; lia|].
  pose proof (lw_nonneg m) as W.
  assert (H1 : 1 <= i + lw m + 1) by lra. assert (H2 : 2 <= i + lw m + 1) by lra. assert (T : 1 <= 2) by lra.
  split.
  - intros L. assert (L' : i' + lw m + 1 <= i + lw m + 1) by lra.
    destruct (more x' (i' + lw m + 1)) eqn:B'.
    + rewrite (more_mono Hx L' B'). apply le_n_S. apply (IH 2 2 T). lra.
    + destruct (more x (i + lw m + 1)).
      * apply (IH 2 (i' + lw m + 1) T).
      * apply (IH _ (i' + lw m + 1) H1). exact L'.
  - destruct (more x' (i' + lw m + 1)); destruct (more x (i + lw m + 1)).
    + apply le_n_S. apply (IH 2 2 T).
    + apply le_n_S. apply (IH _ 2 H1). exact H2.
    + apply le_S. apply (IH 2 (i' + lw m + 1) T).
    + apply (IH _ (i' + lw m + 1) H1).
Qed.

(** ** How many layers fit *)
Lemma inject_sub : forall a b : Z, inject_Z (a - b) == inject_Z a - inject_Z b.
Proof. intros a b. unfold Z.sub. rewrite inject_Z_plus, inject_Z_opp. reflexivity. Qed.

Lemma next_bound : forall W l i, (forall q m, In (q, m) l -> lw m <= W) ->
  next_free lw i l <= i + inject_Z (Z.of_nat (length l)) * (W + 1).
Proof.
  intros W. induction l as [|[q m] l IH]; intros i H; cbn [next_free length].
  - change (inject_Z (Z.of_nat 0)) with 0. lra.
  - specialize (IH (i + lw m + 1) (fun q' m' I => H q' m' (or_intror I))).
    assert (Hm : lw m <= W) by (apply (H q); left; reflexivity).
    rewrite Nat2Z.inj_succ. unfold Z.succ. rewrite inject_Z_plus. change (inject_Z 1) with 1. lra.
Qed.

Lemma over_past : forall x i, over x i -> x - 2 < i.
Proof. unfold over. intros x i H. pose proof (Qceiling_lt i) as L.
  rewrite inject_sub in L. change (inject_Z 1) with 1 in L. lra. Qed.

Lemma not_over : forall z i, ~ over (inject_Z z) i -> i <= inject_Z z - 2.
Proof.
  unfold over. intros z i H. pose proof (Qle_ceiling i) as L.
  assert (C : (Qceiling i <= z - 2)%Z).
  { destruct (Z_le_gt_dec (Qceiling i) (z - 2)) as [G|G]; [exact G|]. exfalso. apply H.
    assert (A : (z - 1 <= Qceiling i)%Z) by lia. rewrite Zle_Qle in A. rewrite inject_sub in A.
    change (inject_Z 1) with 1 in A. lra. }
  rewrite Zle_Qle in C. rewrite inject_sub in C. change (inject_Z 2) with 2 in C. lra.
Qed.
End PagesThm.
