(** * RoundRun: rounding errors of a whole simulation. *)
From Coq Require Import Reals Lra Permutation.
From Verif Require Import Py Scalar Mat Utils Gates Circuit Spec Calls Complex ComplexSpec HistSpec BitSpec RoundSpec
  Lib Kern GateMat GateTof Flow History Layers Blocks Refine Run Bits Doubles ComplexLib CNorm RoundLib ScalarMap RoundOps.
Set Implicit Arguments.
Local Open Scope R_scope.

Lemma rprod_app : forall l l', rprod (l ++ l') = rprod l * rprod l'.
Proof. intros l l'; induction l as [|x l IH]; simpl; [ring|]. unfold rprod in *. rewrite IH. ring. Qed.
Lemma rprod_cons : forall x l, rprod (x :: l) = x * rprod l.
Proof. reflexivity. Qed.

Lemma fold_left_map : forall A B D (f : D -> B -> D) (h : A -> B) l a, fold_left f (map h l) a = fold_left (fun a x => f a (h x)) l a.
Proof. intros A B D f h l; induction l as [|x l IH]; intros a; simpl; auto. Qed.

Definition lstep (S : scalar) (B : backend S) (acc : res (option B)) (l : list (op S)) : res (option B) :=
  a <- acc ;;
  k <- moment_exec B l ;;
  match a with
  | None => Ok (Some k)
  | Some d => p <- b_dot d k ;; Ok (Some p)
  end.

Lemma lstep_none : forall S (B : backend S) l b, moment_exec B l = Ok b -> lstep B (Ok None) l = Ok (Some b).
Proof. intros S B l b E. unfold lstep. cbn [bind]. rewrite E. reflexivity. Qed.
Lemma lstep_some : forall S (B : backend S) a l b p, moment_exec B l = Ok b -> b_dot a b = Ok p -> lstep B (Ok (Some a)) l = Ok (Some p).
Proof. intros S B a l b p E E'. unfold lstep. cbn [bind]. rewrite E. cbn [bind]. rewrite E'. reflexivity. Qed.

Section Run.
Variable F : scalar.
Variable val : F -> C.
Variable ord : nat -> list nat.
Variable u : R.
Variable e : nat.
Hypothesis Hord : orders ord.
Hypothesis RD : rounded F val ord u e.
Variable meant : mat F -> mat (Cscalar ord).
Variable B : backend F.
Variable ok : B -> Prop.
Hypothesis CR : computes_rounded val u B ok.
Notation CS := (Cscalar ord).
Notation NC := (NumpyBackend CS).
Notation NF := (NumpyBackend F).
Let v : F -> CS := val.
Notation om := (@omap F CS v meant).
Notation opd := (@opd F val ord u e meant).

Let Hu : 0 <= u := rd_u RD.

Definition near (k : nat) (a : B) (m : mat CS) : Prop :=
  sized B ok a (mr m) (mc m) /\
  forall i j, (i < mr m)%nat -> (j < mc m)%nat -> within u k (entry val B a i j) (mget m i j).

Lemma unitary_any : forall o (a : mat F), unitary NF o = Ok a ->
  exists b, unitary B o = Ok b /\ sized B ok b (mr a) (mc a) /\
    forall i j, (i < mr a)%nat -> (j < mc a)%nat -> entry val B b i j = val (mget a i j).
Proof.
  assert (M : forall m : mat F, exists b, Ok (b_matrix (b := B) m) = Ok b /\ sized B ok b (mr m) (mc m) /\
    forall i j, (i < mr m)%nat -> (j < mc m)%nat -> entry val B b i j = val (mget m i j)).
  { intros m. exists (b_matrix m). split; [reflexivity|]. apply (cr_matrix CR). }
  intros o a H. destruct o; cbn [unitary] in *.
  - injection H as <-. apply M.
  - injection H as <-. eexists. split; [reflexivity|]. destruct (cr_eye CR (Z.to_nat dims) (Z.to_nat dims)) as [H1 H2].
    split; [exact H1|]. cbn [b_eye NumpyBackend]. unfold deye. cbn [mkmat mr mc]. intros i j Hi Hj.
    rewrite H2, mget_mkmat by assumption. destruct (i =? j)%nat; [rewrite (rd_1 RD) | rewrite (rd_0 RD)]; reflexivity.
  - apply bind_ok in H as [m [E H]]. injection H as <-. rewrite E. apply M.
  - apply bind_ok in H as [m [E H]]. injection H as <-. rewrite E. apply M.
  - apply bind_ok in H as [m [E H]]. injection H as <-. rewrite E. apply M.
  - apply bind_ok in H as [m [E H]]. injection H as <-. rewrite E. cbn [bind].
    eexists. split; [reflexivity|]. destruct (cr_matrix CR m) as [H1 H2]. destruct (cr_trans CR H1) as [H3 H4].
    split; [exact H3|]. cbn [b_trans b_matrix NumpyBackend]. unfold dtrans. cbn [mkmat mr mc]. intros i j Hi Hj.
    rewrite H4, mget_mkmat, H2 by assumption. reflexivity.
  - apply bind_ok in H as [m [E H]]. injection H as <-. rewrite E. apply M.
  - apply bind_ok in H as [m [E H]]. injection H as <-. rewrite E. apply M.
  - discriminate.
Qed.

Definition opg (o : op F) (c : R) : Prop :=
  exists a m, unitary B o = Ok a /\ unitary NC (om o) = Ok m /\ near (2 * e + 1) a m /\ rgain (mr m) (mc m) (mget m) c.

Lemma opd_opg : forall o c, opd o c -> opg o c.
Proof.
  intros o c [a [m [Ea [Em [[H1 [H2 H3]] Hg]]]]]. destruct (unitary_any _ Ea) as [b [Eb [Hs He]]].
  exists b, m. split; [exact Eb|]. split; [exact Em|]. split; [|exact Hg]. split; [rewrite <- H1, <- H2; exact Hs|].
  intros i j Hi Hj. rewrite He by congruence. apply H3; assumption.
Qed.

Lemma near_mono : forall j k a m, (j <= k)%nat -> near j a m -> near k a m.
Proof. intros j k a m H [H1 H2]. split; [exact H1|]. intros i q Hi Hq. apply (@within_mono _ j); auto. Qed.

Lemma near_kron : forall k k' a m a' m', near k a m -> near k' a' m' -> near (k + k' + 1) (b_kron a a') (dkron m m').
Proof.
  intros k k' a m a' m' [Ha Na] [Ha' Na']. destruct (cr_kron CR Ha Ha') as [Hs He].
  split; [exact Hs|]. unfold dkron. cbn [mkmat mr mc]. intros i j Hi Hj. rewrite mget_mkmat by assumption.
  assert (0 < mr m')%nat by nia. assert (0 < mc m')%nat by nia.
  rewrite Nat.add_comm. eapply within_trans; [exact Hu| |apply within_mul; [exact Hu | apply Na | apply Na']].
  - unfold within. rewrite err_1. apply He; assumption.
  - apply Nat.div_lt_upper_bound; lia.
  - apply Nat.div_lt_upper_bound; lia.
  - apply Nat.mod_upper_bound; lia.
  - apply Nat.mod_upper_bound; lia.
Qed.

Lemma gain_kron : forall (m m' : mat CS) c c', rgain (mr m) (mc m) (mget m) c -> rgain (mr m') (mc m') (mget m') c' ->
  rgain (mr (dkron m m')) (mc (dkron m m')) (mget (dkron m m')) (c * c').
Proof.
  intros m m' c c' H H'. eapply rgain_ext; [|exact (rgain_kron H H')].
  intros i j Hi Hj. cbv beta. unfold dkron. rewrite mget_mkmat by assumption. reflexivity.
Qed.

Lemma fold_kron : forall l cs, Forall2 opg l cs -> forall k a m c, near k a m -> rgain (mr m) (mc m) (mget m) c ->
  exists b M, fold_left (fun acc h => a <- acc ;; b <- unitary B h ;; Ok (b_kron a b)) l (Ok a) = Ok b /\
    fold_left (fun acc h => a <- acc ;; b <- unitary NC h ;; Ok (b_kron a b)) (map om l) (Ok m) = Ok M /\
    near (k + length l * (2 * e + 2)) b M /\ rgain (mr M) (mc M) (mget M) (c * rprod cs).
Proof.
  intros l cs H; induction H as [|o g l cs [a' [m' [Ea [Em [Hn Hg]]]]] HF IH]; intros k a m c Ha Hc.
  - exists a, m. split; [reflexivity|]. split; [reflexivity|]. split.
    + simpl. rewrite Nat.add_0_r. exact Ha.
    + simpl. rewrite Rmult_1_r. exact Hc.
  - cbn [fold_left map bind]. rewrite Ea, Em. cbn [bind].
    destruct (IH (k + (2 * e + 1) + 1)%nat (b_kron a a') (dkron m m') (c * g) (near_kron Ha Hn) (gain_kron Hc Hg))
      as [b [M [Eb [EM [Nb Gb]]]]].
    exists b, M. split; [exact Eb|]. split; [exact EM|]. split.
    + eapply near_mono; [|exact Nb]. simpl. lia.
    + rewrite rprod_cons, <- Rmult_assoc. exact Gb.
Qed.

(** ** One layer *)
Definition layg (l : list (op F)) (g : R) : Prop := exists cs, Forall2 opd l cs /\ rprod cs = g.

Lemma layer_near : forall l g, l <> [] -> layg l g ->
  exists b M, moment_exec B l = Ok b /\ moment_exec NC (map om l) = Ok M /\ near (length l * (2 * e + 2)) b M /\
    rgain (mr M) (mc M) (mget M) g.
Proof.
  intros l g Hl [cs [H <-]].
  assert (H' : Forall2 opg l cs) by (clear Hl; induction H; constructor; auto using opd_opg).
  destruct H' as [|o c l cs [a [m [Ea [Em [Hn Hg]]]]] HF]; [contradiction|]. cbn [moment_exec map]. rewrite Ea, Em. cbn [bind].
  destruct (fold_kron HF Hn Hg) as [b [M [Eb [EM [Nb Gb]]]]]. exists b, M. split; [exact Eb|]. split; [exact EM|]. split.
  - eapply near_mono; [|exact Nb]. simpl. lia.
  - exact Gb.
Qed.

(** ** The product of the layers *)
Variable dims : list nat.
Let N := prodn dims.
Let k0 := (length dims * (2 * e + 2))%nat.
Let Bf := 1 + sqrt (INR N) * err u (roundings e dims).

Definition lay (l : list (op F)) (g : R) (c : nat) : Prop :=
  exists b M, moment_exec B l = Ok b /\ moment_exec NC (map om l) = Ok M /\ near k0 b M /\ mr M = N /\ mc M = c /\
    rgain N c (mget M) g.

Definition st (j : nat) (G : R) (c : nat) (a : B) (P : NC) : Prop :=
  sized B ok a N c /\ mr P = N /\ mc P = c /\ 0 <= G /\
  fro N c (mdist (entry val B a) (mget P)) <= sqrt (INR N) * G * (Bf ^ j - 1) /\
  fro N c (mget P) <= sqrt (INR N) * G.

Lemma Bf_ge : 1 <= Bf.
Proof.
  unfold Bf. pose proof (sqrt_pos (INR N)). pose proof (@err_pos u (roundings e dims) Hu).
  assert (0 <= sqrt (INR N) * err u (roundings e dims)) by (apply Rmult_le_pos; assumption). lra.
Qed.

Lemma st_first : forall l g c, (0 < N)%nat -> lay l g c -> exists b M, moment_exec B l = Ok b /\ moment_exec NC (map om l) = Ok M /\ st 1 g c b M.
Proof.
  intros l g c HN [b [M [Eb [EM [[Hs Hn] [M1 [M2 Hg]]]]]]]. rewrite M1, M2 in *. exists b, M. split; [exact Eb|]. split; [exact EM|].
  assert (H1 : 1 <= sqrt (INR N)).
  { rewrite <- sqrt_1. apply sqrt_le_1_alt. change 1 with (INR 1). apply le_INR. lia. }
  assert (He : err u k0 <= err u (roundings e dims)) by (apply err_mono; [exact Hu|]; unfold k0, roundings; lia).
  pose proof (@err_pos u k0 Hu). pose proof (fro_gain Hg) as Hf. pose proof (proj1 Hg) as Hg0. pose proof (fro_pos N c (mget M)) as Hf0.
  split; [exact Hs|]. split; [exact M1|]. split; [exact M2|]. split; [exact Hg0|]. split; [|exact Hf].
  eapply Rle_trans; [apply (@fro_le N c (mdist (entry val B b) (mget M)) (fun i j => err u k0 * Cabs (mget M i j)))|].
  - intros i j Hi Hj. apply Hn; assumption.
  - rewrite (len2_scal (fun p => Cabs (mget M (fst p) (snd p)))) by assumption. fold (fro N c (mget M)).
    replace (Bf ^ 1 - 1) with (sqrt (INR N) * err u (roundings e dims)) by (unfold Bf; ring).
    assert (err u k0 * fro N c (mget M) <= err u (roundings e dims) * (sqrt (INR N) * g)) by (apply Rmult_le_compat; assumption).
    assert (0 <= sqrt (INR N) * g) by (apply Rmult_le_pos; lra).
    assert (err u (roundings e dims) * (sqrt (INR N) * g) * 1 <= err u (roundings e dims) * (sqrt (INR N) * g) * sqrt (INR N)).
    { apply Rmult_le_compat_l; [apply Rmult_le_pos; lra | exact H1]. }
    lra.
Qed.

Lemma st_next : forall j G a P l g c, st j G N a P -> lay l g c ->
  exists b M p (Q : NC), moment_exec B l = Ok b /\ moment_exec NC (map om l) = Ok M /\
    b_dot a b = Ok p /\ b_dot (b := NC) P M = Ok Q /\ st (j + 1) (G * g) c p Q.
Proof.
  intros j G a P l g c [Sa [P1 [P2 [G0 [Hd Hf]]]]] [b [M [Eb [EM [[Sb Nb] [M1 [M2 Hg]]]]]]]. rewrite M1, M2 in *.
  destruct (cr_dot CR Sa Sb) as [p [Ep [Sp Hp]]].
  exists b, M, p. cbn [b_dot NumpyBackend]. unfold ddot. rewrite P2, M1, Nat.eqb_refl, P1, M2.
  eexists. split; [exact Eb|]. split; [exact EM|]. split; [exact Ep|]. split; [reflexivity|].
  set (Q := mkmat _ _ _).
  assert (EQ : forall i q, (i < N)%nat -> (q < c)%nat -> mget Q i q = mm N (mget P) (mget M) i q).
  { intros i q Hi Hq. unfold Q. rewrite mget_mkmat by assumption. rewrite bsum_ctotal. reflexivity. }
  pose proof (proj1 Hg) as Hg0.
  split; [exact Sp|]. split; [reflexivity|]. split; [reflexivity|]. split; [apply Rmult_le_pos; assumption|]. split.
  - rewrite (@fro_ext N c _ (mdist (entry val B p) (mm N (mget P) (mget M)))).
    2:{ intros i q Hi Hq. unfold mdist. rewrite EQ by assumption. reflexivity. }
    eapply Rle_trans; [apply (@product_error u k0 N N c (entry val B p) (entry val B a) (entry val B b) (mget P) (mget M)
      (sqrt (INR N) * G * (Bf ^ j - 1)) (sqrt (INR N) * G) g); assumption|].
    replace (k0 + (N + 1))%nat with (roundings e dims) by (unfold roundings, k0, N; lia).
    rewrite pow_add, pow_1. unfold Bf at 4. apply Req_le. ring.
  - rewrite (@fro_ext N c _ (mm N (mget P) (mget M))) by exact EQ.
    eapply Rle_trans; [apply (fro_mm N (mget P) Hg)|].
    replace (sqrt (INR N) * (G * g)) with (g * (sqrt (INR N) * G)) by ring. apply Rmult_le_compat_l; assumption.
Qed.

Lemma st_fold : forall ls gs, Forall2 (fun l g => lay l g N) ls gs -> forall j G a P, st j G N a P ->
  exists p Q, fold_left (@lstep F B) ls (Ok (Some a)) = Ok (Some p) /\
    fold_left (@lstep CS NC) (map (map om) ls) (Ok (Some P)) = Ok (Some Q) /\ st (j + length ls) (G * rprod gs) N p Q.
Proof.
  intros ls gs H; induction H as [|l g ls gs Hl HF IH]; intros j G a P Hs.
  - exists a, P. split; [reflexivity|]. split; [reflexivity|]. simpl. rewrite Nat.add_0_r, Rmult_1_r. exact Hs.
  - destruct (st_next Hs Hl) as [b [M [p [Q [Eb [EM [Ep [EQ Hs']]]]]]]].
    cbn [map fold_left]. rewrite (@lstep_some F B a l b p Eb Ep), (@lstep_some CS NC P (map om l) M Q EM EQ).
    destruct (IH _ _ _ _ Hs') as [p' [Q' [E1 [E2 Hs2]]]]. exists p', Q'. split; [exact E1|]. split; [exact E2|].
    rewrite rprod_cons, <- Rmult_assoc. replace (j + length (l :: ls))%nat with (j + 1 + length ls)%nat by (simpl; lia). exact Hs2.
Qed.

Lemma Forall2_rev : forall A D (P : A -> D -> Prop) l l', Forall2 P l l' -> Forall2 P (rev l) (rev l').
Proof. intros A D P l l' H; induction H; simpl; [constructor|]. apply Forall2_app; auto. Qed.

Lemma rprod_rev : forall l, rprod (rev l) = rprod l.
Proof. induction l as [|x l IH]; simpl; [reflexivity|]. rewrite rprod_app, IH, !rprod_cons. unfold rprod at 2. simpl. ring. Qed.

Lemma st_all : forall l0 ls gs, (0 < N)%nat -> lay l0 1 1 -> Forall2 (fun l g => lay l g N) ls gs ->
  exists p Q, fold_left (@lstep F B) (rev (l0 :: ls)) (Ok None) = Ok (Some p) /\
    fold_left (@lstep CS NC) (map (map om) (rev (l0 :: ls))) (Ok None) = Ok (Some Q) /\ st (length ls + 1) (rprod gs) 1 p Q.
Proof.
  intros l0 ls gs HN H0 HF. apply Forall2_rev in HF. cbn [rev]. rewrite map_app, !fold_left_app.
  rewrite <- (rev_length ls), <- (rprod_rev gs).
  destruct HF as [|l g ls' gs' Hl HF].
  - destruct (st_first HN H0) as [b [M [Eb [EM Hs]]]]. exists b, M. cbn [map fold_left].
    rewrite (lstep_none _ _ Eb), (lstep_none _ _ EM). split; [reflexivity|]. split; [reflexivity|]. exact Hs.
  - destruct (st_first HN Hl) as [b [M [Eb [EM Hs]]]]. cbn [map fold_left].
    rewrite (lstep_none _ _ Eb), (lstep_none _ _ EM).
    destruct (st_fold HF Hs) as [p [Q [E1 [E2 Hs2]]]]. rewrite E1, E2.
    destruct (st_next Hs2 H0) as [b' [M' [p' [Q' [Eb' [EM' [Ep [EQ Hs3]]]]]]]].
    exists p', Q'. rewrite (@lstep_some F B p l0 b' p' Eb' Ep), (@lstep_some CS NC Q (map om l0) M' Q' EM' EQ).
    split; [reflexivity|]. split; [reflexivity|]. rewrite Rmult_1_r in Hs3. rewrite rprod_cons.
    replace (length (l :: ls') + 1)%nat with (1 + length ls' + 1)%nat by (simpl; lia). exact Hs3.
Qed.

End Run.
