(** * BackendAny: all backends that compute the operations give equal results. *)
From Coq Require Import List Arith ZArith Lia.
From Verif Require Import Py Scalar Mat Utils Gates Circuit Spec Lib BackendEq BackendSpec.
Import ListNotations.
Set Implicit Arguments.

Section BackendAny.
Variable S : scalar.
Variable B : backend S.
Variable ok : B -> Prop.
Hypothesis H : computes B ok.
Notation NB := (NumpyBackend S).

Definition alike (a : mat S) (b : B) : Prop := shows B ok b (mr a) (mc a) (mget a).

Lemma shows_ext : forall b r c f g, shows B ok b r c f -> (forall i j, i < r -> j < c -> f i j = g i j) -> shows B ok b r c g.
Proof. intros b r c f g [H1 [H2 [H3 H4]]] E. repeat split; auto. intros i j Hi Hj. rewrite H4 by assumption. apply E; assumption. Qed.

Lemma alike_unitary : forall o, same_res alike (unitary NB o) (unitary B o).
Proof.
  intros o. destruct o; cbn [unitary].
  - constructor. apply (cm_matrix H).
  - constructor. unfold alike. cbn. apply shows_ext with (1 := cm_eye H _ _). intros i j Hi Hj. unfold deye. rewrite mget_mkmat by assumption. reflexivity.
  - destruct (h_unitary S dims); constructor. apply (cm_matrix H).
  - destruct (x_unitary S dims plus); constructor. apply (cm_matrix H).
  - destruct (z_unitary S dims); constructor. apply (cm_matrix H).
  - destruct (cx_rows S qreg acting_on plus) as [m|e]; constructor. unfold alike. cbn.
    apply shows_ext with (1 := cm_trans H (cm_matrix H m)). intros i j Hi Hj. unfold dtrans. rewrite mget_mkmat by assumption. reflexivity.
  - destruct (arb_unitary (RList dims) u); constructor. apply (cm_matrix H).
  - destruct (arb_unitary dims u); constructor. apply (cm_matrix H).
  - constructor.
Qed.

Lemma alike_kron : forall a b a' b', alike a b -> alike a' b' -> alike (dkron a a') (b_kron b b').
Proof.
  intros a b a' b' Ha Hb. unfold alike. cbn. apply shows_ext with (1 := cm_kron H Ha Hb).
  intros i j Hi Hj. unfold dkron. rewrite mget_mkmat by assumption. reflexivity.
Qed.

Lemma alike_dot : forall a b a' b', alike a b -> alike a' b' -> same_res alike (ddot a a') (b_dot b b').
Proof.
  intros a b a' b' Ha Hb. unfold ddot. destruct (Nat.eqb (mc a) (mr a')) eqn:E.
  - apply Nat.eqb_eq in E. unfold alike in Hb. rewrite <- E in Hb. destruct (cm_dot H Ha Hb) as [p [Ep Hp]]. rewrite Ep. constructor.
    unfold alike. cbn. apply shows_ext with (1 := Hp). intros i j Hi Hj. rewrite mget_mkmat by assumption. reflexivity.
  - apply Nat.eqb_neq in E. rewrite (cm_mismatch H Ha Hb E). constructor.
Qed.

Lemma alike_moment : forall l, same_res alike (moment_exec NB l) (moment_exec B l).
Proof.
  intros [|g gs]; [constructor|]. cbn [moment_exec].
  destruct (alike_unitary g) as [a b Hab|e]; [|constructor]. cbn [bind].
  assert (G : forall (x : res (mat S)) (y : res B), same_res alike x y ->
    same_res alike
      (fold_left (fun (acc : res NB) h => a <- acc ;; b <- unitary NB h ;; Ok (b_kron (b := NB) a b)) gs x)
      (fold_left (fun (acc : res B) h => a <- acc ;; b <- unitary B h ;; Ok (b_kron (b := B) a b)) gs y)).
  { induction gs as [|h gs IH]; intros x y Hxy; cbn [fold_left]; [exact Hxy|].
    apply IH. destruct Hxy as [a1 b1 H1|e]; [|constructor]. cbn [bind].
    destruct (alike_unitary h) as [a2 b2 H2|e]; [|constructor]. cbn [bind]. constructor.
    apply alike_kron; assumption. }
  apply G. constructor. exact Hab.
Qed.

Inductive alike_opt : option (mat S) -> option B -> Prop :=
| ao_none : alike_opt None None
| ao_some : forall a b, alike a b -> alike_opt (Some a) (Some b).

Lemma alike_flow : forall f, same_res alike_opt (flow_exec NB f) (flow_exec B f).
Proof.
  intros f. unfold flow_exec. destruct (forallb _ _); [|constructor].
  destruct (rev (f_list f)) as [|m rest]; [constructor|].
  assert (G : forall x y, same_res alike_opt x y ->
    same_res alike_opt
     (fold_left (fun (acc : res (option NB)) m =>
             a <- acc ;; k <- moment_exec NB (m_list m) ;;
             match a with None => Ok (Some k) | Some d => p <- b_dot (b := NB) d k ;; Ok (Some p) end) rest x)
     (fold_left (fun (acc : res (option B)) m =>
             a <- acc ;; k <- moment_exec B (m_list m) ;;
             match a with None => Ok (Some k) | Some d => p <- b_dot (b := B) d k ;; Ok (Some p) end) rest y)).
  { induction rest as [|h rest IH]; intros x y Hxy; cbn [fold_left]; [exact Hxy|].
    apply IH. destruct Hxy as [a1 b1 H1|e]; [|constructor]. cbn [bind].
    destruct (alike_moment (m_list h)) as [a2 b2 H2|e]; [|constructor]. cbn [bind].
    destruct H1 as [|a1 b1 H1].
    - constructor. constructor. exact H2.
    - cbn [b_dot NumpyBackend]. destruct (alike_dot H1 H2) as [a3 b3 H3|e]; constructor. constructor. exact H3. }
  apply G. constructor. constructor.
Qed.

Theorem run_any_backend : forall c : circuit S, run B c = run NB c.
Proof.
  intros c. unfold run. destruct (alike_flow (c_flow c)) as [a b Hab|e]; [|reflexivity]. cbn [bind].
  destruct Hab as [|a b [H1 [H2 [H3 H4]]]]; [reflexivity|]. cbn [b_toarray NumpyBackend]. apply output_ext; auto.
  rewrite H2, H3. exact H4.
Qed.

Theorem simulate_any_backend : forall q init out ks, simulate B q init out ks = simulate NB q init out ks.
Proof.
  intros q init out ks. unfold simulate. destruct (mk_circuit S q init out) as [c|e]; [|reflexivity]. cbn [bind].
  destruct (script c (ks ++ [CMeasureAll])) as [c'|e]; [|reflexivity]. cbn [bind]. apply run_any_backend.
Qed.

End BackendAny.
