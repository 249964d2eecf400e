(** * PhaseThm: the repetition code with an h on every register before and
    after the error. *)
From Verif Require Import Py Scalar Mat Utils Gates Circuit Spec Lib Flow Layers Blocks Refine Run Reversible Parts PartsSpec Moved Local Product RenameSpec EmbedSpec Embed Protocols.
Set Implicit Arguments.

Section Phase.
Variable S : scalar.
Variable L : scalar_laws S.
Add Ring Sring : (sl_ring L).
Notation "x +s y" := (sadd x y) (at level 50).
Notation "x *s y" := (smul x y) (at level 40).
Notation isq := (sisqrt 2 : S).
Hypothesis Hroots : sroots 2 = [sopp s1; s1] :> list S.
Hypothesis Hhalf : isq *s isq *s (s1 +s s1) = s1.

Ltac next lem := etransitivity; [apply final_step; [intros; apply lem; solve [lia | assumption | discriminate] | assumption] |].

Definition turned (g : gate S) : list (gate S) := [GH 0; GH 1; GH 2; g; GH 0; GH 1; GH 2].
Definition phased (g : gate S) : list (gate S) := [GCX 0 1 1; GCX 0 2 1] ++ turned g ++ [GCX 0 1 1; GCX 0 2 1; GTof [1; 2] 0 1].

(** The matrix of h, then a diagonal one, then h. *)
Definition between (u : nat -> nat -> S) (i j : nat) : S :=
  isq *s isq *s (if Nat.eqb i j then u 0 0 +s u 1 1 else u 0 0 +s sopp (u 1 1)).

Lemma turning : forall e u g phi s, e < 3 -> valid (qubits 3) s -> u 0 1 = s0 -> u 1 0 = s0 ->
  (forall f t, valid (qubits 3) t -> apply (qubits 3) g f t = qu e u f t) ->
  final (qubits 3) (turned g) phi s = final (qubits 3) [GU e (between u)] phi s.
Proof.
  intros e u g phi s He Hs U1 U2 Hg. unfold turned.
  next (@apply_qh S L Hroots). next (@apply_qh S L Hroots). next (@apply_qh S L Hroots).
  etransitivity; [apply final_step; [intros; apply Hg; assumption | assumption] |].
  next (@apply_qh S L Hroots). next (@apply_qh S L Hroots). next (@apply_qh S L Hroots).
  symmetry. next (@apply_qu S L). symmetry. cbn [final].
  inversion Hs as [|x d t1 ds Hx H1]; subst. inversion H1 as [|y d1 t2 ds1 Hy H2]; subst. inversion H2 as [|z d2 t3 ds2 Hz H3]; subst. inversion H3; subst.
  assert (E : forall a : S, (isq *s isq *s (s1 +s s1)) *s (isq *s isq *s (s1 +s s1)) *s a = a) by (intros a; rewrite Hhalf; ring).
  destruct e as [|[|[|e]]]; try lia;
  destruct x as [|[|x]]; try lia; destruct y as [|[|y]]; try lia; destruct z as [|[|z]]; try lia;
    unfold qh, qu, between; cbn [level nth put Nat.eqb]; rewrite ?U1, ?U2;
    (match goal with |- _ = ?r => rewrite <- (E r) end); ring.
Qed.

Lemma phase_restored : forall e u g phi t, e < 3 -> valid (qubits 3) t -> u 0 1 = s0 -> u 1 0 = s0 ->
  (forall f s, valid (qubits 3) s -> apply (qubits 3) g f s = qu e u f s) ->
  (forall x y z, y <> 0 \/ z <> 0 -> phi [x; y; z] = s0) ->
  final (qubits 3) (phased g) phi t
  = (if config_eqb [level t 1; level t 2] [0; 0] then between u 0 0 else if config_eqb [level t 1; level t 2] (syndrome e) then between u 0 1 else s0) *s phi [level t 0; 0; 0].
Proof.
  intros e u g phi t He Ht U1 U2 Hg H0.
  rewrite <- (@restored S L e (between u) (between u 0 0) (between u 0 1) phi t) by first [assumption | reflexivity].
  unfold phased, repeated.
  match goal with |- _ = final _ ?p _ _ => change p with ([GCX (S := S) 0 1 1; GCX 0 2 1] ++ [GU e (between u)] ++ [GCX 0 1 1; GCX 0 2 1; GTof [1; 2] 0 1]) end.
  rewrite !final_app. apply final_ext; [|exact Ht]. intros s Hs. apply turning; assumption.
Qed.
End Phase.
