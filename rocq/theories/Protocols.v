(** * Protocols: gates on qubits of a line, one outcome at a time, and the
    states of three well-known circuits. *)
From Verif Require Import Py Scalar Mat Utils Gates Circuit Spec Lib Flow Layers Blocks Refine Run Reversible Parts PartsSpec Moved Local Product RenameSpec EmbedSpec Embed.
Set Implicit Arguments.

Section Protocols.
Variable S : scalar.
Variable L : scalar_laws S.
Add Ring Sring : (sl_ring L).
Notation gate := (gate S).
Notation "x +s y" := (sadd x y) (at level 50).
Notation "x *s y" := (smul x y) (at level 40).
Notation isq := (sisqrt 2 : S).
Hypothesis Hroots : sroots 2 = [sopp s1; s1] :> list S.
Hypothesis Hhalf : isq *s isq *s (s1 +s s1) = s1.

Definition qh (r : nat) (phi : state S) : state S := fun s =>
  isq *s (phi (put s r 0) +s (if Nat.eqb (level s r) 1 then sopp (phi (put s r 1)) else phi (put s r 1))).
Definition qx (r : nat) (phi : state S) : state S := fun s => phi (put s r (1 - level s r)).
Definition qz (r : nat) (phi : state S) : state S := fun s => if Nat.eqb (level s r) 1 then phi s else sopp (phi s).
Definition qcx (c t : nat) (phi : state S) : state S := fun s => phi (if Nat.eqb (level s c) 1 then put s t (1 - level s t) else s).
Definition qccx (c d t : nat) (phi : state S) : state S := fun s =>
  phi (if Nat.eqb (level s c) 1 && Nat.eqb (level s d) 1 then put s t (1 - level s t) else s).
Definition qu (r : nat) (u : nat -> nat -> S) (phi : state S) : state S := fun s =>
  u (level s r) 0 *s phi (put s r 0) +s u (level s r) 1 *s phi (put s r 1).

Variable n : nat.
Notation dims := (qubits n).

Lemma bit_level : forall s r, valid dims s -> r < n -> level s r < 2.
Proof. intros s r Hs Hr. rewrite <- (nth_qubits Hr). apply valid_level; [exact Hs | rewrite len_qubits; exact Hr]. Qed.
Lemma apply_local : forall r (u : nat -> nat -> S) (phi : state S) s, valid dims s -> r < n ->
  bsum (fun inp => local S r u s inp *s phi inp) (all_configs dims) = u (level s r) 0 *s phi (put s r 0) +s u (level s r) 1 *s phi (put s r 1).
Proof.
  intros r u phi s Hs Hr. rewrite (local_apply L) by (rewrite ?len_qubits; assumption). rewrite nth_qubits by exact Hr.
  unfold bsum. cbn [seq fold_right]. ring.
Qed.
Lemma apply_qh : forall r phi s, r < n -> valid dims s -> apply dims (GH r) phi s = qh r phi s.
Proof.
  intros r phi s Hr Hs. rewrite apply_kapply. unfold kapply. cbn [amp]. rewrite apply_local by assumption. rewrite nth_qubits by exact Hr.
  unfold qh, had. rewrite Hroots. pose proof (bit_level Hs Hr) as B.
  destruct (level s r) as [|[|x]]; [| |lia]; simpl; ring.
Qed.
Lemma apply_qz : forall r phi s, r < n -> valid dims s -> apply dims (GZ r) phi s = qz r phi s.
Proof.
  intros r phi s Hr Hs. rewrite apply_kapply. unfold kapply. cbn [amp]. rewrite apply_local by assumption. rewrite nth_qubits by exact Hr.
  unfold qz. rewrite Hroots. pose proof (bit_level Hs Hr) as B. pose proof (put_level s r) as E.
  destruct (level s r) as [|[|x]]; [| |lia]; cbn [Nat.eqb nth]; rewrite E; ring.
Qed.
Lemma apply_qu : forall r u phi s, r < n -> valid dims s -> apply dims (GU r u) phi s = qu r u phi s.
Proof. intros r u phi s Hr Hs. rewrite apply_kapply. unfold kapply. cbn [amp]. apply apply_local; assumption. Qed.
Lemma move_x_flip : forall r p s, r < n -> valid dims s -> p = 1%Z \/ p = (-1)%Z -> move_x dims r p s = put s r (1 - level s r).
Proof.
  intros r p s Hr Hs Hp. unfold move_x. rewrite nth_qubits by exact Hr. pose proof (bit_level Hs Hr) as B.
  destruct Hp as [-> | ->]; destruct (level s r) as [|[|x]]; try lia; reflexivity.
Qed.
Lemma top_bit : forall r s, r < n -> valid dims s -> top dims s r = Nat.eqb (level s r) 1.
Proof.
  intros r s Hr Hs. unfold top. rewrite nth_qubits by exact Hr. pose proof (bit_level Hs Hr) as B.
  destruct (level s r) as [|[|x]]; try lia; reflexivity.
Qed.
Lemma apply_qx : forall r phi s, r < n -> valid dims s -> apply dims (GX r 1) phi s = qx r phi s.
Proof.
  intros r phi s Hr Hs. rewrite (apply_reversible L); [|exact I| |exact Hs].
  - cbn [undo move]. rewrite move_x_flip by (simpl; auto). reflexivity.
  - simpl. rewrite nth_qubits by exact Hr. rewrite len_qubits. lia.
Qed.
Lemma apply_qcx : forall c t phi s, c < n -> t < n -> c <> t -> valid dims s -> apply dims (GCX c t 1) phi s = qcx c t phi s.
Proof.
  intros c t phi s Hc Ht Hn Hs. rewrite (apply_reversible L); [|exact Hn| |exact Hs].
  - cbn [undo move]. unfold move_cx, qcx. rewrite top_bit, move_x_flip by (simpl; auto). destruct (_ =? 1); reflexivity.
  - simpl. rewrite len_qubits. auto.
Qed.
Lemma apply_qccx : forall c d t phi s, c < n -> d < n -> t < n -> gate_ok (S := S) dims (GTof [c; d] t 1) -> valid dims s ->
  apply dims (GTof [c; d] t 1) phi s = qccx c d t phi s.
Proof.
  intros c d t phi s Hc Hd Ht Hg Hs. rewrite (apply_reversible L); [|exact I|exact Hg|exact Hs].
  cbn [undo move]. unfold move_tof, qccx. cbn [forallb]. rewrite !top_bit, move_x_flip by (simpl; auto). rewrite andb_true_r.
  destruct (_ && _); reflexivity.
Qed.

Lemma final_step : forall g (prog : list gate) phi phi' s, (forall t, valid dims t -> apply dims g phi t = phi' t) -> valid dims s ->
  final dims (g :: prog) phi s = final dims prog phi' s.
Proof. intros g prog phi phi' s H Hs. cbn [final]. apply final_ext; assumption. Qed.
End Protocols.

Section Three.
Variable S : scalar.
Variable L : scalar_laws S.
Add Ring Sring' : (sl_ring L).
Notation "x +s y" := (sadd x y) (at level 50).
Notation "x *s y" := (smul x y) (at level 40).
Notation isq := (sisqrt 2 : S).
Hypothesis Hroots : sroots 2 = [sopp s1; s1] :> list S.
Hypothesis Hhalf : isq *s isq *s (s1 +s s1) = s1.

Ltac next lem := etransitivity; [apply final_step; [intros; apply lem; solve [lia | assumption | discriminate] | assumption] |].

(** Register 0 is sent to register 2. *)
Definition teleporting : list (gate S) :=
  [GH 1; GCX 1 2 1; GCX 0 1 1; GH 0; GCX 1 2 1; GH 2; GCX 0 2 1; GH 2].
Lemma teleported : forall phi t, valid (qubits 3) t -> (forall x y z, y <> 0 \/ z <> 0 -> phi [x; y; z] = s0) ->
  final (qubits 3) teleporting phi t = isq *s isq *s phi [level t 2; 0; 0].
Proof.
  intros phi t Ht H0. unfold teleporting.
  next (@apply_qh S L Hroots). next (@apply_qcx S L). next (@apply_qcx S L). next (@apply_qh S L Hroots).
  next (@apply_qcx S L). next (@apply_qh S L Hroots). next (@apply_qcx S L). next (@apply_qh S L Hroots).
  cbn [final].
  assert (Z : forall x y z, phi [x; Datatypes.S y; z] = s0) by (intros; apply H0; left; discriminate).
  assert (Z' : forall x y z, phi [x; y; Datatypes.S z] = s0) by (intros; apply H0; right; discriminate).
  inversion Ht as [|x d t1 ds Hx H1]; subst. inversion H1 as [|y d1 t2 ds1 Hy H2]; subst. inversion H2 as [|z d2 t3 ds2 Hz H3]; subst. inversion H3; subst.
  assert (E4 : forall a : S, isq *s (isq *s (isq *s (isq *s a)) +s isq *s (isq *s (isq *s a))) = isq *s isq *s a).
  { intros a. transitivity (isq *s isq *s (isq *s isq *s (s1 +s s1)) *s a); [ring|]. rewrite Hhalf. ring. }
  destruct x as [|[|x]]; try lia; destruct y as [|[|y]]; try lia; destruct z as [|[|z]]; try lia;
    unfold qh, qcx; cbn [level nth put Nat.eqb Nat.sub]; rewrite ?Z, ?Z';
    match goal with |- _ = _ *s phi ?w => transitivity (isq *s (isq *s (isq *s (isq *s phi w)) +s isq *s (isq *s (isq *s phi w)))); [ring | apply E4] end.
Qed.

(** Two bits are sent with register 0. *)
Definition dense (m k : bool) : list (gate S) :=
  [GH 0; GCX 0 1 1] ++ (if k then [GX 0 1%Z] else []) ++ (if m then [GZ 0] else []) ++ [GCX 0 1 1; GH 0].
Lemma densely : forall m k phi t, valid (qubits 2) t -> (forall x y, x <> 0 \/ y <> 0 -> phi [x; y] = s0) ->
  final (qubits 2) (dense m k) phi t
  = if config_eqb t [Nat.b2n m; Nat.b2n k] then (if m then sopp (phi [0; 0]) else phi [0; 0]) else s0.
Proof.
  intros m k phi t Ht H0.
  assert (Z : forall x y, phi [Datatypes.S x; y] = s0) by (intros; apply H0; left; discriminate).
  assert (Z' : forall x y, phi [x; Datatypes.S y] = s0) by (intros; apply H0; right; discriminate).
  assert (E2 : forall a : S, isq *s (isq *s a +s isq *s a) = a).
  { intros a. transitivity (isq *s isq *s (s1 +s s1) *s a); [ring|]. rewrite Hhalf. ring. }
  destruct m, k; unfold dense; cbn [app]; next (@apply_qh S L Hroots); next (@apply_qcx S L);
    try next (@apply_qx S L); try next (@apply_qz S L Hroots); next (@apply_qcx S L); next (@apply_qh S L Hroots); cbn [final];
  (inversion Ht as [|x d t1 ds Hx H1]; subst; inversion H1 as [|y d1 t2 ds1 Hy H2]; subst; inversion H2; subst;
  destruct x as [|[|x]]; try lia; destruct y as [|[|y]]; try lia;
    unfold qh, qcx, qz, qx; cbn [level nth put Nat.eqb Nat.sub Nat.b2n]; rewrite ?Z, ?Z'; 
    match goal with |- context [config_eqb ?u ?w] => let b := eval vm_compute in (config_eqb u w) in change (config_eqb u w) with b end; cbv iota;
    first [ring | match goal with |- _ = ?r => transitivity (isq *s (isq *s r +s isq *s r)); [ring | apply E2] end]).
Qed.

(** One register is encoded in three, one of them suffers the error [u], and
    the register is restored. *)
Definition repeated (e : nat) (u : nat -> nat -> S) : list (gate S) :=
  [GCX 0 1 1; GCX 0 2 1; GU e u; GCX 0 1 1; GCX 0 2 1; GTof [1; 2] 0 1].
Definition syndrome (e : nat) : list nat := nth e [[1; 1]; [1; 0]; [0; 1]] [].
Lemma restored : forall e u p q phi t, e < 3 -> valid (qubits 3) t -> (forall x y z, y <> 0 \/ z <> 0 -> phi [x; y; z] = s0) ->
  u 0 0 = p -> u 1 1 = p -> u 0 1 = q -> u 1 0 = q ->
  final (qubits 3) (repeated e u) phi t
  = (if config_eqb [level t 1; level t 2] [0; 0] then p else if config_eqb [level t 1; level t 2] (syndrome e) then q else s0) *s phi [level t 0; 0; 0].
Proof.
  intros e u p q phi t He Ht H0 U1 U2 U3 U4. unfold repeated.
  assert (G : gate_ok (S := S) (qubits 3) (GTof [1; 2] 0 1)).
  { simpl. split; [intros c [<-|[<-|[]]]; lia|]. split; [lia|]. split; [intros [|[|[]]]; discriminate|].
    intros [lo [_ [_ H]]]. pose proof (H 0 ltac:(simpl; auto)). pose proof (H 1 ltac:(simpl; auto)). pose proof (H 2 ltac:(simpl; auto)). lia. }
  next (@apply_qcx S L). next (@apply_qcx S L). next (@apply_qu S L). next (@apply_qcx S L). next (@apply_qcx S L).
  etransitivity; [apply final_step; [intros; apply (@apply_qccx S L); solve [lia | assumption] | assumption] |].
  cbn [final].
  assert (Z : forall x y z, phi [x; Datatypes.S y; z] = s0) by (intros; apply H0; left; discriminate).
  assert (Z' : forall x y z, phi [x; y; Datatypes.S z] = s0) by (intros; apply H0; right; discriminate).
  inversion Ht as [|x d t1 ds Hx H1]; subst. inversion H1 as [|y d1 t2 ds1 Hy H2]; subst. inversion H2 as [|z d2 t3 ds2 Hz H3]; subst. inversion H3; subst.
  destruct e as [|[|[|e]]]; try lia;
  destruct x as [|[|x]]; try lia; destruct y as [|[|y]]; try lia; destruct z as [|[|z]]; try lia;
    unfold qu, qcx, qccx, syndrome; cbn [level nth put Nat.eqb Nat.sub andb]; rewrite ?Z, ?Z';
    repeat match goal with |- context [config_eqb ?v ?w] => let b := eval vm_compute in (config_eqb v w) in change (config_eqb v w) with b end; cbv iota;
    rewrite ?U2, ?U4; ring.
Qed.
End Three.
