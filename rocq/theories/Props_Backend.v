(** * Props_Backend: any backend that computes the matrix operations (C97). *)
From Coq Require Import List Arith ZArith Lia String.
From Verif Require Import Py Scalar Mat Utils Gates Circuit Spec Calls Lib BackendEq BackendSpec BackendAny Props_Run.
Import ListNotations.
Local Notation length := List.length.

(** ** C97 *)
Local Ltac nb := cbn [b_toarray b_eye b_matrix b_trans b_kron b_dot bm NumpyBackend SparseBackend] in *.

(** Whatever the circuit, valid or not, and without any law of arithmetic. *)
Theorem C97_results_do_not_depend_on_the_backend :
  forall S (B B' : backend S) ok ok', computes B ok -> computes B' ok' ->
  (forall c : circuit S, run B c = run B' c) /\
  (forall q init out ks, simulate B q init out ks = simulate B' q init out ks).
Proof.
  intros S B B' ok ok' H H'. split.
  - intros c. rewrite (run_any_backend H), (run_any_backend H'). reflexivity.
  - intros q init out ks. rewrite (simulate_any_backend H), (simulate_any_backend H'). reflexivity.
Qed.

Theorem C97_numpy_backend_computes : forall S, computes (NumpyBackend S) (fun _ => True).
Proof.
  intros S. constructor.
  - intros m. repeat split.
  - intros n m. repeat split. intros i j Hi Hj. nb. unfold deye. rewrite mget_mkmat by assumption. reflexivity.
  - intros a r c f [_ [H1 [H2 H3]]]. nb. repeat split; nb; auto. intros i j Hi Hj. unfold dtrans. rewrite mget_mkmat by lia. auto.
  - intros a b r c f r' c' g [_ [H1 [H2 H3]]] [_ [G1 [G2 G3]]]. nb. subst. repeat split.
    intros i j Hi Hj. nb. unfold dkron. rewrite mget_mkmat by assumption. rewrite H3, G3; auto;
      try (apply Nat.mod_upper_bound; nia); apply Nat.div_lt_upper_bound; nia.
  - intros a b r c f c' g [_ [H1 [H2 H3]]] [_ [G1 [G2 G3]]]. nb. subst. unfold ddot. rewrite (proj2 (Nat.eqb_eq _ _) (eq_sym G1)).
    eexists. split; [reflexivity|]. repeat split. nb. intros i j Hi Hj. rewrite mget_mkmat by assumption. apply bsum_ext.
    intros k Hk. apply in_seq in Hk. rewrite H3, G3 by lia. reflexivity.
  - intros a b r c f r' c' g [_ [H1 [H2 H3]]] [_ [G1 [G2 G3]]] Hne. nb. unfold ddot.
    rewrite (proj2 (Nat.eqb_neq _ _)) by congruence. reflexivity.
Qed.

(** Sparse matrices without entries outside their shape. *)
Definition in_shape {S} (a : coo S) : Prop := forall p q v, In (p, q, v) (ce a) -> p < cr a /\ q < cc a.

Theorem C97_sparse_backend_computes : forall S, scalar_laws S -> computes (SparseBackend S) (@in_shape S).
Proof.
  intros S L.
  assert (A : forall (m : mat S) (b : coo S) r c f, same m b -> mr m = r -> mc m = c ->
                (forall i j, i < r -> j < c -> mget m i j = f i j) -> shows (SparseBackend S) (@in_shape S) b r c f).
  { intros m b r c f [H1 H2 H3 H4] <- <- E. split; [exact H3|]. nb. split; [exact (eq_sym H1)|]. split; [exact (eq_sym H2)|].
    intros i j Hi Hj. unfold coo_toarray. rewrite mget_mkmat by congruence. rewrite <- E by assumption. rewrite H4 by congruence. reflexivity. }
  assert (A' : forall (b : coo S) r c f, shows (SparseBackend S) (@in_shape S) b r c f ->
                same (coo_toarray b) b /\ mr (coo_toarray b) = r /\ mc (coo_toarray b) = c /\
                forall i j, i < r -> j < c -> mget (coo_toarray b) i j = f i j).
  { intros b r c f [H1 [H2 [H3 H4]]]. nb. split; [|auto]. constructor; nb; auto.
    intros i j Hi Hj. unfold coo_toarray. rewrite mget_mkmat by assumption. reflexivity. }
  pose proof (C97_numpy_backend_computes S) as N.
  constructor.
  - intros m. apply (A m); auto. apply (same_matrix L).
  - intros n m. apply (A (deye S n m)); auto; [apply (same_eye L)|]. exact (proj2 (proj2 (proj2 (cm_eye N n m)))).
  - intros a r c f H. apply A' in H as [H1 [H2 [H3 H4]]]. apply (A (dtrans (coo_toarray a))); auto; [apply same_trans; exact H1|].
    refine (proj2 (proj2 (proj2 (cm_trans N _)))). repeat split; assumption.
  - intros a b r c f r' c' g Ha Hb. apply A' in Ha as [H1 [H2 [H3 H4]]]. apply A' in Hb as [G1 [G2 [G3 G4]]].
    apply (A (dkron (coo_toarray a) (coo_toarray b))).
    + apply (same_kron L); assumption.
    + rewrite <- H2, <- G2. reflexivity.
    + rewrite <- H3, <- G3. reflexivity.
    + refine (proj2 (proj2 (proj2 (cm_kron N (a := coo_toarray a) (b := coo_toarray b) (r := r) (c := c) (f := f) (r' := r') (c' := c') (g := g) _ _)))); repeat split; assumption.
  - intros a b r c f c' g Ha Hb. apply A' in Ha as [H1 [H2 [H3 H4]]]. apply A' in Hb as [G1 [G2 [G3 G4]]].
    destruct (cm_dot N (a := coo_toarray a) (b := coo_toarray b) (r := r) (c := c) (f := f) (c' := c') (g := g)) as [p [Ep [_ [P1 [P2 P3]]]]]; [repeat split; assumption.. |].
    pose proof (same_dot L H1 G1) as D. cbn in Ep. rewrite Ep in D. inversion D as [x y Hxy E1 E2|]; subst. nb. exists y. split; [congruence|].
    apply (A p); auto.
  - intros a b r c f r' c' g Ha Hb Hne. apply A' in Ha as [H1 [H2 [H3 H4]]]. apply A' in Hb as [G1 [G2 [G3 G4]]].
    pose proof (same_dot L H1 G1) as D.
    assert (E : ddot (coo_toarray a) (coo_toarray b) = Err ValueError).
    { apply (cm_mismatch N (a := coo_toarray a) (b := coo_toarray b) (r := r) (c := c) (f := f) (r' := r') (c' := c') (g := g));
        [repeat split; assumption..|exact Hne]. }
    rewrite E in D. nb. inversion D. reflexivity.
Qed.

(** Valid programs, on any such backend. *)
Corollary C97_valid_programs_on_any_backend :
  forall S (L : scalar_laws S) (B : backend S) ok dims levels out ty me ks prog,
  computes B ok -> line dims levels -> wants dims out ty me -> asks dims ks prog ->
  simulate B (QList (map Z.of_nat dims)) (Some (map Z.of_nat levels)) out ks
  = Ok (report ty me (answer dims (final dims prog (basis S (start dims levels))))).
Proof.
  intros S L B ok dims levels out ty me ks prog H Hl Hw Ha. rewrite (simulate_any_backend H).
  exact (C01_run_applies_gates_in_order S L (NumpyBackend S) dims levels out ty me ks prog (or_introl eq_refl) Hl Hw Ha).
Qed.

(** ** Another backend: dense matrices stored column by column *)
Definition ColumnBackend (S : scalar) : backend S :=
  {| bm := mat S; b_kron := @dkron S; b_dot := fun a b => ddot b a; b_eye := fun n m => deye S m n;
     b_matrix := @dtrans S; b_trans := @dtrans S; b_toarray := @dtrans S |}.

Local Ltac cb := cbn [b_toarray b_eye b_matrix b_trans b_kron b_dot bm ColumnBackend] in *.

Theorem C97_column_backend_computes : forall S, scalar_laws S -> computes (ColumnBackend S) (fun _ => True).
Proof.
  intros S L.
  assert (A : forall (b : mat S) r c f, shows (ColumnBackend S) (fun _ => True) b r c f <->
                mr b = c /\ mc b = r /\ forall i j, i < r -> j < c -> mget b j i = f i j).
  { intros b r c f. unfold shows. cb. split; intros H.
    - destruct H as [_ [<- [<- H]]]. repeat split; auto. intros i j Hi Hj. rewrite <- H by assumption. cb. unfold dtrans. rewrite mget_mkmat by assumption. reflexivity.
    - destruct H as [<- [<- H]]. repeat split; auto. intros i j Hi Hj. cb. unfold dtrans. rewrite mget_mkmat by assumption. apply H; assumption. }
  constructor.
  - intros m. apply A. cb. repeat split; auto. intros i j Hi Hj. cb. unfold dtrans. rewrite mget_mkmat by assumption. reflexivity.
  - intros n m. apply A. cb. repeat split; auto. intros i j Hi Hj. cb. unfold deye. rewrite mget_mkmat by assumption. rewrite Nat.eqb_sym. reflexivity.
  - intros a r c f H. apply A in H as [H1 [H2 H3]]. apply A. cb. repeat split; auto. intros i j Hi Hj. cb. unfold dtrans. rewrite mget_mkmat by lia. auto.
  - intros a b r c f r' c' g Ha Hb. apply A in Ha as [H1 [H2 H3]]. apply A in Hb as [G1 [G2 G3]]. apply A. cb.
    split; [rewrite <- H1, <- G1; reflexivity|]. split; [rewrite <- H2, <- G2; reflexivity|]. intros i j Hi Hj. cb. unfold dkron. rewrite mget_mkmat by congruence. rewrite G1, G2, H3, G3; auto;
      try (apply Nat.mod_upper_bound; nia); apply Nat.div_lt_upper_bound; nia.
  - intros a b r c f c' g Ha Hb. apply A in Ha as [H1 [H2 H3]]. apply A in Hb as [G1 [G2 G3]]. cb. unfold ddot.
    rewrite (proj2 (Nat.eqb_eq _ _)) by congruence. eexists. split; [reflexivity|]. apply A. cb. split; [exact G1|]. split; [exact H2|].
    intros i j Hi Hj. rewrite mget_mkmat by congruence. rewrite G2. apply bsum_ext. intros k Hk. apply in_seq in Hk. rewrite G3, H3 by lia.
    apply (ARmul_comm (Rth_ARth (Eqsth S) (Eq_ext _ _ _) (sl_ring L))).
  - intros a b r c f r' c' g Ha Hb Hne. apply A in Ha as [H1 [H2 H3]]. apply A in Hb as [G1 [G2 G3]]. cb. unfold ddot.
    rewrite (proj2 (Nat.eqb_neq _ _)) by congruence. reflexivity.
Qed.

Section Examples.
Open Scope Z_scope.
Let S := Zscalar.
(** The three backends on one circuit, and one that multiplies in the wrong order. *)
Definition SwappedBackend : backend S :=
  {| bm := mat S; b_kron := @dkron S; b_dot := fun a b => ddot b a; b_eye := deye S;
     b_matrix := fun a => a; b_trans := @dtrans S; b_toarray := fun a => a |}.
Example ex_C97 :
  let go B := simulate B (QList [2; 3]) (Some [1]) None ([CX 1 None 1; CCX [0; 1] 1] : list (call S)) in
  go (NumpyBackend S) = Ok [(LStr "|12>"%string, 1)] /\ go (SparseBackend S) = Ok [(LStr "|12>"%string, 1)] /\
  go (ColumnBackend S) = Ok [(LStr "|12>"%string, 1)] /\ go SwappedBackend = Err ValueError.
Proof. repeat split; vm_compute; reflexivity. Qed.
(** A circuit that raises does so on all of them. *)
Example ex_C97_error :
  let go B := simulate B (QList [2; 3]) (Some [1]) None ([CX 1 (Some 2) 1] : list (call S)) in
  go (NumpyBackend S) = Err ValueError /\ go (SparseBackend S) = Err ValueError /\ go (ColumnBackend S) = Err ValueError.
Proof. repeat split; vm_compute; reflexivity. Qed.
End Examples.

Print Assumptions C97_results_do_not_depend_on_the_backend.
Print Assumptions C97_numpy_backend_computes.
Print Assumptions C97_sparse_backend_computes.
Print Assumptions C97_valid_programs_on_any_backend.
Print Assumptions C97_column_backend_computes.
