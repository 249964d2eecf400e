(** * Props_Cost: how many multiplications run() makes (C101). *)
From Coq Require Import List Arith ZArith Lia String.
From Verif Require Import Py Scalar Mat Utils Gates Circuit Spec Calls HistSpec DepthSpec Lib BackendSpec Csr CsrLib CsrThm
  Cost CostSpec CostThm CostRun CostBits Props_Run Props_Backend.
Import ListNotations.
Local Notation length := List.length.

(** ** C101 *)
(** Counting changes no result, and there is a count exactly when there is a
    product; without one [run] raises what the count does. *)
Theorem C101_counting_changes_nothing : forall S (B : backend S) (w : meter B) (c : circuit S),
  run (counted w) c = run B c /\
  ((exists x, run_cost w c = Ok x) <-> (exists m, flow_exec B (c_flow c) = Ok (Some m))) /\
  (forall e, run_cost w c = Err e -> run B c = Err e).
Proof. intros S B w c. split; [apply run_counted | split; [apply cost_iff | apply cost_err]]. Qed.

(** With numpy matrices: all layers but one are multiplied as matrices. *)
Theorem C101_cost_of_a_run : forall S, scalar_laws S -> forall dims levels out ks prog (c : circuit S),
  line dims levels -> asks dims ks prog ->
  history (QList (map Z.of_nat dims)) (Some (map Z.of_nat levels)) out (ks ++ [CMeasureAll]) c ->
  let N := fold_right Nat.mul 1 dims in let D := layering (fun _ => true) prog in
  exists k, run_cost (dense_meter S) c = Ok (k, layer_by_layer N D) /\ 3 * k <= 4 * (D * (N * N)) + 6 * N.
Proof.
  intros S L dims levels out ks prog c [H1 [H2 [H3 H4]]] [HF Hok] Hh N D.
  destruct (program_cost L (C97_numpy_backend_computes S) (dense_meter S) eq eq_refl (fun a b a' b' E E' => f_equal2 Nat.add E E')
    (@dense_kron S) (@dense_dot S) levels H1 H2 H3 H4 HF Hok Hh) as [k [d [k' [d' [E [Hk [Hd _]]]]]]].
  exists k. rewrite Hd in E. split; [exact E | exact Hk].
Qed.

(** Applying the layers to the state instead gives the same result, and costs
    less by a factor of up to half the number of basis states. *)
Theorem C101_state_first_costs_less : forall S, scalar_laws S -> forall dims levels out ks prog (c : circuit S),
  line dims levels -> asks dims ks prog ->
  history (QList (map Z.of_nat dims)) (Some (map Z.of_nat levels)) out (ks ++ [CMeasureAll]) c ->
  let N := fold_right Nat.mul 1 dims in let D := layering (fun _ => true) prog in
  forward (NumpyBackend S) c = run (NumpyBackend S) c /\
  (exists k, forward_cost (dense_meter S) c = Ok (k, state_first N D) /\ 3 * k <= 4 * (D * (N * N)) + 6 * N) /\
  (2 <= D -> N * state_first N D <= 2 * layer_by_layer N D).
Proof.
  intros S L dims levels out ks prog c [H1 [H2 [H3 H4]]] [HF Hok] Hh N D. split; [|split].
  - exact (forward_same L levels H1 H2 H3 H4 HF Hok Hh).
  - destruct (program_cost L (C97_numpy_backend_computes S) (dense_meter S) eq eq_refl (fun a b a' b' E E' => f_equal2 Nat.add E E')
      (@dense_kron S) (@dense_dot S) levels H1 H2 H3 H4 HF Hok Hh) as [k [d [k' [d' [_ [_ [_ [E [Hk Hd]]]]]]]]].
    exists k'. rewrite Hd in E. split; [exact E | exact Hk].
  - intros HD. unfold state_first, layer_by_layer. destruct D as [|[|n]]; [lia | lia|].
    assert (0 <= N * N * N) by lia. nia.
Qed.

(** With sparse matrices: never more than that. *)
Theorem C101_sparse_costs_no_more : forall S, scalar_laws S -> forall dims levels out ks prog (c : circuit S),
  line dims levels -> asks dims ks prog ->
  history (QList (map Z.of_nat dims)) (Some (map Z.of_nat levels)) out (ks ++ [CMeasureAll]) c ->
  let N := fold_right Nat.mul 1 dims in let D := layering (fun _ => true) prog in
  exists k d, run_cost (csr_meter S) c = Ok (k, d) /\ 3 * k <= 4 * (D * (N * N)) + 6 * N /\ d <= layer_by_layer N D.
Proof.
  intros S L dims levels out ks prog c [H1 [H2 [H3 H4]]] [HF Hok] Hh N D.
  destruct (program_cost L (csr_computes L) (csr_meter S) le (le_n 0) (fun a b a' b' E E' => Nat.add_le_mono a b a' b' E E')
    (@csr_kron_le S) (@csr_dot_le S) levels H1 H2 H3 H4 HF Hok Hh) as [k [d [k' [d' [E [Hk [Hd _]]]]]]].
  exists k, d. auto.
Qed.

(** Reversible programs: one multiplication per basis state and layer. *)
Theorem C101_sparse_reversible_programs : forall S, scalar_laws S -> forall dims levels out ks prog (c : circuit S),
  line dims levels -> asks dims ks prog -> forallb (@is_classical S) prog = true ->
  history (QList (map Z.of_nat dims)) (Some (map Z.of_nat levels)) out (ks ++ [CMeasureAll]) c ->
  let N := fold_right Nat.mul 1 dims in let D := layering (fun _ => true) prog in
  exists k, run_cost (csr_meter S) c = Ok (k, match D with 0 => 0 | S n => n * N + 1 end) /\ k <= 2 * (D * N) + length dims.
Proof.
  intros S L dims levels out ks prog c [H1 [H2 [H3 H4]]] [HF Hok] Hc Hh N D.
  exact (bits_cost L levels H1 H2 H3 H4 HF Hok Hc Hh).
Qed.

Module CaseCost.
Open Scope Z_scope.
Definition cost (w : forall S, { B : backend S & meter B }) (ks : list (call Zscalar)) : res (nat * nat) :=
  c <- mk_circuit Zscalar (QList [2; 2; 2]) None None ;; c' <- script c (ks ++ [CMeasureAll]) ;;
  run_cost (projT2 (w Zscalar)) c'.
Definition dense S : { B : backend S & meter B } := existT _ _ (dense_meter S).
Definition sparse S : { B : backend S & meter B } := existT _ _ (csr_meter S).
Definition flips : list (call Zscalar) := [CX 0 None 1; CX 1 None 1; CCX [0; 1] 1; CX 2 None 1; CX 2 None 1].
Definition spread : list (call Zscalar) := [CH 0 None; CH 1 None; CH 2 None; CH 0 None; CH 1 None; CH 2 None].

(** Three qubits, so 8 basis states: five calls in three layers. *)
Example ex_C101_flips : cost dense flips = Ok (236, 2 * 512 + 64)%nat /\ cost sparse flips = Ok (34, 2 * 8 + 1)%nat.
Proof. split; vm_compute; reflexivity. Qed.

(** Two layers of h gates: sparse matrices save nothing on the layers. *)
Example ex_C101_spread : cost dense spread = Ok (172, 512 + 64)%nat /\ cost sparse spread = Ok (162, 512 + 8)%nat.
Proof. split; vm_compute; reflexivity. Qed.
End CaseCost.

Print Assumptions C101_counting_changes_nothing.
Print Assumptions C101_cost_of_a_run.
Print Assumptions C101_state_first_costs_less.
Print Assumptions C101_sparse_costs_no_more.
Print Assumptions C101_sparse_reversible_programs.
