(** * Props_Csr: sparse matrices that add up inside [dot] (C100). *)
From Coq Require Import List Arith ZArith Lia String Reals Floats.SpecFloat.
From Verif Require Import Py Scalar Mat Utils Gates Circuit Spec Calls Complex ComplexSpec BitSpec Doubles RoundSpec Lib BackendSpec
  BackendAny Csr CsrLib CsrThm Bits BitRun RoundThm Props_Run Props_Backend Props_Float Props_Round.
Import ListNotations.
Local Notation length := List.length.

(** ** C100 *)
(** With exact numbers: whatever the circuit, valid or not. *)
Theorem C100_same_results_as_the_other_backends : forall S, scalar_laws S ->
  computes (CsrBackend S) (@csr_ok S) /\
  (forall c : circuit S, run (CsrBackend S) c = run (SparseBackend S) c /\ run (CsrBackend S) c = run (NumpyBackend S) c) /\
  (forall q init out ks, simulate (CsrBackend S) q init out ks = simulate (SparseBackend S) q init out ks /\
                         simulate (CsrBackend S) q init out ks = simulate (NumpyBackend S) q init out ks).
Proof.
  intros S L. pose proof (csr_computes L) as H. pose proof (C97_sparse_backend_computes S L) as H1. pose proof (C97_numpy_backend_computes S) as H2.
  split; [exact H|]. destruct (C97_results_do_not_depend_on_the_backend S _ _ _ _ H H1) as [A1 B1].
  destruct (C97_results_do_not_depend_on_the_backend S _ _ _ _ H H2) as [A2 B2]. auto.
Qed.

(** With rounded numbers: the bound of C99. *)
Theorem C100_rounding_errors_stay_small : forall (F : scalar) (val : F -> C) ord u e
    (meant : mat F -> mat (Cscalar ord)) dims levels out ty me ks prog cs,
  orders ord -> rounded F val ord u e ->
  dims <> [] -> (forall d, In d dims -> 2 <= d)%nat ->
  (length levels <= length dims)%nat -> valid dims (start dims levels) -> wants dims out ty me ->
  Forall2 (fun k g => denotes dims (as_meant meant k) g) ks prog ->
  Forall (gate_ok dims) prog -> Forall2 (gain (ord := ord) dims) prog cs ->
  (forall M q d, In (CGate M q d) ks -> stands_for val u e M (meant M)) ->
  exists psi : config -> F,
    simulate (CsrBackend F) (QList (map Z.of_nat dims)) (Some (map Z.of_nat levels)) out ks = Ok (report ty me (answer dims psi)) /\
    (distance dims (fun s => val (psi s)) (final dims prog (basis (Cscalar ord) (start dims levels)))
      <= bound u e dims (length ks) cs)%R.
Proof.
  intros F val ord u e meant dims levels out ty me ks prog cs Ho RD Hne Hd Hl Hv Hw HD Hok HG HM.
  exact (C99_rounding_errors_stay_small meant levels Ho RD (csr_rounded RD) Hne Hd Hl Hv Hw HD Hok HG HM).
Qed.

(** Circuits of x, cx and Toffoli gates: exact in doubles. *)
Theorem C100_reversible_circuits_are_exact_in_doubles :
  forall roots dims levels out ty me ks prog,
  line dims levels -> wants dims out ty me -> asks dims ks prog ->
  forallb (@is_classical (Binary64 roots)) prog = true ->
  simulate (CsrBackend (Binary64 roots)) (QList (map Z.of_nat dims)) (Some (map Z.of_nat levels)) out ks
  = Ok [(shown ty (moves dims prog (start dims levels)), S754_finite false 4503599627370496 (-52))].
Proof.
  intros roots dims levels out ty me ks prog [H1 [H2 [H3 H4]]] Hw [H5 H6] Hc. pose proof (binary64_bits roots) as BL.
  exact (@fsimulate _ BL _ _ (csr_follows BL) dims levels out ty me ks prog H1 H2 H3 H4 Hw H5 H6 Hc).
Qed.

Module CaseCsr.
Open Scope Z_scope.
Definition D := Binary64 (fun d => repeat (of_nat_sf 53 1024 1) d).
Definition big : D := of_nat_sf 53 1024 9007199254740992.
Definition row : mat D := {| mr := 1; mc := 3; md := [[big; s1; (SFopp big : D)]] |}.
Definition ones : mat D := {| mr := 3; mc := 1; md := [[s1]; [s1]; [s1]] |}.

(** In rounded arithmetic the two formats differ, here in 2^53 + 1 - 2^53. *)
Example ex_C100_order :
  (p <- csr_dot (csr_of_mat row) (csr_of_mat ones) ;; Ok (md (csr_toarray p))) = Ok [[s0]] /\
  (p <- coo_dot (coo_of_mat row) (coo_of_mat ones) ;; Ok (md (coo_toarray p))) = Ok [[s1]].
Proof. split; vm_compute; reflexivity. Qed.

(** On integers: products of one cell are added up and stored once. *)
Definition left_m : mat Zscalar := {| mr := 1; mc := 3; md := ([[2; 0; 3]] : list (list Zscalar)) |}.
Definition right_m : mat Zscalar := {| mr := 3; mc := 2; md := ([[1; 5]; [7; 7]; [0; 1]] : list (list Zscalar)) |}.
Example ex_C100_dot : csr_dot (csr_of_mat left_m) (csr_of_mat right_m) = Ok {| rr := 1; rc := 2; rl := ([[(0%nat, 2); (1%nat, 13)]] : list (srow Zscalar)) |}.
Proof. reflexivity. Qed.

Example ex_C100_run :
  let go B := simulate B (QList [2; 3]) (Some [1]) None ([CX 1 None 1; CCX [0; 1] 1] : list (call Zscalar)) in
  go (CsrBackend Zscalar) = Ok [(LStr "|12>"%string, 1)] /\ go (SparseBackend Zscalar) = Ok [(LStr "|12>"%string, 1)].
Proof. split; vm_compute; reflexivity. Qed.

Example ex_C100_doubles :
  simulate (CsrBackend Props_Float.CaseFloat.D) (QList [2; 3; 2]) (Some [1; 1; 1]) None Props_Float.CaseFloat.calls
  = Ok [(LStr "|110>"%string, S754_finite false 4503599627370496 (-52))].
Proof. vm_compute. reflexivity. Qed.
End CaseCsr.

Print Assumptions C100_same_results_as_the_other_backends.
Print Assumptions C100_rounding_errors_stay_small.
Print Assumptions C100_reversible_circuits_are_exact_in_doubles.
