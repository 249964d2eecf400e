(** * Props_Float: circuits of x, cx and Toffoli gates in rounded arithmetic (C90). *)
From Coq Require Import String ZArith Floats.SpecFloat.
From Verif Require Import Py Scalar BitSpec Mat Gates Circuit Spec Calls Doubles Bits BitRun Props_Run.
Local Notation length := List.length.
Open Scope list_scope.
Open Scope nat_scope.

(** ** C90 *)
Theorem C90_reversible_circuits_need_only_bits :
  forall S (BL : bit_laws S) (B : backend S) dims levels out ty me ks prog,
  supported B -> line dims levels -> wants dims out ty me -> asks dims ks prog ->
  forallb (@is_classical S) prog = true ->
  simulate B (QList (map Z.of_nat dims)) (Some (map Z.of_nat levels)) out ks
  = Ok [(shown ty (moves dims prog (start dims levels)), s1)].
Proof.
  intros S BL B dims levels out ty me ks prog [->| ->] [H1 [H2 [H3 H4]]] Hw [H5 H6] Hc.
  - exact (@fsimulate S BL _ _ (dense_follows BL) dims levels out ty me ks prog H1 H2 H3 H4 Hw H5 H6 Hc).
  - exact (@fsimulate S BL _ _ (sparse_follows BL) dims levels out ty me ks prog H1 H2 H3 H4 Hw H5 H6 Hc).
Qed.

(** In IEEE doubles: one outcome, and its amplitude (or probability) is the
    number 1.0 itself, [S754_finite false 2^52 (-52)]. *)
Theorem C90_reversible_circuits_are_exact_in_doubles :
  forall roots (B : backend (Binary64 roots)) dims levels out ty me ks prog,
  supported B -> line dims levels -> wants dims out ty me -> asks dims ks prog ->
  forallb (@is_classical (Binary64 roots)) prog = true ->
  simulate B (QList (map Z.of_nat dims)) (Some (map Z.of_nat levels)) out ks
  = Ok [(shown ty (moves dims prog (start dims levels)), S754_finite false 4503599627370496 (-52))].
Proof.
  intros roots B dims levels out ty me ks prog HB HL Hw HA Hc.
  exact (@C90_reversible_circuits_need_only_bits _ (binary64_bits roots) B dims levels out ty me ks prog HB HL Hw HA Hc).
Qed.

(** The same outcome as exact arithmetic gives (C05), whatever the exact scalars. *)
Theorem C90_doubles_agree_with_exact_arithmetic :
  forall roots S (L : scalar_laws S) (B : backend (Binary64 roots)) (B' : backend S) dims levels out ty me ks prog ks' prog',
  supported B -> supported B' -> line dims levels -> wants dims out ty me -> asks dims ks prog -> asks dims ks' prog' ->
  forallb (@is_classical (Binary64 roots)) prog = true -> forallb (@is_classical S) prog' = true ->
  (forall s, moves dims prog s = moves dims prog' s) ->
  exists label,
    simulate B (QList (map Z.of_nat dims)) (Some (map Z.of_nat levels)) out ks = Ok [(label, s1)] /\
    simulate B' (QList (map Z.of_nat dims)) (Some (map Z.of_nat levels)) out ks' = Ok [(label, s1)].
Proof.
  intros roots S L B B' dims levels out ty me ks prog ks' prog' HB HB' HL Hw HA HA' Hc Hc' E.
  exists (shown ty (moves dims prog (start dims levels))). split.
  - exact (@C90_reversible_circuits_need_only_bits _ (binary64_bits roots) B dims levels out ty me ks prog HB HL Hw HA Hc).
  - rewrite E. exact (@C90_reversible_circuits_need_only_bits _ (exact_bits S L) B' dims levels out ty me ks' prog' HB' HL Hw HA' Hc').
Qed.

Module CaseFloat.
Import ListNotations.
Open Scope Z_scope.

Definition D := Binary64 (fun d => repeat (of_nat_sf 53 1024 1) d).
Definition dims : list nat := [2; 3; 2]%nat.
Definition levels : list nat := [1; 1; 1]%nat.
Definition calls : list (call D) := [CX 1 None 1; CCX [1; 0] 1; CX 0 (Some 2) 1; CTof [0; 2] 1 5; CX 2 (Some 0) (-1)].
Definition prog : list (gate D) := [GX 1 1; GCX 1 0 1; GX 0 1; GTof [0; 2]%nat 1 5; GX 2 (-1)].

Example ex_C90 : line dims levels /\ asks dims calls prog /\ forallb (@is_classical D) prog = true /\
  moves dims prog (start dims levels) = [1; 1; 0]%nat.
Proof.
  split; [|split; [|split; vm_compute; reflexivity]].
  - split; [discriminate|]. split; [intros d [<-|[<-|[<-|[]]]]; lia|]. split; [simpl; lia|].
    repeat constructor; lia.
  - split.
    + unfold calls, prog.
      repeat constructor; first
        [ exact (@den_cx D dims 1 0 1)
        | exact (@den_tof D dims [0; 2]%nat 1 5)
        | exact (@den_x D dims 0 (Some 2) 1 (or_intror (or_intror eq_refl)))
        | exact (@den_x D dims 1 None 1 (or_introl eq_refl))
        | exact (@den_x D dims 2 (Some 0) (-1) (or_intror (or_introl eq_refl))) ].
    + unfold prog. repeat apply Forall_cons; try apply Forall_nil; simpl; try lia.
      split; [intros c [<-|[<-|[]]]; lia|]. split; [lia|]. split.
      * intros [H|[H|[]]]; discriminate.
      * intros [lo [_ [_ H]]]. assert (A := H 0%nat). assert (B := H 2%nat). simpl in *. lia.
Qed.

Example ex_C90_run :
  simulate (NumpyBackend D) (QList [2; 3; 2]) (Some [1; 1; 1]) None calls
  = Ok [(LStr "|110>"%string, S754_finite false 4503599627370496 (-52))].
Proof. vm_compute. reflexivity. Qed.

(** The doubles are not a ring: (-2^53 + 2^53) + 1 = 1, but -2^53 + (2^53 + 1) = 0. *)
Example ex_C90_rounded : ~ scalar_laws D /\
  let big := of_nat_sf 53 1024 9007199254740992 in
  sadd (s := D) (sadd (s := D) (SFopp big) big) s1 = s1 /\
  sadd (s := D) (SFopp big) (sadd (s := D) big s1) = s0.
Proof. split; [apply binary64_rounds | split; vm_compute; reflexivity]. Qed.

(** Beyond such circuits doubles do round: two h gates on a qubit leave the
    amplitude 0.9999999999999998.  gate() accepts what [np.allclose] accepts:
    an entry 10^-8 too large where 0 is due, but not 1.01 * 10^-8; on the diagonal
    numbers from 0.9999949951 to 1.000005005. *)
Definition D2 := Binary64 (fun d => match d with 2%nat => [of_nat_sf 53 1024 (-1); of_nat_sf 53 1024 1] | _ => [] end).
Definition accepts (a b : Z) : bool :=
  let q n : D2 := SFdiv 53 1024 (of_nat_sf 53 1024 n) (of_nat_sf 53 1024 10000000000) in
  match simulate (NumpyBackend D2) (QList [2; 2]) None None
    [CGate (Build_mat D2 2 2 [[s1 : D2; q b]; [s0 : D2; q a]]) (RInt 0) None] with Ok _ => true | Err _ => false end.
Example ex_C90_h : simulate (NumpyBackend D2) (QList [2; 2]) None None [CH 0 None; CH 0 None]
  = Ok [(LStr "|00>"%string, S754_finite false 9007199254740990 (-53))].
Proof. vm_compute. reflexivity. Qed.
Example ex_C90_tolerance :
  map (accepts 10000000000) [0; 99; 100; 101] = [true; true; true; false] /\
  map (fun a => accepts a 0) [9999949950; 9999949951; 10000050050; 10000050051] = [false; true; true; false].
Proof. split; vm_compute; reflexivity. Qed.

(** Singles have the laws of bits too. *)
Example ex_C90_singles : bit_laws (Binary32 (fun _ => [])).
Proof. apply binary32_bits. Qed.
End CaseFloat.

Print Assumptions C90_reversible_circuits_need_only_bits.
Print Assumptions C90_reversible_circuits_are_exact_in_doubles.
Print Assumptions C90_doubles_agree_with_exact_arithmetic.
