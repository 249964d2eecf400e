(** * AcceptSpec: matrices whose rows are orthonormal up to numpy's default
    tolerances, in terms of real numbers. *)
From Coq Require Import Reals.
From Verif Require Import Py Scalar Mat Complex.
Set Implicit Arguments.

Fixpoint rsum (f : nat -> R) (l : list nat) : R :=
  match l with [] => 0%R | x :: l => (f x + rsum f l)%R end.

(** The inner product of two rows of [u], which has [c] columns: its real and
    its imaginary part. *)
Definition rows_re (c : nat) (u : nat -> nat -> C) (i j : nat) : R :=
  rsum (fun k => Cre (u i k) * Cre (u j k) + Cim (u i k) * Cim (u j k))%R (seq 0 c).
Definition rows_im (c : nat) (u : nat -> nat -> C) (i j : nat) : R :=
  rsum (fun k => Cim (u i k) * Cre (u j k) - Cre (u i k) * Cim (u j k))%R (seq 0 c).

(** The inner products of the [r] rows are those of an orthonormal family, up
    to 1e-8 absolutely and 1e-5 of the product itself. *)
Definition nearly_orthonormal (r c : nat) (u : nat -> nat -> C) : Prop :=
  forall i j, i < r -> j < r ->
  let re := rows_re c u i j in
  let im := rows_im c u i j in
  let one := if Nat.eqb i j then 1%R else 0%R in
  (sqrt ((one - re) ^ 2 + im ^ 2) <= 1 / 100000000 + 1 / 100000 * sqrt (re ^ 2 + im ^ 2))%R.
