(** * Doubles: the scalars as IEEE 754 binary64 numbers, the arithmetic that
    numpy does on the arrays of these circuits.

    Every array of a circuit of x, cx and Toffoli gates is made by
    [np.zeros], [np.eye] or [np.identity] with no [dtype] (NumpyBackend.py:42,
    58, SparseBackend.py:42, 54, cx.py:128, 156, x.py:71, toffoli_utility.py:69,
    init_states.py:50), that is of
    binary64 numbers, and numpy adds and multiplies those with rounding to
    nearest, ties to even.  Here this is the arithmetic of
    [Coq.Floats.SpecFloat], which is written in Gallina: no axiom and no
    primitive float is used.

    - [conj] of a real array is the array itself.
    - [seqb] is numpy's [==]: the two zeros are equal, no NaN is.
    - [sclose a b] is [np.isclose(a, b)]: |a - b| <= atol + rtol * |b| with
      rtol = 1e-05 and atol = 1e-08, each computation rounded.  The quotients
      1 / 10^5 and 1 / 10^8, rounded, are the numbers the literals denote.
    - [sisqrt n] is [1 / np.sqrt(n)]; [sroots] is left open ([np.roots] works
      on complex numbers, only the z gate calls it). *)
From Coq Require Import ZArith Ring Floats.SpecFloat.
From Verif Require Import Py Scalar BitSpec.

Section Binary.
Variables prec emax : Z.

(** [n] as a binary number, rounded when it has more than [prec] bits. *)
Definition of_nat_sf (n : Z) : spec_float := binary_normalize prec emax n 0 false.

Definition sf_close (a b : spec_float) : bool :=
  SFleb (SFabs (SFsub prec emax a b))
        (SFadd prec emax (SFdiv prec emax (of_nat_sf 1) (of_nat_sf 100000000))
                         (SFmul prec emax (SFdiv prec emax (of_nat_sf 1) (of_nat_sf 100000)) (SFabs b))).

Definition Binary (roots : nat -> list spec_float) : scalar := {|
  car := spec_float; s0 := S754_zero false; s1 := of_nat_sf 1;
  sadd := SFadd prec emax; smul := SFmul prec emax; sopp := SFopp;
  sconj := fun x => x; seqb := SFeqb; sclose := sf_close;
  sroots := roots;
  sisqrt := fun n => SFdiv prec emax (of_nat_sf 1) (SFsqrt prec emax (of_nat_sf (Z.of_nat n))) |}.
End Binary.

(** binary64 ("double") and binary32 ("single"). *)
Definition Binary64 := Binary 53 1024.
Definition Binary32 := Binary 24 128.

Lemma binary64_bits : forall roots, bit_laws (Binary64 roots).
Proof. intros roots. constructor; vm_compute; reflexivity. Qed.

Lemma binary32_bits : forall roots, bit_laws (Binary32 roots).
Proof. intros roots. constructor; vm_compute; reflexivity. Qed.

(** The laws of a ring fail: (2^53 + 1) - 2^53 is 0. *)
Lemma binary64_rounds : forall roots, ~ scalar_laws (Binary64 roots).
Proof.
  intros roots L. pose proof (sl_ring L) as H.
  pose proof (Radd_assoc H (SFopp (of_nat_sf 53 1024 9007199254740992)) (of_nat_sf 53 1024 9007199254740992) (of_nat_sf 53 1024 1)) as E.
  vm_compute in E. discriminate.
Qed.

(** Exact arithmetic satisfies the laws of bits. *)
Section Exact.
Variable S : scalar.
Hypothesis L : scalar_laws S.
Add Ring exact_ring : (sl_ring L).

Lemma exact_bits : bit_laws S.
Proof.
  constructor; try ring.
  - apply (sl_conj0 L).
  - apply (sl_conj1 L).
  - apply (sl_eqb L). reflexivity.
  - apply (sl_eqb L). reflexivity.
  - destruct (seqb (@s0 S) s1) eqn:E; [|reflexivity]. apply (sl_eqb L) in E. destruct (sl_1_neq_0 L). symmetry. exact E.
  - destruct (seqb (@s1 S) s0) eqn:E; [|reflexivity]. apply (sl_eqb L) in E. destruct (sl_1_neq_0 L). exact E.
  - apply (sl_close_refl L).
  - apply (sl_close_refl L).
Qed.
End Exact.
