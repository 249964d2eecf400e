(** * Scalar: the numbers that fill vectors and matrices.

    The code computes with IEEE doubles and complex doubles.  The model is
    parametric in an exact scalar structure instead (simplification: no
    rounding).  The two external numeric routines whose answer is not pinned
    down by mathematics are fields of the structure, i.e. oracles:

    - [sroots d] is the list returned by
      [np.roots([1, 0, ..., 0, -1])] of degree [d], in the order LAPACK
      returns it (h.py:72-75, z.py:70-73);
    - [sisqrt d] is [1 / math.sqrt(d)] (h.py:82);
    - [sclose a b] is [np.isclose(a, b)] (NumpyBackend.py:58,
      SparseBackend.py:54). *)
From Verif Require Import Py.
From Coq Require Export Ring_theory.
Set Implicit Arguments.

Record scalar : Type := {
  car :> Type;
  s0 : car;
  s1 : car;
  sadd : car -> car -> car;
  smul : car -> car -> car;
  sopp : car -> car;
  sconj : car -> car;
  seqb : car -> car -> bool;
  sclose : car -> car -> bool;
  sroots : nat -> list car;
  sisqrt : nat -> car }.

Arguments s0 {s}.
Arguments s1 {s}.
Arguments sadd {s}.
Arguments smul {s}.
Arguments sopp {s}.
Arguments sconj {s}.
Arguments seqb {s}.
Arguments sclose {s}.
Arguments sroots {s}.
Arguments sisqrt {s}.

(** What the theorems need of a scalar structure: a commutative ring with
    decidable equality and 1 <> 0, a conjugation fixing 0 and 1, a closeness
    test that accepts equal numbers and separates 0 from 1, and a root finder
    that returns [d] numbers for degree [d]. *)
Record scalar_laws (S : scalar) : Prop := {
  sl_ring : ring_theory (@s0 S) s1 sadd smul (fun x y => sadd x (sopp y)) sopp eq;
  sl_eqb : forall x y : S, seqb x y = true <-> x = y;
  sl_1_neq_0 : (@s1 S) <> s0;
  sl_conj0 : sconj (@s0 S) = s0;
  sl_conj1 : sconj (@s1 S) = s1;
  sl_close_refl : forall x : S, sclose x x = true;
  sl_close_10 : sclose (@s1 S) s0 = false;
  sl_roots_len : forall d : nat, length (@sroots S d) = d }.

(** Integer scalars, used to run the model on circuits without H and Z. *)
Definition Zscalar : scalar := {|
  car := Z; s0 := 0%Z; s1 := 1%Z; sadd := Z.add; smul := Z.mul; sopp := Z.opp;
  sconj := fun z => z; seqb := Z.eqb; sclose := Z.eqb;
  sroots := fun d => if Nat.eqb d 2 then [-1; 1]%Z else repeat 1%Z d;
  sisqrt := fun _ => 1%Z |}.

Lemma Zscalar_ring :
  ring_theory 0%Z 1%Z Z.add Z.mul (fun x y => Z.add x (Z.opp y)) Z.opp eq.
Proof. constructor; intros; ring. Qed.

Lemma Zscalar_laws : scalar_laws Zscalar.
Proof.
  constructor; simpl; try reflexivity; try discriminate.
  - exact Zscalar_ring.
  - exact Z.eqb_eq.
  - exact Z.eqb_refl.
  - intros d; destruct (Nat.eqb d 2) eqn:E.
    + apply Nat.eqb_eq in E; subst; reflexivity.
    + apply repeat_length.
Qed.
