(** * RoundArith: complex arithmetic with rounding. *)
From Coq Require Import Reals.
From Verif Require Import Py Scalar Complex.
Set Implicit Arguments.
Local Open Scope R_scope.

(** A way to round real numbers: off by at most [eps] relative to the exact
    number, and exact at 1. *)
Record rounding (rnd : R -> R) (eps : R) : Prop := {
  ro_pos : 0 <= eps;
  ro_small : eps <= / 10;
  ro_err : forall x, Rabs (rnd x - x) <= eps * Rabs x;
  ro_one : rnd 1 = 1 }.

(** numpy's complex numbers (the arrays of
    src/qudiet/core/backend/NumpyBackend.py:34-58) with [rnd] after every
    operation on real numbers: two additions for a sum; four products, one
    subtraction and one addition for a product.  The roots of
    src/qudiet/circuit_library/standard_gates/h.py:72-75 and z.py:70-73 are taken to be rounded
    once per component, and [1 / math.sqrt(d)] (h.py:82) rounds the square root
    and the quotient.  Simplifications: no overflow, no underflow, no NaN;
    [np.isclose] compares exactly. *)
Definition Rounded (rnd : R -> R) (ord : nat -> list nat) : scalar := {|
  car := C; s0 := C0; s1 := C1;
  sadd := fun x y => (rnd (fst x + fst y), rnd (snd x + snd y));
  smul := fun x y => (rnd (rnd (fst x * fst y) - rnd (snd x * snd y)),
                      rnd (rnd (fst x * snd y) + rnd (snd x * fst y)));
  sopp := Copp; sconj := Cconj; seqb := Ceqb; sclose := Cclose;
  sroots := fun d => map (fun k => (rnd (fst (root d k)), rnd (snd (root d k)))) (ord d);
  sisqrt := fun d => (rnd (/ rnd (sqrt (INR d))), 0) |}.

(** The exponent of a number: [x] is below 2 to this power, and not below half
    of it. *)
Definition exponent (x : R) : Z :=
  if Rle_dec 1 (Rabs x) then (Z.log2 (Int_part (Rabs x)) + 1)%Z else (- Z.log2 (Int_part (/ Rabs x)))%Z.

(** Keep [p] binary digits: the nearest number with that many, as IEEE 754
    does.  Simplifications: a number in the middle of two is rounded up, and
    exponents have no limits. *)
Definition nearest (p : nat) (x : R) : R :=
  let unit := powerRZ 2 (exponent x) / 2 ^ p in
  IZR (Int_part (x / unit + / 2)) * unit.
