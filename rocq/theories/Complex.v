(** * Complex: the complex numbers as scalars.

    Complex numbers are pairs of real numbers of the standard library; complex
    doubles are modelled without rounding.  The order in which np.roots returns
    the roots of unity is a parameter: [ord d] lists the exponents [k] of the
    roots exp(2 pi i k / d). *)
From Coq Require Import Reals Lra.
From Verif Require Import Py Scalar.
Set Implicit Arguments.

Definition C : Type := (R * R)%type.
Definition Cre (z : C) : R := fst z.
Definition Cim (z : C) : R := snd z.
Definition C0 : C := (0, 0)%R.
Definition C1 : C := (1, 0)%R.
Definition Cadd (x y : C) : C := (fst x + fst y, snd x + snd y)%R.
Definition Cmul (x y : C) : C := (fst x * fst y - snd x * snd y, fst x * snd y + snd x * fst y)%R.
Definition Copp (x : C) : C := (- fst x, - snd x)%R.
Definition Cconj (x : C) : C := (fst x, - snd x)%R.
Definition Cabs (x : C) : R := sqrt (fst x * fst x + snd x * snd x).
Definition Ceqb (x y : C) : bool :=
  if Req_EM_T (fst x) (fst y) then if Req_EM_T (snd x) (snd y) then true else false else false.

(** [np.isclose(a, b)] with its default tolerances:
    [abs(a - b) <= 1e-8 + 1e-5 * abs(b)]
    (used at src/qudiet/core/backend/NumpyBackend.py:58 and SparseBackend.py:54). *)
Definition Cclose (a b : C) : bool :=
  if Rle_dec (Cabs (Cadd a (Copp b))) (/ 100000000 + / 100000 * Cabs b)%R then true else false.

(** exp(i t), and the root exp(2 pi i k / d) of degree [d]. *)
Definition cis (t : R) : C := (cos t, sin t).
Definition root (d k : nat) : C := cis (2 * PI * INR k / INR d)%R.

(** [np.roots([1, 0, ..., 0, -1])] (h.py:72-75, z.py:70-73) in the order [ord],
    and [1 / math.sqrt(d)] (h.py:82). *)
Definition Cscalar (ord : nat -> list nat) : scalar := {|
  car := C; s0 := C0; s1 := C1; sadd := Cadd; smul := Cmul; sopp := Copp;
  sconj := Cconj; seqb := Ceqb; sclose := Cclose;
  sroots := fun d => map (root d) (ord d);
  sisqrt := fun d => ((/ sqrt (INR d))%R, 0%R) |}.
